(** chrono's parser (ChronoModel) on the texts of DateTextSpec. *)
From Verif Require Import CalendarProofs.
From Verif Require Export DateTextSpec.
Local Open Scope Z_scope.

(** ** Characters *)
Definition fig (n : Z) : N := (48 + Z.to_N n)%N.
Definition two_c (n : Z) : text := [fig (n / 10); fig (n mod 10)].
Definition four_c (n : Z) : text := two_c (n / 100) ++ two_c (n mod 100).
Definition three_c (n : Z) : text := fig (n / 100) :: two_c (n mod 100).

Lemma chars_ascii c t : (of_byte c < 128)%N -> chars (c :: t) = of_byte c :: chars t.
Proof. intros H. cbn [chars]. destruct (N.ltb_spec (of_byte c) 128); [reflexivity|lia]. Qed.
Lemma chars_app s t : Forall (fun c => (of_byte c < 128)%N) s -> chars (s ++ t) = chars s ++ chars t.
Proof.
  induction 1 as [|c s Hc _ IH]; [reflexivity|]. rewrite <- app_comm_cons, !chars_ascii by exact Hc. rewrite IH. reflexivity.
Qed.
Lemma fig_byte n : 0 <= n < 10 -> of_byte (figure n) = fig n.
Proof. intros H. unfold figure, fig, of_byte, byte_of. apply N_ascii_embedding. lia. Qed.
Lemma chars_fig n t : 0 <= n < 10 -> chars (figure n :: t) = fig n :: chars t.
Proof. intros H. rewrite chars_ascii; rewrite fig_byte by exact H; [reflexivity|unfold fig; lia]. Qed.
Lemma chars_two n t : 0 <= n < 100 -> chars (two n ++ t) = two_c n ++ chars t.
Proof. intros H. unfold two, two_c. cbn [app]. rewrite !chars_fig by lia. reflexivity. Qed.
Lemma chars_three n t : 0 <= n < 1000 -> chars (three n ++ t) = three_c n ++ chars t.
Proof. intros H. unfold three, three_c. cbn [app]. rewrite chars_fig, chars_two by lia. reflexivity. Qed.
Lemma chars_four n t : 0 <= n <= 9999 -> chars (four n ++ t) = four_c n ++ chars t.
Proof. intros H. unfold four, four_c. rewrite <- !app_assoc, !chars_two by lia. reflexivity. Qed.
Lemma chars_figures ds t : Forall (fun d => 0 <= d < 10) ds -> chars (figures ds ++ t) = map fig ds ++ chars t.
Proof.
  induction 1 as [|d ds Hd _ IH]; [reflexivity|]. cbn [figures map app]. rewrite chars_fig by exact Hd. unfold figures in IH. rewrite IH. reflexivity.
Qed.

Lemma fig_digit n : 0 <= n < 10 -> is_digit (fig n) = true.
Proof. unfold is_digit, fig. lia. Qed.
Lemma fig_val n : 0 <= n < 10 -> Z.of_N (fig n - 48) = n.
Proof. unfold fig. lia. Qed.
Lemma fig_is n c : 0 <= n < 10 -> is_digit c = false -> (fig n =? c)%N = false.
Proof. intros H D. apply N.eqb_neq. intros <-. rewrite fig_digit in D by exact H. discriminate. Qed.
Lemma fig_white n : 0 <= n < 10 -> is_whitespace (fig n) = false.
Proof.
  intros H. assert (G : n = 0 \/ n = 1 \/ n = 2 \/ n = 3 \/ n = 4 \/ n = 5 \/ n = 6 \/ n = 7 \/ n = 8 \/ n = 9) by lia.
  repeat (destruct G as [->|G]; [reflexivity|]). subst n. reflexivity.
Qed.

(** ** scan::number *)
Lemma take_fig max acc n t : 0 <= n < 10 ->
  take_digits (S max) acc (fig n :: t) = let '(v, k, r) := take_digits max (acc * 10 + n) t in (v, S k, r).
Proof. intros H. cbn [take_digits]. rewrite fig_digit, fig_val by exact H. reflexivity. Qed.
Lemma number_two min n t : (min <= 2)%nat -> 0 <= n < 100 -> number min 2 (two_c n ++ t) = Some (n, t).
Proof.
  intros Hm H. unfold number, two_c. cbn [app]. rewrite !take_fig by lia. cbn [take_digits].
  destruct (Nat.ltb_spec 2 min); [lia|]. repeat f_equal. lia.
Qed.
Lemma number_three n t : 0 <= n < 1000 -> number 3 3 (three_c n ++ t) = Some (n, t).
Proof.
  intros H. unfold number, three_c, two_c. cbn [app]. rewrite !take_fig by lia. cbn [take_digits Nat.ltb Nat.leb].
  repeat f_equal. lia.
Qed.
Lemma number_four min n t : (min <= 4)%nat -> 0 <= n <= 9999 -> number min 4 (four_c n ++ t) = Some (n, t).
Proof.
  intros Hm H. unfold number, four_c, two_c. cbn [app]. rewrite !take_fig by lia. cbn [take_digits].
  destruct (Nat.ltb_spec 4 min); [lia|]. repeat f_equal. lia.
Qed.
(** no digit in front *)
Definition no_digit (s : text) : Prop := match s with [] => True | c :: _ => is_digit c = false end.
Lemma number_none min max s : (1 <= min)%nat -> no_digit s -> number min max s = None.
Proof.
  intros Hm H. unfold number. destruct max as [|max], s as [|c t]; cbn [take_digits]; cbn in H; try rewrite H; destruct min; try lia; reflexivity.
Qed.
(** one digit, then none *)
Lemma number_one n t : 0 <= n < 10 -> no_digit t -> number 1 2 (fig n :: t) = Some (n, t).
Proof.
  intros H D. unfold number. rewrite take_fig by exact H. destruct t as [|c t]; cbn [take_digits]; cbn in D; try rewrite D; reflexivity.
Qed.

(** ** Fractions *)
Lemma take_figs ds : Forall (fun d => 0 <= d < 10) ds -> forall max acc t, no_digit t \/ (max <= length ds)%nat ->
  let '(v, k, r) := take_digits max acc (map fig ds ++ t) in
  k = Nat.min max (length ds) /\ r = map fig (skipn max ds) ++ t /\
  v * 10 ^ Z.of_nat (max - k) = acc * 10 ^ Z.of_nat max + nanos_from (10 ^ (Z.of_nat max) / 10) ds.
Proof.
  induction 1 as [|d ds Hd _ IH]; intros max acc t Ht.
  - destruct max as [|max]; [cbn; repeat split; lia|].
    destruct t as [|c t].
    + cbn [map app take_digits length skipn nanos_from]. repeat split. rewrite Nat.sub_0_r. lia.
    + destruct Ht as [Ht|Ht]; [|cbn in Ht; lia]. cbn in Ht. cbn [map app take_digits]. rewrite Ht. cbn [length skipn nanos_from]. repeat split. rewrite Nat.sub_0_r. lia.
  - destruct max as [|max].
    + cbn [take_digits Nat.min skipn Nat.sub]. split; [reflexivity|]. split; [reflexivity|].
      change (Z.of_nat 0) with 0. rewrite Z.pow_0_r. change (1 / 10) with 0.
      assert (G : forall l, nanos_from 0 l = 0) by (induction l; cbn [nanos_from]; [reflexivity|change (0 / 10) with 0; lia]).
      rewrite G. lia.
    + cbn [map app]. rewrite take_fig by exact Hd.
      specialize (IH max (acc * 10 + d) t). destruct (take_digits max (acc * 10 + d) (map fig ds ++ t)) as [[v k] r].
      destruct IH as (A & B & C); [destruct Ht as [Ht|Ht]; [auto|right; cbn in Ht; lia]|].
      split; [cbn [length]; lia|]. split; [exact B|].
      replace (S max - S k)%nat with (max - k)%nat by lia. rewrite C. cbn [nanos_from].
      rewrite Nat2Z.inj_succ, Z.pow_succ_r by lia.
      replace (10 * 10 ^ Z.of_nat max / 10) with (10 ^ Z.of_nat max) by (rewrite Z.mul_comm, Z.div_mul; lia).
      lia.
Qed.
Lemma skip_figs ds t : Forall (fun d => 0 <= d < 10) ds -> no_digit t -> skip_digits (map fig ds ++ t) = t.
Proof.
  intros F Ht. induction F as [|d ds Hd _ IH].
  - destruct t as [|c t]; [reflexivity|]. cbn in *. rewrite Ht. reflexivity.
  - cbn [map app skip_digits]. rewrite fig_digit by exact Hd. exact IH.
Qed.
Lemma skipn_forall {A} (P : A -> Prop) n l : Forall P l -> Forall P (skipn n l).
Proof. intros F. revert n. induction F; intros [|n]; cbn; auto. Qed.
Lemma nanosecond_figs ds t : some_figures ds -> no_digit t -> nanosecond (map fig ds ++ t) = Some (nanos_of ds, t).
Proof.
  intros [Hne F] Ht. unfold nanosecond. pose proof (take_figs ds F 9 0 t (or_introl Ht)) as G.
  destruct (take_digits 9 0 (map fig ds ++ t)) as [[v k] r]. destruct G as (A & B & C).
  destruct ds as [|d ds]; [congruence|]. destruct (Nat.ltb_spec k 1); [rewrite A in H; cbn [length] in H; lia|].
  rewrite C, B. rewrite skip_figs; [|apply skipn_forall; exact F|exact Ht]. f_equal.
Qed.
Lemma nanos_of_range ds : some_figures ds -> 0 <= nanos_of ds < 1000000000.
Proof.
  intros [_ F]. unfold nanos_of. replace 1000000000 with (10 * 100000000) by reflexivity.
  assert (G : forall n ds, Forall (fun d => 0 <= d < 10) ds -> 0 <= nanos_from (10 ^ Z.of_nat n) ds < 10 * 10 ^ Z.of_nat n).
  { clear. intros n ds F. revert n. induction F as [|d ds Hd _ IH]; intros n; cbn [nanos_from].
    - pose proof (Z.pow_pos_nonneg 10 (Z.of_nat n) ltac:(lia) ltac:(lia)). lia.
    - destruct n as [|n].
      + change (Z.of_nat 0) with 0. rewrite Z.pow_0_r. change (1 / 10) with 0.
        assert (G : forall l, nanos_from 0 l = 0) by (induction l; cbn [nanos_from]; [reflexivity|change (0 / 10) with 0; lia]).
        rewrite G. lia.
      + rewrite Nat2Z.inj_succ, Z.pow_succ_r by lia.
        replace (10 * 10 ^ Z.of_nat n / 10) with (10 ^ Z.of_nat n) by (rewrite Z.mul_comm, Z.div_mul; lia).
        specialize (IH n). set (p := 10 ^ Z.of_nat n) in *. nia. }
  exact (G 8%nat ds F).
Qed.

(** ** Running the items of a format *)
Fixpoint run_items (l : list item) (s : text) (p : parsed) : option (text * parsed) :=
  match l with
  | [] => Some (s, p)
  | i :: l' => and_then (parse_item i s p) (run_items l')
  end.
Lemma parse_items_app l1 l2 s p : parse_items (l1 ++ l2) s p = and_then (run_items l1 s p) (parse_items l2).
Proof.
  revert s p. induction l1 as [|i l1 IH]; intros s p; [reflexivity|]. cbn [app parse_items run_items].
  destruct (parse_item i s p) as [[s' p']|]; cbn [and_then]; [apply IH|reflexivity].
Qed.
Lemma run_items_app l1 l2 s p : run_items (l1 ++ l2) s p = and_then (run_items l1 s p) (run_items l2).
Proof.
  revert s p. induction l1 as [|i l1 IH]; intros s p; [reflexivity|]. cbn [app run_items].
  destruct (parse_item i s p) as [[s' p']|]; cbn [and_then]; [apply IH|reflexivity].
Qed.

Lemma trim_fig n t : 0 <= n < 10 -> trim_start (fig n :: t) = fig n :: t.
Proof. intros H. cbn [trim_start]. rewrite fig_white by exact H. reflexivity. Qed.
Lemma trim_two n t : 0 <= n < 100 -> trim_start (two_c n ++ t) = two_c n ++ t.
Proof. intros H. unfold two_c. cbn [app]. apply trim_fig. lia. Qed.

Lemma set_none f v p : p f = None -> set f v p = Some (upd f v p).
Proof. intros H. unfold set. rewrite H. reflexivity. Qed.
Lemma item_year pd y t p : 0 <= y <= 9999 -> p FYear = None ->
  parse_item (Num FYear pd) (four_c y ++ t) p = Some (t, upd FYear y p).
Proof.
  intros H E. cbn [parse_item].
  assert (S : exists r, four_c y ++ t = fig (y / 100 / 10) :: r) by (eexists; reflexivity). destruct S as [r S].
  assert (P : parse_num FYear (four_c y ++ t) = number 1 4 (four_c y ++ t)).
  { rewrite S. unfold parse_num. rewrite trim_fig by lia. unfold is. rewrite !fig_is by (try reflexivity; lia). reflexivity. }
  rewrite P, number_four by lia. cbn [set_rest]. rewrite set_none by exact E. reflexivity.
Qed.
Lemma item_two f pd n t p : f <> FYear -> f <> FNano -> 0 <= n < 100 -> p f = None ->
  parse_item (Num f pd) (two_c n ++ t) p = Some (t, upd f n p).
Proof.
  intros H1 H2 H E. cbn [parse_item]. unfold parse_num. rewrite trim_two by exact H.
  destruct f; try congruence; cbn [width]; rewrite number_two by lia; cbn [set_rest]; rewrite set_none by exact E; reflexivity.
Qed.
Lemma item_one f pd n t p : f <> FYear -> f <> FNano -> 0 <= n < 10 -> no_digit t -> p f = None ->
  parse_item (Num f pd) (fig n :: t) p = Some (t, upd f n p).
Proof.
  intros H1 H2 H D E. cbn [parse_item]. unfold parse_num. rewrite trim_fig by exact H.
  destruct f; try congruence; cbn [width]; rewrite number_one by (try lia; exact D); cbn [set_rest]; rewrite set_none by exact E; reflexivity.
Qed.
(** something else than digits and white space *)
Definition no_number (s : text) : Prop := match s with [] => True | c :: _ => is_digit c = false /\ is_whitespace c = false end.
Lemma item_none f pd s p : f <> FYear -> no_number s -> parse_item (Num f pd) s p = None.
Proof.
  intros Hf H. cbn [parse_item]. unfold parse_num.
  assert (T : trim_start s = s). { destruct s as [|c t]; [reflexivity|]. cbn [trim_start]. destruct H as [_ ->]. reflexivity. }
  rewrite T. assert (D : no_digit s) by (destruct s; [exact I|apply H]).
  destruct f; try congruence; rewrite number_none by (try exact D; cbn; lia); reflexivity.
Qed.
Lemma item_literal c t p : parse_item (Literal c) (c :: t) p = Some (t, p).
Proof. cbn [parse_item]. unfold literal, one_char. rewrite N.eqb_refl. reflexivity. Qed.
Lemma item_literal_not c s p : match s with [] => True | x :: _ => (x =? c)%N = false end -> parse_item (Literal c) s p = None.
Proof. intros H. destruct s as [|x t]; [reflexivity|]. cbn [parse_item]. unfold literal, one_char. rewrite H. reflexivity. Qed.
Lemma item_literal_fig c n t p : 0 <= n < 10 -> is_digit c = false -> parse_item (Literal c) (fig n :: t) p = None.
Proof. intros H D. apply item_literal_not. apply fig_is; assumption. Qed.

(** ** One step of [parse_items], by the text in front *)
Lemma step_year pd l y t p : 0 <= y <= 9999 -> p FYear = None ->
  parse_items (Num FYear pd :: l) (four_c y ++ t) p = parse_items l t (upd FYear y p).
Proof. intros H E. cbn [parse_items]. rewrite item_year by assumption. reflexivity. Qed.
Lemma step_two f pd l n t p : f <> FYear -> f <> FNano -> 0 <= n < 100 -> p f = None ->
  parse_items (Num f pd :: l) (two_c n ++ t) p = parse_items l t (upd f n p).
Proof. intros A B H E. cbn [parse_items]. rewrite item_two by assumption. reflexivity. Qed.
Lemma step_one f pd l n t p : f <> FYear -> f <> FNano -> 0 <= n < 10 -> no_digit t -> p f = None ->
  parse_items (Num f pd :: l) (fig n :: t) p = parse_items l t (upd f n p).
Proof. intros A B H D E. cbn [parse_items]. rewrite item_one by assumption. reflexivity. Qed.
Lemma step_none f pd l s p : f <> FYear -> no_number s -> parse_items (Num f pd :: l) s p = None.
Proof. intros A H. cbn [parse_items]. rewrite item_none by assumption. reflexivity. Qed.
Lemma step_literal c l t p : parse_items (Literal c :: l) (c :: t) p = parse_items l t p.
Proof. cbn [parse_items]. rewrite item_literal. reflexivity. Qed.
Lemma step_literal_not c l x t p : (x =? c)%N = false -> parse_items (Literal c :: l) (x :: t) p = None.
Proof. intros H. cbn [parse_items]. rewrite item_literal_not by exact H. reflexivity. Qed.
Lemma step_literal_nil c l p : parse_items (Literal c :: l) [] p = None.
Proof. reflexivity. Qed.
Lemma step_literal_two c l n t p : 0 <= n < 100 -> is_digit c = false -> parse_items (Literal c :: l) (two_c n ++ t) p = None.
Proof. intros H D. cbn [parse_items]. unfold two_c. cbn [app]. rewrite item_literal_fig by (try lia; exact D). reflexivity. Qed.
Lemma step_literal_one c l n t p : 0 <= n < 10 -> is_digit c = false -> parse_items (Literal c :: l) (fig n :: t) p = None.
Proof. intros H D. cbn [parse_items]. rewrite item_literal_fig by (try lia; exact D). reflexivity. Qed.
Lemma step_space c l x t p : is_whitespace x = false -> parse_items (Space c :: l) (x :: t) p = parse_items l (x :: t) p.
Proof. intros H. cbn [parse_items parse_item trim_start and_then]. rewrite H. reflexivity. Qed.
Lemma step_space_white c l x t p : is_whitespace x = true -> parse_items (Space c :: l) (x :: t) p = parse_items (Space c :: l) t p.
Proof. intros H. cbn [parse_items parse_item trim_start and_then]. rewrite H. reflexivity. Qed.
Lemma step_space_nil c l p : parse_items (Space c :: l) [] p = parse_items l [] p.
Proof. reflexivity. Qed.
Lemma step_space_two c l n t p : 0 <= n < 100 -> parse_items (Space c :: l) (two_c n ++ t) p = parse_items l (two_c n ++ t) p.
Proof. intros H. cbn [parse_items parse_item and_then]. rewrite trim_two by exact H. reflexivity. Qed.
Lemma step_frac_end o l p : parse_items (Frac o :: l) [] p = parse_items l [] p.
Proof. reflexivity. Qed.
Lemma step_frac o l ds p : some_figures ds -> p FNano = None ->
  parse_items (Frac o :: l) (46%N :: map fig ds ++ []) p = parse_items l [] (upd FNano (nanos_of ds) p).
Proof.
  intros H E. cbn [parse_items parse_item]. cbn [one_char is code b list_ascii_of_string]. change (is 46 ".") with true.
  cbn [set_rest]. rewrite nanosecond_figs by (try exact H; exact I). cbn [set_rest]. rewrite set_none by exact E. reflexivity.
Qed.
Lemma step_frac3 l n p : 0 <= n < 1000 -> p FNano = None ->
  parse_items (FracNoDot 3 :: l) (three_c n ++ []) p = parse_items l [] (upd FNano (n * 1000000) p).
Proof.
  intros H E. cbn [parse_items parse_item]. rewrite number_three by exact H. cbn [option_map set_rest]. rewrite set_none by exact E. reflexivity.
Qed.
Lemma step_frac3_end l p : parse_items (FracNoDot 3 :: l) [] p = None.
Proof. reflexivity. Qed.

(** ** From the fields to the local time *)
Lemma fields_date p y m d n : 0 <= y <= 9999 -> days_since_1970 (y, m, d) n ->
  p FYear = Some y -> p FMonth = Some m -> p FDay = Some d -> to_naive_date p = Some n.
Proof.
  intros Hy Hd A B C. unfold to_naive_date. rewrite A, B, C. apply from_ymd_iff. split; [lia|exact Hd].
Qed.
Lemma fields_naive p y m d h mi s ns l : the_time y m d h mi s ns l ->
  p FYear = Some y -> p FMonth = Some m -> p FDay = Some d -> p FHour = Some h -> p FMinute = Some mi ->
  (p FSecond = Some s \/ p FSecond = None /\ s = 0 /\ p FNano = None) ->
  (p FNano = Some ns \/ p FNano = None /\ ns = 0) -> to_naive p = Some l.
Proof.
  intros [Hy Hd (Hh & Hm & Hs) Es En] A B C D E F G. unfold to_naive. rewrite (fields_date p y m d (s_day l) Hy Hd A B C).
  unfold to_naive_time. rewrite D, E.
  assert (X : (h <? 24) && (mi <? 60) = true) by lia. rewrite X.
  assert (Y : (s <? 60) = true) by lia.
  destruct F as [F|(F & -> & F')].
  - rewrite F. destruct G as [G|[G ->]]; rewrite G; cbn [fst snd]; rewrite Y; f_equal; destruct l as [ld ls ln]; cbn [s_day s_sec s_nano] in *; subst; f_equal; lia.
  - rewrite F, F'. destruct G as [G|[_ ->]]; [congruence|]. cbn [Z.ltb Z.compare]. f_equal. destruct l as [ld ls ln]; cbn [s_day s_sec s_nano] in *; subst; f_equal; lia.
Qed.
Lemma the_time_ranges y m d h mi s ns l : the_time y m d h mi s ns l ->
  0 <= y <= 9999 /\ 1 <= m <= 12 /\ 1 <= d <= 31 /\ 0 <= h < 24 /\ 0 <= mi < 60 /\ 0 <= s < 60.
Proof.
  intros [Hy Hd (Hh & Hm & Hs) _ _]. apply days_iff in Hd. destruct Hd as [(n & Hn & Hd) _]. apply month_nth in Hn. destruct Hn as [Hn <-].
  pose proof (nth_length y m Hn). lia.
Qed.

(** ** Tactics *)
Lemma chars_two_end n : 0 <= n < 100 -> chars (two n) = two_c n ++ [].
Proof. intros H. rewrite <- (app_nil_r (two n)) at 1. rewrite chars_two by exact H. reflexivity. Qed.
Lemma chars_three_end n : 0 <= n < 1000 -> chars (three n) = three_c n ++ [].
Proof. intros H. rewrite <- (app_nil_r (three n)) at 1. rewrite chars_three by exact H. reflexivity. Qed.
Lemma chars_figures_end ds : Forall (fun d => 0 <= d < 10) ds -> chars (figures ds) = map fig ds ++ [].
Proof. intros H. rewrite <- (app_nil_r (figures ds)) at 1. rewrite chars_figures by exact H. reflexivity. Qed.
Lemma three_two n t : three_c n ++ t = fig (n / 100) :: two_c (n mod 100) ++ t.
Proof. reflexivity. Qed.
Lemma chars_dot t : chars (b "." ++ t) = 46%N :: chars t. Proof. reflexivity. Qed.
Lemma chars_blank t : chars (b " " ++ t) = 32%N :: chars t. Proof. reflexivity. Qed.
Lemma chars_colon t : chars (b ":" ++ t) = 58%N :: chars t. Proof. reflexivity. Qed.
Lemma chars_slash t : chars (b "/" ++ t) = 47%N :: chars t. Proof. reflexivity. Qed.
Lemma chars_dash t : chars (b "-" ++ t) = 45%N :: chars t. Proof. reflexivity. Qed.
Lemma chars_plus t : chars (b "+" ++ t) = 43%N :: chars t. Proof. reflexivity. Qed.
Lemma chars_T t : chars (b "T" ++ t) = 84%N :: chars t. Proof. reflexivity. Qed.
Lemma chars_hash t : chars (b "#" ++ t) = 35%N :: chars t. Proof. reflexivity. Qed.

Ltac text_chars :=
  repeat first [ rewrite chars_four by lia | rewrite chars_two by lia | rewrite chars_three by lia | rewrite chars_fig by lia
               | rewrite chars_two_end by lia | rewrite chars_three_end by lia
               | rewrite chars_figures by assumption | rewrite chars_figures_end by assumption
               | rewrite chars_dot | rewrite chars_blank | rewrite chars_colon | rewrite chars_slash
               | rewrite chars_dash | rewrite chars_plus | rewrite chars_T | rewrite chars_hash ].
Ltac step :=
  first [ rewrite step_year by (first [lia|reflexivity])
        | rewrite step_two by (first [discriminate|lia|reflexivity])
        | rewrite step_one by (first [discriminate|lia|reflexivity])
        | rewrite step_literal
        | rewrite step_literal_not by reflexivity
        | rewrite step_literal_nil
        | rewrite step_literal_two by (first [lia|reflexivity])
        | rewrite step_literal_one by (first [lia|reflexivity])
        | rewrite step_space by reflexivity
        | rewrite step_space_white by reflexivity
        | rewrite step_space_nil
        | rewrite step_space_two by lia
        | rewrite step_frac_end
        | rewrite step_frac by (first [assumption|reflexivity])
        | rewrite step_frac3 by (first [lia|reflexivity])
        | rewrite step_frac3_end
        | rewrite step_none by (first [discriminate|exact I|split; reflexivity]) ].
(** unfold a parse of a closed format *)
Ltac open_format :=
  unfold parse_from_str;
  match goal with
  | |- context [items (chars ?f)] =>
      let l := eval vm_compute in (items (chars f)) in
      change (items (chars f)) with l; cbn [existsb is_other orb]
  end.

Lemma rfc_date y s p : 0 <= y <= 9999 -> p FYear = None -> match s with c :: _ => is c "-" = false | [] => True end ->
  parse_rfc3339 (four_c y ++ s) p = None.
Proof.
  intros H E D. unfold parse_rfc3339. rewrite number_four by lia. cbn [set_rest]. rewrite set_none by exact E. cbn [and_then].
  destruct s as [|c t]; [reflexivity|]. unfold literal, one_char. rewrite D. reflexivity.
Qed.

(** ** ISO 8601 *)
Lemma literal_step (q : N -> bool) c t p : q c = true -> literal q (c :: t) p = Some (t, p).
Proof. intros H. unfold literal, one_char. rewrite H. reflexivity. Qed.
Lemma set_step f v s p : p f = None -> set_rest f (Some (v, s)) p = Some (s, upd f v p).
Proof. intros H. cbn [set_rest]. rewrite set_none by exact H. reflexivity. Qed.

Definition offset_c (o : option (bool * Z * Z)) : text :=
  match o with None => [90%N] | Some (west, hh, mm) => (if west then 45%N else 43%N) :: two_c hh ++ 58%N :: two_c mm ++ [] end.
Definition offset_of (o : option (bool * Z * Z)) : Z :=
  match o with None => 0 | Some (west, hh, mm) => if west : bool then - (3600 * hh + 60 * mm) else 3600 * hh + 60 * mm end.
Definition offset_fine (o : option (bool * Z * Z)) : Prop :=
  match o with None => True | Some (_, hh, mm) => 0 <= hh < 24 /\ 0 <= mm < 60 end.
Lemma offset_chars off o : offset_text off o -> exists x, offset_fine x /\ chars off = offset_c x /\ o = offset_of x.
Proof.
  intros [|hh mm H1 H2|hh mm H1 H2].
  - exists None. repeat split.
  - exists (Some (false, hh, mm)). split; [split; assumption|]. split; [text_chars; reflexivity|reflexivity].
  - exists (Some (true, hh, mm)). split; [split; assumption|]. split; [text_chars; reflexivity|reflexivity].
Qed.
Lemma offset_start x : exists c t, offset_c x = c :: t /\ is_digit c = false /\ is c "." = false.
Proof. destruct x as [[[[|] hh] mm]|]; cbn [offset_c]; eexists; eexists; split; try reflexivity; split; reflexivity. Qed.
Lemma zulu x : offset_fine x ->
  timezone_offset_zulu (one_char (fun c => is c ":")) (offset_c x) = Some (offset_of x, []).
Proof.
  destruct x as [[[w hh] mm]|]; [|reflexivity]. intros [H1 H2].
  assert (E : forall c, (c = 45%N \/ c = 43%N) -> timezone_offset_zulu (one_char (fun c => is c ":")) (c :: two_c hh ++ 58%N :: two_c mm ++ [])
            = Some ((if is c "-" then -1 else 1) * (hh * 3600 + mm * 60), [])).
  { intros c Hc. assert (Z1 : (is c "z" || is c "Z") = false) by (destruct Hc as [->| ->]; reflexivity).
    assert (Z2 : (is c "u" || is c "U") = false) by (destruct Hc as [->| ->]; reflexivity).
    assert (Z3 : (is c "+" || is c "-") = true) by (destruct Hc as [->| ->]; reflexivity).
    unfold timezone_offset_zulu. rewrite Z1, Z2. unfold timezone_offset. rewrite Z3, number_two by lia.
    unfold one_char at 1. change (is 58 ":") with true. cbn [orb]. rewrite number_two by lia.
    assert (L : (mm <? 60) = true) by lia. rewrite L. reflexivity. }
  cbn [offset_c]. rewrite E by (destruct w; auto). f_equal. f_equal. cbn [offset_of].
  destruct w; [change (is 45 "-") with true|change (is 43 "-") with false]; cbn [orb]; lia.
Qed.
Lemma offset_small x : offset_fine x -> -86400 < offset_of x < 86400.
Proof. destruct x as [[[[|] hh] mm]|]; cbn [offset_fine offset_of]; lia. Qed.

Definition fraction_c (f : option (list Z)) : text := match f with None => [] | Some ds => 46%N :: map fig ds end.
Definition fraction_of (f : option (list Z)) : Z := match f with None => 0 | Some ds => nanos_of ds end.
Definition fraction_fine (f : option (list Z)) : Prop := match f with None => True | Some ds => some_figures ds end.

Lemma rfc3339_spec y m d h mi s f x : 0 <= y <= 9999 -> 0 <= m < 100 -> 0 <= d < 100 -> 0 <= h < 100 -> 0 <= mi < 100 -> 0 <= s < 100 ->
  fraction_fine f -> offset_fine x ->
  exists p, parse_rfc3339 (four_c y ++ 45%N :: two_c m ++ 45%N :: two_c d ++ 84%N :: two_c h ++ 58%N :: two_c mi ++ 58%N :: two_c s
                           ++ fraction_c f ++ offset_c x) nothing = Some ([], p) /\
    p FYear = Some y /\ p FMonth = Some m /\ p FDay = Some d /\ p FHour = Some h /\ p FMinute = Some mi /\ p FSecond = Some s /\
    (p FNano = Some (fraction_of f) \/ p FNano = None /\ fraction_of f = 0) /\ p FOffset = Some (offset_of x).
Proof.
  intros Hy Hm Hd Hh Hmi Hs Hf Hx. unfold parse_rfc3339.
  rewrite number_four by lia. rewrite set_step by reflexivity. cbn [and_then].
  rewrite literal_step by reflexivity. cbn [and_then]. rewrite number_two by lia. rewrite set_step by reflexivity. cbn [and_then].
  rewrite literal_step by reflexivity. cbn [and_then]. rewrite number_two by lia. rewrite set_step by reflexivity. cbn [and_then].
  rewrite literal_step by reflexivity. cbn [and_then]. rewrite number_two by lia. rewrite set_step by reflexivity. cbn [and_then].
  rewrite literal_step by reflexivity. cbn [and_then]. rewrite number_two by lia. rewrite set_step by reflexivity. cbn [and_then].
  rewrite literal_step by reflexivity. cbn [and_then]. rewrite number_two by lia. rewrite set_step by reflexivity. cbn [and_then].
  pose proof (offset_small x Hx) as B. assert (B' : (-86400 <? offset_of x) && (offset_of x <? 86400) = true) by lia.
  destruct (offset_start x) as (c & t & Ec & Dc & Pc).
  destruct f as [ds|]; cbn [fraction_c fraction_of app].
  - unfold one_char at 1. change (is 46 ".") with true. cbn iota.
    rewrite nanosecond_figs by (try exact Hf; rewrite Ec; exact Dc). rewrite set_step by reflexivity. cbn [and_then].
    rewrite zulu by exact Hx. rewrite B'. rewrite set_step by reflexivity.
    eexists. split; [reflexivity|]. repeat split; try reflexivity. left. reflexivity.
  - assert (Eo : one_char (fun c => is c ".") (offset_c x) = None) by (rewrite Ec; unfold one_char; rewrite Pc; reflexivity).
    rewrite Eo. cbn [and_then].
    rewrite zulu by exact Hx. rewrite B'. rewrite set_step by reflexivity.
    eexists. split; [reflexivity|]. repeat split; try reflexivity. right. split; reflexivity.
Qed.

Lemma iso_reads o s i : iso_text s i -> c_datetime (civil o) (b "%+") s = Some i.
Proof.
  intros [y m d h mi sc f fs off of_ l T O F].
  pose proof (the_time_ranges _ _ _ _ _ _ _ _ T) as (?&?&?&?&?&?).
  destruct (offset_chars _ _ O) as (x & Hx & Ex & ->).
  assert (G : exists q, fraction_fine q /\ chars (fs ++ off) = fraction_c q ++ chars off /\ f = fraction_of q).
  { destruct F as [[-> ->]|(ds & -> & H5 & ->)]; [exists None; repeat split|].
    exists (Some ds). split; [exact H5|]. split; [|reflexivity]. rewrite <- app_assoc, chars_dot, chars_figures by apply H5. reflexivity. }
  destruct G as (q & Hq & Eq & ->).
  cbn [c_datetime civil]. open_format.
  assert (E : chars (four y ++ b "-" ++ two m ++ b "-" ++ two d ++ b "T" ++ two h ++ b ":" ++ two mi ++ b ":" ++ two sc ++ fs ++ off)
            = four_c y ++ 45%N :: two_c m ++ 45%N :: two_c d ++ 84%N :: two_c h ++ 58%N :: two_c mi ++ 58%N :: two_c sc ++ fraction_c q ++ offset_c x)
    by (text_chars; rewrite Eq, Ex; reflexivity).
  rewrite E.
  destruct (rfc3339_spec y m d h mi sc q x) as (p & Ep & A1 & A2 & A3 & A4 & A5 & A6 & A7 & A8); try lia; try assumption.
  cbn [parse_items parse_item]. rewrite Ep. cbn [and_then]. unfold to_datetime. rewrite A8.
  rewrite (fields_naive p y m d h mi sc (fraction_of q) l T A1 A2 A3 A4 A5 (or_introl A6) A7).
  pose proof (offset_small x Hx). assert (B' : (-86400 <? offset_of x) && (offset_of x <? 86400) = true) by lia. rewrite B'. reflexivity.
Qed.
(** a text without an offset is not an ISO 8601 time *)
Lemma rfc_plain y s p : 0 <= y <= 9999 -> p FYear = None -> match s with c :: _ => is c "-" = false | [] => True end ->
  parse_items [Rfc3339] (four_c y ++ s) p = None.
Proof. intros. cbn [parse_items parse_item]. rewrite rfc_date by assumption. reflexivity. Qed.
