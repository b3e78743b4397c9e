(** Proofs about the timestamp model. *)
From Verif Require Import TimestampModel TimestampSpec CsvUtilProofs BytesProofs.
From Coq Require Decimal DecimalN DecimalPos.
From Coq Require Import DecimalString.
Local Open Scope nat_scope.

(** ** Decimal texts *)
Lemma chars_ascii s : Forall (fun c => (of_byte c < 128)%N) s -> chars s = map of_byte s.
Proof.
  induction 1 as [|c s Hc H IH]; [reflexivity|]. cbn [chars map]. destruct (N.ltb_spec (of_byte c) 0x80); [|lia].
  rewrite IH. reflexivity.
Qed.
Lemma chars_digits s : Forall digit_byte s -> chars s = map of_byte s.
Proof. intro H. apply chars_ascii. eapply Forall_impl; [|exact H]. unfold digit_byte. intros; cbn in *; lia. Qed.

Lemma digits_step a c t : is_digit c = true -> digits_val a (c :: t) = digits_val (a * 10 + (c - 48))%N t.
Proof. intro H. cbn [digits_val]. rewrite H. reflexivity. Qed.
Lemma acc_digits u : forall p,
  digits_val (Npos p) (map of_byte (b (NilEmpty.string_of_uint u))) = Some (Npos (Pos.of_uint_acc u p)).
Proof.
  induction u; intro p; [reflexivity|..]; cbn [NilEmpty.string_of_uint b list_ascii_of_string map];
    unfold b in IHu; rewrite digits_step by reflexivity; cbn [Pos.of_uint_acc]; rewrite <- IHu;
    f_equal; match goal with |- context [of_byte ?a] => let v := eval vm_compute in (of_byte a) in change (of_byte a) with v end;
    lia.
Qed.
Lemma zero_digits u : u <> Decimal.Nil ->
  digits_val 0 (map of_byte (b (NilEmpty.string_of_uint u))) = Some (Pos.of_uint u).
Proof.
  induction u; intro H; [congruence|..].
  - destruct (Decimal.uint_eq_dec u Decimal.Nil) as [->|N]; [reflexivity|]. exact (IHu N).
  - exact (acc_digits u 1).
  - exact (acc_digits u 2).
  - exact (acc_digits u 3).
  - exact (acc_digits u 4).
  - exact (acc_digits u 5).
  - exact (acc_digits u 6).
  - exact (acc_digits u 7).
  - exact (acc_digits u 8).
  - exact (acc_digits u 9).
Qed.
Lemma ubytes_digits u : Forall digit_byte (b (NilEmpty.string_of_uint u)).
Proof. induction u; cbn; constructor; try assumption; vm_compute; split; discriminate. Qed.
Lemma to_uint_non_nil n : N.to_uint n <> Decimal.Nil.
Proof.
  intro E. destruct n as [|p]; [discriminate E|]. cbn in E.
  assert (K : Pos.of_uint (Pos.to_uint p) = Npos p) by apply DecimalPos.Unsigned.of_to.
  rewrite E in K. discriminate K.
Qed.
Lemma dec_eq n : dec n = b (NilEmpty.string_of_uint (N.to_uint n)).
Proof. unfold dec, NilZero.string_of_uint. pose proof (to_uint_non_nil n). destruct (N.to_uint n); congruence. Qed.
Lemma dec_digits n : Forall digit_byte (dec n).
Proof. rewrite dec_eq. apply ubytes_digits. Qed.
Lemma dec_nonempty n : dec n <> [].
Proof. rewrite dec_eq. pose proof (to_uint_non_nil n). destruct (N.to_uint n); cbn; congruence. Qed.
Lemma dec_numeral n : numeral (chars (dec n)) n.
Proof.
  apply digits1_spec. rewrite chars_digits by apply dec_digits.
  pose proof (dec_nonempty n) as E. rewrite dec_eq in *. pose proof (zero_digits _ (to_uint_non_nil n)) as H.
  unfold digits1. destruct (b _) as [|c s]; [congruence|]. cbn [map] in *. rewrite H.
  f_equal. exact (DecimalN.Unsigned.of_to n).
Qed.
Lemma parse_dec n : (n < 2 ^ 64)%N -> parse_u64 (chars (dec n)) = Some n.
Proof. intro H. apply parse_u64_spec. split; [exact H|left; apply dec_numeral]. Qed.

Lemma numeral_bound s n : numeral s n -> (n < 10 ^ N.of_nat (length s))%N.
Proof.
  induction 1 as [c D|s n c Hs IH D]; unfold digit in D.
  - change (10 ^ N.of_nat (length [c]))%N with 10%N. lia.
  - rewrite app_length, Nat.add_comm. cbn [length Nat.add]. rewrite Nat2N.inj_succ, N.pow_succ_r'. lia.
Qed.
Lemma digits_numeral s : Forall digit_byte s -> s <> [] -> exists n, numeral (chars s) n.
Proof.
  intros H Ne. rewrite chars_digits by exact H. induction s as [|c s IH] using rev_ind; [congruence|].
  apply Forall_app in H. destruct H as [H Hc]. inversion Hc as [|? ? Dc]; subst. rewrite map_app. cbn [map].
  assert (D : digit (of_byte c)) by (unfold digit, digit_byte in *; lia).
  destruct s as [|x s]; [eexists; constructor; exact D|].
  destruct (IH H) as [n Hn]; [discriminate|]. eexists. apply numeral_more; eassumption.
Qed.
Lemma all_digits_true s : Forall digit_byte s -> all_digits s = true.
Proof.
  intro H. unfold all_digits. rewrite chars_digits by exact H. apply forallb_forall. intros x Hx.
  apply in_map_iff in Hx. destruct Hx as (c & <- & Hc). rewrite Forall_forall in H. specialize (H c Hc).
  unfold digit_byte, is_digit in *. lia.
Qed.
Lemma parse_digits s n : Forall digit_byte s -> numeral (chars s) n ->
  parse_u64 (chars s) = if (n <? 2 ^ 64)%N then Some n else None.
Proof.
  intros D H. unfold parse_u64. destruct (skip_plus_digit _ _ H) as [-> _].
  apply digits1_spec in H. rewrite H. reflexivity.
Qed.

(** ** Unit detection *)
Lemma range_plausible n :
  (RANGE_NANOS n = true <-> plausible Nanos n) /\ (RANGE_MICROS n = true <-> plausible Micros n) /\
  (RANGE_MILLIS n = true <-> plausible Millis n) /\ (RANGE_SECONDS n = true <-> plausible Seconds n).
Proof. unfold RANGE_NANOS, RANGE_MICROS, RANGE_MILLIS, RANGE_SECONDS, in_range, plausible. cbn [per_second]. lia. Qed.
Lemma plausible_one n u v : plausible u n -> plausible v n -> u = v.
Proof. unfold plausible. destruct u, v; cbn; intros; trivial; exfalso; lia. Qed.
Lemma detect_spec n u : detect_units n = Some u <-> plausible u n.
Proof.
  destruct (range_plausible n) as (A & B & C & D). unfold detect_units.
  destruct (RANGE_NANOS n); [assert (P : plausible Nanos n) by tauto|
  destruct (RANGE_MICROS n); [assert (P : plausible Micros n) by tauto|
  destruct (RANGE_MILLIS n); [assert (P : plausible Millis n) by tauto|
  destruct (RANGE_SECONDS n); [assert (P : plausible Seconds n) by tauto|]]]].
  5: { split; [discriminate|]. intro P. destruct u; exfalso; [apply D in P|apply C in P|apply B in P|apply A in P]; discriminate. }
  all: split; [intros [= <-]; exact P|intro Q; f_equal; eapply plausible_one; eassumption].
Qed.
Lemma plausible_fits u n : plausible u n -> (n * nanos_per u < 2 ^ 64)%N /\ (n < 2 ^ 64)%N.
Proof. unfold plausible. destruct u; cbn [per_second nanos_per]; lia. Qed.
Lemma mul_fits p x y : (x * y < 2 ^ 64)%N -> mul_u64 p x y = Ok (x * y)%N.
Proof. intro H. unfold mul_u64. destruct (N.ltb_spec (x * y) (2 ^ 64)); [reflexivity|lia]. Qed.

Lemma get_units prof ch r col u z s n : get_timestamp_string r col = Ok s -> parse_u64 (chars s) = Some n ->
  get_timestamp prof ch r col (FUnits u) z = mul_u64 prof n (nanos_per u).
Proof.
  intros E P. unfold get_timestamp. rewrite E. cbn [bind]. rewrite P.
  destruct u; try reflexivity. cbn [nanos_per]. rewrite mul_fits; [rewrite N.mul_1_r; reflexivity|].
  apply parse_u64_spec in P. lia.
Qed.

(** ** Column choice *)
Lemma rsplit_unit p u : rsplit (b "time") (p ++ b "time" ++ unit_name u) = Some (p, unit_name u).
Proof.
  induction p as [|c p IH]; [destruct u; reflexivity|]. change ((c :: p) ++ b "time" ++ unit_name u) with (c :: (p ++ b "time" ++ unit_name u)). cbn [rsplit]. rewrite IH. reflexivity.
Qed.
Lemma rsplit_sound s p q : rsplit (b "time") s = Some (p, q) -> s = p ++ b "time" ++ q.
Proof.
  revert p q. induction s as [|c s IH]; intros p q; [discriminate|]. cbn [rsplit].
  destruct (rsplit (b "time") s) as [[p' q']|].
  - intros [= <- <-]. rewrite (IH p' q' eq_refl). reflexivity.
  - destruct (starts_with (b "time") (c :: s)) eqn:E; [|discriminate]. apply starts_with_spec in E. destruct E as [t E].
    rewrite E. change (skipn (length (b "time")) (b "time" ++ t)) with t. intros H. inversion H. reflexivity.
Qed.
Lemma find_units_spec s u : find_units TIMESTAMP_UNITS s = Some u <-> s = unit_name u.
Proof.
  unfold TIMESTAMP_UNITS, find_units.
  repeat match goal with |- context [bytes_eqb ?x s] => destruct (bytes_eqb x s) eqn:?E end;
    repeat match goal with H : bytes_eqb _ _ = true |- _ => apply bytes_eqb_eq in H; subst s end;
    split; intro H;
    try (injection H as <-; reflexivity); try discriminate H;
    try (destruct u; try discriminate H; reflexivity).
  destruct u; subst s; discriminate.
Qed.

Definition kind_of (n : bytes) : option kind :=
  if bytes_eqb n (b "time") then Some Time
  else if bytes_eqb n (b "date") then Some Date
  else if starts_with (b "time") n then
    match find_units TIMESTAMP_UNITS (skipn 4 n) with Some u => Some (TimeUnit u) | None => None end
  else if ends_with (b "date") n then Some (PrefixedDate (firstn (length n - 4) n))
  else if ends_with (b "time") n then Some (PrefixedTime (firstn (length n - 4) n))
  else match rsplit (b "time") n with
       | Some (p, s) => match find_units TIMESTAMP_UNITS s with Some u => Some (PrefixedTimeUnit p u) | None => None end
       | None => None
       end.
Lemma cut_suffix (p s : bytes) : length s = 4 -> firstn (length (p ++ s) - 4) (p ++ s) = p.
Proof.
  intro E. rewrite app_length, E. replace (length p + 4 - 4) with (length p) by lia.
  rewrite firstn_app, Nat.sub_diag, firstn_all, app_nil_r. reflexivity.
Qed.
Lemma ends_with_app p s : ends_with s (p ++ s) = true.
Proof. apply ends_with_spec. eauto. Qed.
Lemma ends_with_longer (x y p : bytes) : length x <= length y -> ends_with x (p ++ y) = ends_with x y.
Proof.
  intro L. unfold ends_with. rewrite rev_app_distr. rewrite <- (rev_length x), <- (rev_length y) in L.
  revert L. generalize (rev x) (rev y) (rev p). clear. intros x. induction x as [|a x IH]; intros [|c y] p L; cbn in *; try lia; trivial.
  f_equal. apply IH. lia.
Qed.
Lemma kind_of_spec n k : kind_of n = Some k <-> says n k.
Proof.
  unfold kind_of. split.
  - destruct (bytes_eqb n (b "time")) eqn:E1; [apply bytes_eqb_eq in E1; subst; intros [= <-]; constructor|].
    destruct (bytes_eqb n (b "date")) eqn:E2; [apply bytes_eqb_eq in E2; subst; intros [= <-]; constructor|].
    destruct (starts_with (b "time") n) eqn:E3.
    + apply starts_with_spec in E3. destruct E3 as [t ->].
      change (skipn 4 (b "time" ++ t)) with t.
      destruct (find_units TIMESTAMP_UNITS t) as [u|] eqn:F; [|discriminate]. intros [= <-].
      apply find_units_spec in F. subst t. constructor.
    + assert (NB : ~ begins_with_time n). { intro H. apply starts_with_spec in H. congruence. }
      assert (NE : forall p s, n = p ++ s -> bytes_eqb n s = false -> p <> []).
      { intros p s -> E ->. cbn in E. rewrite bytes_eqb_refl in E. discriminate. }
      destruct (ends_with (b "date") n) eqn:E4.
      { apply ends_with_spec in E4. destruct E4 as [p E4]. rewrite E4, cut_suffix by reflexivity.
        intros [= <-]. constructor; [eapply NE; eassumption|rewrite <- E4; exact NB]. }
      destruct (ends_with (b "time") n) eqn:E5.
      { apply ends_with_spec in E5. destruct E5 as [p E5]. rewrite E5, cut_suffix by reflexivity.
        intros [= <-]. constructor; [eapply NE; eassumption|rewrite <- E5; exact NB]. }
      destruct (rsplit (b "time") n) as [[p s]|] eqn:E6; [|discriminate].
      destruct (find_units TIMESTAMP_UNITS s) as [u|] eqn:F; [|discriminate]. intros [= <-].
      apply find_units_spec in F. subst s. apply rsplit_sound in E6. rewrite E6. constructor.
      * intros ->. apply NB. rewrite E6. eexists. reflexivity.
      * rewrite <- E6. exact NB.
  - assert (Long : forall p s x, p <> [] -> length x = length s -> bytes_eqb (p ++ s) x = false).
    { intros p s x Hp L. destruct (bytes_eqb (p ++ s) x) eqn:E; [|reflexivity]. apply bytes_eqb_eq in E.
      apply (f_equal (@length byte)) in E. rewrite app_length in E. destruct p; [congruence|cbn in E; lia]. }
    assert (Sw : forall n, ~ begins_with_time n -> starts_with (b "time") n = false).
    { intros m H. destruct (starts_with (b "time") m) eqn:E; [|reflexivity]. exfalso. apply H, starts_with_spec, E. }
    intros [u| | |p u Hp NB|p Hp NB|p Hp NB].
    + destruct u; reflexivity.
    + reflexivity.
    + reflexivity.
    + assert (L : forall x, length x = 4 -> bytes_eqb (p ++ b "time" ++ unit_name u) x = false).
      { intros x Lx. destruct (bytes_eqb _ x) eqn:E; [|reflexivity]. apply bytes_eqb_eq in E.
        apply (f_equal (@length byte)) in E. rewrite !app_length, Lx in E. destruct p; [congruence|cbn in E; destruct u; cbn in E; lia]. }
      rewrite !L by reflexivity. rewrite Sw by exact NB.
      rewrite !ends_with_longer by (destruct u; cbn; lia).
      rewrite rsplit_unit. rewrite (proj2 (find_units_spec _ u) eq_refl). destruct u; reflexivity.
    + rewrite !Long by (trivial; reflexivity). rewrite Sw by exact NB. rewrite ends_with_app, cut_suffix by reflexivity. reflexivity.
    + rewrite !Long by (trivial; reflexivity). rewrite Sw by exact NB.
      rewrite (ends_with_longer (b "date")) by reflexivity. change (ends_with (b "date") (b "time")) with false. cbv iota.
      rewrite ends_with_app, cut_suffix by reflexivity. reflexivity.
Qed.
Lemma says_det n k k' : says n k -> says n k' -> k = k'.
Proof. rewrite <- !kind_of_spec. congruence. Qed.

(** The leftmost name of a class. *)
Section First.
Context {X : Type} (pick : kind -> option X).
Definition pick_name (n : bytes) : option X := match kind_of n with Some k => pick k | None => None end.
Fixpoint first (k : nat) (l : list bytes) : option (nat * X) :=
  match l with
  | [] => None
  | n :: l' => match pick_name n with Some x => Some (k, x) | None => first (S k) l' end
  end.
Lemma first_some l : forall k i x, first k l = Some (i, x) ->
  exists j n, i = k + j /\ nth_error l j = Some n /\ pick_name n = Some x /\
    forall j' n', j' < j -> nth_error l j' = Some n' -> pick_name n' = None.
Proof.
  induction l as [|n l IH]; intros k i x; [discriminate|]. cbn. destruct (pick_name n) as [y|] eqn:E.
  - intros [= <- <-]. exists 0, n. repeat split; [lia|exact E|]. intros; lia.
  - intro H. destruct (IH _ _ _ H) as (j & m & -> & Hj & Hp & Hl). exists (S j), m.
    repeat split; [lia|exact Hj|exact Hp|]. intros [|j'] n' L N; [cbn in N; congruence|]. eapply Hl; [|exact N]. lia.
Qed.
Lemma first_none l : forall k, first k l = None -> forall n, In n l -> pick_name n = None.
Proof.
  induction l as [|n l IH]; intros k H m [].
  - subst m. cbn in H. destruct (pick_name n); [discriminate|reflexivity].
  - cbn in H. destruct (pick_name n); [discriminate|]. eapply IH; eassumption.
Qed.
Lemma first_leftmost (class : kind -> Prop) l :
  (forall k, class k <-> exists x, pick k = Some x) ->
  match first 0 l with
  | Some (i, x) => exists k, leftmost l class i k /\ pick k = Some x
  | None => absent l class
  end.
Proof.
  intro C. unfold leftmost, absent. destruct (first 0 l) as [[i x]|] eqn:E.
  - destruct (first_some _ _ _ _ E) as (j & n & -> & Hn & Hp & Hl). unfold pick_name in Hp.
    destruct (kind_of n) as [k|] eqn:K; [|discriminate]. exists k. split; [|exact Hp]. split; [|split].
    + exists n. split; [exact Hn|apply kind_of_spec, K].
    + apply C. eauto.
    + intros j' n' k' L N Sk Ck. specialize (Hl j' n' L N). unfold pick_name in Hl.
      apply kind_of_spec in Sk. rewrite Sk in Hl. apply C in Ck. destruct Ck as [y Ck]. congruence.
  - intros n k I Sk Ck. pose proof (first_none _ _ E n I) as H. unfold pick_name in H.
    apply kind_of_spec in Sk. rewrite Sk in H. apply C in Ck. destruct Ck as [y Ck]. congruence.
Qed.
End First.

Definition p_tu k := match k with TimeUnit u => Some u | _ => None end.
Definition p_d k := match k with Date => Some tt | _ => None end.
Definition p_t k := match k with Time => Some tt | _ => None end.
Definition p_ptu k := match k with PrefixedTimeUnit p u => Some (p, u) | _ => None end.
Definition p_pd k := match k with PrefixedDate p => Some p | _ => None end.
Definition p_pt k := match k with PrefixedTime p => Some p | _ => None end.
Definition found_first (k : nat) (l : list bytes) : found :=
  {| time_with_units := first p_tu k l;
     date := option_map fst (first p_d k l);
     time := option_map fst (first p_t k l);
     prefixed_time_with_units := option_map (fun x => (fst (snd x), fst x, snd (snd x))) (first p_ptu k l);
     prefixed_date := option_map (fun x => (snd x, fst x)) (first p_pd k l);
     prefixed_time := option_map (fun x => (snd x, fst x)) (first p_pt k l) |}.
Lemma fold_found l : forall k, fold_right classify found0 (enum_from k l) = found_first k l.
Proof.
  induction l as [|n l IH]; intro k; [reflexivity|]. cbn [enum_from fold_right]. rewrite IH.
  unfold classify, found_first. cbn [first]. unfold pick_name, kind_of.
  repeat match goal with
         | |- context [if ?c then _ else _] => destruct c
         | |- context [match find_units ?x ?y with _ => _ end] => destruct (find_units x y)
         | |- context [match rsplit ?x ?y with _ => _ end] => destruct (rsplit x y) as [[? ?]|]
         end; reflexivity.
Qed.

(** ** The choice *)
Lemma leftmost_det l class i k i' k' : leftmost l class i k -> leftmost l class i' k' -> i = i' /\ k = k'.
Proof.
  intros ((n & N & S) & C & L) ((n' & N' & S') & C' & L').
  destruct (Nat.lt_trichotomy i i') as [Hl|[->|Hl]].
  - exfalso. eapply L'; eassumption.
  - split; [reflexivity|]. rewrite N in N'. injection N' as <-. eapply says_det; eassumption.
  - exfalso. eapply L; eassumption.
Qed.
Lemma leftmost_absent l class i k : leftmost l class i k -> absent l class -> False.
Proof.
  intros ((n & N & S) & C & _) A. eapply A; [eapply nth_error_In; exact N|exact S|exact C].
Qed.
Lemma chosen_det l c c' : chosen l c -> chosen l c' -> c = c'.
Proof.
  destruct 1; destruct 1;
    repeat match goal with
      | H : leftmost l ?c _ _, H' : absent l ?c |- _ => exfalso; exact (leftmost_absent _ _ _ _ H H')
      | H : leftmost l ?c ?i ?k, H' : leftmost l ?c ?i' ?k' |- _ =>
          let E := fresh in destruct (leftmost_det _ _ _ _ _ _ H H') as [? E]; subst; clear H'; try injection E as ?; subst
      | H : forall t, ~ leftmost l _ t _, H' : leftmost l _ _ _ |- _ => exfalso; exact (H _ H')
      end; congruence.
Qed.
Section Choice.
Variable lower : bytes -> bytes.
Lemma auto_col_chosen names : chosen (map lower names) (auto_col lower names).
Proof.
  unfold auto_col, auto_found. rewrite fold_found. set (l := map lower names). unfold found_first.
  cbn [time_with_units date time prefixed_time_with_units prefixed_date prefixed_time].
  pose proof (first_leftmost p_tu a_time_unit l) as Htu.
  pose proof (first_leftmost p_d a_date l) as Hd.
  pose proof (first_leftmost p_t a_time l) as Ht.
  pose proof (first_leftmost p_ptu a_prefixed_time_unit l) as Hptu.
  pose proof (first_leftmost p_pd a_prefixed_date l) as Hpd.
  pose proof (first_leftmost p_pt a_prefixed_time l) as Hpt.
  specialize (Htu ltac:(unfold a_time_unit; intros []; cbn; split; intros [? ?]; eauto; discriminate)).
  specialize (Hd ltac:(unfold a_date; intros []; cbn; (split; [intro X|intros [? X]]); try discriminate X; eauto)).
  specialize (Ht ltac:(unfold a_time; intros []; cbn; (split; [intro X|intros [? X]]); try discriminate X; eauto)).
  specialize (Hptu ltac:(unfold a_prefixed_time_unit; intros []; cbn; (split; [intros (? & ? & X)|intros [? X]]); try discriminate X; eauto)).
  specialize (Hpd ltac:(unfold a_prefixed_date; intros []; cbn; split; intros [? ?]; eauto; discriminate)).
  specialize (Hpt ltac:(unfold a_prefixed_time; intros []; cbn; split; intros [? ?]; eauto; discriminate)).
  destruct (first p_tu 0 l) as [[i u]|]; cbn [option_map fst snd].
  { destruct Htu as (k & L & P). destruct k; try discriminate P. injection P as ->. apply chosen_time_unit, L. }
  destruct (first p_d 0 l) as [[d []]|]; cbn [option_map fst snd].
  { destruct Hd as (k & L & P). destruct k; try discriminate P.
    destruct (first p_t 0 l) as [[t []]|]; cbn [option_map fst snd].
    - destruct Ht as (k & L' & P'). destruct k; try discriminate P'. apply chosen_date_time; assumption.
    - apply chosen_date; assumption. }
  destruct (first p_t 0 l) as [[t []]|]; cbn [option_map fst snd].
  { destruct Ht as (k & L & P). destruct k; try discriminate P. apply chosen_time; assumption. }
  destruct (first p_ptu 0 l) as [[i [p u]]|]; cbn [option_map fst snd].
  { destruct Hptu as (k & L & P). destruct k; try discriminate P. injection P as -> ->. eapply chosen_prefixed_time_unit; eassumption. }
  destruct (first p_pd 0 l) as [[d p]|]; cbn [option_map fst snd].
  { destruct Hpd as (k & L & P). destruct k; try discriminate P. injection P as ->.
    destruct (first p_pt 0 l) as [[t q]|]; cbn [option_map fst snd].
    - destruct Hpt as (k & L' & P'). destruct k; try discriminate P'. injection P' as ->.
      destruct (bytes_eqb p q) eqn:E.
      + apply bytes_eqb_eq in E. subst q. eapply chosen_prefixed_date_time; eassumption.
      + eapply chosen_prefixed_date; try eassumption. intros t' L''.
        destruct (leftmost_det _ _ _ _ _ _ L' L'') as [_ X]. injection X as <-. rewrite bytes_eqb_refl in E. discriminate.
    - eapply chosen_prefixed_date; try eassumption. intros t' L''. eapply leftmost_absent; eassumption. }
  destruct (first p_pt 0 l) as [[t q]|]; cbn [option_map fst snd].
  { destruct Hpt as (k & L & P). destruct k; try discriminate P. injection P as ->. eapply chosen_prefixed_time; eassumption. }
  apply chosen_nothing; assumption.
Qed.
End Choice.
Lemma chosen_bounds l c : chosen l c -> l <> [] ->
  match fst c with ColIndex i => i < length l | ColDateTime d t => d < length l /\ t < length l end.
Proof.
  intros H Ne.
  assert (B : forall class i k, leftmost l class i k -> i < length l).
  { intros class i k ((n & N & _) & _). apply nth_error_Some. congruence. }
  destruct H; cbn [fst]; eauto. destruct l; [congruence|cbn; lia].
Qed.
(** The conversion wraps: whatever the build, what it returns is the instant modulo 2^64. *)
Lemma wrap_spec p i t : nanos_as_u64 p i = Ok t -> Z.of_N t = (i mod 2 ^ 64)%Z /\ (p = Debug -> - 2 ^ 63 <= i < 2 ^ 63)%Z.
Proof.
  unfold nanos_as_u64, timestamp_nanos, to_unsigned. change (2 ^ Z.of_N 64)%Z with (2 ^ 64)%Z.
  destruct (Z.leb_spec (- 2 ^ 63) i); destruct (Z.ltb_spec i (2 ^ 63)); cbn [andb bind]; [|destruct p..];
    cbn [bind]; intro E; try discriminate; injection E as <-; (split; [|first [intros _; lia|discriminate]]);
    rewrite Z2N.id by (apply Z.mod_pos_bound; lia); [reflexivity|..];
    rewrite Zminus_mod, Z.mod_mod, <- Zminus_mod by lia; f_equal; lia.
Qed.
Lemma wrap_release i : exists t, nanos_as_u64 Release i = Ok t.
Proof. unfold nanos_as_u64, timestamp_nanos. destruct (_ && _); cbn; eauto. Qed.
