(** Numbers in a time column with chrono's own parser (ChronoModel): C120. *)
From Verif Require Import DateTextProofs CalendarProofs ZoneProofs T_Time T_DateText TimestampProofs T_Timestamp T_Dcgen.
From Verif Require CsvUtilProofs.
Local Open Scope Z_scope.

(** ** Texts of figures *)
Lemma digit_text s : Forall digit_byte s -> exists ds, Forall (fun d => 0 <= d < 10) ds /\ s = figures ds /\ chars s = map fig ds.
Proof.
  intros F. exists (map (fun c => Z.of_N (of_byte c - 48)) s).
  assert (D : Forall (fun d => 0 <= d < 10) (map (fun c => Z.of_N (of_byte c - 48)) s)).
  { apply Forall_map. eapply Forall_impl; [|exact F]. unfold digit_byte. cbn beta. intros c Hc. lia. }
  assert (E : s = figures (map (fun c => Z.of_N (of_byte c - 48)) s)).
  { unfold figures. rewrite map_map. rewrite <- (map_id s) at 1. apply map_ext_in. intros c Hc.
    rewrite Forall_forall in F. specialize (F c Hc). unfold digit_byte in F. unfold figure, byte_of.
    replace (48 + Z.to_N (Z.of_N (of_byte c - 48)))%N with (of_byte c) by lia. unfold of_byte. symmetry. apply ascii_N_embedding. }
  split; [exact D|]. split; [exact E|].
  rewrite chars_digits by exact F. rewrite map_map. apply map_ext_in. intros c Hc.
  rewrite Forall_forall in F. specialize (F c Hc). unfold digit_byte in F. unfold fig. lia.
Qed.
Lemma pair_two a c t : 0 <= a < 10 -> 0 <= c < 10 -> fig a :: fig c :: t = two_c (10 * a + c) ++ t.
Proof. intros. unfold two_c. cbn [app]. replace ((10 * a + c) / 10) with a by lia. replace ((10 * a + c) mod 10) with c by lia. reflexivity. Qed.
Lemma quad_four a c e g t : 0 <= a < 10 -> 0 <= c < 10 -> 0 <= e < 10 -> 0 <= g < 10 ->
  fig a :: fig c :: fig e :: fig g :: t = four_c (1000 * a + 100 * c + 10 * e + g) ++ t.
Proof.
  intros. rewrite (pair_two e g), (pair_two a c) by assumption. unfold four_c. rewrite <- app_assoc.
  replace ((1000 * a + 100 * c + 10 * e + g) / 100) with (10 * a + c) by lia.
  replace ((1000 * a + 100 * c + 10 * e + g) mod 100) with (10 * e + g) by lia. reflexivity.
Qed.
Lemma pair_bytes a c : 0 <= a < 10 -> 0 <= c < 10 -> [figure a; figure c] = two (10 * a + c).
Proof. intros. unfold two. replace ((10 * a + c) / 10) with a by lia. replace ((10 * a + c) mod 10) with c by lia. reflexivity. Qed.
Lemma quad_bytes a c e g : 0 <= a < 10 -> 0 <= c < 10 -> 0 <= e < 10 -> 0 <= g < 10 ->
  [figure a; figure c; figure e; figure g] = four (1000 * a + 100 * c + 10 * e + g).
Proof.
  intros. unfold four. replace ((1000 * a + 100 * c + 10 * e + g) / 100) with (10 * a + c) by lia.
  replace ((1000 * a + 100 * c + 10 * e + g) mod 100) with (10 * e + g) by lia. rewrite <- !pair_bytes by assumption. reflexivity.
Qed.

(** ** No separator in the text, none read *)
Lemma year_short pd ds p : Forall (fun d => 0 <= d < 10) ds -> (1 <= length ds <= 4)%nat -> p FYear = None ->
  exists y, parse_item (Num FYear pd) (map fig ds) p = Some ([], upd FYear y p).
Proof.
  intros F L E. destruct ds as [|d1 ds]; [cbn in L; lia|]. pose proof (Forall_inv F) as H1.
  assert (P : parse_num FYear (map fig (d1 :: ds)) = number 1 4 (map fig (d1 :: ds))).
  { cbn [map]. unfold parse_num. rewrite trim_fig by exact H1. unfold is. rewrite !fig_is by (try exact H1; reflexivity). reflexivity. }
  cbn [parse_item]. rewrite P. unfold number. pose proof (take_figs (d1 :: ds) F 4 0 [] (or_introl I)) as G. rewrite app_nil_r in G.
  destruct (take_digits 4 0 (map fig (d1 :: ds))) as [[v k] r]. destruct G as (A & B & _).
  replace (skipn 4 (d1 :: ds)) with (@nil Z) in B by (symmetry; apply skipn_all2; lia). subst r.
  destruct (Nat.ltb_spec k 1); [rewrite A in H; cbn [length] in *; lia|].
  exists v. cbn [map app]. apply set_step, E.
Qed.
Lemma parse_items_none i l p : (match i with Literal _ => True | Num f _ => f <> FYear | _ => False end) -> parse_items (i :: l) [] p = None.
Proof.
  intros H. destruct i; try contradiction; [reflexivity|]. apply step_none; [exact H|exact I].
Qed.
(** shorter than a year, a month and a day *)
Lemma too_short pd i l ds : Forall (fun d => 0 <= d < 10) ds -> (length ds <= 4)%nat ->
  (match i with Literal _ => True | Num f _ => f <> FYear | _ => False end) -> parse_items (Num FYear pd :: i :: l) (map fig ds) nothing = None.
Proof.
  intros F L Hi. destruct ds as [|d ds]; [reflexivity|].
  destruct (year_short pd (d :: ds) nothing F) as (y & E); [cbn [length] in *; lia|reflexivity|].
  change (parse_items (Num FYear pd :: i :: l) (map fig (d :: ds)) nothing) with (and_then (parse_item (Num FYear pd) (map fig (d :: ds)) nothing) (parse_items (i :: l))).
  rewrite E. cbn [and_then]. now apply parse_items_none.
Qed.
Lemma step_one_end f pd l n p : f <> FYear -> f <> FNano -> 0 <= n < 10 -> p f = None ->
  parse_items (Num f pd :: l) [fig n] p = parse_items l [] (upd f n p).
Proof. intros. apply step_one; try assumption. exact I. Qed.
Lemma step_one_space c l n t p : 0 <= n < 10 -> parse_items (Space c :: l) (fig n :: t) p = parse_items l (fig n :: t) p.
Proof. intros. apply step_space, fig_white. assumption. Qed.
Lemma step_end c t p : parse_items [] (c :: t) p = None. Proof. reflexivity. Qed.

(** ** The formats on figures *)
Definition f_run : list item :=
  [Num FYear ZeroPad; Num FMonth ZeroPad; Num FDay ZeroPad; Space 32; Num FHour ZeroPad; Num FMinute ZeroPad; Num FSecond ZeroPad].
Definition f_day : list item := [Num FYear ZeroPad; Num FMonth ZeroPad; Num FDay ZeroPad].
Definition f_dot : list item :=
  [Num FYear ZeroPad; Num FMonth ZeroPad; Num FDay ZeroPad; Literal 46; Num FHour ZeroPad; Num FMinute ZeroPad; Num FSecond ZeroPad].
Definition f_colons : list item :=
  [Num FYear ZeroPad; Num FMonth ZeroPad; Num FDay ZeroPad; Space 32; Num FHour ZeroPad; Literal 58; Num FMinute ZeroPad; Literal 58; Num FSecond ZeroPad].
Definition f_slashes : list item :=
  [Num FYear ZeroPad; Literal 47; Num FMonth ZeroPad; Literal 47; Num FDay ZeroPad; Literal 45; Num FHour ZeroPad; Literal 58; Num FMinute ZeroPad; Literal 58; Num FSecond ZeroPad].
Ltac dstep :=
  first [ rewrite step_year by (first [lia|reflexivity])
        | rewrite step_two by (first [discriminate|lia|reflexivity])
        | rewrite step_one_end by (first [discriminate|lia|reflexivity])
        | rewrite step_literal_nil
        | rewrite step_literal_two by (first [lia|reflexivity])
        | rewrite step_literal_one by (first [lia|reflexivity])
        | rewrite step_space_nil
        | rewrite step_space_two by lia
        | rewrite step_one_space by lia
        | rewrite step_none by (first [discriminate|exact I|split; reflexivity]) ].

Definition with_date (y m d : Z) : parsed := upd FDay d (upd FMonth m (upd FYear y nothing)).
Definition with_clock (h mi s : Z) (p : parsed) : parsed := upd FSecond s (upd FMinute mi (upd FHour h p)).

(** the first figures as numbers *)
Ltac cut2 := match goal with |- context [fig ?a :: fig ?c :: ?t] => rewrite (pair_two a c t) by assumption end.
Ltac cut4 := match goal with |- context [fig ?a :: fig ?c :: fig ?e :: fig ?g :: ?t] => rewrite (quad_four a c e g t) by assumption end.
Ltac fopen F := repeat match type of F with Forall _ (_ :: _) => let H := fresh "H" in pose proof (Forall_inv F) as H; cbv beta in H; apply Forall_inv_tail in F end.
Ltac each ds F := destruct ds as [|d1 [|d2 [|d3 [|d4 [|d5 [|d6 [|d7 [|d8 [|d9 [|d10 [|d11 [|d12 [|d13 [|d14 [|d15 ds]]]]]]]]]]]]]]]; fopen F; cbn [map].
Ltac finish := cut4; repeat cut2; repeat dstep; try reflexivity.

Lemma run_day ds : Forall (fun d => 0 <= d < 10) ds ->
  parse_items f_day (map fig ds) nothing = None \/
  exists y m d, 0 <= y <= 9999 /\ 0 <= m < 100 /\ 0 <= d < 100 /\ parse_items f_day (map fig ds) nothing = Some (with_date y m d) /\
    (d < 10 /\ figures ds = four y ++ two m ++ [figure d] \/ figures ds = four y ++ two m ++ two d).
Proof.
  intros F. unfold f_day. destruct (Nat.leb_spec (length ds) 4); [left; apply too_short; [assumption..|discriminate]|].
  each ds F; cbn [length] in *; try lia.
  all: try (left; finish; fail).
  - right. exists (1000 * d1 + 100 * d2 + 10 * d3 + d4), (10 * d5 + d6), d7. repeat split; try lia.
    + finish.
    + left. split; [lia|]. rewrite <- quad_bytes, <- pair_bytes by assumption. reflexivity.
  - right. exists (1000 * d1 + 100 * d2 + 10 * d3 + d4), (10 * d5 + d6), (10 * d7 + d8). repeat split; try lia.
    + finish.
    + right. rewrite <- quad_bytes, <- !pair_bytes by assumption. reflexivity.
Qed.
Lemma run_run ds : Forall (fun d => 0 <= d < 10) ds ->
  parse_items f_run (map fig ds) nothing = None \/
  exists y m d h mi s, 0 <= y <= 9999 /\ 0 <= m < 100 /\ 0 <= d < 100 /\ 0 <= h < 100 /\ 0 <= mi < 100 /\ 0 <= s < 100 /\
    parse_items f_run (map fig ds) nothing = Some (with_clock h mi s (with_date y m d)) /\
    (s < 10 /\ figures ds = four y ++ two m ++ two d ++ two h ++ two mi ++ [figure s] \/
     figures ds = four y ++ two m ++ two d ++ two h ++ two mi ++ two s).
Proof.
  intros F. unfold f_run. destruct (Nat.leb_spec (length ds) 4); [left; apply too_short; [assumption..|discriminate]|].
  each ds F; cbn [length] in *; try lia.
  all: try (left; finish; fail).
  - right. exists (1000 * d1 + 100 * d2 + 10 * d3 + d4), (10 * d5 + d6), (10 * d7 + d8), (10 * d9 + d10), (10 * d11 + d12), d13.
    repeat split; try lia.
    + finish.
    + left. split; [lia|]. rewrite <- quad_bytes, <- !pair_bytes by assumption. reflexivity.
  - right. exists (1000 * d1 + 100 * d2 + 10 * d3 + d4), (10 * d5 + d6), (10 * d7 + d8), (10 * d9 + d10), (10 * d11 + d12), (10 * d13 + d14).
    repeat split; try lia.
    + finish.
    + right. rewrite <- quad_bytes, <- !pair_bytes by assumption. reflexivity.
Qed.
Lemma run_dot ds : Forall (fun d => 0 <= d < 10) ds -> parse_items f_dot (map fig ds) nothing = None.
Proof.
  intros F. unfold f_dot. destruct (Nat.leb_spec (length ds) 4); [apply too_short; [assumption..|discriminate]|].
  each ds F; cbn [length] in *; try lia; finish.
Qed.
Lemma run_colons ds : Forall (fun d => 0 <= d < 10) ds -> parse_items f_colons (map fig ds) nothing = None.
Proof.
  intros F. unfold f_colons. destruct (Nat.leb_spec (length ds) 4); [apply too_short; [assumption..|discriminate]|].
  each ds F; cbn [length] in *; try lia; finish.
Qed.
Lemma run_slashes ds : Forall (fun d => 0 <= d < 10) ds -> parse_items f_slashes (map fig ds) nothing = None.
Proof.
  intros F. unfold f_slashes. destruct (Nat.leb_spec (length ds) 4); [apply too_short; [assumption..|exact I]|].
  each ds F; cbn [length] in *; try lia; finish.
Qed.
Lemma run_iso ds : Forall (fun d => 0 <= d < 10) ds -> parse_items [Rfc3339] (map fig ds) nothing = None.
Proof.
  intros F. destruct (Nat.leb_spec 4 (length ds)).
  - destruct ds as [|d1 [|d2 [|d3 [|d4 ds]]]]; cbn [length] in *; try lia. fopen F. cbn [map]. cut4. apply rfc_plain; [lia|reflexivity|].
    destruct ds as [|d5 ds]; [exact I|]. cbn [map]. fopen F. apply fig_is; [assumption|reflexivity].
  - cbn [parse_items parse_item]. unfold parse_rfc3339.
    assert (N : number 4 4 (map fig ds) = None).
    { unfold number. pose proof (take_figs ds F 4 0 [] (or_introl I)) as G. rewrite app_nil_r in G.
      destruct (take_digits 4 0 (map fig ds)) as [[v k] r]. destruct G as (A & _). destruct (Nat.ltb_spec k 4); [reflexivity|lia]. }
    rewrite N. reflexivity.
Qed.

(** ** Fields and local times *)
Lemma date_fields y m d n : 0 <= y <= 9999 -> to_naive_date (with_date y m d) = Some n <-> days_since_1970 (y, m, d) n.
Proof.
  intros Hy. unfold to_naive_date. cbn [with_date upd field_eqb]. rewrite from_ymd_iff. intuition lia.
Qed.
Lemma clock_fields y m d h mi s l : 0 <= y <= 9999 -> 0 <= h -> 0 <= mi -> 0 <= s ->
  to_naive (with_clock h mi s (with_date y m d)) = Some l <->
  the_time y m d h mi s 0 l \/ s = 60 /\ the_time y m d h mi 59 1000000000 l.
Proof.
  intros Hy Hh Hmi Hs. pose proof (date_fields y m d) as D. unfold to_naive, to_naive_time.
  change (to_naive_date (with_clock h mi s (with_date y m d))) with (to_naive_date (with_date y m d)).
  cbn [with_clock with_date upd field_eqb nothing]. destruct l as [ld ls ln]. split.
  - destruct (to_naive_date (with_date y m d)) as [n|] eqn:E; [|discriminate]. clear E. pose proof (proj1 (D n Hy) eq_refl) as E.
    destruct (Z.ltb_spec h 24), (Z.ltb_spec mi 60); cbn [andb]; try discriminate.
    destruct (Z.ltb_spec s 60); [|destruct (Z.eqb_spec s 60); [|discriminate]]; intros [= <- <- <-]; [left|right; split; [assumption|]];
      (constructor; cbn [s_day s_sec s_nano]; [exact Hy|exact E|repeat split; lia|lia|lia]).
  - intros [T|[-> T]]; destruct T as [_ Td (T1 & T2 & T3) Ts Tn]; cbn [s_day s_sec s_nano] in *; rewrite (proj2 (D ld Hy) Td); subst.
    + destruct (Z.ltb_spec h 24), (Z.ltb_spec mi 60), (Z.ltb_spec s 60); cbn [andb]; try lia.
      replace (h * 3600 + mi * 60 + s) with (3600 * h + 60 * mi + s) by lia. reflexivity.
    + destruct (Z.ltb_spec h 24), (Z.ltb_spec mi 60); cbn [andb]; try lia.
      replace (h * 3600 + mi * 60 + 59) with (3600 * h + 60 * mi + 59) by lia. reflexivity.
Qed.

(** ** What the formats of a time column make of figures *)
Lemma figures_read o s : Forall digit_byte s ->
  c_datetime (civil o) (b "%+") s = None /\ c_naive (civil o) (b "%Y%m%d.%H%M%S") s = None /\
  c_naive (civil o) (b "%Y%m%d %H:%M:%S") s = None /\ c_naive (civil o) (b "%Y/%m/%d-%H:%M:%S") s = None.
Proof.
  intros F. destruct (digit_text s F) as (ds & D & _ & E).
  split; [|split; [|split]]; [cbn [c_datetime civil]|cbn [c_naive civil]..]; open_format; rewrite E.
  - rewrite run_iso by exact D. reflexivity.
  - fold f_dot. rewrite run_dot by exact D. reflexivity.
  - fold f_colons. rewrite run_colons by exact D. reflexivity.
  - fold f_slashes. rewrite run_slashes by exact D. reflexivity.
Qed.

Lemma four_digit_bytes n : 0 <= n <= 9999 -> Forall digit_byte (four n).
Proof. intros H. unfold four, two. repeat (apply Forall_cons; [unfold digit_byte; rewrite fig_byte by lia; unfold fig; lia|]). constructor. Qed.
Lemma two_digit_bytes n : 0 <= n < 100 -> Forall digit_byte (two n).
Proof. intros H. unfold two. repeat (apply Forall_cons; [unfold digit_byte; rewrite fig_byte by lia; unfold fig; lia|]). constructor. Qed.
Lemma one_digit_bytes n : 0 <= n < 10 -> Forall digit_byte [figure n].
Proof. intros H. repeat (apply Forall_cons; [unfold digit_byte; rewrite fig_byte by lia; unfold fig; lia|]). constructor. Qed.
Lemma run_together_digits s l : run_together s l -> Forall digit_byte s.
Proof.
  intros R; destruct R as [y m d l Hd T|y m d l T|y m d h mi s l Hd T|y m d h mi s l T|y m d h mi l T]; ranges T;
    repeat (apply Forall_app; split); auto using four_digit_bytes, two_digit_bytes; try (apply one_digit_bytes; lia); try (apply two_digit_bytes; lia).
Qed.

Lemma run_reads o i s l : run_together s l ->
  exists fmt, reads (civil o) fmt s l /\ first_parsing (civil o) (documented (ColIndex i)) s fmt /\
    (fmt = FDateTime (b "%Y%m%d %H%M%S") \/ fmt = FDate (b "%Y%m%d")).
Proof.
  intros R. pose proof (run_together_digits s l R) as D. destruct (figures_read o s D) as (A & B & C & E).
  assert (Key : c_naive (civil o) (b "%Y%m%d %H%M%S") s = Some l \/
                c_naive (civil o) (b "%Y%m%d %H%M%S") s = None /\ c_date (civil o) (b "%Y%m%d") s = Some (s_day l) /\
                l = {| s_day := s_day l; s_sec := 0; s_nano := 0 |}).
  { assert (Day : forall y m d, the_time y m d 0 0 0 0 l -> l = {| s_day := s_day l; s_sec := 0; s_nano := 0 |}).
    { intros y m d [_ _ _ Es En]. destruct l as [ld ls ln]. cbn [s_day s_sec s_nano] in *. subst. reflexivity. }
    destruct R as [y m d l Hd T|y m d l T|y m d h mi s l Hd T|y m d h mi s l T|y m d h mi l T]; ranges T.
    - right. repeat split; [| |eapply Day; exact T]; [cbn [c_naive civil]|cbn [c_date civil]]; open_format; text_chars;
        change (chars []) with (@nil N); repeat dstep; cbn [parse_items]; [reflexivity|].
      apply date_fields; [lia|apply (tt_day _ _ _ _ _ _ _ _ T)].
    - right. repeat split; [| |eapply Day; exact T]; [cbn [c_naive civil]|cbn [c_date civil]]; open_format; text_chars; repeat dstep; cbn [parse_items]; [reflexivity|].
      apply date_fields; [lia|apply (tt_day _ _ _ _ _ _ _ _ T)].
    - left. cbn [c_naive civil]. open_format. text_chars. change (chars []) with (@nil N). repeat dstep. cbn [parse_items].
      apply clock_fields; [lia..|left; exact T].
    - left. cbn [c_naive civil]. open_format. text_chars. repeat dstep. cbn [parse_items]. apply clock_fields; [lia..|left; exact T].
    - left. cbn [c_naive civil]. open_format. text_chars. repeat dstep. cbn [parse_items]. apply clock_fields; [lia..|right; split; [reflexivity|exact T]]. }
  destruct Key as [K|(K1 & K2 & K3)].
  - exists (FDateTime (b "%Y%m%d %H%M%S")). split; [exact K|]. split; [|left; reflexivity].
    exists [FDateTimeTz (b "%+"); FDateTime (b "%Y%m%d.%H%M%S")], [FDateTime (b "%Y%m%d %H:%M:%S"); FDateTime (b "%Y/%m/%d-%H:%M:%S"); FDate (b "%Y%m%d")].
    split; [reflexivity|]. split; [cbn [parses]; rewrite K; discriminate|]. repeat constructor; cbn [parses]; [rewrite A|rewrite B]; intros X; apply X; reflexivity.
  - exists (FDate (b "%Y%m%d")). split; [exists (s_day l); split; [exact K2|symmetry; exact K3]|]. split; [|right; reflexivity].
    exists [FDateTimeTz (b "%+"); FDateTime (b "%Y%m%d.%H%M%S"); FDateTime (b "%Y%m%d %H%M%S"); FDateTime (b "%Y%m%d %H:%M:%S"); FDateTime (b "%Y/%m/%d-%H:%M:%S")], [].
    split; [reflexivity|]. split; [cbn [parses]; rewrite K2; discriminate|].
    repeat constructor; cbn [parses]; [rewrite A|rewrite B|rewrite K1|rewrite C|rewrite E]; intros X; apply X; reflexivity.
Qed.

Lemma not_run_reads o s : Forall digit_byte s -> (forall l, ~ run_together s l) -> no_date (civil o) s.
Proof.
  intros F N. destruct (figures_read o s F) as (A & B & C & E). destruct (digit_text s F) as (ds & D & Es & Ec).
  assert (R : c_naive (civil o) (b "%Y%m%d %H%M%S") s = None).
  { cbn [c_naive civil]. open_format. rewrite Ec. fold f_run.
    destruct (run_run ds D) as [->|(y & m & d & h & mi & sc & Hy & Hm & Hd & Hh & Hmi & Hs & -> & G)]; [reflexivity|].
    destruct (to_naive (with_clock h mi sc (with_date y m d))) as [l|] eqn:X; [|reflexivity]. exfalso.
    apply clock_fields in X; [|lia..]. rewrite <- Es in G. destruct X as [T|[-> T]].
    - destruct G as [[Hl G]|G]; rewrite G in N; [exact (N l (run_time_short _ _ _ _ _ _ _ Hl T))|exact (N l (run_time _ _ _ _ _ _ _ T))].
    - destruct G as [[Hl _]|G]; [lia|]. rewrite G in N. exact (N l (run_leap _ _ _ _ _ _ T)). }
  assert (Q : c_date (civil o) (b "%Y%m%d") s = None).
  { cbn [c_date civil]. open_format. rewrite Ec. fold f_day.
    destruct (run_day ds D) as [->|(y & m & d & Hy & Hm & Hd & -> & G)]; [reflexivity|].
    destruct (to_naive_date (with_date y m d)) as [n|] eqn:X; [|reflexivity]. exfalso.
    apply date_fields in X; [|lia]. rewrite <- Es in G.
    assert (T : the_time y m d 0 0 0 0 {| s_day := n; s_sec := 0; s_nano := 0 |}).
    { constructor; cbn [s_day s_sec s_nano]; [exact Hy|exact X|repeat split; lia|reflexivity|reflexivity]. }
    destruct G as [[Hl G]|G]; rewrite G in N; [exact (N _ (run_date_short _ _ _ _ Hl T))|exact (N _ (run_date _ _ _ _ T))]. }
  split; [exact A|]. split; [|exact Q]. repeat constructor; assumption.
Qed.

(** ** The size of a number from its first figures *)
Lemma numeral_prefix s1 a : numeral s1 a -> forall s2 n, numeral (s1 ++ s2) n -> (a * 10 ^ N.of_nat (length s2) <= n)%N.
Proof.
  intros Ha s2. induction s2 as [|c s2 IH] using rev_ind; intros n Hn.
  - rewrite app_nil_r in Hn. assert (n = a) as ->; [|cbn; lia]. eapply CsvUtilProofs.numeral_det; eassumption.
  - rewrite app_assoc in Hn. inversion Hn as [c' Hc E|s' n' c' Hs Hc E].
    + exfalso. destruct s1 as [|x s1]; [inversion Ha; destruct s; discriminate|]. destruct s1, s2; discriminate E.
    + apply app_inj_tail in E. destruct E as [-> ->]. specialize (IH _ Hs). rewrite app_length. cbn [length].
      rewrite Nat.add_1_r, Nat2N.inj_succ, N.pow_succ_r'. lia.
Qed.
Lemma numeral_four y : 0 <= y <= 9999 -> numeral (four_c y) (Z.to_N y).
Proof.
  intros H.
  assert (X : forall k, 0 <= k < 10 -> CsvUtilSpec.digit (fig k)) by (intros k Hk; unfold CsvUtilSpec.digit, fig; lia).
  assert (N1 := numeral_one (fig (y / 100 / 10))). specialize (N1 ltac:(apply X; lia)).
  assert (N2 := numeral_more _ _ (fig ((y / 100) mod 10)) N1). specialize (N2 ltac:(apply X; lia)).
  assert (N3 := numeral_more _ _ (fig ((y mod 100) / 10)) N2). specialize (N3 ltac:(apply X; lia)).
  assert (N4 := numeral_more _ _ (fig ((y mod 100) mod 10)) N3). specialize (N4 ltac:(apply X; lia)).
  cbn [app] in N4. unfold four_c, two_c. cbn [app]. 
  match type of N4 with numeral _ ?v => replace (Z.to_N y) with v; [exact N4|] end.
  unfold fig. lia.
Qed.
Lemma months_sum y m : 1 <= m <= 12 -> 0 <= sum_Z (firstn (Z.to_nat (m - 1)) (month_lengths y)) <= 366.
Proof.
  intros Hm. assert (C : (Z.to_nat (m - 1) < 12)%nat) by lia.
  destruct (Z.to_nat (m - 1)) as [|[|[|[|[|[|[|[|[|[|[|[|k]]]]]]]]]]]]; [..|lia]; unfold month_lengths; destruct (is_leap y); cbv; split; discriminate.
Qed.
Lemma before_2000 y m d h mi s ns l : the_time y m d h mi s ns l -> y < 2000 -> 86400 * s_day l + s_sec l < 960000000.
Proof.
  intros T Hy. ranges T. pose proof (months_sum y m ltac:(lia)). destruct T as [_ D _ Es _]. apply days_iff in D. destruct D as [_ D].
  unfold day_number, before_year in D. lia.
Qed.

(** ** C120 *)
(** C120: a text of figures is taken for a date exactly if it can be read as one, or as a date and a time, written
    without separators. *)
Theorem C120_figures : forall o s, Forall digit_byte s -> no_date (civil o) s <-> forall l, ~ run_together s l.
Proof.
  intros o s F. split; [|apply not_run_reads, F]. intros (A & B & C) l R.
  destruct (run_reads o 0 s l R) as (fmt & X & _ & [-> | ->]); cbn [reads] in X.
  - repeat match goal with H : Forall _ (_ :: _) |- _ => let Y := fresh in apply Forall_cons_iff in H; destruct H as [Y H] end. congruence.
  - destruct X as (d & X & _). congruence.
Qed.
Print Assumptions C120_figures.

Lemma run_together_length s l : run_together s l -> In (length s) [7; 8; 13; 14]%nat.
Proof. intros []; cbn; auto. Qed.
Lemma dec_length_between n lo hi : (1 <= lo)%nat -> (1 <= hi)%nat -> (10 ^ N.of_nat lo <= n < 10 ^ N.of_nat hi)%N -> (lo < length (dec n) <= hi)%nat.
Proof.
  intros Hlo Hhi [L H]. split; [|now apply dec_length].
  destruct (Nat.ltb_spec lo (length (dec n))) as [|X]; [assumption|]. exfalso.
  pose proof (numeral_bound _ _ (dec_numeral n)) as B. rewrite chars_digits, map_length in B by apply dec_digits.
  assert (10 ^ N.of_nat (length (dec n)) <= 10 ^ N.of_nat lo)%N by (apply N.pow_le_mono_r; lia). lia.
Qed.
(** Seconds, microseconds and nanoseconds (and milliseconds before September 2001) are never taken for a date. *)
Theorem C120_never_a_date : forall u n, plausible u n -> u <> Millis \/ (n < 1000000000000)%N -> forall l, ~ run_together (dec n) l.
Proof.
  intros u n P H l R. apply run_together_length in R.
  assert (L : ((8 < length (dec n) <= 10) \/ (11 < length (dec n) <= 12) \/ (14 < length (dec n) <= 16) \/ (17 < length (dec n) <= 19))%nat).
  { destruct u; unfold plausible in P; cbn [per_second] in P.
    - left. apply dec_length_between; [lia..|]. change (10 ^ N.of_nat 8)%N with 100000000%N. change (10 ^ N.of_nat 10)%N with 10000000000%N. lia.
    - right. left. destruct H as [H|H]; [congruence|]. apply dec_length_between; [lia..|]. change (10 ^ N.of_nat 11)%N with 100000000000%N. change (10 ^ N.of_nat 12)%N with 1000000000000%N. lia.
    - right. right. left. apply dec_length_between; [lia..|]. change (10 ^ N.of_nat 14)%N with 100000000000000%N. change (10 ^ N.of_nat 16)%N with 10000000000000000%N. lia.
    - right. right. right. apply dec_length_between; [lia..|]. change (10 ^ N.of_nat 17)%N with 100000000000000000%N. change (10 ^ N.of_nat 19)%N with 10000000000000000000%N. lia. }
  cbn [In] in R. lia.
Qed.
Print Assumptions C120_never_a_date.
(** So their instants are right (C43), with no assumption about chrono. *)
Theorem C120_same_instant : forall prof o i z first_row instant u n,
  (630000000000000000 <= instant < 2000000000000000000)%N -> (instant = n * nanos_per u)%N ->
  u <> Millis \/ (n < 1000000000000)%N \/ (forall l, ~ run_together (dec n) l) -> nth_error first_row i = Some (dec n) ->
  fmt_auto_index (civil o) i z first_row None = Ok (FUnits u) /\
  get_timestamp prof (civil o) first_row (ColIndex i) (FUnits u) z = Ok instant.
Proof.
  intros prof o i z first_row instant u n R E H Hs. apply (C43_same_instant prof (civil o) i z first_row (dec n) instant u n R E Hs).
  - apply dec_digits.
  - apply dec_numeral.
  - apply C120_figures; [apply dec_digits|].
    assert (P : plausible u n) by (unfold plausible; destruct u; cbn [nanos_per per_second] in *; lia).
    destruct H as [H|[H|H]]; [apply (C120_never_a_date u n P); auto..|exact H].
Qed.
Print Assumptions C120_same_instant.

(** Milliseconds since September 2001 have thirteen figures.  Where these can be read as a date, two hours, two
    minutes and one second, they are: the time is one in the years 1000 to 1999, and not the number's. *)
Theorem C120_millis_refuted : forall prof o lower h first_row cc z i n l,
  (1000000000000 <= n < 2000000000000)%N -> run_together (dec n) l ->
  get_timestamp_col lower h cc = Ok (ColIndex i, None) -> row_text first_row (ColIndex i) (dec n) ->
  good_table z -> (forall t, -86400 < offset_at z t < 86400) ->
  (forall t, once z l t -> get_col_and_fmt (civil o) lower h first_row cc FmtAuto (zone_of o z) = Ok (ColIndex i, FDateTime (b "%Y%m%d %H%M%S"))) /\
  ((forall t, ~ once z l t) -> exists e, get_col_and_fmt (civil o) lower h first_row cc FmtAuto (zone_of o z) = Err e) /\
  forall t, once z l t -> - 2 ^ 63 <= t * 1000000000 + s_nano l < 2 ^ 63 ->
    exists m, get_timestamp prof (civil o) first_row (ColIndex i) (FDateTime (b "%Y%m%d %H%M%S")) (zone_of o z) = Ok m /\
      Z.of_N m = (t * 1000000000 + s_nano l) mod 2 ^ 64 /\ m <> (n * nanos_per Millis)%N.
Proof.
  intros prof o lower h first_row cc z i n l Hn R Hc Ht G Ho.
  destruct (run_reads o i (dec n) l R) as (fmt & X & FP & Ef).
  assert (L : length (dec n) = 13%nat).
  { assert (B : (12 < length (dec n) <= 13)%nat) by (apply dec_length_between; [lia..|]; change (10 ^ N.of_nat 12)%N with 1000000000000%N; change (10 ^ N.of_nat 13)%N with 10000000000000%N; lia). lia. }
  assert (Y : exists y m d h mi s, s < 10 /\ the_time y m d h mi s 0 l /\ dec n = four y ++ two m ++ two d ++ two h ++ two mi ++ [figure s]).
  { inversion R as [y m d l' Hd T Es|y m d l' T Es|y m d h' mi sc l' Hd T Es|y m d h' mi sc l' T Es|y m d h' mi l' T Es]; subst l'; rewrite <- Es in L; cbn in L; try discriminate L.
    exists y, m, d, h', mi, sc. auto. }
  assert (F : fmt = FDateTime (b "%Y%m%d %H%M%S")).
  { destruct Ef as [->|Ef]; [reflexivity|]. subst fmt. exfalso. destruct X as (dd & X & _). destruct Y as (y & m & d & h' & mi & sc & Hsc & T & Es). ranges T.
    rewrite Es in X. cbn [c_date civil] in X. revert X. open_format. text_chars. repeat dstep. discriminate. }
  subst fmt. cbn [reads] in X.
  assert (Dn : forall i', denotes (zone_of o z) (FDateTime (b "%Y%m%d %H%M%S")) (dec n) i' <-> exists t, once z l t /\ i' = t * 1000000000 + s_nano l).
  { intros i'. rewrite <- (local_instant_iff o z l i' G). cbn [denotes]. split.
    - intros (l' & E & I). rewrite X in E. injection E as <-. exact I.
    - intros I. exists l. auto. }
  destruct (C87_format lower (civil o) h first_row cc FmtAuto (zone_of o z) (ColIndex i) None (dec n) Hc Ht) as (_ & _ & K & _).
  destruct (K (fun _ => eq_refl) _ FP) as [K1 K2]. split; [|split].
  - intros t O. apply (K1 (t * 1000000000 + s_nano l)). apply Dn. exists t. auto.
  - intros N. apply K2. intros i' H. apply Dn in H. destruct H as (t & O & _). exact (N t O).
  - intros t O B. destruct (C86_instant_partial prof (civil o) (zone_of o z) first_row (ColIndex i) (FDateTime (b "%Y%m%d %H%M%S")) (dec n)) as (P & _).
    + intros u. discriminate.
    + exact Ht.
    + destruct (P (t * 1000000000 + s_nano l)) as (m & E & Em); [apply Dn; exists t; auto|exact B|].
      exists m. split; [exact E|]. split; [exact Em|]. intros ->. cbn [nanos_per] in Em.
      destruct Y as (y & mo & d & h' & mi & sc & Hsc & T & Es). ranges T. destruct O as [O _]. unfold clock_shows in O. specialize (Ho t).
      assert (Yr : y < 2000).
      { assert (V : numeral (chars (dec n)) n) by apply dec_numeral.
        destruct (Z.ltb_spec y 2000) as [|C]; [assumption|]. exfalso.
        rewrite Es, chars_four in V by lia. pose proof (numeral_prefix _ _ (numeral_four y ltac:(lia)) _ _ V) as Q.
        replace (length (chars (two mo ++ two d ++ two h' ++ two mi ++ [figure sc]))) with 9%nat in Q by (text_chars; reflexivity).
        change (10 ^ N.of_nat 9)%N with 1000000000%N in Q. lia. }
      pose proof (before_2000 _ _ _ _ _ _ _ _ T Yr) as W. pose proof (tt_nanos _ _ _ _ _ _ _ _ T) as En. clear - Em W Ho O Hn B En.
      assert (t < 970000000) by lia. rewrite En in *. rewrite N2Z.inj_mul in Em. change (2 ^ 64) with 18446744073709551616 in Em. change (2 ^ 63) with 9223372036854775808 in B. lia.
Qed.
Print Assumptions C120_millis_refuted.
