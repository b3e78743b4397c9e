(** --begin and --end with chrono's own parser (ChronoModel): C118. *)
From Verif Require Import DateTextProofs CalendarProofs ZoneProofs T_Time T_DateText TimestampProofs T_Timestamp.
Local Open Scope Z_scope.

(** ** The formats, by their parts *)
Definition date_style (k : nat) : list item :=
  match k with
  | 0%nat => [Num FYear ZeroPad; Num FMonth ZeroPad; Num FDay ZeroPad]
  | 1%nat => [Num FYear ZeroPad; Literal 47; Num FMonth ZeroPad; Literal 47; Num FDay ZeroPad]
  | _ => [Num FYear ZeroPad; Literal 45; Num FMonth ZeroPad; Literal 45; Num FDay ZeroPad]
  end.
Definition sep_style (k : nat) : list item :=
  match k with 0%nat => [Space 32] | 1%nat => [Literal 45] | _ => [Literal 84] end.
Definition clock_style (k : nat) : list item :=
  match k with
  | 0%nat => [Num FHour ZeroPad; Literal 58; Num FMinute ZeroPad; Literal 58; Num FSecond ZeroPad]
  | _ => [Num FHour ZeroPad; Num FMinute ZeroPad; Num FSecond ZeroPad]
  end.
Definition frac_style (k : nat) : list item := match k with 0%nat => [] | _ => [Frac None] end.
Definition style (i j k n : nat) : list item := date_style i ++ sep_style j ++ clock_style k ++ frac_style n.
Definition style_text (i j k n : nat) : bytes :=
  nth i [b "%Y%m%d"; b "%Y/%m/%d"; b "%Y-%m-%d"] [] ++ nth j [b " "; b "-"; b "T"] [] ++
  nth k [b "%H:%M:%S"; b "%H%M%S"] [] ++ nth n [[]; b "%.f"] [].
Definition style_fine (i j k n : nat) : Prop := (i < 3 /\ j < 3 /\ k < 2 /\ n < 2)%nat.
Ltac cases3 i := destruct i as [|[|[|i]]]; [| | |exfalso; lia].
Ltac cases2 i := destruct i as [|[|i]]; [| |exfalso; lia].
Lemma style_items i j k n : style_fine i j k n -> items (chars (style_text i j k n)) = style i j k n.
Proof. intros (Hi & Hj & Hk & Hn). cases3 i; cases3 j; cases2 k; cases2 n; vm_compute; reflexivity. Qed.
Lemma style_other i j k n : existsb is_other (style i j k n) = false.
Proof. destruct i as [|[|i]], j as [|[|j]], k as [|k], n as [|n]; reflexivity. Qed.
Lemma in_nth {A} (x : A) l : In x l -> exists i, (i < length l)%nat /\ nth i l x = x /\ forall d, nth i l d = x.
Proof.
  intros H. destruct (In_nth l x x H) as (i & Hi & E). exists i. split; [exact Hi|]. split; [exact E|].
  intros d. rewrite (nth_indep l d x Hi). exact E.
Qed.
Lemma bound_format_style f : bound_format f <-> exists i j k n, style_fine i j k n /\ f = style_text i j k n.
Proof.
  split.
  - intros (d & s & t & x & Hd & Hs & Ht & Hx & ->).
    destruct (in_nth _ _ Hd) as (i & Hi & _ & Ei), (in_nth _ _ Hs) as (j & Hj & _ & Ej), (in_nth _ _ Ht) as (k & Hk & _ & Ek), (in_nth _ _ Hx) as (n & Hn & _ & En).
    exists i, j, k, n. split; [repeat split; assumption|]. unfold style_text. rewrite Ei, Ej, Ek, En. reflexivity.
  - intros (i & j & k & n & (Hi & Hj & Hk & Hn) & ->). unfold style_text. do 4 eexists.
    split; [|split; [|split; [|split; [|reflexivity]]]]; apply nth_In; assumption.
Qed.

(** ** The texts, by their parts *)
Definition date_c (k : nat) (y m d : Z) : text :=
  match k with
  | 0%nat => four_c y ++ two_c m ++ two_c d
  | 1%nat => four_c y ++ 47%N :: two_c m ++ 47%N :: two_c d
  | _ => four_c y ++ 45%N :: two_c m ++ 45%N :: two_c d
  end.
Definition sep_c (k : nat) : text := match k with 0%nat => [32%N] | 1%nat => [45%N] | _ => [84%N] end.
Definition clock_c (k : nat) (h mi s : Z) : text :=
  match k with 0%nat => two_c h ++ 58%N :: two_c mi ++ 58%N :: two_c s | _ => two_c h ++ two_c mi ++ two_c s end.

Definition with_date (y m d : Z) : parsed := upd FDay d (upd FMonth m (upd FYear y nothing)).
Definition with_clock (h mi s : Z) (p : parsed) : parsed := upd FSecond s (upd FMinute mi (upd FHour h p)).
Lemma date_step i i' y m d l t : (i < 3)%nat -> (i' < 3)%nat -> 0 <= y <= 9999 -> 1 <= m <= 12 -> 1 <= d <= 31 ->
  parse_items (date_style i ++ l) (date_c i' y m d ++ t) nothing = if Nat.eqb i i' then parse_items l t (with_date y m d) else None.
Proof.
  intros Hi Hi' Hy Hm Hd. cases3 i; cases3 i'; cbn [date_style date_c Nat.eqb app]; rewrite <- ?app_assoc; cbn [app]; rewrite <- ?app_assoc; cbn [app];
    repeat step; reflexivity.
Qed.
Lemma clock_step j j' k k' y m d h mi s l t : (j < 3)%nat -> (j' < 3)%nat -> (k < 2)%nat -> (k' < 2)%nat ->
  0 <= h < 24 -> 0 <= mi < 60 -> 0 <= s < 60 ->
  parse_items (sep_style j ++ clock_style k ++ l) (sep_c j' ++ clock_c k' h mi s ++ t) (with_date y m d)
  = if Nat.eqb j j' && Nat.eqb k k' then parse_items l t (with_clock h mi s (with_date y m d)) else None.
Proof.
  intros Hj Hj' Hk Hk' H1 H2 H3.
  cases3 j; cases3 j'; cases2 k; cases2 k'; cbn [sep_style sep_c clock_style clock_c Nat.eqb app andb]; rewrite <- ?app_assoc; cbn [app]; rewrite <- ?app_assoc; cbn [app];
    repeat step; reflexivity.
Qed.
Lemma frac_step n q p : (n < 2)%nat -> fraction_fine q -> p FNano = None ->
  parse_items (frac_style n) (fraction_c q) p =
  match n, q with
  | 0%nat, Some _ => None
  | _, Some ds => Some (upd FNano (nanos_of ds) p)
  | _, None => Some p
  end.
Proof.
  intros Hn Hq E. cases2 n; destruct q as [ds|]; cbn [frac_style fraction_c fraction_fine] in *; try reflexivity.
  rewrite <- (app_nil_r (map fig ds)). rewrite step_frac by assumption. reflexivity.
Qed.

Lemma style_reads i j k n i' j' k' q y m d h mi s l : style_fine i j k n -> (i' < 3)%nat -> (j' < 3)%nat -> (k' < 2)%nat ->
  fraction_fine q -> the_time y m d h mi s (fraction_of q) l ->
  let r := match parse_items (style i j k n) (date_c i' y m d ++ sep_c j' ++ clock_c k' h mi s ++ fraction_c q) nothing with
           | Some p => to_naive p | None => None end in
  (r = None \/ r = Some l) /\ (i = i' -> j = j' -> k = k' -> n = 1%nat -> r = Some l).
Proof.
  intros (Hi & Hj & Hk & Hn) Hi' Hj' Hk' Hq T. ranges T. cbn zeta. unfold style. rewrite date_step by assumption.
  destruct (Nat.eqb_spec i i') as [Ei|Ei]; [|split; [left; reflexivity|intros; contradiction]].
  rewrite clock_step by assumption.
  destruct (Nat.eqb_spec j j') as [Ej|Ej]; cbn [andb]; [|split; [left; reflexivity|intros; contradiction]].
  destruct (Nat.eqb_spec k k') as [Ek|Ek]; [|split; [left; reflexivity|intros; contradiction]].
  rewrite frac_step by (try assumption; reflexivity).
  destruct n as [|[|n]]; [| |exfalso; lia]; destruct q as [ds|]; cbn [fraction_of] in *.
  - split; [left; reflexivity|]. intros _ _ _ X. discriminate X.
  - assert (E : to_naive (with_clock h mi s (with_date y m d)) = Some l).
    { eapply fields_naive; [exact T|..]; try reflexivity; [left; reflexivity|right; split; reflexivity]. }
    rewrite E. auto.
  - assert (E : to_naive (upd FNano (nanos_of ds) (with_clock h mi s (with_date y m d))) = Some l).
    { eapply fields_naive; [exact T|..]; try reflexivity; left; reflexivity. }
    rewrite E. auto.
  - assert (E : to_naive (with_clock h mi s (with_date y m d)) = Some l).
    { eapply fields_naive; [exact T|..]; try reflexivity; [left; reflexivity|right; split; reflexivity]. }
    rewrite E. auto.
Qed.

Lemma not_rfc i j k q y m d h mi s : (i < 3)%nat -> (j < 3)%nat -> (k < 2)%nat -> fraction_fine q ->
  0 <= y <= 9999 -> 1 <= m <= 12 -> 1 <= d <= 31 -> 0 <= h < 24 -> 0 <= mi < 60 -> 0 <= s < 60 ->
  parse_items [Rfc3339] (date_c i y m d ++ sep_c j ++ clock_c k h mi s ++ fraction_c q) nothing = None.
Proof.
  intros Hi Hj Hk Hq Hy Hm Hd Hh Hmi Hs. cases3 i; cbn [date_c]; rewrite <- ?app_assoc; cbn [app].
  - apply rfc_plain; [lia|reflexivity|]. unfold two_c. cbn [app]. apply fig_is; [lia|reflexivity].
  - apply rfc_plain; [lia|reflexivity|reflexivity].
  - rewrite <- !app_assoc; cbn [app]; rewrite <- ?app_assoc.
    cbn [parse_items parse_item]. unfold parse_rfc3339.
    rewrite number_four by lia. rewrite set_step by reflexivity. cbn [and_then].
    rewrite literal_step by reflexivity. cbn [and_then]. rewrite number_two by lia. rewrite set_step by reflexivity. cbn [and_then].
    rewrite literal_step by reflexivity. cbn [and_then]. rewrite number_two by lia. rewrite set_step by reflexivity. cbn [and_then].
    cases3 j; [reflexivity|reflexivity|]. cbn [sep_c app].
    rewrite literal_step by reflexivity. cbn [and_then].
    cases2 k; cbn [clock_c]; rewrite <- ?app_assoc; cbn [app]; rewrite <- ?app_assoc.
    + rewrite number_two by lia. rewrite set_step by reflexivity. cbn [and_then app].
      rewrite literal_step by reflexivity. cbn [and_then]. rewrite <- ?app_assoc. rewrite number_two by lia. rewrite set_step by reflexivity. cbn [and_then app].
      rewrite literal_step by reflexivity. cbn [and_then app]. rewrite <- ?app_assoc. rewrite number_two by lia. rewrite set_step by reflexivity. cbn [and_then].
      destruct q as [ds|]; cbn [fraction_c fraction_fine] in *.
      * unfold one_char at 1. change (is 46 ".") with true. cbn iota. rewrite <- (app_nil_r (map fig ds)).
        rewrite nanosecond_figs by (try exact Hq; exact I). rewrite set_step by reflexivity. reflexivity.
      * reflexivity.
    + rewrite number_two by lia. rewrite set_step by reflexivity. cbn [and_then].
      unfold two_c at 1. cbn [app]. unfold literal at 1, one_char at 1. unfold is at 1. rewrite fig_is by (try lia; reflexivity). reflexivity.
Qed.

Lemma date_chars y m d dt t : 0 <= y <= 9999 -> 1 <= m <= 12 -> 1 <= d <= 31 -> date_text y m d dt ->
  exists i, (i < 3)%nat /\ chars (dt ++ t) = date_c i y m d ++ chars t.
Proof.
  intros Hy Hm Hd [| |]; [exists 0%nat|exists 1%nat|exists 2%nat]; (split; [lia|]); rewrite <- !app_assoc; text_chars; cbn [date_c];
    rewrite <- ?app_assoc; cbn [app]; rewrite <- ?app_assoc; reflexivity.
Qed.
Lemma sep_chars sp t : In sp [b " "; b "-"; b "T"] -> exists j, (j < 3)%nat /\ chars (sp ++ t) = sep_c j ++ chars t.
Proof. intros [<-|[<-|[<-|[]]]]; [exists 0%nat|exists 1%nat|exists 2%nat]; (split; [lia|]); reflexivity. Qed.
Lemma clock_chars h mi s ct t : 0 <= h < 24 -> 0 <= mi < 60 -> 0 <= s < 60 -> clock_text h mi s ct ->
  exists k, (k < 2)%nat /\ chars (ct ++ t) = clock_c k h mi s ++ chars t.
Proof.
  intros H1 H2 H3 [|]; [exists 0%nat|exists 1%nat]; (split; [lia|]); rewrite <- !app_assoc; text_chars; cbn [clock_c];
    rewrite <- ?app_assoc; cbn [app]; rewrite <- ?app_assoc; reflexivity.
Qed.
Lemma bound_chars s l : bound_text s l -> exists y m d h mi sc i j k q, the_time y m d h mi sc (fraction_of q) l /\ fraction_fine q /\
  (i < 3)%nat /\ (j < 3)%nat /\ (k < 2)%nat /\ chars s = date_c i y m d ++ sep_c j ++ clock_c k h mi sc ++ fraction_c q.
Proof.
  intros [y m d h mi sc ns dt sp ct l' T D S C E|y m d h mi sc ds dt sp ct l' T D S C F]; ranges T.
  - subst ns. destruct (date_chars y m d dt (sp ++ ct)) as (i & Hi & Ei); try assumption.
    destruct (sep_chars sp ct S) as (j & Hj & Ej). destruct (clock_chars h mi sc ct []) as (k & Hk & Ek); try assumption.
    rewrite app_nil_r in Ek. exists y, m, d, h, mi, sc, i, j, k, None. repeat split; try assumption; try apply T.
    rewrite Ei, Ej, Ek. reflexivity.
  - destruct (date_chars y m d dt (sp ++ ct ++ b "." ++ figures ds)) as (i & Hi & Ei); try assumption.
    destruct (sep_chars sp (ct ++ b "." ++ figures ds) S) as (j & Hj & Ej).
    destruct (clock_chars h mi sc ct (b "." ++ figures ds)) as (k & Hk & Ek); try assumption.
    exists y, m, d, h, mi, sc, i, j, k, (Some ds). repeat split; try assumption; try apply T; try apply F.
    rewrite Ei, Ej, Ek. cbn [fraction_c]. rewrite chars_dot, chars_figures_end, app_nil_r by apply F. reflexivity.
Qed.

(** A local date and time in one of the layouts of a bound. *)
Lemma bound_reads o s l : bound_text s l ->
  c_datetime (civil o) (b "%+") s = None /\
  (exists f, bound_format f /\ c_naive (civil o) f s = Some l) /\
  (forall f l', bound_format f -> c_naive (civil o) f s = Some l' -> l' = l).
Proof.
  intros B. destruct (bound_chars s l B) as (y & m & d & h & mi & sc & i & j & k & q & T & Hq & Hi & Hj & Hk & E). ranges T.
  assert (R : forall i' j' k' n, style_fine i' j' k' n ->
            c_naive (civil o) (style_text i' j' k' n) s =
            match parse_items (style i' j' k' n) (date_c i y m d ++ sep_c j ++ clock_c k h mi sc ++ fraction_c q) nothing with
            | Some p => to_naive p | None => None end).
  { intros i' j' k' n Hf. cbn [c_naive civil]. unfold parse_from_str. rewrite style_items, style_other, E by exact Hf. reflexivity. }
  split; [|split].
  - cbn [c_datetime civil]. open_format. rewrite E, not_rfc by assumption. reflexivity.
  - exists (style_text i j k 1). assert (Hf : style_fine i j k 1) by (repeat split; auto). split.
    + apply bound_format_style. exists i, j, k, 1%nat. auto.
    + rewrite R by exact Hf. apply (style_reads i j k 1 i j k q y m d h mi sc l Hf Hi Hj Hk Hq T); reflexivity.
  - intros f l' Hf. apply bound_format_style in Hf. destruct Hf as (i' & j' & k' & n & Hf & ->). rewrite R by exact Hf.
    destruct (style_reads i' j' k' n i j k q y m d h mi sc l Hf Hi Hj Hk Hq T) as [[X|X] _]; cbn zeta in X;
      intros Y; [discriminate (eq_trans (eq_sym Y) X)|]. pose proof (eq_trans (eq_sym Y) X) as V. injection V as V. exact V.
Qed.

(** ** C118 *)
Lemma bound_nondigit s l : bound_text s l -> all_digits s = false.
Proof.
  intros B. destruct (bound_chars s l B) as (y & m & d & h & mi & sc & i & j & k & q & T & Hq & Hi & Hj & Hk & E).
  unfold all_digits. rewrite E, !forallb_app. cases3 j; cbn [sep_c forallb]; (change (is_digit 32) with false || change (is_digit 45) with false || change (is_digit 84) with false);
    cbn [andb]; apply andb_false_r.
Qed.
Lemma bound_element prof o z s l : bound_text s l ->
  parse_range_element prof (civil o) s z = (let* i := from_local_datetime z l in nanos_as_u64 prof i).
Proof.
  intros B. pose proof (bound_nondigit s l B) as Nd. destruct (bound_reads o s l B) as (A & (f & Hf & Ef) & U).
  unfold parse_range_element, complete. rewrite Nd. unfold parse_completed. cbn [first_fmt]. rewrite A.
  pose proof (first_fmt_in (c_naive (civil o)) range_formats s) as R.
  destruct (first_fmt (c_naive (civil o)) range_formats s) as [[g l']|].
  - destruct R as [Hg Eg]. rewrite (U g l' (proj1 (range_formats_spec g) Hg) Eg). reflexivity.
  - exfalso. apply range_formats_spec in Hf. specialize (R f Hf). congruence.
Qed.
Lemma two_digits n : 0 <= n < 100 -> Forall digit_byte (two n).
Proof. intros H. repeat constructor; unfold digit_byte; rewrite fig_byte by lia; unfold fig; lia. Qed.
Lemma four_digits n : 0 <= n <= 9999 -> Forall digit_byte (four n).
Proof. intros H. apply Forall_app. split; apply two_digits; lia. Qed.
Lemma period_element prof o z s l : period_text s l ->
  parse_range_element prof (civil o) s z = (let* i := from_local_datetime z l in nanos_as_u64 prof i).
Proof.
  intros P.
  assert (D : forall y m d, the_time y m d 0 0 0 0 l -> bound_text ((four y ++ two m ++ two d) ++ b "-" ++ (two 0 ++ b ":" ++ two 0 ++ b ":" ++ two 0)) l).
  { intros y m d T. eapply bound; [exact T|constructor|cbn; auto|constructor|reflexivity]. }
  destruct P as [y l' T|y m l' T|y m d l' T]; ranges T; rewrite <- (bound_element prof o z _ _ (D _ _ _ T)).
  - destruct (C44_completed prof (civil o) z (four y)) as (A & _); [apply four_digits; lia|]. rewrite A by reflexivity. reflexivity.
  - destruct (C44_completed prof (civil o) z (four y ++ two m)) as (_ & A & _).
    { apply Forall_app. split; [apply four_digits; lia|apply two_digits; lia]. }
    rewrite A by reflexivity. rewrite <- !app_assoc. reflexivity.
  - destruct (C44_completed prof (civil o) z (four y ++ two m ++ two d)) as (_ & _ & A).
    { apply Forall_app. split; [apply four_digits; lia|]. apply Forall_app. split; apply two_digits; lia. }
    rewrite A by reflexivity. rewrite <- !app_assoc. reflexivity.
Qed.
Lemma iso_nondigit s i : iso_text s i -> all_digits s = false.
Proof.
  intros [y m d h mi sc f fs off of_ l T O F]. ranges T. unfold all_digits. text_chars. rewrite forallb_app. cbn [forallb].
  change (is_digit 45) with false. cbn [andb]. apply andb_false_r.
Qed.
Lemma iso_element prof o z s i : iso_text s i -> parse_range_element prof (civil o) s z = nanos_as_u64 prof i.
Proof.
  intros W. pose proof (iso_nondigit s i W) as Nd. unfold parse_range_element, complete. rewrite Nd.
  unfold parse_completed. cbn [first_fmt]. rewrite (iso_reads o s i W). reflexivity.
Qed.
Lemma local_once prof o z l : good_table z ->
  (forall t, once z l t -> - 2 ^ 63 <= t * 1000000000 + s_nano l < 2 ^ 63 ->
     exists n, (let* i := from_local_datetime (zone_of o z) l in nanos_as_u64 prof i) = Ok n /\ Z.of_N n = (t * 1000000000 + s_nano l) mod 2 ^ 64) /\
  ((forall t, ~ once z l t) -> exists e, (let* i := from_local_datetime (zone_of o z) l in nanos_as_u64 prof i) = Err e).
Proof.
  intros G. destruct (C117_local_times o z l G) as [A B]. split.
  - intros t O R. assert (E : from_local_datetime (zone_of o z) l = Ok (t * 1000000000 + s_nano l)) by (apply A; eauto).
    rewrite E. cbn [bind]. apply nanos_spec. exact R.
  - intros N. apply B in N. destruct N as (e & ->). exists e. reflexivity.
Qed.

(** C118: a bound is a local date and time in any of the layouts (three ways to write the date, three separators,
    two ways to write the time of day, with or without a fraction), or a year, a month or a day, of which the first
    instant is meant: the bound is the instant at which the clocks of the zone show that time, or an error if they
    never do or do so twice.  Or it is an ISO 8601 time with an offset, and then no zone is needed. *)
Theorem C118_bounds : forall prof o z s l, good_table z -> bound_text s l \/ period_text s l ->
  let bound := parse_range_element prof (civil o) s (zone_of o z) in
  (forall t, once z l t -> - 2 ^ 63 <= t * 1000000000 + s_nano l < 2 ^ 63 ->
     exists n, bound = Ok n /\ Z.of_N n = (t * 1000000000 + s_nano l) mod 2 ^ 64) /\
  ((forall t, ~ once z l t) -> exists e, bound = Err e).
Proof.
  intros prof o z s l G [B|P] bound; unfold bound; [rewrite (bound_element prof o _ s l B)|rewrite (period_element prof o _ s l P)]; now apply local_once.
Qed.
Print Assumptions C118_bounds.
Theorem C118_iso : forall prof o z s t, iso_text s t -> - 2 ^ 63 <= t < 2 ^ 63 ->
  exists n, parse_range_element prof (civil o) s z = Ok n /\ Z.of_N n = t mod 2 ^ 64.
Proof. intros prof o z s t W R. rewrite (iso_element prof o z s t W). apply nanos_spec, R. Qed.
Print Assumptions C118_iso.
