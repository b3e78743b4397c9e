(** Calendar texts with chrono's own parser (ChronoModel): C116, C117. *)
From Verif Require Import DateTextProofs CalendarProofs ZoneProofs T_Time.
Local Open Scope Z_scope.

(** ** C116 *)
Lemma not_iso o y s : 0 <= y <= 9999 -> match chars s with c :: _ => is c "-" = false | [] => True end ->
  ~ parses (civil o) (FDateTimeTz (b "%+")) (four y ++ s).
Proof.
  intros Hy H. cbn [parses c_datetime civil]. open_format. rewrite chars_four by lia.
  rewrite rfc_plain by (try lia; try reflexivity; exact H). congruence.
Qed.
Ltac ranges T := let A := fresh in pose proof (the_time_ranges _ _ _ _ _ _ _ _ T) as A; destruct A as (?&?&?&?&?&?).
Ltac try_naive := cbn [c_naive civil]; open_format; text_chars; repeat step.
Ltac no_parse := cbn [parses c_naive civil]; open_format; text_chars; repeat step; let X := fresh in intro X; apply X; reflexivity.
Ltac got T := cbn [parse_items]; eapply fields_naive; [exact T|..]; try reflexivity; first [left; reflexivity|right; repeat split; reflexivity].
Ltac rejected := first [ apply not_iso; [lia|text_chars; first [exact I|reflexivity|unfold two_c; cbn [app]; unfold is; apply fig_is; [lia|reflexivity]]]
                       | no_parse ].
Ltac rejects := repeat (apply Forall_cons; [rejected|]); apply Forall_nil.

(** What a format makes of a text: a local time. *)
Definition reads (ch : chrono) (fmt : ts_fmt) (s : bytes) (l : local ch) : Prop :=
  match fmt with
  | FDateTime f => c_naive ch f s = Some l
  | FDate f => exists d, c_date ch f s = Some d /\ c_midnight ch d = l
  | _ => False
  end.
Lemma written_reads o col s fmt l : written col s fmt l -> reads (civil o) fmt s l /\ first_parsing (civil o) (documented col) s fmt.
Proof.
  assert (Key : forall before fmt after, reads (civil o) fmt s l -> documented col = before ++ fmt :: after ->
            Forall (fun g => ~ parses (civil o) g s) before -> reads (civil o) fmt s l /\ first_parsing (civil o) (documented col) s fmt).
  { intros before f after R E F. split; [exact R|]. exists before, after. split; [exact E|]. split; [|exact F].
    destruct f; cbn [reads parses] in *; try contradiction; [congruence|]. destruct R as (d & R & _). congruence. }
  intros W.
  destruct W as [i y m d h mi s l T|i y m d h mi s l T|i y m d h mi s l T|i y m d h mi s l T|i y m d l T
                |i j y m d h mi s ms l Hms T|i j y m d h mi s l T|i j y m d h mi s l T|i j y m d h mi l T|i j y m d h mi l Hh T].
  all: ranges T; cbn [documented] in *; rewrite <- ?app_assoc in *.
  - eapply (Key [_]); [|reflexivity|].
    + cbn [reads]. try_naive. got T.
    + rejects.
  - eapply (Key [_; _]); [|reflexivity|].
    + cbn [reads]. try_naive. got T.
    + rejects.
  - eapply (Key [_; _; _]); [|reflexivity|].
    + cbn [reads]. try_naive. got T.
    + rejects.
  - eapply (Key [_; _; _; _]); [|reflexivity|].
    + cbn [reads]. try_naive. got T.
    + rejects.
  - eapply (Key [_; _; _; _; _]); [|reflexivity|].
    + cbn [reads]. exists (s_day l). split.
      * cbn [c_date civil]. open_format. text_chars. repeat step. cbn [parse_items].
        eapply fields_date; [apply (tt_year _ _ _ _ _ _ _ _ T)|apply (tt_day _ _ _ _ _ _ _ _ T)|..]; reflexivity.
      * destruct T as [_ _ _ Es En]. destruct l as [ld ls ln]. cbn [s_day s_sec s_nano c_midnight civil] in *. subst. reflexivity.
    + rejects.
  - eapply (Key []); [|reflexivity|].
    + cbn [reads]. try_naive. got T.
    + rejects.
  - eapply (Key [_]); [|reflexivity|].
    + cbn [reads]. try_naive. got T.
    + rejects.
  - eapply (Key [_; _]); [|reflexivity|].
    + cbn [reads]. try_naive. got T.
    + rejects.
  - eapply (Key [_; _; _]); [|reflexivity|].
    + cbn [reads]. try_naive. got T.
    + rejects.
  - cbn [app] in *. eapply (Key [_; _; _]); [|reflexivity|].
    + cbn [reads]. try_naive. got T.
    + rejects.
Qed.

(** A zone table as the zone of the readers. *)
Definition zone_of (o : foreign) (z : zone_table) : tz (civil o) := Some (from_local z : local (civil o) -> local_result).

Lemma local_instant_iff o z l i : good_table z ->
  local_instant (zone_of o z) l i <-> exists t, once z l t /\ i = t * 1000000000 + s_nano l.
Proof.
  intros G. unfold local_instant, zone_of. pose proof (from_local_spec z l G) as F. split.
  - intros (f & [= <-] & E). rewrite E in F. exact F.
  - intros (t & O & ->). exists (from_local z). split; [reflexivity|].
    change (from_local z l = LSingle (t * 1000000000 + s_nano l)).
    destruct (from_local z l) as [|j|j k].
    + destruct (F t). apply O.
    + destruct F as (t' & O' & ->). destruct O as [O1 O2], O' as [O3 O4]. rewrite (O2 _ O3). reflexivity.
    + destruct F as (t1 & t2 & Hne & S1 & S2). destruct O as [_ O2]. apply O2 in S1. apply O2 in S2. congruence.
Qed.

(** C117: a zone gives a local time an instant exactly if its clocks show that time exactly once; in the hour that
    is skipped and in the hour that is repeated when the clocks change it is an error. *)
Theorem C117_local_times : forall o z l, good_table z ->
  (forall i, from_local_datetime (zone_of o z) l = Ok i <-> exists t, once z l t /\ i = t * 1000000000 + s_nano l) /\
  ((forall t, ~ once z l t) <-> exists e, from_local_datetime (zone_of o z) l = Err e).
Proof.
  intros o z l G. pose proof (local_instant_iff o z l) as L.
  assert (D : forall i, from_local_datetime (zone_of o z) l = Ok i <-> local_instant (zone_of o z) l i).
  { intros i. unfold from_local_datetime, local_instant, zone_of. split.
    - intros H. exists (from_local z). split; [reflexivity|]. destruct (from_local z l) eqn:E; try discriminate. injection H as ->. reflexivity.
    - intros (f & [= <-] & E). change (from_local z l = LSingle i) in E. rewrite E. reflexivity. }
  split.
  - intros i. rewrite D. apply L, G.
  - split.
    + intros N. destruct (from_local_datetime (zone_of o z) l) as [i|e| | |] eqn:E.
      * destruct (proj1 (L i G) (proj1 (D i) eq_refl)) as (t & O & _). destruct (N t O).
      * exists e. reflexivity.
      * unfold from_local_datetime, zone_of in E. destruct (from_local z l); discriminate.
      * unfold from_local_datetime, zone_of in E. destruct (from_local z l); discriminate.
      * unfold from_local_datetime, zone_of in E. destruct (from_local z l); discriminate.
    + intros (e & E) t O. assert (X : from_local_datetime (zone_of o z) l = Ok (t * 1000000000 + s_nano l)).
      { apply D, L; [exact G|]. exists t. auto. }
      congruence.
Qed.
Print Assumptions C117_local_times.

(** C116: a time written in a documented layout.  The layout is recognised by itself from the first row, and every
    row written in it gets the instant at which the clocks of the zone show its time; a time the clocks show never
    or twice is an error. *)
Theorem C116_documented : forall prof o lower h first_row cc z col s fmt l,
  get_timestamp_col lower h cc = Ok (col, None) -> row_text first_row col s -> written col s fmt l -> good_table z ->
  let choice := get_col_and_fmt (civil o) lower h first_row cc FmtAuto (zone_of o z) in
  (forall t, once z l t -> choice = Ok (col, fmt)) /\
  ((forall t, ~ once z l t) -> exists e, choice = Err e) /\
  forall r s' l', row_text r col s' -> written col s' fmt l' ->
    let time := get_timestamp prof (civil o) r col fmt (zone_of o z) in
    (forall t, once z l' t -> - 2 ^ 63 <= t * 1000000000 + s_nano l' < 2 ^ 63 ->
       exists n, time = Ok n /\ Z.of_N n = (t * 1000000000 + s_nano l') mod 2 ^ 64) /\
    ((forall t, ~ once z l' t) -> exists e, time = Err e).
Proof.
  intros prof o lower h first_row cc z col s fmt l Hc Ht W G choice.
  assert (D : forall s l, written col s fmt l -> forall i, denotes (zone_of o z) fmt s i <-> exists t, once z l t /\ i = t * 1000000000 + s_nano l).
  { clear - G. intros s l W i. destruct (written_reads o _ _ _ _ W) as [R _]. rewrite <- (local_instant_iff o z l i G).
    destruct fmt; cbn [reads denotes] in *; try contradiction.
    - split; [intros (l' & E & L); rewrite R in E; injection E as <-; exact L|]. intros L. exists l. auto.
    - destruct R as (d & R & <-). split; [intros (d' & E & L); rewrite R in E; injection E as <-; exact L|]. intros L. exists d. auto. }
  assert (Cal : calendar fmt). { intros u ->. destruct (written_reads o _ _ _ _ W) as [R _]. exact R. }
  destruct (C87_format lower (civil o) h first_row cc FmtAuto (zone_of o z) col None s Hc Ht) as (_ & _ & K & _).
  destruct (written_reads o _ _ _ _ W) as [_ FP].
  destruct (K (fun _ => eq_refl) fmt FP) as [K1 K2]. split; [|split].
  - intros t O. apply (K1 (t * 1000000000 + s_nano l)). apply (D s l W). exists t. auto.
  - intros N. apply K2. intros i H. apply (D s l W) in H. destruct H as (t & O & _). exact (N t O).
  - intros r s' l' Hr W' time. destruct (C86_instant_partial prof (civil o) (zone_of o z) r col fmt s' Cal Hr) as (A & B & _). split.
    + intros t O R. apply A; [|exact R]. apply (D s' l' W'). exists t. auto.
    + intros N. apply B. intros i H. apply (D s' l' W') in H. destruct H as (t & O & _). exact (N t O).
Qed.
Print Assumptions C116_documented.

(** ISO 8601 times with an offset need no zone. *)
Theorem C116_iso : forall prof o lower h first_row cc z i s t,
  get_timestamp_col lower h cc = Ok (ColIndex i, None) -> row_text first_row (ColIndex i) s -> iso_text s t ->
  get_col_and_fmt (civil o) lower h first_row cc FmtAuto z = Ok (ColIndex i, FDateTimeTz (b "%+")) /\
  forall r s' t', row_text r (ColIndex i) s' -> iso_text s' t' -> - 2 ^ 63 <= t' < 2 ^ 63 ->
    exists n, get_timestamp prof (civil o) r (ColIndex i) (FDateTimeTz (b "%+")) z = Ok n /\ Z.of_N n = t' mod 2 ^ 64.
Proof.
  intros prof o lower h first_row cc z i s t Hc Ht W. split.
  - destruct (C87_format lower (civil o) h first_row cc FmtAuto z (ColIndex i) None s Hc Ht) as (_ & _ & K & _).
    assert (FP : first_parsing (civil o) (tried FmtAuto (ColIndex i)) s (FDateTimeTz (b "%+"))).
    { exists [], [FDateTime (b "%Y%m%d.%H%M%S"); FDateTime (b "%Y%m%d %H%M%S"); FDateTime (b "%Y%m%d %H:%M:%S"); FDateTime (b "%Y/%m/%d-%H:%M:%S"); FDate (b "%Y%m%d")].
      split; [reflexivity|]. split; [|constructor]. cbn [parses]. rewrite (iso_reads o s t W). discriminate. }
    destruct (K (fun _ => eq_refl) _ FP) as [K1 _]. apply (K1 t). cbn [denotes]. apply iso_reads, W.
  - intros r s' t' Hr W' R. destruct (C86_instant_partial prof (civil o) z r (ColIndex i) (FDateTimeTz (b "%+")) s') as (A & _).
    + intros u. discriminate.
    + exact Hr.
    + apply A; [|exact R]. cbn [denotes]. apply iso_reads, W'.
Qed.
Print Assumptions C116_iso.
