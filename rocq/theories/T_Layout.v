(** Layouts given by the user: C133, C134. *)
From Verif Require Import DateTextProofs CalendarProofs ZoneProofs T_Time T_DateText.
From Verif Require Import LayoutProofs.
Local Open Scope Z_scope.

Lemma moment_ranges v l : moment_of v l -> ranges v.
Proof.
  intros T. apply the_time_ranges in T. destruct T as (?&?&?&?&?&?). split; [assumption|]. intros w H'. cbn [In] in H'.
  repeat (destruct H' as [<-|H']; [lia|]). contradiction.
Qed.
Lemma q_has q v ps w : (forall w p, In p ps -> sets v p w -> q (fld w) = Some (v w)) -> has ps w -> q (fld w) = Some (v w).
Proof. intros S H. apply (S w _ H). reflexivity. Qed.
Lemma layout_date v ps f s l : spelled ps f -> moment_of v l -> shown v ps s [] -> tells_day ps ->
  exists q, parse_items (items (chars f)) (chars s) nothing = Some q /\ existsb is_other (items (chars f)) = false /\ agrees q v /\
    (forall w p, In p ps -> sets v p w -> q (fld w) = Some (v w)) /\
    (forall w, (forall p, In p ps -> ~ may_set p w) -> q (fld w) = None) /\ to_naive_date q = Some (s_day l).
Proof.
  intros Sp M Sh (Hy & Hm & Hd). destruct (read_layout v ps f s Sp (moment_ranges v l M) Sh) as (q & E & O & A & S & N).
  exists q. repeat (split; [assumption|]).
  destruct M as [My Md _ _ _]. eapply fields_date; [exact My|exact Md|..].
  - exact (q_has q v ps TheYear S Hy).
  - exact (q_has q v ps TheMonth S Hm).
  - exact (q_has q v ps TheDay S Hd).
Qed.
Lemma layout_local v ps f s l : spelled ps f -> moment_of v l -> shown v ps s [] -> tells_day ps -> tells_clock ps v ->
  exists q, parse_items (items (chars f)) (chars s) nothing = Some q /\ existsb is_other (items (chars f)) = false /\ to_naive q = Some l /\
    (In Zone ps -> q FOffset = Some (v TheOffset)) /\ (~ In Zone ps -> q FOffset = None).
Proof.
  intros Sp M Sh D (Hh & Hmi & Hs & Hf). destruct (layout_date v ps f s l Sp M Sh D) as (q & E & O & A & S & N & _).
  exists q. split; [exact E|]. split; [exact O|]. split; [|split].
  - destruct D as (Hy & Hm & Hd). eapply fields_naive; [exact M|..].
    + exact (q_has q v ps TheYear S Hy).
    + exact (q_has q v ps TheMonth S Hm).
    + exact (q_has q v ps TheDay S Hd).
    + exact (q_has q v ps TheHour S Hh).
    + exact (q_has q v ps TheMinute S Hmi).
    + destruct Hs as [Hs|[Nf Zs]]; [left; exact (q_has q v ps TheSecond S Hs)|].
      destruct (A TheSecond) as [X|X]; [|left; exact X]. right. split; [exact X|]. split; [exact Zs|].
      apply (N TheNanos). intros p Hp Hm'. apply Nf. destruct p; cbn in Hm'; try contradiction; try discriminate.
      * subst w. exfalso. apply spelled_items in Sp. destruct Sp as [_ F].
        clear - F Hp. induction F as [|p i ps l I _ IH]; [destruct Hp|]. destruct Hp as [->|Hp]; [|auto].
        inversion I; subst. cbn in *. intuition discriminate.
      * left. exact Hp.
      * right. right. eauto.
      * right. left. exact Hp.
    + destruct (A TheNanos) as [X|X]; [|left; exact X]. right. split; [exact X|].
      destruct Hf as [[Hp|[Hp|(k & Hp)]]|Hz]; [| | |exact Hz].
      * destruct (Z.eq_dec (v TheNanos) 0) as [Ez|Ne]; [exact Ez|]. pose proof (S TheNanos Point Hp (conj eq_refl Ne)). congruence.
      * pose proof (S TheNanos Count Hp eq_refl). congruence.
      * pose proof (S TheNanos (Places k) Hp eq_refl). congruence.
  - intros Hz. exact (S TheOffset Zone Hz eq_refl).
  - intros Hz. apply (N TheOffset). intros p Hp Hm'. destruct p; cbn in Hm'; try contradiction; try discriminate; try (apply Hz; exact Hp).
    subst w. apply spelled_items in Sp. destruct Sp as [_ F].
    clear - F Hp. induction F as [|p i ps l I _ IH]; [destruct Hp|]. destruct Hp as [->|Hp]; [|auto].
    inversion I; subst. cbn in *. intuition discriminate.
Qed.
Lemma offset_range v ps s rest : shown v ps s rest -> In Zone ps -> -86400 < v TheOffset < 86400.
Proof.
  induction 1 as [|p t ps s rest H _ IH]; intros Hz; [destruct Hz|]. destruct Hz as [->|Hz]; [|auto]. inversion H; subst. lia.
Qed.
Lemma asks_tried fc f col : asks fc f -> tried fc col = given f /\ fc <> FmtAuto /\ forall u, fc <> FmtEpoch u.
Proof. intros [->|(d & t & -> & ->)]; repeat split; try discriminate; congruence. Qed.

(** *** With an offset in the layout: no zone is needed *)
Lemma read_zone o v ps f s l : spelled ps f -> moment_of v l -> shown v ps s [] -> tells_day ps -> tells_clock ps v -> In Zone ps ->
  c_datetime (civil o) f s = Some ((86400 * s_day l + s_sec l - v TheOffset) * 1000000000 + s_nano l).
Proof.
  intros Sp M Sh D C Z. destruct (layout_local v ps f s l Sp M Sh D C) as (q & E & O & L & Hz & _).
  cbn [c_datetime civil]. unfold parse_from_str. rewrite O, E. unfold to_datetime. rewrite (Hz Z), L.
  pose proof (offset_range v ps s [] Sh Z). assert (B : (-86400 <? v TheOffset) && (v TheOffset <? 86400) = true) by lia. rewrite B. reflexivity.
Qed.
Theorem C133_offset : forall prof o lower h first_row cc fc z col hint f ps v s l,
  get_timestamp_col lower h cc = Ok (col, hint) -> asks fc f -> spelled ps f ->
  tells_day ps -> In Zone ps ->
  row_text first_row col s -> moment_of v l -> shown v ps s [] -> tells_clock ps v ->
  get_col_and_fmt (civil o) lower h first_row cc fc z = Ok (col, FDateTimeTz f) /\
  forall r s' v' l', row_text r col s' -> moment_of v' l' -> shown v' ps s' [] -> tells_clock ps v' ->
    let i := (86400 * s_day l' + s_sec l' - v' TheOffset) * 1000000000 + s_nano l' in
    - 2 ^ 63 <= i < 2 ^ 63 ->
    exists n, get_timestamp prof (civil o) r col (FDateTimeTz f) z = Ok n /\ Z.of_N n = i mod 2 ^ 64.
Proof.
  intros prof o lower h first_row cc fc z col hint f ps v s l Hc Ha Sp D Hz Ht M Sh C.
  destruct (asks_tried fc f col Ha) as (Et & Na & Ne). split.
  - destruct (C87_format lower (civil o) h first_row cc fc z col hint s Hc Ht) as (_ & _ & K & _).
    pose proof (read_zone o v ps f s l Sp M Sh D C Hz) as R.
    assert (FP : first_parsing (civil o) (tried fc col) s (FDateTimeTz f)).
    { rewrite Et. exists [], [FDateTime f; FDate f]. split; [reflexivity|]. split; [|constructor]. cbn [parses]. rewrite R. discriminate. }
    destruct (K (fun X => False_ind _ (Na X)) _ FP) as [K1 _]. eapply K1. cbn [denotes]. exact R.
  - intros r s' v' l' Hr M' Sh' C' i B. destruct (C86_instant_partial prof (civil o) z r col (FDateTimeTz f) s') as (A & _).
    + intros u. discriminate.
    + exact Hr.
    + apply A; [|exact B]. cbn [denotes]. exact (read_zone o v' ps f s' l' Sp M' Sh' D C' Hz).
Qed.
Print Assumptions C133_offset.

(** *** Without: the clocks of the zone show it *)
Lemma read_local o v ps f s l : spelled ps f -> moment_of v l -> shown v ps s [] -> tells_day ps -> tells_clock ps v -> ~ In Zone ps ->
  c_naive (civil o) f s = Some l /\ c_datetime (civil o) f s = None.
Proof.
  intros Sp M Sh D C Z. destruct (layout_local v ps f s l Sp M Sh D C) as (q & E & O & L & _ & Hz).
  cbn [c_datetime c_naive civil]. unfold parse_from_str. rewrite O, E. unfold to_datetime. rewrite (Hz Z). auto.
Qed.
Theorem C133_local : forall prof o lower h first_row cc fc z col hint f ps v s l,
  get_timestamp_col lower h cc = Ok (col, hint) -> asks fc f -> spelled ps f ->
  tells_day ps -> ~ In Zone ps -> good_table z ->
  row_text first_row col s -> moment_of v l -> shown v ps s [] -> tells_clock ps v ->
  let choice := get_col_and_fmt (civil o) lower h first_row cc fc (zone_of o z) in
  (forall t, once z l t -> choice = Ok (col, FDateTime f)) /\
  ((forall t, ~ once z l t) -> exists e, choice = Err e) /\
  forall r s' v' l', row_text r col s' -> moment_of v' l' -> shown v' ps s' [] -> tells_clock ps v' ->
    let time := get_timestamp prof (civil o) r col (FDateTime f) (zone_of o z) in
    (forall t, once z l' t -> - 2 ^ 63 <= t * 1000000000 + s_nano l' < 2 ^ 63 ->
       exists n, time = Ok n /\ Z.of_N n = (t * 1000000000 + s_nano l') mod 2 ^ 64) /\
    ((forall t, ~ once z l' t) -> exists e, time = Err e).
Proof.
  intros prof o lower h first_row cc fc z col hint f ps v s l Hc Ha Sp D Hz G Ht M Sh C choice.
  destruct (asks_tried fc f col Ha) as (Et & Na & Ne).
  assert (Dn : forall s v l, moment_of v l -> shown v ps s [] -> tells_clock ps v ->
            forall i, denotes (zone_of o z) (FDateTime f) s i <-> exists t, once z l t /\ i = t * 1000000000 + s_nano l).
  { clear - G Sp D Hz. intros s v l M Sh C i. destruct (read_local o v ps f s l Sp M Sh D C Hz) as [R _]. rewrite <- (local_instant_iff o z l i G).
    cbn [denotes]. split; [intros (l' & E & L); rewrite R in E; injection E as <-; exact L|]. intros L. exists l. auto. }
  assert (Cal : calendar (FDateTime f)) by (intros u; discriminate).
  destruct (C87_format lower (civil o) h first_row cc fc (zone_of o z) col hint s Hc Ht) as (_ & _ & K & _).
  destruct (read_local o v ps f s l Sp M Sh D C Hz) as [R1 R2].
  assert (FP : first_parsing (civil o) (tried fc col) s (FDateTime f)).
  { rewrite Et. exists [FDateTimeTz f], [FDate f]. split; [reflexivity|]. split; [cbn [parses]; rewrite R1; discriminate|].
    constructor; [|constructor]. cbn [parses]. rewrite R2. auto. }
  destruct (K (fun X => False_ind _ (Na X)) _ FP) as [K1 K2]. split; [|split].
  - intros t O. apply (K1 (t * 1000000000 + s_nano l)). apply (Dn s v l M Sh C). exists t. auto.
  - intros N. apply K2. intros i H. apply (Dn s v l M Sh C) in H. destruct H as (t & O & _). exact (N t O).
  - intros r s' v' l' Hr M' Sh' C' time. destruct (C86_instant_partial prof (civil o) (zone_of o z) r col (FDateTime f) s' Cal Hr) as (A & B & _). split.
    + intros t O R. apply A; [|exact R]. apply (Dn s' v' l' M' Sh' C'). exists t. auto.
    + intros N. apply B. intros i H. apply (Dn s' v' l' M' Sh' C') in H. destruct H as (t & O & _). exact (N t O).
Qed.
Print Assumptions C133_local.

(** *** A day only: its first instant.  A layout with an hour but no minute is also read like this (see C134). *)
Lemma no_number_of w ps f : spelled ps f -> w = TheNanos \/ w = TheOffset -> ~ In (Number w) ps.
Proof.
  intros Sp Hw Hp. apply spelled_items in Sp. destruct Sp as [_ F].
  induction F as [|p i ps l I _ IH]; [destruct Hp|]. destruct Hp as [->|Hp]; [|auto]. inversion I; subst. cbn in *. intuition congruence.
Qed.
Lemma read_day o v ps f s l : spelled ps f -> moment_of v l -> shown v ps s [] -> tells_day ps -> lacks_clock ps ->
  c_date (civil o) f s = Some (s_day l) /\ c_naive (civil o) f s = None /\ c_datetime (civil o) f s = None.
Proof.
  intros Sp M Sh D L. destruct (layout_date v ps f s l Sp M Sh D) as (q & E & O & A & S & N & Ed).
  assert (Unset : forall w, w <> TheNanos -> w <> TheOffset -> ~ has ps w -> q (fld w) = None).
  { intros w N1 N2 H. apply N. intros p Hp Hm. destruct p; cbn in Hm; try contradiction; subst w; auto. }
  assert (T : to_naive_time q = None).
  { unfold to_naive_time. destruct L as [L|[L|[L1 L2]]].
    - assert (X : q FHour = None) by (apply (Unset TheHour); [discriminate|discriminate|exact L]). rewrite X. reflexivity.
    - assert (X : q FMinute = None) by (apply (Unset TheMinute); [discriminate|discriminate|exact L]). rewrite X. destruct (q FHour); reflexivity.
    - assert (X : q FSecond = None) by (apply (Unset TheSecond); [discriminate|discriminate|exact L2]). rewrite X.
      assert (Y : q FNano = Some (v TheNanos)) by (destruct L1 as [L1|(k & L1)]; [exact (S TheNanos Count L1 eq_refl)|exact (S TheNanos (Places k) L1 eq_refl)]).
      rewrite Y.
      destruct (q FHour), (q FMinute); try reflexivity. destruct ((z <? 24) && (z0 <? 60)); reflexivity. }
  assert (Tn : to_naive q = None) by (unfold to_naive; rewrite Ed, T; reflexivity).
  cbn [c_date c_naive c_datetime civil]. unfold parse_from_str. rewrite O, E. split; [exact Ed|]. split; [exact Tn|].
  unfold to_datetime. rewrite Tn. destruct (q FOffset); reflexivity.
Qed.
Theorem C133_day : forall prof o lower h first_row cc fc z col hint f ps v s l,
  get_timestamp_col lower h cc = Ok (col, hint) -> asks fc f -> spelled ps f ->
  tells_day ps -> lacks_clock ps -> good_table z ->
  row_text first_row col s -> moment_of v l -> shown v ps s [] ->
  let choice := get_col_and_fmt (civil o) lower h first_row cc fc (zone_of o z) in
  (forall t, once z (midnight l) t -> choice = Ok (col, FDate f)) /\
  ((forall t, ~ once z (midnight l) t) -> exists e, choice = Err e) /\
  forall r s' v' l', row_text r col s' -> moment_of v' l' -> shown v' ps s' [] ->
    let time := get_timestamp prof (civil o) r col (FDate f) (zone_of o z) in
    (forall t, once z (midnight l') t -> - 2 ^ 63 <= t * 1000000000 < 2 ^ 63 ->
       exists n, time = Ok n /\ Z.of_N n = (t * 1000000000) mod 2 ^ 64) /\
    ((forall t, ~ once z (midnight l') t) -> exists e, time = Err e).
Proof.
  intros prof o lower h first_row cc fc z col hint f ps v s l Hc Ha Sp D C G Ht M Sh choice.
  destruct (asks_tried fc f col Ha) as (Et & Na & Ne).
  assert (Dn : forall s v l, moment_of v l -> shown v ps s [] ->
            forall i, denotes (zone_of o z) (FDate f) s i <-> exists t, once z (midnight l) t /\ i = t * 1000000000).
  { clear - G Sp D C. intros s v l M Sh i. destruct (read_day o v ps f s l Sp M Sh D C) as [R _].
    pose proof (local_instant_iff o z (midnight l) i G) as L.
    cbn [denotes]. split.
    - intros (d & E & Hl). rewrite R in E. injection E as <-. apply L in Hl. destruct Hl as (t & O & ->). exists t. split; [exact O|]. cbn [midnight s_nano]. lia.
    - intros (t & O & ->). exists (s_day l). split; [exact R|]. apply L. exists t. split; [exact O|]. cbn [midnight s_nano]. lia. }
  assert (Cal : calendar (FDate f)) by (intros u; discriminate).
  destruct (C87_format lower (civil o) h first_row cc fc (zone_of o z) col hint s Hc Ht) as (_ & _ & K & _).
  destruct (read_day o v ps f s l Sp M Sh D C) as (R1 & R2 & R3).
  assert (FP : first_parsing (civil o) (tried fc col) s (FDate f)).
  { rewrite Et. exists [FDateTimeTz f; FDateTime f], []. split; [reflexivity|]. split; [cbn [parses]; rewrite R1; discriminate|].
    constructor; [|constructor; [|constructor]]; cbn [parses]; [rewrite R3|rewrite R2]; auto. }
  destruct (K (fun X => False_ind _ (Na X)) _ FP) as [K1 K2]. split; [|split].
  - intros t O. apply (K1 (t * 1000000000)). apply (Dn s v l M Sh). exists t. auto.
  - intros N. apply K2. intros i H. apply (Dn s v l M Sh) in H. destruct H as (t & O & _). exact (N t O).
  - intros r s' v' l' Hr M' Sh' time. destruct (C86_instant_partial prof (civil o) (zone_of o z) r col (FDate f) s' Cal Hr) as (A & B & _). split.
    + intros t O R. apply A; [|exact R]. apply (Dn s' v' l' M' Sh'). exists t. auto.
    + intros N. apply B. intros i H. apply (Dn s' v' l' M' Sh') in H. destruct H as (t & O & _). exact (N t O).
Qed.
Print Assumptions C133_day.

(** ** C134: nothing a text says is ignored *)
Lemma states_sets v ps w : states ps w -> exists p, In p ps /\ sets v p w.
Proof.
  intros [H|[[-> [H|(k & H)]]|[-> H]]]; [exists (Number w)|exists Count|exists (Places k)|exists Zone]; (split; [exact H|reflexivity]).
Qed.
(** If the layout says something twice, a text that says different things is an error, whatever they are. *)
Theorem C134_clash_partial : forall prof o lower h first_row cc fc z col hint f ps qs u v t s l l' w,
  get_timestamp_col lower h cc = Ok (col, hint) -> asks fc f -> spelled (ps ++ qs) f ->
  moment_of u l -> moment_of v l' -> shown u ps t s -> shown v qs s [] ->
  states ps w -> states qs w -> u w <> v w ->
  (row_text first_row col (t ++ s) -> exists e, get_col_and_fmt (civil o) lower h first_row cc fc z = Err e) /\
  forall r fmt, row_text r col (t ++ s) -> In fmt (given f) -> exists e, get_timestamp prof (civil o) r col fmt z = Err e.
Proof.
  intros prof o lower h first_row cc fc z col hint f ps qs u v t s l l' w Hc Ha Sp Mu Mv Hu Hv Su Sv Ne.
  destruct (asks_tried fc f col Ha) as (Et & Na & Nu).
  destruct (layout_clash u v ps qs f t s w Sp (moment_ranges _ _ Mu) (moment_ranges _ _ Mv) Hu Hv Ne (states_sets u ps w Su) (states_sets v qs w Sv)) as [E O].
  assert (R1 : c_datetime (civil o) f (t ++ s) = None) by (cbn [c_datetime civil]; unfold parse_from_str; rewrite O, E; reflexivity).
  assert (R2 : c_naive (civil o) f (t ++ s) = None) by (cbn [c_naive civil]; unfold parse_from_str; rewrite O, E; reflexivity).
  assert (R3 : c_date (civil o) f (t ++ s) = None) by (cbn [c_date civil]; unfold parse_from_str; rewrite O, E; reflexivity).
  split.
  - intros Ht. destruct (C87_format lower (civil o) h first_row cc fc z col hint (t ++ s) Hc Ht) as (_ & _ & _ & K).
    destruct (K (fun X => False_ind _ (Na X)) Nu) as [K1|(i & x & K1 & _)]; [|exact K1|contradiction].
    rewrite Et. intros fmt [<-|[<-|[<-|[]]]]; cbn [parses]; [rewrite R1|rewrite R2|rewrite R3]; auto.
  - intros r fmt Hr Hf. assert (Cal : calendar fmt) by (intros x ->; destruct Hf as [Hf|[Hf|[Hf|[]]]]; discriminate).
    destruct (C86_instant_partial prof (civil o) z r col fmt (t ++ s) Cal Hr) as (_ & B & _). apply B.
    intros i Hi. destruct Hf as [<-|[<-|[<-|[]]]]; cbn [denotes] in Hi.
    + congruence.
    + destruct Hi as (x & Hi & _). congruence.
    + destruct Hi as (x & Hi & _). congruence.
Qed.
Print Assumptions C134_clash_partial.

(** *** ISO 8601 (recognised by itself, or asked for): a small t, and UTC by name *)
Theorem C133_iso : forall prof o lower h first_row cc fc z col hint s t,
  get_timestamp_col lower h cc = Ok (col, hint) ->
  (fc = FmtAuto /\ hint = None /\ (exists i, col = ColIndex i) \/ fc = FmtExplicit (b "%+")) ->
  row_text first_row col s -> iso_like s t ->
  get_col_and_fmt (civil o) lower h first_row cc fc z = Ok (col, FDateTimeTz (b "%+")) /\
  (forall r s' t', row_text r col s' -> iso_like s' t' -> - 2 ^ 63 <= t' < 2 ^ 63 ->
    exists n, get_timestamp prof (civil o) r col (FDateTimeTz (b "%+")) z = Ok n /\ Z.of_N n = t' mod 2 ^ 64) /\
  (- 2 ^ 63 <= t < 2 ^ 63 -> exists n, parse_range_element prof (civil o) s z = Ok n /\ Z.of_N n = t mod 2 ^ 64).
Proof.
  intros prof o lower h first_row cc fc z col hint s t Hc Ha Ht W. split; [|split].
  - destruct (C87_format lower (civil o) h first_row cc fc z col hint s Hc Ht) as (_ & _ & K & _).
    assert (FP : first_parsing (civil o) (tried fc col) s (FDateTimeTz (b "%+"))).
    { assert (P : parses (civil o) (FDateTimeTz (b "%+")) s) by (cbn [parses]; rewrite (iso_like_reads o s t W); discriminate).
      destruct Ha as [(-> & _ & i & ->)| ->]; (eexists []; eexists; split; [reflexivity|]; split; [exact P|constructor]). }
    assert (N : fc = FmtAuto -> hint = None) by (destruct Ha as [(_ & E & _)| ->]; [auto|discriminate]).
    destruct (K N _ FP) as [K1 _]. apply (K1 t). cbn [denotes]. apply iso_like_reads, W.
  - intros r s' t' Hr W' R. destruct (C86_instant_partial prof (civil o) z r col (FDateTimeTz (b "%+")) s') as (A & _).
    + intros u. discriminate.
    + exact Hr.
    + apply A; [|exact R]. cbn [denotes]. apply iso_like_reads, W'.
  - intros R. assert (Nd : all_digits s = false).
    { destruct W as [y m d x hh mi sc f fs off of_ l T Hx O F]. ranges T. unfold all_digits. text_chars. rewrite forallb_app. cbn [forallb].
      change (is_digit 45) with false. cbn [andb]. apply andb_false_r. }
    unfold parse_range_element, complete. rewrite Nd. unfold parse_completed. cbn [first_fmt]. rewrite (iso_like_reads o s t W). apply nanos_spec, R.
Qed.
Print Assumptions C133_iso.

(** C134: with a layout that lacks a time of day (an hour without minutes, a fraction without seconds) the time of
    day and the offset a text shows are ignored: all of a day is the same time. *)
Theorem C134_unused_refuted : forall prof o z col f ps r1 r2 s1 s2 v1 v2 l1 l2,
  spelled ps f -> tells_day ps -> lacks_clock ps ->
  row_text r1 col s1 -> moment_of v1 l1 -> shown v1 ps s1 [] ->
  row_text r2 col s2 -> moment_of v2 l2 -> shown v2 ps s2 [] -> s_day l1 = s_day l2 ->
  get_timestamp prof (civil o) r1 col (FDate f) (zone_of o z) = get_timestamp prof (civil o) r2 col (FDate f) (zone_of o z).
Proof.
  intros prof o z col f ps r1 r2 s1 s2 v1 v2 l1 l2 Sp D L Ht1 M1 Sh1 Ht2 M2 Sh2 E.
  destruct (read_day o v1 ps f s1 l1 Sp M1 Sh1 D L) as [R1 _]. destruct (read_day o v2 ps f s2 l2 Sp M2 Sh2 D L) as [R2 _].
  unfold get_timestamp. rewrite (proj2 (text_spec r1 col s1) Ht1), (proj2 (text_spec r2 col s2) Ht2). cbn [bind]. rewrite R1, R2, E. reflexivity.
Qed.
Print Assumptions C134_unused_refuted.
