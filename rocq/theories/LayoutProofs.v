(** chrono's parser on the layouts of LayoutSpec. *)
From Verif Require Import BytesProofs DateTextProofs CalendarProofs.
From Verif Require Export LayoutSpec.
Local Open Scope Z_scope.

Definition asc (s : bytes) : Prop := Forall (fun c => (of_byte c < 128)%N) s.
Lemma asc_app s t : asc s -> asc t -> asc (s ++ t).
Proof. intros. apply Forall_app. auto. Qed.
Lemma chars_asc s : asc s -> chars s = map of_byte s.
Proof. induction 1 as [|c s Hc _ IH]; [reflexivity|]. rewrite chars_ascii by exact Hc. cbn [map]. rewrite IH. reflexivity. Qed.
Lemma asc_white ws : Forall white_space ws -> asc ws.
Proof. apply Forall_impl. unfold white_space. intros; lia. Qed.
Lemma fig_lt n : 0 <= n < 10 -> (of_byte (figure n) < 128)%N.
Proof. intros H. rewrite fig_byte by exact H. unfold fig. lia. Qed.
Lemma asc_two n : 0 <= n < 100 -> asc (two n).
Proof. intros H. unfold two. repeat apply Forall_cons; try apply Forall_nil; apply fig_lt; lia. Qed.
Lemma asc_four n : 0 <= n <= 9999 -> asc (four n).
Proof. intros H. unfold four. apply asc_app; apply asc_two; lia. Qed.
Lemma asc_figures ds : Forall (fun d => 0 <= d < 10) ds -> asc (figures ds).
Proof. intros H. unfold figures, asc. apply Forall_map. revert H. apply Forall_impl. apply fig_lt. Qed.
Lemma white_char c : white_space c -> is_whitespace (of_byte c) = true.
Proof. unfold white_space, is_whitespace. lia. Qed.
Lemma asc_not_white c : (of_byte c < 128)%N -> ~ white_space c -> is_whitespace (of_byte c) = false.
Proof. unfold white_space, is_whitespace. lia. Qed.
Lemma trim_white ws t : Forall white_space ws -> trim_start (map of_byte ws ++ t) = trim_start t.
Proof. induction 1 as [|c ws Hc _ IH]; [reflexivity|]. cbn [map app trim_start]. rewrite white_char by exact Hc. exact IH. Qed.
Lemma trim_none s : asc s -> next_not white_space s -> trim_start (map of_byte s) = map of_byte s.
Proof. intros A N. destruct s as [|c s]; [reflexivity|]. inversion A; subst. cbn [map trim_start]. rewrite asc_not_white by assumption. reflexivity. Qed.
Lemma no_digit_rest s : next_not is_figure s -> no_digit (map of_byte s).
Proof. destruct s as [|c s]; [auto|]. cbn. unfold is_figure, is_digit. intros. lia. Qed.

(** ** What is set *)
Definition fld (w : what) : field :=
  match w with
  | TheYear => FYear | TheMonth => FMonth | TheDay => FDay | TheHour => FHour | TheMinute => FMinute
  | TheSecond => FSecond | TheNanos => FNano | TheOffset => FOffset
  end.
Definition agrees (q : parsed) (v : moment) : Prop := forall w, q (fld w) = None \/ q (fld w) = Some (v w).
Lemma field_eqb_fld w w' : field_eqb (fld w) (fld w') = true -> w = w'.
Proof. destruct w, w'; cbn; congruence. Qed.
Lemma field_eqb_same f : field_eqb f f = true.
Proof. destruct f; reflexivity. Qed.
Lemma set_agrees w v q : agrees q v ->
  exists q', set (fld w) (v w) q = Some q' /\ agrees q' v /\ q' (fld w) = Some (v w) /\ forall w', w' <> w -> q' (fld w') = q (fld w').
Proof.
  intros A. unfold set. destruct (A w) as [E|E]; rewrite E.
  - eexists. split; [reflexivity|]. split; [|split].
    + intros w'. unfold upd. destruct (field_eqb (fld w) (fld w')) eqn:F; [|apply A]. apply field_eqb_fld in F. subst w'. auto.
    + unfold upd. rewrite field_eqb_same. reflexivity.
    + intros w' N. unfold upd. destruct (field_eqb (fld w) (fld w')) eqn:F; [|reflexivity]. apply field_eqb_fld in F. congruence.
  - rewrite Z.eqb_refl. exists q. auto.
Qed.

(** ** The items of a layout *)
Inductive item_of : part -> item -> Prop :=
| io_char c : item_of (Char c) (Literal (of_byte c))
| io_white c : item_of White (Space c)
| io_number w pd : In w [TheYear; TheMonth; TheDay; TheHour; TheMinute; TheSecond] -> item_of (Number w) (Num (fld w) pd)
| io_point o : item_of Point (Frac o)
| io_places k : (k <= 9)%nat -> item_of (Places k) (FracNoDot k)
| io_nanos pd : item_of Count (Num FNano pd)
| io_zone c : item_of Zone (Offset c).

Lemma spells_items ps t : spells ps t -> asc t /\ forall r, exists l, items (chars t ++ r) = l ++ items r /\ Forall2 item_of ps l.
Proof.
  assert (A : forall t : bytes, forallb (fun c => (of_byte c <? 128)%N) t = true -> asc t).
  { intros t0 H. apply Forall_forall. intros c I. rewrite forallb_forall in H. specialize (H c I). cbn beta in H. lia. }
  intros [w pad l Hp Hl|c (H1 & H2 & H3)|c Hc|c Hc| | |x Hx|x Hx|x Hx|t0 Ht|k t0 Ht| |t0 Ht].
  - assert (Hw : In w [TheYear; TheMonth; TheDay; TheHour; TheMinute; TheSecond]) by (destruct w; cbn in *; tauto).
    assert (N : forall pd, item_of (Number w) (Num (fld w) pd)) by (intro; apply io_number; exact Hw).
    destruct Hp as [<-|[<-|[<-|[<-|[]]]]]; destruct w; cbn [letters In] in Hl;
      repeat (destruct Hl as [<-|Hl]; [split; [apply A; reflexivity|]; intros r; eexists [_]; split; [reflexivity|]; constructor; [apply N|constructor]|]); contradiction.
  - split; [constructor; [exact H1|constructor]|]. intros r. rewrite chars_ascii by exact H1. cbn [chars app items].
    assert (P : is (of_byte c) "%" = false).
    { unfold is. apply N.eqb_neq. intros E. apply H3. rewrite <- (byte_of_of c), E. reflexivity. }
    rewrite P. rewrite asc_not_white by assumption. eexists [_]. split; [reflexivity|]. constructor; [constructor|constructor].
  - injection Hc as ->. split; [apply A; reflexivity|]. intros r. eexists [_]. split; [reflexivity|]. constructor; [constructor|constructor].
  - assert (L : (of_byte c < 128)%N) by (unfold white_space in Hc; lia).
    split; [constructor; [exact L|constructor]|]. intros r. rewrite chars_ascii by exact L. cbn [chars app items].
    assert (P : is (of_byte c) "%" = false).
    { unfold is. change (code "%") with 37%N. unfold white_space in Hc. lia. }
    rewrite P, white_char by exact Hc. eexists [_]. split; [reflexivity|]. constructor; [constructor|constructor].
  - split; [apply A; reflexivity|]. intros r. eexists [_]. split; [reflexivity|]. constructor; [constructor|constructor].
  - split; [apply A; reflexivity|]. intros r. eexists [_]. split; [reflexivity|]. constructor; [constructor|constructor].
  - injection Hx as ->. split; [apply A; reflexivity|]. intros r. eexists [_;_;_;_;_]. split; [reflexivity|].
    repeat apply Forall2_cons; try apply Forall2_nil; try apply io_char;
      first [apply (io_number TheYear)|apply (io_number TheMonth)|apply (io_number TheDay)|apply (io_number TheHour)|apply (io_number TheMinute)|apply (io_number TheSecond)]; cbn; tauto.
  - injection Hx as ->. split; [apply A; reflexivity|]. intros r. eexists [_;_;_;_;_]. split; [reflexivity|].
    repeat apply Forall2_cons; try apply Forall2_nil; try apply io_char;
      first [apply (io_number TheYear)|apply (io_number TheMonth)|apply (io_number TheDay)|apply (io_number TheHour)|apply (io_number TheMinute)|apply (io_number TheSecond)]; cbn; tauto.
  - injection Hx as ->. split; [apply A; reflexivity|]. intros r. eexists [_;_;_]. split; [reflexivity|].
    repeat apply Forall2_cons; try apply Forall2_nil; try apply io_char;
      first [apply (io_number TheYear)|apply (io_number TheMonth)|apply (io_number TheDay)|apply (io_number TheHour)|apply (io_number TheMinute)|apply (io_number TheSecond)]; cbn; tauto.
  - destruct Ht as [<-|[<-|[<-|[<-|[]]]]]; (split; [apply A; reflexivity|]); intros r; eexists [_]; (split; [reflexivity|]); (constructor; [constructor|constructor]).
  - destruct Ht as [[= <- <-]|[[= <- <-]|[[= <- <-]|[]]]]; (split; [apply A; reflexivity|]); intros r; eexists [_]; (split; [reflexivity|]); (constructor; [|constructor]); apply io_places; lia.
  - split; [apply A; reflexivity|]. intros r. eexists [_]. split; [reflexivity|]. constructor; [constructor|constructor].
  - destruct Ht as [<-|[<-|[]]]; (split; [apply A; reflexivity|]); intros r; eexists [_]; (split; [reflexivity|]); (constructor; [constructor|constructor]).
Qed.
Lemma spelled_items ps f : spelled ps f -> asc f /\ Forall2 item_of ps (items (chars f)).
Proof.
  induction 1 as [|ps t qs s H _ [Ha IH]]; [split; constructor|].
  destruct (spells_items _ _ H) as [At K]. split; [apply asc_app; assumption|].
  rewrite chars_app by exact At. destruct (K (chars s)) as (l & -> & F). apply Forall2_app; assumption.
Qed.
Lemma not_other ps l : Forall2 item_of ps l -> existsb is_other l = false.
Proof. induction 1 as [|p i ps l H _ IH]; [reflexivity|]. cbn [existsb]. rewrite IH. destruct H; reflexivity. Qed.

(** ** Reading *)
Definition ranges (v : moment) : Prop :=
  0 <= v TheYear <= 9999 /\ forall w, In w [TheMonth; TheDay; TheHour; TheMinute; TheSecond] -> 0 <= v w < 100.
(** The part sets this; the part may set this. *)
Definition sets (v : moment) (p : part) (w : what) : Prop :=
  match p with Number x => x = w | Point => w = TheNanos /\ v TheNanos <> 0 | Places _ | Count => w = TheNanos | Zone => w = TheOffset | _ => False end.
Definition may_set (p : part) (w : what) : Prop :=
  match p with Number x => x = w | Point | Places _ | Count => w = TheNanos | Zone => w = TheOffset | _ => False end.

Lemma scaled ds : Forall (fun d => 0 <= d < 10) ds -> forall j e, (length ds <= j + 1)%nat ->
  nanos_from (10 ^ Z.of_nat j) ds * 10 ^ Z.of_nat e = nanos_from (10 ^ Z.of_nat (j + e)) ds.
Proof.
  induction 1 as [|d ds Hd _ IH]; intros j e H; [reflexivity|]. cbn [nanos_from length] in *.
  destruct j as [|j].
  - destruct ds; [|cbn in H; lia]. cbn [nanos_from]. change (Z.of_nat 0) with 0. rewrite Z.pow_0_r. cbn [Nat.add]. lia.
  - replace (10 ^ Z.of_nat (S j) / 10) with (10 ^ Z.of_nat j) by (rewrite Nat2Z.inj_succ, Z.pow_succ_r, Z.mul_comm, Z.div_mul; lia).
    replace (10 ^ Z.of_nat (S j + e) / 10) with (10 ^ Z.of_nat (j + e)) by (cbn [Nat.add]; rewrite Nat2Z.inj_succ, Z.pow_succ_r, Z.mul_comm, Z.div_mul; lia).
    rewrite Z.mul_add_distr_r, IH by lia. rewrite !Nat2Z.inj_add, !Z.pow_add_r by lia. lia.
Qed.
Lemma places ds t min : Forall (fun d => 0 <= d < 10) ds -> (min <= length ds <= 9)%nat ->
  exists n, number min (length ds) (map fig ds ++ t) = Some (n, t) /\ n * 10 ^ Z.of_nat (9 - length ds) = nanos_of ds.
Proof.
  intros F L. unfold number. pose proof (take_figs ds F (length ds) 0 t (or_intror (le_n _))) as G.
  destruct (take_digits (length ds) 0 (map fig ds ++ t)) as [[v k] r]. destruct G as (A & B & C).
  rewrite Nat.min_id in A. subst k. destruct (Nat.ltb_spec (length ds) min); [lia|].
  rewrite skipn_all in B. cbn [map app] in B. subst r. exists v. split; [reflexivity|].
  rewrite Nat.sub_diag in C. change (Z.of_nat 0) with 0 in C. rewrite Z.pow_0_r in C.
  destruct ds as [|d ds]; [cbn in *; nia|].
  replace v with (nanos_from (10 ^ Z.of_nat (length ds)) (d :: ds)).
  - rewrite scaled by (try exact F; cbn [length]; lia). unfold nanos_of. f_equal. cbn [length] in *.
    replace (length ds + (9 - S (length ds)))%nat with 8%nat by lia. reflexivity.
  - rewrite Z.mul_1_r in C. rewrite C. cbn [length]. rewrite Nat2Z.inj_succ, Z.pow_succ_r by lia.
    rewrite (Z.mul_comm 10 (10 ^ _)), Z.div_mul by lia. lia.
Qed.
(** scan::number on figures *)
Lemma value_from ds : forall a, fold_left (fun n d => 10 * n + d) ds a = a * 10 ^ Z.of_nat (length ds) + value ds.
Proof.
  unfold value. induction ds as [|d ds IH]; intros a; [cbn; lia|]. cbn [fold_left length]. rewrite IH, (IH (10 * 0 + d)).
  rewrite Nat2Z.inj_succ, Z.pow_succ_r by lia. lia.
Qed.
Lemma take_value ds : Forall (fun d => 0 <= d < 10) ds -> forall max acc t, (length ds <= max)%nat -> no_digit t \/ max = length ds ->
  take_digits max acc (map fig ds ++ t) = (fold_left (fun n d => 10 * n + d) ds acc, length ds, t).
Proof.
  induction 1 as [|d ds Hd _ IH]; intros max acc t L N.
  - cbn [map app length fold_left]. destruct max as [|max]; [destruct t; reflexivity|]. destruct N as [N|N]; [|discriminate].
    destruct t as [|c t]; [reflexivity|]. cbn in N. cbn [take_digits]. rewrite N. reflexivity.
  - destruct max as [|max]; [cbn in L; lia|]. cbn [map app]. rewrite take_fig by exact Hd. cbn [length] in *. rewrite IH by (first [lia|destruct N; [left; assumption|right; lia]]).
    cbn [fold_left]. replace (acc * 10 + d) with (10 * acc + d) by lia. reflexivity.
Qed.
Lemma number_figs min max ds t : Forall (fun d => 0 <= d < 10) ds -> no_digit t \/ max = length ds -> (min <= length ds <= max)%nat ->
  number min max (map fig ds ++ t) = Some (value ds, t).
Proof.
  intros F N L. unfold number. rewrite take_value by (try assumption; lia). destruct (Nat.ltb_spec (length ds) min); [lia|]. reflexivity.
Qed.
Lemma colon_sep sep n t : Forall (fun c => white_space c \/ [c] = b ":") sep -> 0 <= n < 100 ->
  colon_or_space (map of_byte sep ++ two_c n ++ t) = two_c n ++ t.
Proof.
  intros F H. induction F as [|c sep Hc _ IH].
  - cbn [map app]. unfold two_c. cbn [app colon_or_space]. unfold is. rewrite fig_is by (try reflexivity; lia). rewrite fig_white by lia. reflexivity.
  - cbn [map app colon_or_space]. assert (E : is (of_byte c) ":" || is_whitespace (of_byte c) = true).
    { destruct Hc as [Hc|Hc]; [rewrite white_char by exact Hc; apply orb_true_r|injection Hc as ->; reflexivity]. }
    rewrite E. exact IH.
Qed.

Lemma shows_asc v p t rest ps l : item_of p l -> In p ps -> ranges v -> (forall c, In (Char c) ps -> (of_byte c < 128)%N) -> shows v p t rest -> asc t.
Proof.
  intros I Ip [Ry R] C H. destruct H as [c rest|t rest F N|ws rest F|w ws rest Hw F|w ws rest Hw F L N|rest Z N|ds rest S E N|k ds rest Lk F E|ws ds rest Fw F Lk E|ws sg hh sep mm rest F H1 H2 Fs Sg].
  - constructor; [apply C; exact Ip|constructor].
  - apply asc_white, F.
  - apply asc_app; [apply asc_white, F|apply asc_four, Ry].
  - apply asc_app; [apply asc_white, F|apply asc_two, R]. inversion I; subst. cbn in *. intuition congruence.
  - apply asc_app; [apply asc_white, F|]. constructor; [|constructor]. apply fig_lt.
    assert (0 <= v w < 100); [|lia]. apply R. inversion I; subst. cbn in *. intuition congruence.
  - constructor.
  - apply asc_app; [constructor; [reflexivity|constructor]|apply asc_figures, S].
  - apply asc_figures, F.
  - apply asc_app; [apply asc_white, Fw|apply asc_figures, F].
  - repeat apply asc_app.
    + apply asc_white, F.
    + destruct Sg as [[-> _]|[-> _]]; (constructor; [reflexivity|constructor]).
    + apply asc_two; lia.
    + revert Fs. apply Forall_impl. intros c [H|H]; [unfold white_space in H; lia|injection H as ->; reflexivity].
    + apply asc_two; lia.
Qed.

(** one part: nothing is set, or one thing *)
Lemma read_raw v p i t rest : item_of p i -> ranges v -> asc (t ++ rest) -> shows v p t rest ->
  ((forall w, ~ sets v p w) /\ forall q, parse_item i (chars (t ++ rest)) q = Some (chars rest, q)) \/
  exists y, (forall w, sets v p w -> w = y) /\ may_set p y /\
    forall q, parse_item i (chars (t ++ rest)) q = set_rest (fld y) (Some (v y, chars rest)) q.
Proof.
  intros I [Ry R] A H. assert (Ar : asc rest) by (apply Forall_app in A; apply A).
  assert (Same : i = i -> (forall w, sets v p w -> False) -> (forall q, parse_item i (chars (t ++ rest)) q = Some (chars rest, q)) ->
  ((forall w, ~ sets v p w) /\ forall q, parse_item i (chars (t ++ rest)) q = Some (chars rest, q)) \/
  exists y, (forall w, sets v p w -> w = y) /\ may_set p y /\
    forall q, parse_item i (chars (t ++ rest)) q = set_rest (fld y) (Some (v y, chars rest)) q) by (intros _ N E; left; auto).
  assert (Set1 : forall y, (forall w, sets v p w -> w = y) -> may_set p y ->
    (forall q, parse_item i (chars (t ++ rest)) q = set_rest (fld y) (Some (v y, chars rest)) q) ->
  ((forall w, ~ sets v p w) /\ forall q, parse_item i (chars (t ++ rest)) q = Some (chars rest, q)) \/
  exists y, (forall w, sets v p w -> w = y) /\ may_set p y /\
    forall q, parse_item i (chars (t ++ rest)) q = set_rest (fld y) (Some (v y, chars rest)) q) by (intros y U M E; right; eauto).
  destruct H as [c rest|t rest F N|ws rest F|w ws rest Hw F|w ws rest Hw F L N|rest Z N|ds rest S E N|k ds rest Lk F E|ws ds rest Fw F Lk E|ws sg hh sep mm rest F H1 H2 Fs Sg].
  - (* Char *)
    inversion I; subst. apply Same; [reflexivity|intros w []|]; intros q. inversion A; subst. cbn [app]. rewrite chars_ascii by assumption. apply item_literal.
  - (* White *)
    inversion I; subst. apply Same; [reflexivity|intros w []|]; intros q. rewrite chars_app by (apply asc_white, F). cbn [parse_item].
    rewrite (chars_asc t) by (apply asc_white, F). rewrite trim_white by exact F. rewrite (chars_asc rest), trim_none by assumption. reflexivity.
  - (* Year *)
    inversion I; subst. apply (Set1 TheYear); [intros w' <-; reflexivity|reflexivity|]; intros q.
    rewrite <- app_assoc, chars_app by (apply asc_white, F). rewrite chars_four by exact Ry. rewrite (chars_asc ws) by (apply asc_white, F).
    cbn [parse_item fld]. f_equal. unfold parse_num. rewrite trim_white by exact F.
    assert (G : exists r, four_c (v TheYear) ++ chars rest = fig (v TheYear / 100 / 10) :: r) by (eexists; reflexivity). destruct G as [r G].
    transitivity (number 1 4 (four_c (v TheYear) ++ chars rest)); [|apply number_four; lia]. rewrite G. rewrite trim_fig by lia. unfold is. rewrite !fig_is by (try reflexivity; lia). reflexivity.
  - (* two figures *)
    inversion I as [| |w0 pd Hin| | | |]; subst. assert (Rw : 0 <= v w < 100) by (apply R; cbn in *; intuition congruence).
    apply (Set1 w); [intros w' <-; reflexivity|reflexivity|]; intros q.
    rewrite <- app_assoc, chars_app by (apply asc_white, F). rewrite chars_two by exact Rw. rewrite (chars_asc ws) by (apply asc_white, F).
    cbn [parse_item]. f_equal. unfold parse_num. rewrite trim_white by exact F. rewrite trim_two by exact Rw.
    cbn [In] in Hin. destruct w; try congruence; try (intuition discriminate); cbn [fld width]; apply number_two; lia.
  - (* one figure *)
    inversion I as [| |w0 pd Hin| | | |]; subst. assert (Rw : 0 <= v w < 100) by (apply R; cbn in *; intuition congruence).
    apply (Set1 w); [intros w' <-; reflexivity|reflexivity|]; intros q.
    rewrite <- app_assoc, chars_app by (apply asc_white, F). cbn [app]. rewrite chars_fig by lia. rewrite (chars_asc ws) by (apply asc_white, F).
    cbn [parse_item]. f_equal. unfold parse_num. rewrite trim_white by exact F. rewrite trim_fig by lia.
    assert (D : no_digit (chars rest)) by (rewrite chars_asc by exact Ar; apply no_digit_rest, N).
    cbn [In] in Hin. destruct w; try congruence; try (intuition discriminate); cbn [fld width]; (apply number_one; [lia|exact D]).
  - (* no fraction *)
    inversion I; subst. apply Same; [reflexivity|intros w [_ X]; exact (X Z)|]; intros q. cbn [app parse_item]. rewrite chars_asc by exact Ar.
    destruct rest as [|c rest]; [reflexivity|]. cbn [map one_char]. assert (P : is (of_byte c) "." = false).
    { unfold is. apply N.eqb_neq. intros X. apply N. rewrite <- (byte_of_of c), X. reflexivity. }
    rewrite P. reflexivity.
  - (* a fraction *)
    inversion I; subst. apply (Set1 TheNanos); [intros w' [? _]; assumption|reflexivity|]; intros q.
    rewrite <- app_assoc, chars_dot, chars_figures by apply S. cbn [parse_item]. unfold one_char. change (is 46 ".") with true. cbn iota.
    rewrite nanosecond_figs; [rewrite E; reflexivity|exact S|]. rewrite chars_asc by exact Ar. apply no_digit_rest, N.
  - (* places *)
    apply (Set1 TheNanos); [intros w' H; exact H|reflexivity|]; intros q.
    rewrite chars_figures by exact F. inversion I as [| | | |k' Hk Ek| |]; subst.
    destruct (places ds (chars rest) (length ds) F) as (n & En & Ev); [lia|]. cbn [parse_item fld]. rewrite En. cbn [option_map]. rewrite Ev, E. reflexivity.
  - (* a number of nanoseconds *)
    apply (Set1 TheNanos); [intros w' H; exact H|reflexivity|]; intros q. inversion I; subst.
    rewrite <- app_assoc, chars_app by (apply asc_white, Fw). rewrite chars_figures by exact F. rewrite (chars_asc ws) by (apply asc_white, Fw).
    cbn [parse_item fld]. f_equal. unfold parse_num. rewrite trim_white by exact Fw.
    assert (T : trim_start (map fig ds ++ chars rest) = map fig ds ++ chars rest).
    { destruct F as [|d ds Hd F]; [cbn in Lk; lia|]. cbn [map app]. apply trim_fig, Hd. }
    rewrite T. cbn [width]. rewrite <- E. apply number_figs; [exact F| |lia].
    destruct Lk as [Lk|[Lk N]]; [right; lia|left]. rewrite chars_asc by exact Ar. apply no_digit_rest, N.
  - (* offset *)
    inversion I; subst. apply (Set1 TheOffset); [intros w' H; exact H|reflexivity|]; intros q.
    assert (Asep : asc sep) by (revert Fs; apply Forall_impl; intros c0 [H|H]; [unfold white_space in H; lia|injection H as ->; reflexivity]).
    assert (X : forall c, (c = 45%N \/ c = 43%N) -> timezone_offset (fun s => Some (colon_or_space s)) (trim_start (map of_byte ws ++ c :: two_c hh ++ map of_byte sep ++ two_c mm ++ chars rest))
            = Some ((if is c "-" then -1 else 1) * (hh * 3600 + mm * 60), chars rest)).
    { intros c0 Hc. rewrite trim_white by exact F. cbn [trim_start]. assert (W : is_whitespace c0 = false) by (destruct Hc as [->| ->]; reflexivity). rewrite W.
      assert (Z3 : (is c0 "+" || is c0 "-") = true) by (destruct Hc as [->| ->]; reflexivity).
      unfold timezone_offset. rewrite Z3, number_two by lia. rewrite colon_sep by (try exact Fs; lia). rewrite number_two by lia.
      assert (L : (mm <? 60) = true) by lia. rewrite L. reflexivity. }
    rewrite <- !app_assoc. rewrite chars_app by (apply asc_white, F). rewrite (chars_asc ws) by (apply asc_white, F). cbn [parse_item fld]. f_equal.
    destruct Sg as [[-> Ev]|[-> Ev]].
    + rewrite chars_plus, chars_two, (chars_app sep), (chars_asc sep), chars_two by (first [exact Asep|lia]). rewrite X by auto. change (is 43 "-") with false. cbn iota. rewrite Ev. apply f_equal, f_equal2; [lia|reflexivity].
    + rewrite chars_dash, chars_two, (chars_app sep), (chars_asc sep), chars_two by (first [exact Asep|lia]). rewrite X by auto. change (is 45 "-") with true. cbn iota. rewrite Ev. apply f_equal, f_equal2; [lia|reflexivity].
Qed.

Lemma read_part v p i t rest q : item_of p i -> ranges v -> asc (t ++ rest) -> shows v p t rest -> agrees q v ->
  exists q', parse_item i (chars (t ++ rest)) q = Some (chars rest, q') /\ agrees q' v /\
    (forall w, sets v p w -> q' (fld w) <> None) /\
    (forall w, q (fld w) <> None -> q' (fld w) <> None) /\
    (forall w, q' (fld w) <> None -> q (fld w) <> None \/ may_set p w).
Proof.
  intros I R A H Q. destruct (read_raw v p i t rest I R A H) as [[N E]|(w & U & M & E)]; rewrite E.
  - exists q. split; [reflexivity|]. split; [exact Q|]. split; [intros w S; destruct (N w S)|]. auto.
  - cbn [set_rest]. destruct (set_agrees w v q Q) as (q' & -> & Q' & S & K).
    assert (D : forall w', w' = w \/ w' <> w) by (intros w'; destruct w', w; ((left; congruence) || (right; congruence))).
    exists q'. split; [reflexivity|]. split; [exact Q'|]. split; [intros w' S'; rewrite (U w' S'); congruence|]. split.
    + intros w' N. destruct (D w') as [->|Nw]; [congruence|]. rewrite K by exact Nw. exact N.
    + intros w' N. destruct (D w') as [->|Nw]; [auto|]. rewrite K in N by exact Nw. auto.
Qed.

Lemma shown_asc v ps s rest : shown v ps s rest -> ranges v -> (exists l, Forall2 item_of ps l) -> (forall c, In (Char c) ps -> (of_byte c < 128)%N) -> asc s.
Proof.
  induction 1 as [|p t ps s rest H _ IH]; intros R [l I] C; [constructor|]. inversion I as [|? i ? l' Ip Il]; subst. apply asc_app.
  - eapply (shows_asc v p t _ (p :: ps)); eauto. left. reflexivity.
  - apply IH; [exact R|eauto|]. intros c Hc. apply C. right. exact Hc.
Qed.
Lemma read_parts v ps l s rest q : Forall2 item_of ps l -> ranges v -> asc (s ++ rest) -> shown v ps s rest -> agrees q v ->
  exists q', run_items l (chars (s ++ rest)) q = Some (chars rest, q') /\ agrees q' v /\
    (forall w p, In p ps -> sets v p w -> q' (fld w) <> None) /\
    (forall w, q (fld w) <> None -> q' (fld w) <> None) /\
    (forall w, q' (fld w) <> None -> q (fld w) <> None \/ exists p, In p ps /\ may_set p w).
Proof.
  intros I R. revert s q. induction I as [|p i ps l Ip _ IH]; intros s q A H Q; inversion H; subst.
  - exists q. repeat split; auto.
  - rewrite <- app_assoc in A |- *. cbn [run_items].
    destruct (read_part v p i t (s0 ++ rest) q Ip R A H2 Q) as (q1 & -> & Q1 & S1 & K1 & M1). cbn [and_then].
    destruct (IH s0 q1) as (q2 & -> & Q2 & S2 & K2 & M2); try assumption.
    { apply Forall_app in A. apply A. }
    exists q2. split; [reflexivity|]. split; [exact Q2|]. split; [|split].
    + intros w p' [<-|Hp] Sp; [apply K2, S1, Sp|eapply S2; eauto].
    + intros w N. apply K2, K1, N.
    + intros w N. apply M2 in N as [N|(p' & Hp & Hm)]; [apply M1 in N as [N|N]; [auto|right; exists p; split; [left; reflexivity|exact N]]|right; exists p'; split; [right; exact Hp|exact Hm]].
Qed.
Lemma char_ascii ps f : spelled ps f -> forall c, In (Char c) ps -> (of_byte c < 128)%N.
Proof.
  induction 1 as [|ps t qs s H _ IH]; intros c Hc; [destruct Hc|]. apply in_app_iff in Hc as [Hc|Hc]; [|apply IH, Hc]. clear IH.
  destruct H as [w pad l Hp Hl|c0 (H1 & H2 & H3)|c0 Hc0|c0 Hc0| | |x Hx|x Hx|x Hx|t0 Ht|k t0 Ht| |t0 Ht]; cbn [In] in Hc;
    repeat (destruct Hc as [[=<-]|Hc]; [first [exact H1|injection Hc0 as ->; reflexivity|injection Hx as ->; reflexivity]|]);
    repeat (destruct Hc as [Hc|Hc]; [discriminate Hc|]); try contradiction.
  all: repeat (destruct Hc as [Hc|Hc]; [first [discriminate Hc|injection Hc as <-; injection Hx as ->; reflexivity]|]); contradiction.
Qed.
Lemma read_layout v ps f s : spelled ps f -> ranges v -> shown v ps s [] ->
  exists q, parse_items (items (chars f)) (chars s) nothing = Some q /\ existsb is_other (items (chars f)) = false /\ agrees q v /\
    (forall w p, In p ps -> sets v p w -> q (fld w) = Some (v w)) /\
    (forall w, (forall p, In p ps -> ~ may_set p w) -> q (fld w) = None).
Proof.
  intros Sp R H. destruct (spelled_items ps f Sp) as [Af I].
  assert (A : asc s) by (eapply shown_asc; eauto; eapply char_ascii; eauto).
  destruct (read_parts v ps _ s [] nothing I R) as (q & E & Q & S & _ & M); try assumption.
  { rewrite app_nil_r. exact A. }
  { intros w. left. reflexivity. }
  rewrite app_nil_r in E. exists q. split.
  { rewrite <- (app_nil_r (items (chars f))), parse_items_app, E. reflexivity. }
  split; [eapply not_other; exact I|]. split; [exact Q|]. split.
  - intros w p Hp Hs. specialize (S w p Hp Hs). destruct (Q w); [congruence|assumption].
  - intros w N. destruct (q (fld w)) eqn:Eq; [|reflexivity]. assert (Nn : q (fld w) <> None) by congruence. destruct (M w Nn) as [X|(p & Hp & Hm)]; [destruct (X eq_refl)|destruct (N p Hp Hm)].
Qed.

(** ** Two parts that disagree *)
Lemma read_clash v ps l s rest w n : Forall2 item_of ps l -> ranges v -> asc (s ++ rest) -> shown v ps s rest ->
  n <> v w -> (exists p, In p ps /\ sets v p w) -> forall q, q (fld w) = Some n -> run_items l (chars (s ++ rest)) q = None.
Proof.
  intros I R. revert s. induction I as [|p i ps l Ip _ IH]; intros s A H Ne (p0 & Hp & Hs) q Eq; [destruct Hp|].
  inversion H; subst. rewrite <- app_assoc in A |- *. cbn [run_items].
  assert (Step : (forall q', q' (fld w) = Some n -> In p0 ps -> run_items l (chars (s0 ++ rest)) q' = None)).
  { intros q' Eq' Hin. apply IH; try assumption; [apply Forall_app in A; apply A|eauto]. }
  destruct (read_raw v p i t (s0 ++ rest) Ip R A) as [[N E]|(y & U & M & E)]; [assumption| |]; rewrite E.
  - cbn [and_then]. destruct Hp as [->|Hp]; [destruct (N w Hs)|]. apply Step; assumption.
  - cbn [set_rest]. assert (D : y = w \/ y <> w) by (destruct y, w; ((left; congruence) || (right; congruence))).
    destruct D as [->|D].
    + unfold set. rewrite Eq. destruct (Z.eqb_spec n (v w)); [contradiction|reflexivity].
    + destruct Hp as [->|Hp]; [destruct D; symmetry; apply U, Hs|].
      destruct (set (fld y) (v y) q) as [q'|] eqn:Es; [|reflexivity]. cbn [and_then]. apply Step; [|exact Hp].
      unfold set in Es. destruct (q (fld y)) as [x|] eqn:Ey.
      * destruct (Z.eqb x (v y)); [|discriminate]. injection Es as <-. exact Eq.
      * injection Es as <-. unfold upd. destruct (field_eqb (fld y) (fld w)) eqn:F; [apply field_eqb_fld in F; contradiction|exact Eq].
Qed.
Lemma layout_clash u v ps qs f t s w : spelled (ps ++ qs) f -> ranges u -> ranges v -> shown u ps t s -> shown v qs s [] ->
  u w <> v w -> (exists p, In p ps /\ sets u p w) -> (exists p, In p qs /\ sets v p w) ->
  parse_items (items (chars f)) (chars (t ++ s)) nothing = None /\ existsb is_other (items (chars f)) = false.
Proof.
  intros Sp Ru Rv Hu Hv Ne (p & Hp & Hs) Hq. destruct (spelled_items _ f Sp) as [Af I].
  split; [|eapply not_other; exact I].
  pose proof (char_ascii _ _ Sp) as C.
  apply Forall2_app_inv_l in I. destruct I as (l1 & l2 & I1 & I2 & E). rewrite E.
  assert (A2 : asc s). { eapply shown_asc; [exact Hv|exact Rv|eauto|]. intros c Hc. apply C. apply in_app_iff. auto. }
  assert (A1 : asc t). { eapply shown_asc; [exact Hu|exact Ru|eauto|]. intros c Hc. apply C. apply in_app_iff. auto. }
  destruct (read_parts u ps l1 t s nothing I1 Ru) as (q & Er & Q & S & _ & _); try assumption.
  { apply asc_app; assumption. }
  { intros x. left. reflexivity. }
  rewrite parse_items_app, Er. cbn [and_then].
  assert (Eq : q (fld w) = Some (u w)). { specialize (S w p Hp Hs). destruct (Q w); [congruence|assumption]. }
  rewrite <- (app_nil_r l2), parse_items_app. rewrite <- (app_nil_r s) at 1.
  rewrite (read_clash v qs l2 s [] w (u w)); try assumption; [reflexivity|rewrite app_nil_r; exact A2].
Qed.

(** ** ISO 8601, more generally *)
Lemma rfc3339_gen y m d x h mi s f tail o : 0 <= y <= 9999 -> 0 <= m < 100 -> 0 <= d < 100 -> 0 <= h < 100 -> 0 <= mi < 100 -> 0 <= s < 100 ->
  fraction_fine f -> x = 84%N \/ x = 116%N -> timezone_offset_zulu (one_char (fun c => is c ":")) tail = Some (o, []) -> -86400 < o < 86400 ->
  (exists c t, tail = c :: t /\ is_digit c = false /\ is c "." = false) ->
  exists p, parse_rfc3339 (four_c y ++ 45%N :: two_c m ++ 45%N :: two_c d ++ x :: two_c h ++ 58%N :: two_c mi ++ 58%N :: two_c s
                           ++ fraction_c f ++ tail) nothing = Some ([], p) /\
    p FYear = Some y /\ p FMonth = Some m /\ p FDay = Some d /\ p FHour = Some h /\ p FMinute = Some mi /\ p FSecond = Some s /\
    (p FNano = Some (fraction_of f) \/ p FNano = None /\ fraction_of f = 0) /\ p FOffset = Some o.
Proof.
  intros Hy Hm Hd Hh Hmi Hs Hf Hx Hz B (c & t & Ec & Dc & Pc). unfold parse_rfc3339.
  rewrite number_four by lia. rewrite set_step by reflexivity. cbn [and_then].
  rewrite literal_step by reflexivity. cbn [and_then]. rewrite number_two by lia. rewrite set_step by reflexivity. cbn [and_then].
  rewrite literal_step by reflexivity. cbn [and_then]. rewrite number_two by lia. rewrite set_step by reflexivity. cbn [and_then].
  rewrite literal_step by (destruct Hx as [->| ->]; reflexivity). cbn [and_then]. rewrite number_two by lia. rewrite set_step by reflexivity. cbn [and_then].
  rewrite literal_step by reflexivity. cbn [and_then]. rewrite number_two by lia. rewrite set_step by reflexivity. cbn [and_then].
  rewrite literal_step by reflexivity. cbn [and_then]. rewrite number_two by lia. rewrite set_step by reflexivity. cbn [and_then].
  assert (B' : (-86400 <? o) && (o <? 86400) = true) by lia.
  destruct f as [ds|]; cbn [fraction_c fraction_of app].
  - unfold one_char at 1. change (is 46 ".") with true. cbn iota.
    rewrite nanosecond_figs by (try exact Hf; rewrite Ec; exact Dc). rewrite set_step by reflexivity. cbn [and_then].
    rewrite Hz, B'. rewrite set_step by reflexivity.
    eexists. split; [reflexivity|]. repeat split; try reflexivity. left. reflexivity.
  - assert (Eo : one_char (fun c => is c ".") tail = None) by (rewrite Ec; unfold one_char; rewrite Pc; reflexivity).
    rewrite Eo. cbn [and_then]. rewrite Hz, B'. rewrite set_step by reflexivity.
    eexists. split; [reflexivity|]. repeat split; try reflexivity. right. split; reflexivity.
Qed.
Lemma iso_like_reads o s i : iso_like s i -> c_datetime (civil o) (b "%+") s = Some i.
Proof.
  intros [y m d x h mi sc f fs off of_ l T Hx O F].
  pose proof (the_time_ranges _ _ _ _ _ _ _ _ T) as (?&?&?&?&?&?).
  assert (G : exists q, fraction_fine q /\ chars (fs ++ off) = fraction_c q ++ chars off /\ f = fraction_of q).
  { destruct F as [[-> ->]|(ds & -> & H5 & ->)]; [exists None; repeat split|].
    exists (Some ds). split; [exact H5|]. split; [|reflexivity]. rewrite <- app_assoc, chars_dot, chars_figures by apply H5. reflexivity. }
  destruct G as (q & Hq & Eq & ->).
  assert (X : exists c, (c = 84%N \/ c = 116%N) /\ forall t, chars (x ++ t) = c :: chars t).
  { destruct Hx as [<-|[<-|[]]]; [exists 84%N|exists 116%N]; (split; [auto|intros t; reflexivity]). }
  destruct X as (c & Hc & Ec).
  assert (Y : timezone_offset_zulu (one_char (fun c => is c ":")) (chars off) = Some (of_, []) /\ -86400 < of_ < 86400 /\
              exists c t, chars off = c :: t /\ is_digit c = false /\ is c "." = false).
  { destruct O as [O|[O ->]].
    - destruct (offset_chars _ _ O) as (w & Hw & -> & ->). split; [apply zulu, Hw|]. split; [apply offset_small, Hw|apply offset_start].
    - cbn [utc_names map In] in O. repeat (destruct O as [<-|O]; [split; [reflexivity|]; split; [lia|]; eexists; eexists; split; [reflexivity|]; split; reflexivity|]). contradiction. }
  destruct Y as (Y1 & Y2 & Y3).
  cbn [c_datetime civil]. open_format.
  assert (E : chars (four y ++ b "-" ++ two m ++ b "-" ++ two d ++ x ++ two h ++ b ":" ++ two mi ++ b ":" ++ two sc ++ fs ++ off)
            = four_c y ++ 45%N :: two_c m ++ 45%N :: two_c d ++ c :: two_c h ++ 58%N :: two_c mi ++ 58%N :: two_c sc ++ fraction_c q ++ chars off)
    by (text_chars; rewrite Ec; text_chars; rewrite Eq; reflexivity).
  rewrite E.
  destruct (rfc3339_gen y m d c h mi sc q (chars off) of_) as (p & Ep & A1 & A2 & A3 & A4 & A5 & A6 & A7 & A8); try lia; try assumption.
  cbn [parse_items parse_item]. rewrite Ep. cbn [and_then]. unfold to_datetime. rewrite A8.
  rewrite (fields_naive p y m d h mi sc (fraction_of q) l T A1 A2 A3 A4 A5 (or_introl A6) A7).
  assert (B' : (-86400 <? of_) && (of_ <? 86400) = true) by lia. rewrite B'. reflexivity.
Qed.
