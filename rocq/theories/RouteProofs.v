(** Rows take the routes of the specification (C98). *)
From Verif Require Export RouteSpec DriveMore.

Lemma events_at_app' x y d m : events_at (x ++ y) d m = events_at x d m ++ events_at y d m.
Proof. unfold events_at. now rewrite filter_app, map_app. Qed.
Lemma events_at_cons_other c n e l d m :
  ~ (c = d /\ n = m) -> events_at (V c n e :: l) d m = events_at l d m.
Proof.
  intro N. change (V c n e :: l) with ([V c n e] ++ l). rewrite events_at_app'.
  now rewrite events_at_other.
Qed.
Lemma events_at_concat segs d m : events_at (concat segs) d m = concat (map (fun s => events_at s d m) segs).
Proof.
  induction segs as [|s segs IH]; [reflexivity|]. cbn [concat map]. now rewrite events_at_app', IH.
Qed.
Lemma concat_nils {A} (l : list (list A)) : Forall (fun x => x = []) l -> concat l = [].
Proof. induction 1 as [|x l -> _ IH]; auto. Qed.

Section Routes.
  Variables (g : dgraph) (rank : nat -> nat).
  Hypothesis Hrank : forall c d, edge g c d -> rank d < rank c.
  Variable acts : nat -> nat -> row -> list row.
  Hypothesis Hacts : row_by_row g acts.
  Variables d m : nat.
  Hypothesis Hdm : node_at g d m <> None.

  Definition went (cl : call) (seg : log) : Prop :=
    let '(c, n, e) := cl in route g acts d m c n e (events_at seg d m).

  Lemma went_here lg c n e seg calls segs :
    tr g lg ((c, n, e) :: calls) (seg :: segs) -> c = d -> n = m -> went (c, n, e) seg.
  Proof.
    intros T -> ->. destruct (tr_shape g rank Hrank _ _ _ T) as [_ F].
    inversion F as [|? ? ? ? E0 _]; subst. destruct E0 as (_ & _ & E). specialize (E Hdm).
    unfold went. rewrite E. constructor.
  Qed.

  Lemma went_next c n es sub :
    Forall2 went (map (fun e => (c, S n, e)) es) sub ->
    Forall2 (route g acts d m c (S n)) es (map (fun s => events_at s d m) sub).
  Proof.
    revert sub; induction es as [|x es IH]; intros sub H; inversion H; subst; cbn; constructor; auto.
  Qed.
  Lemma went_tee c n e ts sub :
    Forall2 went (map (fun t => (t, 0, e)) ts ++ [(c, S n, e)]) sub ->
    exists outs rest, Forall2 (fun t => route g acts d m t 0 e) ts outs /\
      route g acts d m c (S n) e rest /\ concat (map (fun s => events_at s d m) sub) = concat outs ++ rest.
  Proof.
    revert sub; induction ts as [|t ts IH]; intros sub H; inversion H as [|? s ? sub' Hs Hr]; subst.
    - inversion Hr; subst. exists [], (events_at s d m). cbn. rewrite app_nil_r. auto.
    - destruct (IH _ Hr) as (outs & rest & A & B0 & C). exists (events_at s d m :: outs), rest.
      cbn [map concat]. rewrite C, app_assoc. auto.
  Qed.

  Lemma went_sink c n k e es sub :
    node_at g c n = Some (DSink k) -> ~ (c = d /\ n = m) ->
    (node_at g c (S n) <> None -> es = passes_on (acts c n) e) ->
    Forall2 went (map (fun e => (c, S n, e)) es) sub ->
    route g acts d m c n e (concat (map (fun s => events_at s d m) sub)).
  Proof.
    intros Hc N He IHS. apply went_next in IHS.
    destruct (node_at g c (S n)) as [nx|] eqn:Enx.
    - rewrite He in IHS by discriminate. eapply rt_sink; eauto. congruence.
    - rewrite concat_nils; [eapply rt_last; eauto|].
      clear -IHS Enx Hdm; induction IHS as [|x o rows outs Hx HF IH]; constructor; auto.
      inversion Hx; subst; auto; congruence.
  Qed.

  Lemma tr_went lg calls segs : tr g lg calls segs -> Forall2 went calls segs.
  Proof.
    intro H. induction H as [lg|lg c n e chain calls segs Hc Hn HT IH
      |lg c n r k rows sub calls segs Hc Hw HS IHS HT IH
      |lg c n k sub calls segs Hc Hw HS IHS HT IH
      |lg c n e nd sub calls segs Hc Hk HS IHS HT IH]; constructor; auto.
    - assert (E : node_at g c n = None) by (unfold node_at; now rewrite Hc).
      apply rt_none; [|exact E]. intros [-> ->]. contradiction.
    - destruct (Nat.eq_dec c d) as [Ec|Nc]; [destruct (Nat.eq_dec n m) as [En|Nn]|].
      { eapply went_here; eauto. eapply tr_row; eauto. }
      all: assert (N : ~ (c = d /\ n = m)) by tauto.
      all: unfold went; rewrite (events_at_cons_other _ _ _ _ _ _ N), events_at_concat;
        apply (went_sink c n k (EvRow r) (map EvRow rows)); auto; [|now rewrite map_map].
      all: intro Hnx; cbn; f_equal; exact (Hacts c n k _ r rows Hc Hnx Hw).
    - destruct (Nat.eq_dec c d) as [Ec|Nc]; [destruct (Nat.eq_dec n m) as [En|Nn]|].
      { eapply went_here; eauto. eapply tr_flush; eauto. }
      all: assert (N : ~ (c = d /\ n = m)) by tauto.
      all: unfold went; rewrite (events_at_cons_other _ _ _ _ _ _ N), events_at_concat;
        apply (went_sink c n k EvFlush [EvFlush]); auto.
    - destruct (Nat.eq_dec c d) as [Ec|Nc]; [destruct (Nat.eq_dec n m) as [En|Nn]|].
      { eapply went_here; eauto. eapply tr_tee; eauto. }
      all: assert (N : ~ (c = d /\ n = m)) by tauto.
      all: unfold went; rewrite (events_at_cons_other _ _ _ _ _ _ N), events_at_concat.
      all: apply went_tee in IHS as (outs & rest & A & B0 & ->); eapply rt_tee; eauto.
  Qed.
End Routes.

Theorem drive_routes F g srcs rng s acts d m :
  drive F g srcs rng = (s, Ok tt) -> acyclic g -> row_by_row g acts -> node_at g d m <> None ->
  exists outs, Forall2 (fun p => route g acts d m (fst p) 0 (snd p)) (map handing (r_devs s)) outs /\
    events_at (r_log s) d m = concat outs.
Proof.
  intros H (rank & Hr) Ha Hd. destruct (drive_tr _ _ _ _ _ H) as (segs & El & T). rewrite El.
  pose proof (tr_went g rank Hr acts Ha d m Hd _ _ _ T) as W.
  rewrite events_at_concat. eexists. split; [|reflexivity]. clear - W.
  remember (map call_of (r_devs s)) as cs eqn:E. revert E. generalize (r_devs s) as ds.
  induction W as [|x seg cs segs Hx W IH]; intros [|dv ds] E; try discriminate; [constructor|].
  cbn [map] in E. injection E as -> E. cbn [map]. constructor; [|auto].
  destruct dv; exact Hx.
Qed.

(** What the driver hands to a chain. *)
Definition events_to (c : nat) (ds : list devent) : list event :=
  map snd (filter (fun p => fst p =? c) (map handing ds)).
Definition epart (rng : ts_range) (c : nat) (bs : list buf) : list event :=
  concat (map (fun bf => if b_chain bf =? c then map EvRow (pending rng bf) ++ [EvFlush] else []) bs).

Lemma epart_app rng c a z : epart rng c (a ++ z) = epart rng c a ++ epart rng c z.
Proof. unfold epart. now rewrite map_app, concat_app. Qed.
Lemma epart_none rng c bs : ~ In c (map b_chain bs) -> epart rng c bs = [].
Proof.
  unfold epart. induction bs as [|bf bs IH]; intro H; [reflexivity|]. cbn [map concat].
  destruct (Nat.eqb_spec (b_chain bf) c) as [<-|N]; [exfalso; apply H; now left|].
  apply IH. intro X. apply H. now right.
Qed.
Lemma epart_pick rng c l1 bf l2 : NoDup (map b_chain (l1 ++ bf :: l2)) ->
  epart rng c (l1 ++ bf :: l2) =
  if b_chain bf =? c then map EvRow (pending rng bf) ++ [EvFlush] else epart rng c (l1 ++ l2).
Proof.
  intro ND. rewrite !epart_app. unfold epart at 2. cbn [map concat]. fold (epart rng c l2).
  destruct (Nat.eqb_spec (b_chain bf) c) as [<-|N]; [|reflexivity].
  rewrite map_app in ND. cbn [map] in ND. apply NoDup_remove in ND as [_ ND].
  rewrite !epart_none; [now rewrite app_nil_r| |]; intro X; apply ND; apply in_or_app; auto.
Qed.
Lemma events_to_cons c dv ds :
  events_to c (dv :: ds) = (if fst (handing dv) =? c then [snd (handing dv)] else []) ++ events_to c ds.
Proof. unfold events_to. cbn [map filter]. destruct (fst (handing dv) =? c); reflexivity. Qed.

Lemma Loop_events F g rng bs s s' :
  Loop F g rng bs s s' (Ok tt) -> NoDup (map b_chain bs) ->
  forall new, r_devs s' = r_devs s ++ new -> forall c, events_to c new = epart rng c bs.
Proof.
  assert (nilnew : forall (l new : list devent), l = l ++ new -> new = []).
  { intros l new H. rewrite <- (app_nil_r l) in H at 1. now apply app_inv_head in H. }
  intro H. remember (Ok tt) as o eqn:Eo. revert Eo.
  induction H as [s|bs s l1 bf l2 P Hn
    |bs s s1 o l1 bf l2 r P Hr Hh Ho
    |bs s s1 e l1 bf l2 r P Hr Hh Hm He
    |bs s s1 s' o l1 bf bf' l2 r r' P Hr Hh Hm Hc Hr' Ht HL IH
    |bs s s1 s2 o l1 bf l2 r src P Hr Hh Hm Hh2 Ho
    |bs s s1 s2 s' o l1 bf l2 r src P Hr Hh Hm Hh2 HL IH]; intros Eo ND new Hnew c; try congruence.
  - apply nilnew in Hnew as ->. reflexivity.
  - destruct e; discriminate.
  - apply hand_inv in Hh as [D _].
    destruct (Loop_exec _ _ _ _ _ _ _ HL) as (new2 & _ & D2 & _).
    rewrite D2, D, <- app_assoc in Hnew. apply app_inv_head in Hnew as <-.
    destruct P as (-> & _).
    assert (Em : map b_chain (l1 ++ bf' :: l2) = map b_chain (l1 ++ bf :: l2)).
    { rewrite !map_app. cbn. now rewrite Hc. }
    assert (ND' : NoDup (map b_chain (l1 ++ bf' :: l2))) by now rewrite Em.
    cbn [app]. rewrite events_to_cons, (IH Eo ND' _ D2). cbn [handing fst snd].
    rewrite !epart_pick by assumption. rewrite Hc. destruct (b_chain bf =? c); [|reflexivity].
    rewrite (pending_step rng bf bf' r' r Hr Hm Hr'). reflexivity.
  - apply hand_inv in Hh as [D _]. apply hand_inv in Hh2 as [D2 _].
    destruct (Loop_exec _ _ _ _ _ _ _ HL) as (new2 & _ & D3 & _).
    rewrite D3, D2, D, <- !app_assoc in Hnew. apply app_inv_head in Hnew as <-.
    destruct P as (-> & _).
    assert (ND' : NoDup (map b_chain (l1 ++ l2))).
    { rewrite map_app in *. cbn in ND. now apply NoDup_remove in ND. }
    cbn [app]. rewrite !events_to_cons, (IH Eo ND' _ D3). cbn [handing fst snd].
    rewrite epart_pick by assumption. destruct (Nat.eqb_spec (b_chain bf) c) as [<-|]; [|reflexivity].
    rewrite (pending_last rng _ _ _ Hr Hm). cbn [map app].
    rewrite epart_none; [reflexivity|]. rewrite map_app in *. cbn in ND. now apply NoDup_remove in ND.
Qed.

Lemma drive_events F g srcs rng s :
  drive F g srcs rng = (s, Ok tt) ->
  forall i src, nth_error srcs i = Some src ->
    events_to (length srcs - 1 - i) (r_devs s) = map EvRow (selected rng src) ++ [EvFlush].
Proof.
  intros H i src Hi. destruct (drive_cases _ _ _ _ _ _ H) as [(bs & E & L)|(-> & E & Eo)].
  2:{ destruct (get_row_buffers rng srcs); discriminate. }
  destruct (bufs_facts _ _ _ E) as (P & C & SS & _ & F2).
  rewrite (Loop_events _ _ _ _ _ _ L (SS_NoDup _ SS) (r_devs s) eq_refl).
  apply nth_rev in Hi. set (c := length srcs - 1 - i) in *.
  assert (X : forall (xs : list source) bs k c, Forall2 (fun s bf => pending rng bf = selected rng s /\ buf_ok bf /\
     (readable rng s <-> (b_row bf = None \/ readable rng (b_src bf)))) xs bs ->
     map b_chain bs = seq k (length xs) -> nth_error xs c = Some src ->
     epart rng (k + c) bs = map EvRow (selected rng src) ++ [EvFlush]).
  { clear. intros xs bs k c F2. revert k c.
    induction F2 as [|x bf xs bs (Ep & _) F2 IH]; intros k c Em Hn; [destruct c; discriminate|].
    cbn [map length seq] in Em. injection Em as Eb Em. unfold epart. cbn [map concat]. fold (epart rng (k + c) bs).
    destruct c as [|c]; cbn in Hn.
    - injection Hn as ->. rewrite Nat.add_0_r, Eb, Nat.eqb_refl, Ep, epart_none; [now rewrite app_nil_r|].
      rewrite Em, in_seq. lia.
    - destruct (Nat.eqb_spec (b_chain bf) (k + S c)); [lia|]. cbn [app].
      replace (k + S c) with (S k + c) by lia. now apply IH. }
  apply (X (rev srcs) bs 0 c F2); [|exact Hi]. now rewrite rev_length.
Qed.

(** The order in which the rows are handed over. *)
Lemma drive_order F g srcs rng s :
  drive F g srcs rng = (s, Ok tt) ->
  (forall src, In src srcs -> time_ordered (rows_before_failure src)) ->
  forall pre c r mid c' r2 post, r_devs s = pre ++ DRow c r :: mid ++ DRow c' r2 :: post ->
    (ts r < ts r2)%N \/ (ts r = ts r2 /\ c <= c').
Proof.
  intros H Ho pre c r mid c' r2 post' Ed.
  assert (Hc' : c' < length srcs).
  { apply (drive_chains _ _ _ _ _ _ H (DRow c' r2)). rewrite Ed. apply in_or_app; right; right. apply in_elt. }
  assert (Hc : c < length srcs).
  { apply (drive_chains _ _ _ _ _ _ H (DRow c r)). rewrite Ed. apply in_elt. }
  set (j := length srcs - 1 - c').
  destruct (nth_error srcs j) as [src|] eqn:Ej; [|apply nth_error_None in Ej; unfold j in Ej; lia].
  destruct (drive_rows _ _ _ _ _ _ H _ _ Ej) as [_ Es]. specialize (Es eq_refl).
  replace (length srcs - 1 - j) with c' in Es by (unfold j; lia).
  assert (Sp : exists x, selected rng src = rows_to c' pre ++ x /\ In r2 x).
  { rewrite <- Es, Ed. clear. revert r2.
    assert (A : forall u v, rows_to c' (u ++ v) = rows_to c' u ++ rows_to c' v).
    { induction u as [|[d y|d] u IH]; intro v; cbn; auto. destruct (d =? c'); cbn; congruence. }
    intro r2. rewrite A. eexists. split; [reflexivity|]. cbn [rows_to].
    assert (I : In r2 (rows_to c' (mid ++ DRow c' r2 :: post'))).
    { rewrite A. apply in_or_app. right. cbn. rewrite Nat.eqb_refl. now left. }
    destruct (c =? c'); [now right|exact I]. }
  destruct Sp as (x & Ex & Ix). destruct x as [|r' x]; [destruct Ix|].
  assert (Hn : nth_error (selected rng src) (length (rows_to (length srcs - 1 - j) pre)) = Some r').
  { replace (length srcs - 1 - j) with c' by (unfold j; lia).
    rewrite Ex, nth_error_app2, Nat.sub_diag by lia. reflexivity. }
  assert (Ls : (ts r' <= ts r2)%N).
  { assert (So : StronglySorted ts_le (selected rng src)).
    { apply selected_sorted. apply Ho. eapply nth_error_In; eauto. }
    rewrite Ex in So. clear - So Ix. induction (rows_to c' pre) as [|y l IH]; cbn in So; inversion So; subst; auto.
    destruct Ix as [->|Ix]; [apply N.le_refl|]. match goal with F : Forall _ x |- _ => rewrite Forall_forall in F; exact (F _ Ix) end. }
  destruct (drive_pick _ _ _ _ _ _ H pre c r _ Ed j src r' Ej Hn) as [L|[A B']]; unfold j in *; lia.
Qed.

(** Numbered by source instead of by chain. *)
Definition by_source (n : nat) (ds : list devent) : list (nat * event) :=
  map (fun d => (n - 1 - fst (handing d), snd (handing d))) ds.

Lemma drive_interleaves F g srcs rng s :
  drive F g srcs rng = (s, Ok tt) ->
  interleaves rng srcs (by_source (length srcs) (r_devs s)) /\
  ((forall src, In src srcs -> time_ordered (rows_before_failure src)) ->
   by_time (by_source (length srcs) (r_devs s))).
Proof.
  intro H. assert (B : forall dv, In dv (r_devs s) -> fst (handing dv) < length srcs).
  { intros dv Hd. apply (drive_chains _ _ _ _ _ _ H) in Hd. now destruct dv. }
  split; [split|].
  - intros i src Hi. rewrite <- (drive_events _ _ _ _ _ H _ _ Hi). unfold events_to, by_source.
    assert (i < length srcs) by (apply nth_error_Some; congruence).
    revert B. induction (r_devs s) as [|dv ds IH]; intro B; [reflexivity|]. cbn [map filter fst snd].
    specialize (IH ltac:(intros; apply B; now right)). specialize (B dv (or_introl eq_refl)).
    destruct (Nat.eqb_spec (length srcs - 1 - fst (handing dv)) i),
      (Nat.eqb_spec (fst (handing dv)) (length srcs - 1 - i)); cbn [map snd]; try lia; congruence.
  - intros p Hp. unfold by_source in Hp. apply in_map_iff in Hp as (dv & <- & Hd). cbn [fst]. specialize (B _ Hd). lia.
  - intros Ho a i r m j r' z E. unfold by_source in E.
    apply map_eq_app in E as (x1 & x2 & Ed & _ & E). apply map_eq_cons in E as (d1 & x3 & -> & E1 & E).
    apply map_eq_app in E as (x4 & x5 & -> & _ & E). apply map_eq_cons in E as (d2 & x6 & -> & E2 & _).
    destruct d1 as [c r1|]; [|discriminate]. destruct d2 as [c' r2|]; [|discriminate].
    cbn in E1, E2. injection E1 as <- <-. injection E2 as <- <-.
    destruct (drive_order _ _ _ _ _ H Ho _ _ _ _ _ _ _ Ed); lia.
Qed.

(** Routes are functions. *)
Section Det.
  Variables (g : dgraph) (acts : nat -> nat -> row -> list row) (d m : nat).
  Notation rt := (route g acts d m).
  Variable P : nat -> nat -> event -> list event -> Prop.
  Hypothesis P1 : forall r, P d m r [r].
  Hypothesis P2 : forall c n r, ~ (c = d /\ n = m) -> node_at g c n = None -> P c n r [].
  Hypothesis P3 : forall c n r k, ~ (c = d /\ n = m) -> node_at g c n = Some (DSink k) ->
    node_at g c (S n) = None -> P c n r [].
  Hypothesis P4 : forall c n r k outs, ~ (c = d /\ n = m) -> node_at g c n = Some (DSink k) ->
    node_at g c (S n) <> None -> Forall2 (P c (S n)) (passes_on (acts c n) r) outs -> P c n r (concat outs).
  Hypothesis P5 : forall c n r nd outs rest, ~ (c = d /\ n = m) -> node_at g c n = Some nd ->
    (forall k, nd <> DSink k) -> Forall2 (fun e => P e 0 r) (targets nd) outs ->
    P c (S n) r rest -> P c n r (concat outs ++ rest).
  Fixpoint route_ind' c n r o (H : rt c n r o) {struct H} : P c n r o :=
    match H in route _ _ _ _ c n r o return P c n r o with
    | rt_here _ _ _ _ r => P1 r
    | rt_none _ _ _ _ c n r N E => P2 c n r N E
    | rt_last _ _ _ _ c n r k N E1 E2 => P3 c n r k N E1 E2
    | rt_sink _ _ _ _ c n r k outs N E1 E2 HF =>
        P4 c n r k outs N E1 E2
          ((fix go xs os (F : Forall2 (rt c (S n)) xs os) : Forall2 (P c (S n)) xs os :=
             match F in Forall2 _ xs os return Forall2 (P c (S n)) xs os with
             | Forall2_nil _ => Forall2_nil _
             | Forall2_cons x o Hx F' => Forall2_cons x o (route_ind' _ _ _ _ Hx) (go _ _ F')
             end) _ _ HF)
    | rt_tee _ _ _ _ c n r nd outs rest N E1 E2 HF HR =>
        P5 c n r nd outs rest N E1 E2
          ((fix go xs os (F : Forall2 (fun e => rt e 0 r) xs os) : Forall2 (fun e => P e 0 r) xs os :=
             match F in Forall2 _ xs os return Forall2 (fun e => P e 0 r) xs os with
             | Forall2_nil _ => Forall2_nil _
             | Forall2_cons x o Hx F' => Forall2_cons x o (route_ind' _ _ _ _ Hx) (go _ _ F')
             end) _ _ HF) (route_ind' _ _ _ _ HR)
    end.
End Det.

Lemma Forall2_det {A B} (Q : A -> B -> Prop) xs ys :
  Forall2 (fun x y => forall y', Q x y' -> y = y') xs ys -> forall zs, Forall2 Q xs zs -> ys = zs.
Proof.
  induction 1 as [|x y xs ys Hx HF IH]; intros zs Hz; inversion Hz; subst; [reflexivity|].
  f_equal; auto.
Qed.

Lemma route_det g acts d m c n r o : route g acts d m c n r o ->
  forall o', route g acts d m c n r o' -> o = o'.
Proof.
  intro H. induction H as [r|c n r N E|c n r k N E1 E2|c n r k outs N E1 E2 HF|c n r nd outs rest N E1 E2 HF HR]
    using route_ind'; intros o' H';
  inversion H' as [|c1 n1 r1 N1 F1|c1 n1 r1 k1 N1 F1 F2|c1 n1 r1 k1 outs1 N1 F1 F2 HF1|c1 n1 r1 nd1 outs1 rest1 N1 F1 F2 HF1 HR1];
    subst; auto; try (exfalso; tauto); try congruence.
  - f_equal. eapply Forall2_det; [exact HF|exact HF1].
  - assert (nd1 = nd) as -> by congruence. f_equal; [|auto].
    f_equal. eapply (Forall2_det (fun e => route g acts d m e 0 r)); [exact HF|exact HF1].
Qed.
