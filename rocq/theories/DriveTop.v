(** Proofs about [drive]: from buffers to sources. *)
From Coq Require Export Permutation.
From Verif Require Export DriveProps GraphProps2.

Lemma drive_cases F g srcs rng s o :
  drive F g srcs rng = (s, o) ->
  (exists bs, get_row_buffers rng srcs = Ok bs /\ Loop F g rng bs run0 s o) \/
  (s = run0 /\ is_ok (get_row_buffers rng srcs) = false /\
   o = fail_as (get_row_buffers rng srcs)).
Proof.
  unfold drive. destruct (get_row_buffers rng srcs) as [bs|e| | |] eqn:E; intro H;
    try (injection H as <- <-; right; cbn; auto).
  left. exists bs. split; [reflexivity|]. eapply drive_loop_Loop; [|exact H]. lia.
Qed.

Lemma seq_SS i n : StronglySorted lt (seq i n).
Proof.
  revert i; induction n as [|n IH]; intro i; cbn; constructor; auto.
  apply Forall_forall. intros x Hx. apply in_seq in Hx. lia.
Qed.

Definition src_rows (rng : ts_range) (popped : list source) (c : nat) : list row :=
  match nth_error popped c with Some s => selected rng s | None => [] end.

Lemma parts_seq rng popped bs i c :
  Forall2 (fun s bf => pending rng bf = selected rng s /\ buf_ok bf /\
     (readable rng s <-> (b_row bf = None \/ readable rng (b_src bf)))) popped bs ->
  map b_chain bs = seq i (length popped) ->
  parts rng (i + c) bs = src_rows rng popped c.
Proof.
  intros H. revert i c; induction H as [|s bf popped bs (Hp & _) H IH]; intros i c E.
  - destruct c; reflexivity.
  - cbn [map length seq] in E. injection E as Ec E. rewrite parts_cons, Ec.
    destruct c as [|c].
    + rewrite Nat.add_0_r, Nat.eqb_refl, Hp. unfold src_rows. cbn.
      rewrite parts_absent; [apply app_nil_r|]. rewrite E. intro C. apply in_seq in C. lia.
    + destruct (Nat.eqb_spec i (i + S c)); [lia|]. cbn [app].
      replace (i + S c) with (S i + c) by lia. rewrite (IH _ _ E). reflexivity.
Qed.

Lemma bufs_facts rng srcs bs :
  get_row_buffers rng srcs = Ok bs ->
  (forall c, parts rng c bs = src_rows rng (rev srcs) c) /\
  map b_chain bs = seq 0 (length srcs) /\
  StronglySorted lt (map b_chain bs) /\ Forall buf_ok bs /\
  Forall2 (fun s bf => pending rng bf = selected rng s /\ buf_ok bf /\
     (readable rng s <-> (b_row bf = None \/ readable rng (b_src bf)))) (rev srcs) bs.
Proof.
  intro H. destruct (make_bufs_spec _ _ _ _ H) as [A B].
  assert (B' : map b_chain bs = seq 0 (length srcs)) by (rewrite B, rev_length; reflexivity).
  split; [|split; [|split; [|split]]]; auto.
  - intro c. apply (parts_seq rng _ _ 0 c A B).
  - rewrite B'. apply seq_SS.
  - clear - A. induction A as [|? ? ? ? (_ & O & _)]; constructor; auto.
Qed.

(** Source [i] of [n] is the one that is popped as number [n-1-i]. *)
Lemma nth_rev {A} (l : list A) i x :
  nth_error l i = Some x -> nth_error (rev l) (length l - 1 - i) = Some x.
Proof.
  intro H. assert (i < length l) by (apply nth_error_Some; congruence).
  apply nth_error_split in H as (a & c & -> & <-).
  rewrite rev_app_distr. cbn [rev]. rewrite <- app_assoc. rewrite app_length in *. cbn [length] in *.
  replace (length a + S (length c) - 1 - length a) with (length (rev c)) by (rewrite rev_length; lia).
  apply nth_error_mid.
Qed.
Lemma nth_rev_inv {A} (l : list A) c x :
  nth_error (rev l) c = Some x -> c < length l /\ nth_error l (length l - 1 - c) = Some x.
Proof.
  intro H. assert (c < length l) by (rewrite <- rev_length; apply nth_error_Some; congruence).
  split; [assumption|]. pose proof (nth_rev _ _ _ H) as E. now rewrite rev_involutive, rev_length in E.
Qed.

(** *** Rows: prefix always, everything on success *)
Lemma drive_rows F g srcs rng s o :
  drive F g srcs rng = (s, o) ->
  forall i src, nth_error srcs i = Some src ->
    prefix (rows_to (length srcs - 1 - i) (r_devs s)) (selected rng src) /\
    (o = Ok tt -> rows_to (length srcs - 1 - i) (r_devs s) = selected rng src).
Proof.
  intros H i src Hi.
  destruct (drive_cases _ _ _ _ _ _ H) as [(bs & E & L)|(-> & E & ->)].
  - destruct (bufs_facts _ _ _ E) as (P & _ & SS & _).
    pose proof (Loop_rows _ _ _ _ _ _ _ L (SS_NoDup _ SS) (r_devs s) eq_refl
      (length srcs - 1 - i)) as Q.
    rewrite P in Q. unfold src_rows in Q. rewrite (nth_rev _ _ _ Hi) in Q. exact Q.
  - cbn. split; [now exists (selected rng src)|].
    destruct (get_row_buffers rng srcs); discriminate.
Qed.

Lemma drive_chains F g srcs rng s o :
  drive F g srcs rng = (s, o) ->
  forall e, In e (r_devs s) -> match e with DRow c _ => c < length srcs | DFlush c => c < length srcs end.
Proof.
  intros H e He.
  destruct (drive_cases _ _ _ _ _ _ H) as [(bs & E & L)|(-> & E & ->)]; [|destruct He].
  destruct (bufs_facts _ _ _ E) as (_ & C & _).
  assert (G : exists bf, In bf bs /\ match e with DRow c _ => c = b_chain bf | DFlush c => c = b_chain bf end).
  { clear - L He. 
    assert (Hin : forall e, In e (r_devs s) -> In e (r_devs run0) \/ exists bf, In bf bs /\
      match e with DRow c _ => c = b_chain bf | DFlush c => c = b_chain bf end).
    { clear e He. remember run0 as s0. clear Heqs0.
      induction L as [s|bs s l1 bf l2 P Hn
      |bs s s1 o l1 bf l2 r P Hr Hh Ho
      |bs s s1 e l1 bf l2 r P Hr Hh Hm He
      |bs s s1 s' o l1 bf bf' l2 r r' P Hr Hh Hm Hc Hr' Ht HL IH
      |bs s s1 s2 o l1 bf l2 r src P Hr Hh Hm Hh2 Ho
      |bs s s1 s2 s' o l1 bf l2 r src P Hr Hh Hm Hh2 HL IH]; intros x Hx; auto;
      destruct P as (-> & _); apply hand_inv in Hh as [D _].
      - rewrite D in Hx. apply in_app_or in Hx as [Hx|[<-|[]]]; auto.
        right. exists bf. split; [apply in_elt|reflexivity].
      - rewrite D in Hx. apply in_app_or in Hx as [Hx|[<-|[]]]; auto.
        right. exists bf. split; [apply in_elt|reflexivity].
      - destruct (IH x Hx) as [Hx'|(b0 & Hb & Hm0)].
        + rewrite D in Hx'. apply in_app_or in Hx' as [Hx'|[<-|[]]]; auto.
          right. exists bf. split; [apply in_elt|reflexivity].
        + right. apply in_app_or in Hb as [Hb|[<-|Hb]].
          * exists b0. rewrite in_app_iff. auto.
          * exists bf. rewrite <- Hc. split; [apply in_elt|exact Hm0].
          * exists b0. rewrite in_app_iff. cbn. auto.
      - apply hand_inv in Hh2 as [D2 _]. rewrite D2, D in Hx.
        apply in_app_or in Hx as [Hx|[<-|[]]];
          [apply in_app_or in Hx as [Hx|[<-|[]]]|]; auto;
        right; exists bf; (split; [apply in_elt|reflexivity]).
      - apply hand_inv in Hh2 as [D2 _]. destruct (IH x Hx) as [Hx'|(b0 & Hb & Hm0)].
        + rewrite D2, D in Hx'.
          apply in_app_or in Hx' as [Hx'|[<-|[]]];
            [apply in_app_or in Hx' as [Hx'|[<-|[]]]|]; auto;
          right; exists bf; (split; [apply in_elt|reflexivity]).
        + right. exists b0. split; [|exact Hm0]. rewrite in_app_iff in *. cbn. tauto. }
    destruct (Hin e He) as [[]|G]. exact G. }
  destruct G as (bf & Hb & Hm). apply (in_map b_chain) in Hb. rewrite C in Hb. apply in_seq in Hb.
  destruct e; lia.
Qed.

Lemma rows_to_perm n ds :
  (forall c r, In (DRow c r) ds -> c < n) ->
  Permutation (rows_handed ds) (concat (map (fun c => rows_to c ds) (seq 0 n))).
Proof.
  induction ds as [|[c r|c] ds IH]; intro H.
  - cbn. clear. induction (seq 0 n) as [|x l IH]; cbn; auto.
  - assert (c < n) by (apply (H c r); now left).
    cbn [rows_handed].
    rewrite IH by (intros; eapply H; right; eauto).
    assert (Hs : seq 0 n = seq 0 c ++ c :: seq (S c) (n - S c)).
    { replace n with (c + S (n - S c)) at 1 by lia. rewrite seq_app. reflexivity. }
    rewrite Hs, !map_app, !concat_app. cbn [map concat rows_to]. rewrite Nat.eqb_refl.
    rewrite (map_ext_in (fun c0 => if c =? c0 then r :: rows_to c0 ds else rows_to c0 ds)
               (fun c0 => rows_to c0 ds) (seq 0 c)).
    2:{ intros a Ha. apply in_seq in Ha. destruct (Nat.eqb_spec c a); [lia|reflexivity]. }
    rewrite (map_ext_in (fun c0 => if c =? c0 then r :: rows_to c0 ds else rows_to c0 ds)
               (fun c0 => rows_to c0 ds) (seq (S c) (n - S c))).
    2:{ intros a Ha. apply in_seq in Ha. destruct (Nat.eqb_spec c a); [lia|reflexivity]. }
    cbn [app]. apply Permutation_middle.
  - cbn [rows_handed rows_to]. apply IH. intros; eapply H; right; eauto.
Qed.

Lemma perm_concat {A} (x y : list (list A)) : Permutation x y -> Permutation (concat x) (concat y).
Proof.
  induction 1; cbn; auto.
  - now apply Permutation_app_head.
  - rewrite !app_assoc. apply Permutation_app_tail, Permutation_app_comm.
  - etransitivity; eauto.
Qed.

Lemma nth_error_map_seq {A B} (f : nat -> B) (h : A -> B) (l : list A) i :
  (forall c x, nth_error l c = Some x -> f (i + c) = h x) -> map f (seq i (length l)) = map h l.
Proof.
  revert i; induction l as [|a l IH]; intros i H; cbn; [reflexivity|].
  rewrite <- (H 0 a eq_refl), Nat.add_0_r. f_equal. apply IH.
  intros c x Hc. rewrite <- (H (S c) x Hc). f_equal. lia.
Qed.

Lemma drive_perm F g srcs rng s :
  drive F g srcs rng = (s, Ok tt) ->
  Permutation (rows_handed (r_devs s)) (concat (map (selected rng) srcs)).
Proof.
  intro H. rewrite (rows_to_perm (length srcs)).
  2:{ intros c r Hin. apply (drive_chains _ _ _ _ _ _ H) in Hin. exact Hin. }
  rewrite <- (rev_length srcs), (nth_error_map_seq _ (selected rng)).
  - apply perm_concat, Permutation_map. symmetry. apply Permutation_rev.
  - intros c x Hc. apply nth_rev_inv in Hc as [Hl Hc].
    destruct (drive_rows _ _ _ _ _ _ H _ _ Hc) as [_ E]. rewrite <- E by reflexivity.
    f_equal. lia.
Qed.

(** *** C04: the pick rule *)
Lemma drive_pick F g srcs rng s o :
  drive F g srcs rng = (s, o) ->
  forall pre c r post, r_devs s = pre ++ DRow c r :: post ->
  forall j src r', nth_error srcs j = Some src ->
    nth_error (selected rng src) (length (rows_to (length srcs - 1 - j) pre)) = Some r' ->
    (ts r < ts r')%N \/ (ts r = ts r' /\ c <= length srcs - 1 - j).
Proof.
  intros H pre c r post E j src r' Hj Hr.
  destruct (drive_cases _ _ _ _ _ _ H) as [(bs & Eb & L)|(-> & Eb & ->)].
  2:{ cbn in E. destruct pre; discriminate. }
  destruct (bufs_facts _ _ _ Eb) as (P & _ & SS & Ok & _).
  pose proof (Loop_pick _ _ _ _ _ _ _ L SS Ok (r_devs s) eq_refl) as R.
  apply (R _ _ _ _ E (length srcs - 1 - j)). rewrite P. unfold src_rows.
  now rewrite (nth_rev _ _ _ Hj).
Qed.

(** *** C01: order *)
Lemma until_end_prefix rng rs : prefix (until_end rng rs) rs.
Proof.
  induction rs as [|r rs [t IH]]; cbn; [now exists []|].
  destruct (before_end rng (ts r)); [exists t; cbn; now rewrite <- IH|now exists (r :: rs)].
Qed.

Lemma SS_prefix {A} (R : A -> A -> Prop) x y : StronglySorted R (x ++ y) -> StronglySorted R x.
Proof.
  induction x as [|a x IH]; cbn; intro H; constructor; inversion H as [|? ? S Fl]; subst; auto.
  now apply Forall_app in Fl as [? _].
Qed.
Lemma SS_filter {A} (R : A -> A -> Prop) f x : StronglySorted R x -> StronglySorted R (filter f x).
Proof.
  induction 1 as [|a x S IH Fl]; cbn; [constructor|].
  destruct (f a); auto. constructor; auto. rewrite Forall_forall in *.
  intros y Hy. apply filter_In in Hy as [Hy _]. auto.
Qed.

Lemma ts_le_trans : Relations_1.Transitive ts_le.
Proof. intros x y z. unfold ts_le. lia. Qed.

Lemma selected_sorted rng src :
  time_ordered (rows_before_failure src) -> StronglySorted ts_le (selected rng src).
Proof.
  intro H. apply Sorted_StronglySorted in H; [|exact ts_le_trans].
  unfold selected. apply SS_filter.
  destruct (until_end_prefix rng (rows_before_failure src)) as [t E]. rewrite E in H.
  now apply SS_prefix in H.
Qed.

Lemma SS_nth {A} (R : A -> A -> Prop) l i j x y :
  StronglySorted R l -> i < j -> nth_error l i = Some x -> nth_error l j = Some y -> R x y.
Proof.
  intro H. revert i j; induction H as [|a l S IH Fl]; intros [|i] [|j] Hij Hx Hy;
    cbn in *; try discriminate; try lia.
  - injection Hx as ->. rewrite Forall_forall in Fl. apply Fl. eapply nth_error_In; eauto.
  - eapply IH; [|eauto|eauto]. lia.
Qed.

(* if whenever one row is handed right after another they are ordered, all are *)
Lemma handed_sorted ds :
  (forall pre c r mid c' r' post,
     ds = pre ++ DRow c r :: mid ++ DRow c' r' :: post -> rows_handed mid = [] -> ts_le r r') ->
  time_ordered (rows_handed ds).
Proof.
  unfold time_ordered. induction ds as [|[c r|c] ds IH]; intro H; cbn; [constructor| |].
  - constructor.
    + apply IH. intros pre c0 r0 mid c' r' post ->. apply (H (DRow c r :: pre) c0 r0 mid c' r' post). reflexivity.
    + assert (G : forall mid rest, ds = mid ++ rest -> rows_handed mid = [] ->
               HdRel ts_le r (rows_handed rest)).
      { intros mid rest. revert mid. induction rest as [|[c' r'|c'] rest IHr]; intros mid E M; cbn.
        - constructor.
        - constructor. apply (H [] c r mid c' r' rest); [cbn; now rewrite E|exact M].
        - apply (IHr (mid ++ [DFlush c'])).
          + rewrite <- app_assoc. exact E.
          + rewrite rows_handed_app, M. reflexivity. }
      apply (G [] ds); reflexivity.
  - apply IH. intros pre c0 r0 mid c' r' post ->. apply (H (DFlush c :: pre) c0 r0 mid c' r' post). reflexivity.
Qed.

Lemma rows_to_of_handed ds c : rows_handed ds = [] -> rows_to c ds = [].
Proof. induction ds as [|[d r|d] ds IH]; cbn; auto; discriminate. Qed.

Lemma drive_sorted F g srcs rng s o :
  drive F g srcs rng = (s, o) ->
  (forall src, In src srcs -> time_ordered (rows_before_failure src)) ->
  time_ordered (rows_handed (r_devs s)).
Proof.
  intros H Hsrt. apply handed_sorted. intros pre c r mid c' r' post E M.
  (* r' came from the source feeding c' *)
  assert (Hc' : c' < length srcs).
  { apply (drive_chains _ _ _ _ _ _ H (DRow c' r')). rewrite E.
    apply in_or_app. right. right. apply in_elt. }
  assert (Hc : c < length srcs).
  { apply (drive_chains _ _ _ _ _ _ H (DRow c r)). rewrite E. apply in_elt. }
  set (j := length srcs - 1 - c').
  destruct (nth_error srcs j) as [src|] eqn:Hj.
  2:{ apply nth_error_None in Hj. lia. }
  assert (Ej : length srcs - 1 - j = c') by lia.
  destruct (drive_rows _ _ _ _ _ _ H j src Hj) as [[z Hz] _]. rewrite Ej in Hz.
  assert (Hr' : nth_error (selected rng src)
      (length (rows_to c' pre) + (if c =? c' then 1 else 0)) = Some r').
  { rewrite Hz, E, rows_to_app. cbn [rows_to]. rewrite rows_to_app. cbn [rows_to].
    rewrite (rows_to_of_handed mid c' M). cbn [app]. rewrite Nat.eqb_refl.
    rewrite <- app_assoc. rewrite nth_error_app2 by lia.
    replace (_ + _ - _) with (if c =? c' then 1 else 0) by lia.
    destruct (c =? c'); reflexivity. }
  destruct (Nat.eqb_spec c c') as [<-|Hne].
  - (* same source: its own order *)
    assert (Hr : nth_error (selected rng src) (length (rows_to c pre)) = Some r).
    { rewrite Hz, E, rows_to_app. cbn [rows_to]. rewrite Nat.eqb_refl.
      rewrite <- app_assoc. rewrite nth_error_app2 by lia. rewrite Nat.sub_diag. reflexivity. }
    eapply SS_nth; [apply selected_sorted, Hsrt; eapply nth_error_In; eauto| |exact Hr|exact Hr'].
    lia.
  - rewrite Nat.add_0_r in Hr'.
    destruct (drive_pick _ _ _ _ _ _ H pre c r _ E j src r' Hj) as [L|[L _]];
      [rewrite Ej; exact Hr'| |]; unfold ts_le; lia.
Qed.

(** *** C03: the range *)
Lemma selected_in rng src r :
  In r (selected rng src) ->
  In (Ok r) src /\ before_end rng (ts r) = true /\ from_begin rng (ts r) = true.
Proof.
  unfold selected. intro H. apply filter_In in H as [H B].
  assert (In r (rows_before_failure src) /\ before_end rng (ts r) = true) as [H1 H2].
  { clear B. induction (rows_before_failure src) as [|x l IH]; cbn in H; [destruct H|].
    destruct (before_end rng (ts x)) eqn:E; [|destruct H]. destruct H as [<-|H]; [cbn; auto|].
    destruct (IH H). cbn. auto. }
  repeat split; auto. clear - H1. induction src as [|[x|e| | |] src IH]; cbn in H1; try destruct H1.
  - left. now f_equal.
  - right. auto.
Qed.

Lemma rows_handed_chain ds r : In r (rows_handed ds) -> exists c, In (DRow c r) ds /\ In r (rows_to c ds).
Proof.
  induction ds as [|[c x|c] ds IH]; cbn; [tauto| |].
  - intros [->|H].
    + exists c. rewrite Nat.eqb_refl. cbn. auto.
    + destruct (IH H) as (d & A & B). exists d. split; [auto|]. destruct (c =? d); cbn; auto.
  - intro H. destruct (IH H) as (d & A & B). exists d. auto.
Qed.

Lemma drive_row_origin F g srcs rng s o :
  drive F g srcs rng = (s, o) ->
  forall r, In r (rows_handed (r_devs s)) ->
    exists src, In src srcs /\ In (Ok r) src /\
      before_end rng (ts r) = true /\ from_begin rng (ts r) = true.
Proof.
  intros H r Hr. destruct (rows_handed_chain _ _ Hr) as (c & Hin & Hto).
  assert (c < length srcs) by apply (drive_chains _ _ _ _ _ _ H _ Hin).
  destruct (nth_error srcs (length srcs - 1 - c)) as [src|] eqn:Hj.
  2:{ apply nth_error_None in Hj. lia. }
  destruct (drive_rows _ _ _ _ _ _ H _ _ Hj) as [[z Hz] _].
  replace (length srcs - 1 - (length srcs - 1 - c)) with c in Hz by lia.
  exists src. split; [eapply nth_error_In; eauto|]. apply selected_in.
  rewrite Hz. apply in_or_app. auto.
Qed.

Lemma before_end_mono rng x y : ts_le x y -> before_end rng (ts y) = true -> before_end rng (ts x) = true.
Proof.
  unfold before_end, ts_le. destruct (tr_end rng); auto.
  intros A B. apply N.ltb_lt in B. apply N.ltb_lt. lia.
Qed.

Lemma until_end_sorted rng rs :
  StronglySorted ts_le rs -> until_end rng rs = filter (fun r => before_end rng (ts r)) rs.
Proof.
  induction 1 as [|r rs S IH Fl]; cbn; [reflexivity|].
  destruct (before_end rng (ts r)) eqn:E; [now rewrite IH|].
  symmetry. clear IH S. induction rs as [|x rs IHr]; cbn; [reflexivity|].
  inversion Fl as [|? ? Hx Fl']; subst. destruct (before_end rng (ts x)) eqn:Ex.
  - rewrite (before_end_mono _ _ _ Hx Ex) in E. discriminate.
  - now apply IHr.
Qed.

Lemma filter_filter {A} (f h : A -> bool) l : filter f (filter h l) = filter (fun x => f x && h x) l.
Proof.
  induction l as [|a l IH]; cbn; [reflexivity|].
  destruct (h a); cbn; destruct (f a); cbn; rewrite ?IH; reflexivity.
Qed.

Lemma rows_before_failure_readable s : Forall (fun x => is_ok x = true) s -> map Ok (rows_before_failure s) = s.
Proof. induction 1 as [|[r|e| | |] s Hx H IH]; cbn in *; try discriminate; auto. now rewrite IH. Qed.

(** *** C06: empty sources *)
Lemma make_bufs_nth rng popped i bs c s :
  make_bufs rng popped i = Ok bs -> nth_error popped c = Some s ->
  exists bf, nth_error bs c = Some bf /\ new_buf rng s (i + c) = Ok bf.
Proof.
  revert i bs c; induction popped as [|x t IH]; intros i bs c H Hc; [destruct c; discriminate|].
  cbn in H. destruct (new_buf rng x i) as [bf|e| | |] eqn:E; cbn [bind] in H; try discriminate.
  destruct (make_bufs rng t (S i)) as [bs'|e| | |] eqn:E2; cbn [bind] in H; try discriminate.
  injection H as <-. destruct c as [|c]; cbn in Hc.
  - injection Hc as ->. exists bf. rewrite Nat.add_0_r. auto.
  - destruct (IH _ _ _ E2 Hc) as (b0 & A & B). exists b0. split; [exact A|].
    replace (i + S c) with (S i + c) by lia. exact B.
Qed.

Lemma drive_empty_source F g srcs rng s o :
  drive F g srcs rng = (s, o) ->
  (exists src, In src srcs /\ selected rng src = []) -> o <> Ok tt.
Proof.
  intros H (src & Hin & Hs) ->.
  destruct (drive_cases _ _ _ _ _ _ H) as [(bs & E & L)|(-> & E & Eo)].
  2:{ destruct (get_row_buffers rng srcs); discriminate. }
  apply Loop_ok_rows in L. rewrite Forall_forall in L.
  apply in_rev in Hin. apply In_nth_error in Hin as (c & Hc).
  destruct (make_bufs_nth _ _ _ _ _ _ E Hc) as (bf & Hb & Hn).
  destruct (new_buf_spec _ _ _ _ Hn) as (_ & _ & _ & _ & [A _]).
  apply A; [|exact Hs]. apply L. eapply nth_error_In; eauto.
Qed.

Lemma Forall2_in_l {A B} (P : A -> B -> Prop) x y a : Forall2 P x y -> In a x -> exists c, In c y /\ P a c.
Proof. induction 1; cbn; [tauto|]. intros [<-|H']; [eauto|]. destruct (IHForall2 H') as (d & ? & ?). eauto. Qed.
Lemma Forall2_in_r {A B} (P : A -> B -> Prop) x y c : Forall2 P x y -> In c y -> exists a, In a x /\ P a c.
Proof. induction 1; cbn; [tauto|]. intros [<-|H']; [eauto|]. destruct (IHForall2 H') as (d & ? & ?). eauto. Qed.

(* all sources readable and non-empty in range: only the graph can fail *)
Lemma drive_success F g srcs rng s o :
  drive F g srcs rng = (s, o) ->
  (forall src, In src srcs -> readable rng src /\ selected rng src <> []) ->
  (forall lg e, match e with
                | DRow c r => c < length srcs /\ exists src, In src srcs /\ In r (selected rng src)
                | DFlush c => c < length srcs
                end ->
        exists lg', apply_ev F g lg e = (lg', Ok tt)) ->
  o = Ok tt.
Proof.
  intros H Hs Hg.
  destruct (drive_cases _ _ _ _ _ _ H) as [(bs & E & L)|(-> & E & ->)].
  - destruct (bufs_facts _ _ _ E) as (P & C & SS & Ok & F2).
    eapply Loop_outcome; [exact L| |].
    + apply Forall_forall. intros bf Hb.
      destruct (Forall2_in_r _ _ _ _ F2 Hb) as (src & Hin & Hp & _ & R).
      apply in_rev in Hin. destruct (Hs _ Hin) as [Hr Hne].
      assert (b_row bf <> None) as Hb1.
      { intro N. apply Hne. rewrite <- Hp. unfold pending. now rewrite N. }
      split; [exact Hb1|]. apply R in Hr. destruct Hr; [contradiction|assumption].
    + intros lg e He. apply Hg. destruct He as [(bf & r & -> & Hb & Hp)|(c & -> & Hc)].
      * assert (Hc : In (b_chain bf) (map b_chain bs)) by (apply in_map; exact Hb).
        rewrite C in Hc. apply in_seq in Hc. split; [lia|].
        destruct (Forall2_in_r _ _ _ _ F2 Hb) as (src & Hin & Hp' & _). apply in_rev in Hin.
        exists src. rewrite <- Hp'. auto.
      * rewrite C in Hc; apply in_seq in Hc; lia.
  - apply make_bufs_fail in E as (src & Hin & N). apply in_rev in Hin.
    destruct (Hs _ Hin). contradiction.
Qed.

(** *** C07 *)
Lemma drive_exec F g srcs rng s o :
  drive F g srcs rng = (s, o) ->
  exists o1, each (apply_ev F g) (r_devs s) [] = (r_log s, o1) /\ (o1 = Ok tt \/ o1 = o).
Proof.
  intro H. destruct (drive_cases _ _ _ _ _ _ H) as [(bs & E & L)|(-> & E & ->)].
  - apply Loop_exec in L as (new & o1 & D & X & O). cbn in D. subst new. eauto.
  - exists (Ok tt). auto.
Qed.

Lemma drive_tr F g srcs rng s :
  drive F g srcs rng = (s, Ok tt) ->
  exists segs, r_log s = concat segs /\ tr g [] (map call_of (r_devs s)) segs.
Proof.
  intro H. destruct (drive_exec _ _ _ _ _ _ H) as (o1 & E & O).
  assert (o1 = Ok tt) as -> by tauto.
  apply exec_tr in E as (segs & E & T). eauto.
Qed.

Lemma drive_flush_devs F g srcs rng s :
  drive F g srcs rng = (s, Ok tt) ->
  (forall c, c < length srcs -> In (DFlush c) (r_devs s)) /\
  (forall pre c r post, r_devs s = pre ++ DRow c r :: post -> In (DFlush c) post).
Proof.
  intro H. destruct (drive_cases _ _ _ _ _ _ H) as [(bs & E & L)|(-> & E & Eo)].
  2:{ destruct (get_row_buffers rng srcs); discriminate. }
  destruct (bufs_facts _ _ _ E) as (P & C & SS & _).
  destruct (Loop_flush _ _ _ _ _ _ L (SS_NoDup _ SS) (r_devs s) eq_refl) as (A & B & _).
  split; [|exact B]. intros c Hc.
  assert (In c (map b_chain bs)) as Hin by (rewrite C; apply in_seq; lia).
  apply in_map_iff in Hin as (bf & <- & Hb). now apply A.
Qed.

Lemma concat_split {A} (segs : list (list A)) pre v post :
  concat segs = pre ++ v :: post ->
  exists s1 sg s2 a d, segs = s1 ++ sg :: s2 /\ sg = a ++ v :: d /\ post = d ++ concat s2.
Proof.
  revert pre; induction segs as [|sg segs IH]; intros pre E; cbn in E.
  - destruct pre; discriminate.
  - destruct (split_app _ _ _ _ _ E) as [(p & E1 & ->)|(q & -> & E2)].
    + exists [], sg, segs, pre, p. auto.
    + destruct (IH _ E2) as (s1 & sg' & s2 & a & d & -> & -> & ->).
      exists (sg :: s1), (a ++ v :: d), s2, a, d. auto.
Qed.

Lemma Forall2_split_r {A B} (P : A -> B -> Prop) xs y1 y y2 :
  Forall2 P xs (y1 ++ y :: y2) -> exists x1 x x2, xs = x1 ++ x :: x2 /\ P x y /\ Forall2 P x2 y2.
Proof.
  intro H. apply Forall2_app_inv_r in H as (x1 & x2 & _ & H2 & ->).
  inversion H2 as [|x ? x3 ? Hx H3]; subst. exists x1, x, x3. auto.
Qed.

Lemma map_split {A B} (f : A -> B) l y1 y y2 :
  map f l = y1 ++ y :: y2 -> exists l1 x l2, l = l1 ++ x :: l2 /\ f x = y /\ map f l2 = y2.
Proof.
  revert y1; induction l as [|a l IH]; intros y1 E; [destruct y1; discriminate|].
  destruct y1 as [|b0 y1]; cbn in E; injection E as E1 E2.
  - exists [], a, l. auto.
  - destruct (IH _ E2) as (l1 & x & l2 & -> & A1 & A2). exists (a :: l1), x, l2. auto.
Qed.

Lemma drive_flush_after F g srcs rng s :
  drive F g srcs rng = (s, Ok tt) ->
  forall pre c n r post, r_log s = pre ++ V c n (EvRow r) :: post -> In (V c n EvFlush) post.
Proof.
  intros H pre c n r post E.
  destruct (drive_tr _ _ _ _ _ H) as (segs & El & T). rewrite El in E.
  destruct (concat_split _ _ _ _ E) as (s1 & sg & s2 & a & d & -> & -> & ->).
  destruct (drive_flush_devs _ _ _ _ _ H) as (_ & Hfl).
  pose proof (tr_reach _ _ _ _ T) as R. pose proof (tr_covers _ _ _ _ T) as C.
  assert (J : Forall2 (fun cl seg => (let '(c, n, e) := cl in
      forall v, In v seg -> reach g c (v_chain v) /\ same_kind e (v_ev v)) /\
      (let '(c, n, e) := cl in e = EvFlush -> covers g c n seg))
      (map call_of (r_devs s)) (s1 ++ (a ++ V c n (EvRow r) :: d) :: s2)).
  { clear - R C. induction R; inversion C; subst; constructor; auto. }
  apply Forall2_split_r in J as (x1 & x & x2 & Ex & (Hx & _) & J2).
  apply map_split in Ex as (l1 & e & l2 & Ed & Ee & E2). subst x x2.
  destruct e as [c0 r0|c0]; cbn in Hx.
  2:{ destruct (Hx (V c n (EvRow r))) as [_ K]; [apply in_elt|destruct K]. }
  destruct (Hx (V c n (EvRow r))) as [Rc _]; [apply in_elt|]. cbn in Rc.
  pose proof (Hfl _ _ _ _ Ed) as Hin.
  apply (in_map call_of) in Hin. cbn in Hin.
  destruct (Forall2_in_l _ _ _ _ J2 Hin) as (sg2 & Hsg & _ & Hcov).
  apply in_or_app. right. apply in_concat. exists sg2. split; [exact Hsg|].
  eapply covers_reach; [apply Hcov; reflexivity|exact Rc|].
  (* the node exists because it was visited *)
  assert (Hex : forall lg calls segs, tr g lg calls segs -> forall v, In v (concat segs) ->
      node_at g (v_chain v) (v_node v) <> None).
  { clear. induction 1; cbn [concat]; intros v Hv; try (now destruct Hv); auto.
    - apply in_app_or in Hv as [[<-|Hv]|Hv]; cbn; auto. congruence.
    - apply in_app_or in Hv as [[<-|Hv]|Hv]; cbn; auto. congruence.
    - apply in_app_or in Hv as [[<-|Hv]|Hv]; cbn; auto. congruence. }
  apply (Hex _ _ _ T (V c n (EvRow r))). apply in_concat. eexists. split; apply in_elt.
Qed.

Lemma drive_flush_reach F g srcs rng s :
  drive F g srcs rng = (s, Ok tt) ->
  forall c d n, c < length srcs -> reach g c d -> node_at g d n <> None ->
    In (V d n EvFlush) (r_log s).
Proof.
  intros H c d n Hc R Hn.
  destruct (drive_tr _ _ _ _ _ H) as (segs & El & T). rewrite El.
  destruct (drive_flush_devs _ _ _ _ _ H) as (Hfl & _).
  specialize (Hfl _ Hc). apply (in_map call_of) in Hfl.
  destruct (Forall2_in_l _ _ _ _ (tr_covers _ _ _ _ T) Hfl) as (sg & Hsg & Hcov).
  apply in_concat. exists sg. split; [exact Hsg|].
  eapply covers_reach; [apply Hcov; reflexivity|exact R|exact Hn].
Qed.

(** *** C08, C09 *)
Lemma drive_pipe F g srcs rng s :
  drive F g srcs rng = (s, Ok tt) -> acyclic g ->
  forall c n nd, node_at g c n = Some nd -> node_at g c (S n) <> None ->
    rows_at (r_log s) c (S n) = node_emit nd [] (events_at (r_log s) c n).
Proof.
  intros H (rank & Hrank) c n nd Hat Hnext.
  destruct (drive_tr _ _ _ _ _ H) as (segs & El & T). rewrite El.
  apply (tr_pipe g rank Hrank [] _ _ T c n nd Hat Hnext).
  intros cl Hcl. apply in_map_iff in Hcl as ([d r|d] & <- & _); cbn; right; lia.
Qed.

Lemma drive_tees F g srcs rng s :
  drive F g srcs rng = (s, Ok tt) -> acyclic g ->
  forall pre c n r post nd, r_log s = pre ++ V c n (EvRow r) :: post ->
    node_at g c n = Some nd -> (forall k, nd <> DSink k) -> tees g c n r (targets nd) post.
Proof.
  intros H (rank & Hrank). destruct (drive_tr _ _ _ _ _ H) as (segs & El & T). rewrite El.
  exact (tr_tees g rank Hrank _ _ _ T).
Qed.

(** *** C10 *)
Lemma picked_unique bs bs' l1 bf l2 m1 bf' m2 :
  Forall2 (fun x y : buf => b_ts x = b_ts y) bs bs' ->
  picked bs l1 bf l2 -> picked bs' m1 bf' m2 -> length l1 = length m1.
Proof.
  intros HF (-> & A1 & A2) (-> & B1 & B2).
  revert m1 HF B1. induction l1 as [|x l1 IH]; intros [|y m1] HF B1; auto;
    cbn [app] in HF; inversion HF as [|? ? ? ? E HF']; subst.
  - inversion B1 as [|? ? Hy _]; subst.
    destruct (Forall2_in_r _ _ _ bf' HF') as (z & Hz & Ez); [apply in_elt|].
    rewrite Forall_forall in A2. specialize (A2 _ Hz). lia.
  - inversion A1 as [|? ? Hx _]; subst.
    destruct (Forall2_in_l _ _ _ bf HF') as (z & Hz & Ez); [apply in_elt|].
    rewrite Forall_forall in B2. specialize (B2 _ Hz). lia.
  - cbn. f_equal. apply IH; auto.
    + now inversion A1.
    + now inversion B1.
Qed.

Definition buf_repair (x y : buf) : Prop :=
  b_chain x = b_chain y /\ b_ts x = b_ts y /\ b_row x = b_row y /\
  source_repair (b_src x) (b_src y).

Lemma match_next_row_repair rng s s' o t :
  source_repair s s' -> match_next_row rng s = Ok (o, t) ->
  exists t', match_next_row rng s' = Ok (o, t') /\ source_repair t t'.
Proof.
  intros [->|(p & x & u & u' & -> & -> & Hp & Hx)] H.
  - exists t. split; [exact H|now left].
  - revert H. induction p as [|y p IH]; intro H; cbn [app match_next_row] in *.
    + destruct x; cbn in H; discriminate.
    + destruct y as [r|e| | |]; try (specialize (Hp _ (or_introl eq_refl)); discriminate).
      cbn [bind] in *.
      destruct (filter_data_range rng (ts r)).
      * injection H as <- <-. eexists; split; [reflexivity|].
        right. exists p, x, u, u'. repeat split; auto. intros; apply Hp; now right.
      * injection H as <- <-. eexists; split; [reflexivity|].
        right. exists p, x, u, u'. repeat split; auto. intros; apply Hp; now right.
      * apply IH; [|exact H]. intros; apply Hp; now right.
Qed.

Lemma Loop_ext F g rng bs s s' o :
  Loop F g rng bs s s' o -> prefix (r_devs s) (r_devs s') /\ prefix (r_log s) (r_log s').
Proof.
  intro L. apply Loop_exec in L as (new & o1 & D & E & _). split; [now exists new|].
  replace (r_log s') with (fst (each (apply_ev F g) new (r_log s))) by now rewrite E.
  apply each_ext. intros. apply apply_ev_ext.
Qed.

Lemma Forall2_mid {A B} (P : A -> B -> Prop) l1 x l2 m1 y m2 :
  Forall2 P (l1 ++ x :: l2) (m1 ++ y :: m2) -> length l1 = length m1 ->
  Forall2 P l1 m1 /\ P x y /\ Forall2 P l2 m2.
Proof.
  revert m1; induction l1 as [|a l1 IH]; intros [|d m1] H L; cbn in *; try discriminate;
    inversion H as [|? ? ? ? Hh HF]; subst; auto.
  injection L as L. destruct (IH _ HF L) as (A1 & A2 & A3). auto.
Qed.

Lemma hand_agrees F g g' s e s1 o1 s2 o2 :
  graph_repair g g' -> hand F g s e = (s1, o1) -> hand F g' s e = (s2, o2) ->
  (o1 = Ok tt -> s2 = s1 /\ o2 = Ok tt) /\
  prefix (r_devs s1) (r_devs s2) /\ prefix (r_log s1) (r_log s2).
Proof.
  intros HG. unfold hand. pose proof (apply_ev_agrees F g g' (r_log s) e HG) as A.
  destruct (apply_ev F g (r_log s) e) as [lg o] eqn:E1.
  destruct (apply_ev F g' (r_log s) e) as [lg' o'] eqn:E2.
  intros [= <- <-] [= <- <-]. unfold agrees in A. cbn [fst snd r_devs r_log] in *.
  split; [|split; [apply prefix_refl|]].
  - intros ->. injection A as <- <-. auto.
  - destruct o as [[]|?| | |]; auto. injection A as -> _. apply prefix_refl.
Qed.


(* what a loop does from a known pick *)
Lemma Loop_step F g rng bs s s' o l1 bf l2 r :
  Loop F g rng bs s s' o -> picked bs l1 bf l2 -> b_row bf = Some r ->
  exists s1 o1, hand F g s (DRow (b_chain bf) r) = (s1, o1) /\
  ((o1 <> Ok tt /\ s' = s1 /\ o = o1) \/
   (o1 = Ok tt /\
    match match_next_row rng (b_src bf) with
    | Ok (Some r', src) =>
        Loop F g rng (l1 ++ {| b_src := src; b_chain := b_chain bf; b_ts := ts r';
                               b_row := Some r' |} :: l2) s1 s' o
    | Ok (None, _) =>
        exists s2 o2, hand F g s1 (DFlush (b_chain bf)) = (s2, o2) /\
          ((o2 <> Ok tt /\ s' = s2 /\ o = o2) \/ (o2 = Ok tt /\ Loop F g rng (l1 ++ l2) s2 s' o))
    | e => s' = s1 /\ o = fail_as e
    end)).
Proof.
  intros L P Hr.
  assert (U : forall m1 b2 m2, picked bs m1 b2 m2 -> m1 = l1 /\ b2 = bf /\ m2 = l2).
  { intros m1 b2 m2 P2.
    assert (length l1 = length m1) as EL.
    { eapply picked_unique; [|exact P|exact P2]. clear. induction bs; constructor; auto. }
    destruct P as (E & _). destruct P2 as (E2 & _). rewrite E in E2. symmetry in E2.
    apply app_inj_len in E2 as [-> E2]; [|now symmetry]. injection E2 as -> ->. auto. }
  inversion L as [s0|bs0 s0 m1 b2 m2 P2 Hn2
      |bs0 s0 t1 o0 m1 b2 m2 r2 P2 Hr2 Hh Ho
      |bs0 s0 t1 e m1 b2 m2 r2 P2 Hr2 Hh Hm He
      |bs0 s0 t1 t' o0 m1 b2 b2' m2 r2 r2' P2 Hr2 Hh Hm Hc Hr' Ht HL
      |bs0 s0 t1 t2 o0 m1 b2 m2 r2 src P2 Hr2 Hh Hm Hh2 Ho
      |bs0 s0 t1 t2 t' o0 m1 b2 m2 r2 src P2 Hr2 Hh Hm Hh2 HL]; subst;
    try (destruct (U _ _ _ P2) as (-> & -> & ->); rewrite Hr in *;
         try injection Hr2 as <-).
  - destruct P as (P & _). destruct l1; discriminate.
  - discriminate.
  - exists s', o. split; [exact Hh|]. left. auto.
  - exists s', (Ok tt). split; [exact Hh|]. right. split; [reflexivity|].
    destruct (match_next_row rng (b_src bf)) as [[]|?| | |]; auto; discriminate.
  - exists t1, (Ok tt). split; [exact Hh|]. right. split; [reflexivity|].
    rewrite Hm. destruct b2' as [src' ch' ts' row']. cbn in *. subst. exact HL.
  - exists t1, (Ok tt). split; [exact Hh|]. right. split; [reflexivity|]. rewrite Hm.
    exists s', o. auto.
  - exists t1, (Ok tt). split; [exact Hh|]. right. split; [reflexivity|]. rewrite Hm.
    exists t2, (Ok tt). auto.
Qed.

Lemma hand_ext F g s e s1 o :
  hand F g s e = (s1, o) -> prefix (r_devs s) (r_devs s1) /\ prefix (r_log s) (r_log s1).
Proof.
  intro H. apply hand_inv in H as [D A]. rewrite D. split; [apply prefix_app|].
  pose proof (apply_ev_ext F g (r_log s) e) as X. rewrite A in X. exact X.
Qed.

Definition further (s s' : run) : Prop :=
  prefix (r_devs s) (r_devs s') /\ prefix (r_log s) (r_log s').
Lemma further_trans a c d : further a c -> further c d -> further a d.
Proof. intros [A B] [C D]. split; eapply prefix_trans; eauto. Qed.
Lemma further_refl a : further a a.
Proof. split; apply prefix_refl. Qed.

(* whatever happens after the first hand, the run only gets further *)
Lemma Loop_step_ext F g rng bs s s' o l1 bf l2 r s1 o1 :
  Loop F g rng bs s s' o -> picked bs l1 bf l2 -> b_row bf = Some r ->
  hand F g s (DRow (b_chain bf) r) = (s1, o1) -> further s1 s'.
Proof.
  intros L P Hr Hh. destruct (Loop_step _ _ _ _ _ _ _ _ _ _ _ L P Hr) as (t1 & p1 & E & C).
  rewrite Hh in E. injection E as <- <-.
  destruct C as [(_ & -> & _)|(_ & C)]; [apply further_refl|].
  destruct (match_next_row rng (b_src bf)) as [[[r'|] src]|?| | |];
    try (destruct C as [-> _]; apply further_refl).
  - exact (Loop_ext _ _ _ _ _ _ _ C).
  - destruct C as (s2 & o2 & H2 & [(_ & -> & _)|(_ & C)]).
    + exact (hand_ext _ _ _ _ _ _ H2).
    + eapply further_trans; [exact (hand_ext _ _ _ _ _ _ H2)|exact (Loop_ext _ _ _ _ _ _ _ C)].
Qed.

Lemma Loop_repair F g g' rng bs s s1 o :
  graph_repair g g' -> Loop F g rng bs s s1 o ->
  forall bs' s2 o2, Forall2 buf_repair bs bs' -> Loop F g' rng bs' s s2 o2 ->
  (o = Ok tt -> s2 = s1 /\ o2 = Ok tt) /\ further s1 s2.
Proof.
  intros HG HL.
  assert (PICK : forall bs bs' l1 bf l2, Forall2 buf_repair bs bs' -> picked bs l1 bf l2 ->
      exists m1 bf' m2, picked bs' m1 bf' m2 /\ Forall2 buf_repair l1 m1 /\
        buf_repair bf bf' /\ Forall2 buf_repair l2 m2).
  { clear. intros bs bs' l1 bf l2 HF (-> & A & B).
    apply Forall2_app_inv_l in HF as (m1 & m2' & F1 & F2 & ->).
    inversion F2 as [|? bf' ? m2 Hb F3]; subst. exists m1, bf', m2.
    split; [|auto]. destruct Hb as (_ & Et & _). split; [reflexivity|]. rewrite <- Et.
    split; [clear - A F1|clear - B F3].
    - induction F1 as [|x y ? ? (_ & E & _) ? IH]; constructor; inversion A; subst; auto. lia.
    - induction F3 as [|x y ? ? (_ & E & _) ? IH]; constructor; inversion B; subst; auto. lia. }
  induction HL as [s|bs s l1 bf l2 P Hn
      |bs s s1 o l1 bf l2 r P Hr Hh Ho
      |bs s s1 e l1 bf l2 r P Hr Hh Hm He
      |bs s s1 s' o l1 bf bf' l2 r r' P Hr Hh Hm Hc Hr' Ht HL IH
      |bs s s1 s2 o l1 bf l2 r src P Hr Hh Hm Hh2 Ho
      |bs s s1 s2 s' o l1 bf l2 r src P Hr Hh Hm Hh2 HL IH];
    intros bs' t2 o2 HF L2.
  - inversion HF; subst. inversion L2; subst;
      try match goal with P : picked [] _ _ _ |- _ =>
        destruct P as (P & _); destruct l1; discriminate end.
    split; auto using further_refl.
  - split; [discriminate|]. exact (Loop_ext _ _ _ _ _ _ _ L2).
  - split; [congruence|].
    destruct (PICK _ _ _ _ _ HF P) as (m1 & b2 & m2 & P2 & _ & (Ec & _ & Er & _) & _).
    rewrite Hr in Er. symmetry in Er.
    destruct (Loop_step _ _ _ _ _ _ _ _ _ _ _ L2 P2 Er) as (u1 & p1 & Hh' & _).
    pose proof (Loop_step_ext _ _ _ _ _ _ _ _ _ _ _ _ _ L2 P2 Er Hh') as X.
    rewrite Ec in Hh. destruct (hand_agrees _ _ _ _ _ _ _ _ _ HG Hh Hh') as (_ & Y).
    eapply further_trans; [exact Y|exact X].
  - split; [destruct e; discriminate|].
    destruct (PICK _ _ _ _ _ HF P) as (m1 & b2 & m2 & P2 & _ & (Ec & _ & Er & _) & _).
    rewrite Hr in Er. symmetry in Er.
    destruct (Loop_step _ _ _ _ _ _ _ _ _ _ _ L2 P2 Er) as (u1 & p1 & Hh' & _).
    pose proof (Loop_step_ext _ _ _ _ _ _ _ _ _ _ _ _ _ L2 P2 Er Hh') as X.
    rewrite Ec in Hh. destruct (hand_agrees _ _ _ _ _ _ _ _ _ HG Hh Hh') as (_ & Y).
    eapply further_trans; [exact Y|exact X].
  - destruct (PICK _ _ _ _ _ HF P) as (m1 & b2 & m2 & P2 & F1 & (Ec & _ & Er & Es) & F2).
    rewrite Hr in Er. symmetry in Er.
    destruct (Loop_step _ _ _ _ _ _ _ _ _ _ _ L2 P2 Er) as (u1 & p1 & Hh' & C).
    rewrite Ec in Hh. destruct (hand_agrees _ _ _ _ _ _ _ _ _ HG Hh Hh') as (Y & _).
    destruct (Y eq_refl) as [-> ->].
    destruct C as [(C & _)|(_ & C)]; [congruence|].
    destruct (match_next_row_repair _ _ _ _ _ Es Hm) as (src' & Hm' & Es').
    rewrite Hm' in C. eapply IH; [|exact C].
    apply Forall2_app; [exact F1|]. constructor; [|exact F2].
    unfold buf_repair. cbn. rewrite Hc, Ht, Hr', Ec. auto.
  - split; [congruence|].
    destruct (PICK _ _ _ _ _ HF P) as (m1 & b2 & m2 & P2 & _ & (Ec & _ & Er & Es) & _).
    rewrite Hr in Er. symmetry in Er.
    destruct (Loop_step _ _ _ _ _ _ _ _ _ _ _ L2 P2 Er) as (u1 & p1 & Hh' & C).
    rewrite Ec in Hh. destruct (hand_agrees _ _ _ _ _ _ _ _ _ HG Hh Hh') as (Y & _).
    destruct (Y eq_refl) as [-> ->].
    destruct C as [(C & _)|(_ & C)]; [congruence|].
    destruct (match_next_row_repair _ _ _ _ _ Es Hm) as (src' & Hm' & _).
    rewrite Hm' in C. destruct C as (w2 & q2 & Hw & C). rewrite Ec in Hh2.
    destruct (hand_agrees _ _ _ _ _ _ _ _ _ HG Hh2 Hw) as (_ & Z).
    destruct C as [(_ & -> & _)|(_ & C)]; [exact Z|].
    eapply further_trans; [exact Z|]. exact (Loop_ext _ _ _ _ _ _ _ C).
  - destruct (PICK _ _ _ _ _ HF P) as (m1 & b2 & m2 & P2 & F1 & (Ec & _ & Er & Es) & F2).
    rewrite Hr in Er. symmetry in Er.
    destruct (Loop_step _ _ _ _ _ _ _ _ _ _ _ L2 P2 Er) as (u1 & p1 & Hh' & C).
    rewrite Ec in Hh. destruct (hand_agrees _ _ _ _ _ _ _ _ _ HG Hh Hh') as (Y & _).
    destruct (Y eq_refl) as [-> ->].
    destruct C as [(C & _)|(_ & C)]; [congruence|].
    destruct (match_next_row_repair _ _ _ _ _ Es Hm) as (src' & Hm' & _).
    rewrite Hm' in C. destruct C as (w2 & q2 & Hw & C). rewrite Ec in Hh2.
    destruct (hand_agrees _ _ _ _ _ _ _ _ _ HG Hh2 Hw) as (Z & _).
    destruct (Z eq_refl) as [-> ->].
    destruct C as [(C & _)|(_ & C)]; [congruence|].
    eapply IH; [|exact C]. now apply Forall2_app.
Qed.

Lemma make_bufs_repair rng p p' i bs :
  Forall2 source_repair p p' -> make_bufs rng p i = Ok bs ->
  exists bs', make_bufs rng p' i = Ok bs' /\ Forall2 buf_repair bs bs'.
Proof.
  intro H. revert i bs; induction H as [|s s' p p' Hs H IH]; intros i bs E; cbn [make_bufs] in *.
  - injection E as <-. exists []. auto.
  - unfold new_buf in *.
    destruct (match_next_row rng s) as [[o t]|e| | |] eqn:Em; cbn [bind] in E; try discriminate.
    destruct (match_next_row_repair _ _ _ _ _ Hs Em) as (t' & Em' & Ht).
    rewrite Em'. cbn [bind].
    destruct (make_bufs rng p (S i)) as [bs0|e| | |] eqn:E2; cbn [bind] in E; try discriminate.
    injection E as <-. destruct (IH _ _ E2) as (bs0' & E2' & F0). rewrite E2'. cbn [bind].
    eexists. split; [reflexivity|]. constructor; [|exact F0]. unfold buf_repair. cbn. auto.
Qed.

Lemma Forall2_rev {A B} (P : A -> B -> Prop) x y : Forall2 P x y -> Forall2 P (rev x) (rev y).
Proof. induction 1; cbn; auto. apply Forall2_app; auto. Qed.

Lemma drive_repair F g g' srcs srcs' rng s o s' o' :
  graph_repair g g' -> Forall2 source_repair srcs srcs' ->
  drive F g srcs rng = (s, o) -> drive F g' srcs' rng = (s', o') ->
  (o = Ok tt -> s' = s /\ o' = Ok tt) /\ further s s'.
Proof.
  intros HG HS H H'.
  destruct (drive_cases _ _ _ _ _ _ H) as [(bs & E & L)|(-> & E & ->)].
  - destruct (make_bufs_repair _ _ _ _ _ (Forall2_rev _ _ _ HS) E) as (bs' & E' & F2).
    destruct (drive_cases _ _ _ _ _ _ H') as [(bs2 & E2 & L2)|(_ & E2 & _)].
    + unfold get_row_buffers in E2. rewrite E' in E2. injection E2 as <-.
      eapply Loop_repair; eauto.
    + unfold get_row_buffers in E2. rewrite E' in E2. discriminate.
  - split; [destruct (get_row_buffers rng srcs); discriminate|].
    split; [exists (r_devs s')|exists (r_log s')]; reflexivity.
Qed.
