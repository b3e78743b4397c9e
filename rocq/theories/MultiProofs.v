From Verif Require Export MultiSpec.

Lemma nth_error_skipn_add {A} (l : list A) i k : nth_error (skipn i l) k = nth_error l (i + k).
Proof. revert i. induction l as [|x l IH]; intros [|i]; cbn; auto. destruct k; reflexivity. Qed.

Lemma skipn_skipn_nat {A} (l : list A) x y : skipn x (skipn y l) = skipn (y + x) l.
Proof.
  apply nth_error_ext. intro k. rewrite !nth_error_skipn_add. f_equal. lia.
Qed.

(** ** Swaps *)
Lemma list_set_map {A B} (f : A -> B) x : forall l i,
  list_set i (f x) (map f l) = (let* l' := list_set i x l in Ok (map f l')).
Proof.
  induction l as [|y l IH]; intros [|i]; cbn; try reflexivity.
  rewrite IH. destruct (list_set i x l); reflexivity.
Qed.
Lemma list_swap_map {A B} (f : A -> B) l i j :
  list_swap i j (map f l) = (let* l' := list_swap i j l in Ok (map f l')).
Proof.
  unfold list_swap. rewrite !nth_error_map.
  destruct (nth_error l i) as [x|]; cbn; [|reflexivity].
  destruct (nth_error l j) as [y|]; cbn; [|reflexivity].
  rewrite list_set_map. destruct (list_set i y l); cbn; try reflexivity. apply list_set_map.
Qed.
Lemma list_swap_self {A} (l : list A) i : i < length l -> list_swap i i l = Ok l.
Proof.
  intro H. destruct (list_swap_ok l i i H H) as [l' E]. rewrite E. f_equal.
  apply list_swap_inv in E as (_ & _ & _ & E). apply nth_error_ext. intro k. rewrite E.
  destruct (Nat.eqb_spec i k); congruence.
Qed.
Lemma apply_swaps_map {A B} (f : A -> B) m : forall i l,
  apply_swaps m i (map f l) = (let* l' := apply_swaps m i l in Ok (map f l')).
Proof.
  induction m as [|j m IH]; intros i l; cbn; [reflexivity|].
  rewrite list_swap_map. destruct (list_swap i j l); cbn; try reflexivity. apply IH.
Qed.

Lemma nodup_nth {A} (l : list A) i j x :
  NoDup l -> nth_error l i = Some x -> nth_error l j = Some x -> i = j.
Proof.
  intros H Hi Hj. eapply NoDup_nth_error; eauto; [|congruence].
  apply nth_error_Some. congruence.
Qed.
Lemma swap_perm {A} (l l' : list A) i j : list_swap i j l = Ok l' -> Permutation l l'.
Proof.
  intro H. apply list_swap_inv in H as (L & Hi & Hj & H).
  (* a bijection of positions *)
  apply Permutation_nth_error. split; [symmetry; exact L|].
  exists (fun k => if Nat.eqb j k then i else if Nat.eqb i k then j else k). split.
  - intros x y E. cbn in E.
    destruct (Nat.eqb_spec j x), (Nat.eqb_spec j y), (Nat.eqb_spec i x), (Nat.eqb_spec i y); subst; lia.
  - intro k. rewrite H. destruct (Nat.eqb j k); [|destruct (Nat.eqb i k)]; reflexivity.
Qed.
Lemma nth_firstn {A} (l : list A) k q : q < k -> nth_error (firstn k l) q = nth_error l q.
Proof.
  revert l q. induction k as [|k IH]; intros [|x l] q H; try lia; [reflexivity|].
  destruct q; cbn; [reflexivity|]. apply IH. lia.
Qed.

Lemma swap_firstn {A} (l l' : list A) i j k :
  list_swap i j l = Ok l' -> k <= i -> k <= j -> firstn k l' = firstn k l.
Proof.
  intros H Hi Hj. apply list_swap_inv in H as (L & Li & Lj & H).
  apply nth_error_ext. intro q.
  destruct (Nat.lt_ge_cases q k) as [Q|Q].
  - rewrite !nth_firstn, H by exact Q. destruct (Nat.eqb_spec j q); [lia|]. destruct (Nat.eqb_spec i q); [lia|reflexivity].
  - assert (N : forall (x : list A), nth_error (firstn k x) q = None).
    { intro x. apply nth_error_None. rewrite firstn_length. lia. }
    rewrite !N. reflexivity.
Qed.
(** ** The header check *)
Section Check.
Context (ref : header) (fn : nat -> bytes) (ft : nat -> ftype).
Local Notation hd P := {| h_names := map fn P; h_types := map ft P |}.

Lemma check_loop_spec names : forall i P m ident,
  i + length names <= length P ->
  check_loop ref names i (hd P) = Ok (m, ident) ->
  exists P', apply_swaps m i P = Ok P' /\ Permutation P P' /\ firstn i P' = firstn i P /\
    length m = length names /\
    (forall k name, nth_error names k = Some name ->
       exists q, nth_error P' (i + k) = Some q /\ fn q = name /\ nth_error (h_types ref) (i + k) = Some (ft q)) /\
    (if ident then P' = P /\ m = seq i (length names) else m <> seq i (length names)).
Proof.
  induction names as [|name names IH]; intros i P m ident Hl H; cbn [check_loop] in H.
  - injection H as <- <-. exists P. cbn. repeat split; auto.
    intros [|k] nm; discriminate.
  - cbn [length] in Hl.
    destruct (position _ (skipn i (h_names (hd P)))) as [off|] eqn:Epos; [|discriminate].
    apply position_Some in Epos as [(x & Hx & Ex) _].
    rewrite nth_error_skipn_add in Hx. cbn [h_names] in Hx. rewrite nth_error_map in Hx.
    destruct (nth_error P (i + off)) as [q|] eqn:Eq; [|discriminate]. cbn in Hx. injection Hx as <-.
    apply bytes_eqb_eq in Ex.
    destruct (nth_error (h_types ref) i) as [t|] eqn:Et; [|discriminate].
    cbn [h_names h_types] in H. rewrite nth_error_map, Eq in H. cbn [option_map] in H.
    assert (Ety : t = ft q).
    { destruct (ftype_eqb t (ft q)) eqn:E; [|discriminate]. destruct t, (ft q); now try discriminate. }
    assert (ftype_eqb t (ft q) = true) as Eb by (subst; destruct (ft q); reflexivity).
    rewrite Eb in H.
    assert (Hj : i + off < length P) by (apply nth_error_Some; congruence).
    destruct (list_swap_ok P i (i + off) ltac:(lia) Hj) as [P1 EP1].
    assert (En : (if i =? i + off then Ok (hd P)
                  else let* ns := list_swap i (i + off) (h_names (hd P)) in
                       let* ts := list_swap i (i + off) (h_types (hd P)) in
                       Ok {| h_names := ns; h_types := ts |}) = Ok (hd P1)).
    { destruct (Nat.eqb_spec i (i + off)) as [E|E].
      - rewrite <- E in EP1. rewrite list_swap_self in EP1 by lia. injection EP1 as <-. reflexivity.
      - cbn [h_names h_types]. rewrite !list_swap_map, EP1. reflexivity. }
    cbn [h_names h_types] in En. rewrite En in H. cbn [bind] in H.
    destruct (check_loop ref names (S i) (hd P1)) as [[m' id']| | | |] eqn:Ec; try discriminate.
    cbn [bind] in H. injection H as <- <-.
    destruct (list_swap_inv _ _ _ _ EP1) as (L1 & _ & _ & N1).
    destruct (IH (S i) P1 m' id' ltac:(lia) Ec) as (P' & A1 & A2 & A3 & A4 & A5 & A6).
    exists P'. cbn [apply_swaps]. rewrite EP1. cbn [bind].
    assert (F : nth_error P' i = Some q).
    { rewrite <- (nth_firstn P' (S i)), A3, nth_firstn, N1 by lia.
      destruct (Nat.eqb_spec (i + off) i) as [E|E].
      - rewrite <- Eq. f_equal. lia.
      - rewrite Nat.eqb_refl. exact Eq. }
    split; [exact A1|]. split; [etransitivity; [eapply swap_perm, EP1|exact A2]|].
    split.
    { apply (f_equal (firstn i)) in A3. rewrite !firstn_firstn, !Nat.min_l in A3 by lia.
      rewrite A3. eapply swap_firstn; [exact EP1|lia|lia]. }
    split; [cbn; lia|]. split.
    + intros [|k] nm Hn; cbn in Hn.
      * injection Hn as <-. exists q. rewrite Nat.add_0_r, F, Et, Ety. auto.
      * destruct (A5 k nm Hn) as (q' & B1 & B2 & B3). exists q'.
        rewrite <- plus_n_Sm. auto.
    + destruct (Nat.eqb_spec i (i + off)) as [E|E]; cbn [andb length seq].
      * destruct id'.
        -- destruct A6 as [-> ->]. rewrite <- E in EP1. rewrite list_swap_self in EP1 by lia.
           injection EP1 as <-. split; [reflexivity|]. congruence.
        -- intros [= E1 E2]. congruence.
      * intros [= E1 E2]. congruence.
Qed.
End Check.

Lemma map_nth_seq {A} (l : list A) d : l = map (fun k => nth k l d) (seq 0 (length l)).
Proof.
  apply nth_error_ext. intro k. rewrite nth_error_map.
  destruct (Nat.lt_ge_cases k (length l)) as [H|H].
  - rewrite (nth_error_nth' (seq 0 (length l)) 0) by (rewrite seq_length; exact H).
    rewrite seq_nth by exact H. cbn. apply nth_error_nth'. exact H.
  - transitivity (@None A); [apply nth_error_None; exact H|].
    assert (nth_error (seq 0 (length l)) k = None) as -> by (apply nth_error_None; rewrite seq_length; exact H).
    reflexivity.
Qed.

(** The swaps a successful check performs. *)
Definition moved (common file : header) (m : list nat) : Prop :=
  exists P, Permutation (seq 0 (length (h_names file))) P /\
    apply_swaps m 0 (seq 0 (length (h_names file))) = Ok P /\
    length m = length (h_names common) /\
    picks_columns common file (firstn (length m) P).

Lemma check_headers_spec common file m :
  header_wf common -> header_wf file ->
  check_headers common file = Ok m ->
  length (h_names common) <= length (h_names file) /\
  ((m = [] /\ picks_columns common file (seq 0 (length (h_names common))) /\ extends common file) \/
   (moved common file m /\ m <> seq 0 (length (h_names common)))).
Proof.
  intros Wc Wf H. unfold check_headers in H.
  destruct (Nat.ltb_spec (length (h_names file)) (length (h_names common))) as [L|L]; [discriminate|].
  split; [lia|].
  destruct (check_loop common (h_names common) 0 file) as [[m0 ident]| | | |] eqn:E; try discriminate.
  cbn [bind] in H. injection H as <-.
  set (n := length (h_names file)) in *.
  assert (Ef : file = {| h_names := map (fun k => nth k (h_names file) []) (seq 0 n);
                         h_types := map (fun k => nth k (h_types file) TByte) (seq 0 n) |}).
  { unfold n. rewrite <- map_nth_seq. rewrite <- Wf. rewrite <- map_nth_seq. destruct file; reflexivity. }
  rewrite Ef in E.
  apply check_loop_spec in E; [|rewrite seq_length; lia].
  destruct E as (P & A1 & A2 & _ & A4 & A5 & A6).
  assert (PC : picks_columns common file (firstn (length (h_names common)) P)).
  { pose proof (Permutation_length A2) as LP. rewrite seq_length in LP.
    constructor.
    - rewrite firstn_length. lia.
    - assert (NoDup P) as ND by (eapply Permutation_NoDup; [exact A2|apply seq_NoDup]).
      rewrite <- (firstn_skipn (length (h_names common)) P) in ND.
      clear - ND. remember (firstn (length (h_names common)) P) as l eqn:E. clear E.
      induction l as [|x l IH]; [constructor|]. cbn in ND. inversion ND; subst.
      constructor; [|auto]. intro. apply H1, in_or_app. auto.
    - intros j k Hjk.
      assert (Hj : j < length (h_names common)).
      { apply (f_equal (fun o => match o with Some _ => true | None => false end)) in Hjk.
        destruct (Nat.lt_ge_cases j (length (h_names common))); [assumption|].
        exfalso. revert Hjk.
        assert (nth_error (firstn (length (h_names common)) P) j = None) as ->; [|discriminate].
        apply nth_error_None. rewrite firstn_length. lia. }
      rewrite nth_firstn in Hjk by exact Hj.
      destruct (nth_error (h_names common) j) as [nm|] eqn:En; [|apply nth_error_None in En; lia].
      destruct (A5 j nm En) as (q & B1 & B2 & B3). cbn in B1, B3. rewrite Hjk in B1. injection B1 as <-.
      assert (Hk : k < n).
      { assert (In k P) as I by (eapply nth_error_In; eassumption).
        eapply Permutation_in in I; [|apply Permutation_sym, A2]. apply in_seq in I. lia. }
      split; [exact Hk|]. split.
      + rewrite <- B2. apply nth_error_nth'. exact Hk.
      + rewrite B3. apply nth_error_nth'. unfold header_wf in Wf. lia. }
  destruct ident.
  - left. destruct A6 as [-> ->]. split; [reflexivity|].
    assert (F : firstn (length (h_names common)) (seq 0 n) = seq 0 (length (h_names common))).
    { assert (n = length (h_names common) + (n - length (h_names common))) as E1 by lia.
      rewrite E1, seq_app, firstn_app, seq_length, Nat.sub_diag, firstn_O, app_nil_r.
      apply firstn_all2. rewrite seq_length. lia. }
    rewrite F in PC. split; [exact PC|].
    destruct PC as [_ _ PC].
    assert (Q : forall j, j < length (h_names common) ->
               nth_error (seq 0 (length (h_names common))) j = Some j).
    { intros j Hj. rewrite (nth_error_nth' _ 0) by (rewrite seq_length; exact Hj).
      rewrite seq_nth by exact Hj. reflexivity. }
    split; apply nth_error_ext; intro j.
    + destruct (Nat.lt_ge_cases j (length (h_names common))) as [Hj|Hj].
      * rewrite nth_firstn by exact Hj. apply (PC j j), Q, Hj.
      * transitivity (@None bytes); [|symmetry]; apply nth_error_None; rewrite ?firstn_length; lia.
    + destruct (Nat.lt_ge_cases j (length (h_names common))) as [Hj|Hj].
      * rewrite nth_firstn by exact Hj. apply (PC j j), Q, Hj.
      * unfold header_wf in *.
        transitivity (@None ftype); [|symmetry]; apply nth_error_None; rewrite ?firstn_length; lia.
  - right. split; [|exact A6].
    exists P. rewrite A4. auto.
Qed.

(** Acceptance *)
Lemma check_loop_total ref names : forall i new,
  header_wf new -> i + length names <= length (h_names new) -> i + length names <= length (h_types ref) ->
  exists r, check_loop ref names i new = r /\ (is_ok r = true \/ is_err r = true).
Proof.
  induction names as [|name names IH]; intros i new W L1 L2; cbn [check_loop].
  - eexists; split; [reflexivity|left; reflexivity].
  - cbn [length] in *.
    destruct (position _ _) as [off|] eqn:Ep; [|eexists; split; [reflexivity|right; reflexivity]].
    apply position_lt in Ep. rewrite skipn_length in Ep.
    destruct (nth_error (h_types ref) i) eqn:E1; [|apply nth_error_None in E1; lia].
    destruct (nth_error (h_types new) (i + off)) eqn:E2; [|apply nth_error_None in E2; unfold header_wf in W; lia].
    destruct (ftype_eqb _ _); [|eexists; split; [reflexivity|right; reflexivity]].
    assert (N : exists new', (if i =? i + off then Ok new
                  else let* ns := list_swap i (i + off) (h_names new) in
                       let* ts := list_swap i (i + off) (h_types new) in
                       Ok {| h_names := ns; h_types := ts |}) = Ok new' /\ header_wf new' /\
                       length (h_names new') = length (h_names new)).
    { destruct (i =? i + off); [eauto|].
      unfold header_wf in W.
      destruct (list_swap_ok (h_names new) i (i + off)) as [ns Ens]; try lia.
      destruct (list_swap_ok (h_types new) i (i + off)) as [tys Ets]; try lia.
      rewrite Ens, Ets. cbn [bind]. eexists. split; [reflexivity|].
      apply list_swap_inv in Ens as (Ln & _). apply list_swap_inv in Ets as (Lt & _).
      unfold header_wf. cbn. lia. }
    destruct N as (new' & -> & W' & L'). cbn [bind].
    destruct (IH (S i) new' W' ltac:(lia) ltac:(lia)) as (r & -> & K).
    destruct r as [[m id]| | | |]; cbn in K |- *; eexists; (split; [reflexivity|]); cbn; try tauto; destruct K; discriminate.
Qed.
Lemma check_headers_total common file : header_wf common -> header_wf file ->
  (exists m, check_headers common file = Ok m) \/ (exists e, check_headers common file = Err e).
Proof.
  intros Wc Wf. unfold check_headers. destruct (Nat.ltb_spec (length (h_names file)) (length (h_names common))); [eauto|].
  unfold header_wf in Wc.
  destruct (check_loop_total common (h_names common) 0 file Wf ltac:(lia) ltac:(lia)) as (r & -> & K).
  destruct r as [[m id]| | | |]; cbn in *; eauto; destruct K; discriminate.
Qed.

Lemma count_le_length (l l' : list bytes) :
  (forall x, count_occ bytes_eq_dec l x <= count_occ bytes_eq_dec l' x) -> length l <= length l'.
Proof.
  revert l'. induction l as [|x l IH]; intros l' H; [cbn; lia|].
  assert (I : In x l').
  { apply (count_occ_In bytes_eq_dec). specialize (H x). cbn in H.
    destruct (bytes_eq_dec x x); [lia|congruence]. }
  apply in_split in I as (l1 & l2 & ->).
  rewrite app_length. cbn. rewrite <- plus_n_Sm, <- app_length. apply le_n_S. apply IH.
  intro y. specialize (H y). rewrite count_occ_app in *. cbn in H.
  destruct (bytes_eq_dec x y); lia.
Qed.

Lemma skipn_swap_perm {A} (l l' : list A) i j : list_swap i j l = Ok l' -> i <= j ->
  exists y t, nth_error l j = Some y /\ skipn i l' = y :: t /\ Permutation (skipn i l) (y :: t).
Proof.
  intros H Hij. pose proof (swap_perm _ _ _ _ H) as Pm.
  pose proof (swap_firstn l l' i j i H ltac:(lia) ltac:(lia)) as F.
  apply list_swap_inv in H as (L & Li & Lj & H).
  destruct (nth_error l j) as [y|] eqn:Ej; [|apply nth_error_None in Ej; lia].
  exists y, (skipn (S i) l'). split; [reflexivity|].
  assert (Hi : nth_error l' i = Some y).
  { rewrite H. destruct (Nat.eqb_spec j i); [subst; assumption|]. now rewrite Nat.eqb_refl. }
  assert (E : skipn i l' = y :: skipn (S i) l').
  { clear - Hi. revert i Hi. induction l' as [|z l' IH]; intros [|i] Hi; try discriminate.
    - cbn in Hi. injection Hi as ->. reflexivity.
    - cbn in Hi. cbn [skipn]. rewrite (IH i Hi). destruct l'; reflexivity. }
  split; [exact E|]. rewrite <- E.
  apply (Permutation_app_inv_l (firstn i l)). rewrite firstn_skipn. rewrite <- F, firstn_skipn. exact Pm.
Qed.

Lemma perm_count (l l' : list bytes) x :
  Permutation l l' -> count_occ bytes_eq_dec l x = count_occ bytes_eq_dec l' x.
Proof.
  induction 1; cbn; try congruence; repeat destruct (bytes_eq_dec _ _); congruence.
Qed.

Lemma check_loop_accepts ref names : forall i new,
  header_wf new -> header_wf ref ->
  skipn i (h_names ref) = names ->
  (forall x, count_occ bytes_eq_dec names x <= count_occ bytes_eq_dec (skipn i (h_names new)) x) ->
  (forall j k name, nth_error (h_names ref) j = Some name -> nth_error (h_names new) k = Some name ->
     nth_error (h_types new) k = nth_error (h_types ref) j) ->
  is_ok (check_loop ref names i new) = true.
Proof.
  induction names as [|name names IH]; intros i new Wn Wr Hs Hc Ht; cbn [check_loop]; [reflexivity|].
  assert (Hi : nth_error (h_names ref) i = Some name).
  { rewrite <- (Nat.add_0_r i), <- nth_error_skipn_add, Hs. reflexivity. }
  assert (Li : i < length (h_names ref)) by (apply nth_error_Some; congruence).
  destruct (position _ _) as [off|] eqn:Ep.
  2:{ exfalso. rewrite position_None in Ep. specialize (Hc name). cbn in Hc.
      destruct (bytes_eq_dec name name); [|congruence].
      assert (I : In name (skipn i (h_names new))) by (apply (count_occ_In bytes_eq_dec); lia).
      apply Ep in I. rewrite bytes_eqb_refl in I. discriminate. }
  apply position_Some in Ep as [(x & Hx & Ex) _]. apply bytes_eqb_eq in Ex. subst x.
  rewrite nth_error_skipn_add in Hx.
  assert (Lo : i + off < length (h_names new)) by (apply nth_error_Some; congruence).
  pose proof (Ht i (i + off) name Hi Hx) as E2.
  unfold header_wf in *.
  destruct (nth_error (h_types ref) i) as [t|] eqn:E1; [|apply nth_error_None in E1; lia].
  rewrite E2. assert (ftype_eqb t t = true) as -> by (destruct t; reflexivity).
  destruct (list_swap_ok (h_names new) i (i + off)) as [ns Ens]; try lia.
  destruct (list_swap_ok (h_types new) i (i + off)) as [tys Ets]; try lia.
  assert (En : (if i =? i + off then Ok new
                  else let* ns := list_swap i (i + off) (h_names new) in
                       let* ts := list_swap i (i + off) (h_types new) in
                       Ok {| h_names := ns; h_types := ts |}) = Ok {| h_names := ns; h_types := tys |}).
  { destruct (Nat.eqb_spec i (i + off)) as [E|E].
    - rewrite <- E in Ens, Ets. rewrite list_swap_self in Ens by lia. rewrite list_swap_self in Ets by lia.
      injection Ens as <-. injection Ets as <-. destruct new; reflexivity.
    - rewrite Ens, Ets. reflexivity. }
  rewrite En. cbn [bind].
  destruct (skipn_swap_perm _ _ _ _ Ens ltac:(lia)) as (y & t' & S1 & S2 & S3).
  rewrite Hx in S1. injection S1 as <-.
  assert (Et' : skipn (S i) ns = t').
  { rewrite <- (Nat.add_1_r i), <- skipn_skipn_nat, S2. reflexivity. }
  apply list_swap_inv in Ens as (Ln & _ & _ & Nn). apply list_swap_inv in Ets as (Lt & _ & _ & Nt).
  assert (K : is_ok (check_loop ref names (S i) {| h_names := ns; h_types := tys |}) = true).
  { apply IH; unfold header_wf; cbn [h_names h_types]; try lia.
    - rewrite <- (Nat.add_1_r i), <- skipn_skipn_nat, Hs. reflexivity.
    - intro z. rewrite Et'. specialize (Hc z). rewrite (perm_count _ _ _ S3) in Hc.
      cbn in Hc. destruct (bytes_eq_dec name z); lia.
    - intros j k nm Hj Hk. rewrite Nn in Hk. rewrite Nt.
      destruct (Nat.eqb (i + off) k); [exact (Ht _ _ _ Hj Hk)|].
      destruct (Nat.eqb i k); exact (Ht _ _ _ Hj Hk). }
  destruct (check_loop _ _ _ _) as [[m id]| | | |]; try discriminate. reflexivity.
Qed.
