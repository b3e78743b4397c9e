From Verif Require Export MultiProofs.

Lemma check_headers_accepts common file : header_wf common -> header_wf file ->
  has_columns common file -> types_agree common file -> exists m, check_headers common file = Ok m.
Proof.
  intros Wc Wf Hc Ht. unfold check_headers.
  pose proof (count_le_length _ _ Hc) as L.
  destruct (Nat.ltb_spec (length (h_names file)) (length (h_names common))); [lia|].
  assert (K : is_ok (check_loop common (h_names common) 0 file) = true)
    by (apply check_loop_accepts; auto).
  destruct (check_loop common (h_names common) 0 file) as [[m id]| | | |]; try discriminate. cbn. eauto.
Qed.

Lemma check_loop_ident ref names : forall i new,
  (forall k name, nth_error names k = Some name -> nth_error (h_names new) (i + k) = Some name) ->
  (forall k, k < length names -> exists t, nth_error (h_types new) (i + k) = Some t /\ nth_error (h_types ref) (i + k) = Some t) ->
  check_loop ref names i new = Ok (seq i (length names), true).
Proof.
  induction names as [|name names IH]; intros i new Hn Ht; cbn [check_loop]; [reflexivity|].
  assert (position (fun s => bytes_eqb s name) (skipn i (h_names new)) = Some 0) as ->.
  { apply position_Some. split; [|intros; lia]. exists name. rewrite nth_error_skipn_add.
    split; [apply Hn; reflexivity|apply bytes_eqb_refl]. }
  cbn [length] in Ht. destruct (Ht 0 ltac:(lia)) as (t & E1 & E2). rewrite Nat.add_0_r in *.
  rewrite E1, E2, Nat.eqb_refl. assert (ftype_eqb t t = true) as -> by (destruct t; reflexivity).
  cbn [bind]. rewrite IH.
  - reflexivity.
  - intros k nm H. rewrite <- (Hn (S k) nm H). f_equal. lia.
  - intros k Hk. destruct (Ht (S k) ltac:(lia)) as (t' & F1 & F2). exists t'.
    rewrite <- plus_n_Sm in *. auto.
Qed.
Lemma check_headers_extends common file : header_wf common -> header_wf file ->
  extends common file -> check_headers common file = Ok [].
Proof.
  intros Wc Wf [E1 E2]. unfold check_headers, header_wf in *.
  pose proof (f_equal (@length _) E1) as L. rewrite firstn_length in L.
  destruct (Nat.ltb_spec (length (h_names file)) (length (h_names common))); [lia|].
  rewrite check_loop_ident; [reflexivity|..].
  - intros k nm H1. cbn. rewrite <- E1 in H1.
    assert (k < length (h_names common)).
    { assert (k < length (firstn (length (h_names common)) (h_names file))) by (apply nth_error_Some; congruence).
      rewrite firstn_length in *. lia. }
    now rewrite nth_firstn in H1.
  - intros k Hk. cbn. rewrite <- (nth_firstn (h_types file) (length (h_names common)) k Hk), E2.
    destruct (nth_error (h_types common) k) eqn:E; [eauto|]. apply nth_error_None in E. lia.
Qed.

Lemma apply_swaps_total {A} (l : list A) m n P :
  length l = n -> apply_swaps m 0 (seq 0 n) = Ok P ->
  exists l', apply_swaps m 0 l = Ok l' /\ length l' = length P /\
    forall j k, nth_error P j = Some k -> nth_error l' j = nth_error l k.
Proof.
  intros L H.
  assert (G : forall d, apply_swaps m 0 (map (fun k => nth k l d) (seq 0 n)) = Ok (map (fun k => nth k l d) P)).
  { intro d. rewrite apply_swaps_map, H. reflexivity. }
  destruct l as [|d l0] eqn:El.
  - cbn in L. subst n. cbn in H. destruct m as [|j m]; cbn in *.
    + injection H as <-. exists []. repeat split. intros [|j] k; discriminate.
    + discriminate.
  - rewrite <- El in *. specialize (G d). rewrite <- L, <- map_nth_seq in G.
    eexists. split; [exact G|]. split; [apply map_length|].
    intros j k Hjk. rewrite nth_error_map, Hjk. cbn. symmetry. apply nth_error_nth'.
    assert (Permutation (seq 0 n) P) as Pm.
    { clear - H. revert H. generalize (seq 0 n). generalize 0.
      induction m as [|j m IH]; intros i l H; cbn in H; [injection H as ->; reflexivity|].
      destruct (list_swap i j l) as [l1| | | |] eqn:E; try discriminate. cbn in H.
      etransitivity; [eapply swap_perm, E|]. eapply IH, H. }
    apply nth_error_In in Hjk. eapply Permutation_in in Hjk; [|apply Permutation_sym, Pm].
    apply in_seq in Hjk. lia.
Qed.

(** Every row of an accepted file is realigned by one choice of columns. *)
Lemma realign_spec common file m : header_wf common -> header_wf file ->
  check_headers common file = Ok m ->
  exists pick, picks_columns common file pick /\
    forall r, length (vals r) = length (h_names file) ->
      exists r', realign m r = Ok r' /\ realigned pick r r' /\
        length (vals r') = match m with [] => length (h_names file) | _ => length (h_names common) end.
Proof.
  intros Wc Wf H. destruct (check_headers_spec common file m Wc Wf H) as (L & [(-> & Pk & _)|(Mv & Ne)]).
  - exists (seq 0 (length (h_names common))). split; [exact Pk|].
    intros r Hr. exists r. split; [reflexivity|]. split; [|exact Hr].
    split; [reflexivity|]. intros j k Hjk.
    assert (Lj : j < length (h_names common)).
    { rewrite <- (seq_length (length (h_names common)) 0). apply nth_error_Some. congruence. }
    rewrite (nth_error_nth' _ 0), seq_nth in Hjk by (rewrite ?seq_length; exact Lj).
    cbn in Hjk. congruence.
  - destruct Mv as (P & Pm & Sw & Lm & Pk). exists (firstn (length m) P). split; [exact Pk|].
    intros r Hr.
    assert (Em : m <> []).
    { intros ->. cbn in Lm. rewrite <- Lm in Ne. cbn in Ne. congruence. }
    destruct (apply_swaps_total (vals r) m _ P Hr Sw) as (l' & A1 & A2 & A3).
    pose proof (Permutation_length Pm) as LP. rewrite seq_length in LP.
    unfold realign. rewrite A1. cbn [bind].
    destruct m as [|j0 m0]; [congruence|].
    eexists. split; [reflexivity|]. split.
    + split; [reflexivity|]. cbn [vals]. intros j k Hjk.
      assert (Lj : j < length (j0 :: m0)).
      { assert (j < length (firstn (length (j0 :: m0)) P)) by (apply nth_error_Some; congruence).
        rewrite firstn_length in *. lia. }
      rewrite nth_firstn in Hjk by exact Lj. rewrite nth_firstn by exact Lj. auto.
    + cbn [vals]. rewrite firstn_length, Lm. lia.
Qed.

(** ** Successive files *)
Section Serial.
Context {P : Type} (open : P -> res (option (header * source))) (common : header).

Fixpoint file_out (m : list nat) (s : source) (rest : list (res row)) : list (res row) :=
  match s with
  | [] => rest
  | Ok r :: s' =>
      match realign m r with
      | Ok r' => Ok r' :: file_out m s' rest
      | e => [fail_as e]
      end
  | e :: _ => [fail_as e]
  end.
Fixpoint files_out (paths : list P) : list (res row) :=
  match paths with
  | [] => []
  | p :: ps =>
      match create_source open p with
      | Ok (h, s) =>
          match check_headers common h with
          | Ok m => file_out m s (files_out ps)
          | e => [fail_as e]
          end
      | e => [fail_as e]
      end
  end.

Definition state_out (st : @multi P) : list (res row) :=
  match m_cur st with
  | None => []
  | Some s => file_out (m_map st) s (files_out (m_paths st))
  end.
Definition good_state (st : @multi P) : Prop := m_common st = common.

Lemma multi_next_out st : good_state st ->
  match state_out st with
  | [] => exists st', multi_next open st = Ok (None, st')
  | Ok r :: o => exists st', multi_next open st = Ok (Some r, st') /\ good_state st' /\ state_out st' = o
  | e :: o => o = [] /\ multi_next open st = fail_as e
  end.
Proof.
  intro G. unfold multi_next, state_out. rewrite G.
  destruct st as [paths c m cur]. cbn [m_paths m_common m_map m_cur] in *. unfold good_state in G. cbn in G. subst c.
  destruct cur as [s|]; [|cbn; destruct paths; eexists; reflexivity].
  revert m s. induction paths as [|p ps IH]; intros m s.
  - destruct s as [|[r|e| | |] s]; cbn; try (split; reflexivity); [eexists; reflexivity|].
    destruct (realign m r) as [r'| | | |]; cbn; try (split; reflexivity).
    eexists. repeat split.
  - destruct s as [|[r|e| | |] s]; cbn; try (split; reflexivity).
    + destruct (create_source open p) as [[h s']| | | |]; cbn; try (split; reflexivity).
      destruct (check_headers common h) as [m'| | | |]; cbn; try (split; reflexivity).
      apply IH.
    + destruct (realign m r) as [r'| | | |]; cbn; try (split; reflexivity).
      eexists. repeat split.
Qed.

Lemma drain_out n : forall st, good_state st -> drain open n st = firstn n (state_out st).
Proof.
  induction n as [|n IH]; intros st G; [reflexivity|]. cbn [drain].
  pose proof (multi_next_out st G) as H.
  destruct (state_out st) as [|[r|e| | |] o].
  - destruct H as [st' ->]. reflexivity.
  - destruct H as (st' & -> & G' & <-). cbn. rewrite IH by exact G'. reflexivity.
  - destruct H as [-> ->]. cbn. destruct n; reflexivity.
  - destruct H as [-> ->]. cbn. destruct n; reflexivity.
  - destruct H as [-> ->]. cbn. destruct n; reflexivity.
  - destruct H as [-> ->]. cbn. destruct n; reflexivity.
Qed.

Lemma fail_as_same {A} (r : res A) : is_ok r = false -> fail_as r = r.
Proof. destruct r; try discriminate; reflexivity. Qed.

(** One file, given a choice of columns. *)
Lemma file_serial h s m pick files rest :
  picks_columns common h pick ->
  Forall (fun x => match x with Ok r => length (vals r) = length (h_names h) | _ => True end) s ->
  (forall r, length (vals r) = length (h_names h) -> exists r', realign m r = Ok r' /\ realigned pick r r') ->
  serial common files rest ->
  serial common (Ok (Some (h, s)) :: files) (file_out m s rest).
Proof.
  intros Pk Fs Hm Hr.
  assert (K : (exists rows rows', s = map Ok rows /\ Forall2 (realigned pick) rows rows' /\
                 file_out m s rest = map Ok rows' ++ rest) \/
              (exists rows rows' e t, s = map Ok rows ++ e :: t /\ is_ok e = false /\
                 Forall2 (realigned pick) rows rows' /\ file_out m s rest = map Ok rows' ++ [e])).
  { induction Fs as [|x s Hx Fs IH].
    - left. exists [], []. repeat split; constructor.
    - destruct x as [r|e| | |].
      + destruct (Hm r Hx) as (r' & Er & Al). cbn [file_out]. rewrite Er.
        destruct IH as [(rows & rows' & -> & F2 & ->)|(rows & rows' & e & t & -> & Ne & F2 & ->)].
        * left. exists (r :: rows), (r' :: rows'). repeat split. constructor; auto.
        * right. exists (r :: rows), (r' :: rows'), e, t. repeat split; auto.
      + right. exists [], [], (Err e), s. repeat split; constructor.
      + right. exists [], [], Panic, s. repeat split; constructor.
      + right. exists [], [], Exit, s. repeat split; constructor.
      + right. exists [], [], NoFuel, s. repeat split; constructor. }
  destruct K as [(rows & rows' & -> & F2 & ->)|(rows & rows' & e & t & -> & Ne & F2 & ->)].
  - eapply serial_file; eassumption.
  - eapply serial_row_fails; eassumption.
Qed.

Lemma files_serial paths : header_wf common -> Forall (fun p => source_wf (open p)) paths ->
  serial common (map open paths) (files_out paths).
Proof.
  intros Wc F. induction F as [|p ps Hp F IH]; [constructor|].
  cbn [map files_out]. unfold create_source.
  destruct (open p) as [[[h s]|]|e| | |] eqn:E; cbn [bind].
  - destruct Hp as [Wh Hs]. destruct (check_headers_total common h Wc Wh) as [[m Em]|[e Ee]].
    + rewrite Em. destruct (realign_spec common h m Wc Wh Em) as (pick & Pk & Hm).
      eapply file_serial; eauto. intros r Hr. destruct (Hm r Hr) as (r' & A & B & _). eauto.
    + rewrite Ee. cbn. apply serial_rejected. intros [H1 H2].
      destruct (check_headers_accepts common h Wc Wh H1 H2) as [m Em]. congruence.
  - cbn. apply serial_no_source.
  - apply (serial_open_fails common (Err e)). reflexivity.
  - apply (serial_open_fails common Panic). reflexivity.
  - apply (serial_open_fails common Exit). reflexivity.
  - apply (serial_open_fails common NoFuel). reflexivity.
Qed.
End Serial.

Lemma picks_self h : header_wf h -> picks_columns h h (seq 0 (length (h_names h))).
Proof.
  intro W. constructor; [apply seq_length|apply seq_NoDup|].
  intros j k H.
  assert (Lj : j < length (h_names h)).
  { rewrite <- (seq_length (length (h_names h)) 0). apply nth_error_Some. congruence. }
  rewrite (nth_error_nth' _ 0), seq_nth in H by (rewrite ?seq_length; exact Lj).
  cbn in H. injection H as <-. auto.
Qed.
Lemma realigned_self h r : realigned (seq 0 (length (h_names h))) r r.
Proof.
  split; [reflexivity|]. intros j k H.
  assert (Lj : j < length (h_names h)).
  { rewrite <- (seq_length (length (h_names h)) 0). apply nth_error_Some. congruence. }
  rewrite (nth_error_nth' _ 0), seq_nth in H by (rewrite ?seq_length; exact Lj).
  cbn in H. injection H as <-. reflexivity.
Qed.

(** The whole source, without an external header. *)
Lemma multi_serial {P} (open : P -> res (option (header * source))) paths st :
  Forall (fun p => source_wf (open p)) paths ->
  multi_new open paths None = Ok st ->
  match paths with
  | [] => m_common st = {| h_names := []; h_types := [] |}
  | p :: _ => exists s, open p = Ok (Some (m_common st, s))
  end /\
  exists out, serial (m_common st) (map open paths) out /\ forall n, drain open n st = firstn n out.
Proof.
  intros F H. unfold multi_new in H. destruct paths as [|p ps].
  - injection H as <-. split; [reflexivity|]. exists []. split; [constructor|].
    intro n. rewrite (drain_out open {| h_names := []; h_types := [] |}); [|reflexivity].
    reflexivity.
  - unfold create_source in H. inversion F as [|? ? Hp F']; subst.
    destruct (open p) as [[[h s]|]| | | |] eqn:E; cbn [bind] in H; try discriminate.
    injection H as <-. cbn [m_common]. split; [eauto|].
    destruct Hp as [Wh Hs].
    exists (file_out [] s (files_out open h ps)). split.
    + cbn [map]. rewrite E. eapply file_serial.
      * apply picks_self, Wh.
      * exact Hs.
      * intros r _. exists r. split; [reflexivity|]. apply realigned_self.
      * apply files_serial; assumption.
    + intro n. rewrite (drain_out open h); reflexivity.
Qed.
(** ... and with one. *)
Lemma multi_serial_ext {P} (open : P -> res (option (header * source))) p ps c st :
  header_wf c -> Forall (fun p => source_wf (open p)) (p :: ps) ->
  multi_new open (p :: ps) (Some c) = Ok st ->
  m_common st = c /\
  exists out, serial c (map open (p :: ps)) out /\ forall n, drain open n st = firstn n out.
Proof.
  intros Wc F H. unfold multi_new in H.
  unfold create_source in H. inversion F as [|? ? Hp F']; subst.
  destruct (open p) as [[[h s]|]| | | |] eqn:E; cbn [bind] in H; try discriminate.
  destruct (check_headers c h) as [m| | | |] eqn:Em; cbn [bind] in H; try discriminate.
  injection H as <-. cbn [m_common]. split; [reflexivity|].
  destruct Hp as [Wh Hs].
  destruct (realign_spec c h m Wc Wh Em) as (pick & Pk & Hm).
  exists (file_out m s (files_out open c ps)). split.
  - cbn [map]. rewrite E. eapply file_serial; eauto.
    + intros r Hr. destruct (Hm r Hr) as (r' & A & B & _). eauto.
    + apply files_serial; assumption.
  - intro n. rewrite (drain_out open c); reflexivity.
Qed.
