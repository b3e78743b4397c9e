(** Property theorems: previewing streams (C27-C30) and comparing files (C53).

    [previewer_new i] is ChopperBufPreviewer::new over the reader [i], which delivers
    [i_data i] in chunks chosen by its plan and then ends or fails ([i_tail i]);
    [get_reader p] is the buffered reader handed on to the source. *)
From Verif Require Import DecompressProofs Utf8Spec.

Lemma buf_nonzero : DEFAULT_BUF_SIZE <> 0.
Proof. unfold DEFAULT_BUF_SIZE. lia. Qed.

Lemma new_spec i p : previewer_new i = Ok p ->
  rep DEFAULT_BUF_SIZE (get_reader p) (i_data i) (i_tail i) (i_plan i) /\
  get_buf p = firstn DEFAULT_BUF_SIZE (i_data i) /\
  r_cap (get_reader p) = length (get_buf p) /\
  get_buf p = firstn (r_cap (get_reader p)) (r_buf (get_reader p)) /\
  get_lines_from_reader (get_reader p) = Some (get_lines p).
Proof.
  intro H. pose proof (previewer_spec _ i buf_nonzero) as S.
  change (previewer_with DEFAULT_BUF_SIZE i) with (previewer_new i) in S. rewrite H in S.
  tauto.
Qed.

(** Opening succeeds, for every schedule of read sizes, unless the reader underneath fails. *)
Lemma C27_opens_proof i : smooth (i_plan i) ->
  (i_tail i = None \/ DEFAULT_BUF_SIZE <= length (i_data i)) -> exists p, previewer_new i = Ok p.
Proof.
  intros Hs Ht. pose proof (previewer_spec _ i buf_nonzero) as S.
  change (previewer_with DEFAULT_BUF_SIZE i) with (previewer_new i) in S.
  destruct (previewer_new i) as [p|e| | |]; [eauto| |contradiction..].
  destruct S as (k & -> & [S|[S1 S2]]); [exfalso; eapply Hs, S|].
  destruct Ht; [congruence|lia].
Qed.
Theorem C27_opens : forall i, smooth (i_plan i) ->
  (i_tail i = None \/ DEFAULT_BUF_SIZE <= length (i_data i)) -> exists p, previewer_new i = Ok p.
Proof. exact C27_opens_proof. Qed.
Print Assumptions C27_opens.

(** Whatever is then called, in whatever order and with whatever sizes, sees exactly the
    underlying stream. *)
Lemma C27_no_byte_lost_proof i p ops : previewer_new i = Ok p ->
  faithful (i_data i) (i_tail i) (i_plan i) (run ops (get_reader p)).
Proof. intro H. eapply run_faithful; [apply (new_spec _ _ H)|exact buf_nonzero]. Qed.
Theorem C27_no_byte_lost : forall i p ops, previewer_new i = Ok p ->
  faithful (i_data i) (i_tail i) (i_plan i) (run ops (get_reader p)).
Proof. exact C27_no_byte_lost_proof. Qed.
Print Assumptions C27_no_byte_lost.

(** Enough reads, of any sizes, deliver all of it. *)
Lemma C27_everything_arrives_proof i p ns : previewer_new i = Ok p ->
  i_tail i = None -> smooth (i_plan i) -> Forall (fun n => n <> 0) ns ->
  length (i_data i) <= length ns ->
  obtained (run (map Read ns) (get_reader p)) = i_data i.
Proof.
  intros H Ht Hs Hn Hl. destruct (new_spec _ _ H) as [R _]. rewrite Ht in R.
  eapply drain_all; eauto. exact buf_nonzero.
Qed.
Theorem C27_everything_arrives : forall i p ns, previewer_new i = Ok p ->
  i_tail i = None -> smooth (i_plan i) -> Forall (fun n => n <> 0) ns ->
  length (i_data i) <= length ns ->
  obtained (run (map Read ns) (get_reader p)) = i_data i.
Proof. exact C27_everything_arrives_proof. Qed.
Print Assumptions C27_everything_arrives.

(** read_exact calls, which is how the DC source reads, behave as on the plain byte stream
    that the DC model is stated over. *)
Lemma C27_read_exact_proof i p ns : previewer_new i = Ok p -> smooth (i_plan i) ->
  read_exacts ns (get_reader p) = take_exacts ns {| s_data := i_data i; s_tail := i_tail i |}.
Proof.
  intros H Hs. destruct (new_spec _ _ H) as [R _].
  exact (read_exacts_spec _ _ _ buf_nonzero Hs ns _ _ R).
Qed.
Theorem C27_read_exact : forall i p ns, previewer_new i = Ok p -> smooth (i_plan i) ->
  read_exacts ns (get_reader p) = take_exacts ns {| s_data := i_data i; s_tail := i_tail i |}.
Proof. exact C27_read_exact_proof. Qed.
Print Assumptions C27_read_exact.

(** C28: the preview is the first min(8192, length) bytes. *)
Lemma C28_preview_proof i p : previewer_new i = Ok p ->
  get_buf p = firstn (8 * 1024) (i_data i).
Proof. intro H. apply (new_spec _ _ H). Qed.
Theorem C28_preview_is_prefix : forall i p, previewer_new i = Ok p ->
  get_buf p = firstn (8 * 1024) (i_data i).
Proof. exact C28_preview_proof. Qed.
Print Assumptions C28_preview_is_prefix.

Lemma Forall2_mono {A B} (P Q : A -> B -> Prop) l l' :
  (forall x y, P x y -> Q x y) -> Forall2 P l l' -> Forall2 Q l l'.
Proof. intros H; induction 1; constructor; auto. Qed.

(** C29. *)
Lemma C29_lines_proof i p raw : previewer_new i = Ok p ->
  preview_lines (get_buf p) (length (get_buf p) =? 8 * 1024) raw ->
  (forall out, get_lines p = Some out <->
     Forall2 (fun l l' => strip_cr l l' /\ well_formed l') raw out) /\
  (get_lines p = None <-> exists l l', In l raw /\ strip_cr l l' /\ ~ well_formed l').
Proof.
  intros H (ls & last & E1 & E2 & E3).
  destruct (new_spec _ _ H) as (R & B & C & F & L).
  unfold get_lines_from_reader in L.
  pose proof (rep_cap _ _ _ _ _ R) as RC. pose proof (rep_len _ _ _ _ _ R) as RL.
  rewrite (get_lines_parse ls _ (r_buf (get_reader p)) 0 (r_cap (get_reader p)) [] last) in L.
  - injection L as L.
    assert (Er : raw = ls ++ tail_line (length (r_buf (get_reader p)) <=? r_cap (get_reader p)) last).
    { rewrite E3. unfold tail_line. rewrite RL, C.
      change (8 * 1024) with DEFAULT_BUF_SIZE.
      destruct (Nat.eqb_spec (length (get_buf p)) DEFAULT_BUF_SIZE),
               (Nat.leb_spec DEFAULT_BUF_SIZE (length (get_buf p))); try lia; reflexivity. }
    rewrite <- Er in L.
    assert (L' : get_lines p = parse raw) by (rewrite <- L; destruct (parse raw); reflexivity).
    rewrite L'. destruct (parse_spec raw) as [P1 P2]. split.
    + intro out. rewrite P1. split; apply Forall2_mono;
        intros l l' [Q1 Q2]; (split; [exact Q1|]); apply utf8_well_formed, Q2.
    + rewrite P2. split; intros (l & l' & K1 & K2 & K3); exists l, l'; repeat split; auto.
      * rewrite <- utf8_well_formed. congruence.
      * apply not_true_iff_false. rewrite utf8_well_formed. exact K3.
  - lia.
  - lia.
  - lia.
  - rewrite Nat.sub_0_r. cbn [skipn]. rewrite <- F. exact E1.
  - exact E2.
Qed.
Theorem C29_lines : forall i p raw, previewer_new i = Ok p ->
  preview_lines (get_buf p) (length (get_buf p) =? 8 * 1024) raw ->
  (forall out, get_lines p = Some out <->
     Forall2 (fun l l' => strip_cr l l' /\ well_formed l') raw out) /\
  (get_lines p = None <-> exists l l', In l raw /\ strip_cr l l' /\ ~ well_formed l').
Proof. exact C29_lines_proof. Qed.
Print Assumptions C29_lines.
(** The hypothesis of C29 can always be met. *)
Theorem C29_lines_exist : forall buf full, exists raw, preview_lines buf full raw.
Proof. exact preview_lines_exist. Qed.
Print Assumptions C29_lines_exist.

(** C30. *)
Theorem C30_magic : forall i p f, previewer_new i = Ok p ->
  (is_compressed_using_previewer p = Some f <-> has_magic f (i_data i)).
Proof. exact detect_spec. Qed.
Print Assumptions C30_magic.

(** C53: an answer is right whatever the read sizes; it can only be withheld because a read
    failed.  (A reader that fails with the error kind UnexpectedEof would be mistaken for a
    short file; readers of regular files do not.) *)
Theorem C53_same_contents : forall f1 f2,
  i_tail f1 = None -> i_tail f2 = None ->
  honest_plan (i_plan f1) -> honest_plan (i_plan f2) ->
  match are_contents_same f1 f2 with
  | Ok v => v = true <-> i_data f1 = i_data f2
  | Err e => exists k, e = EIo k /\ (In (Fail k) (i_plan f1) \/ In (Fail k) (i_plan f2))
  | _ => False
  end.
Proof. exact (fun f1 f2 => same_loop_spec (S (length (i_data f1))) f1 f2 (Nat.lt_succ_diag_r _)). Qed.
Print Assumptions C53_same_contents.

(** ** Non-vacuity *)

(** A CSV text delivered in chunks of 3, 1 and 5 bytes, read with buffers of 4 bytes. *)
Definition i1 : inner :=
  {| i_data := b "time,a" ++ [CR; LF] ++ b "1,x" ++ [LF] ++ b "2,y"; i_tail := None;
     i_plan := [Chunk 2; Chunk 0; Chunk 4] |}.
Example i1_smooth : smooth (i_plan i1).
Proof. intros e [H|[H|[H|[]]]]; discriminate. Qed.
Example i1_preview : match previewer_new i1 with
  | Ok p => get_buf p = i_data i1 /\ get_lines p = Some [b "time,a"; b "1,x"; b "2,y"] /\
            map snd (run [Read 4; Peek; Use 2; Read (9 * 1000); Read 3; Read 1] (get_reader p)) =
              [Ok (b "time"); Ok (skipn 4 (i_data i1)); Ok (b ",a"); Ok (skipn 6 (i_data i1));
               Ok []; Ok []]
  | _ => False
  end.
Proof. vm_compute. auto. Qed.
(** A transient failure after the preview reaches the consumer, and nothing is lost. *)
Definition i2 : inner :=
  {| i_data := repeat "x"%char (8 * 1024 + 3); i_tail := None;
     i_plan := [Chunk (8 * 1024 - 1); Chunk 1; Fail (OtherIo 7); Chunk 0] |}.
Example i2_run : match previewer_new i2 with
  | Ok p => map snd (run [Read (9 * 1000); Read 5; Read 5; Read 5; Read (9 * 1000); Read 1] (get_reader p)) =
              [Ok (repeat "x"%char (8 * 1024)); Ok (b "xx"); Err (EIo (OtherIo 7)); Ok (b "x"); Ok []; Ok []]
  | _ => False
  end.
Proof. vm_compute. reflexivity. Qed.
Example gz_magic : has_magic GZ (map byte_of [0x1F; 0x8B; 0x08; 0x00; 0x01]%N).
Proof. split; [cbn; lia|]. eexists _, (map byte_of [0; 1]%N). split; [left; reflexivity|reflexivity]. Qed.
Example same_1 :
  are_contents_same {| i_data := b "abcdef"; i_tail := None; i_plan := [Chunk 1; Chunk 2] |}
                    {| i_data := b "abcdef"; i_tail := None; i_plan := [Chunk 0; Chunk 0] |} = Ok true /\
  are_contents_same {| i_data := b "abc"; i_tail := None; i_plan := [Chunk 1; Chunk 2] |}
                    {| i_data := b "abcdef"; i_tail := None; i_plan := [] |} = Ok false.
Proof. vm_compute. auto. Qed.
Example not_utf8 : ~ well_formed (map byte_of [0xC0; 0x80]%N) /\ well_formed (map byte_of [0xE2; 0x82; 0xAC]%N).
Proof. rewrite <- !utf8_well_formed. vm_compute. split; [discriminate|reflexivity]. Qed.
