(** The example programs: one file twice, two files (C114); compressed.rs and split.rs (C115). *)
From Verif Require Import T_Examples T_WholeEx T_WholeAny T_WholeCsv T_CliCsv T_Shared FanProofs SplitProofs T_Route T_Success.
From Verif Require Import SharedSpec GraphProps2.
Local Open Scope nat_scope.

(** ** C114 *)
(** The program as it is, both inputs being the same file: exactly the rows with a greater value in the one column and
    the rows with an equal value in the other (twice those with both), in time order. *)
Theorem C114_same_file : forall ds inflate bunzip f64 f32 w input c1 v1 c2 v2 h i1 i2 rows,
  dc_input w input h rows -> dc_header_ok h -> Forall (row_fits h) rows -> rows <> [] ->
  FilterSpec.first_named (h_names h) c1 i1 -> FilterSpec.first_named (h_names h) c2 i2 ->
  (forall r, In r rows -> exists x, value_in i1 r x /\ comparable x v1) ->
  (forall r, In r rows -> exists x, value_in i2 r x /\
      ~ (type_of x = type_of v2 /\ (type_of x = Some TBoolean \/ type_of x = Some TByteBuf))) ->
  exists F0, forall F, F0 <= F -> exists out printed greater equal,
    run_ok (filter_and_merge ds inflate bunzip f64 f32 F w input input c1 v1 c2 v2) out /\
    default_csv f64 f32 h printed out /\
    those (greater_in i1 v1) rows greater /\ those (equal_in i2 v2) rows equal /\
    Permutation printed (greater ++ equal) /\
    (time_ordered rows -> time_ordered printed).
Proof.
  intros ds inflate bunzip f64 f32 w input c1 v1 c2 v2 h i1 i2 rows D Hok Fr N N1 N2 C1 C2.
  destruct (C114_two_files_partial ds inflate bunzip f64 f32 w input input c1 v1 c2 v2 h i1 i2 rows rows D D Hok Fr Fr N N N1 N2 C1 C2) as (F0 & K).
  exists F0. intros F HF. destruct (K F HF) as (out & printed & k1 & k2 & R & Dc & T1 & T2 & Pm & Ord).
  exists out, printed, k2, k1. split; [exact R|split; [exact Dc|split; [exact T2|split; [exact T1|split]]]].
  - eapply Permutation_trans; [exact Pm|]. apply Permutation_app_comm.
  - intros T. apply Ord; assumption.
Qed.
Print Assumptions C114_same_file.

Lemma those_len P f l l' : (forall r, In r l -> if f r : bool then P r else ~ P r) -> those P l l' -> l' = filter f l.
Proof.
  intros H T. induction T as [|r l l' Hp T IH|r l l' Hp T IH]; [reflexivity| |]; cbn; pose proof (H r (or_introl eq_refl)) as Hr;
    (rewrite IH; [|intros; apply H; now right]); destruct (f r); tauto.
Qed.
Lemma named_sym : FilterSpec.first_named (h_names demo_header) (b "sym") 0.
Proof.
  split; [|intros j n Hj; lia]. exists (b "sym"). split; [reflexivity|]. unfold ci_eq. cbn. constructor; [now left|]. constructor; [now left|]. constructor; [now left|constructor].
Qed.
Lemma named_px : FilterSpec.first_named (h_names demo_header) (b "PX") 1.
Proof.
  split.
  - exists (b "px"). split; [reflexivity|]. constructor; [right; exists 15%N|constructor; [right; exists 23%N|constructor]]; (split; [reflexivity|right; split; reflexivity]).
  - intros [|j] n Hj Hn; [|lia]. injection Hn as <-. intros C. inversion C as [|? ? ? ? _ C1]; subst. inversion C1 as [|? ? ? ? _ C2]; subst. inversion C2.
Qed.
(** Two files are not filtered as the program says (chain 0, of the first input, with the first filter): the first
    file's rows with PX > 2 and the second file's rows with sym = A are asked for, and others are printed. *)
Theorem C114_own_filter_refuted : forall ds inflate bunzip f64 f32,
  exists w in1 in2 c1 v1 c2 v2 h i1 i2 rows1 rows2,
    dc_input w in1 h rows1 /\ dc_input w in2 h rows2 /\ dc_header_ok h /\ Forall (row_fits h) (rows1 ++ rows2) /\
    FilterSpec.first_named (h_names h) c1 i1 /\ FilterSpec.first_named (h_names h) c2 i2 /\
    (forall r, In r (rows1 ++ rows2) -> exists x y, value_in i1 r x /\ comparable x v1 /\ value_in i2 r y /\ comparable y v2) /\
    exists F0, forall F, F0 <= F -> exists out rows,
      run_ok (filter_and_merge ds inflate bunzip f64 f32 F w in1 in2 c1 v1 c2 v2) out /\ default_csv f64 f32 h rows out /\
      forall kept1 kept2, those (greater_in i1 v1) rows1 kept1 -> those (equal_in i2 v2) rows2 kept2 -> ~ Permutation rows (kept1 ++ kept2).
Proof.
  intros ds inflate bunzip f64 f32.
  assert (Cv : forall r, In r (demo_a ++ demo_b) -> exists x y, value_in 1 r x /\ comparable x (VInt 2) /\ value_in 0 r y /\ comparable y (VString (b "A"))).
  { intros r [<-|[<-|[<-|[<-|[<-|[]]]]]]; eexists _, _; (split; [reflexivity|split; [split; [reflexivity|split; discriminate]|split; [reflexivity|split; [reflexivity|split; discriminate]]]]). }
  exists (demo_world []), (b "a.dc"), (b "d/b.dc"), (b "PX"), (VInt 2), (b "sym"), (VString (b "A")), demo_header, 1, 0, demo_a, demo_b.
  split; [exact demo_a_input|]. split; [exact demo_b_input|]. split; [exact demo_header_ok|].
  split; [apply Forall_app; split; [exact demo_a_fits|exact demo_b_fits]|]. split; [exact named_px|]. split; [exact named_sym|]. split; [exact Cv|].
  destruct (C114_two_files_partial ds inflate bunzip f64 f32 (demo_world []) (b "a.dc") (b "d/b.dc") (b "PX") (VInt 2) (b "sym") (VString (b "A"))
    demo_header 1 0 demo_a demo_b demo_a_input demo_b_input demo_header_ok demo_a_fits demo_b_fits ltac:(discriminate) ltac:(discriminate) named_px named_sym) as (F0 & K).
  { intros r Hr. destruct (Cv r) as (x & y & A & B & _); [apply in_or_app; now right|]. eauto. }
  { intros r Hr. destruct (Cv r) as (x & y & _ & _ & A & (B1 & B2 & B3)); [apply in_or_app; now left|]. exists y. split; [exact A|]. intros [_ [E|E]]; congruence. }
  exists F0. intros F HF. destruct (K F HF) as (out & rows & k1 & k2 & R & Dc & T1 & T2 & Pm & _).
  exists out, rows. split; [exact R|]. split; [exact Dc|]. intros kept1 kept2 U1 U2 Pm'.
  apply (those_len _ (fun _ => true)) in T1. 2:{ intros r Hr. destruct Hr as [<-|[<-|[<-|[]]]]; eexists; (split; [reflexivity|reflexivity]). }
  apply (those_len _ (fun _ => true)) in T2. 2:{ intros r Hr. destruct Hr as [<-|[<-|[]]]; eexists; (split; [reflexivity|cbn; lia]). }
  apply (those_len _ (fun r => match vals r with [_; VInt 3] => true | _ => false end)) in U1.
  2:{ intros r Hr. destruct Hr as [<-|[<-|[<-|[]]]]; cbn; try (intros (x & Hx & L); injection Hx as <-; cbn in L; lia). eexists; (split; [reflexivity|cbn; lia]). }
  apply (those_len _ (fun _ => false)) in U2.
  2:{ intros r Hr. destruct Hr as [<-|[<-|[]]]; cbn; (intros (x & Hx & L); injection Hx as <-; discriminate L). }
  rewrite Pm in Pm'. apply Permutation_length in Pm'. rewrite T1, T2, U1, U2 in Pm'. discriminate Pm'.
Qed.
Print Assumptions C114_own_filter_refuted.
(** Non-vacuity: the same file twice, and what is printed (the float printers play no part). *)
Example ex_c114 : filter_and_merge no_decoders (fun i => i) (fun i => i) (fun _ => []) (fun _ => []) 9 (demo_world []) (b "a.dc") (b "a.dc")
    (b "PX") (VInt 2) (b "sym") (VString (b "A")) =
  {| o_written := Some (b "timestampNanos,sym,px" ++ nl ++ b "10,A,1" ++ nl ++ b "20,A,3" ++ nl ++ b "20,A,2" ++ nl ++ b "20,A,3" ++ nl); o_result := Ok tt |}.
Proof. vm_compute. reflexivity. Qed.
Example ex_c114_hyps : (forall r, In r demo_a -> exists x, value_in 1 r x /\ comparable x (VInt 2)) /\
  (forall r, In r demo_a -> exists x, value_in 0 r x /\
      ~ (type_of x = type_of (VString (b "A")) /\ (type_of x = Some TBoolean \/ type_of x = Some TByteBuf))) /\ time_ordered demo_a.
Proof.
  split; [|split].
  - intros r [<-|[<-|[<-|[]]]]; eexists; (split; [reflexivity|split; [reflexivity|split; discriminate]]).
  - intros r [<-|[<-|[<-|[]]]]; eexists; (split; [reflexivity|intros [_ [E|E]]; discriminate E]).
  - unfold time_ordered, demo_a. repeat constructor; unfold ts_le; cbn; lia.
Qed.
