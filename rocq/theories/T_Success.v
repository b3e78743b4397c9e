(** When a run must succeed (C113). *)
From Verif Require Export SuccessSpec.
From Verif Require Import GraphSuccess GraphProps2 T_Driver.
Local Open Scope nat_scope.

Lemma nth_error_rev_at {A} (l : list A) c : c < length l -> nth_error (rev l) c = nth_error l (length l - 1 - c).
Proof.
  intros H. destruct l as [|d l0]; [cbn in H; lia|]. set (l := d :: l0) in *.
  rewrite (nth_error_nth' (rev l) d) by (rewrite rev_length; exact H). rewrite rev_nth by exact H.
  rewrite (nth_error_nth' l d) by lia. do 2 f_equal. lia.
Qed.

(** C113: if there is a chain for every source, every merge and split leads to a chain that exists and none leads
    back, every source can be read (within the range) and has a row in range, and the sinks take what can reach
    them, the run succeeds. *)
Theorem C113_success : forall g srcs rng,
  acyclic g -> sinks_return g -> length srcs <= length g -> (forall c d, edge g c d -> d < length g) ->
  sinks_content g srcs rng ->
  (forall src, In src srcs -> readable rng src /\ selected rng src <> []) ->
  exists F0, forall F, F0 <= F -> snd (drive F g srcs rng) = Ok tt.
Proof.
  intros g srcs rng Ha Hr Hl He [Hw Hf] Hs.
  apply (graph_success g srcs rng (may_reach g srcs rng) Ha Hr Hl He); auto.
  - split.
    + intros c n k past r Hn HP. destruct (Hw c n k past r Hn HP) as (rows & E). exists rows. split; [exact E|].
      apply Forall_forall. intros r' Hin. eapply mr_sink; eauto.
    + intros c n nd r Hn Hk HP. split; [eapply mr_next; eauto|]. intros d Hd. eapply mr_target; eauto.
  - intros c src r Hn Hin. assert (c < length srcs) by (rewrite <- rev_length; apply nth_error_Some; congruence).
    assert (Hn' : nth_error srcs (length srcs - 1 - c) = Some src).
    { rewrite <- Hn. symmetry. apply nth_error_rev_at. assumption. }
    replace c with (length srcs - 1 - (length srcs - 1 - c)) by lia. eapply mr_source; eauto.
Qed.
Print Assumptions C113_success.

(** … and otherwise it does not: with such a graph and such sinks, a run succeeds exactly if every source can be
    read and has a row in range. *)
Theorem C113_exactly : forall g srcs rng,
  acyclic g -> sinks_return g -> length srcs <= length g -> (forall c d, edge g c d -> d < length g) ->
  sinks_content g srcs rng ->
  ((exists F, snd (drive F g srcs rng) = Ok tt) <->
   (forall src, In src srcs -> readable rng src /\ selected rng src <> [])).
Proof.
  intros g srcs rng Ha Hr Hl He Hc. split.
  - intros (F & E). destruct (drive F g srcs rng) as [s o] eqn:D. cbn [snd] in E. subst o. exact (C10_success_is_clean _ _ _ _ _ D).
  - intros Hs. destruct (C113_success g srcs rng Ha Hr Hl He Hc Hs) as (F0 & K). exists F0. apply K. lia.
Qed.
Print Assumptions C113_exactly.

(** Non-vacuity: two chains merging into a third, with a sink that doubles and one that refuses odd times: no odd
    time can reach it. *)
Definition picky : sink :=
  {| sk_write := fun _ r => if N.even (ts r) then Ok [r] else Err (ECustom "odd"); sk_flush := default_flush |}.
Definition evens : sink :=
  {| sk_write := fun _ r => Ok (if N.even (ts r) then [r; r] else []); sk_flush := default_flush |}.
Definition su_g : dgraph := [[DSink evens; DMerge 2]; [DSink evens; DSplit [2]]; [DSink picky]].
Example su_graph : acyclic su_g /\ sinks_return su_g /\ length ex_srcs <= length su_g /\ (forall c d, edge su_g c d -> d < length su_g).
Proof.
  assert (E : forall c d, edge su_g c d -> c < 2 /\ d = 2).
  { intros c d (chain & nd & Hc & Hin & Hd). destruct c as [|[|[|c]]]; cbn in Hc; try discriminate.
    - injection Hc as <-. destruct Hin as [<-|[<-|[]]]; [destruct Hd|]. destruct Hd as [<-|[]]. lia.
    - injection Hc as <-. destruct Hin as [<-|[<-|[]]]; [destruct Hd|]. destruct Hd as [<-|[]]. lia.
    - injection Hc as <-. destruct Hin as [<-|[]]; destruct Hd.
    - destruct c; discriminate. }
  split; [|split; [|split]].
  - exists (fun c => 2 - c). intros c d H. destruct (E c d H). lia.
  - intros chain k Hc Hk. cbn in Hc.
    repeat (destruct Hc as [<-|Hc]; [cbn in Hk; repeat (destruct Hk as [Hk|Hk];
      [try discriminate; injection Hk as <-; split; intros; cbn; try discriminate; destruct (N.even _); discriminate|]); destruct Hk|]).
    destruct Hc.
  - cbn. lia.
  - intros c d H. destruct (E c d H). cbn. lia.
Qed.
Lemma su_nodes c n k : node_at su_g c n = Some (DSink k) ->
  (c = 0 /\ n = 0 /\ k = evens) \/ (c = 1 /\ n = 0 /\ k = evens) \/ (c = 2 /\ n = 0 /\ k = picky).
Proof.
  unfold node_at. destruct c as [|[|[|c]]]; cbn; [| | |destruct c; discriminate];
    (destruct n as [|[|n]]; cbn; [|try discriminate|destruct n; try discriminate]); intros [= <-]; auto.
Qed.
Example su_content : sinks_content su_g ex_srcs ex_rng.
Proof.
  assert (Q : forall c n r, may_reach su_g ex_srcs ex_rng c n r ->
    (c < 2 /\ n = 0) \/ N.even (ts r) = true).
  { intros c n r H. induction H as [i src r Hi Hr|c n k past r rows r' H IH Hn Hw Hin|c n nd d r H IH Hn Hd|c n nd r H IH Hn Hk].
    - left. split; [|reflexivity]. change (length ex_srcs) with 2. lia.
    - right. destruct (su_nodes _ _ _ Hn) as [(_ & _ & ->)|[(_ & _ & ->)|(_ & _ & ->)]]; cbn [sk_write evens picky] in Hw;
        destruct (N.even (ts r)) eqn:Ev; try discriminate; injection Hw as <-; cbn in Hin; intuition congruence.
    - right. destruct IH as [(Lc & ->)|IH]; [|exact IH]. exfalso.
      destruct c as [|[|c]]; [| |lia]; injection Hn as <-; destruct Hd.
    - destruct IH as [(Lc & ->)|IH]; [|now right]. exfalso.
      destruct c as [|[|c]]; [| |lia]; injection Hn as <-; now apply (Hk evens). }
  split.
  - intros c n k past r Hn HP. apply Q in HP. destruct (su_nodes _ _ _ Hn) as [(_ & _ & ->)|[(_ & _ & ->)|(-> & -> & ->)]]; cbn [sk_write evens picky]; eauto.
    destruct HP as [[H _]|HP]; [lia|rewrite HP; eauto].
  - intros c n k past Hn. destruct (su_nodes _ _ _ Hn) as [(_ & _ & ->)|[(_ & _ & ->)|(_ & _ & ->)]]; reflexivity.
Qed.
Example su_sources : forall src, In src ex_srcs -> readable ex_rng src /\ selected ex_rng src <> [].
Proof. intros src [<-|[<-|[]]]; cbn; (split; [tauto|discriminate]). Qed.
Example su_succeeds : exists s, drive 10 su_g ex_srcs ex_rng = (s, Ok tt) /\ rows_at (r_log s) 2 0 = [R 4; R 4; R 4; R 4].
Proof. eexists. split; reflexivity. Qed.
