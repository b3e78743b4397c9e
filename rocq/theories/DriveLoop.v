(** Proofs about the driver's merge loop. *)
From Verif Require Export DriverSpec.

(** ** match_next_row against [selected] *)

Lemma filter_data_range_spec rng t :
  filter_data_range rng t =
  if before_end rng t then (if from_begin rng t then Write else Skip) else Stop.
Proof.
  unfold filter_data_range, before_end, from_begin.
  destruct (tr_end rng) as [e|]; [|destruct (tr_begin rng) as [x|]; [|reflexivity];
    destruct (x <=? t)%N; reflexivity].
  destruct (N.leb_spec e t), (N.ltb_spec t e); try lia; reflexivity.
Qed.

Lemma match_next_row_spec rng s :
  match match_next_row rng s with
  | Ok (Some r, s') => selected rng s = r :: selected rng s' /\ length s' < length s /\
                       (readable rng s <-> readable rng s') /\
                       before_end rng (ts r) = true /\ from_begin rng (ts r) = true /\
                       exists p, rows_before_failure s = p ++ r :: rows_before_failure s'
  | Ok (None, s') => selected rng s = [] /\ readable rng s
  | Err _ | Panic | Exit | NoFuel => selected rng s = [] /\ ~ readable rng s
  end.
Proof.
  induction s as [|x s IH]; cbn [match_next_row]; [cbn; auto|].
  destruct x as [r|e| | |]; cbn [bind]; try (cbn; tauto).
  rewrite filter_data_range_spec.
  destruct (before_end rng (ts r)) eqn:E.
  - assert (Hs : selected rng (Ok r :: s) =
        if from_begin rng (ts r) then r :: selected rng s else selected rng s).
    { unfold selected. cbn [rows_before_failure until_end]. rewrite E. cbn [filter]. reflexivity. }
    destruct (from_begin rng (ts r)) eqn:Eb.
    + rewrite Hs. cbn [length readable rows_before_failure]. repeat split; auto; try lia.
      * intros [C|H]; [congruence|exact H].
      * exists []. reflexivity.
    + rewrite Hs.
      destruct (match_next_row rng s) as [[[r'|] s']|e| | |]; cbn [readable].
      * destruct IH as (A & L & R & B1 & B2 & p & P). cbn [length rows_before_failure].
        repeat split; auto; try lia.
        -- intros [C|H]; [congruence|]. now apply R.
        -- intro H. right. now apply R.
        -- exists (r :: p). rewrite P. reflexivity.
      * destruct IH as [IH1 IH2]; split; auto.
      * destruct IH as [IH1 IH2]; split; auto. intros [C|H]; [congruence|auto].
      * destruct IH as [IH1 IH2]; split; auto. intros [C|H]; [congruence|auto].
      * destruct IH as [IH1 IH2]; split; auto. intros [C|H]; [congruence|auto].
      * destruct IH as [IH1 IH2]; split; auto. intros [C|H]; [congruence|auto].
  - unfold selected. cbn [rows_before_failure until_end readable]. rewrite E. auto.
Qed.

(** The rows a buffer still has to deliver. *)
Definition pending (rng : ts_range) (bf : buf) : list row :=
  match b_row bf with None => [] | Some r => r :: selected rng (b_src bf) end.

Definition buf_ok (bf : buf) : Prop :=
  match b_row bf with Some r => b_ts bf = ts r | None => b_ts bf = 0%N end.

(** ** The picked buffer *)

Definition picked (bs l1 : list buf) (bf : buf) (l2 : list buf) : Prop :=
  bs = l1 ++ bf :: l2 /\
  Forall (fun x => (b_ts bf < b_ts x)%N) l1 /\
  Forall (fun x => (b_ts bf <= b_ts x)%N) l2.

Lemma min_index_spec done t i best bts :
  forall bsf l1 l2, done = l1 ++ bsf :: l2 -> best = length l1 -> bts = b_ts bsf ->
  i = length done ->
  Forall (fun x => (b_ts bsf < b_ts x)%N) l1 ->
  Forall (fun x => (b_ts bsf <= b_ts x)%N) l2 ->
  exists l1' bf l2', picked (done ++ t) l1' bf l2' /\ min_index t i best bts = length l1'.
Proof.
  revert done i best bts; induction t as [|x t IH]; intros done i best bts bsf l1 l2 -> -> -> -> H1 H2.
  - exists l1, bsf, l2. rewrite app_nil_r. split; [|reflexivity]. split; [reflexivity|auto].
  - cbn [min_index].
    replace ((l1 ++ bsf :: l2) ++ x :: t) with (((l1 ++ bsf :: l2) ++ [x]) ++ t)
      by (rewrite <- app_assoc; reflexivity).
    destruct (N.ltb_spec (b_ts x) (b_ts bsf)) as [L|L].
    + apply (IH ((l1 ++ bsf :: l2) ++ [x]) _ _ _ x (l1 ++ bsf :: l2) []); auto.
      * rewrite !app_length. cbn. lia.
      * apply Forall_app. split; [|constructor; [exact L|]].
        -- eapply Forall_impl; [|exact H1]. cbn. lia.
        -- eapply Forall_impl; [|exact H2]. cbn. lia.
    + apply (IH ((l1 ++ bsf :: l2) ++ [x]) _ _ _ bsf l1 (l2 ++ [x])); auto.
      * rewrite <- app_assoc. reflexivity.
      * rewrite !app_length. cbn. lia.
      * apply Forall_app. auto.
Qed.

Lemma get_next_buffer_index_spec bs :
  bs <> [] -> exists l1 bf l2, picked bs l1 bf l2 /\ get_next_buffer_index bs = Ok (length l1).
Proof.
  destruct bs as [|b0 t]; [congruence|]. intros _. cbn [get_next_buffer_index].
  destruct (min_index_spec [b0] t 1 0 (b_ts b0) b0 [] []) as (l1 & bf & l2 & P & E); auto.
  exists l1, bf, l2. split; [exact P|]. now rewrite E.
Qed.

Lemma nth_error_mid {A} (l1 : list A) x l2 : nth_error (l1 ++ x :: l2) (length l1) = Some x.
Proof. rewrite nth_error_app2 by lia. rewrite Nat.sub_diag. reflexivity. Qed.

Lemma list_set_mid {A} (l1 : list A) x y l2 :
  list_set (length l1) y (l1 ++ x :: l2) = Ok (l1 ++ y :: l2).
Proof. induction l1 as [|a l1 IH]; cbn; [reflexivity|]. rewrite IH. reflexivity. Qed.

Lemma list_remove_mid {A} (l1 : list A) x l2 :
  list_remove (length l1) (l1 ++ x :: l2) = Ok (l1 ++ l2).
Proof. induction l1 as [|a l1 IH]; cbn; [reflexivity|]. rewrite IH. reflexivity. Qed.

(** ** drive_loop as a relation *)

Section Loop.
  Variables (F : nat) (g : dgraph) (rng : ts_range).

  Inductive Loop : list buf -> run -> run -> res unit -> Prop :=
  | L_done s : Loop [] s s (Ok tt)
  | L_none bs s l1 bf l2 : picked bs l1 bf l2 -> b_row bf = None -> Loop bs s s Panic
  | L_hand bs s s1 o l1 bf l2 r : picked bs l1 bf l2 -> b_row bf = Some r ->
      hand F g s (DRow (b_chain bf) r) = (s1, o) -> o <> Ok tt -> Loop bs s s1 o
  | L_next bs s s1 e l1 bf l2 r : picked bs l1 bf l2 -> b_row bf = Some r ->
      hand F g s (DRow (b_chain bf) r) = (s1, Ok tt) ->
      match_next_row rng (b_src bf) = e -> is_ok e = false -> Loop bs s s1 (fail_as e)
  | L_more bs s s1 s' o l1 bf bf' l2 r r' : picked bs l1 bf l2 -> b_row bf = Some r ->
      hand F g s (DRow (b_chain bf) r) = (s1, Ok tt) ->
      match_next_row rng (b_src bf) = Ok (Some r', b_src bf') ->
      b_chain bf' = b_chain bf -> b_row bf' = Some r' -> b_ts bf' = ts r' ->
      Loop (l1 ++ bf' :: l2) s1 s' o -> Loop bs s s' o
  | L_flush bs s s1 s2 o l1 bf l2 r src : picked bs l1 bf l2 -> b_row bf = Some r ->
      hand F g s (DRow (b_chain bf) r) = (s1, Ok tt) ->
      match_next_row rng (b_src bf) = Ok (None, src) ->
      hand F g s1 (DFlush (b_chain bf)) = (s2, o) -> o <> Ok tt -> Loop bs s s2 o
  | L_last bs s s1 s2 s' o l1 bf l2 r src : picked bs l1 bf l2 -> b_row bf = Some r ->
      hand F g s (DRow (b_chain bf) r) = (s1, Ok tt) ->
      match_next_row rng (b_src bf) = Ok (None, src) ->
      hand F g s1 (DFlush (b_chain bf)) = (s2, Ok tt) ->
      Loop (l1 ++ l2) s2 s' o -> Loop bs s s' o.

  Lemma loop_fuel_app l1 l2 : loop_fuel (l1 ++ l2) = loop_fuel l1 + loop_fuel l2.
  Proof. unfold loop_fuel. induction l1 as [|x l1 IH]; cbn [app fold_right]; [reflexivity|]. rewrite IH. lia. Qed.

  Lemma loop_fuel_cons x l : loop_fuel (x :: l) = S (length (b_src x)) + loop_fuel l.
  Proof. reflexivity. Qed.

  Lemma drive_loop_Loop fuel bs s s' o :
    loop_fuel bs <= fuel -> drive_loop F g rng fuel bs s = (s', o) -> Loop bs s s' o.
  Proof.
    revert bs s; induction fuel as [|f IH]; intros bs s Hf H.
    - destruct bs as [|b0 t].
      + cbn in H. injection H as <- <-. constructor.
      + cbn in Hf. lia.
    - destruct bs as [|b0 t]; [cbn in H; injection H as <- <-; constructor|].
      destruct (get_next_buffer_index_spec (b0 :: t)) as (l1 & bf & l2 & P & E); [congruence|].
      pose proof P as (Ebs & _ & _). 
      cbn [drive_loop] in H. rewrite E in H. rewrite Ebs in H. rewrite nth_error_mid in H.
      destruct (b_row bf) as [r|] eqn:Er.
      2:{ injection H as <- <-. eapply L_none; eauto. }
      destruct (hand F g s (DRow (b_chain bf) r)) as [s1 o1] eqn:Eh.
      destruct o1 as [[]|e| | |]; try (injection H as <- <-; eapply L_hand; eauto; congruence).
      unfold has_next in H.
      destruct (match_next_row rng (b_src bf)) as [[[r'|] src]|e| | |] eqn:Em; cbn [bind] in H.
      + rewrite list_set_mid in H.
        eapply L_more with (bf' := {| b_src := src; b_chain := b_chain bf;
                                      b_ts := ts r'; b_row := Some r' |}); eauto.
        apply IH; [|exact H].
        pose proof (match_next_row_spec rng (b_src bf)) as M. rewrite Em in M.
        rewrite Ebs in Hf. rewrite loop_fuel_app, loop_fuel_cons in *. cbn [b_src]. lia.
      + destruct (hand F g s1 (DFlush (b_chain bf))) as [s2 o2] eqn:Eh2.
        destruct o2 as [[]|e| | |]; try (injection H as <- <-; eapply L_flush; eauto; congruence).
        rewrite list_remove_mid in H. eapply L_last; eauto. apply IH; [|exact H].
        rewrite Ebs in Hf. rewrite loop_fuel_app, ?loop_fuel_cons in *. lia.
      + injection H as <- <-. eapply (L_next _ _ _ (Err e)); eauto.
      + injection H as <- <-. eapply (L_next _ _ _ Panic); eauto.
      + injection H as <- <-. eapply (L_next _ _ _ Exit); eauto.
      + injection H as <- <-. eapply (L_next _ _ _ NoFuel); eauto.
  Qed.
End Loop.

(** ** Buffers made from sources *)

Definition row_of_source rng s :=
  match selected rng s with [] => None | r :: _ => Some r end.

Lemma new_buf_spec rng s c bf :
  new_buf rng s c = Ok bf ->
  b_chain bf = c /\ pending rng bf = selected rng s /\ buf_ok bf /\
  (readable rng s <-> (b_row bf = None \/ readable rng (b_src bf))) /\
  (b_row bf <> None <-> selected rng s <> []).
Proof.
  unfold new_buf. pose proof (match_next_row_spec rng s) as M.
  destruct (match_next_row rng s) as [[[r|] s']|e| | |]; cbn [bind]; try discriminate;
    intros [= <-]; unfold pending, buf_ok; cbn.
  - destruct M as (A & _ & R & _). rewrite A. repeat split; auto; try tauto; try congruence.
    intros [C|H]; [congruence|]. now apply R.
  - destruct M as (A & R). rewrite A. repeat split; auto; congruence.
Qed.

Lemma make_bufs_spec rng popped i bs :
  make_bufs rng popped i = Ok bs ->
  Forall2 (fun s bf => pending rng bf = selected rng s /\ buf_ok bf /\
     (readable rng s <-> (b_row bf = None \/ readable rng (b_src bf)))) popped bs /\
  map b_chain bs = seq i (length popped).
Proof.
  revert i bs; induction popped as [|s t IH]; intros i bs H; cbn in H.
  - injection H as <-. split; constructor.
  - destruct (new_buf rng s i) as [bf|e| | |] eqn:E; cbn [bind] in H; try discriminate.
    destruct (make_bufs rng t (S i)) as [bs'|e| | |] eqn:E2; cbn [bind] in H; try discriminate.
    injection H as <-. destruct (IH _ _ E2) as [A B].
    destruct (new_buf_spec _ _ _ _ E) as (C & D & O & R & _).
    split; [constructor; auto|]. cbn. f_equal; auto.
Qed.

Lemma make_bufs_fail rng popped i :
  is_ok (make_bufs rng popped i) = false -> exists s, In s popped /\ ~ readable rng s.
Proof.
  revert i; induction popped as [|s t IH]; intros i H; cbn in H; [discriminate|].
  unfold new_buf in H. pose proof (match_next_row_spec rng s) as M.
  destruct (match_next_row rng s) as [[o s']|e| | |] eqn:E; cbn [bind] in H;
    try (exists s; split; [now left|tauto]).
  destruct (make_bufs rng t (S i)) eqn:E2; cbn in H; try discriminate;
  (destruct (IH (S i)) as (x & Hx & Nx); [rewrite E2; reflexivity|]; exists x; split; [now right|auto]).
Qed.
