(** C132: interrupted system calls.  [calm x] is x without the interruptions. *)
From Verif Require Export InterruptSpec T_Reader WriterProofs T_WholeEx.
Local Open Scope nat_scope.

Lemma interrupted_spec e : is_interrupted e = true <-> e = EIo Interrupted.
Proof.
  destruct e as [[| |n]| | |]; cbn; try (split; discriminate). rewrite N.eqb_eq. unfold Interrupted. split; [intros ->; reflexivity|].
  intro H. injection H as H. exact H.
Qed.

(** ** Reading *)
Lemma give_plan n d tl p : i_plan (snd (give n d tl p)) = p /\ i_tail (snd (give n d tl p)) = tl.
Proof. unfold give. destruct (n =? 0); [split; reflexivity|]. destruct d, tl; split; reflexivity. Qed.
Lemma give_calm n d tl p : patient tl ->
  give n d tl (calm_reads p) = (fst (give n d tl p), calm (snd (give n d tl p))) /\
  forall e, fst (give n d tl p) = Err e -> is_interrupted e = false.
Proof.
  intro P. unfold give. destruct (n =? 0); [split; [reflexivity|discriminate]|].
  destruct d, tl as [k|]; (split; [reflexivity|]); try discriminate.
  cbn. intros e H. injection H as <-. destruct (is_interrupted (EIo k)) eqn:E; [|reflexivity].
  apply interrupted_spec in E. injection E as ->. destruct (P eq_refl).
Qed.

(** One call on the reader below: interrupted, or the same as without interruptions. *)
Lemma inner_read_calm n i o i' : patient (i_tail i) -> inner_read n i = (o, i') ->
  i_tail i' = i_tail i /\ length (i_plan i') <= length (i_plan i) /\
  ((o = Err (EIo Interrupted) /\ calm i' = calm i /\ length (i_plan i') < length (i_plan i)) \/
   ((forall e, o = Err e -> is_interrupted e = false) /\ inner_read n (calm i) = (o, calm i'))).
Proof.
  intros P H. unfold inner_read in *. destruct i as [d t p]. cbn [i_plan i_data i_tail] in *.
  destruct p as [|[k|k] p].
  - pose proof (give_plan n d t []) as [G1 G2]. pose proof (give_calm n d t [] P) as [G3 G4]. rewrite H in *. cbn [fst snd] in *.
    rewrite G1, G2. split; [reflexivity|]. split; [reflexivity|]. right. split; [exact G4|exact G3].
  - pose proof (give_plan (Nat.min n (S k)) d t p) as [G1 G2]. pose proof (give_calm (Nat.min n (S k)) d t p P) as [G3 G4].
    rewrite H in *. cbn [fst snd] in *. rewrite G1, G2. split; [reflexivity|]. split; [cbn; lia|]. right.
    split; [exact G4|]. unfold calm. cbn [i_plan i_data i_tail]. exact G3.
  - injection H as <- <-. cbn [i_plan i_tail]. split; [reflexivity|]. split; [cbn; lia|].
    destruct (is_interrupted (EIo k)) eqn:E.
    + left. pose proof (proj1 (interrupted_spec _) E) as E'. split; [f_equal; exact E'|]. split; [|cbn; lia].
      unfold calm. cbn [i_plan i_data i_tail calm_reads filter]. rewrite E. reflexivity.
    + right. split; [intros e H; injection H as <-; exact E|]. unfold calm. cbn [i_plan i_data i_tail calm_reads filter]. rewrite E. reflexivity.
Qed.

(** One call on the buffered reader. *)
Lemma read_calm n r o r' : patient (i_tail (r_inner r)) -> read n r = (o, r') ->
  i_tail (r_inner r') = i_tail (r_inner r) /\ length (i_plan (r_inner r')) <= length (i_plan (r_inner r)) /\
  ((o = Err (EIo Interrupted) /\ read n (calm_reader r') = read n (calm_reader r) /\
    length (i_plan (r_inner r')) < length (i_plan (r_inner r))) \/
   ((forall e, o = Err e -> is_interrupted e = false) /\ read n (calm_reader r) = (o, calm_reader r'))).
Proof.
  intros P H. unfold read in H |- *. cbn [calm_reader r_inner r_buf r_pos r_cap] in *.
  destruct ((r_pos r =? r_cap r) && (length (r_buf r) <=? n)) eqn:E.
  - destruct (inner_read n (r_inner r)) as [x i] eqn:I. injection H as <- <-.
    destruct (inner_read_calm _ _ _ _ P I) as (T & L & C). cbn [r_inner r_pos r_cap r_buf].
    split; [exact T|]. split; [exact L|]. destruct C as [(-> & C & L')|(C1 & C2)].
    + left. split; [reflexivity|]. split; [|exact L']. rewrite C. apply andb_true_iff in E. destruct E as [_ E].
      cbn [Nat.eqb andb]. rewrite E. reflexivity.
    + right. split; [exact C1|]. rewrite C2. reflexivity.
  - destruct (fill_buf r) as [x r1] eqn:FB. unfold fill_buf in FB |- *. cbn [calm_reader r_inner r_buf r_pos r_cap] in *.
    destruct (r_cap r <=? r_pos r) eqn:E2.
    + destruct (inner_read (length (r_buf r)) (r_inner r)) as [y i] eqn:I.
      destruct (inner_read_calm _ _ _ _ P I) as (T & L & C).
      destruct C as [(-> & C & L')|(C1 & C2)].
      * injection FB as <- <-. injection H as <- <-. cbn [r_inner r_pos r_cap r_buf]. split; [exact T|]. split; [exact L|].
        left. split; [reflexivity|]. split; [|exact L']. rewrite C, E, E2. reflexivity.
      * rewrite C2. destruct y as [bs|e| | |]; injection FB as <- <-; injection H as <- <-;
          cbn [r_inner r_pos r_cap r_buf consume visible]; (split; [exact T|]); (split; [exact L|]); right;
          (split; [|reflexivity]); try discriminate. exact C1.
    + injection FB as <- <-. injection H as <- <-. cbn [consume r_inner]. split; [reflexivity|]. split; [reflexivity|]. right.
      split; [discriminate|reflexivity].
Qed.

Lemma retry_loop_calm fuel : forall n acc r o r' k, patient (i_tail (r_inner r)) -> n <= k ->
  n + length (i_plan (r_inner r)) <= fuel -> retry_exact_loop fuel n acc r = (o, r') ->
  read_exact_loop k n acc (calm_reader r) = (o, calm_reader r') /\ i_tail (r_inner r') = i_tail (r_inner r).
Proof.
  induction fuel as [|f IH]; intros n acc r o r' k P K F H.
  - destruct n; [|lia]. injection H as <- <-. destruct k; split; reflexivity.
  - destruct n as [|n]; [injection H as <- <-; destruct k; split; reflexivity|].
    destruct k as [|k]; [lia|]. cbn [retry_exact_loop] in H. destruct (read (S n) r) as [x r1] eqn:R.
    destruct (read_calm _ _ _ _ P R) as (T & L & C). destruct C as [(-> & C & L')|(C1 & C2)].
    + cbn [is_interrupted Interrupted] in H. change (4 =? 4)%N with true in H. cbv iota in H.
      destruct (IH (S n) acc r1 o r' (S k)) as [I1 I2]; [rewrite T; exact P|exact K|lia|exact H|].
      split; [|congruence]. rewrite <- I1. cbn [read_exact_loop]. rewrite C. reflexivity.
    + cbn [read_exact_loop]. rewrite C2. destruct x as [bs|e| | |].
      * destruct bs as [|c bs]; [injection H as <- <-; split; [reflexivity|exact T]|].
        destruct (IH (S n - length (c :: bs)) (acc ++ c :: bs) r1 o r' k) as [I1 I2]; [rewrite T; exact P|cbn [length]; lia|cbn [length]; lia|exact H|].
        split; [exact I1|congruence].
      * rewrite (C1 e eq_refl) in H. injection H as <- <-. split; [reflexivity|exact T].
      * injection H as <- <-. split; [reflexivity|exact T].
      * injection H as <- <-. split; [reflexivity|exact T].
      * injection H as <- <-. split; [reflexivity|exact T].
Qed.
Lemma retry_exacts_calm ns : forall r, patient (i_tail (r_inner r)) -> retry_exacts ns r = read_exacts ns (calm_reader r).
Proof.
  induction ns as [|n ns IH]; intros r P; [reflexivity|]. cbn [retry_exacts read_exacts]. unfold retry_exact, read_exact.
  destruct (retry_exact_loop (n + length (i_plan (r_inner r))) n [] r) as [o r'] eqn:E.
  destruct (retry_loop_calm _ _ _ _ _ _ n P (le_n n) (le_n _) E) as [-> T]. f_equal. destruct (is_ok o); [|reflexivity].
  apply IH. rewrite T. exact P.
Qed.

Lemma sub_plan_calm x y : sub_plan x y -> sub_plan (calm_reads x) (calm_reads y).
Proof.
  intros H e I. apply filter_In in I. destruct I as [I J]. apply filter_In. split; [apply H, I|exact J].
Qed.
Lemma rep_calm c r d tl plan : rep c r d tl plan -> rep c (calm_reader r) d tl (calm_reads plan).
Proof. intros [R1 R2 R3 R4 R5 R6]. constructor; cbn; auto using sub_plan_calm. Qed.

(** The read_exact calls of a source (src/source/dc_source.rs reads with nothing else), after the file has been opened,
    get the file's bytes however often they are interrupted. *)
Theorem C132_rows_partial : forall i p ns, previewer_new i = Ok p -> patient (i_tail i) -> smooth (calm_reads (i_plan i)) ->
  retry_exacts ns (get_reader p) = take_exacts ns {| s_data := i_data i; s_tail := i_tail i |}.
Proof.
  intros i p ns H P Sm. destruct (new_spec _ _ H) as [R _].
  rewrite retry_exacts_calm; [|rewrite (rep_tail _ _ _ _ _ R); exact P].
  exact (read_exacts_spec _ _ _ buf_nonzero Sm ns _ _ (rep_calm _ _ _ _ _ R)).
Qed.
Print Assumptions C132_rows_partial.

(** ** Opening *)
Lemma one_shot_calm r o r' : patient (i_tail (r_inner r)) -> fill_buffer_one_shot r = (o, r') ->
  i_tail (r_inner r') = i_tail (r_inner r) /\
  (o = Err (EIo Interrupted) \/ fill_buffer_one_shot (calm_reader r) = (o, calm_reader r')).
Proof.
  intros P H. unfold fill_buffer_one_shot in *. cbn [calm_reader r_inner r_buf r_pos r_cap].
  destruct (r_cap r =? length (r_buf r)); [injection H as <- <-; split; [reflexivity|right; reflexivity]|].
  destruct (inner_read (length (r_buf r) - r_cap r) (r_inner r)) as [x i] eqn:I.
  destruct (inner_read_calm _ _ _ _ P I) as (T & L & C). destruct C as [(-> & _)|(C1 & C2)].
  - injection H as <- <-. split; [exact T|]. left. reflexivity.
  - rewrite C2. destruct x; injection H as <- <-; (split; [exact T|]); right; reflexivity.
Qed.
Lemma fill_calm fuel : forall r o r', patient (i_tail (r_inner r)) -> fill_buffer_loop fuel r = (o, r') ->
  o = Err (EIo Interrupted) \/ fill_buffer_loop fuel (calm_reader r) = (o, calm_reader r').
Proof.
  induction fuel as [|f IH]; intros r o r' P H; [right; injection H as <- <-; reflexivity|].
  cbn [fill_buffer_loop] in *. destruct (fill_buffer_one_shot r) as [x r1] eqn:E.
  destruct (one_shot_calm _ _ _ P E) as [T [->|C]]; [left; injection H as <- _; reflexivity|].
  rewrite C. destruct x as [n|e| | |]; try (injection H as <- <-; right; reflexivity).
  cbn [calm_reader r_cap r_buf]. destruct ((n =? 0) || (r_cap r1 =? length (r_buf r1))); [injection H as <- <-; right; reflexivity|].
  apply IH; [rewrite T; exact P|exact H].
Qed.
(** Opening a file (the preview of its first 8 KiB) reports an interruption; if it does not, it is as if there had been
    none: the same first bytes, the same lines, the same position. *)
Theorem C132_open_partial : forall i, patient (i_tail i) ->
  previewer_new i = Err (EIo Interrupted) \/
  previewer_new (calm i) = (let* p := previewer_new i in
    Ok {| p_reader := calm_reader (get_reader p); p_trimmed := get_buf p; p_lines := get_lines p |}).
Proof.
  intros i P. unfold previewer_new, previewer_with, fill_buffer.
  change (with_capacity DEFAULT_BUF_SIZE (calm i)) with (calm_reader (with_capacity DEFAULT_BUF_SIZE i)).
  change (r_buf (calm_reader (with_capacity DEFAULT_BUF_SIZE i))) with (r_buf (with_capacity DEFAULT_BUF_SIZE i)).
  destruct (fill_buffer_loop (S (length (r_buf (with_capacity DEFAULT_BUF_SIZE i)))) (with_capacity DEFAULT_BUF_SIZE i)) as [o r] eqn:E.
  destruct (fill_calm _ (with_capacity DEFAULT_BUF_SIZE i) _ _ P E) as [->|C]; [left; reflexivity|right]. rewrite C.
  destruct o; cbn [bind]; [|reflexivity..]. change (get_lines_from_reader (calm_reader r)) with (get_lines_from_reader r).
  destruct (get_lines_from_reader r); reflexivity.
Qed.
Print Assumptions C132_open_partial.
(** An interruption of the first call is always reported. *)
Lemma first_read_fails e d t p : previewer_new {| i_data := d; i_tail := t; i_plan := Fail e :: p |} = Err (EIo e).
Proof.
  unfold previewer_new, previewer_with, fill_buffer. cbn [fill_buffer_loop]. unfold fill_buffer_one_shot.
  cbn [with_capacity r_cap r_buf r_inner]. rewrite repeat_length. change (0 =? DEFAULT_BUF_SIZE) with false. cbv iota.
  unfold inner_read. cbn [i_plan fail_as bind]. reflexivity.
Qed.

(** ** Writing *)
Lemma outer_calm bs o r o' : patient (o_end o) -> outer_write bs o = (r, o') ->
  o_end o' = o_end o /\ length (o_plan o') <= length (o_plan o) /\
  ((r = Err (EIo Interrupted) /\ calm_outer o' = calm_outer o /\ length (o_plan o') < length (o_plan o)) \/
   ((forall e, r = Err e -> is_interrupted e = false) /\ outer_write bs (calm_outer o) = (r, calm_outer o'))).
Proof.
  intros P H. unfold outer_write in *. destruct o as [g p e]. cbn [o_plan o_got o_end calm_outer] in *.
  destruct p as [|[k|k] p].
  - cbn [calm_writes filter]. destruct e as [e|]; injection H as <- <-; cbn [o_plan o_got o_end]; (split; [reflexivity|]); (split; [reflexivity|]); right.
    + split; [|reflexivity]. intros x H. injection H as <-. destruct (is_interrupted (EIo e)) eqn:E; [|reflexivity].
      apply interrupted_spec in E. injection E as ->. destruct (P eq_refl).
    + split; [discriminate|reflexivity].
  - injection H as <- <-. cbn [o_plan o_got o_end calm_writes filter]. split; [reflexivity|]. split; [cbn; lia|]. right.
    split; [discriminate|reflexivity].
  - injection H as <- <-. cbn [o_plan o_got o_end calm_writes filter]. split; [reflexivity|]. split; [cbn; lia|].
    destruct (is_interrupted (EIo k)) eqn:E.
    + left. pose proof (proj1 (interrupted_spec _) E) as E'. split; [f_equal; exact E'|]. split; [|cbn; lia].
      unfold calm_outer. cbn [o_plan o_got o_end calm_writes filter]. rewrite E. reflexivity.
    + right. split; [intros x H; injection H as <-; exact E|]. cbn [negb]. reflexivity.
Qed.

Lemma pour_calm fuel : forall bs o r w k, patient (o_end o) -> length bs <= k -> length bs + length (o_plan o) <= fuel ->
  retry_pour fuel bs o = (r, w) ->
  pour k bs (calm_outer o) = (r, calm_writer w) /\ o_end (bw_out w) = o_end o /\ length (o_plan (bw_out w)) <= length (o_plan o) /\
  (r = Ok tt -> bw_buf w = []) /\ (forall e, r = Err e -> is_interrupted e = false).
Proof.
  induction fuel as [|f IH]; intros bs o r w k P K F H.
  - destruct bs; [|cbn in F; lia]. injection H as <- <-. destruct k; repeat split; auto; discriminate.
  - destruct bs as [|c bs]; [injection H as <- <-; destruct k; repeat split; auto; discriminate|].
    destruct k as [|k]; [cbn in K; lia|]. cbn [retry_pour] in H. destruct (outer_write (c :: bs) o) as [x o1] eqn:W.
    destruct (outer_calm _ _ _ _ P W) as (T & L & C). destruct C as [(-> & C & L')|(C1 & C2)].
    + cbn [is_interrupted Interrupted] in H. change (4 =? 4)%N with true in H. cbv iota in H.
      destruct (IH (c :: bs) o1 r w (S k)) as (I1 & I2 & I3 & I4); [rewrite T; exact P|exact K|lia|exact H|].
      rewrite C in I1. split; [exact I1|]. split; [congruence|]. split; [lia|exact I4].
    + cbn [pour]. rewrite C2. destruct x as [n|e| | |].
      * destruct (n =? 0) eqn:N0.
        { injection H as <- <-. split; [reflexivity|]. split; [exact T|]. split; [exact L|]. split; [discriminate|].
          intros e H. injection H as <-. reflexivity. }
        apply Nat.eqb_neq in N0.
        destruct (IH (skipn n (c :: bs)) o1 r w k) as (I1 & I2 & I3 & I4);
          [rewrite T; exact P|rewrite skipn_length; cbn [length] in *; lia|rewrite skipn_length; cbn [length] in *; lia|exact H|].
        split; [exact I1|]. split; [congruence|]. split; [lia|exact I4].
      * rewrite (C1 e eq_refl) in H. injection H as <- <-. split; [reflexivity|]. split; [exact T|]. split; [exact L|].
        split; [discriminate|]. intros e0 H. injection H as <-. apply C1. reflexivity.
      * injection H as <- <-. repeat split; auto; discriminate.
      * injection H as <- <-. repeat split; auto; discriminate.
      * injection H as <- <-. repeat split; auto; discriminate.
Qed.
Lemma flush_calm w r w' : patient (o_end (bw_out w)) -> retry_flush_buf w = (r, w') ->
  flush_buf (calm_writer w) = (r, calm_writer w') /\ o_end (bw_out w') = o_end (bw_out w) /\
  length (o_plan (bw_out w')) <= length (o_plan (bw_out w)) /\ (r = Ok tt -> bw_buf w' = []) /\ (forall e, r = Err e -> is_interrupted e = false).
Proof. intros P H. exact (pour_calm _ _ _ _ _ _ P (le_n _) (le_n _) H). Qed.

Section Cap.
Variable cap : nat.
Lemma write_calm bs w r w' : patient (o_end (bw_out w)) -> retry_write cap bs w = (r, w') ->
  o_end (bw_out w') = o_end (bw_out w) /\ length (o_plan (bw_out w')) <= length (o_plan (bw_out w)) /\
  ((r = Err (EIo Interrupted) /\ bw_write cap bs (calm_writer w') = bw_write cap bs (calm_writer w) /\
    length (o_plan (bw_out w')) < length (o_plan (bw_out w))) \/
   ((forall e, r = Err e -> is_interrupted e = false) /\ bw_write cap bs (calm_writer w) = (r, calm_writer w'))).
Proof.
  intros P H. unfold retry_write in H.
  assert (X : exists q w1, (if cap <? length (bw_buf w) + length bs then retry_flush_buf w else (Ok tt, w)) = (q, w1) /\
    (if cap <? length (bw_buf (calm_writer w)) + length bs then flush_buf (calm_writer w) else (Ok tt, calm_writer w)) = (q, calm_writer w1) /\
    o_end (bw_out w1) = o_end (bw_out w) /\ length (o_plan (bw_out w1)) <= length (o_plan (bw_out w)) /\
    (forall e, q = Err e -> is_interrupted e = false) /\
    (q = Ok tt -> bw_buf w1 = [] \/ cap <? length (bw_buf w1) + length bs = false)).
  { cbn [calm_writer bw_buf]. destruct (cap <? length (bw_buf w) + length bs) eqn:E.
    - destruct (retry_flush_buf w) as [q w1] eqn:Fl. destruct (flush_calm _ _ _ P Fl) as (F1 & F2 & F3 & F4 & F5).
      exists q, w1. repeat split; auto.
    - exists (Ok tt), w. repeat split; auto. discriminate. }
  destruct X as (q & w1 & X1 & X2 & X3 & X4 & X5 & X6). rewrite X1 in H. remember (bw_write cap bs (calm_writer w)) as gw eqn:BW. unfold bw_write in BW. rewrite X2 in BW. subst gw.
  destruct q as [[]|e| | |].
  - cbn [calm_writer bw_out bw_buf]. destruct (cap <=? length bs) eqn:E.
    + destruct (outer_write bs (bw_out w1)) as [n o1] eqn:W. rewrite <- X3 in P.
      destruct (outer_calm _ _ _ _ P W) as (T & L & C). injection H as <- <-. cbn [bw_out bw_buf].
      split; [congruence|]. split; [lia|]. destruct C as [(-> & C & L')|(C1 & C2)].
      * left. split; [reflexivity|]. split; [|lia]. unfold bw_write.
        change (calm_writer {| bw_buf := bw_buf w1; bw_out := o1 |}) with {| bw_buf := bw_buf w1; bw_out := calm_outer o1 |}. cbn [bw_out bw_buf]. rewrite C.
        destruct (X6 eq_refl) as [B|B].
        -- rewrite B. cbn [length Nat.add]. destruct (cap <? length bs).
           ++ unfold flush_buf. cbn [bw_buf length pour bw_out]. rewrite E. cbn [bw_buf bw_out]. reflexivity.
           ++ rewrite E. reflexivity.
        -- rewrite B, E. reflexivity.
      * right. split; [exact C1|]. rewrite C2. reflexivity.
    + injection H as <- <-. cbn [bw_out bw_buf]. split; [exact X3|]. split; [exact X4|]. right. split; [discriminate|reflexivity].
  - injection H as <- <-. split; [exact X3|]. split; [exact X4|]. right. split; [|reflexivity]. intros e0 H. injection H as <-. apply X5. reflexivity.
  - injection H as <- <-. split; [exact X3|]. split; [exact X4|]. right. split; [discriminate|reflexivity].
  - injection H as <- <-. split; [exact X3|]. split; [exact X4|]. right. split; [discriminate|reflexivity].
  - injection H as <- <-. split; [exact X3|]. split; [exact X4|]. right. split; [discriminate|reflexivity].
Qed.
Lemma loop_calm fuel : forall bs w r w' k, patient (o_end (bw_out w)) -> length bs <= k -> length bs + length (o_plan (bw_out w)) <= fuel ->
  retry_write_loop cap fuel bs w = (r, w') ->
  write_loop cap k bs (calm_writer w) = (r, calm_writer w') /\ o_end (bw_out w') = o_end (bw_out w).
Proof.
  induction fuel as [|f IH]; intros bs w r w' k P K F H.
  - destruct bs; [|cbn in F; lia]. injection H as <- <-. destruct k; split; reflexivity.
  - destruct bs as [|c bs]; [injection H as <- <-; destruct k; split; reflexivity|].
    destruct k as [|k]; [cbn in K; lia|]. cbn [retry_write_loop] in H. destruct (retry_write cap (c :: bs) w) as [x w1] eqn:W.
    destruct (write_calm _ _ _ _ P W) as (T & L & C). destruct C as [(-> & C & L')|(C1 & C2)].
    + cbn [is_interrupted Interrupted] in H. change (4 =? 4)%N with true in H. cbv iota in H.
      destruct (IH (c :: bs) w1 r w' (S k)) as (I1 & I2); [rewrite T; exact P|exact K|lia|exact H|].
      split; [|congruence]. rewrite <- I1. cbn [write_loop]. rewrite C. reflexivity.
    + cbn [write_loop]. rewrite C2. destruct x as [n|e| | |].
      * destruct (n =? 0) eqn:N0; [injection H as <- <-; split; [reflexivity|exact T]|]. apply Nat.eqb_neq in N0.
        destruct (IH (skipn n (c :: bs)) w1 r w' k) as (I1 & I2);
          [rewrite T; exact P|rewrite skipn_length; cbn [length] in *; lia|rewrite skipn_length; cbn [length] in *; lia|exact H|].
        split; [exact I1|congruence].
      * rewrite (C1 e eq_refl) in H. injection H as <- <-. split; [reflexivity|exact T].
      * injection H as <- <-. split; [reflexivity|exact T].
      * injection H as <- <-. split; [reflexivity|exact T].
      * injection H as <- <-. split; [reflexivity|exact T].
Qed.
Lemma pieces_calm ps : forall w r w', patient (o_end (bw_out w)) -> retry_pieces cap ps w = (r, w') ->
  write_pieces cap ps (calm_writer w) = (r, calm_writer w') /\ o_end (bw_out w') = o_end (bw_out w).
Proof.
  induction ps as [|p ps IH]; intros w r w' P H; [injection H as <- <-; split; reflexivity|].
  cbn [retry_pieces write_pieces] in *. unfold retry_write_all in H. unfold bw_write_all.
  destruct (retry_write_loop cap (length p + length (o_plan (bw_out w))) p w) as [x w1] eqn:E.
  destruct (loop_calm _ _ _ _ _ (length p) P (le_n _) (le_n _) E) as [-> T].
  destruct x; try (injection H as <- <-; split; [reflexivity|exact T]).
  destruct (IH w1 r w') as [I1 I2]; [rewrite T; exact P|exact H|]. split; [exact I1|congruence].
Qed.
End Cap.

(** Output: whatever is written by write_all calls and by the drop at the end arrives as if no call had been interrupted,
    with the same result. *)
Theorem C132_output_partial : forall cap ps o, patient (o_end o) ->
  fst (retry_pieces cap ps (bw_new o)) = fst (write_pieces cap ps (bw_new (calm_outer o))) /\
  retry_drop (snd (retry_pieces cap ps (bw_new o))) = bw_drop (snd (write_pieces cap ps (bw_new (calm_outer o)))).
Proof.
  intros cap ps o P. destruct (retry_pieces cap ps (bw_new o)) as [r w] eqn:E.
  change (bw_new (calm_outer o)) with (calm_writer (bw_new o)). destruct (pieces_calm cap ps (bw_new o) r w P E) as [E' T]. rewrite E'.
  split; [reflexivity|]. cbn [snd]. unfold retry_drop, bw_drop. destruct (retry_flush_buf w) as [q w'] eqn:Fl.
  destruct (flush_calm w q w') as (F1 & _); [rewrite T; exact P|exact Fl|]. rewrite F1. reflexivity.
Qed.
Print Assumptions C132_output_partial.
(** So a writer that is only slow and sometimes interrupted receives everything. *)
Theorem C132_everything_partial : forall cap ps o, o_got o = [] -> willing (calm_outer o) ->
  fst (retry_pieces cap ps (bw_new o)) = Ok tt /\ retry_drop (snd (retry_pieces cap ps (bw_new o))) = concat ps.
Proof.
  intros cap ps o G W. assert (P : patient (o_end o)) by (destruct W as [W _]; cbn in W; rewrite W; discriminate).
  destruct (C132_output_partial cap ps o P) as [-> ->].
  destruct (pieces_spec cap ps (bw_new (calm_outer o))) as ((p & _ & A & B) & _ & C).
  destruct (C W) as [C1 C2]. split; [exact C2|]. rewrite drop_willing by exact C1. rewrite A, (B C2). unfold all_of, bw_new. cbn.
  rewrite G. reflexivity.
Qed.
Print Assumptions C132_everything_partial.
(** Three pieces, four calls interrupted (one of them while the buffer is poured), a buffer of four bytes. *)
Example C132_output_example :
  let o := {| o_got := []; o_plan := [Refuse Interrupted; Accept 2; Refuse Interrupted; Refuse Interrupted; Accept 1; Refuse Interrupted]; o_end := None |} in
  retry_drop (snd (retry_pieces 4 [b "abc"; b "defghij"; b "k"] (bw_new o))) = b "abcdefghijk" /\
  willing (calm_outer o).
Proof.
  split; [vm_compute; reflexivity|]. split; [reflexivity|]. cbn. constructor; [exists 1; reflexivity|]. constructor; [exists 0; reflexivity|constructor].
Qed.

(** ** The program *)
(** The first read of an input, interrupted once, ends a run that succeeds when it is not: the error is reported and
    there is no output. *)
Theorem C132_refuted :
  (exists written, run_ok (demo [] (demo_args [b "a.dc"] (Some (b "o.dc")))) written) /\
  (forall p, demo (Fail Interrupted :: p) (demo_args [b "a.dc"] (Some (b "o.dc"))) =
             {| o_written := None; o_result := Err (EIo Interrupted) |}).
Proof.
  split; [eexists; exact C79_demo|]. intro p.
  destruct (demo_args_ok [] (Some (b "o.dc"))) as (o & Ea & _ & Ei).
  unfold demo, chopper_cli. change (parse_args Debug counting None demo_known (demo_world (Fail Interrupted :: p))) with (demo_options).
  rewrite Ea. unfold run_chop. rewrite Ei. cbn [map open_inputs]. unfold create_source_from_input. cbn [in_type in_format].
  cbn [dir_file_transport dt_can_handle demo_world w_is_dir].
  unfold create_source_from_path.
  set (d := dc_file demo_header (map EvRow demo_a)).
  assert (O : w_open (demo_world (Fail Interrupted :: p)) (b "a.dc") =
              Ok {| f_reads := reads_as (Fail Interrupted :: p) d; f_seekable := true |}) by reflexivity.
  assert (Z : forall inflate bunzip, open_zip inflate bunzip (demo_world (Fail Interrupted :: p)) (b "a.dc") = Ok None).
  { intros. unfold open_zip. change (w_exists (demo_world (Fail Interrupted :: p)) (b "a.dc")) with true. rewrite O.
    cbn [bind f_seekable f_reads reads_as i_data]. assert (Ez : is_zip d = Ok false) by (vm_compute; reflexivity).
    rewrite Ez. reflexivity. }
  rewrite Z. cbn [bind]. unfold create_previewer, streaming_transports. cbn [open_matching].
  change (t_can_open (file_transport (demo_world (Fail Interrupted :: p))) (b "a.dc")) with true.
  change (t_can_open (http_transport (demo_world (Fail Interrupted :: p))) (b "a.dc")) with false. cbv iota.
  cbn [file_transport t_open]. rewrite O. cbn [bind f_reads]. unfold reads_as. rewrite first_read_fails. reflexivity.
Qed.
Print Assumptions C132_refuted.
(** The hypotheses of C132_rows_partial: a file longer than the preview whose second read is interrupted twice. *)
Definition long_interrupted : inner :=
  {| i_data := repeat "x"%char (8 * 1024) ++ b "tail"; i_tail := None; i_plan := [Chunk (9 * 1024); Fail Interrupted; Fail Interrupted; Chunk 1] |}.
Lemma ok_opens {A} (r : res A) : is_ok r = true -> exists p, r = Ok p.
Proof. destruct r as [p|e| | |]; try discriminate. intros _. exists p. reflexivity. Qed.
Lemma long_opens : is_ok (previewer_new long_interrupted) = true.
Proof. vm_compute. reflexivity. Qed.
Example C132_rows_example :
  exists p, previewer_new long_interrupted = Ok p /\ patient (i_tail long_interrupted) /\
    smooth (calm_reads (i_plan long_interrupted)) /\
    tl (retry_exacts [8 * 1024; 2; 2; 1] (get_reader p)) = [Ok (b "ta"); Ok (b "il"); Err (EIo UnexpectedEof)].
Proof.
  destruct (ok_opens _ long_opens) as [p E]. exists p. split; [exact E|].
  assert (P : patient (i_tail long_interrupted)) by discriminate.
  assert (Sm : smooth (calm_reads (i_plan long_interrupted))) by (intros e [X|[X|[]]]; discriminate X).
  split; [exact P|]. split; [exact Sm|]. rewrite (C132_rows_partial _ _ _ E P Sm). vm_compute. reflexivity.
Qed.
