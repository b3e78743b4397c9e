(** Proofs about the buffered reader and the previewer. *)
From Verif Require Export ReaderSpec BytesProofs.

Lemma firstn_nil_inv {A} n (l : list A) : n <> 0 -> firstn n l = [] -> l = [].
Proof. destruct n, l; cbn; congruence. Qed.

Lemma skipn_skipn {A} x y (l : list A) : skipn x (skipn y l) = skipn (y + x) l.
Proof.
  revert l; induction y as [|y IH]; intro l; [reflexivity|].
  destruct l; cbn [skipn Nat.add]; [destruct x; reflexivity|]. apply IH.
Qed.

(** ** The underlying reader *)

Lemma give_spec n d tl p o r' :
  give n d tl p = (o, r') ->
  i_tail r' = tl /\ i_plan r' = p /\
  match o with
  | Ok bs => d = bs ++ i_data r' /\ length bs <= n /\ (n <> 0 -> bs = [] -> d = [] /\ tl = None)
  | Err e => i_data r' = d /\ d = [] /\ exists k, e = EIo k /\ tl = Some k
  | _ => False
  end.
Proof.
  unfold give. destruct (Nat.eqb_spec n 0) as [->|Hn].
  - intros [= <- <-]; cbn. repeat split; auto; lia.
  - destruct d as [|a d].
    + destruct tl as [k|]; intros [= <- <-]; cbn; repeat split; eauto.
      * rewrite firstn_nil, skipn_nil. reflexivity.
      * rewrite firstn_nil. cbn; lia.
    + assert (forall x : res bytes * inner,
                x = (Ok (firstn n (a :: d)), {| i_data := skipn n (a :: d); i_tail := tl; i_plan := p |})
                -> match (a :: d), tl with
                   | [], Some e => (Err (EIo e), {| i_data := []; i_tail := tl; i_plan := p |})
                   | _, _ => (Ok (firstn n (a :: d)), {| i_data := skipn n (a :: d); i_tail := tl; i_plan := p |})
                   end = x) by (intros x ->; destruct tl; reflexivity).
      intros E. assert (E2 : (Ok (firstn n (a :: d)), {| i_data := skipn n (a :: d); i_tail := tl; i_plan := p |}) = (o, r')).
      { destruct tl; exact E. }
      clear E H. injection E2 as <- <-. cbn [i_tail i_plan i_data].
      repeat split.
      * symmetry. apply firstn_skipn.
      * rewrite firstn_length. lia.
      * apply firstn_nil_inv in H0; [discriminate|assumption].
      * apply firstn_nil_inv in H0; [discriminate|assumption].
Qed.

Definition sub_plan (p' p : list step) : Prop := forall e, In (Fail e) p' -> In (Fail e) p.

Lemma inner_read_spec n r o r' :
  inner_read n r = (o, r') ->
  i_tail r' = i_tail r /\ sub_plan (i_plan r') (i_plan r) /\
  match o with
  | Ok bs => i_data r = bs ++ i_data r' /\ length bs <= n /\
             (n <> 0 -> bs = [] -> i_data r = [] /\ i_tail r = None)
  | Err e => i_data r' = i_data r /\ blamed (i_data r) (i_tail r) (i_plan r) e
  | _ => False
  end.
Proof.
  unfold inner_read. destruct r as [d tl p]; cbn [i_plan i_data i_tail].
  destruct p as [|[k|e] p].
  - intro H. apply give_spec in H as (Ht & Hp & H). rewrite Ht, Hp.
    split; [reflexivity|]. split; [intros e He; exact He|].
    destruct o; auto. destruct H as (H1 & H2 & k & -> & H4). split; [exact H1|].
    exists k; auto.
  - intro H. apply give_spec in H as (Ht & Hp & H). rewrite Ht, Hp.
    split; [reflexivity|]. split; [intros e He; right; exact He|].
    destruct o; auto.
    + destruct H as (H1 & H2 & H3). split; [exact H1|]. split; [lia|].
      intros Hn Hb. apply H3; [lia|exact Hb].
    + destruct H as (H1 & H2 & k' & -> & H4). split; [exact H1|]. exists k'; auto.
  - intros [= <- <-]; cbn. split; [reflexivity|]. split; [intros e' He; right; exact He|].
    split; [reflexivity|]. exists e. split; [reflexivity|]. left; left; reflexivity.
Qed.

(** ** The invariant *)

Record rep (c : nat) (r : breader) (d : bytes) (tl : option ioerr) (plan : list step) : Prop := {
  rep_len : length (r_buf r) = c;
  rep_pos : r_pos r <= r_cap r;
  rep_cap : r_cap r <= c;
  rep_data : visible r ++ i_data (r_inner r) = d;
  rep_tail : i_tail (r_inner r) = tl;
  rep_plan : sub_plan (i_plan (r_inner r)) plan
}.

Lemma overwrite_length buf off src :
  off + length src <= length buf -> length (overwrite buf off src) = length buf.
Proof.
  intro H. unfold overwrite. rewrite !app_length, firstn_length, skipn_length. lia.
Qed.

Lemma overwrite_firstn buf off src :
  off + length src <= length buf ->
  firstn (off + length src) (overwrite buf off src) = firstn off buf ++ src.
Proof.
  intro H. unfold overwrite. rewrite app_assoc, firstn_app.
  rewrite app_length, firstn_length, Nat.min_l by lia.
  rewrite Nat.sub_diag. cbn [firstn]. rewrite app_nil_r.
  apply firstn_all2. rewrite app_length, firstn_length. lia.
Qed.

Lemma visible_empty r : r_cap r <= r_pos r -> visible r = [].
Proof. intro H. unfold visible. replace (r_cap r - r_pos r) with 0 by lia. reflexivity. Qed.

Lemma visible_length r : r_pos r <= r_cap r -> r_cap r <= length (r_buf r) ->
  length (visible r) = r_cap r - r_pos r.
Proof. intros. unfold visible. rewrite firstn_length, skipn_length. lia. Qed.

Lemma fill_buf_spec c r d tl plan o r' :
  rep c r d tl plan -> c <> 0 -> fill_buf r = (o, r') ->
  rep c r' d tl plan /\
  match o with
  | Ok bs => bs = visible r' /\ (bs = [] -> d = [] /\ tl = None)
  | Err e => blamed d tl plan e
  | _ => False
  end.
Proof.
  intros [Hl Hp Hc Hd Ht Hpl] Hc0. unfold fill_buf.
  destruct (Nat.leb_spec (r_cap r) (r_pos r)) as [He|He].
  - destruct (inner_read (length (r_buf r)) (r_inner r)) as [x i] eqn:E.
    apply inner_read_spec in E as (Et & Ep & E). rewrite Hl in E.
    rewrite (visible_empty _ He) in Hd. cbn in Hd.
    assert (Hs : sub_plan (i_plan i) plan) by (intros e' H'; auto).
    destruct x as [bs|e| | |]; try contradiction; intros [= <- <-].
    + destruct E as (E1 & E2 & E3). split.
      * constructor; cbn [r_buf r_pos r_cap r_inner].
        -- rewrite overwrite_length; lia.
        -- lia.
        -- lia.
        -- unfold visible; cbn [r_buf r_pos r_cap r_inner]. rewrite Nat.sub_0_r. cbn [skipn].
           change (firstn (length bs) (overwrite (r_buf r) 0 bs))
             with (firstn (0 + length bs) (overwrite (r_buf r) 0 bs)).
           rewrite overwrite_firstn by lia. cbn [firstn app]. congruence.
        -- congruence.
        -- exact Hs.
      * split; [reflexivity|]. intro Hb.
        assert (bs = []) as ->.
        { apply length_zero_iff_nil. apply (f_equal (@length byte)) in Hb.
          rewrite visible_length in Hb; cbn [r_buf r_pos r_cap] in *;
            [cbn in Hb; lia|lia|]. rewrite overwrite_length; lia. }
        destruct (E3 Hc0 eq_refl). split; congruence.
    + destruct E as (E1 & k & -> & E3). split.
      * constructor; cbn [r_buf r_pos r_cap r_inner]; auto; try congruence.
        unfold visible at 1. cbn [r_buf r_pos r_cap].
        replace (r_cap r - r_pos r) with 0 by lia. cbn. congruence.
      * exists k. split; [reflexivity|]. destruct E3 as [E3|[E3 E4]]; [left; auto|].
        right. split; congruence.
  - intros [= <- <-]. split; [constructor; auto|]. split; [reflexivity|].
    intro Hb. apply (f_equal (@length byte)) in Hb. rewrite visible_length in Hb by lia.
    cbn in Hb; lia.
Qed.

Lemma consume_rep c r d tl plan n :
  rep c r d tl plan ->
  rep c (consume n r) (skipn (Nat.min n (r_cap r - r_pos r)) d) tl plan /\
  d = firstn n (visible r) ++ skipn (Nat.min n (r_cap r - r_pos r)) d.
Proof.
  intros [Hl Hp Hc Hd Ht Hpl].
  assert (Hv : length (visible r) = r_cap r - r_pos r) by (apply visible_length; lia).
  assert (Hf : firstn n (visible r) = firstn (Nat.min n (r_cap r - r_pos r)) d).
  { subst d. rewrite firstn_app, Hv.
    replace (Nat.min n (r_cap r - r_pos r) - (r_cap r - r_pos r)) with 0 by lia.
    cbn [firstn]. rewrite app_nil_r. rewrite <- Hv.
    rewrite <- firstn_firstn, firstn_all. reflexivity. }
  split.
  - constructor; cbn [consume r_buf r_pos r_cap r_inner]; auto; try lia.
    set (m := Nat.min n (r_cap r - r_pos r)).
    assert (Hm : skipn m (visible r) = visible (consume n r)).
    { unfold visible; cbn [consume r_buf r_pos r_cap]. rewrite skipn_firstn_comm.
      rewrite skipn_skipn. f_equal; [lia|]. f_equal. lia. }
    rewrite <- Hm. rewrite <- Hd at 1. rewrite skipn_app, Hv.
    replace (m - (r_cap r - r_pos r)) with 0 by lia. reflexivity.
  - rewrite Hf. symmetry. apply firstn_skipn.
Qed.

Lemma take_case c r d tl plan n :
  rep c r d tl plan ->
  exists rest', d = firstn n (visible r) ++ rest' /\ rep c (consume n r) rest' tl plan.
Proof.
  intro H. destruct (consume_rep _ _ _ _ _ n H) as [H1 H2]. eauto.
Qed.

Lemma read_spec c r d tl plan n o r' :
  rep c r d tl plan -> c <> 0 -> read n r = (o, r') ->
  match o with
  | Ok bs => exists rest', d = bs ++ rest' /\ length bs <= n /\
      (n <> 0 -> bs = [] -> d = [] /\ tl = None) /\ rep c r' rest' tl plan
  | Err e => blamed d tl plan e /\ rep c r' d tl plan
  | _ => False
  end.
Proof.
  intros H Hc0. unfold read.
  destruct ((r_pos r =? r_cap r) && (length (r_buf r) <=? n)) eqn:B.
  - apply andb_true_iff in B as [B1 B2]. apply Nat.eqb_eq in B1. apply Nat.leb_le in B2.
    destruct H as [Hl Hp Hc Hd Ht Hpl].
    rewrite visible_empty in Hd by lia. cbn in Hd.
    destruct (inner_read n (r_inner r)) as [x i] eqn:E.
    apply inner_read_spec in E as (Et & Ep & E).
    assert (Hs : sub_plan (i_plan i) plan) by (intros e' H'; auto).
    intros [= <- <-]. destruct x as [bs|e| | |]; try contradiction.
    + destruct E as (E1 & E2 & E3). exists (i_data i).
      split; [congruence|]. split; [exact E2|]. split.
      * intros Hn Hb. destruct (E3 Hn Hb). split; congruence.
      * constructor; cbn; auto; try congruence; lia.
    + destruct E as (E1 & k & -> & E3). split.
      * exists k. split; [reflexivity|]. destruct E3 as [E3|[E3 E4]]; [left; auto|].
        right. split; congruence.
      * constructor; cbn; auto; try congruence; lia.
  - destruct (fill_buf r) as [x r1] eqn:E.
    apply (fill_buf_spec _ _ _ _ _ _ _ H Hc0) in E as [H1 E].
    destruct x as [bs|e| | |]; try contradiction; intros [= <- <-].
    + destruct E as [-> E].
      destruct (take_case _ _ _ _ _ (length (firstn n (visible r1))) H1) as (rest' & E1 & E2).
      exists rest'.
      assert (Hff : firstn (length (firstn n (visible r1))) (visible r1) = firstn n (visible r1)).
      { rewrite firstn_length. destruct (Nat.le_ge_cases n (length (visible r1))).
        - rewrite Nat.min_l by lia. reflexivity.
        - rewrite Nat.min_r by lia. rewrite firstn_all, firstn_all2 by lia. reflexivity. }
      split; [congruence|]. split; [rewrite firstn_length; lia|]. split; [|exact E2].
      intros Hn Hb. apply E. apply firstn_nil_inv in Hb; auto.
    + auto.
Qed.

Lemma run_faithful c r d tl plan ops :
  rep c r d tl plan -> c <> 0 -> faithful d tl plan (run ops r).
Proof.
  revert r d; induction ops as [|o ops IH]; intros r d H Hc0; [exact I|].
  cbn [run]. destruct (do_op o r) as [x r1] eqn:E.
  destruct o as [n| |n]; cbn [do_op] in E.
  - apply (read_spec _ _ _ _ _ _ _ _ H Hc0) in E.
    destruct x as [bs|e| | |]; try contradiction; cbn [faithful].
    + destruct E as (rest' & E1 & E2 & E3 & E4). exists rest'. auto.
    + destruct E; auto.
  - apply (fill_buf_spec _ _ _ _ _ _ _ H Hc0) in E as [H1 E].
    destruct x as [bs|e| | |]; try contradiction; cbn [faithful].
    + destruct E as [-> E]. exists (i_data (r_inner r1)).
      split; [symmetry; apply (rep_data _ _ _ _ _ H1)|]. auto.
    + auto.
  - destruct (fill_buf r) as [y r2] eqn:F.
    apply (fill_buf_spec _ _ _ _ _ _ _ H Hc0) in F as [H1 F].
    destruct y as [bs|e| | |]; try contradiction; injection E as <- <-; cbn [faithful].
    + destruct F as [-> F].
      destruct (take_case _ _ _ _ _ n H1) as (rest' & E1 & E2).
      exists rest'. split; [exact E1|]. split; [rewrite firstn_length; lia|].
      split; [|auto]. intros Hn Hb. apply F. apply firstn_nil_inv in Hb; auto.
    + auto.
Qed.

(** ** Filling the preview *)

Lemma with_capacity_rep c i :
  rep c (with_capacity c i) (i_data i) (i_tail i) (i_plan i).
Proof.
  constructor; cbn; auto; try lia.
  - apply repeat_length.
  - intros e H; exact H.
Qed.

Lemma one_shot_spec c r d tl plan o r' :
  rep c r d tl plan -> r_pos r = 0 -> r_cap r < c -> fill_buffer_one_shot r = (o, r') ->
  rep c r' d tl plan /\ r_pos r' = 0 /\ r_cap r <= r_cap r' /\
  match o with
  | Ok n => r_cap r' = r_cap r + n /\ (n = 0 -> d = visible r' /\ tl = None)
  | Err e => r_cap r' = r_cap r /\ exists k, e = EIo k /\
      (In (Fail k) plan \/ (d = visible r /\ tl = Some k))
  | _ => False
  end.
Proof.
  intros [Hl Hp Hc Hd Ht Hpl] H0 Hlt. unfold fill_buffer_one_shot.
  destruct (Nat.eqb_spec (r_cap r) (length (r_buf r))); [lia|].
  destruct (inner_read (length (r_buf r) - r_cap r) (r_inner r)) as [x i] eqn:E.
  apply inner_read_spec in E as (Et & Ep & E).
  assert (Hs : sub_plan (i_plan i) plan) by (intros e' H'; auto).
  destruct x as [bs|e| | |]; try contradiction; intros [= <- <-].
  - destruct E as (E1 & E2 & E3).
    assert (Hv : visible {| r_inner := i; r_buf := overwrite (r_buf r) (r_cap r) bs;
                   r_pos := r_pos r; r_cap := r_cap r + length bs |} = visible r ++ bs).
    { unfold visible; cbn [r_buf r_pos r_cap]. rewrite H0, !Nat.sub_0_r. cbn [skipn].
      apply overwrite_firstn. lia. }
    split; [constructor; cbn [r_buf r_pos r_cap r_inner]|].
    + rewrite overwrite_length; lia.
    + lia.
    + lia.
    + rewrite Hv, <- app_assoc, <- E1. exact Hd.
    + congruence.
    + exact Hs.
    + cbn [r_buf r_pos r_cap]. split; [exact H0|]. split; [lia|]. split; [reflexivity|].
      intro Hn. apply length_zero_iff_nil in Hn. subst bs.
      destruct (E3 ltac:(lia) eq_refl) as [E4 E5]. split; [|congruence].
      rewrite Hv, app_nil_r, <- Hd, E4, app_nil_r. reflexivity.
  - destruct E as (E1 & k & -> & E3).
    split; [constructor; cbn [r_buf r_pos r_cap r_inner]; auto; try congruence|].
    { rewrite <- Hd, E1. reflexivity. }
    cbn [r_buf r_pos r_cap]. split; [exact H0|]. split; [lia|]. split; [reflexivity|].
    exists k. split; [reflexivity|]. destruct E3 as [E3|[E3 E4]]; [left; auto|].
    right. split; [|congruence]. rewrite <- Hd, E3, app_nil_r. reflexivity.
Qed.

Lemma fill_loop_spec c fuel : forall r d tl plan o r',
  rep c r d tl plan -> r_pos r = 0 -> r_cap r < c -> c - r_cap r < fuel ->
  fill_buffer_loop fuel r = (o, r') ->
  rep c r' d tl plan /\ r_pos r' = 0 /\
  match o with
  | Ok _ => r_cap r' = c \/ (d = visible r' /\ tl = None)
  | Err e => exists k, e = EIo k /\
      (In (Fail k) plan \/ (d = visible r' /\ r_cap r' < c /\ tl = Some k))
  | _ => False
  end.
Proof.
  induction fuel as [|f IH]; intros r d tl plan o r' H H0 Hlt Hf; [lia|].
  cbn [fill_buffer_loop].
  destruct (fill_buffer_one_shot r) as [x r1] eqn:E.
  pose proof (one_shot_spec _ _ _ _ _ _ _ H H0 Hlt E) as (H1 & H1p & H1c & E1).
  destruct x as [n|e| | |]; try contradiction.
  - destruct E1 as [E1 E2].
    destruct (Nat.eqb_spec n 0) as [Hn|Hn]; cbn [orb].
    + intros [= <- <-]. auto.
    + rewrite (rep_len _ _ _ _ _ H1). destruct (Nat.eqb_spec (r_cap r1) c) as [Hcc|Hcc].
      * intros [= <- <-]. auto.
      * apply IH; auto; pose proof (rep_cap _ _ _ _ _ H1); lia.
  - intros [= <- <-]. split; [exact H1|]. split; [exact H1p|].
    destruct E1 as (E1 & k & -> & E3). exists k. split; [reflexivity|].
    destruct E3 as [E3|[E3 E4]]; [left; exact E3|right].
    split; [|split; [lia|exact E4]].
    rewrite E3. unfold visible. rewrite H0, H1p, E1.
    (* the buffer is untouched on failure *)
    unfold fill_buffer_one_shot in E.
    destruct (r_cap r =? length (r_buf r)); [injection E as _ <-; reflexivity|].
    destruct (inner_read _ _) as [y i]. destruct y; injection E as; subst; try discriminate.
    reflexivity.
Qed.

Lemma fill_buffer_spec c i o r :
  c <> 0 -> fill_buffer (with_capacity c i) = (o, r) ->
  rep c r (i_data i) (i_tail i) (i_plan i) /\ r_pos r = 0 /\
  match o with
  | Ok _ => r_cap r = c \/ (i_data i = visible r /\ i_tail i = None)
  | Err e => exists k, e = EIo k /\
      (In (Fail k) (i_plan i) \/ (i_data i = visible r /\ r_cap r < c /\ i_tail i = Some k))
  | _ => False
  end.
Proof.
  intros Hc. unfold fill_buffer. cbn [with_capacity r_buf]. rewrite repeat_length.
  apply fill_loop_spec; auto using with_capacity_rep; cbn; lia.
Qed.

Lemma visible_firstn c r d tl plan :
  rep c r d tl plan -> r_pos r = 0 ->
  visible r = firstn (r_cap r) (r_buf r) /\ visible r = firstn (r_cap r) d.
Proof.
  intros [Hl Hp Hc Hd Ht Hpl] H0.
  assert (visible r = firstn (r_cap r) (r_buf r)) as E.
  { unfold visible. rewrite H0, Nat.sub_0_r. reflexivity. }
  split; [exact E|]. rewrite <- Hd.
  rewrite firstn_app, visible_length by lia. rewrite H0, Nat.sub_0_r, Nat.sub_diag. cbn [firstn].
  rewrite app_nil_r. symmetry. apply firstn_all2. rewrite visible_length; lia.
Qed.

(** ** Lines *)

Lemma get_line_bounds buf start cap l next :
  start < cap -> cap <= length buf -> get_line buf start cap = Some (Some (l, next)) ->
  start < next.
Proof.
  intros H1 H2. unfold get_line.
  destruct (position _ _) as [p|] eqn:E.
  - destruct (make_string_no_cr _); intros [= <- <-]. lia.
  - destruct (_ <=? _); [discriminate|]. destruct (make_string_no_cr _); intros [= <- <-]. lia.
Qed.

Lemma get_lines_total fuel : forall buf start cap acc,
  cap <= length buf -> cap - start <= fuel -> exists o, get_lines_loop fuel buf start cap acc = Some o.
Proof.
  induction fuel as [|f IH]; intros buf start cap acc Hc Hf; cbn [get_lines_loop].
  - destruct (Nat.leb_spec cap start); [eauto|lia].
  - destruct (Nat.leb_spec cap start); [eauto|].
    destruct (get_line buf start cap) as [[[l next]|]|] eqn:E; eauto.
    apply IH; [exact Hc|]. apply get_line_bounds in E; lia.
Qed.

Lemma previewer_spec c i :
  c <> 0 ->
  match previewer_with c i with
  | Ok p => rep c (get_reader p) (i_data i) (i_tail i) (i_plan i) /\
            get_buf p = firstn c (i_data i) /\
            (length (i_data i) < c -> i_tail i = None) /\
            r_pos (get_reader p) = 0 /\
            r_cap (get_reader p) = length (get_buf p) /\
            get_buf p = firstn (r_cap (get_reader p)) (r_buf (get_reader p)) /\
            get_lines_from_reader (get_reader p) = Some (get_lines p)
  | Err e => exists k, e = EIo k /\
      (In (Fail k) (i_plan i) \/ (length (i_data i) < c /\ i_tail i = Some k))
  | _ => False
  end.
Proof.
  intro Hc. unfold previewer_with.
  destruct (fill_buffer (with_capacity c i)) as [o r] eqn:E.
  apply (fill_buffer_spec _ _ _ _ Hc) in E as (H & H0 & E).
  destruct (visible_firstn _ _ _ _ _ H H0) as [V1 V2].
  pose proof (rep_cap _ _ _ _ _ H). pose proof (rep_len _ _ _ _ _ H).
  destruct o as [u|e| | |]; try contradiction; cbn [bind].
  - unfold get_lines_from_reader at 1.
    destruct (get_lines_total (r_cap r) (r_buf r) 0 (r_cap r) []) as [ls L]; [lia|lia|].
    rewrite L. cbn [get_reader get_buf get_lines p_reader p_trimmed p_lines].
    split; [exact H|].
    assert (Hlen : length (firstn (r_cap r) (r_buf r)) = r_cap r) by (rewrite firstn_length; lia).
    assert (Hfull : firstn (r_cap r) (r_buf r) = firstn c (i_data i)).
    { rewrite <- V1. destruct E as [E|[E E']].
      - rewrite V2, E. reflexivity.
      - rewrite E. symmetry. apply firstn_all2. rewrite V1, Hlen. exact H1. }
    split; [exact Hfull|].
    split.
    { intro Hs. destruct E as [E|[E E']]; [|exact E'].
      rewrite E in *. rewrite Hfull, firstn_length in Hlen. lia. }
    split; [exact H0|]. split; [auto|]. split; [reflexivity|]. exact L.
  - destruct E as (k & -> & E). exists k. split; [reflexivity|].
    destruct E as [E|(E1 & E2 & E3)]; [left; exact E|right]. split; [|exact E3].
    rewrite E1, V1, firstn_length. lia.
Qed.
