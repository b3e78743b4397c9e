From Verif Require Export WriterSpec DriveClean CliProofs.

(** All that a buffered writer has, arrived or not. *)
Definition all_of (w : bwriter) : bytes := o_got (bw_out w) ++ bw_buf w.

Lemma outer_write_spec bs o r o' : outer_write bs o = (r, o') ->
  match r with
  | Ok n => n <= length bs /\ o_got o' = o_got o ++ firstn n bs
  | Err _ => o_got o' = o_got o
  | _ => False
  end /\ (willing o -> willing o' /\ exists n, r = Ok n /\ (bs <> [] -> n <> 0)).
Proof.
  unfold outer_write. destruct o as [got plan en]. cbn [o_got o_plan o_end].
  destruct plan as [|[k|e] p].
  - destruct en as [e|]; intros [= <- <-].
    + split; [reflexivity|]. intros [X _]. discriminate.
    + cbn [o_got]. split; [split; [lia|now rewrite firstn_all]|]. intros _. split; [split; [reflexivity|constructor]|].
      exists (length bs). split; [reflexivity|]. destruct bs; [congruence|discriminate].
  - intros [= <- <-]. cbn [o_got]. split.
    + split; [lia|]. f_equal. destruct (Nat.le_ge_cases k (length bs)).
      * now rewrite Nat.min_l by lia.
      * rewrite Nat.min_r by lia. rewrite !firstn_all2 by lia. reflexivity.
    + intros [X Y]. cbn [o_plan o_end] in *. inversion Y as [|? ? (j & Ej) Y']; subst. injection Ej as ->.
      split; [split; first [assumption|reflexivity]|]. exists (Nat.min (S j) (length bs)). split; [reflexivity|].
      destruct bs; [congruence|]. cbn. discriminate.
  - intros [= <- <-]. split; [reflexivity|]. intros [_ Y]. cbn in Y. inversion Y as [|? ? (j & Ej) _]. discriminate.
Qed.

Lemma pour_spec fuel bs : forall o r w, length bs <= fuel -> pour fuel bs o = (r, w) ->
  all_of w = o_got o ++ bs /\
  match r with Ok _ => bw_buf w = [] | Err _ => True | _ => False end /\
  (willing o -> willing (bw_out w) /\ r = Ok tt).
Proof.
  revert bs. induction fuel as [|f IH]; intros bs o r w L E.
  - destruct bs; [|cbn in L; lia]. cbn in E. injection E as <- <-. unfold all_of. cbn. auto.
  - destruct bs as [|c t]; [cbn in E; injection E as <- <-; unfold all_of; cbn; auto|].
    cbn [pour] in E. destruct (outer_write (c :: t) o) as [x o'] eqn:Eo.
    destruct (outer_write_spec _ _ _ _ Eo) as [S W]. destruct x as [n|e| | |]; try contradiction.
    + destruct S as [Sn Sg]. destruct (Nat.eqb_spec n 0) as [->|Hn].
      * injection E as <- <-. unfold all_of. cbn [bw_out bw_buf]. rewrite Sg. cbn [firstn]. rewrite app_nil_r.
        split; [reflexivity|]. split; [exact I|]. intro Hw. destruct (W Hw) as (_ & m & [= <-] & X). destruct X; [discriminate|reflexivity].
      * assert (L' : length (skipn n (c :: t)) <= f) by (rewrite skipn_length; lia).
        destruct (IH _ o' r w L' E) as (T & R & Wl).
        split; [rewrite T, Sg, <- app_assoc, firstn_skipn; reflexivity|]. split; [exact R|].
        intro Hw. apply Wl. apply W, Hw.
    + injection E as <- <-. unfold all_of. cbn [bw_out bw_buf]. rewrite S. split; [reflexivity|]. split; [exact I|].
      intro Hw. destruct (W Hw) as (_ & m & X & _). discriminate.
Qed.
Lemma flush_buf_spec w r w' : flush_buf w = (r, w') ->
  all_of w' = all_of w /\
  match r with Ok _ => bw_buf w' = [] | Err _ => True | _ => False end /\
  (willing (bw_out w) -> willing (bw_out w') /\ r = Ok tt).
Proof. intro E. destruct (pour_spec _ _ _ _ _ (le_n _) E) as (A & B). split; [exact A|exact B]. Qed.

Lemma drop_prefix w : prefix (bw_drop w) (all_of w).
Proof.
  unfold bw_drop. destruct (flush_buf w) as [r w'] eqn:E. destruct (flush_buf_spec _ _ _ E) as (T & _).
  cbn [snd]. rewrite <- T. unfold all_of. apply prefix_app.
Qed.
Lemma drop_flushed w : bw_buf w = [] -> bw_drop w = all_of w.
Proof. intro H. unfold bw_drop, flush_buf, all_of. rewrite H. cbn. now rewrite app_nil_r. Qed.
Lemma drop_willing w : willing (bw_out w) -> bw_drop w = all_of w.
Proof.
  intro H. unfold bw_drop. destruct (flush_buf w) as [r w'] eqn:E. destruct (flush_buf_spec _ _ _ E) as (T & B & W).
  destruct (W H) as (_ & ->). rewrite <- T. unfold all_of. rewrite B, app_nil_r. reflexivity.
Qed.

Section Cap.
Variable cap : nat.
Lemma bw_write_spec bs w r w' : bw_write cap bs w = (r, w') ->
  match r with
  | Ok n => n <= length bs /\ all_of w' = all_of w ++ firstn n bs
  | Err _ => all_of w' = all_of w
  | _ => False
  end /\ (willing (bw_out w) -> willing (bw_out w') /\ exists n, r = Ok n /\ (bs <> [] -> n <> 0)).
Proof.
  unfold bw_write. intro E.
  destruct (if cap <? length (bw_buf w) + length bs then flush_buf w else (Ok tt, w)) as [r1 w1] eqn:E1.
  assert (S : all_of w1 = all_of w /\
    match r1 with Ok _ => (cap <= length bs -> bw_buf w1 = []) | Err _ => True | _ => False end /\
    (willing (bw_out w) -> willing (bw_out w1) /\ r1 = Ok tt)).
  { destruct (Nat.ltb_spec cap (length (bw_buf w) + length bs)).
    - destruct (flush_buf_spec _ _ _ E1) as (A & B & C). split; [exact A|]. split; [destruct r1; auto|exact C].
    - injection E1 as <- <-. split; [reflexivity|]. split; [|auto]. intro L.
      destruct (bw_buf w); [reflexivity|cbn in *; lia]. }
  destruct S as (T & R & W). destruct r1 as [u|e| | |]; try contradiction.
  - destruct (Nat.leb_spec cap (length bs)) as [L|L].
    + destruct (outer_write bs (bw_out w1)) as [n o'] eqn:Eo. injection E as <- <-.
      destruct (outer_write_spec _ _ _ _ Eo) as [So Wo]. rewrite <- T. unfold all_of. cbn [bw_out bw_buf].
      rewrite (R L), !app_nil_r. split.
      * destruct n; try contradiction; [|exact So]. exact So.
      * intro Hw. apply Wo, W, Hw.
    + injection E as <- <-. unfold all_of in *. cbn [bw_out bw_buf]. rewrite firstn_all, <- T, app_assoc. split; [auto|].
      intro Hw. destruct (W Hw) as [W1 _]. split; [exact W1|]. exists (length bs). split; [reflexivity|].
      destruct bs; [congruence|discriminate].
  - injection E as <- <-. split; [exact T|]. intro Hw. destruct (W Hw) as [_ X]. discriminate.
Qed.
Lemma write_loop_spec fuel bs : forall w r w', length bs <= fuel -> write_loop cap fuel bs w = (r, w') ->
  (exists p, prefix p bs /\ all_of w' = all_of w ++ p /\ (r = Ok tt -> p = bs)) /\
  match r with Ok _ | Err _ => True | _ => False end /\
  (willing (bw_out w) -> willing (bw_out w') /\ r = Ok tt).
Proof.
  revert bs. induction fuel as [|f IH]; intros bs w r w' L E.
  - destruct bs; [|cbn in L; lia]. cbn in E. injection E as <- <-. split; [|auto].
    exists []. split; [exists []; reflexivity|]. rewrite app_nil_r. auto.
  - destruct bs as [|c t].
    { cbn in E. injection E as <- <-. split; [|auto]. exists []. split; [exists []; reflexivity|]. rewrite app_nil_r. auto. }
    cbn [write_loop] in E. destruct (bw_write cap (c :: t) w) as [x w1] eqn:Eo.
    destruct (bw_write_spec _ _ _ _ Eo) as [S W]. destruct x as [n|e| | |]; try contradiction.
    + destruct S as [Sn Sg]. destruct (Nat.eqb_spec n 0) as [->|Hn].
      * injection E as <- <-. split.
        { exists []. split; [exists (c :: t); reflexivity|]. split; [exact Sg|discriminate]. }
        split; [exact I|]. intro Hw. destruct (W Hw) as (_ & m & [= <-] & X). destruct X; [discriminate|reflexivity].
      * assert (L' : length (skipn n (c :: t)) <= f) by (rewrite skipn_length; lia).
        destruct (IH _ w1 r w' L' E) as ((p & Pp & T & Hp) & R & Wl).
        split.
        { exists (firstn n (c :: t) ++ p). split; [|split].
          - destruct Pp as [z Pz]. exists z. rewrite <- app_assoc, <- Pz, firstn_skipn. reflexivity.
          - rewrite T, Sg, <- app_assoc. reflexivity.
          - intro Hr. rewrite (Hp Hr), firstn_skipn. reflexivity. }
        split; [exact R|]. intro Hw. apply Wl, W, Hw.
    + injection E as <- <-. split.
      { exists []. split; [exists (c :: t); reflexivity|]. rewrite app_nil_r. split; [exact S|discriminate]. }
      split; [exact I|]. intro Hw. destruct (W Hw) as (_ & m & X & _). discriminate.
Qed.
(** What one piece of output does: it appends a part of its bytes, all of them if it succeeds. *)
Definition appends (bs : bytes) (w : bwriter) (x : res unit * bwriter) : Prop :=
  (exists p, prefix p bs /\ all_of (snd x) = all_of w ++ p /\ (fst x = Ok tt -> p = bs)) /\
  match fst x with Ok _ | Err _ => True | _ => False end /\
  (willing (bw_out w) -> willing (bw_out (snd x)) /\ fst x = Ok tt).
Lemma write_all_spec bs w : appends bs w (bw_write_all cap bs w).
Proof. unfold appends, bw_write_all. destruct (write_loop _ _ _ _) as [r w'] eqn:E. exact (write_loop_spec _ _ _ _ _ (le_n _) E). Qed.
Lemma pieces_spec ps : forall w, appends (concat ps) w (write_pieces cap ps w).
Proof.
  induction ps as [|p ps IH]; intro w; cbn [write_pieces concat].
  - split; [|cbn; auto]. exists []. split; [exists []; reflexivity|]. cbn. rewrite app_nil_r. auto.
  - pose proof (write_all_spec p w) as ((q & Pq & T & Hq) & R & W). destruct (bw_write_all cap p w) as [r w1]. cbn [fst snd] in *.
    destruct r as [[]|e| | |]; try contradiction.
    + destruct (IH w1) as ((q2 & Pq2 & T2 & Hq2) & R2 & W2). specialize (Hq eq_refl). subst q. split; [|split; [exact R2|]].
      * exists (p ++ q2). split; [destruct Pq2 as [z ->]; exists z; now rewrite app_assoc|].
        split; [rewrite T2, T, app_assoc; reflexivity|]. intro X. now rewrite (Hq2 X).
      * intro Hw. apply W2, W, Hw.
    + split; [|split; [exact I|]].
      * exists q. split; [destruct Pq as [z ->]; exists (z ++ concat ps); now rewrite app_assoc|]. split; [exact T|discriminate].
      * intro Hw. destruct (W Hw). discriminate.
Qed.
Lemma bw_flush_spec w : appends [] w (bw_flush w) /\ (fst (bw_flush w) = Ok tt -> bw_buf (snd (bw_flush w)) = []).
Proof.
  unfold bw_flush. destruct (flush_buf w) as [r w1] eqn:E. destruct (flush_buf_spec _ _ _ E) as (T & R & W).
  destruct r as [u|e| | |]; try contradiction.
  - assert (G : o_got (snd (outer_flush (bw_out w1))) = o_got (bw_out w1) /\
                match fst (outer_flush (bw_out w1)) with Ok _ | Err _ => True | _ => False end /\
                (willing (bw_out w1) -> willing (snd (outer_flush (bw_out w1))) /\ fst (outer_flush (bw_out w1)) = Ok tt)).
    { unfold outer_flush. destruct (bw_out w1) as [got plan en]. cbn [o_plan o_end o_got].
      destruct plan as [|[k|e] p]; cbn [fst snd o_got].
      - split; [reflexivity|]. split; [destruct en; exact I|]. intros [X ?]. cbn in X. subst en. split; [split; auto|reflexivity].
      - split; [reflexivity|]. split; [exact I|]. intros [X Y]. cbn in *. inversion Y; subst. split; [split; auto|reflexivity].
      - split; [reflexivity|]. split; [exact I|]. intros [X Y]. cbn in *. inversion Y as [|? ? (j & Ej) _]. discriminate. }
    destruct (outer_flush (bw_out w1)) as [r2 o2]. cbn [fst snd] in *. destruct G as (G1 & G2 & G3).
    split; [|intros _; cbn [bw_buf]; exact R]. split; [|split].
    + exists []. split; [exists []; reflexivity|]. split; [|auto]. cbn [snd]. unfold all_of in *. cbn [bw_out bw_buf].
      rewrite G1, T, app_nil_r. reflexivity.
    + exact G2.
    + intro Hw. cbn [fst snd bw_out]. apply G3, W, Hw.
  - split; [|discriminate]. split; [|split; [exact I|]].
    + exists []. split; [exists []; reflexivity|]. cbn [fst snd]. rewrite app_nil_r. split; [exact T|discriminate].
    + intro Hw. destruct (W Hw). discriminate.
Qed.

(** ** The sinks *)
Variables (o : outer) (cut : option row -> bytes -> list bytes) (p : printer).
Hypothesis Hcut : cuts cut.
Definition ev_bytes (ev : event) : bytes := match ev with EvRow r => fst (p_row p r) | EvFlush => [] end.
Definition ev_res (ev : event) : res unit := match ev with EvRow r => snd (p_row p r) | EvFlush => Ok tt end.
Definition calls_bytes (evs : list event) : bytes := concat (map ev_bytes evs).

Lemma put_spec what x w :
  exists q, prefix q (fst x) /\ all_of (snd (put cap cut what x w)) = all_of w ++ q /\
    (fst (put cap cut what x w) = Ok tt -> q = fst x /\ snd x = Ok tt) /\
    (willing (bw_out w) -> willing (bw_out (snd (put cap cut what x w))) /\ fst (put cap cut what x w) = snd x /\ q = fst x).
Proof.
  unfold put. pose proof (pieces_spec (cut what (fst x)) w) as ((q & Pq & T & Hq) & R & W). rewrite Hcut in *.
  destruct (write_pieces cap (cut what (fst x)) w) as [r w1]. cbn [fst snd] in *. exists q.
  destruct r as [[]|e| | |]; try contradiction; cbn [fst snd].
  - specialize (Hq eq_refl). subst q. split; [exact Pq|]. split; [exact T|]. split; [auto|]. intro Hw. destruct (W Hw). auto.
  - split; [exact Pq|]. split; [exact T|]. split; [discriminate|]. intro Hw. destruct (W Hw). discriminate.
Qed.
Lemma put_event_spec ev w :
  exists q, prefix q (ev_bytes ev) /\ all_of (snd (put_event cap cut p ev w)) = all_of w ++ q /\
    (fst (put_event cap cut p ev w) = Ok tt -> q = ev_bytes ev /\ ev_res ev = Ok tt) /\
    (willing (bw_out w) -> willing (bw_out (snd (put_event cap cut p ev w))) /\ fst (put_event cap cut p ev w) = ev_res ev /\ q = ev_bytes ev).
Proof.
  destruct ev as [r|]; cbn [put_event ev_bytes ev_res]; [apply put_spec|].
  destruct (bw_flush_spec w) as [((q & Pq & T & Hq) & R & W) _]. exists q. split; [exact Pq|]. split; [exact T|].
  assert (q = []) as -> by (destruct Pq as [z Ez]; destruct q; [reflexivity|discriminate]).
  split; [auto|]. intro Hw. destruct (W Hw). auto.
Qed.
Lemma after_snoc evs ev w : after_events cap cut p (evs ++ [ev]) w = snd (put_event cap cut p ev (after_events cap cut p evs w)).
Proof. revert w. induction evs as [|x evs IH]; intro w; [reflexivity|]. cbn. apply IH. Qed.

Local Notation w0 := (snd (after_header cap o cut p)).
Local Notation sink := (io_sink cap o cut p).
Lemma call_result past ev : sink_call sink past ev = Ok tt <-> fst (put_event cap cut p ev (after_events cap cut p past w0)) = Ok tt.
Proof.
  destruct ev as [r|]; cbn [sink_call io_sink sk_write sk_flush]; [|tauto].
  destruct (fst (put_event _ _ _ (EvRow r) _)) as [[]| | | |]; cbn; split; intro X; try discriminate; reflexivity.
Qed.
Lemma calls_total evs : calls_succeeded sink evs ->
  all_of (after_events cap cut p evs w0) = all_of w0 ++ calls_bytes evs.
Proof.
  induction evs as [|ev evs IH] using rev_ind; intro H; [cbn; now rewrite app_nil_r|].
  assert (H' : calls_succeeded sink evs).
  { intros a e post E. apply (H a e (post ++ [ev])). rewrite E, <- app_assoc. reflexivity. }
  rewrite after_snoc. pose proof (H evs ev [] eq_refl) as C. apply call_result in C.
  destruct (put_event_spec ev (after_events cap cut p evs w0)) as (q & _ & T & Hq & _).
  rewrite T, IH by exact H'. destruct (Hq C) as [-> _]. unfold calls_bytes. rewrite map_app, concat_app. cbn [map concat].
  rewrite app_nil_r, app_assoc. reflexivity.
Qed.
Lemma calls_total_last evs ev : calls_succeeded sink evs ->
  prefix (all_of (after_events cap cut p (evs ++ [ev]) w0)) (all_of w0 ++ calls_bytes (evs ++ [ev])).
Proof.
  intro H. rewrite after_snoc. destruct (put_event_spec ev (after_events cap cut p evs w0)) as (q & [z Pq] & T & _).
  rewrite T, (calls_total evs H). exists z. unfold calls_bytes. rewrite map_app, concat_app. cbn [map concat].
  rewrite app_nil_r, Pq, !app_assoc. reflexivity.
Qed.
Lemma header_all :
  exists q, prefix q (fst (p_header p)) /\ all_of w0 = o_got o ++ q /\
    (fst (after_header cap o cut p) = Ok tt -> q = fst (p_header p) /\ snd (p_header p) = Ok tt) /\
    (willing o -> willing (bw_out w0) /\ fst (after_header cap o cut p) = snd (p_header p) /\ q = fst (p_header p)).
Proof.
  destruct (put_spec None (p_header p) (bw_new o)) as (q & A & B & C & D). exists q.
  unfold after_header. split; [exact A|]. split; [rewrite B; unfold all_of, bw_new; cbn; now rewrite app_nil_r|]. auto.
Qed.

Lemma willing_after evs : willing o -> willing (bw_out (after_events cap cut p evs w0)).
Proof.
  intro H. induction evs as [|ev evs IH] using rev_ind.
  - destruct header_all as (q & _ & _ & _ & D). apply D, H.
  - rewrite after_snoc. destruct (put_event_spec ev (after_events cap cut p evs w0)) as (q & _ & _ & _ & D). apply D, IH.
Qed.
(** Over a willing writer the sink is the one without writer. *)
Definition plain_sink : TypesModel.sink := {| sk_write := fun _ r => let* _ := snd (p_row p r) in Ok [r]; sk_flush := fun _ => Ok tt |}.
Lemma willing_sink : willing o ->
  (forall past r, sk_write sink past r = sk_write plain_sink past r) /\ (forall past, sk_flush sink past = Ok tt).
Proof.
  intro H. split; intros past; cbn [io_sink sk_write sk_flush plain_sink].
  - intro r. destruct (put_event_spec (EvRow r) (after_events cap cut p past w0)) as (q & _ & _ & _ & D).
    destruct (D (willing_after past H)) as (_ & -> & _). reflexivity.
  - destruct (put_event_spec EvFlush (after_events cap cut p past w0)) as (q & _ & _ & _ & D).
    destruct (D (willing_after past H)) as (_ & -> & _). reflexivity.
Qed.
Lemma io_repair : sink_repair sink plain_sink.
Proof.
  split.
  - intros past r x. cbn [io_sink sk_write plain_sink]. pose proof (call_result past (EvRow r)) as C.
    destruct (put_event_spec (EvRow r) (after_events cap cut p past w0)) as (q & _ & _ & D & _). cbn [ev_res] in D.
    destruct (fst (put_event _ _ _ (EvRow r) _)) as [[]| | | |]; cbn [bind]; try discriminate. intros [= <-].
    destruct (D eq_refl) as [_ ->]. reflexivity.
  - intros past _. reflexivity.
Qed.
End Cap.
