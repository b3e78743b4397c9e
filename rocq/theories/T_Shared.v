(** Property theorems: several outputs on standard output (C111). *)
From Verif Require Import SharedModel SharedSpec RouteSpec T_Route WriterProofs.

(** ** One call *)
Lemma pour_reliable bs : forall f got, length bs <= f ->
  pour f bs (reliable got) = (Ok tt, {| bw_buf := []; bw_out := reliable (got ++ bs) |}).
Proof.
  intros [|f] got L; (destruct bs as [|c bs]; [cbn; now rewrite app_nil_r|]); [cbn in L; lia|].
  cbn [pour outer_write reliable o_plan o_end]. cbn [length Nat.eqb o_got]. change (S (length bs)) with (length (c :: bs)).
  rewrite skipn_all. destruct f; reflexivity.
Qed.
Lemma write_reliable cap bs buf got : exists x buf',
  snd (bw_write_all cap bs {| bw_buf := buf; bw_out := reliable got |}) = {| bw_buf := buf'; bw_out := reliable (got ++ x) |} /\
  x ++ buf' = buf ++ bs.
Proof.
  unfold bw_write_all. destruct bs as [|c bs]; [exists [], buf; cbn; now rewrite !app_nil_r|].
  cbn [write_loop length]. unfold bw_write. cbn [bw_buf].
  assert (F : forall buf' got', 
    (match (if cap <=? length (c :: bs)
            then let (n, o') := outer_write (c :: bs) (reliable got') in (n, {| bw_buf := buf'; bw_out := o' |})
            else (Ok (length (c :: bs)), {| bw_buf := buf' ++ c :: bs; bw_out := reliable got' |})) with
     | (Ok n, w') => if n =? 0 then (Err WriteZero, w') else write_loop cap (length bs) (skipn n (c :: bs)) w'
     | (e, w') => (fail_as e, w')
     end) = (Ok tt, if cap <=? length (c :: bs) then {| bw_buf := buf'; bw_out := reliable (got' ++ c :: bs) |}
                    else {| bw_buf := buf' ++ c :: bs; bw_out := reliable got' |})).
  { intros buf' got'. destruct (cap <=? length (c :: bs)).
    - unfold outer_write. cbn [reliable o_plan o_end o_got length Nat.eqb]. change (S (length bs)) with (length (c :: bs)).
      rewrite skipn_all. destruct (length bs); reflexivity.
    - cbn [length Nat.eqb]. change (S (length bs)) with (length (c :: bs)). rewrite skipn_all. destruct (length bs); reflexivity. }
  destruct (Nat.ltb_spec cap (length buf + length (c :: bs))) as [E|E].
  - unfold flush_buf. cbn [bw_buf bw_out]. rewrite pour_reliable by lia. cbn [bw_buf bw_out]. rewrite F. cbn [snd].
    destruct (cap <=? length (c :: bs)).
    + exists (buf ++ c :: bs), []. rewrite app_nil_r, app_assoc. auto.
    + exists buf, (c :: bs). auto.
  - cbn [bw_buf bw_out]. rewrite F. cbn [snd].
    destruct (Nat.leb_spec cap (length (c :: bs))) as [E'|E'].
    + destruct buf; [|cbn [length] in *; lia]. exists (c :: bs), []. rewrite app_nil_r. auto.
    + exists [], (buf ++ c :: bs). rewrite app_nil_r. auto.
Qed.
Lemma flush_reliable buf got :
  snd (bw_flush {| bw_buf := buf; bw_out := reliable got |}) = {| bw_buf := []; bw_out := reliable (got ++ buf) |}.
Proof. unfold bw_flush, flush_buf. cbn [bw_buf bw_out]. rewrite pour_reliable by lia. reflexivity. Qed.

(** ** Any sequence of calls *)
(** what output [i] was given to write *)
Definition given_to (i : nat) (ops : list (nat * wop)) : bytes :=
  concat (map (fun x => match snd x with Piece bs => if fst x =? i then bs else [] | Flushed => [] end) ops).
Lemma given_app i x y : given_to i (x ++ y) = given_to i x ++ given_to i y.
Proof. unfold given_to. now rewrite map_app, concat_app. Qed.

Lemma mixed_at f n i out piece : i < n -> mixed (map f (seq 0 n)) out ->
  mixed (map (fun j => if j =? i then f j ++ piece else f j) (seq 0 n)) (out ++ piece).
Proof.
  intros L M. assert (E : seq 0 n = seq 0 i ++ i :: seq (S i) (n - S i)).
  { replace n with (i + S (n - S i)) at 1 by lia. rewrite seq_app. reflexivity. }
  rewrite E, map_app in M |- *. cbn [map] in *. rewrite Nat.eqb_refl.
  replace (map (fun j => if j =? i then f j ++ piece else f j) (seq 0 i)) with (map f (seq 0 i)).
  2:{ apply map_ext_in. intros j I. apply in_seq in I. destruct (Nat.eqb_spec j i); [lia|reflexivity]. }
  replace (map (fun j => if j =? i then f j ++ piece else f j) (seq (S i) (n - S i))) with (map f (seq (S i) (n - S i))).
  2:{ apply map_ext_in. intros j I. apply in_seq in I. destruct (Nat.eqb_spec j i); [lia|reflexivity]. }
  now constructor.
Qed.

Section Run.
Variables (cap n : nat).
Definition sound (s : shared) (text : nat -> bytes) : Prop :=
  exists p, mixed (map p (seq 0 n)) (sh_out s) /\ forall i, p i ++ sh_bufs s i = text i.
Lemma op_sound s text i op : i < n -> sound s text ->
  sound (shared_op cap s (i, op)) (fun j => if j =? i then text j ++ match op with Piece bs => bs | Flushed => [] end else text j).
Proof.
  intros L (p & M & E).
  assert (W : exists x buf', snd (match op with Piece bs => bw_write_all cap bs {| bw_buf := sh_bufs s i; bw_out := reliable (sh_out s) |}
                                 | Flushed => bw_flush {| bw_buf := sh_bufs s i; bw_out := reliable (sh_out s) |} end) =
      {| bw_buf := buf'; bw_out := reliable (sh_out s ++ x) |} /\ x ++ buf' = sh_bufs s i ++ match op with Piece bs => bs | Flushed => [] end).
  { destruct op as [bs|]; [apply write_reliable|]. rewrite flush_reliable. exists (sh_bufs s i), []. auto. }
  destruct W as (x & buf' & W & X). unfold shared_op, sound. rewrite W. cbn [bw_buf bw_out reliable o_got sh_bufs sh_out].
  exists (fun j => if j =? i then p j ++ x else p j). split; [now apply mixed_at|].
  intro j. destruct (Nat.eqb_spec j i) as [->|]; [|apply E]. rewrite <- app_assoc, X, app_assoc, E. reflexivity.
Qed.
Lemma ops_sound ops : forall s text, (forall x, In x ops -> fst x < n) -> sound s text ->
  sound (fold_left (shared_op cap) ops s) (fun i => text i ++ given_to i ops).
Proof.
  induction ops as [|[i op] ops IH]; intros s text Hn S.
  - destruct S as (p & M & E). exists p. split; [exact M|]. intro i. rewrite E. cbn. now rewrite app_nil_r.
  - cbn [fold_left]. destruct (IH _ _ (fun x I => Hn x (or_intror I)) (op_sound s text i op (Hn (i, op) (or_introl eq_refl)) S)) as (p & M & E).
    exists p. split; [exact M|]. intro j. rewrite E. cbn [given_to map concat fst snd].
    fold (given_to j ops). rewrite (Nat.eqb_sym i j). destruct (j =? i), op; rewrite <- ?app_assoc; reflexivity.
Qed.
Lemma flush_all l : forall s, (forall i, ~ In i l -> sh_bufs s i = []) ->
  forall i, sh_bufs (fold_left (shared_op cap) (map (fun i => (i, Flushed)) l) s) i = [].
Proof.
  induction l as [|k l IH]; intros s H i; cbn [map fold_left]; [apply H; auto|].
  apply IH. intros j N. unfold shared_op. rewrite flush_reliable. cbn [sh_bufs bw_buf]. destruct (Nat.eqb_spec j k) as [->|D]; [reflexivity|].
  apply H. intros [->|I]; [now apply D|now apply N].
Qed.
Lemma bufs_outside l : forall s i, (forall x, In x l -> fst x < n) -> n <= i -> sh_bufs s i = [] -> sh_bufs (fold_left (shared_op cap) l s) i = [].
Proof.
  induction l as [|[k op] l IH]; intros s i H L E; [exact E|]. cbn [fold_left]. apply IH; [auto using in_cons|exact L|].
  unfold shared_op. cbn [sh_bufs]. pose proof (H (k, op) (or_introl eq_refl)) as K. cbn [fst] in K. destruct (Nat.eqb_spec i k); [lia|exact E].
Qed.
Lemma stdout_mixed ops : (forall x, In x ops -> fst x < n) ->
  mixed (map (fun i => given_to i ops) (seq 0 n)) (shared_stdout cap n ops).
Proof.
  intro H. unfold shared_stdout.
  set (s0 := {| sh_bufs := fun _ => []; sh_out := [] |}).
  set (all := ops ++ map (fun i => (i, Flushed)) (seq 0 n)).
  assert (A : forall x, In x all -> fst x < n).
  { intros x I. apply in_app_or in I. destruct I as [I|I]; [now apply H|]. apply in_map_iff in I. destruct I as (i & <- & I).
    apply in_seq in I. cbn. lia. }
  assert (S0 : sound s0 (fun _ => [])).
  { exists (fun _ => []). split; [|reflexivity]. replace (map (fun _ => []) (seq 0 n)) with (repeat (@nil byte) n); [constructor|].
    clear. generalize 0. induction n as [|k IH]; intro a; cbn; [reflexivity|]. f_equal. apply IH. }
  destruct (ops_sound all s0 _ A S0) as (p & M & E).
  assert (B : forall i, sh_bufs (fold_left (shared_op cap) all s0) i = []).
  { intro i. unfold all. rewrite fold_left_app. apply flush_all. intros j N. apply bufs_outside; [exact H| |reflexivity].
    destruct (Nat.le_gt_cases n j); [assumption|]. exfalso. apply N, in_seq. lia. }
  replace (map (fun i => given_to i ops) (seq 0 n)) with (map p (seq 0 n)); [exact M|].
  apply map_ext_in. intros i _. specialize (E i). rewrite B, app_nil_r in E. rewrite E. unfold all. rewrite given_app.
  cbn [app]. rewrite <- (app_nil_r (given_to i ops)) at 2. f_equal. unfold given_to. rewrite map_map. cbn [snd].
  clear. generalize (seq 0 n). intro l. induction l; cbn; auto.
Qed.
End Run.
(** ** Outputs that fit into their buffers *)
Lemma write_small cap bs buf got : length buf + length bs < cap ->
  snd (bw_write_all cap bs {| bw_buf := buf; bw_out := reliable got |}) = {| bw_buf := buf ++ bs; bw_out := reliable got |}.
Proof.
  intro L. unfold bw_write_all. destruct bs as [|c bs]; [cbn; now rewrite app_nil_r|].
  cbn [write_loop length]. unfold bw_write. cbn [bw_buf].
  destruct (Nat.ltb_spec cap (length buf + length (c :: bs))); [lia|]. cbn [bw_buf bw_out].
  destruct (Nat.leb_spec cap (length (c :: bs))); [lia|]. cbn [length Nat.eqb]. change (S (length bs)) with (length (c :: bs)).
  rewrite skipn_all. destruct (length bs); reflexivity.
Qed.
Definition of_output (i : nat) (ops : list (nat * wop)) : list wop := map snd (filter (fun x => fst x =? i) ops).
Section Small.
Variables (cap n : nat) (text : nat -> bytes).
Hypothesis Hsmall : forall i, i < n -> length (text i) < cap.
Lemma small_run todo : forall s order,
  (forall x, In x todo -> fst x < n) -> NoDup order -> (forall i, In i order -> i < n) ->
  sh_out s = concat (map text order) ->
  (forall i, i < n -> (In i order /\ of_output i todo = [] /\ sh_bufs s i = []) \/
     (~ In i order /\ exists ps, of_output i todo = map Piece ps ++ [Flushed] /\ text i = sh_bufs s i ++ concat ps)) ->
  exists order', NoDup order' /\ (forall i, In i order' <-> i < n) /\
    sh_out (fold_left (shared_op cap) todo s) = concat (map text order') /\
    forall i, i < n -> sh_bufs (fold_left (shared_op cap) todo s) i = [].
Proof.
  induction todo as [|[i op] todo IH]; intros s order Hn Nd Hl Ho Hi.
  - exists order. cbn [fold_left]. split; [exact Nd|]. split; [|split; [exact Ho|]].
    + intro i. split; [apply Hl|]. intro L. destruct (Hi i L) as [(I & _)|(_ & ps & E & _)]; [exact I|]. destruct ps; discriminate E.
    + intros i L. destruct (Hi i L) as [(_ & _ & E)|(_ & ps & E & _)]; [exact E|]. destruct ps; discriminate E.
  - cbn [fold_left]. pose proof (Hn (i, op) (or_introl eq_refl)) as Li. cbn [fst] in Li.
    assert (Hn' : forall x, In x todo -> fst x < n) by (intros; apply Hn; now right).
    destruct (Hi i Li) as [(_ & E & _)|(NI & ps & E & T)].
    { unfold of_output in E. cbn [filter fst] in E. rewrite Nat.eqb_refl in E. discriminate E. }
    unfold of_output in E. cbn [filter fst] in E. rewrite Nat.eqb_refl in E. cbn [map snd] in E.
    assert (Oth : forall j, j <> i -> of_output j ((i, op) :: todo) = of_output j todo).
    { intros j D. unfold of_output. cbn [filter fst]. destruct (Nat.eqb_spec i j); [congruence|reflexivity]. }
    destruct op as [bs|].
    + destruct ps as [|p ps]; [discriminate E|]. cbn [map app] in E. injection E as -> E.
      assert (W : length (sh_bufs s i) + length p < cap).
      { specialize (Hsmall i Li). rewrite T in Hsmall. cbn [concat] in Hsmall. rewrite !app_length in Hsmall. lia. }
      assert (EQ : shared_op cap s (i, Piece p) = {| sh_bufs := fun j => if j =? i then sh_bufs s i ++ p else sh_bufs s j; sh_out := sh_out s |}).
      { unfold shared_op. rewrite write_small by exact W. reflexivity. }
      rewrite EQ. apply (IH _ order); auto. cbn [sh_bufs sh_out]. intros j Lj. destruct (Nat.eqb_spec j i) as [->|D].
      * right. split; [exact NI|]. exists ps. split; [exact E|]. rewrite T. cbn [concat]. now rewrite app_assoc.
      * rewrite <- (Oth j D). apply Hi. exact Lj.
    + destruct ps as [|p ps]; [|discriminate E]. cbn [map app] in E. injection E as E.
      cbn [concat] in T. rewrite app_nil_r in T.
      assert (EQ : shared_op cap s (i, Flushed) = {| sh_bufs := fun j => if j =? i then [] else sh_bufs s j; sh_out := sh_out s ++ text i |}).
      { unfold shared_op. rewrite flush_reliable, T. reflexivity. }
      rewrite EQ. apply (IH _ (order ++ [i])); auto.
      * apply NoDup_Add with (a := i) (l := order); [rewrite <- (app_nil_r order) at 1; apply Add_app|]. auto.
      * intros j I. apply in_app_or in I. destruct I as [I|[<-|[]]]; auto.
      * cbn [sh_out]. rewrite Ho, map_app, concat_app. cbn. now rewrite app_nil_r.
      * cbn [sh_bufs]. intros j Lj. destruct (Nat.eqb_spec j i) as [->|D].
        -- left. split; [apply in_or_app; right; now left|]. auto.
        -- rewrite <- (Oth j D). destruct (Hi j Lj) as [(I & R)|(NI' & R)]; [left|right].
           ++ split; [apply in_or_app; now left|exact R].
           ++ split; [|exact R]. intro I. apply in_app_or in I. destruct I as [I|[->|[]]]; auto.
Qed.
Lemma drops_empty l : forall s, (forall i, In i l -> sh_bufs s i = []) ->
  sh_out (fold_left (shared_op cap) (map (fun i => (i, Flushed)) l) s) = sh_out s.
Proof.
  induction l as [|k l IH]; intros s H; cbn [map fold_left]; [reflexivity|]. rewrite IH.
  - unfold shared_op. rewrite flush_reliable, (H k (or_introl eq_refl)). cbn. now rewrite app_nil_r.
  - intros i I. unfold shared_op. rewrite flush_reliable. cbn [sh_bufs bw_buf]. destruct (i =? k); [reflexivity|]. apply H. now right.
Qed.
Lemma stdout_small ops : (forall x, In x ops -> fst x < n) ->
  (forall i, i < n -> exists ps, of_output i ops = map Piece ps ++ [Flushed] /\ text i = concat ps) ->
  exists order, Permutation order (seq 0 n) /\ shared_stdout cap n ops = concat (map text order).
Proof.
  intros Hn Hi. unfold shared_stdout. rewrite fold_left_app.
  destruct (small_run ops {| sh_bufs := fun _ => []; sh_out := [] |} [] Hn (NoDup_nil _) (fun i I => match I with end) eq_refl) as (order & Nd & In' & O & B).
  { intros i L. right. split; [intros []|]. destruct (Hi i L) as (ps & E & T). exists ps. auto. }
  exists order. split.
  - apply NoDup_Permutation; [exact Nd|apply seq_NoDup|]. intro i. rewrite In', in_seq. lia.
  - rewrite drops_empty; [exact O|]. intros i I. apply in_seq in I. apply B. lia.
Qed.
End Small.

(** ** The calls of the CSV sinks *)
Section Csv.
Variables (f64 f32 : N -> bytes).
Lemma name_pieces_bytes names : forall first, concat (name_pieces first names) = header_names first names.
Proof.
  induction names as [|m names IH]; intro first; [reflexivity|]. cbn [name_pieces header_names]. rewrite concat_app, IH.
  destruct first; cbn [concat]; now rewrite ?app_nil_r.
Qed.
Lemma header_pieces_bytes cfg h : concat (header_pieces cfg h) = csv_header_bytes cfg h.
Proof.
  unfold header_pieces, csv_header_bytes. rewrite !concat_app, name_pieces_bytes. destruct (co_print_time cfg); cbn [concat]; now rewrite ?app_nil_r.
Qed.
Lemma value_pieces_bytes d vs : forall first,
  concat (fst (value_pieces f64 f32 d first vs)) = fst (csv_values f64 f32 d first vs) /\
  snd (value_pieces f64 f32 d first vs) = is_ok (snd (csv_values f64 f32 d first vs)).
Proof.
  induction vs as [|v vs IH]; intro first; [split; reflexivity|]. cbn [value_pieces csv_values].
  destruct (csv_value f64 f32 v) as [x| | | |]; try (split; [destruct first; cbn; now rewrite ?app_nil_r|reflexivity]).
  specialize (IH false). destruct (value_pieces f64 f32 d false vs) as [w o], (csv_values f64 f32 d false vs) as [w' o'].
  cbn [fst snd] in *. destruct IH as [<- <-]. split; [|reflexivity]. destruct first; cbn [app concat]; now rewrite ?concat_app.
Qed.
Lemma row_pieces_bytes cfg r : concat (row_pieces f64 f32 cfg r) = fst (csv_write_row f64 f32 cfg r).
Proof.
  unfold row_pieces, csv_write_row. destruct (value_pieces_bytes (co_delimiter cfg) (vals r) (negb (co_print_time cfg))) as [A C].
  destruct (value_pieces _ _ _ _ _) as [w o], (csv_values _ _ _ _ _) as [w' o']. cbn [fst snd] in *. subst w' o.
  destruct (co_print_time cfg).
  - destruct (csv_time cfg (ts r)) as [t| | | |]; try reflexivity. destruct o'; cbn [is_ok fst concat app];
      rewrite ?concat_app; cbn [concat]; now rewrite ?app_nil_r.
  - destruct o'; cbn [is_ok fst concat app]; rewrite ?concat_app; cbn [concat]; now rewrite ?app_nil_r.
Qed.
Lemma given_pieces i j ps : given_to j (map (fun p => (i, Piece p)) ps) = if i =? j then concat ps else [].
Proof.
  unfold given_to. rewrite map_map. cbn [fst snd]. destruct (i =? j); [now rewrite map_id|]. induction ps; cbn; auto.
Qed.
Lemma event_given cfg i j e : given_to j (event_ops f64 f32 cfg i e) = if i =? j then csv_rows_bytes f64 f32 cfg [e] else [].
Proof.
  destruct e as [r|]; cbn [event_ops csv_rows_bytes].
  - rewrite given_pieces, row_pieces_bytes, app_nil_r. reflexivity.
  - unfold given_to. cbn. now destruct (i =? j).
Qed.
End Csv.

Section Split.
Variables (f64 f32 : N -> bytes) (outs : list (list header_sink * csv_output)).
Lemma rows_bytes_app cfg x y : csv_rows_bytes f64 f32 cfg (x ++ y) = csv_rows_bytes f64 f32 cfg x ++ csv_rows_bytes f64 f32 cfg y.
Proof. induction x as [|[r|] x IH]; cbn; [reflexivity|now rewrite IH, app_assoc|exact IH]. Qed.
Lemma log_given lg j o : nth_error outs j = Some o ->
  given_to j (log_ops f64 f32 (split_sink_at outs) lg) = csv_rows_bytes f64 f32 (snd o) (events_at lg (S j) (length (fst o))).
Proof.
  intro Hj. unfold log_ops, events_at. induction lg as [|[c m e] lg IH]; [reflexivity|].
  cbn [flat_map filter v_chain v_node v_ev]. rewrite given_app, IH. unfold at_node at 2. cbn [v_chain v_node].
  destruct c as [|i]; [reflexivity|]. unfold split_sink_at at 1. cbn [Nat.eqb].
  destruct (nth_error outs i) as [o'|] eqn:Ei.
  - destruct (Nat.eqb_spec i j) as [->|D].
    + rewrite Hj in Ei. injection Ei as <-. destruct (Nat.eqb_spec m (length (fst o))) as [->|Dm]; cbn [andb].
      * rewrite event_given, Nat.eqb_refl. cbn [map v_ev]. now rewrite <- rows_bytes_app.
      * reflexivity.
    + cbn [andb]. destruct (m =? length (fst o')); [|reflexivity]. rewrite event_given. now destruct (Nat.eqb_spec i j).
  - cbn. destruct (Nat.eqb_spec i j) as [->|D]; [congruence|]. reflexivity.
Qed.
Lemma headers_given hs j o h : length hs = length outs -> nth_error outs j = Some o -> nth_error hs j = Some h ->
  given_to j (concat (map (fun x => header_ops (fst x) (snd (fst (snd x))) (snd (snd x)))
                        (combine (seq 0 (length outs)) (combine outs hs)))) = csv_header_bytes (snd o) h.
Proof.
  intros L Ho Hh. enough (G : forall (os : list (list header_sink * csv_output)) hs a k, length hs = length os ->
    nth_error os k = Some o -> nth_error hs k = Some h ->
    given_to (a + k) (concat (map (fun x => header_ops (fst x) (snd (fst (snd x))) (snd (snd x))) (combine (seq a (length os)) (combine os hs))))
    = csv_header_bytes (snd o) h) by exact (G outs hs 0 j L Ho Hh).
  assert (Z : forall (os : list (list header_sink * csv_output)) hs a k, k < a ->
    given_to k (concat (map (fun x => header_ops (fst x) (snd (fst (snd x))) (snd (snd x))) (combine (seq a (length os)) (combine os hs)))) = []).
  { clear. induction os as [|o os IH]; intros hs a k L; [reflexivity|]. destruct hs as [|h hs]; [reflexivity|]. cbn [length seq combine map concat fst snd].
    rewrite given_app, IH by lia. unfold header_ops. rewrite given_pieces. destruct (Nat.eqb_spec a k); [lia|reflexivity]. }
  clear L Ho Hh. induction os as [|o' os IH]; intros [|h' hs'] a [|k] L Ho Hh; try discriminate.
  - cbn [nth_error] in Ho, Hh. injection Ho as ->. injection Hh as ->. cbn [length seq combine map concat fst snd].
    rewrite given_app, Z by lia. unfold header_ops. rewrite given_pieces, Nat.add_0_r, Nat.eqb_refl, app_nil_r. apply header_pieces_bytes.
  - cbn [length seq combine map concat fst snd]. rewrite given_app. unfold header_ops at 1. rewrite given_pieces.
    destruct (Nat.eqb_spec a (a + S k)); [lia|]. replace (a + S k) with (S a + k) by lia. cbn [app].
    apply IH; auto.
Qed.
Lemma ops_in hs lg x : In x (split_ops f64 f32 outs hs lg) -> fst x < length outs.
Proof.
  unfold split_ops. intro I. apply in_app_or in I. destruct I as [I|I].
  - apply in_concat in I. destruct I as (l & I & J). apply in_map_iff in I. destruct I as ([k [o h]] & <- & I).
    apply in_combine_l, in_seq in I. unfold header_ops in J. apply in_map_iff in J. destruct J as (p & <- & _). cbn. lia.
  - unfold log_ops in I. apply in_flat_map in I. destruct I as ([c m e] & _ & I). cbn [v_chain v_node v_ev] in I.
    destruct c as [|j]; [destruct I|]. unfold split_sink_at in I. destruct (nth_error outs j) as [o|] eqn:E; [|destruct I].
    destruct (m =? length (fst o)); [|destruct I].
    assert (fst x = j) as ->; [|apply nth_error_Some; congruence].
    destruct e as [r|]; cbn [event_ops] in I; [apply in_map_iff in I; destruct I as (p & <- & _); reflexivity|].
    destruct I as [<-|[]]. reflexivity.
Qed.
End Split.

(** the calls of output [j]: all pieces, then the flush *)
Lemma of_output_app i x y : of_output i (x ++ y) = of_output i x ++ of_output i y.
Proof. unfold of_output. now rewrite filter_app, map_app. Qed.
Lemma of_output_pieces i j ps : of_output j (map (fun p => (i, Piece p)) ps) = if i =? j then map Piece ps else [].
Proof. unfold of_output. induction ps as [|p ps IH]; cbn [map filter fst]; destruct (i =? j); try reflexivity; [cbn [map snd]; now rewrite IH|exact IH]. Qed.
Definition ev_wops (f64 f32 : N -> bytes) (cfg : csv_output) (evs : list event) : list wop :=
  flat_map (fun e => match e with EvRow r => map Piece (row_pieces f64 f32 cfg r) | EvFlush => [Flushed] end) evs.
Section Split2.
Variables (f64 f32 : N -> bytes) (outs : list (list header_sink * csv_output)).
Lemma log_of_output lg j o : nth_error outs j = Some o ->
  of_output j (log_ops f64 f32 (split_sink_at outs) lg) = ev_wops f64 f32 (snd o) (events_at lg (S j) (length (fst o))).
Proof.
  intro Hj. unfold log_ops, events_at. induction lg as [|[c m e] lg IH]; [reflexivity|].
  cbn [flat_map filter v_chain v_node v_ev]. rewrite of_output_app, IH. unfold at_node at 2. cbn [v_chain v_node].
  destruct c as [|i]; [reflexivity|]. unfold split_sink_at at 1. cbn [Nat.eqb].
  assert (Ev : forall cfg, of_output j (event_ops f64 f32 cfg i e) = if i =? j then ev_wops f64 f32 cfg [e] else []).
  { intro cfg. destruct e as [r|]; cbn [event_ops]; [rewrite of_output_pieces; cbn; now rewrite app_nil_r|].
    unfold of_output. cbn. now destruct (i =? j). }
  destruct (nth_error outs i) as [o'|] eqn:Ei.
  - destruct (Nat.eqb_spec i j) as [->|D].
    + rewrite Hj in Ei. injection Ei as <-. destruct (Nat.eqb_spec m (length (fst o))) as [->|Dm]; cbn [andb].
      * rewrite Ev. cbn [map v_ev]. unfold ev_wops. cbn [flat_map]. now rewrite app_nil_r.
      * reflexivity.
    + cbn [andb]. destruct (m =? length (fst o')); [|reflexivity]. rewrite Ev. reflexivity.
  - cbn. destruct (Nat.eqb_spec i j) as [->|D]; [congruence|]. reflexivity.
Qed.
Lemma headers_of_output hs j o h : length hs = length outs -> nth_error outs j = Some o -> nth_error hs j = Some h ->
  of_output j (concat (map (fun x => header_ops (fst x) (snd (fst (snd x))) (snd (snd x)))
                        (combine (seq 0 (length outs)) (combine outs hs)))) = map Piece (header_pieces (snd o) h).
Proof.
  intros L Ho Hh. enough (G : forall (os : list (list header_sink * csv_output)) hs a k, length hs = length os ->
    nth_error os k = Some o -> nth_error hs k = Some h ->
    of_output (a + k) (concat (map (fun x => header_ops (fst x) (snd (fst (snd x))) (snd (snd x))) (combine (seq a (length os)) (combine os hs))))
    = map Piece (header_pieces (snd o) h)) by exact (G outs hs 0 j L Ho Hh).
  assert (Z : forall (os : list (list header_sink * csv_output)) hs a k, k < a ->
    of_output k (concat (map (fun x => header_ops (fst x) (snd (fst (snd x))) (snd (snd x))) (combine (seq a (length os)) (combine os hs)))) = []).
  { clear. induction os as [|o os IH]; intros hs a k L; [reflexivity|]. destruct hs as [|h hs]; [reflexivity|]. cbn [length seq combine map concat fst snd].
    rewrite of_output_app, IH by lia. unfold header_ops. rewrite of_output_pieces. destruct (Nat.eqb_spec a k); [lia|reflexivity]. }
  clear L Ho Hh. induction os as [|o' os IH]; intros [|h' hs'] a [|k] L Ho Hh; try discriminate.
  - cbn [nth_error] in Ho, Hh. injection Ho as ->. injection Hh as ->. cbn [length seq combine map concat fst snd].
    rewrite of_output_app, Z by lia. unfold header_ops. now rewrite of_output_pieces, Nat.add_0_r, Nat.eqb_refl, app_nil_r.
  - cbn [length seq combine map concat fst snd]. rewrite of_output_app. unfold header_ops at 1. rewrite of_output_pieces.
    destruct (Nat.eqb_spec a (a + S k)); [lia|]. replace (a + S k) with (S a + k) by lia. cbn [app].
    apply IH; auto.
Qed.
Lemma rows_wops cfg rows : exists ps, ev_wops f64 f32 cfg (map EvRow rows ++ [EvFlush]) = map Piece ps ++ [Flushed] /\
  concat ps = csv_rows_bytes f64 f32 cfg (map EvRow rows ++ [EvFlush]).
Proof.
  induction rows as [|r rows (ps & E & C)]; [exists []; split; reflexivity|]. exists (row_pieces f64 f32 cfg r ++ ps). cbn [map app].
  unfold ev_wops in *. cbn [flat_map csv_rows_bytes]. rewrite E, map_app, <- app_assoc. split; [reflexivity|].
  now rewrite concat_app, row_pieces_bytes, C.
Qed.
End Split2.

Lemma combine3 {A B C} (x : list A) (y : list B) (z : list C) j a b' c :
  nth_error x j = Some a -> nth_error y j = Some b' -> nth_error z j = Some c ->
  nth_error (combine x (combine y z)) j = Some (a, (b', c)).
Proof.
  revert x y z. induction j as [|j IH]; intros [|a' x] [|b'' y] [|c' z] Ea Eb Ec; try discriminate; cbn in *.
  - congruence.
  - now apply IH.
Qed.
Lemma split_events f64 f32 F pre outs h src rng s h1 kp ap actss hs :
  outs <> [] -> steps h pre h1 kp ap ->
  Forall2 (fun o x => exists ks, steps h1 (fst o) (snd x) ks (fst x)) outs (combine actss hs) ->
  length actss = length outs -> length hs = length outs ->
  run_driver F [src] (fan_out pre (map (fun o => (fst o, csv_header_sink f64 f32 (snd o))) outs)) rng [h] = (s, Ok tt) ->
  forall j o acts, nth_error outs j = Some o -> nth_error actss j = Some acts ->
  events_at (r_log s) (S j) (length (fst o)) = map EvRow (kept (through (ap ++ acts)) (selected rng src)) ++ [EvFlush].
Proof.
  intros Hne Hp HF La Lh H j o acts Eo Ea.
  refine (C100_split F pre (map (fun o => (fst o, csv_header_sink f64 f32 (snd o))) outs) h src rng s h1 kp ap actss _ Hp _ H j
             (fst o, csv_header_sink f64 f32 (snd o)) acts _ Ea).
  - destruct outs; [congruence|discriminate].
  - clear - HF La Lh. revert actss hs HF La Lh. induction outs as [|o outs IH]; intros [|a actss] [|h hs] HF La Lh; try discriminate; [constructor|].
    cbn [combine] in HF. inversion HF as [|? ? ? ? (ks & Hs) HF']; subst. cbn [map]. constructor.
    + exists h, ks, h, (csv_sink f64 f32 (snd o)). cbn [fst snd] in *. split; [exact Hs|reflexivity].
    + apply (IH actss hs); auto.
  - rewrite nth_error_map, Eo. reflexivity.
Qed.

(** C111: one input split to CSV outputs which are all on standard output (examples/split.rs).
    What is printed is put together from the texts of the outputs, each complete and in order. *)
Theorem C111_each_output_in_order : forall f64 f32 cap F pre outs h src rng s h1 kp ap actss hs,
  outs <> [] -> steps h pre h1 kp ap ->
  Forall2 (fun o x => exists ks, steps h1 (fst o) (snd x) ks (fst x)) outs (combine actss hs) ->
  length actss = length outs -> length hs = length outs ->
  run_driver F [src] (fan_out pre (map (fun o => (fst o, csv_header_sink f64 f32 (snd o))) outs)) rng [h] = (s, Ok tt) ->
  mixed
    (map (fun x => csv_file f64 f32 (snd (fst x)) (snd (snd x))
                     (map EvRow (kept (through (ap ++ fst (snd x))) (selected rng src)) ++ [EvFlush]))
       (combine outs (combine actss hs)))
    (shared_stdout cap (length outs) (split_ops f64 f32 outs hs (r_log s))).
Proof.
  intros f64 f32 cap F pre outs h src rng s h1 kp ap actss hs Hne Hp HF La Lh H.
  pose proof (stdout_mixed cap (length outs) (split_ops f64 f32 outs hs (r_log s)) (ops_in f64 f32 outs hs (r_log s))) as M.
  match type of M with mixed ?l _ => match goal with |- mixed ?l' _ => replace l' with l; [exact M|] end end.
  apply nth_error_ext. intro j. destruct (Nat.lt_ge_cases j (length outs)) as [L|L].
  2:{ rewrite !(proj2 (nth_error_None _ _)); rewrite ?map_length, ?seq_length, ?combine_length; auto; lia. }
  destruct (nth_error outs j) as [o|] eqn:Eo; [|apply nth_error_None in Eo; lia].
  destruct (nth_error actss j) as [acts|] eqn:Ea; [|apply nth_error_None in Ea; lia].
  destruct (nth_error hs j) as [h2|] eqn:Eh; [|apply nth_error_None in Eh; lia].
  rewrite (map_nth_error _ j (seq 0 (length outs)) (d := j)).
  2:{ rewrite nth_error_nth' with (d := 0) by (now rewrite seq_length). now rewrite seq_nth. }
  assert (C : nth_error (combine outs (combine actss hs)) j = Some (o, (acts, h2))) by (now apply combine3).
  rewrite (map_nth_error _ j _ C). cbn [fst snd]. f_equal. unfold split_ops. rewrite given_app.
  rewrite (headers_given outs hs j o h2 Lh Eo Eh), (log_given f64 f32 outs (r_log s) j o Eo).
  pose proof (split_events f64 f32 F pre outs h src rng s h1 kp ap actss hs Hne Hp HF La Lh H j o acts Eo Ea) as E.
  rewrite E. reflexivity.
Qed.
Print Assumptions C111_each_output_in_order.

(** If the text of every output is shorter than the buffers, the texts are printed whole, one after
    the other. *)
Theorem C111_small_outputs_partial : forall f64 f32 cap F pre outs h src rng s h1 kp ap actss hs,
  outs <> [] -> steps h pre h1 kp ap ->
  Forall2 (fun o x => exists ks, steps h1 (fst o) (snd x) ks (fst x)) outs (combine actss hs) ->
  length actss = length outs -> length hs = length outs ->
  run_driver F [src] (fan_out pre (map (fun o => (fst o, csv_header_sink f64 f32 (snd o))) outs)) rng [h] = (s, Ok tt) ->
  let texts := map (fun x => csv_file f64 f32 (snd (fst x)) (snd (snd x))
                     (map EvRow (kept (through (ap ++ fst (snd x))) (selected rng src)) ++ [EvFlush]))
                 (combine outs (combine actss hs)) in
  (forall t, In t texts -> length t < cap) ->
  exists order, Permutation order texts /\
    shared_stdout cap (length outs) (split_ops f64 f32 outs hs (r_log s)) = concat order.
Proof.
  intros f64 f32 cap F pre outs h src rng s h1 kp ap actss hs Hne Hp HF La Lh H texts Hs.
  assert (Lt : length texts = length outs) by (unfold texts; rewrite map_length, !combine_length; lia).
  assert (Dat : forall j, j < length outs -> exists ps,
    of_output j (split_ops f64 f32 outs hs (r_log s)) = map Piece ps ++ [Flushed] /\ nth j texts [] = concat ps).
  { intros j L.
    destruct (nth_error outs j) as [o|] eqn:Eo; [|apply nth_error_None in Eo; lia].
    destruct (nth_error actss j) as [acts|] eqn:Ea; [|apply nth_error_None in Ea; lia].
    destruct (nth_error hs j) as [h2|] eqn:Eh; [|apply nth_error_None in Eh; lia].
    pose proof (split_events f64 f32 F pre outs h src rng s h1 kp ap actss hs Hne Hp HF La Lh H j o acts Eo Ea) as E.
    destruct (rows_wops f64 f32 (snd o) (kept (through (ap ++ acts)) (selected rng src))) as (ps & W & C).
    exists (header_pieces (snd o) h2 ++ ps). split.
    - unfold split_ops. rewrite of_output_app, (headers_of_output outs hs j o h2 Lh Eo Eh), (log_of_output f64 f32 outs (r_log s) j o Eo), E, W.
      now rewrite map_app, <- app_assoc.
    - assert (C' : nth_error (combine outs (combine actss hs)) j = Some (o, (acts, h2))) by (now apply combine3).
      unfold texts. erewrite nth_error_nth; [|apply map_nth_error; exact C']. cbn [fst snd]. unfold csv_file.
      now rewrite concat_app, header_pieces_bytes, C. }
  destruct (stdout_small cap (length outs) (fun j => nth j texts [])
              (fun i L => Hs _ (nth_In _ _ ltac:(rewrite Lt; exact L))) _ (ops_in f64 f32 outs hs (r_log s)) Dat) as (order & P & O).
  exists (map (fun j => nth j texts []) order). split; [|exact O].
  etransitivity; [apply Permutation_map; exact P|]. rewrite <- Lt.
  assert (X : map (fun j => nth j texts []) (seq 0 (length texts)) = texts); [|now rewrite X].
  apply nth_error_ext. intro j. destruct (Nat.lt_ge_cases j (length texts)) as [L|L].
  - rewrite (map_nth_error _ j _ (d := j)); [symmetry; now apply nth_error_nth'|].
    rewrite nth_error_nth' with (d := 0) by (now rewrite seq_length). now rewrite seq_nth.
  - rewrite !(proj2 (nth_error_None _ _)); auto. now rewrite map_length, seq_length.
Qed.
Print Assumptions C111_small_outputs_partial.
