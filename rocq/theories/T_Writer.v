(** C80: outputs that fail or take their time. *)
From Verif Require Export WriterProofs T_Whole.

Section Printers.
Variables (f64 f32 : N -> bytes).
Local Notation printer_of := (kind_printer f64 f32).
Lemma kind_sink_ok k h : snd (p_header (printer_of k h)) = Ok tt ->
  exists h', kind_sink f64 f32 k h = Ok (h', plain_sink (printer_of k h)) /\ h' = h.
Proof.
  destruct k as [path cfg|path]; cbn [kind_printer p_header snd].
  - intros _. eexists. split; reflexivity.
  - unfold kind_sink, dc_header_sink. cbn [kind_printer p_row plain_sink]. destruct (snd (dc_process_header h)) as [n| | | |]; cbn [bind]; try discriminate.
    intros _. eexists. split; reflexivity.
Qed.
Lemma kind_sink_fail k h : snd (p_header (printer_of k h)) <> Ok tt -> is_ok (kind_sink f64 f32 k h) = false.
Proof.
  destruct k as [path cfg|path]; cbn [kind_printer p_header snd]; [congruence|].
  unfold kind_sink, dc_header_sink. destruct (snd (dc_process_header h)); cbn [bind]; intro H; try reflexivity. congruence.
Qed.
Lemma kind_bytes_calls k h evs : kind_bytes f64 f32 k h evs = fst (p_header (printer_of k h)) ++ calls_bytes (printer_of k h) evs.
Proof.
  destruct k as [path cfg|path]; cbn [kind_bytes kind_printer p_header fst].
  - unfold csv_file. f_equal. induction evs as [|[r|] evs IH]; [reflexivity| |]; cbn; [now rewrite IH|exact IH].
  - unfold dc_file. f_equal. unfold calls_bytes. destruct (snd (dc_process_header h)) as [n| | | |];
      induction evs as [|[r|] evs IH]; try reflexivity; cbn; try (now rewrite IH); try exact IH.
Qed.
End Printers.

Lemma chop_header_fails F inputs out rng h : inputs <> [] -> (forall i, In i inputs -> fst i = h) -> is_ok (out h) = false ->
  exists e, chop F inputs out rng = (run0, e) /\ is_ok e = false.
Proof.
  intros Hne Hh Ho. destruct (chop F inputs out rng) as [s r] eqn:E.
  assert (R : is_ok r = false).
  { destruct r as [[]| | | |]; try reflexivity. exfalso.
    destruct (chop_ok_headers _ _ _ _ _ Hne E) as (h2 & h' & k & Hh2 & Ho2).
    destruct inputs as [|i0 t]; [congruence|].
    assert (h2 = h) as -> by (rewrite <- (Hh i0 (or_introl eq_refl)); symmetry; apply Hh2; now left).
    rewrite Ho2 in Ho. discriminate. }
  exists r. split; [|exact R].
  destruct inputs as [|i0 t] eqn:Ei; [congruence|]. clear Hne.
  destruct (chop_headers_eq h _ _ _ eq_refl Hh) as [E0 Ef].
  pose proof (cli_new (length (i0 :: t)) out (fst i0) (map fst t)) as N.
  rewrite E0, Ef in N. specialize (N ltac:(cbn [length]; now rewrite map_length)).
  unfold chop in E. destruct (cli_graph _ out) as [hg|e| | |]; cbn [bind] in N, E; try (injection E as <- <-; reflexivity).
  unfold run_driver in E. cbn [map] in *. rewrite E0 in *. cbn [length] in *. rewrite map_length in *. rewrite N in E.
  destruct (out h); cbn [bind is_ok] in *; try discriminate; injection E as <- <-; reflexivity.
Qed.

Lemma sink_repair_refl k : sink_repair k k.
Proof. split; auto. Qed.
Lemma node_repair_refl n : node_repair n n.
Proof. destruct n; constructor. apply sink_repair_refl. Qed.
Lemma chain_repair_refl c : Forall2 node_repair c c.
Proof. induction c; constructor; auto. apply node_repair_refl. Qed.
Lemma data_repair n k k' : sink_repair k k' ->
  graph_repair (if 1 <? n then cli_data n k else [[DSink k]]) (if 1 <? n then cli_data n k' else [[DSink k']]).
Proof.
  intro H. destruct (1 <? n).
  - apply Forall2_app.
    + induction (repeat [DMerge n] n); constructor; auto. apply chain_repair_refl.
    + constructor; [|constructor]. constructor; [apply node_repair_refl|]. constructor; [now constructor|constructor].
  - constructor; [|constructor]. constructor; [|constructor]. now constructor.
Qed.
Lemma sources_repair_refl l : Forall2 source_repair l l.
Proof. induction l; constructor; auto. now left. Qed.
Lemma out_node_is n k : n <> 0 -> node_at (if 1 <? n then cli_data n k else [[DSink k]]) (out_chain n) (out_node n) = Some (DSink k).
Proof.
  intro H. unfold out_chain, out_node, node_at. destruct (1 <? n) eqn:E; [|reflexivity].
  rewrite cli_dst. reflexivity.
Qed.
Lemma prefix_antisym {A} (x y : list A) : prefix x y -> prefix y x -> x = y.
Proof.
  intros [a ->] [c E]. assert (L := f_equal (@length A) E). rewrite !app_length in L.
  destruct a; [now rewrite app_nil_r|cbn in L; lia].
Qed.
Lemma further_calls s s' c n : further s s' -> prefix (events_at (r_log s) c n) (events_at (r_log s') c n).
Proof. intros [_ [z ->]]. rewrite events_at_app. apply prefix_app. Qed.
Lemma calls_bytes_prefix p x y : prefix x y -> prefix (calls_bytes p x) (calls_bytes p y).
Proof. intros [z ->]. unfold calls_bytes. rewrite map_app, concat_app. apply prefix_app. Qed.
Lemma prefix_under {A} (l x y : list A) : prefix x y -> prefix (l ++ x) (l ++ y).
Proof. intros [z ->]. exists z. now rewrite app_assoc. Qed.

(** What the output sink receives and leaves behind, over a writer [o] and with no writer. *)
Section Core.
Variables (f64 f32 : N -> bytes) (cap : nat) (o : outer) (cut : option row -> bytes -> list bytes).
Hypothesis (Hcut : cuts cut) (Hnew : o_got o = []).
Lemma io_core F inputs rng k h s r s' r' : inputs <> [] -> (forall i, In i inputs -> fst i = h) ->
  chop F inputs (kind_sink f64 f32 k) rng = (s, r) ->
  chop F inputs (io_header_sink f64 f32 cap o cut k) rng = (s', r') ->
  let n := length inputs in
  let p := kind_printer f64 f32 k h in
  let calls := events_at (r_log s) (out_chain n) (out_node n) in
  let arrived := received cap o cut p (events_at (r_log s') (out_chain n) (out_node n)) in
  (r' = Ok tt -> r = Ok tt /\ arrived = kind_bytes f64 f32 k h calls) /\
  prefix arrived (kind_bytes f64 f32 k h calls) /\
  (willing o -> arrived = kind_bytes f64 f32 k h calls /\ (r = Ok tt -> r' = Ok tt)).
Proof.
  intros Hne Hh E E' n p calls arrived. rewrite kind_bytes_calls. fold p.
  pose proof (header_all cap o cut p Hcut) as (q & Pq & Tq & Hq & Wq). rewrite Hnew in Tq. cbn [app] in Tq.
  destruct (is_ok (fst (after_header cap o cut p))) eqn:Eh.
  - (* the header got through *)
    destruct (fst (after_header cap o cut p)) as [[]| | | |] eqn:Eh'; try discriminate. clear Eh.
    destruct (Hq eq_refl) as [-> Hk].
    destruct (kind_sink_ok f64 f32 k h Hk) as (h' & Ho & ->).
    assert (Ho' : io_header_sink f64 f32 cap o cut k h = Ok (h, io_sink cap o cut p)).
    { unfold io_header_sink. fold p. now rewrite Eh'. }
    pose proof (chop_ok F inputs (io_header_sink f64 f32 cap o cut k) rng h h (io_sink cap o cut p) s' Hne Hh Ho') as Fl.
    rewrite E' in Fl.
    rewrite (chop_drive _ _ _ _ _ _ _ Hne Hh Ho) in E. rewrite (chop_drive _ _ _ _ _ _ _ Hne Hh Ho') in E'. fold n p in E, E'.
    pose proof (drive_repair _ _ _ _ _ _ _ _ _ _ (data_repair n _ _ (io_repair cap o cut p Hcut)) (sources_repair_refl _) E' E) as [A B].
    assert (Hn : n <> 0) by (subst n; destruct inputs; [congruence|discriminate]).
    pose proof (drive_calls _ _ _ _ _ _ _ _ _ E' (out_node_is n _ Hn)) as [C1 C2].
    pose proof (further_calls _ _ (out_chain n) (out_node n) B) as Pc. fold calls in Pc.
    set (calls' := events_at (r_log s') (out_chain n) (out_node n)) in *.
    split; [|split].
    + intros ->. destruct (A eq_refl) as [-> ->]. split; [reflexivity|].
      unfold arrived, received. rewrite drop_flushed.
      * rewrite (calls_total cap o cut p Hcut) by auto. rewrite Tq. reflexivity.
      * destruct (Fl eq_refl) as (_ & _ & _ & pre & Ep). fold n calls' in Ep. rewrite Ep, after_snoc.
        cbn [put_event]. apply bw_flush_spec.
        pose proof (C1 eq_refl pre EvFlush [] Ep) as X. apply call_result in X. exact X.
    + eapply prefix_trans; [apply drop_prefix|]. eapply prefix_trans; [|apply prefix_under, calls_bytes_prefix; exact Pc].
      rewrite <- Tq. destruct C2 as [C2|(pre & e & Ep & C2)].
      * rewrite (calls_total cap o cut p Hcut) by auto. apply prefix_refl.
      * rewrite Ep. now apply calls_total_last.
    + intro Hw. destruct (willing_sink cap o cut p Hcut Hw) as [W1 W2].
      assert (Rp : sink_repair (plain_sink p) (io_sink cap o cut p)).
      { split; [intros past x y; now rewrite W1|intros past _; apply W2]. }
      pose proof (drive_repair _ _ _ _ _ _ _ _ _ _ (data_repair n _ _ Rp) (sources_repair_refl _) E E') as [A' B'].
      pose proof (further_calls _ _ (out_chain n) (out_node n) B') as Pc'. fold calls calls' in Pc'.
      assert (calls' = calls) as Ec by now apply prefix_antisym.
      split; [|intro X; apply A', X].
      unfold arrived, received. fold calls'. rewrite drop_willing by (now apply willing_after). rewrite <- Tq, <- Ec.
      clear - Hcut Hw. induction calls' as [|ev evs IH] using rev_ind; [unfold calls_bytes; cbn; now rewrite app_nil_r|].
      rewrite after_snoc. destruct (put_event_spec cap cut p Hcut ev (after_events cap cut p evs (snd (after_header cap o cut p)))) as (q & _ & T & _ & D).
      rewrite T, IH. destruct (D (willing_after cap o cut p Hcut evs Hw)) as (_ & _ & ->).
      unfold calls_bytes. rewrite map_app, concat_app. cbn [map concat]. now rewrite app_nil_r, app_assoc.
  - (* it did not *)
    assert (Ho' : is_ok (io_header_sink f64 f32 cap o cut k h) = false).
    { unfold io_header_sink. fold p. destruct (fst (after_header cap o cut p)); cbn in *; congruence. }
    destruct (chop_header_fails F inputs _ rng h Hne Hh Ho') as (e & Ex & He). rewrite Ex in E'. injection E' as <- <-.
    assert (Ea : arrived = bw_drop (snd (after_header cap o cut p))) by reflexivity.
    split; [intros ->; discriminate|]. split.
    + rewrite Ea. eapply prefix_trans; [apply drop_prefix|]. rewrite Tq.
      eapply prefix_trans; [exact Pq|]. apply prefix_app.
    + intro Hw. destruct (Wq Hw) as (Hw' & Er & ->).
      assert (Hk : is_ok (kind_sink f64 f32 k h) = false).
      { apply kind_sink_fail. fold p. rewrite <- Er. intro X. rewrite X in Eh. discriminate. }
      destruct (chop_header_fails F inputs _ rng h Hne Hh Hk) as (e2 & Ex2 & He2). rewrite Ex2 in E. injection E as <- <-.
      split; [|intros ->; discriminate]. rewrite Ea, drop_willing by exact Hw'. rewrite Tq.
      unfold calls. cbn. now rewrite app_nil_r.
Qed.
End Core.

Section Cli.
Context (prof : profile) (ch : chrono) (lower : bytes -> bytes) (f64_ok : text -> bool).
Variable split : byte -> stream -> list (res (list bytes)).
Variables (ds : decoders) (inflate bunzip : inner -> inner) (f64 f32 : N -> bytes).
Variables (transports : option (list transport)) (factories : option (list (factory (header * source))))
          (zones : option (bytes -> option (zone ch))) (parse_zone : bytes -> option (zone ch)).
Variable create : bytes -> res unit.
(** The program over an output that never fails, and over an arbitrary one. *)
Local Notation cli := (chopper_cli prof ch lower f64_ok split ds inflate bunzip f64 f32 transports factories zones parse_zone create).
Local Notation cli_io := (chopper_cli_io prof ch lower f64_ok split ds inflate bunzip f64 f32 transports factories zones parse_zone create).

Lemma args_inputs w a op : parse_args prof ch zones parse_zone w a = Ok op -> op_inputs ch op <> [].
Proof.
  intro Ea. unfold parse_args in Ea. destruct (resolve_timezone _ _ _ _); try discriminate. cbn [bind] in Ea.
  destruct (timestamp_range _ _ _ _ _); try discriminate. cbn [bind] in Ea.
  destruct (cli_inputs _ _) as [ins| | | |] eqn:Eins; try discriminate. cbn [bind] in Ea.
  destruct (csv_input_options a _); try discriminate. cbn [bind] in Ea.
  destruct (csv_output_options a _); try discriminate. injection Ea as <-. cbn [op_inputs].
  unfold cli_inputs in Eins. destruct (rev _); [discriminate|].
  destruct (match a_inputs a with Some _ => _ | None => _ end); [discriminate|]. injection Eins as <-. discriminate.
Qed.

Theorem C80_faulty_output : forall cap o cut F w a, cuts cut -> o_got o = [] ->
  let plain := cli F w a in
  let real := cli_io cap o cut F w a in
  (* success means that everything arrived *)
  (o_result real = Ok tt -> real = plain) /\
  (* what arrived is a prefix of the complete output *)
  match o_written real, o_written plain with
  | Some arrived, Some complete => prefix arrived complete
  | None, None => o_result real = o_result plain
  | _, _ => False
  end /\
  (* the pace of the output does not matter *)
  (willing o -> o_written real = o_written plain /\ (o_result plain = Ok tt <-> o_result real = Ok tt)).
Proof.
  intros cap o cut F w a Hcut Hnew plain real. subst plain real. unfold chopper_cli, chopper_cli_io.
  destruct (parse_args _ _ _ _ w a) as [op| | | |] eqn:Ea.
  2-5: cbn; split; [discriminate|]; split; [reflexivity|]; intros _; split; [reflexivity|tauto].
  unfold run_chop, run_chop_io. destruct (open_inputs _ _ _ w _ _ _) as [inputs| | | |] eqn:Ei.
  2-5: cbn; split; [discriminate|]; split; [reflexivity|]; intros _; split; [reflexivity|tauto].
  destruct (new_header_sink (a_output a) _) as [k| | | |] eqn:Ek.
  2-5: cbn; split; [discriminate|]; split; [reflexivity|]; intros _; split; [reflexivity|tauto].
  destruct (match kind_path k with Some p => create p | None => Ok tt end) as [u| | | |] eqn:Ec.
  2-5: cbn; split; [discriminate|]; split; [reflexivity|]; intros _; split; [reflexivity|tauto].
  assert (Hne : inputs <> []).
  { apply open_inputs_ok in Ei. intros ->. apply Forall2_len in Ei. apply (args_inputs _ _ _ Ea). now destruct (op_inputs ch op). }
  destruct (chop F inputs (kind_sink _ _ k) _) as [s r] eqn:E.
  destruct (chop F inputs (io_header_sink _ _ _ _ _ k) _) as [s' r'] eqn:E'. cbn [o_written o_result].
  destruct (output_header inputs) as [h|] eqn:Eh.
  - assert (Hh : forall i, In i inputs -> fst i = h).
    { clear - Eh. unfold output_header in Eh. destruct inputs as [|i0 t]; [discriminate|]. cbn [map] in Eh.
      destruct (forallb _ _) eqn:Ef; [|discriminate]. injection Eh as <-. rewrite forallb_forall in Ef.
      intros i [<-|Hi]; [reflexivity|]. apply header_eqb_eq, Ef. now apply in_map. }
    destruct (io_core f64 f32 cap o cut Hcut Hnew _ _ _ _ _ _ _ _ _ Hne Hh E E') as (A & B & C).
    split; [|split; [exact B|]].
    + intros ->. destruct (A eq_refl) as [-> ->]. reflexivity.
    + intro Hw. destruct (C Hw) as [-> X]. split; [reflexivity|]. split; [exact X|]. intro Y. apply A, Y.
  - assert (M : exists i j, In i inputs /\ In j inputs /\ fst i <> fst j).
    { clear - Eh Hne. unfold output_header in Eh. destruct inputs as [|i0 t]; [congruence|]. cbn [map] in Eh.
      destruct (forallb _ _) eqn:Ef; [discriminate|].
      assert (X : exists q, In q t /\ header_eqb (fst q) (fst i0) = false).
      { clear - Ef. induction t as [|q t IH]; [discriminate|]. cbn in Ef. destruct (header_eqb (fst q) (fst i0)) eqn:Q.
        - destruct (IH Ef) as (x & X & Y). exists x. split; [now right|exact Y].
        - exists q. split; [now left|exact Q]. }
      destruct X as (q & Hq & Q). exists q, i0. split; [now right|]. split; [now left|]. intro Z. apply header_eqb_eq in Z. congruence. }
    destruct M as (i & j & Hi & Hj & D). rewrite (chop_mismatch _ _ _ _ _ _ Hi Hj D) in E. rewrite (chop_mismatch _ _ _ _ _ _ Hi Hj D) in E'.
    injection E as <- <-. injection E' as <- <-. rewrite Hnew. split; [discriminate|]. split; [apply prefix_refl|].
    intros _. split; [reflexivity|tauto].
Qed.
End Cli.

(** ** C10: nothing is called after a failure *)
Theorem C10_nothing_after_failure : forall F g srcs rng c n k,
  node_at g c n = Some (DSink k) ->
  let calls := events_at (r_log (fst (drive F g srcs rng))) c n in
  (* every call this sink received succeeded, but perhaps the last one *)
  (forall pre e post, calls = pre ++ e :: post -> post <> [] -> sink_call k pre e = Ok tt) /\
  (snd (drive F g srcs rng) = Ok tt -> forall pre e post, calls = pre ++ e :: post -> sink_call k pre e = Ok tt).
Proof.
  intros F g srcs rng c n k Hn calls. subst calls. destruct (drive F g srcs rng) as [s o] eqn:E. cbn [fst snd].
  destruct (drive_calls _ _ _ _ _ _ _ _ _ E Hn) as [A B]. split; [|exact A].
  intros pre e post Ec Hp. destruct B as [B|(pre0 & e0 & Ep & B)]; [eapply B; eauto|].
  rewrite Ep in Ec. destruct (last_case post) as [->|(t & x & ->)]; [congruence|].
  rewrite app_comm_cons, app_assoc in Ec. apply app_inj_tail in Ec as [-> _]. eapply B; eauto.
Qed.
Theorem C10_nothing_after_failure_anywhere : forall F g srcs rng pre c n e post k,
  r_log (fst (drive F g srcs rng)) = pre ++ V c n e :: post -> post <> [] ->
  node_at g c n = Some (DSink k) -> sink_call k (events_at pre c n) e = Ok tt.
Proof.
  intros F g srcs rng pre c n e post k E Hp Hn. destruct (drive F g srcs rng) as [s o] eqn:Ed. cbn [fst] in E.
  destruct (drive_clean _ _ _ _ _ _ Ed) as [_ [A|(lg0 & v & El & A)]]; [eapply A; eauto|].
  rewrite El in E. destruct (last_case post) as [->|(t & x & ->)]; [congruence|].
  rewrite app_comm_cons, app_assoc in E. apply app_inj_tail in E as [-> _]. eapply A; eauto.
Qed.
Print Assumptions C80_faulty_output.
Print Assumptions C10_nothing_after_failure_anywhere.
