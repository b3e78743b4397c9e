(** The example programs (C114). *)
From Verif Require Export ExamplesModel ExamplesSpec.
From Verif Require Import T_Success T_Route FanProofs SplitProofs GraphProps2 FilterProofs T_Filters T_Whole T_Whole2 T_WholeCsv T_CsvQuote T_CsvOut
  ProgramProofs T_Program T_Reader ReaderProofs DcProofs T_Input InputProofs BytesProofs.
Local Open Scope nat_scope.

(** ** Rows that are kept *)
Lemma kept_those f P rows : (forall r, In r rows -> (P r /\ f r = Some r) \/ (~ P r /\ f r = None)) -> those P rows (kept f rows).
Proof.
  induction rows as [|r rows IH]; intros H; [constructor|]. unfold kept in *. cbn [flat_map].
  destruct (H r (or_introl eq_refl)) as [[A ->]|[A ->]]; constructor; auto; apply IH; intros; apply H; now right.
Qed.
Lemma those_in P l l' r : those P l l' -> In r l' -> In r l.
Proof. induction 1; intros Hin; [destruct Hin|destruct Hin as [->|]; [now left|right; auto]|right; auto]. Qed.

(** ** Text *)
Section Text.
Variables (f64 f32 : N -> bytes).
Lemma default_columns r texts : Forall2 (value_text f64 f32) (vals r) texts ->
  row_columns f64 f32 csv_output_default r (dec (ts r) :: texts).
Proof.
  intros V. exists texts. split; [exact V|]. cbn [co_print_time csv_output_default csv_output_new]. exists (dec (ts r)). split; [|reflexivity].
  replace (dec (ts r)) with (dec (ts r / nanos_per (co_units csv_output_default)))
    by (cbn [co_units csv_output_default csv_output_new nanos_per]; rewrite N.div_1_r; reflexivity).
  now constructor.
Qed.
Lemma default_takes r : (exists texts, Forall2 (value_text f64 f32) (vals r) texts) ->
  forall past, exists rows, sk_write (csv_sink f64 f32 csv_output_default) past r = Ok rows.
Proof.
  intros (texts & V) past. unfold csv_sink. cbn [sk_write]. rewrite (row_spec _ _ _ _ _ (default_columns r texts V)). cbn. eauto.
Qed.
Lemma default_file h evs : h_names h <> [] ->
  (forall r, In r (ev_rows evs) -> exists texts, Forall2 (value_text f64 f32) (vals r) texts) ->
  default_csv f64 f32 h (ev_rows evs) (csv_file f64 f32 csv_output_default h evs).
Proof.
  intros N H.
  assert (X : exists cols, Forall2 (row_columns f64 f32 csv_output_default) (ev_rows evs) cols /\
     Forall2 (fun r c => exists texts, Forall2 (value_text f64 f32) (vals r) texts /\ c = dec (ts r) :: texts) (ev_rows evs) cols).
  { induction (ev_rows evs) as [|r l IH]; [exists []; split; constructor|].
    destruct (H r (or_introl eq_refl)) as (texts & V). destruct IH as (cols & A & B); [intros; apply H; now right|].
    exists ((dec (ts r) :: texts) :: cols). split; constructor; auto; [now apply default_columns|eauto]. }
  destruct X as (cols & A & B). exists (map (join (b ",")) cols). split.
  - unfold csv_file. rewrite header_line by exact N. rewrite (rows_bytes_spec _ _ _ _ _ A), map_map, <- app_assoc. reflexivity.
  - clear - B. induction B as [|r c l cs (texts & V & ->) B IH]; constructor; auto. eauto.
Qed.
End Text.

(** ** The two filters *)
Definition act_of (k : sink) (r : row) : option row := match sk_write k [] r with Ok [r'] => Some r' | _ => None end.
Lemma act_same k r r' : (forall rows, sk_write k [] r = Ok rows -> rows = [] \/ rows = [r]) -> act_of k r = Some r' -> r' = r.
Proof.
  unfold act_of. intros H E. destruct (sk_write k [] r) as [rows| | | |] eqn:W; try discriminate.
  destruct (H rows eq_refl) as [-> | ->]; [discriminate|]. congruence.
Qed.
Lemma greater_same name v h k : row_filter_greater name v h = Ok (h, k) -> forall r rows, sk_write k [] r = Ok rows -> rows = [] \/ rows = [r].
Proof.
  unfold row_filter_greater. destruct (find_column _ _ _); [|discriminate]. intros [= <-] r rows. cbn. unfold greater_write.
  destruct (unwrap _); cbn; try discriminate. destruct (fv_partial_cmp _ _) as [[[| |]|]| | | |]; cbn; try discriminate; intros [= <-]; auto.
Qed.
Lemma equal_same name v h k : row_filter_equal name v h = Ok (h, k) -> forall r rows, sk_write k [] r = Ok rows -> rows = [] \/ rows = [r].
Proof.
  unfold row_filter_equal. destruct (find_column _ _ _); [|discriminate]. intros [= <-] r rows. cbn. unfold equal_write.
  destruct (unwrap _); cbn; try discriminate. destruct (fv_eq _ _) as [[|]| | | |]; cbn; try discriminate; intros [= <-]; auto.
Qed.
Lemma greater_step name v h i : first_named (h_names h) name i ->
  exists k, row_filter_greater name v h = Ok (h, k) /\ acts_as k (act_of k) /\ (forall past, sk_flush k past = Ok tt) /\
    (forall past r, sk_write k past r <> NoFuel) /\
    (forall past r, (exists x, value_in i r x /\ comparable x v) ->
       (greater_in i v r /\ sk_write k past r = Ok [r]) \/ (~ greater_in i v r /\ sk_write k past r = Ok [])).
Proof.
  intros N. destruct (proj2 (proj2 (C17_greater_filter name v h)) i N) as (k & E & Fl & X & X2 & X3).
  assert (D : exists j, k = {| sk_write := greater_write j v; sk_flush := default_flush |}).
  { unfold row_filter_greater in E. destruct (find_column _ _ _) as [j|]; [|discriminate]. injection E as <-. eauto. }
  exists k. split; [exact E|]. split; [|split; [exact Fl|split]].
  - destruct D as (j & ->). intros past r rows. unfold act_of. cbn. unfold greater_write. destruct (unwrap _); cbn; try discriminate.
    destruct (fv_partial_cmp _ _) as [[[| |]|]| | | |]; cbn; try discriminate; intros [= <-]; reflexivity.
  - destruct D as (j & ->). intros past r. cbn. unfold greater_write.
    destruct (nth_error (vals r) j) as [x|]; cbn [unwrap bind]; [|discriminate].
    destruct x, v; cbn; try discriminate; repeat match goal with |- context [match ?e with _ => _ end] => destruct e end; try discriminate.
  - intros past r (x & Hx & Hc). destruct (X past r x Hx Hc) as [A B].
    assert (Dec : val_lt v x \/ ~ val_lt v x).
    { destruct (fv_partial_cmp_iff x v Hc) as (_ & G & _). destruct (fv_partial_cmp x v) as [[[| |]|]| | | |]; try (right; rewrite <- G; discriminate).
      left. now apply G. }
    destruct Dec as [Y|Y]; [left|right]; split; auto.
    + exists x; auto.
    + intros (x' & Hx' & L). unfold value_in in *. congruence.
Qed.
Lemma equal_step name v h i : first_named (h_names h) name i ->
  exists k, row_filter_equal name v h = Ok (h, k) /\ acts_as k (act_of k) /\ (forall past, sk_flush k past = Ok tt) /\
    (forall past r, sk_write k past r <> NoFuel) /\
    (forall past r, (exists x, value_in i r x /\
          ~ (type_of x = type_of v /\ (type_of x = Some TBoolean \/ type_of x = Some TByteBuf))) ->
       (equal_in i v r /\ sk_write k past r = Ok [r]) \/ (~ equal_in i v r /\ sk_write k past r = Ok [])).
Proof.
  intros N. destruct (proj2 (proj2 (C16_equal_filter name v h)) i N) as (k & E & Fl & X & X2 & X3).
  assert (D : exists j, k = {| sk_write := equal_write j v; sk_flush := default_flush |}).
  { unfold row_filter_equal in E. destruct (find_column _ _ _) as [j|]; [|discriminate]. injection E as <-. eauto. }
  exists k. split; [exact E|]. split; [|split; [exact Fl|split]].
  - destruct D as (j & ->). intros past r rows. unfold act_of. cbn. unfold equal_write. destruct (unwrap _); cbn; try discriminate.
    destruct (fv_eq _ _) as [[|]| | | |]; cbn; try discriminate; intros [= <-]; reflexivity.
  - destruct D as (j & ->). intros past r. cbn. unfold equal_write.
    destruct (nth_error (vals r) j) as [x|]; cbn [unwrap bind]; [|discriminate].
    destruct x, v; cbn; try discriminate; repeat match goal with |- context [if ?e then _ else _] => destruct e end; try discriminate.
  - intros past r (x & Hx & Hc). destruct (X past r x Hx Hc) as [A B].
    destruct (fv_eq_ok x v Hc) as ([|] & _ & D').
    + assert (Y : val_eq x v) by now apply D'. left. split; [exists x; auto|auto].
    + assert (Y : ~ val_eq x v) by (intros Y; apply D' in Y; discriminate). right. split; [|auto].
      intros (x' & Hx' & L). unfold value_in in *. congruence.
Qed.

(** ** Ties between two sources *)
Lemma two_ties l t : by_time l -> (forall p, In p l -> fst p < 2) ->
  let at_t (p : nat * event) := match snd p with EvRow r => (ts r =? t)%N | EvFlush => false end in
  filter at_t l = filter at_t (filter (fun p => fst p =? 1) l) ++ filter at_t (filter (fun p => fst p =? 0) l).
Proof.
  intros B L at_t. induction l as [|[i e] l IH]; [reflexivity|].
  assert (B' : by_time l). { intros a j r m k r' z ->. apply (B ((i, e) :: a) j r m k r' z). reflexivity. }
  specialize (IH B' ltac:(intros; apply L; now right)). pose proof (L _ (or_introl eq_refl)) as Li. cbn [fst] in Li.
  destruct i as [|[|i]]; [| |lia]; cbn [filter fst Nat.eqb].
  - destruct (at_t (0, e)) eqn:Et; [|exact IH].
    assert (N : filter at_t (filter (fun p => fst p =? 1) l) = []).
    { destruct (filter at_t (filter (fun p => fst p =? 1) l)) as [|p q] eqn:Ef; [reflexivity|exfalso].
      assert (In p (filter at_t (filter (fun p => fst p =? 1) l))) as H by (rewrite Ef; now left).
      apply filter_In in H as [H H2]. apply filter_In in H as [H H1]. destruct p as [j e']. cbn in H1. apply Nat.eqb_eq in H1. subst j.
      unfold at_t in Et, H2. cbn [snd] in *. destruct e as [r|]; [|discriminate]. destruct e' as [r'|]; [|discriminate].
      apply in_split in H as (m & z & ->). apply N.eqb_eq in Et, H2.
      destruct (B [] 0 r m 1 r' z eq_refl) as [H|[_ H]]; lia. }
    rewrite N in IH |- *. cbn [app] in *. now rewrite IH.
  - destruct (at_t (1, e)); [|exact IH]. cbn [app]. now rewrite IH.
Qed.
Lemma kept_ties l (a : nat -> row -> option row) t : by_time l -> (forall p, In p l -> fst p < 2) ->
  (forall i r r', a i r = Some r' -> ts r' = ts r) ->
  forall rows0 rows1,
  map snd (filter (fun p => fst p =? 0) l) = map EvRow rows0 ++ [EvFlush] ->
  map snd (filter (fun p => fst p =? 1) l) = map EvRow rows1 ++ [EvFlush] ->
  filter (fun r => (ts r =? t)%N) (ev_rows (flat_map (fun p => kept_ev (a (fst p)) (snd p)) l)) =
  filter (fun r => (ts r =? t)%N) (kept (a 1) rows1) ++ filter (fun r => (ts r =? t)%N) (kept (a 0) rows0).
Proof.
  intros B L Ha rows0 rows1 E0 E1.
  set (at_t := fun p : nat * event => match snd p with EvRow r => (ts r =? t)%N | EvFlush => false end).
  assert (G : forall l, filter (fun r => (ts r =? t)%N) (ev_rows (flat_map (fun p => kept_ev (a (fst p)) (snd p)) l)) =
     flat_map (fun p => ev_rows (kept_ev (a (fst p)) (snd p))) (filter at_t l)).
  { clear - Ha. intros l. rewrite ev_rows_flat. induction l as [|[i e] l IH]; [reflexivity|]. cbn [flat_map fst snd filter].
    rewrite filter_app, IH. unfold at_t at 2. cbn [snd]. destruct e as [r|]; cbn [kept_ev ev_rows filter app]; [|reflexivity].
    destruct (a i r) as [r'|] eqn:E; cbn [ev_rows filter].
    - rewrite (Ha _ _ _ E). destruct (ts r =? t)%N; [|reflexivity]. cbn [flat_map fst snd kept_ev]. now rewrite E.
    - destruct (ts r =? t)%N; [|reflexivity]. cbn [flat_map fst snd kept_ev]. now rewrite E. }
  assert (H : forall i rows, map snd (filter (fun p => fst p =? i) l) = map EvRow rows ++ [EvFlush] ->
     flat_map (fun p => ev_rows (kept_ev (a (fst p)) (snd p))) (filter at_t (filter (fun p => fst p =? i) l)) =
     filter (fun r => (ts r =? t)%N) (kept (a i) rows)).
  { intros i rows E. rewrite <- G, ev_rows_flat. f_equal. rewrite <- (kept_rows (a i) rows), <- E. clear.
    induction l as [|p l IH]; [reflexivity|]. cbn [filter]. destruct (Nat.eqb_spec (fst p) i) as [Ei|]; [|exact IH].
    cbn [flat_map map]. now rewrite IH, Ei. }
  rewrite G. pose proof (two_ties l t B L) as Tw. cbv zeta in Tw. fold at_t in Tw. rewrite Tw, flat_map_app. rewrite (H 1 rows1 E1), (H 0 rows0 E0). reflexivity.
Qed.

(** ** Opening DC files without CSV support *)
Section Programs.
Variables (ds : decoders) (inflate bunzip : inner -> inner) (f64 f32 : N -> bytes).
Lemma dc_only_opens w path h rows : dc_input w path h rows -> dc_header_ok h -> Forall (row_fits h) rows ->
  create_source_from_input ds inflate bunzip w None dc_only {| in_type := Path path; in_format := InputModel.Auto |} = Ok (h, map Ok rows).
Proof.
  intros (f & core & evs & L & Sk & Nm & U & D & T & Sm & <-) Ok' Hr. pose proof Ok' as (Hf & H2 & H8 & _).
  assert (Nz : ~ looks_like_zip (i_data (f_reads f))) by (rewrite D; apply dc_no_zip, Hf).
  unfold create_source_from_input. cbn [in_type in_format dir_file_transport dt_can_handle].
  rewrite (open_plain ds inflate bunzip w _ _ path f _ L Sk Nz Nm U). destruct L as (_ & -> & _).
  destruct (C27_opens (f_reads f) Sm (or_introl T)) as [p Ep]. rewrite Ep. cbn [bind].
  cbn [create_source_from_previewer]. unfold decompress_using_format.
  pose proof (name_layer_spec (core ++ b ".dc")) as Hl. destruct (is_compressed_using_format _) as [[g c]|].
  { exfalso. inversion Hl as [g' c' En|]; subst. apply (f_equal (@rev ascii)) in En. rewrite !rev_app_distr in En.
    destruct g; cbn in En; discriminate En. }
  cbn [bind]. unfold dc_only, all_source_factories, default_source_factories.
  cbn [app first_by_format dc_factory sf_format].
  assert (E2 : ends_with (b ".dc") (core ++ b ".dc") = true) by (apply ends_with_spec; eauto).
  rewrite E2. cbn [sf_create dc_factory]. unfold dc_create. rewrite (preview_stream _ _ Ep), D, T.
  rewrite (dc_roundtrip h evs None Hf H2 H8 Hr). cbn [bind]. rewrite (with_names_kept h Ok'), app_nil_r. reflexivity.
Qed.

Lemma csv_no_fuel cfg past r : sk_write (csv_sink f64 f32 cfg) past r <> NoFuel.
Proof.
  assert (X : snd (csv_write_row f64 f32 cfg r) <> NoFuel).
  { unfold csv_write_row.
    assert (T : (if co_print_time cfg then csv_time cfg (ts r) else Ok []) <> NoFuel).
    { destruct (co_print_time cfg); [|discriminate]. unfold csv_time. destruct (co_style cfg); [discriminate|]. destruct (co_show cfg); discriminate. }
    destruct (if co_print_time cfg then csv_time cfg (ts r) else Ok []); cbn; try discriminate; try congruence.
    assert (V : forall vs d first, snd (csv_values f64 f32 d first vs) <> NoFuel).
    { induction vs as [|v vs IH]; intros d first; cbn [csv_values]; [discriminate|].
      destruct v; cbn; try discriminate; specialize (IH d false); destruct (csv_values f64 f32 d false vs); exact IH. }
    specialize (V (vals r) (co_delimiter cfg) (negb (co_print_time cfg))). destruct (csv_values _ _ _ _ _) as [q o]. cbn [snd] in V.
    destruct o; cbn; congruence. }
  unfold csv_sink. cbn [sk_write]. destruct (snd _); cbn; congruence.
Qed.
Lemma rows_of_ok rows : rows_before_failure (map Ok rows) = rows.
Proof. induction rows; cbn; congruence. Qed.
Lemma selected_all rows : selected range_all (map Ok rows) = rows.
Proof.
  unfold selected. rewrite rows_of_ok.
  assert (E : until_end range_all rows = rows) by (induction rows as [|r l IH]; [reflexivity|]; cbn in *; now rewrite IH).
  rewrite E. clear E. induction rows as [|r l IH]; [reflexivity|]; cbn in *; now rewrite IH.
Qed.
Lemma readable_all rows rng : readable rng (map Ok rows).
Proof. induction rows; cbn; auto. Qed.

(** What the program does on any two DC files with the same columns: the rows of the FIRST file go through the SECOND
    filter and those of the second file through the first. *)
Theorem C114_two_files_partial : forall w in1 in2 c1 v1 c2 v2 h i1 i2 rows1 rows2,
  dc_input w in1 h rows1 -> dc_input w in2 h rows2 -> dc_header_ok h ->
  Forall (row_fits h) rows1 -> Forall (row_fits h) rows2 -> rows1 <> [] -> rows2 <> [] ->
  first_named (h_names h) c1 i1 -> first_named (h_names h) c2 i2 ->
  (forall r, In r rows2 -> exists x, value_in i1 r x /\ comparable x v1) ->
  (forall r, In r rows1 -> exists x, value_in i2 r x /\
      ~ (type_of x = type_of v2 /\ (type_of x = Some TBoolean \/ type_of x = Some TByteBuf))) ->
  exists F0, forall F, F0 <= F -> exists out rows kept1 kept2,
    run_ok (filter_and_merge ds inflate bunzip f64 f32 F w in1 in2 c1 v1 c2 v2) out /\
    default_csv f64 f32 h rows out /\
    those (equal_in i2 v2) rows1 kept1 /\ those (greater_in i1 v1) rows2 kept2 /\
    Permutation rows (kept1 ++ kept2) /\
    (time_ordered rows1 -> time_ordered rows2 ->
       time_ordered rows /\
       forall t, filter (fun r => (ts r =? t)%N) rows = filter (fun r => (ts r =? t)%N) kept2 ++ filter (fun r => (ts r =? t)%N) kept1).
Proof.
  intros w in1 in2 c1 v1 c2 v2 h i1 i2 rows1 rows2 D1 D2 Hok Fr1 Fr2 N1 N2 Nm1 Nm2 Cg Ce.
  destruct (greater_step c1 v1 h i1 Nm1) as (kg & Eg & Ag & Fg & Ng & Wg).
  destruct (equal_step c2 v2 h i2 Nm2) as (ke & Ee & Ae & Fe & Ne & We).
  set (k := csv_sink f64 f32 csv_output_default).
  set (g := [[DSink kg; DMerge 2]; [DSink ke; DMerge 2]; [DSink pass_sink; DSink k]] : dgraph).
  set (srcs := [map Ok rows1; map Ok rows2] : list source).
  assert (Tx : forall r, In r rows1 \/ In r rows2 -> exists texts, Forall2 (value_text f64 f32) (vals r) texts).
  { rewrite Forall_forall in Fr1, Fr2. intros r [H|H]; [apply Fr1 in H|apply Fr2 in H]; eapply fits_text; eauto. }
  assert (Dn : driver_new 2 (fan_in [[row_filter_greater c1 v1]; [row_filter_equal c2 v2]] [] (csv_header_sink f64 f32 csv_output_default)) [h; h] = Ok g).
  { apply (fan_new [[row_filter_greater c1 v1]; [row_filter_equal c2 v2]] [] (csv_header_sink f64 f32 csv_output_default) [h; h] h h h [] [] k
             [[kg]; [ke]] [[act_of kg]; [act_of ke]]); try reflexivity; [discriminate| |constructor].
    constructor; [|constructor; [|constructor]]; cbn [fst snd combine]; econstructor; eauto; constructor. }
  assert (Nodes : forall c n k', node_at g c n = Some (DSink k') ->
    (c = 0 /\ n = 0 /\ k' = kg) \/ (c = 1 /\ n = 0 /\ k' = ke) \/ (c = 2 /\ n = 0 /\ k' = pass_sink) \/ (c = 2 /\ n = 1 /\ k' = k)).
  { intros c n k'. unfold node_at, g. destruct c as [|[|[|c]]]; cbn; [| | |destruct c; discriminate];
      (destruct n as [|[|n]]; cbn; [|try discriminate|destruct n; try discriminate]); intros [= <-]; auto 6. }
  assert (Ed : forall c d, edge g c d -> c < 2 /\ d = 2).
  { intros c d (chain & nd & Hc & Hin & Hd). unfold g in Hc. destruct c as [|[|[|c]]]; cbn in Hc; try discriminate.
    - injection Hc as <-. destruct Hin as [<-|[<-|[]]]; [destruct Hd|]. destruct Hd as [<-|[]]. lia.
    - injection Hc as <-. destruct Hin as [<-|[<-|[]]]; [destruct Hd|]. destruct Hd as [<-|[]]. lia.
    - injection Hc as <-. destruct Hin as [<-|[<-|[]]]; destruct Hd.
    - destruct c; discriminate. }
  assert (Su : exists F0, forall F, F0 <= F -> snd (drive F g srcs range_all) = Ok tt).
  { apply C113_success.
    - exists (fun c => 2 - c). intros c d H. destruct (Ed c d H). lia.
    - intros chain k' Hc Hk. apply In_nth_error in Hc as (c & Hc). apply In_nth_error in Hk as (n & Hn).
      assert (Hat : node_at g c n = Some (DSink k')) by (unfold node_at; now rewrite Hc).
      destruct (Nodes _ _ _ Hat) as [(_ & _ & ->)|[(_ & _ & ->)|[(_ & _ & ->)|(_ & _ & ->)]]]; split; intros; auto;
        try (rewrite ?Fg, ?Fe; discriminate); try (cbn; discriminate). apply csv_no_fuel.
    - cbn. lia.
    - intros c d H. destruct (Ed c d H). cbn. lia.
    - assert (Q : forall c n r, may_reach g srcs range_all c n r ->
         (c = 0 -> n = 0 -> In r rows2) /\ (c = 1 -> n = 0 -> In r rows1) /\ (In r rows1 \/ In r rows2)).
      { intros c n r H. induction H as [i src r Hi Hr|c n k' past r rows r' H IH Hn Hw Hin|c n nd d r H IH Hn Hd|c n nd r H IH Hn Hk].
        - destruct i as [|[|i]]; [| |destruct i; discriminate]; injection Hi as <-; rewrite selected_all in Hr; cbn [length srcs Nat.sub]; (split; [|split]); auto; intros; discriminate.
        - assert (r' = r) as ->; [|destruct IH as (_ & _ & IH); split; [|split]; [intros; discriminate..|exact IH]].
          destruct (Nodes _ _ _ Hn) as [(-> & -> & ->)|[(-> & -> & ->)|[(_ & _ & ->)|(_ & _ & ->)]]].
          + destruct (Wg past r (Cg r (proj1 IH eq_refl eq_refl))) as [[_ W]|[_ W]]; rewrite W in Hw; injection Hw as <-; cbn in Hin; intuition congruence.
          + destruct (We past r (Ce r (proj1 (proj2 IH) eq_refl eq_refl))) as [[_ W]|[_ W]]; rewrite W in Hw; injection Hw as <-; cbn in Hin; intuition congruence.
          + cbn in Hw. injection Hw as <-. destruct Hin as [<-|[]]; reflexivity.
          + unfold k, csv_sink in Hw. cbn [sk_write] in Hw. destruct (snd _); try discriminate. injection Hw as <-. destruct Hin as [<-|[]]; reflexivity.
        - destruct IH as (_ & _ & IH). assert (d = 2) as ->; [|split; [|split]; [intros; discriminate..|exact IH]].
          apply (Ed c). eapply edge_node; eauto.
        - destruct IH as (_ & _ & IH). split; [|split]; [intros; discriminate..|exact IH]. }
      split.
      + intros c n k' past r Hn HP. apply Q in HP as (Q0 & Q1 & Q2). destruct (Nodes _ _ _ Hn) as [(-> & -> & ->)|[(-> & -> & ->)|[(-> & -> & ->)|(-> & -> & ->)]]].
        * destruct (Wg past r (Cg r (Q0 eq_refl eq_refl))) as [[_ W]|[_ W]]; eauto.
        * destruct (We past r (Ce r (Q1 eq_refl eq_refl))) as [[_ W]|[_ W]]; eauto.
        * cbn. eauto.
        * apply default_takes. auto.
      + intros c n k' past Hn. destruct (Nodes _ _ _ Hn) as [(_ & _ & ->)|[(_ & _ & ->)|[(_ & _ & ->)|(_ & _ & ->)]]]; auto.
    - intros src [<-|[<-|[]]]; rewrite selected_all; (split; [apply readable_all|assumption]). }
  destruct Su as (F0 & Su). exists F0. intros F HF. specialize (Su F HF). destruct (drive F g srcs range_all) as [s o] eqn:Ed'. cbn [snd] in Su. subst o.
  assert (Run : run_driver F srcs (fan_in [[row_filter_greater c1 v1]; [row_filter_equal c2 v2]] [] (csv_header_sink f64 f32 csv_output_default)) range_all [h; h] = (s, Ok tt)).
  { unfold run_driver. cbn [length srcs]. rewrite Dn. exact Ed'. }
  destruct (C99_filter_and_merge F [[row_filter_greater c1 v1]; [row_filter_equal c2 v2]] [] (csv_header_sink f64 f32 csv_output_default) [h; h] srcs range_all s
      h h h [[kg]; [ke]] [[act_of kg]; [act_of ke]] [] [] k) as (l & Il & Bt & Ev); try reflexivity; [discriminate| |constructor|exact Run|].
  { constructor; [|constructor; [|constructor]]; cbn [fst snd combine]; econstructor; eauto; constructor. }
  cbn [length srcs Nat.sub] in Ev.
  set (evs := events_at (r_log s) 2 1) in *.
  pose proof (C99_exactly_the_kept_rows range_all srcs [[act_of kg]; [act_of ke]] [] l evs Il Ev) as Pm.
  set (a := fun i : nat => through (nth (1 - i) [[act_of kg]; [act_of ke]] [] ++ [])).
  assert (Ev' : evs = flat_map (fun p => kept_ev (a (fst p)) (snd p)) l) by exact Ev.
  cbn [length srcs seq map concat nth Nat.sub app] in Pm. rewrite !selected_all, app_nil_r in Pm.
  assert (Th : forall k r, through [act_of k] r = act_of k r) by (intros k' r; cbn; destruct (act_of k' r); reflexivity).
  exists (csv_file f64 f32 csv_output_default h evs), (ev_rows evs), (kept (through [act_of ke]) rows1), (kept (through [act_of kg]) rows2).
  assert (K1 : those (equal_in i2 v2) rows1 (kept (through [act_of ke]) rows1)).
  { apply kept_those. intros r Hr. rewrite Th. unfold act_of. destruct (We [] r (Ce r Hr)) as [[P W]|[P W]]; rewrite W; auto. }
  assert (K2 : those (greater_in i1 v1) rows2 (kept (through [act_of kg]) rows2)).
  { apply kept_those. intros r Hr. rewrite Th. unfold act_of. destruct (Wg [] r (Cg r Hr)) as [[P W]|[P W]]; rewrite W; auto. }
  split; [|split; [|split; [exact K1|split; [exact K2|split; [exact Pm|]]]]].
  - unfold run_ok, filter_and_merge, open_paths. cbn [map open_inputs].
    rewrite (dc_only_opens w in1 h rows1 D1 Hok Fr1), (dc_only_opens w in2 h rows2 D2 Hok Fr2). cbn [bind length map fst snd].
    rewrite Dn. assert (Oh : output_header [(h, map Ok rows1); (h, map Ok rows2)] = Some h).
    { apply output_header_same; [discriminate|]. intros i [<-|[<-|[]]]; reflexivity. }
    match goal with |- context [output_header ?x] => replace (output_header x) with (Some h) by (symmetry; exact Oh) end.
    match goal with |- context [drive F g ?x range_all] => replace (drive F g x range_all) with (s, @Ok unit tt) by (symmetry; exact Ed') end. reflexivity.
  - apply default_file.
    + destruct Hok as ((Hl & _) & L2 & _). intros E. rewrite E in Hl. cbn in Hl. lia.
    + intros r Hr. apply Tx. apply (Permutation_in _ Pm) in Hr. apply in_app_or in Hr as [Hr|Hr]; [left; eapply (those_in _ _ _ _ K1 Hr)|right; eapply (those_in _ _ _ _ K2 Hr)].
  - intros T1 T2.
    assert (B : by_time l). { apply Bt. intros src [<-|[<-|[]]]; rewrite rows_of_ok; assumption. }
    destruct Il as [I1 I2].
    pose proof (greater_same _ _ _ _ Eg) as Sg. pose proof (equal_same _ _ _ _ Ee) as Se.
    assert (Ha : forall i r r', a i r = Some r' -> ts r' = ts r).
    { intros i r r'. unfold a. destruct i as [|i]; cbn [Nat.sub nth app]; [rewrite Th|destruct i; cbn [Nat.sub nth app]; rewrite Th].
      all: intros E; eapply act_same in E; [now subst|]. all: eauto. }
    split.
    + rewrite Ev'. apply (C99_time_order l a B Ha).
    + intros t. rewrite Ev'. apply (kept_ties l a t B I2 Ha).
      * rewrite (I1 0 _ eq_refl). now rewrite selected_all.
      * rewrite (I1 1 _ eq_refl). now rewrite selected_all.
Qed.
End Programs.
Print Assumptions C114_two_files_partial.
