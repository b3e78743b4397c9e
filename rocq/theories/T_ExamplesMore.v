(** compressed.rs and split.rs (C115). *)
From Verif Require Import T_Examples T_WholeEx T_WholeAny T_WholeCsv T_CliCsv T_Shared FanProofs SplitProofs T_Route T_Success.
From Verif Require Import SharedSpec GraphProps2.
Local Open Scope nat_scope.

(** chop FILE --csv-in-ts-col 0 --csv-out-epoch … as the options that the program fixes. *)
Definition compressed_args (path : bytes) : args :=
  {| a_inputs := Some [path]; a_formats := None; a_output := None; a_timezone := None; a_begin := None; a_end := None;
     a_in_delimiter := None; a_in_has_header := b "auto"; a_in_col := Some (b "0"); a_in_col_date := None; a_in_col_time := None;
     a_in_fmt := None; a_in_fmt_date := None; a_in_fmt_time := None; a_in_epoch := None; a_out_delimiter := b ",";
     a_out_print_time := b "yes"; a_out_time_name := None; a_out_epoch := true; a_out_units := None |}.

Section More.
Context (prof : profile) (ch : chrono) (lower : bytes -> bytes) (f64_ok : text -> bool).
Variables (ds : decoders) (inflate bunzip : inner -> inner) (f64 f32 : N -> bytes).
Variables (zones : option (bytes -> option (zone ch))) (parse_zone : bytes -> option (zone ch)).
Variable create : bytes -> res unit.
Local Notation cli := (chopper_cli prof ch lower f64_ok csv_records ds inflate bunzip f64 f32 None None zones parse_zone create).
Local Notation compressed := (compressed_example prof ch lower f64_ok csv_records ds inflate bunzip f64 f32).

(** The program does what the command line does with these options, on every input, good or bad. *)
Theorem C115_compressed_is_chop : forall F w path, w_env_tz w = None ->
  compressed F w path = cli F w (compressed_args path).
Proof.
  intros F w path Ez. unfold chopper_cli, parse_args. cbn [compressed_args a_timezone]. rewrite Ez. cbn [resolve_timezone bind a_begin a_end].
  cbn [timestamp_range bind a_formats a_inputs].
  cbn -[chop csv_file open_inputs csv_output_default csv_input_new].
  unfold compressed_example. destruct (csv_input_new ch None CsvModel.Auto (CfgIndex 0) FmtAuto None) as [cfg| | | |]; cbn [bind]; try reflexivity.
  unfold run_chop. cbn [op_inputs op_csv_in op_csv_out op_range compressed_args a_output new_header_sink kind_path kind_sink kind_bytes].
  change (csv_output_new [","%char] true None Epoch Nanos None) with csv_output_default.
  change {| tr_begin := None; tr_end := None |} with range_all.
  unfold open_paths. cbn [map].
  destruct (open_inputs _ _ _ _ _ _ _) as [inputs| | | |] eqn:Eo; try reflexivity.
  assert (Ln : length inputs = 1).
  { apply open_inputs_ok, GraphProps.Forall2_len in Eo. now rewrite <- Eo. }
  rewrite Ln. destruct (chop F inputs _ range_all). reflexivity.
Qed.

(** So: any file that the command line could read (plain, compressed, in an archive; CSV or DC), every row printed in
    order. *)
Theorem C115_compressed : forall F w path h rows, 3 <= F -> w_env_tz w = None ->
  file_gives lower f64_ok ds inflate bunzip w (compressed_args path) (None : option (zone ch)) h InputModel.Auto path rows ->
  h_names h <> [] -> rows <> [] ->
  exists out, run_ok (compressed F w path) out /\ default_csv f64 f32 h rows out.
Proof.
  intros F w path h rows HF Ez G Hn Hr. rewrite (C115_compressed_is_chop F w path Ez).
  destruct (csv_input_new ch None CsvModel.Auto (CfgIndex 0) FmtAuto None) as [cfg| | | |] eqn:Ec; try discriminate Ec.
  set (opts := {| op_range := range_all; op_inputs := [{| in_type := Path path; in_format := InputModel.Auto |}];
                  op_csv_in := cfg; op_csv_out := csv_output_default |} : options ch).
  assert (Ea : parse_args prof ch zones parse_zone w (compressed_args path) = Ok opts).
  { unfold parse_args. cbn [compressed_args a_timezone]. rewrite Ez. cbn -[csv_input_new csv_output_default]. rewrite Ec. reflexivity. }
  destruct (C107_to_csv prof ch lower f64_ok ds inflate bunzip f64 f32 zones parse_zone create F w (compressed_args path) opts None Nanos
      [(Path path, InputModel.Auto)] h [rows]) as (hd & rs & lines & R & Hd & Ls & _ & _ & Si); auto.
  - now left.
  - cbn [compressed_args a_timezone]. rewrite Ez. left. auto.
  - reflexivity.
  - discriminate.
  - cbn. discriminate.
  - split; [reflexivity|]. intros i t fmt Hi. destruct i as [|i]; [|destruct i; discriminate]. injection Hi as <- <-. reflexivity.
  - constructor; [|constructor]. cbn [fst snd op_range opts]. rewrite selected_all. split; [|exact Hr]. now constructor.
  - exists (hd ++ [byte_of 10] ++ concat (map (fun l => l ++ [byte_of 10]) lines)). split; [exact R|].
    exists lines. destruct Hd as [[X _]|[_ ->]]; [discriminate X|]. split; [reflexivity|].
    rewrite (Si rows eq_refl) in Ls. cbn [op_range opts] in Ls. rewrite selected_all in Ls. clear - Ls.
    induction Ls as [|r l rs ls (texts & V & X) Ls IH]; constructor; auto. exists texts. split; [exact V|].
    destruct X as [[X _]|(_ & t & T & ->)]; [discriminate X|]. cbn in T. rewrite T, N.div_1_r. reflexivity.
Qed.

End More.

Section Split.
Variables (ds : decoders) (inflate bunzip : inner -> inner) (f64 f32 : N -> bytes).
(** split.rs: the text of the file is printed twice, the two texts mixed (C111) - one after the other if they fit the
    buffers. *)
Theorem C115_split : forall cap w input h rows,
  dc_input w input h rows -> dc_header_ok h -> Forall (row_fits h) rows -> rows <> [] ->
  exists F0, forall F, F0 <= F -> exists out t,
    run_ok (split_example ds inflate bunzip f64 f32 cap F w input) out /\ default_csv f64 f32 h rows t /\
    mixed [t; t] out /\ (length t < cap -> out = t ++ t).
Proof.
  intros cap w input h rows D Hok Fr Hr.
  set (k := csv_sink f64 f32 csv_output_default).
  set (outs := [([], csv_output_default); ([], csv_output_default)] : list (list header_sink * csv_output)).
  set (g := [[DSplit [1; 2]]; [DSink k]; [DSink k]] : dgraph).
  assert (Tx : forall r, In r rows -> exists texts, Forall2 (value_text f64 f32) (vals r) texts).
  { rewrite Forall_forall in Fr. intros r H. eapply fits_text; eauto. }
  assert (Dn : driver_new 1 (fan_out [] (map (fun o => (fst o, csv_header_sink f64 f32 (snd o))) outs)) [h] = Ok g).
  { apply (split_new [] _ h h [] [] [([], k, []); ([], k, [])]); [discriminate|constructor|].
    constructor; [|constructor; [|constructor]]; exists h, h; (split; [constructor|reflexivity]). }
  assert (Nodes : forall c n k', node_at g c n = Some (DSink k') -> (c = 1 \/ c = 2) /\ n = 0 /\ k' = k).
  { intros c n k'. unfold node_at, g. destruct c as [|[|[|c]]]; cbn; [| | |destruct c; discriminate];
      (destruct n as [|n]; cbn; [|destruct n; discriminate]); intros [= <-]; auto. }
  assert (Ed : forall c d, edge g c d -> c = 0 /\ (d = 1 \/ d = 2)).
  { intros c d (chain & nd & Hc & Hin & Hd). unfold g in Hc. destruct c as [|[|[|c]]]; cbn in Hc; try discriminate.
    - injection Hc as <-. destruct Hin as [<-|[]]. cbn in Hd. intuition lia.
    - injection Hc as <-. destruct Hin as [<-|[]]; destruct Hd.
    - injection Hc as <-. destruct Hin as [<-|[]]; destruct Hd.
    - destruct c; discriminate. }
  assert (Su : exists F0, forall F, F0 <= F -> snd (drive F g [map Ok rows] range_all) = Ok tt).
  { apply C113_success.
    - exists (fun c => 2 - 2 * c). intros c d H. destruct (Ed c d H). lia.
    - intros chain k' Hc Hk. apply In_nth_error in Hc as (c & Hc). apply In_nth_error in Hk as (n & Hn).
      assert (Hat : node_at g c n = Some (DSink k')) by (unfold node_at; now rewrite Hc).
      destruct (Nodes _ _ _ Hat) as (_ & _ & ->). split; intros; [apply csv_no_fuel|discriminate].
    - cbn. lia.
    - intros c d H. destruct (Ed c d H). cbn. lia.
    - assert (Q : forall c n r, may_reach g [map Ok rows] range_all c n r -> In r rows).
      { intros c n r H. induction H as [i src r Hi Hin|c n k' past r rs r' H IH Hn Hw Hin|c n nd d r H IH Hn Hd|c n nd r H IH Hn Hk]; auto.
        - destruct i as [|i]; [|destruct i; discriminate]. injection Hi as <-. now rewrite selected_all in Hin.
        - destruct (Nodes _ _ _ Hn) as (_ & _ & ->). unfold k, csv_sink in Hw. cbn [sk_write] in Hw. destruct (snd _); try discriminate.
          injection Hw as <-. destruct Hin as [<-|[]]; assumption. }
      split.
      + intros c n k' past r Hn HP. destruct (Nodes _ _ _ Hn) as (_ & _ & ->). apply default_takes. eauto.
      + intros c n k' past Hn. destruct (Nodes _ _ _ Hn) as (_ & _ & ->). reflexivity.
    - intros src [<-|[]]. rewrite selected_all. split; [apply readable_all|assumption]. }
  destruct Su as (F0 & Su). exists F0. intros F HF. specialize (Su F HF).
  destruct (drive F g [map Ok rows] range_all) as [s o] eqn:Ed'. cbn [snd] in Su. subst o.
  assert (Run : run_driver F [map Ok rows] (fan_out [] (map (fun o => (fst o, csv_header_sink f64 f32 (snd o))) outs)) range_all [h] = (s, Ok tt)).
  { unfold run_driver. cbn [length]. rewrite Dn. exact Ed'. }
  set (t := csv_file f64 f32 csv_output_default h (map EvRow rows ++ [EvFlush])).
  assert (Kp : kept (through []) (selected range_all (map Ok rows)) = rows).
  { rewrite selected_all. unfold kept. clear. induction rows as [|r l IH]; [reflexivity|]. cbn in *. now rewrite IH. }
  assert (Ex : map (fun x : list header_sink * csv_output * (list (row -> option row) * header) =>
      csv_file f64 f32 (snd (fst x)) (snd (snd x)) (map EvRow (kept (through ([] ++ fst (snd x))) (selected range_all (map Ok rows))) ++ [EvFlush]))
      (combine outs (combine [[]; []] [h; h])) = [t; t]).
  { cbn [outs combine map fst snd app]. rewrite Kp. reflexivity. }
  assert (St : Forall2 (fun o x => exists ks, steps h (fst o) (snd x) ks (fst x)) outs (combine [[]; []] [h; h])).
  { constructor; [|constructor; [|constructor]]; exists []; constructor. }
  exists (shared_stdout cap 2 (split_ops f64 f32 outs [h; h] (r_log s))), t. split; [|split; [|split]].
  - unfold run_ok, split_example, open_paths. cbn [map open_inputs]. rewrite (dc_only_opens ds inflate bunzip w input h rows D Hok Fr).
    cbn [bind length map fst snd]. change [([], csv_output_default); ([], csv_output_default)] with outs.
    match goal with |- context [driver_new 1 ?x [h]] => replace (driver_new 1 x [h]) with (Ok g) by (symmetry; exact Dn) end.
    assert (Oh : output_header [(h, map Ok rows)] = Some h) by reflexivity.
    match goal with |- context [output_header ?x] => replace (output_header x) with (Some h) by (symmetry; exact Oh) end.
    match goal with |- context [drive F g ?x range_all] => replace (drive F g x range_all) with (s, @Ok unit tt) by (symmetry; exact Ed') end. reflexivity.
  - assert (Er : ev_rows (map EvRow rows ++ [EvFlush]) = rows) by (clear; induction rows as [|r l IH]; [reflexivity|]; cbn in *; now rewrite IH).
    rewrite <- Er at 1. apply default_file.
    + destruct Hok as ((Hl & _) & L2 & _). intros E. rewrite E in Hl. cbn in Hl. lia.
    + rewrite Er. exact Tx.
  - pose proof (C111_each_output_in_order f64 f32 cap F [] outs h (map Ok rows) range_all s h [] [] [[]; []] [h; h]
      ltac:(discriminate) (steps_nil h) St eq_refl eq_refl Run) as M. rewrite Ex in M. exact M.
  - intros Lt. destruct (C111_small_outputs_partial f64 f32 cap F [] outs h (map Ok rows) range_all s h [] [] [[]; []] [h; h]
      ltac:(discriminate) (steps_nil h) St eq_refl eq_refl Run) as (order & Pm & E).
    + rewrite Ex. intros x [<-|[<-|[]]]; exact Lt.
    + rewrite Ex in Pm. cbn [length outs] in E. rewrite E. clear - Pm.
      destruct order as [|x [|y [|z order]]]; try (apply Permutation_length in Pm; discriminate Pm).
      assert (x = t) by (pose proof (Permutation_in x Pm (or_introl eq_refl)) as [H|[H|[]]]; congruence).
      assert (y = t) by (pose proof (Permutation_in y Pm (or_intror (or_introl eq_refl))) as [H'|[H'|[]]]; congruence).
      subst. cbn. now rewrite app_nil_r.
Qed.
End Split.
Print Assumptions C115_compressed_is_chop.
Print Assumptions C115_compressed.
Print Assumptions C115_split.

