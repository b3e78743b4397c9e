(** Concrete runs of compressed.rs and split.rs (C115). *)
From Verif Require Import ExamplesModel ExamplesSpec T_ExamplesMore T_WholeAnyEx T_WholeEx SharedSpec.
From Verif Require Import Utf8Spec.
Local Open Scope nat_scope.

(** A compressed file with times in column 0, in a unit that its name tells. *)
Definition xn_text : bytes := b "timenanos,sym" ++ nl ++ b "10,A" ++ nl ++ b "20,B".
Definition xn_header : header := {| h_names := [b "timenanos"; b "sym"]; h_types := [TString; TString] |}.
Definition xn_rows : list row := [mix_row 10 (b "10") (b "A"); mix_row 20 (b "20") (b "B")].
Definition xn_open (p : bytes) : res handle :=
  if bytes_eqb p (b "n.csv.gz")
  then Ok {| f_reads := {| i_data := b "G" ++ xn_text; i_tail := None; i_plan := [Chunk 3; Chunk 1] |}; f_seekable := true |}
  else Err (EIo (OtherIo 2)).
Definition xn_world : world :=
  {| w_exists := fun p => is_ok (xn_open p); w_is_dir := fun _ => false; w_read_dir := fun p => Err (EIo (OtherIo 2));
     w_open := xn_open; w_http := fun _ => Err (EIo (OtherIo 2)); w_stdin := reads_as [] []; w_env_tz := None |}.

Example ex_c115_compressed :
  compressed_example Debug counting (fun s => s) (fun _ => false) csv_records toy (fun i => i) (fun i => i) (fun _ => []) (fun _ => []) 3 xn_world (b "n.csv.gz") =
  {| o_written := Some (b "timestampNanos,timenanos,sym" ++ nl ++ b "10,10,A" ++ nl ++ b "20,20,B" ++ nl); o_result := Ok tt |}.
Proof. vm_compute. reflexivity. Qed.

Lemma xn_lines : first_lines xn_text (Some [b "timenanos,sym"; b "10,A"; b "20,B"]).
Proof.
  assert (E : firstn (8 * 1024) xn_text = xn_text) by (apply firstn_all2; cbv; lia). unfold first_lines. rewrite E.
  exists ([b "timenanos,sym"; b "10,A"] ++ [b "20,B"]). split.
  - exists [b "timenanos,sym"; b "10,A"], (b "20,B").
    split; [reflexivity|]. split; [|reflexivity].
    cbn [app]. repeat (constructor; [vm_compute; intuition discriminate|]). constructor.
  - constructor; [|constructor; [|constructor; [|constructor]]]; (split; [|apply utf8_well_formed; reflexivity]).
    all: right; split; [reflexivity|]; intros x Ex; apply (f_equal (@rev ascii)) in Ex; rewrite (rev_app_distr x) in Ex; vm_compute in Ex; discriminate Ex.
Qed.
Lemma xn_records : csv_text (byte_of 44) [[b "timenanos"; b "sym"]; [b "10"; b "A"]; [b "20"; b "B"]] xn_text.
Proof.
  assert (P : forall f, (forall c, In c f -> c <> byte_of 44 /\ c <> quote /\ c <> byte_of 10 /\ c <> byte_of 13) -> cell_text (byte_of 44) f f).
  { intros f H. constructor; intro I; apply H in I; intuition. }
  apply (text_line _ _ (b "timenanos,sym") nl); [| now left |].
  { exists [b "timenanos"; b "sym"]. split; [discriminate|]. split; [|split; [reflexivity|discriminate]].
    constructor; [|constructor; [|constructor]]; apply P; intros c Hc; vm_compute in Hc; intuition (subst; discriminate). }
  apply (text_line _ _ (b "10,A") nl); [| now left |].
  { exists [b "10"; b "A"]. split; [discriminate|]. split; [|split; [reflexivity|discriminate]].
    constructor; [|constructor; [|constructor]]; apply P; intros c Hc; vm_compute in Hc; intuition (subst; discriminate). }
  apply text_last.
  exists [b "20"; b "B"]. split; [discriminate|]. split; [|split; [reflexivity|discriminate]].
  constructor; [|constructor; [|constructor]]; apply P; intros c Hc; vm_compute in Hc; intuition (subst; discriminate).
Qed.
Lemma xn_content : csv_content (fun s => s) (fun _ => false) (compressed_args (b "n.csv.gz")) (@None (zone counting)) xn_text xn_header xn_rows.
Proof.
  exists (Some [b "timenanos,sym"; b "10,A"; b "20,B"]), (byte_of 44), true, xn_text,
    [[b "timenanos"; b "sym"]; [b "10"; b "A"]; [b "20"; b "B"]], [[b "timenanos"; b "sym"]; [b "10"; b "A"]; [b "20"; b "B"]],
    [b "timenanos"; b "sym"], [b "10"; b "A"], [[b "20"; b "B"]], [b "10"; b "20"], [10%N; 20%N], (ColIndex 0), (Some Nanos), (FUnits Nanos).
  split; [exact xn_lines|]. split; [reflexivity|]. do 3 (split; [discriminate|]).
  split. { right. right. split; [reflexivity|]. vm_compute. reflexivity. }
  split; [now left|]. split; [intros x; discriminate|]. split; [exact xn_records|].
  assert (T2 : forall s, forallb (fun c => (c <? 128)%N && negb (white_space c)) (chars s) = true -> s = str (chars s) -> trimmed s s).
  { intros s A B. rewrite forallb_forall in A. apply trimmed_same; [|exact B|].
    - apply Forall_forall. intros c Hc. specialize (A c Hc). apply andb_prop in A as [A _]. apply N.ltb_lt in A. unfold scalar. lia.
    - exists [], []. rewrite app_nil_r. split; [reflexivity|]. do 2 (split; [constructor|]). split.
      + intros c t E. specialize (A c). rewrite E in A. specialize (A (or_introl eq_refl)). apply andb_prop in A as [_ A]. now destruct (white_space c).
      + intros c t E. specialize (A c). rewrite E in A. specialize (A ltac:(apply in_or_app; right; now left)). apply andb_prop in A as [_ A]. now destruct (white_space c). }
  split.
  { repeat (constructor; [constructor; [|constructor; [|constructor]]|]); [| | | | | |constructor]. all: apply T2; vm_compute; reflexivity. }
  split; [reflexivity|]. split; [constructor; [reflexivity|constructor]|]. split; [reflexivity|]. split; [reflexivity|].
  split. { apply (one_column _ _ _ (b "0") 0 (Some Nanos) (b "timenanos")); [reflexivity|reflexivity| |reflexivity|exists (b "time"); reflexivity].
    left. split; [reflexivity|]. left. apply (numeral_one 48). unfold digit. lia. }
  split. { intros x _. apply named_units; reflexivity. }
  split. { constructor; [constructor; reflexivity|constructor; [constructor; reflexivity|constructor]]. }
  split; [|reflexivity].
  constructor; [|constructor; [|constructor]]; (eexists; split; [|split; [|]]);
    [apply (numeral_more [49%N] 1 48); [apply (numeral_one 49); unfold digit; lia|unfold digit; lia]|reflexivity|reflexivity
    |apply (numeral_more [50%N] 2 48); [apply (numeral_one 50); unfold digit; lia|unfold digit; lia]|reflexivity|reflexivity].
Qed.
Lemma xn_gives : file_gives (fun s => s) (fun _ => false) toy (fun i => i) (fun i => i) xn_world (compressed_args (b "n.csv.gz"))
  (@None (zone counting)) xn_header InputModel.Auto (b "n.csv.gz") xn_rows.
Proof.
  exists (b "n.csv.gz"), (b "G" ++ xn_text), xn_text, KCsv. split; [|split; [|exact xn_content]].
  - assert (Sm : smooth [Chunk 3; Chunk 1]) by (intros e He; cbn in He; intuition discriminate).
    eapply holds_itself; [split; [reflexivity|split; [reflexivity|split; reflexivity]]|reflexivity| |reflexivity|split; [reflexivity|split; [reflexivity|exact Sm]]|].
    + split; [left; reflexivity|]. split; [cbn; intuition discriminate|]. split; [discriminate|]. split; discriminate.
    + intros [t E]; discriminate E.
  - left. exists (b "n.csv.gz"). split; [reflexivity|]. apply (told_packed toy _ (b "n.csv") GZ); [apply (named_csv (b "n"))|].
    intros p out (i & (D & T & Sm) & E) Do. inversion Do; subst; clear Do. eexists. split; [reflexivity|].
    rewrite (preview_stream _ _ E), D, T. split; [reflexivity|]. split; [reflexivity|]. intros e [H|[]]. discriminate H.
Qed.
Example ex_c115_compressed_claim : exists out,
  run_ok (compressed_example Debug counting (fun s => s) (fun _ => false) csv_records toy (fun i => i) (fun i => i) (fun _ => []) (fun _ => []) 3 xn_world (b "n.csv.gz")) out /\
  default_csv (fun _ => []) (fun _ => []) xn_header xn_rows out.
Proof.
  apply (C115_compressed Debug counting (fun s => s) (fun _ => false) toy (fun i => i) (fun i => i) (fun _ => []) (fun _ => []) None demo_known demo_create);
    [lia|reflexivity|exact xn_gives|discriminate|discriminate].
Qed.

(** split.rs on a DC file. *)
Example ex_c115_split :
  split_example no_decoders (fun i => i) (fun i => i) (fun _ => []) (fun _ => []) (8 * 1024) 9 (demo_world []) (b "a.dc") =
  let t := b "timestampNanos,sym,px" ++ nl ++ b "10,A,1" ++ nl ++ b "20,A,2" ++ nl ++ b "20,A,3" ++ nl in
  {| o_written := Some (t ++ t); o_result := Ok tt |}.
Proof. vm_compute. reflexivity. Qed.
Example ex_c115_split_claim : exists F0, forall F, F0 <= F -> exists out t,
  run_ok (split_example no_decoders (fun i => i) (fun i => i) (fun _ => []) (fun _ => []) 30 F (demo_world []) (b "a.dc")) out /\
  default_csv (fun _ => []) (fun _ => []) demo_header demo_a t /\ mixed [t; t] out.
Proof.
  destruct (C115_split no_decoders (fun i => i) (fun i => i) (fun _ => []) (fun _ => []) 30 (demo_world []) (b "a.dc") demo_header demo_a
    demo_a_input demo_header_ok demo_a_fits ltac:(discriminate)) as (F0 & K).
  exists F0. intros F HF. destruct (K F HF) as (out & t & R & D & M & _). eauto.
Qed.
