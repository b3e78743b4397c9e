(** C138: a damaged file in a directory is noticed. *)
From Verif Require Import MultiProofs SortProofs T_Directory.
From Verif Require Import WholeCsvSpec T_Whole T_Whole2 T_WholeCsv T_CliCsv T_Zip DcLayoutProofs T_DcLayout T_Damage T_DamageZip.
From Verif Require Import ReaderProofs T_Reader.
Local Open Scope nat_scope.

Lemma drain_all_ok {P} (open : P -> res (option (header * source))) : forall paths common m s n,
  S (length s + list_sum (map (fun p => match open p with Ok (Some (_, s)) => length s | _ => 0 end) paths) + length paths) <= n ->
  (forall x, In x (drain open n {| m_paths := paths; m_common := common; m_map := m; m_cur := Some s |}) -> is_ok x = true) ->
  (forall x, In x s -> is_ok x = true) /\
  forall p, In p paths -> exists h s', open p = Ok (Some (h, s')) /\ forall x, In x s' -> is_ok x = true.
Proof.
  induction paths as [|p ps IHp]; intros common m s; induction s as [|x s IHs]; intros n L H.
  - split; [intros x []|intros p []].
  - destruct n as [|n]; [cbn in L; lia|]. cbn [drain multi_next multi_loop m_common m_paths m_map m_cur] in H.
    destruct x as [r| | | |]; try (specialize (H _ (or_introl eq_refl)); discriminate H).
    unfold multi_next in H. cbn [multi_loop m_common m_paths m_map m_cur] in H.
    destruct (realign m r) as [r'| | | |]; cbn [bind] in H; try (specialize (H _ (or_introl eq_refl)); discriminate H).
    destruct (IHs n) as [A B]; [cbn in *; lia|intros y Hy; apply H; now right|].
    split; [|exact B]. intros y [<-|Hy]; [reflexivity|now apply A].
  - split; [intros x []|]. destruct n as [|n]; [cbn in L; lia|]. cbn [map list_sum fold_right length] in L.
    assert (C : exists h s' m', open p = Ok (Some (h, s')) /\ 
      drain open (S n) {| m_paths := p :: ps; m_common := common; m_map := m; m_cur := Some [] |} =
      drain open (S n) {| m_paths := ps; m_common := common; m_map := m'; m_cur := Some s' |}).
    { cbn [drain] in *. unfold multi_next in *. cbn [multi_loop m_common m_paths m_map m_cur] in *. unfold create_source in *.
      destruct (open p) as [[[h s']|]| | | |]; cbn [bind] in *; try (specialize (H _ (or_introl eq_refl)); discriminate H).
      destruct (check_headers common h) as [m'| | | |]; cbn [bind] in *; try (specialize (H _ (or_introl eq_refl)); discriminate H).
      exists h, s', m'. split; [reflexivity|]. destruct s' as [|x s']; reflexivity. }
    destruct C as (h & s' & m' & E & Ed). rewrite Ed in H. rewrite E in L.
    destruct (IHp common m' s' (S n)) as [A B]; [unfold list_sum in *; lia|exact H|].
    intros q [<-|Hq]; [eauto|now apply B].
  - destruct n as [|n]; [cbn in L; lia|]. cbn [drain] in H. unfold multi_next in H. cbn [multi_loop m_common m_paths m_map m_cur] in H.
    destruct x as [r| | | |]; try (specialize (H _ (or_introl eq_refl)); discriminate H).
    destruct (realign m r) as [r'| | | |]; cbn [bind] in H; try (specialize (H _ (or_introl eq_refl)); discriminate H).
    destruct (IHs n) as [A B]; [cbn in *; lia|intros y Hy; apply H; now right|].
    split; [|exact B]. intros y [<-|Hy]; [reflexivity|now apply A].
Qed.

Section Dir.
Context (prof : profile) (ch : chrono) (lower : bytes -> bytes) (f64_ok : text -> bool).
Variables (ds : decoders) (inflate bunzip : inner -> inner) (f64 f32 : N -> bytes).
Variables (zones : option (bytes -> option (zone ch))) (parse_zone : bytes -> option (zone ch)).
Variable create : bytes -> res unit.
Local Notation cli := (chopper_cli prof ch lower f64_ok csv_records ds inflate bunzip f64 f32 None None zones parse_zone create).
Local Notation args_of := (parse_args prof ch zones parse_zone).
Local Notation sfs opts := (all_factories prof ch lower f64_ok csv_records None (op_csv_in ch opts)).

Lemma no_end w a opts : args_of w a = Ok opts -> a_end a = None -> forall t, before_end (op_range ch opts) t = true.
Proof.
  intros Ea Ae. unfold parse_args in Ea. destruct (resolve_timezone _ _ _ _); try discriminate. cbn [bind] in Ea.
  unfold timestamp_range in Ea. rewrite Ae in Ea. destruct (a_begin a).
  - destruct (parse_range_element _ _ _ _); try discriminate. cbn [bind] in Ea.
    destruct (cli_inputs _ _); try discriminate. cbn [bind] in Ea. destruct (csv_input_options a _); try discriminate. cbn [bind] in Ea.
    destruct (csv_output_options a _); try discriminate. injection Ea as <-. reflexivity.
  - cbn [bind] in Ea. destruct (cli_inputs _ _); try discriminate. cbn [bind] in Ea. destruct (csv_input_options a _); try discriminate. cbn [bind] in Ea.
    destruct (csv_output_options a _); try discriminate. injection Ea as <-. reflexivity.
Qed.

(** Exit code 0 and no --end: every file of a directory that is an input was opened, and no read of it failed. *)
Lemma dir_read F w a opts paths dir entries p : exit_code (cli F w a) = 0%N -> args_of w a = Ok opts ->
  a_inputs a = Some paths -> a_formats a = None -> a_end a = None -> In dir paths ->
  w_is_dir w dir = true -> w_read_dir w dir = Ok entries -> In p entries -> w_is_dir w p = false ->
  exists h s, create_source_from_input ds inflate bunzip w None (sfs opts) {| in_type := Path p; in_format := InputModel.Auto |} = Ok (h, s) /\
    forall x, In x s -> is_ok x = true.
Proof.
  intros H Ea Ain Af Ae Hin Hd Hr Hp Hnd.
  destruct (exit_0_read prof ch lower f64_ok ds inflate bunzip f64 f32 zones parse_zone create F w a opts paths dir H Ea Ain Af Hin) as (h & src & O & R).
  destruct (readable_cases _ _ R) as [(r & _ & B)|A]; [rewrite (no_end w a opts Ea Ae) in B; discriminate|].
  unfold create_source_from_input in O. cbn [in_type in_format] in O.
  change (dt_can_handle (dir_file_transport w) dir) with (w_is_dir w dir) in O. rewrite Hd in O.
  set (open := create_source_from_path ds inflate bunzip w None (sfs opts) InputModel.Auto) in *.
  destruct (files_in_dir_spec (dir_file_transport w) dir entries Hd Hr) as (fr & Ef & P & _).
  assert (Hf : In p (provider_paths fr)).
  { apply (Permutation_in p P), filter_In. split; [exact Hp|]. change (dt_is_dir (dir_file_transport w) p) with (w_is_dir w p). now rewrite Hnd. }
  unfold dir_source in O. rewrite Ef in O. cbn [bind] in O.
  destruct (provider_paths fr) as [|q qs]; [destruct Hf|].
  unfold multi_new, create_source in O. destruct (open q) as [[[hq sq]|]| | | |] eqn:Eq; try discriminate O. cbn [bind] in O.
  injection O as <- <-.
  destruct (drain_all_ok open qs hq [] sq _ (le_n _)) as [A1 A2].
  { intros x Hx. apply A. unfold multi_source, multi_bound. cbn [snd m_common m_cur m_paths]. exact Hx. }
  assert (X : exists h s, open p = Ok (Some (h, s)) /\ forall x, In x s -> is_ok x = true).
  { destruct Hf as [<-|Hf]; [eauto|exact (A2 p Hf)]. }
  destruct X as (h & s & E & K). exists h, s. split; [|exact K].
  unfold create_source_from_input. cbn [in_type in_format].
  change (dt_can_handle (dir_file_transport w) p) with (w_is_dir w p). rewrite Hnd. fold open. rewrite E. reflexivity.
Qed.
(** So every file was whole: its rows are all there are. *)
Theorem C138_whole : forall F w a opts paths dir entries p,
  exit_code (cli F w a) = 0%N -> args_of w a = Ok opts -> a_inputs a = Some paths -> a_formats a = None -> a_end a = None ->
  In dir paths -> w_is_dir w dir = true -> w_read_dir w dir = Ok entries -> In p entries -> w_is_dir w p = false ->
  exists h rows, create_source_from_input ds inflate bunzip w None (sfs opts) {| in_type := Path p; in_format := InputModel.Auto |} = Ok (h, map Ok rows).
Proof.
  intros F w a opts paths dir entries p H Ea Ain Af Ae Hin Hd Hr Hp Hnd.
  destruct (dir_read F w a opts paths dir entries p H Ea Ain Af Ae Hin Hd Hr Hp Hnd) as (h & s & E & K).
  exists h. rewrite E. clear E. assert (X : exists rows, s = map Ok rows).
  { induction s as [|x s IH]; [exists []; reflexivity|]. destruct IH as [rows ->]; [intros y Hy; apply K; now right|].
    specialize (K x (or_introl eq_refl)). destruct x as [r| | | |]; try discriminate. exists (r :: rows). reflexivity. }
  destruct X as [rows ->]. eauto.
Qed.
(** A CSV file in the directory that cannot be read to its end, plain, compressed or in an archive: no success. *)
Theorem C138_csv : forall F w a opts paths dir entries p data e,
  args_of w a = Ok opts -> a_inputs a = Some paths -> a_formats a = None -> a_end a = None ->
  In dir paths -> w_is_dir w dir = true -> w_read_dir w dir = Ok entries -> In p entries -> w_is_dir w p = false ->
  read_input ds inflate bunzip w p (b ".csv") data (Some e) ->
  exit_code (cli F w a) <> 0%N.
Proof.
  intros F w a opts paths dir entries p data e Ea Ain Af Ae Hin Hd Hr Hp Hnd Hm H.
  destruct (dir_read F w a opts paths dir entries p H Ea Ain Af Ae Hin Hd Hr Hp Hnd) as (h & s & O & A).
  destruct (read_opened prof ch lower f64_ok ds inflate bunzip w (op_csv_in ch opts) p (b ".csv") data (Some e) _ (or_introl eq_refl) Hm O)
    as (i & Di & Ti & Sm & E).
  destruct (previewer_new i) as [q| | | |] eqn:Ep; try discriminate. cbn [bind] in E.
  change (bytes_eqb (b ".csv") (b ".csv")) with true in E. cbv iota in E. unfold csv_create in E.
  rewrite (preview_stream _ _ Ep), Di, Ti in E.
  destruct (csv_new _ _ _ _ _ _ (get_lines q) _) as [c| | | |] eqn:Es; try discriminate. cbn [bind] in E. injection E as <- <-.
  destruct (C49_csv_partial _ _ _ _ _ _ _ _ _ Es) as (rows & o & Eo & Bo). rewrite Eo in A.
  assert (X : is_ok o = true) by (apply A, in_or_app; right; now left). congruence.
Qed.
(** A DC file in the directory: it consists of whole rows, but for less than a timestamp. *)
Theorem C138_dc_partial : forall F w a opts paths dir entries p data tail,
  exit_code (cli F w a) = 0%N -> args_of w a = Ok opts -> a_inputs a = Some paths -> a_formats a = None -> a_end a = None ->
  In dir paths -> w_is_dir w dir = true -> w_read_dir w dir = Ok entries -> In p entries -> w_is_dir w p = false ->
  read_input ds inflate bunzip w p (b ".dc") data tail -> (N.of_nat (length data) < 2 ^ 32 - 2 ^ 15)%N ->
  exists names types rows core rest, data = core ++ rest /\ dc_layout names types rows core /\ length rest < 8.
Proof.
  intros F w a opts paths dir entries p data tail H Ea Ain Af Ae Hin Hd Hr Hp Hnd Hm Hs.
  destruct (dir_read F w a opts paths dir entries p H Ea Ain Af Ae Hin Hd Hr Hp Hnd) as (h & s & O & A).
  destruct (read_opened prof ch lower f64_ok ds inflate bunzip w (op_csv_in ch opts) p (b ".dc") data tail _ (or_intror eq_refl) Hm O)
    as (i & Di & Ti & Sm & E).
  destruct (previewer_new i) as [q| | | |] eqn:Ep; try discriminate. cbn [bind] in E.
  change (bytes_eqb (b ".dc") (b ".csv")) with false in E. cbv iota in E. unfold dc_create in E.
  rewrite (preview_stream _ _ Ep), Di, Ti in E.
  destruct (dc_read _) as [[h' [rows e]]| | | |] eqn:Er; try discriminate. cbn [bind] in E. injection E as <- <-.
  assert (e = Ok tt) as ->.
  { destruct e as [[]| | | |]; [reflexivity|..].
    all: match type of A with forall x, In x (_ ++ [?y]) -> _ => specialize (A y); assert (X : is_ok y = true) by (apply A, in_or_app; right; now left); discriminate X end. }
  destruct (read_sound {| s_data := data; s_tail := tail |} _ _ Hs Er) as (names & core & junk & D & Lj & Ly & _).
  exists names, (h_types h'), rows, core, junk. auto.
Qed.
End Dir.
Print Assumptions C138_whole.
Print Assumptions C138_csv.
Print Assumptions C138_dc_partial.
