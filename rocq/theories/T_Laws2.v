(** Property theorems relating several runs: a directory and its files (C128). *)
From Verif Require Export T_Laws.
From Verif Require Import T_Whole T_Whole2 T_CliCsv T_WholeCsv T_WholeAny DriveTop T_Directory MultiSpec.
Local Open Scope nat_scope.
Local Notation in_range := StreamSpec.in_range.
Local Notation at_time t := (fun r => (ts r =? t)%N).

Section Laws.
Context (prof : profile) (ch : chrono) (lower : bytes -> bytes) (f64_ok : text -> bool).
Variables (ds : decoders) (inflate bunzip : inner -> inner) (f64 f32 : N -> bytes).
Variables (zones : option (bytes -> option (zone ch))) (parse_zone : bytes -> option (zone ch)).
Variable create : bytes -> res unit.
Local Notation cli := (chopper_cli prof ch lower f64_ok csv_records ds inflate bunzip f64 f32 None None zones parse_zone create).
Local Notation args_of := (parse_args prof ch zones parse_zone).
Local Notation meant a w z := (zone_meant (a_timezone a) (w_env_tz w) zones parse_zone z).

(** ** C128: a directory is its files *)
Theorem C128_directory : forall k F w a z u h dir entries files rowss out out' s e op,
  3 <= F -> meant a w z -> granularity a u ->
  args_of w (asked a [dir] out s e) = Ok op ->
  Forall (fun x => output_is k x /\ forall p, x = Some p -> create p = Ok tt) [out; out'] ->
  can_hold k a z h rowss ->
  (* the files of the directory, in the order of their names *)
  w_is_dir w dir = true -> w_read_dir w dir = Ok entries -> files_of w entries files ->
  (forall x y, In x files -> In y files -> path_le x y -> path_le y x -> x = y) ->
  header_wf h ->
  Forall2 (fun path rows => file_gives lower f64_ok ds inflate bunzip w a z h InputModel.Auto path rows /\ has_rows (op_range ch op) rows) files rowss ->
  files <> [] ->
  (* each file begins where the one before ends, or later *)
  time_ordered (concat rowss) ->
  exists result,
    run_ok (cli F w (asked a [dir] out s e)) result /\
    (* the files named from the last to the first *)
    run_ok (cli F w (asked a (rev files) out' s e)) result /\
    (* in any order, if no time is in two of the files *)
    ((forall i j x y r q, nth_error rowss i = Some x -> nth_error rowss j = Some y -> In r x -> In q y -> ts r = ts q -> i = j) ->
     forall ins, Permutation ins files -> run_ok (cli F w (asked a ins out' s e)) result).
Proof.
  intros k F w a z u h dir entries files rowss out out' s e op HF Hz Hu Ea Ho Hc Hd Hrd Hfo Han Hwf H2 Ne So.
  inversion Ho as [|? ? [O1 C1] Ho']; subst. inversion Ho' as [|? ? [O2 C2] _]; subst. clear Ho'.
  set (rng := op_range ch op) in *.
  assert (Lf : length files = length rowss) by (eapply GraphProps.Forall2_len; eauto).
  assert (Parts : Forall time_ordered rowss).
  { apply Forall_forall. intros rs Hrs. apply in_split in Hrs as (l1 & l2 & ->). rewrite concat_app in So. cbn [concat] in So.
    apply Sorted_StronglySorted in So; [|exact ts_le_trans]. apply StronglySorted_Sorted.
    assert (Sub : forall (x y : list row), StronglySorted ts_le (x ++ y) -> StronglySorted ts_le x /\ StronglySorted ts_le y).
    { clear. induction x as [|r x IH]; intros y H; [split; [constructor|exact H]|]. cbn in H. apply StronglySorted_inv in H as [A B].
      destruct (IH y A) as [P Q]. split; [|exact Q]. constructor; [exact P|]. apply Forall_app in B. apply B. }
    apply Sub in So as [_ So]. apply Sub in So as [So _]. exact So. }
  assert (Gf : Forall2 (fun path rows => input_gives lower f64_ok ds inflate bunzip w a z h InputModel.Auto (Path path) rows /\ time_ordered rows /\ has_rows rng rows) files rowss).
  { clear - H2 Parts. induction H2 as [|p rs ps rss [A B] H2 IH]; [constructor|]. inversion Parts; subst. constructor; [|auto].
    split; [now constructor|]. auto. }
  assert (Gd : input_gives lower f64_ok ds inflate bunzip w a z h InputModel.Auto (Path dir) (concat rowss)).
  { eapply gives_directory; eauto. clear - H2. induction H2 as [|p rs ps rss [A B] H2 IH]; constructor; auto. }
  assert (Hh : has_rows rng (concat rowss)).
  { inversion H2 as [|p rs ps rss [_ (r & A & B)] _]; subst; [congruence|]. exists r. split; [|exact B]. cbn [concat]. apply in_or_app. now left. }
  destruct (law_run prof ch lower f64_ok ds inflate bunzip f64 f32 zones parse_zone create k F w a op z u h [dir] out s e [concat rowss])
    as (rows & R & Pm & Sr & Te); auto.
  { eapply can_hold_some; [exact Hc|]. intros _ rs r [<-|[]] Hr. apply in_concat in Hr as (rs0 & X & Y). eauto. }
  cbn [rev app map concat] in Te, Pm.
  exists (head_of k (op_csv_out ch op) h ++ concat (map (line_of f64 f32 k (op_csv_out ch op) h) rows)). split; [exact R|].
  destruct (args_asked prof ch zones parse_zone w a [dir] out s e op z Hz Ea) as (_ & Eco & Er & ci & Eci).
  assert (Nr : rev files <> []) by (intro X; apply (f_equal (@rev _)) in X; rewrite rev_involutive in X; auto).
  assert (First : run_ok (cli F w (asked a (rev files) out' s e)) (head_of k (op_csv_out ch op) h ++ concat (map (line_of f64 f32 k (op_csv_out ch op) h) rows))).
  { destruct (asked_args prof ch zones parse_zone w a (rev files) out' s e ci _ _ z Hz Nr Eci Eco Er) as (o' & Ea' & Eco' & Er').
    destruct (law_run prof ch lower f64_ok ds inflate bunzip f64 f32 zones parse_zone create k F w a o' z u h (rev files) out' s e (rev rowss))
      as (rows' & R' & Pm' & Sr' & Te'); auto.
    - eapply can_hold_some; [exact Hc|]. intros _ rs r Hrs Hr. apply in_rev in Hrs. eauto.
    - rewrite Er'. clear - Gf. induction Gf as [|p rs ps rss A Gf IH]; [constructor|]. cbn [rev]. apply Forall2_app; [exact IH|]. constructor; [exact A|constructor].
    - rewrite Eco' in R'. rewrite Er', rev_involutive in Te'.
      assert (E : rows = rows'); [|now rewrite E].
      apply by_times_unique; [exact Sr|exact Sr'|]. intro t. rewrite Te, Te', app_nil_r.
      rewrite !filter_concat, map_map. reflexivity. }
  split; [exact First|]. intros Hno ins Pi.
  (* any other order *)
  assert (Pairs : exists rss, length ins = length rss /\ Permutation (combine (rev files) (rev rowss)) (combine ins rss)).
  { assert (Pr : Permutation (rev files) ins) by (eapply Permutation_trans; [apply Permutation_sym, Permutation_rev|apply Permutation_sym; exact Pi]).
    assert (Lr : length (rev files) = length (rev rowss)) by (rewrite !rev_length; exact Lf).
    revert Lr. generalize (rev rowss). clear - Pr. induction Pr as [|x l l' Pr IH|x y l|l l' l'' P1 IH1 P2 IH2]; intros rs Lr.
    - exists []. split; [reflexivity|constructor].
    - destruct rs as [|r rs]; [discriminate|]. destruct (IH rs) as (rss & L & P); [cbn in Lr; lia|].
      exists (r :: rss). split; [cbn; lia|]. cbn [combine]. now constructor.
    - destruct rs as [|r [|r' rs]]; try discriminate. exists (r' :: r :: rs). split; [exact Lr|]. cbn [combine]. constructor.
    - destruct (IH1 rs Lr) as (r1 & L1 & Q1). destruct (IH2 r1 L1) as (r2 & L2 & Q2). exists r2. split; [exact L2|]. eapply Permutation_trans; eauto. }
  destruct Pairs as (rss & Lr & Pp).
  destruct (asked_args prof ch zones parse_zone w a (rev files) out' s e ci _ _ z Hz Nr Eci Eco Er) as (o' & Ea' & Eco' & Er').
  destruct (C125_input_order prof ch lower f64_ok ds inflate bunzip f64 f32 zones parse_zone create k F w a z u h (rev files) ins out' out' s e o' (rev rowss) rss)
    as (hd & ln & q & q' & _ & R1 & R2 & _ & _ & _ & Eq); auto.
  - eapply can_hold_some; [exact Hc|]. intros _ rs r Hrs Hr. apply in_rev in Hrs. eauto.
  - rewrite Er'. clear - Gf. induction Gf as [|p rs ps rs' A Gf IH]; [constructor|]. cbn [rev]. apply Forall2_app; [exact IH|]. constructor; [exact A|constructor].
  - rewrite <- Eq in R2.
    + unfold run_ok in *. rewrite First in R1. injection R1 as R1. rewrite R1. exact R2.
    + intros i j x y r p Hi Hj Hr Hp T.
      assert (Nr' : forall i x, nth_error (rev rowss) i = Some x -> nth_error rowss (length rowss - 1 - i) = Some x /\ i < length rowss).
      { clear. intros i x H. assert (i < length rowss) by (rewrite <- (rev_length rowss); apply nth_error_Some; congruence). split; [|assumption].
        rewrite <- H. rewrite <- (rev_involutive rowss) at 1. 
        rewrite (nth_error_nth' (rev (rev rowss)) [] ) by (rewrite !rev_length; lia). rewrite (nth_error_nth' (rev rowss) []) by (rewrite rev_length; lia).
        f_equal. rewrite rev_nth by (rewrite rev_length; lia). rewrite rev_length. f_equal. lia. }
      apply Nr' in Hi as [Hi Li]. apply Nr' in Hj as [Hj Lj]. specialize (Hno _ _ _ _ _ _ Hi Hj Hr Hp T). lia.
Qed.
End Laws.
Print Assumptions C128_directory.
