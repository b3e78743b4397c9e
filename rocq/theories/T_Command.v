(** C121: what a command line means. *)
From Verif Require Import CommandSpec CommandModel CommandProofs.
From Coq Require Import Permutation.
Local Open Scope nat_scope.

Definition reqs (o : opt) : list opt :=
  match o with
  | CsvInTsColDate => [CsvInTsColTime] | CsvInTsColTime => [CsvInTsColDate]
  | CsvInTsFmtDate => [CsvInTsFmtTime] | CsvInTsFmtTime => [CsvInTsFmtDate]
  | _ => []
  end.
Definition confs (o : opt) : list opt :=
  match o with
  | CsvInTsColDate | CsvInTsColTime | CsvInTsFmtDate | CsvInTsFmtTime => [CsvInTsCol; CsvInTsFmt]
  | CsvInEpoch => [CsvInTsColDate; CsvInTsColTime; CsvInTsFmt]
  | _ => []
  end.
Lemma reqs_declared o : d_requires (decl_of o) = map name_of (reqs o).
Proof. destruct o; reflexivity. Qed.
Lemma confs_declared o : d_conflicts (decl_of o) = map name_of (confs o).
Proof. destruct o; reflexivity. Qed.
Lemma forallb_map (A B : Type) (f : A -> B) p l : forallb p (map f l) = forallb (fun x => p (f x)) l.
Proof. induction l as [|x l IH]; [reflexivity|]. cbn. now rewrite IH. Qed.
Lemma forallb_ext (A : Type) (p q : A -> bool) l : (forall x, p x = q x) -> forallb p l = forallb q l.
Proof. intros H. induction l as [|x l IH]; [reflexivity|]. cbn. now rewrite H, IH. Qed.

Definition valid_opt (ss : list setting) (o : opt) : bool :=
  (length (vals_of o ss) <=? 1) && forallb (possible (decl_of o)) (vals_of o ss) &&
  (negb (given_opt o ss) || forallb (fun r => given_opt r ss) (reqs o) && forallb (fun c => negb (given_opt c ss)) (confs o)).
Lemma valid_opt_eq ss o : decl_valid (fold_left apply1 ss m0) (decl_of o) = valid_opt ss o.
Proof.
  unfold decl_valid, valid_opt. fold (name_of o). rewrite count_opt, present_opt, values_opt, reqs_declared, confs_declared, !forallb_map.
  f_equal; [f_equal|].
  - induction (vals_of o ss) as [|v l IH]; [reflexivity|]. cbn [flat_map forallb]. rewrite forallb_app, IH. f_equal.
    unfold pieces. destruct o; cbn [decl_of d_comma valued]; try (cbn [forallb]; apply andb_true_r).
    unfold possible. cbn [d_possible]. induction (split_commas [] v); [reflexivity|assumption].
  - f_equal. f_equal; apply forallb_ext; intros x; rewrite present_opt; reflexivity.
Qed.
Lemma valid_flag_eq ss f : decl_valid (fold_left apply1 ss m0) (flag_decl f) = (length (flags_of f ss) <=? 1).
Proof.
  unfold decl_valid. fold (flag_name f). rewrite count_flag.
  assert (V : forallb (possible (flag_decl f)) (values_of (fold_left apply1 ss m0) (flag_name f)) = true).
  { apply forallb_forall. intros v _. destruct f; reflexivity. }
  rewrite V, andb_true_r.
  assert (H : is_present (fold_left apply1 ss m0) (b "human") = false).
  { apply present_other; [intros []; reflexivity|intros []; reflexivity|reflexivity]. }
  assert (E : is_present (fold_left apply1 ss m0) (b "epoch") = false).
  { apply present_other; [intros []; reflexivity|intros []; reflexivity|reflexivity]. }
  destruct f; cbn [flag_decl d_requires d_conflicts forallb]; rewrite ?H, ?E; cbn; rewrite orb_true_r, andb_true_r; reflexivity.
Qed.
Lemma valid_iff ss : forallb (decl_valid (fold_left apply1 ss m0)) declared = true <->
  (forall o, valid_opt ss o = true) /\ forall f, length (flags_of f ss) <= 1.
Proof.
  rewrite all_declared. cbn [forallb]. rewrite !valid_opt_eq, !valid_flag_eq, !andb_true_iff. split.
  - intros H. split; [intros []; tauto|intros []; apply Nat.leb_le; tauto].
  - intros [H1 H2]. repeat split; try apply H1; apply Nat.leb_le, H2.
Qed.

(** ** Settings *)
Lemma in_vals o v ss : In v (vals_of o ss) <-> In (Value o v) ss.
Proof.
  unfold vals_of. rewrite in_flat_map. split.
  - intros ([o' v'|f|x] & H & I); cbn in I; try easy. destruct (opt_dec o' o) as [->|]; [|easy]. destruct I as [<-|[]]. exact H.
  - intros H. exists (Value o v). split; [exact H|]. destruct (opt_dec o o); [now left|congruence].
Qed.
Lemma in_flags f ss : In (Flag f) ss <-> flags_of f ss <> [].
Proof.
  unfold flags_of. split.
  - intros H E. apply in_split in H. destruct H as (l1 & l2 & ->). rewrite flat_map_app in E. apply app_eq_nil in E. destruct E as [_ E].
    cbn in E. destruct (flag_dec f f); [discriminate|congruence].
  - intros H. induction ss as [|s ss IH]; [easy|]. cbn [flat_map] in H. destruct s as [o v|f'|v]; [right; now apply IH| |right; now apply IH].
    destruct (flag_dec f' f) as [->|]; [now left|]. right. now apply IH.
Qed.
Lemma vals_app o l l' : vals_of o (l ++ l') = vals_of o l ++ vals_of o l'.
Proof. apply flat_map_app. Qed.
Lemma flags_app o l l' : flags_of o (l ++ l') = flags_of o l ++ flags_of o l'.
Proof. apply flat_map_app. Qed.
Lemma two_vals o ss : 2 <= length (vals_of o ss) -> exists pre mid post v v', ss = pre ++ Value o v :: mid ++ Value o v' :: post.
Proof.
  induction ss as [|s ss IH]; [cbn; lia|]. intros H.
  assert (D : 2 <= length (vals_of o ss) \/ exists v, s = Value o v /\ 1 <= length (vals_of o ss)).
  { cbn [vals_of flat_map] in H. rewrite app_length in H. fold (vals_of o ss) in H. destruct s as [o' v|f|v]; [|now left|now left].
    destruct (opt_dec o' o) as [->|]; [|now left]. cbn in H. right. exists v. split; [reflexivity|lia]. }
  destruct D as [D|(v & -> & D)].
  - destruct (IH D) as (pre & mid & post & v & v' & ->). exists (s :: pre), mid, post, v, v'. reflexivity.
  - destruct (vals_of o ss) as [|v' l] eqn:E; [cbn in D; lia|]. assert (I : In (Value o v') ss) by (apply in_vals; rewrite E; now left).
    apply in_split in I. destruct I as (mid & post & ->). exists [], mid, post, v, v'. reflexivity.
Qed.
Lemma two_flags f ss : 2 <= length (flags_of f ss) -> exists pre mid post, ss = pre ++ Flag f :: mid ++ Flag f :: post.
Proof.
  induction ss as [|s ss IH]; [cbn; lia|]. intros H.
  assert (D : 2 <= length (flags_of f ss) \/ s = Flag f /\ 1 <= length (flags_of f ss)).
  { cbn [flags_of flat_map] in H. rewrite app_length in H. fold (flags_of f ss) in H. destruct s as [o' v|f'|v]; [now left| |now left].
    destruct (flag_dec f' f) as [->|]; [|now left]. cbn in H. right. split; [reflexivity|lia]. }
  destruct D as [D|(-> & D)].
  - destruct (IH D) as (pre & mid & post & ->). exists (s :: pre), mid, post. reflexivity.
  - assert (I : In (Flag f) ss) by (apply in_flags; intros E; rewrite E in D; cbn in D; lia).
    apply in_split in I. destruct I as (mid & post & ->). exists [], mid, post. reflexivity.
Qed.
Lemma once_iff ss : once ss <-> (forall o, length (vals_of o ss) <= 1) /\ forall f, length (flags_of f ss) <= 1.
Proof.
  split.
  - intros [A B]. split.
    + intros o. destruct (le_lt_dec 2 (length (vals_of o ss))) as [H|H]; [|lia].
      destruct (two_vals o ss H) as (pre & mid & post & v & v' & E). destruct (A _ _ _ _ _ _ E).
    + intros f. destruct (le_lt_dec 2 (length (flags_of f ss))) as [H|H]; [|lia].
      destruct (two_flags f ss H) as (pre & mid & post & E). destruct (B _ _ _ _ E).
  - intros [A B]. split.
    + intros pre mid post o v v' ->. specialize (A o). rewrite vals_app in A. change (Value o v :: mid ++ Value o v' :: post) with ([Value o v] ++ mid ++ [Value o v'] ++ post) in A.
      rewrite !vals_app, !app_length in A. cbn in A. destruct (opt_dec o o); [|congruence]. cbn in A. lia.
    + intros pre mid post f ->. specialize (B f). rewrite flags_app in B. change (Flag f :: mid ++ Flag f :: post) with ([Flag f] ++ mid ++ [Flag f] ++ post) in B.
      rewrite !flags_app, !app_length in B. cbn in B. destruct (flag_dec f f); [|congruence]. cbn in B. lia.
Qed.

Lemma says_hd ss o x : length (vals_of o ss) <= 1 -> says ss o x -> x = hd_error (vals_of o ss).
Proof.
  intros L H. destruct x as [v|]; cbn [says] in H.
  - apply in_vals in H. destruct (vals_of o ss) as [|y [|z l]]; [easy| |cbn in L; lia]. destruct H as [->|[]]. reflexivity.
  - destruct (vals_of o ss) as [|y l] eqn:E; [reflexivity|]. destruct (H y). apply in_vals. rewrite E. now left.
Qed.
Lemma says_or_hd ss o d v : length (vals_of o ss) <= 1 -> says_or ss o d v -> v = match vals_of o ss with x :: _ => x | [] => d end.
Proof.
  intros L [H|[H ->]].
  - apply in_vals in H. destruct (vals_of o ss) as [|y [|z l]]; [easy| |cbn in L; lia]. destruct H as [->|[]]. reflexivity.
  - destruct (vals_of o ss) as [|y l] eqn:E; [reflexivity|]. destruct (H y). apply in_vals. rewrite E. now left.
Qed.
Lemma names_files ss l : names_of ss l -> files_of ss = l.
Proof. unfold files_of. induction 1; cbn; congruence. Qed.
Lemma commas_skip p cur rest : ~ In ","%char p -> split_commas cur (p ++ rest) = split_commas (cur ++ p) rest.
Proof.
  revert cur. induction p as [|c p IH]; intros cur H; [now rewrite app_nil_r|]. cbn [app split_commas].
  destruct (Ascii.eqb_spec c ","%char) as [->|]; [destruct H; now left|]. rewrite IH by (intros I; apply H; now right).
  rewrite <- app_assoc. reflexivity.
Qed.
Lemma commas_unique l v : joined_by_commas l v -> split_commas [] v = l.
Proof.
  intros [F E]. destruct l as [|p l]; [easy|]. subst v. inversion F as [|? ? Fp Fl]; subst. rewrite commas_skip by exact Fp. cbn [app]. clear F Fp.
  revert p. induction Fl as [|q l Fq Fl IH]; intros p; [reflexivity|]. cbn [map concat app split_commas]. rewrite Ascii.eqb_refl.
  f_equal. rewrite commas_skip by exact Fq. apply IH.
Qed.

Lemma found_decl o : find (fun d => bytes_eqb (d_name d) (name_of o)) declared = Some (decl_of o).
Proof. destruct o; reflexivity. Qed.
Lemma value_eq ss o : o <> Format -> value_of (fold_left apply1 ss m0) (name_of o) =
  match vals_of o ss with v :: _ => Some v | [] => d_default (decl_of o) end.
Proof.
  intros N. unfold value_of. rewrite values_opt, found_decl. destruct (vals_of o ss) as [|v l]; [reflexivity|]. cbn [flat_map].
  unfold pieces. destruct o; try reflexivity. congruence.
Qed.

Lemma args_eq ss a : once ss -> meant ss a -> args_from (fold_left apply1 ss m0) = a.
Proof.
  intros O M. apply once_iff in O. destruct O as [O1 O2].
  destruct M as (Mi & Mf & Mo & Mz & Mb & Me & Md & Mh & Mc & Mcd & Mct & Mt & Mtd & Mtt & Mep & Mod & Mp & Mn & MfE & (u & Eu & Mu)).
  assert (V : forall o x, o <> Format -> d_default (decl_of o) = None -> says ss o x -> value_of (fold_left apply1 ss m0) (name_of o) = x).
  { intros o x N D H. rewrite value_eq by exact N. rewrite (says_hd _ _ _ (O1 o) H). destruct (vals_of o ss); [exact D|reflexivity]. }
  assert (W : forall o d v, o <> Format -> d_default (decl_of o) = Some d -> says_or ss o d v -> value_of (fold_left apply1 ss m0) (name_of o) = Some v).
  { intros o d v N D H. rewrite value_eq by exact N. rewrite (says_or_hd _ _ _ _ (O1 o) H). destruct (vals_of o ss); [exact D|reflexivity]. }
  unfold args_from. cbv zeta.
  change (b "output") with (name_of Output). change (b "timezone") with (name_of Timezone). change (b "begin") with (name_of Begin).
  change (b "end") with (name_of End). change (b "csv_in_delimiter") with (name_of CsvInDelimiter).
  change (b "csv_in_has_header") with (name_of CsvInHasHeader). change (b "csv_in_ts_col") with (name_of CsvInTsCol).
  change (b "csv_in_ts_col_date") with (name_of CsvInTsColDate). change (b "csv_in_ts_col_time") with (name_of CsvInTsColTime).
  change (b "csv_in_ts_fmt") with (name_of CsvInTsFmt). change (b "csv_in_ts_fmt_date") with (name_of CsvInTsFmtDate).
  change (b "csv_in_ts_fmt_time") with (name_of CsvInTsFmtTime). change (b "csv_in_epoch") with (name_of CsvInEpoch).
  change (b "csv_out_delimiter") with (name_of Delimiter). change (b "csv_out_print_time_col") with (name_of PrintTime).
  change (b "csv_out_time_col_name") with (name_of TimeColName). change (b "csv_out_time_fmt_epoch") with (flag_name EpochTimes).
  change (b "csv_out_time_col_units") with (name_of Granularity). change (b "format") with (name_of Format).
  rewrite (V Output _ ltac:(discriminate) eq_refl Mo), (V Timezone _ ltac:(discriminate) eq_refl Mz), (V Begin _ ltac:(discriminate) eq_refl Mb),
    (V End _ ltac:(discriminate) eq_refl Me), (V CsvInDelimiter _ ltac:(discriminate) eq_refl Md), (V CsvInTsCol _ ltac:(discriminate) eq_refl Mc),
    (V CsvInTsColDate _ ltac:(discriminate) eq_refl Mcd), (V CsvInTsColTime _ ltac:(discriminate) eq_refl Mct),
    (V CsvInTsFmt _ ltac:(discriminate) eq_refl Mt), (V CsvInTsFmtDate _ ltac:(discriminate) eq_refl Mtd), (V CsvInTsFmtTime _ ltac:(discriminate) eq_refl Mtt),
    (V CsvInEpoch _ ltac:(discriminate) eq_refl Mep), (V TimeColName _ ltac:(discriminate) eq_refl Mn).
  rewrite (W CsvInHasHeader _ _ ltac:(discriminate) eq_refl Mh), (W Delimiter _ _ ltac:(discriminate) eq_refl Mod),
    (W PrintTime _ _ ltac:(discriminate) eq_refl Mp), (W Granularity _ _ ltac:(discriminate) eq_refl Mu).
  cbn [or_empty].
  assert (Ei : (if is_present (fold_left apply1 ss m0) INPUT then Some (values_of (fold_left apply1 ss m0) INPUT) else None) = a_inputs a).
  { rewrite present_input, values_input. destruct (a_inputs a) as [l|].
    - destruct Mi as [Ne Mi]. rewrite (names_files _ _ Mi). destruct l; [congruence|reflexivity].
    - rewrite (names_files _ _ Mi). reflexivity. }
  assert (Ef : (if is_present (fold_left apply1 ss m0) (name_of Format) then Some (values_of (fold_left apply1 ss m0) (name_of Format)) else None) = a_formats a).
  { rewrite present_opt, values_opt. unfold given_opt. destruct (a_formats a) as [l|].
    - destruct Mf as (v & I & J). apply in_vals in I. specialize (O1 Format). destruct (vals_of Format ss) as [|y [|z t]]; [easy| |cbn in O1; lia].
      destruct I as [->|[]]. cbn [flat_map]. rewrite app_nil_r. unfold pieces. cbn [decl_of d_comma]. now rewrite (commas_unique _ _ J).
    - pose proof (says_hd _ _ _ (O1 Format) Mf) as E. destruct (vals_of Format ss); [reflexivity|discriminate E]. }
  assert (Ep : is_present (fold_left apply1 ss m0) (flag_name EpochTimes) = a_out_epoch a).
  { rewrite present_flag. rewrite in_flags in MfE. destruct (a_out_epoch a).
    - destruct (flags_of EpochTimes ss); [destruct (proj1 MfE eq_refl eq_refl)|reflexivity].
    - destruct (flags_of EpochTimes ss); [reflexivity|]. assert (X : false = true) by (apply MfE; discriminate). discriminate X. }
  rewrite Ei, Ef, Ep, <- Eu. destruct a; reflexivity.
Qed.

Lemma hd_nil (A : Type) (l : list A) : hd_error l = None <-> l = [].
Proof. destruct l; cbn; split; congruence. Qed.
Lemma given_nil o ss : given_opt o ss = false <-> vals_of o ss = [].
Proof. unfold given_opt. destruct (vals_of o ss); split; congruence. Qed.
Lemma some_ne (A : Type) (x : A) : Some x <> None.
Proof. discriminate. Qed.
Arguments some_ne {A}.
Lemma accepts_iff ss a : (forall o, length (vals_of o ss) <= 1) -> meant ss a -> (clap_accepts a <-> forall o, valid_opt ss o = true).
Proof.
  intros O M.
  destruct M as (Mi & Mf & Mo & Mz & Mb & Me & Md & Mh & Mc & Mcd & Mct & Mt & Mtd & Mtt & Mep & Mod & Mp & Mn & MfE & (u & Eu & Mu)).
  assert (Vi : forall o, valid_opt ss o = forallb (possible (decl_of o)) (vals_of o ss) &&
    (negb (given_opt o ss) || forallb (fun r => given_opt r ss) (reqs o) && forallb (fun c => negb (given_opt c ss)) (confs o))).
  { intros o. unfold valid_opt. rewrite (proj2 (Nat.leb_le _ _) (O o)). reflexivity. }
  assert (G : forall o x, says ss o x -> given_opt o ss = match x with Some _ => true | None => false end).
  { intros o x H. rewrite (says_hd _ _ _ (O o) H). unfold given_opt. destruct (vals_of o ss); reflexivity. }
  assert (Hv : forall o x, says ss o x -> vals_of o ss = match x with Some v => [v] | None => [] end).
  { intros o x H. rewrite (says_hd _ _ _ (O o) H). specialize (O o). destruct (vals_of o ss) as [|? [|? ?]]; cbn in *; trivial; lia. }
  assert (Ho : forall o d v, says_or ss o d v -> (vals_of o ss = [] /\ v = d) \/ vals_of o ss = [v]).
  { intros o d v H. rewrite (says_or_hd _ _ _ _ (O o) H). specialize (O o). destruct (vals_of o ss) as [|? [|? ?]]; cbn in *; auto; lia. }
  assert (Free : forall o, reqs o = [] -> confs o = [] -> d_possible (decl_of o) = [] -> valid_opt ss o = true).
  { intros o R C P. rewrite Vi, R, C. cbn. rewrite orb_true_r, andb_true_r. apply forallb_forall. intros v _. unfold possible. now rewrite P. }
  assert (Units : forall v, existsb (bytes_eqb v) UNITS = true <-> a_unit v).
  { intros v. unfold a_unit. rewrite existsb_exists. fold UNITS. split; [intros (x & I & E); apply bytes_eqb_eq in E; now subst|].
    intros I. exists v. split; [exact I|apply bytes_eqb_refl]. }
  pose proof (G _ _ Mc) as Gc. pose proof (G _ _ Mcd) as Gcd. pose proof (G _ _ Mct) as Gct. pose proof (G _ _ Mt) as Gt.
  pose proof (G _ _ Mtd) as Gtd. pose proof (G _ _ Mtt) as Gtt. pose proof (G _ _ Mep) as Gep.
  assert (Any : forall o v, d_possible (decl_of o) = [] -> possible (decl_of o) v = true) by (intros o v P; unfold possible; now rewrite P).
  unfold clap_accepts, given. split.
  - intros (Ai & Af & Ah & Ap & Ae & Au & Acc & Aff & Acf & Aec) o.
    destruct o; try (apply Free; reflexivity); rewrite Vi; apply andb_true_iff; split.
    (* Granularity *)
    + destruct (Ho _ _ _ Mu) as [[-> _]| ->]; [reflexivity|]. cbn [forallb]. rewrite andb_true_r. apply Units, Au. exact Eu.
    + cbn. apply orb_true_r.
    (* CsvInHasHeader *)
    + destruct (Ho _ _ _ Mh) as [[-> _]| ->]; [reflexivity|]. cbn [forallb]. rewrite andb_true_r. unfold possible, same_letters in *. cbn [decl_of d_possible d_nocase existsb].
      rewrite !orb_true_iff. clear - Ah. tauto.
    + cbn. apply orb_true_r.
    (* PrintTime *)
    + destruct (Ho _ _ _ Mp) as [[-> _]| ->]; [reflexivity|]. cbn [forallb]. rewrite andb_true_r. unfold possible, same_letters in *. cbn [decl_of d_possible d_nocase existsb].
      rewrite !orb_true_iff. clear - Ap. tauto.
    + cbn. apply orb_true_r.
    (* CsvInTsColDate *)
    + apply forallb_forall. intros v _. now apply Any.
    + cbn [reqs confs forallb]. rewrite Gcd, Gct, Gc, Gt. destruct (a_in_col_date a) as [d|]; [|reflexivity].
      destruct (a_in_col_time a) as [t|]; [|destruct (proj1 Acc (some_ne _) eq_refl)].
      destruct (Acf (or_introl (some_ne _))) as [-> ->]. reflexivity.
    (* CsvInTsColTime *)
    + apply forallb_forall. intros v _. now apply Any.
    + cbn [reqs confs forallb]. rewrite Gcd, Gct, Gc, Gt. destruct (a_in_col_time a) as [d|]; [|reflexivity].
      destruct (a_in_col_date a) as [t|]; [|destruct (proj2 Acc (some_ne _) eq_refl)].
      destruct (Acf (or_introl (some_ne _))) as [-> ->]. reflexivity.
    (* CsvInTsFmtDate *)
    + apply forallb_forall. intros v _. now apply Any.
    + cbn [reqs confs forallb]. rewrite Gtd, Gtt, Gc, Gt. destruct (a_in_fmt_date a) as [d|]; [|reflexivity].
      destruct (a_in_fmt_time a) as [t|]; [|destruct (proj1 Aff (some_ne _) eq_refl)].
      destruct (Acf (or_intror (some_ne _))) as [-> ->]. reflexivity.
    (* CsvInTsFmtTime *)
    + apply forallb_forall. intros v _. now apply Any.
    + cbn [reqs confs forallb]. rewrite Gtd, Gtt, Gc, Gt. destruct (a_in_fmt_time a) as [d|]; [|reflexivity].
      destruct (a_in_fmt_date a) as [t|]; [|destruct (proj2 Aff (some_ne _) eq_refl)].
      destruct (Acf (or_intror (some_ne _))) as [-> ->]. reflexivity.
    (* CsvInEpoch *)
    + rewrite (Hv _ _ Mep). destruct (a_in_epoch a) as [v|]; [|reflexivity]. cbn [forallb]. rewrite andb_true_r. apply Units, Ae. reflexivity.
    + cbn [reqs confs forallb]. rewrite Gep, Gcd, Gct, Gt. destruct (a_in_epoch a) as [d|]; [|reflexivity].
      destruct (Aec (some_ne _)) as [Ed ->]. rewrite Ed in *. destruct (a_in_col_time a) as [t|]; [|reflexivity].
      destruct (proj2 Acc (some_ne _) eq_refl).
  - intros V.
    assert (Q : forall o, given_opt o ss = true -> forallb (fun r => given_opt r ss) (reqs o) = true /\ forallb (fun c => negb (given_opt c ss)) (confs o) = true).
    { intros o E. specialize (V o). rewrite Vi, E in V. apply andb_true_iff in V. destruct V as [_ V]. cbn in V. now apply andb_true_iff in V. }
    assert (P : forall o v, vals_of o ss = [v] -> possible (decl_of o) v = true).
    { intros o v E. specialize (V o). rewrite Vi, E in V. apply andb_true_iff in V. destruct V as [V _]. cbn in V. now rewrite andb_true_r in V. }
    split; [destruct (a_inputs a); [destruct Mi; congruence|discriminate]|].
    split; [destruct (a_formats a) as [[|? ?]|]; try discriminate; destruct Mf as (v & _ & _ & []); easy|].
    split. { destruct (Ho _ _ _ Mh) as [[_ ->]|E]; [right; right; reflexivity|]. apply P in E. unfold possible in E. cbn [decl_of d_possible d_nocase existsb] in E.
      rewrite !orb_true_iff in E. unfold same_letters. destruct E as [E|[E|[E|E]]]; [now left|now right; left|now right; right|discriminate E]. }
    split. { destruct (Ho _ _ _ Mp) as [[_ ->]|E]; [left; reflexivity|]. apply P in E. unfold possible in E. cbn [decl_of d_possible d_nocase existsb] in E.
      rewrite !orb_true_iff in E. unfold same_letters. destruct E as [E|[E|E]]; [now left|now right|discriminate E]. }
    split. { intros v E. apply Units. apply (P CsvInEpoch). rewrite (Hv _ _ Mep), E. reflexivity. }
    split. { intros v E. rewrite Eu in E. injection E as <-. destruct (Ho _ _ _ Mu) as [[_ ->]|E]; [cbn; auto|]. apply Units. apply (P Granularity _ E). }
    pose proof (Q CsvInTsColDate) as Q1. pose proof (Q CsvInTsColTime) as Q2. pose proof (Q CsvInTsFmtDate) as Q3. pose proof (Q CsvInTsFmtTime) as Q4.
    pose proof (Q CsvInEpoch) as Q5. cbn [reqs confs forallb] in Q1, Q2, Q3, Q4, Q5. rewrite Gcd, Gct, Gc, Gt in Q1, Q2. rewrite Gtd, Gtt, Gc, Gt in Q3, Q4.
    rewrite Gep, Gcd, Gct, Gt in Q5.
    clear - Q1 Q2 Q3 Q4 Q5.
    destruct (a_in_col_date a), (a_in_col_time a), (a_in_fmt_date a), (a_in_fmt_time a), (a_in_col a), (a_in_fmt a), (a_in_epoch a); cbn in *;
      repeat match goal with H : true = true -> _ |- _ => destruct (H eq_refl); clear H end; try discriminate;
      repeat split; try congruence; try discriminate; intros; try congruence; intuition congruence.
Qed.

(** A command line is accepted exactly if no option comes twice and the options fit together, and then means what it
    says, whatever the order and the spelling of the options. *)
Theorem C121_command_line : forall ss argv a,
  command_line ss argv -> Forall (fun w => utf8 w = true) argv -> meant ss a ->
  (once ss /\ clap_accepts a -> get_matches argv = Args a) /\
  (~ (once ss /\ clap_accepts a) -> get_matches argv = Refused).
Proof.
  intros ss argv a L U M. unfold get_matches.
  assert (E : forallb utf8 argv = true) by (apply forallb_forall, Forall_forall; exact U). rewrite E.
  change {| m_vals := []; m_seen := [] |} with m0. rewrite (parse_line _ _ _ L).
  assert (V : forallb (decl_valid (fold_left apply1 ss m0)) declared = true <-> once ss /\ clap_accepts a).
  { rewrite valid_iff, once_iff. split.
    - intros [V F]. assert (O : forall o, length (vals_of o ss) <= 1).
      { intros o. specialize (V o). unfold valid_opt in V. apply andb_true_iff in V. destruct V as [V _]. apply andb_true_iff in V. apply Nat.leb_le, V. }
      split; [split; assumption|]. now apply (accepts_iff ss a O M).
    - intros [[O F] A]. split; [|exact F]. now apply (accepts_iff ss a O M). }
  destruct (forallb (decl_valid _) declared).
  - split; intros H.
    + f_equal. apply args_eq; [apply H|exact M].
    + destruct H. now apply V.
  - split; intros H; [|reflexivity]. apply V in H. discriminate H.
Qed.
Print Assumptions C121_command_line.

(** ** Every command line says something *)
Lemma commas_some cur v : ~ In ","%char cur -> joined_by_commas (split_commas cur v) (cur ++ v).
Proof.
  revert cur. induction v as [|c v IH]; intros cur H; cbn [split_commas].
  - split; [now constructor|]. reflexivity.
  - destruct (Ascii.eqb_spec c ","%char) as [->|N].
    + destruct (IH [] (fun x => x)) as [F E]. split; [now constructor|]. cbn [app] in E.
      destruct (split_commas [] v) as [|p l]; [easy|]. subst v. cbn [map concat]. reflexivity.
    + replace (cur ++ c :: v) with ((cur ++ [c]) ++ v) by (now rewrite <- app_assoc). apply IH. intros I. apply in_app_iff in I.
      destruct I as [I|[I|[]]]; [easy|congruence].
Qed.
Lemma names_some ss : names_of ss (files_of ss).
Proof. unfold files_of. induction ss as [|[o v|f|v] ss IH]; cbn [flat_map app]; now constructor. Qed.
Lemma says_some ss o : says ss o (hd_error (vals_of o ss)).
Proof.
  destruct (vals_of o ss) as [|v l] eqn:E; cbn [hd_error says].
  - intros v I. apply in_vals in I. rewrite E in I. easy.
  - apply in_vals. rewrite E. now left.
Qed.
Lemma says_or_some ss o d : says_or ss o d (hd d (vals_of o ss)).
Proof.
  unfold says_or. destruct (vals_of o ss) as [|v l] eqn:E; cbn [hd].
  - right. split; [|reflexivity]. intros v I. apply in_vals in I. rewrite E in I. easy.
  - left. apply in_vals. rewrite E. now left.
Qed.
Lemma meant_some ss : exists a, meant ss a.
Proof.
  pose (hv := fun o => hd_error (vals_of o ss)).
  exists {| a_inputs := match files_of ss with [] => None | l => Some l end;
     a_formats := match vals_of Format ss with [] => None | v :: _ => Some (split_commas [] v) end;
     a_output := hv Output; a_timezone := hv Timezone; a_begin := hv Begin; a_end := hv End;
     a_in_delimiter := hv CsvInDelimiter; a_in_has_header := hd (b "auto") (vals_of CsvInHasHeader ss);
     a_in_col := hv CsvInTsCol; a_in_col_date := hv CsvInTsColDate; a_in_col_time := hv CsvInTsColTime;
     a_in_fmt := hv CsvInTsFmt; a_in_fmt_date := hv CsvInTsFmtDate; a_in_fmt_time := hv CsvInTsFmtTime;
     a_in_epoch := hv CsvInEpoch; a_out_delimiter := hd (b ",") (vals_of Delimiter ss);
     a_out_print_time := hd (b "yes") (vals_of PrintTime ss); a_out_time_name := hv TimeColName;
     a_out_epoch := match flags_of EpochTimes ss with [] => false | _ => true end;
     a_out_units := Some (hd (b "ns") (vals_of Granularity ss)) |}.
  unfold meant, hv. cbn -[says says_or split_commas b].
  repeat (split; [first [apply says_some|apply says_or_some|idtac]|]).
  - pose proof (names_some ss) as H. destruct (files_of ss); [exact H|split; [discriminate|exact H]].
  - destruct (vals_of Format ss) as [|v l] eqn:E.
    + intros v I. apply in_vals in I. rewrite E in I. easy.
    + exists v. split; [apply in_vals; rewrite E; now left|]. apply (commas_some [] v). easy.
  - intros H. apply in_flags. destruct (flags_of EpochTimes ss); [discriminate H|discriminate].
  - intros H. apply in_flags in H. destruct (flags_of EpochTimes ss); [destruct (H eq_refl)|reflexivity].
  - eexists. split; [reflexivity|apply says_or_some].
Qed.
Lemma once_dec ss : {once ss} + {~ once ss}.
Proof.
  destruct (forallb (fun o => length (vals_of o ss) <=? 1)
    [Output; Format; Timezone; Begin; End; TimeColName; Granularity; CsvInDelimiter; Delimiter; CsvInHasHeader;
     PrintTime; CsvInTsCol; CsvInTsColDate; CsvInTsColTime; CsvInTsFmt; CsvInTsFmtDate; CsvInTsFmtTime; CsvInEpoch] &&
    forallb (fun f => length (flags_of f ss) <=? 1) [EpochTimes; HumanTimes; Backtrace]) eqn:E.
  - left. apply once_iff. apply andb_true_iff in E. destruct E as [E1 E2]. rewrite forallb_forall in E1, E2. split.
    + intros o. apply Nat.leb_le, E1. destruct o; cbn; tauto.
    + intros o. apply Nat.leb_le, E2. destruct o; cbn; tauto.
  - right. intros O. apply once_iff in O. destruct O as [O1 O2]. apply andb_false_iff in E.
    destruct E as [E|E]; (rewrite (proj2 (forallb_forall _ _)) in E; [discriminate E|]); intros x _; apply Nat.leb_le; auto.
Qed.

(** Accepted or refused, nothing else. *)
Theorem C121_total : forall ss argv,
  command_line ss argv -> Forall (fun w => utf8 w = true) argv ->
  (exists a, meant ss a /\ once ss /\ clap_accepts a /\ get_matches argv = Args a) \/ get_matches argv = Refused.
Proof.
  intros ss argv L U. destruct (meant_some ss) as [a M]. destruct (C121_command_line ss argv a L U M) as [A R].
  assert (E : get_matches argv = Args (args_from (fold_left apply1 ss m0)) \/ get_matches argv = Refused).
  { unfold get_matches. rewrite (proj2 (forallb_forall utf8 argv)) by (now apply Forall_forall).
    change {| m_vals := []; m_seen := [] |} with m0. rewrite (parse_line _ _ _ L). destruct (forallb (decl_valid _) declared); auto. }
  destruct E as [E|E]; [|now right]. left. exists a.
  assert (D : once ss /\ clap_accepts a).
  { pose proof (valid_iff ss) as V. unfold get_matches in E. rewrite (proj2 (forallb_forall utf8 argv)) in E by (now apply Forall_forall).
    change {| m_vals := []; m_seen := [] |} with m0 in E. rewrite (parse_line _ _ _ L) in E.
    destruct (forallb (decl_valid _) declared); [|discriminate E]. destruct V as [V _]. destruct (V eq_refl) as [V1 V2].
    assert (O : forall o, length (vals_of o ss) <= 1).
    { intros o. specialize (V1 o). unfold valid_opt in V1. apply andb_true_iff in V1. destruct V1 as [V1 _]. apply andb_true_iff in V1. apply Nat.leb_le, V1. }
    split; [now apply once_iff|]. now apply (accepts_iff ss a O M). }
  exact (conj M (conj (proj1 D) (conj (proj2 D) (A D)))).
Qed.
Print Assumptions C121_total.

Lemma vals_perm o ss ss' : Permutation ss ss' -> Permutation (vals_of o ss) (vals_of o ss').
Proof. apply Permutation_flat_map. Qed.
Lemma flags_perm o ss ss' : Permutation ss ss' -> Permutation (flags_of o ss) (flags_of o ss').
Proof. apply Permutation_flat_map. Qed.
Lemma once_perm ss ss' : Permutation ss ss' -> once ss -> once ss'.
Proof.
  intros P O. apply once_iff in O. apply once_iff. destruct O as [A B]. split.
  - intros o. rewrite <- (Permutation_length (vals_perm o _ _ P)). apply A.
  - intros o. rewrite <- (Permutation_length (flags_perm o _ _ P)). apply B.
Qed.
Lemma says_perm ss ss' o x : Permutation ss ss' -> says ss o x -> says ss' o x.
Proof.
  intros P. destruct x as [v|]; cbn [says]; intros H.
  - now apply (Permutation_in _ P).
  - intros v I. apply (H v). now apply (Permutation_in _ (Permutation_sym P)).
Qed.
Lemma says_or_perm ss ss' o d x : Permutation ss ss' -> says_or ss o d x -> says_or ss' o d x.
Proof.
  intros P [H|[H E]]; [left; now apply (Permutation_in _ P)|right; split; [|exact E]].
  intros v I. apply (H v). now apply (Permutation_in _ (Permutation_sym P)).
Qed.
Lemma meant_perm ss ss' l a : Permutation ss ss' -> names_of ss l -> names_of ss' l -> meant ss a -> meant ss' a.
Proof.
  intros P N N' M.
  destruct M as (Mi & Mf & Mo & Mz & Mb & Me & Md & Mh & Mc & Mcd & Mct & Mt & Mtd & Mtt & Mep & Mod & Mp & Mn & MfE & (u & Eu & Mu)).
  unfold meant. repeat (match goal with |- _ /\ _ => idtac end; split; [first [now apply (says_perm ss)|now apply (says_or_perm ss)|idtac]|]).
  - destruct (a_inputs a) as [k|].
    + destruct Mi as [Ne Mi]. split; [exact Ne|]. apply names_files in Mi. apply names_files in N. congruence.
    + apply names_files in Mi. apply names_files in N. congruence.
  - destruct (a_formats a); [|now apply (says_perm ss)]. destruct Mf as (v & I & J). exists v. split; [now apply (Permutation_in _ P)|exact J].
  - rewrite MfE. split; intros I; [now apply (Permutation_in _ P)|now apply (Permutation_in _ (Permutation_sym P))].
  - exists u. split; [exact Eu|]. now apply (says_or_perm ss).
Qed.
(** Neither the order of the options among themselves and among the files nor their spelling matters. *)
Theorem C121_order : forall ss ss' argv argv' files,
  command_line ss argv -> command_line ss' argv' ->
  Forall (fun w => utf8 w = true) argv -> Forall (fun w => utf8 w = true) argv' ->
  Permutation ss ss' -> names_of ss files -> names_of ss' files ->
  get_matches argv = get_matches argv'.
Proof.
  intros ss ss' argv argv' files L L' U U' P N N'. destruct (meant_some ss) as [a M].
  pose proof (meant_perm _ _ _ _ P N N' M) as M'.
  destruct (C121_command_line ss argv a L U M) as [A R]. destruct (C121_command_line ss' argv' a L' U' M') as [A' R'].
  destruct (C121_total ss argv L U) as [(a1 & M1 & O & C & E)|E].
  - pose proof (meant_perm _ _ _ _ P N N' M1) as M1'. rewrite E. symmetry. apply (C121_command_line ss' argv' a1 L' U' M1'). split; [|exact C].
    now apply (once_perm ss).
  - destruct (C121_total ss' argv' L' U') as [(a1 & M1 & O & C & E')|E']; [|congruence].
    pose proof (meant_perm _ _ _ _ (Permutation_sym P) N' N M1) as M1'. rewrite E'. apply (C121_command_line ss argv a1 L U M1'). split; [|exact C].
    now apply (once_perm ss' ss (Permutation_sym P)).
Qed.
Print Assumptions C121_order.

(** The program: a command line that is refused runs nothing, one that is accepted runs what it says. *)
Theorem C121_program : forall (run : args -> outcome) ss argv a,
  command_line ss argv -> Forall (fun w => utf8 w = true) argv -> meant ss a ->
  (once ss /\ clap_accepts a -> chop_main run argv = Ran (run a)) /\
  (~ (once ss /\ clap_accepts a) -> chop_main run argv = Told 1).
Proof.
  intros run ss argv a L U M. destruct (C121_command_line ss argv a L U M) as [A R]. unfold chop_main. split; intros H.
  - now rewrite (A H).
  - now rewrite (R H).
Qed.
Print Assumptions C121_program.

(** ** Command lines that do not say anything *)
Lemma utf8_all argv : Forall (fun w => utf8 w = true) argv -> forallb utf8 argv = true.
Proof. intros U. apply forallb_forall. now apply Forall_forall. Qed.

(** The last option lacks its value. *)
Theorem C121_value_missing : forall ss ws o w,
  words ss ws -> w = b "--" ++ opt_long o \/ (exists c, opt_short o = Some c /\ w = ["-"%char; c]) ->
  Forall (fun w => utf8 w = true) (ws ++ [w]) -> get_matches (ws ++ [w]) = Refused.
Proof.
  intros ss ws o w W E U. unfold get_matches. rewrite (utf8_all _ U), (parse_words _ _ W). destruct E as [->|(c & Es & ->)].
  - rewrite step_long by (destruct o; eexists; eexists; reflexivity). rewrite long_word. reflexivity.
  - rewrite step_short by (now apply (not_dash_o o)). rewrite (short_word _ _ _ _ Es). reflexivity.
Qed.
Print Assumptions C121_value_missing.

Definition known_long (n : bytes) : Prop :=
  (exists o, n = opt_long o) \/ (exists f, n = flag_long f) \/ n = b "help" \/ n = b "version".
Definition known_short (c : byte) : Prop :=
  (exists o, opt_short o = Some c) \/ (exists f, flag_short f = Some c) \/ c = "h"%char \/ c = "V"%char.
Lemma split_no_equals n : ~ In "="%char n -> split_at_equals n = (n, None).
Proof.
  induction n as [|x n IH]; [reflexivity|]. intros H. cbn [split_at_equals]. unfold equals. destruct (Ascii.eqb_spec x "="%char) as [->|].
  - destruct H. now left.
  - rewrite IH by (intros I; apply H; now right). reflexivity.
Qed.
Lemma split_with_equals n v : ~ In "="%char n -> split_at_equals (n ++ "="%char :: v) = (n, Some v).
Proof.
  induction n as [|x n IH]; [reflexivity|]. intros H. cbn [split_at_equals app]. unfold equals. destruct (Ascii.eqb_spec x "="%char) as [->|].
  - destruct H. now left.
  - rewrite IH by (intros I; apply H; now right). reflexivity.
Qed.
Lemma find_none (A : Type) (p : A -> bool) l : (forall x, In x l -> p x = false) -> find p l = None.
Proof. induction l as [|x l IH]; [reflexivity|]. intros H. cbn. rewrite (H x (or_introl eq_refl)). apply IH. intros y I. apply H. now right. Qed.
Lemma declared_longs d : In d declared -> (exists o, d_long d = opt_long o /\ d_short d = opt_short o) \/ (exists f, d_long d = flag_long f /\ d_short d = flag_short f).
Proof.
  rewrite all_declared. intros I.
  repeat (destruct I as [<-|I]; [match goal with
    | |- context [d_long (decl_of ?o)] => left; exists o; split; reflexivity
    | |- context [d_long (flag_decl ?f)] => right; exists f; split; reflexivity end|]). destruct I.
Qed.

(** An option there is no such option as, whatever follows. *)
Theorem C121_unknown : forall ss ws w rest,
  words ss ws ->
  (exists n, ~ known_long n /\ n <> [] /\ ~ In "="%char n /\ (forall t, n <> "-"%char :: t) /\ (w = b "--" ++ n \/ exists v, w = b "--" ++ n ++ b "=" ++ v)) \/
  (exists c t, ~ known_short c /\ c <> "-"%char /\ w = "-"%char :: c :: t) ->
  Forall (fun w => utf8 w = true) (ws ++ w :: rest) -> get_matches (ws ++ w :: rest) = Refused.
Proof.
  intros ss ws w rest W E U. unfold get_matches. rewrite (utf8_all _ U), (parse_words _ _ W).
  destruct E as [(n & K & Ne & Q & D & E)|(c & t & K & D & ->)].
  - assert (P : forall m, parse_long_arg w m = Stop_error).
    { intros m. assert (T : exists v, split_at_equals (trim_left dash w) = (n, v)).
      { destruct n as [|x n]; [easy|]. assert (X : Ascii.eqb x dash = false) by (apply Ascii.eqb_neq; intros ->; now destruct (D n)).
        assert (Tr : forall t, trim_left dash (b "--" ++ x :: t) = x :: t) by (intros t; cbn; rewrite X; reflexivity).
        destruct E as [->|[v ->]]; [rewrite Tr|cbn [app]; rewrite Tr].
        - exists None. now apply split_no_equals.
        - exists (Some v). apply (split_with_equals (x :: n)). exact Q. }
      destruct T as [v T]. unfold parse_long_arg. rewrite T. rewrite find_none.
      - destruct (existsb (bytes_eqb n) HELP_LONG) eqn:H; [|reflexivity]. destruct K. right. right. cbn in H.
        apply orb_true_iff in H. destruct H as [H|H]; [left; now apply bytes_eqb_eq|]. rewrite orb_false_r in H. right. now apply bytes_eqb_eq.
      - intros d I. apply bytes_eqb_neq. intros <-. apply K. destruct (declared_longs d I) as [[o [-> _]]|[f [-> _]]]; [left; now exists o|right; left; now exists f]. }
    rewrite step_long by (destruct n as [|x n]; [easy|]; destruct E as [->|[v ->]]; eexists; eexists; reflexivity). now rewrite P.
  - rewrite step_short by (apply Ascii.eqb_neq; intros <-; now apply D). cbn [parse_short_arg]. rewrite find_none.
    + destruct (existsb (Ascii.eqb c) HELP_SHORT) eqn:H; [|reflexivity]. destruct K. right. right. cbn in H.
      apply orb_true_iff in H. destruct H as [H|H]; [left; now apply Ascii.eqb_eq|]. rewrite orb_false_r in H. right. now apply Ascii.eqb_eq.
    + intros d I. destruct (d_short d) as [x|] eqn:X; [|reflexivity]. apply Ascii.eqb_neq. intros ->. apply K.
      destruct (declared_longs d I) as [[o [_ E]]|[f [_ E]]]; rewrite X in E; [left; now exists o|right; left; now exists f].
Qed.
Print Assumptions C121_unknown.

(** Help and version are answered as soon as they are read, whatever follows. *)
Theorem C121_help : forall ss ws w rest,
  words ss ws -> In w [b "-h"; b "--help"; b "-V"; b "--version"] ->
  Forall (fun w => utf8 w = true) (ws ++ w :: rest) -> get_matches (ws ++ w :: rest) = Help.
Proof.
  intros ss ws w rest W E U. unfold get_matches. rewrite (utf8_all _ U), (parse_words _ _ W).
  destruct E as [<-|[<-|[<-|[<-|[]]]]]; reflexivity.
Qed.
Print Assumptions C121_help.

(** ** Concrete command lines *)
Definition argv1 : list bytes := [b "-E"; b "a.csv"; b "-oout.csv"; b "--format"; b "csv,dc"; b "--begin=2020"; b "-"; b "--"; b "--x"].
Definition ss1 : list setting :=
  [Flag EpochTimes; File (b "a.csv"); Value Output (b "out.csv"); Value Format (b "csv,dc"); Value Begin (b "2020"); File (b "-")] ++ map File [b "--x"].
Lemma plain_not c t : c <> "-"%char -> plain_word (c :: t).
Proof. intros H. right. intros u E. congruence. Qed.
Example ex_c121_line : command_line ss1 argv1.
Proof.
  apply (with_end _ [b "-E"; b "a.csv"; b "-oout.csv"; b "--format"; b "csv,dc"; b "--begin=2020"; b "-"] [b "--x"]).
  apply (words_flag_short EpochTimes "E"%char); [reflexivity|].
  apply words_file; [now apply plain_not|].
  apply (words_short_attached Output "o"%char (b "out.csv")); [reflexivity|discriminate|intros t; discriminate|].
  apply (words_long Format (b "csv,dc")); [now apply plain_not|].
  apply (words_long_equals Begin (b "2020")); [intros t; discriminate|].
  apply words_file; [now left|]. constructor.
Qed.
Example ex_c121_utf8 : Forall (fun w => utf8 w = true) argv1.
Proof. repeat constructor. Qed.
Definition args1 : args :=
  {| a_inputs := Some [b "a.csv"; b "-"; b "--x"]; a_formats := Some [b "csv"; b "dc"]; a_output := Some (b "out.csv");
     a_timezone := None; a_begin := Some (b "2020"); a_end := None; a_in_delimiter := None; a_in_has_header := b "auto";
     a_in_col := None; a_in_col_date := None; a_in_col_time := None; a_in_fmt := None; a_in_fmt_date := None; a_in_fmt_time := None;
     a_in_epoch := None; a_out_delimiter := b ","; a_out_print_time := b "yes"; a_out_time_name := None; a_out_epoch := true;
     a_out_units := Some (b "ns") |}.
Example ex_c121_args : get_matches argv1 = Args args1.
Proof. reflexivity. Qed.
Example ex_c121_meant : meant ss1 args1.
Proof.
  unfold meant. cbn -[says says_or ss1 b].
  assert (No : forall o, (forall v, ~ In (Value o v) ss1) -> says ss1 o None) by auto.
  assert (D : forall o d, (forall v, ~ In (Value o v) ss1) -> says_or ss1 o d d) by (right; auto).
  repeat (match goal with |- _ /\ _ => idtac end; split; [first [ apply No; intros v H; cbn in H; intuition discriminate | apply D; intros v H; cbn in H; intuition discriminate
                        | (cbn; tauto) | idtac]|]).
  - discriminate.
  - cbn. repeat constructor.
  - exists (b "csv,dc"). split; [cbn; tauto|]. split; [|reflexivity]. repeat constructor; cbn; intuition discriminate.
  - exists (b "ns"). split; [reflexivity|]. apply D. intros v H; cbn in H; intuition discriminate.
Qed.
Example ex_c121_accepts : once ss1 /\ clap_accepts args1.
Proof.
  split.
  - apply once_iff. split; intros []; cbn; lia.
  - unfold clap_accepts, given, same_letters, a_unit. cbn. split; [discriminate|]. split; [discriminate|].
    split; [right; right; reflexivity|]. split; [left; reflexivity|]. split; [intros u H; discriminate H|].
    split; [intros u H; injection H as <-; cbn; tauto|]. split; [reflexivity|]. split; [reflexivity|]. split; intros H; [split; reflexivity|destruct (H eq_refl)].
Qed.
(** Refused: an option twice, options that exclude each other, an unknown value, an option without its value, an unknown option. *)
Example ex_c121_refused :
  map get_matches
    [[b "-b"; b "2020"; b "--begin"; b "2021"]; [b "-EE"]; [b "--csv-in-epoch"; b "s"; b "--csv-in-ts-fmt=%Y"];
     [b "-gmin"]; [b "--csv-in-ts-col-date=0"]; [b "-o"]; [b "--ouput"; b "x"]; [b "-Ex"]] =
  [Refused; Refused; Refused; Refused; Refused; Refused; Refused; Refused].
Proof. vm_compute. reflexivity. Qed.
(** -E and -H together are not refused: the declarations name each other wrongly. *)
Example ex_c121_both : exists a, get_matches [b "-EH"] = Args a /\ a_out_epoch a = true.
Proof. eexists. split; [vm_compute; reflexivity|reflexivity]. Qed.
Example ex_c121_help : get_matches [b "-EhX"] = Help /\ get_matches [b "x"; b "--version"] = Help.
Proof. split; vm_compute; reflexivity. Qed.
(** Used: an option without its value, an unknown option (before anything else wrong), help before nonsense. *)
Example ex_c121_missing : get_matches ([b "a.csv"; b "-E"] ++ [b "-o"]) = Refused.
Proof.
  apply (C121_value_missing [File (b "a.csv"); Flag EpochTimes] _ Output).
  - apply words_file; [now apply plain_not|]. apply (words_flag_short EpochTimes "E"%char); [reflexivity|constructor].
  - right. exists "o"%char. split; reflexivity.
  - repeat constructor.
Qed.
Example ex_c121_unknown : get_matches ([b "a.csv"] ++ b "--ouput=x" :: [b "--help"]) = Refused.
Proof.
  apply (C121_unknown [File (b "a.csv")]).
  - apply words_file; [now apply plain_not|constructor].
  - left. exists (b "ouput"). repeat split; try discriminate.
    + intros [[[] E]|[[[] E]|[E|E]]]; discriminate E.
    + cbn. intuition discriminate.
    + right. now exists (b "x").
  - repeat constructor.
Qed.
