(** Proofs about Crc32Reader and the archive reader. *)
From Verif Require Import ZipModel ZipSpec CrcProofs BytesProofs.
Local Open Scope nat_scope.

(** ** Crc32Reader *)
Definition crc_tail (full : bytes) (expected : N) (tl : option ioerr) : option ioerr :=
  match tl with Some e => Some e | None => if (crc32 full =? expected)%N then None else Some InvalidData end.

Lemma crc_simulation : forall ns c seen full,
  c_hasher c = crc_update crc_init seen -> seen ++ i_data (c_inner c) = full ->
  crc_reads ns c = inner_reads ns {| i_data := i_data (c_inner c); i_tail := crc_tail full (c_crc32 c) (i_tail (c_inner c)); i_plan := i_plan (c_inner c) |}.
Proof.
  induction ns as [|n ns IH]; intros [i e h] seen full Hh Hf; [reflexivity|]. cbn [c_inner c_hasher c_crc32] in *.
  destruct i as [d tl plan]. cbn [i_data i_tail i_plan] in *.
  assert (G : forall m plan', (m = 0 <-> n = 0) ->
     (let (o, i) := give m d tl plan' in
      (let (o', c') := match o with
       | Ok bs => if (length bs =? 0) && negb (n =? 0) && negb (crc_finish h =? e)%N
           then (Err (EIo InvalidData), {| c_inner := i; c_crc32 := e; c_hasher := h |})
           else (Ok bs, {| c_inner := i; c_crc32 := e; c_hasher := crc_update h bs |})
       | x => (x, {| c_inner := i; c_crc32 := e; c_hasher := h |}) end in o' :: crc_reads ns c')) =
     (let (o, i) := give m d (crc_tail full e tl) plan' in o :: inner_reads ns i)).
  { intros m plan' Hm. unfold give. destruct (Nat.eqb_spec m 0) as [->|Nm].
    - rewrite (proj1 Hm eq_refl). cbn [length Nat.eqb andb negb]. f_equal.
      exact (IH {| c_inner := {| i_data := d; i_tail := tl; i_plan := plan' |}; c_crc32 := e; c_hasher := h |} seen full Hh Hf).
    - destruct d as [|x d].
      + rewrite app_nil_r in Hf. subst seen. destruct tl as [er|]; cbn [crc_tail].
        * f_equal. assert (X := IH {| c_inner := {| i_data := []; i_tail := Some er; i_plan := plan' |}; c_crc32 := e; c_hasher := h |} full full Hh (app_nil_r _)). exact X.
        * unfold crc32. rewrite <- Hh.
          destruct (N.eqb_spec (crc_finish h) e) as [Ee|Ne].
          -- rewrite firstn_nil, skipn_nil. cbn [negb length]. rewrite andb_false_r. f_equal.
             assert (X := IH {| c_inner := {| i_data := []; i_tail := None; i_plan := plan' |}; c_crc32 := e; c_hasher := h |} full full Hh (app_nil_r _)).
             cbn [c_inner c_crc32 i_tail i_data i_plan crc_tail] in X. unfold crc32 in X. rewrite <- Hh, Ee, N.eqb_refl in X. exact X.
          -- rewrite firstn_nil, skipn_nil. cbn [negb length Nat.eqb andb].
             destruct (Nat.eqb_spec n 0) as [->|Nn]; cbn [negb andb].
             ++ exfalso. apply Nm, Hm. reflexivity.
             ++ f_equal.
                assert (X := IH {| c_inner := {| i_data := []; i_tail := None; i_plan := plan' |}; c_crc32 := e; c_hasher := h |} full full Hh (app_nil_r _)).
                cbn [c_inner c_crc32 i_tail i_data i_plan crc_tail] in X. unfold crc32 in X. rewrite <- Hh in X.
                destruct (N.eqb_spec (crc_finish h) e); [congruence|]. exact X.
      + destruct m as [|m]; [congruence|]. cbn [firstn skipn].
        cbn [length Nat.eqb andb]. f_equal.
        assert (X := IH {| c_inner := {| i_data := skipn m d; i_tail := tl; i_plan := plan' |}; c_crc32 := e; c_hasher := crc_update h (x :: firstn m d) |}
          (seen ++ x :: firstn m d) full).
        cbn [c_inner c_crc32 c_hasher i_tail i_data i_plan] in X. rewrite X; [reflexivity| |].
        * rewrite crc_update_app, Hh. reflexivity.
        * rewrite <- Hf, <- app_assoc. cbn [app]. rewrite firstn_skipn. reflexivity. }
  cbn [crc_reads inner_reads]. unfold crc_read, inner_read. cbn [c_inner i_plan i_data i_tail c_hasher c_crc32].
  destruct plan as [|[k|er] plan].
  - specialize (G n [] (iff_refl _)). destruct (give n d tl []) as [o i]. exact G.
  - specialize (G (Nat.min n (S k)) plan). destruct (give (Nat.min n (S k)) d tl plan) as [o i]. apply G. lia.
  - f_equal. exact (IH {| c_inner := {| i_data := d; i_tail := tl; i_plan := plan |}; c_crc32 := e; c_hasher := h |} seen full Hh Hf).
Qed.
Lemma crc_behaves i e : behaves_like (crc_new i e)
  {| i_data := i_data i; i_tail := crc_tail (i_data i) e (i_tail i); i_plan := i_plan i |}.
Proof. intro ns. exact (crc_simulation ns (crc_new i e) [] (i_data i) eq_refl eq_refl). Qed.

(** ** Reading at a position *)
Definition cursor (data : bytes) (p : N) (rest : bytes) : Prop :=
  (p <= size data)%N /\ skipn (N.to_nat p) data = rest.
Lemma cursor_app data pre rest : data = pre ++ rest -> cursor data (len pre) rest.
Proof.
  intros ->. unfold cursor, size, len. rewrite Nat2N.id, app_length. split; [lia|].
  rewrite skipn_app, skipn_all, Nat.sub_diag. reflexivity.
Qed.
Lemma skipn_plus {A} (x y : nat) (l : list A) : skipn (x + y) l = skipn y (skipn x l).
Proof. revert l. induction x as [|x IH]; intro l; [reflexivity|]. destruct l as [|a l]; [cbn; rewrite skipn_nil; reflexivity|]. exact (IH l). Qed.
Lemma cursor_move data p w rest : cursor data p (w ++ rest) -> cursor data (p + len w) rest.
Proof.
  intros [L E]. unfold cursor, size, len in *.
  assert (X : length (skipn (N.to_nat p) data) = length w + length rest) by (rewrite E; apply app_length).
  rewrite skipn_length in X. split; [lia|]. rewrite N2Nat.inj_add, Nat2N.id, skipn_plus, E.
  rewrite skipn_app, skipn_all, Nat.sub_diag. reflexivity.
Qed.
Lemma zget_cursor data p w rest : cursor data p (w ++ rest) -> zget data (len w) p = Ok (w, (p + len w)%N).
Proof.
  intro H. pose proof (cursor_move _ _ _ _ H) as [L' _]. destruct H as [L E]. unfold zget.
  destruct (N.leb_spec (p + len w) (size data)); [|lia]. rewrite E. unfold len. rewrite Nat2N.id.
  rewrite firstn_app, firstn_all, Nat.sub_diag. cbn [firstn]. rewrite app_nil_r. reflexivity.
Qed.
Lemma zle_cursor data p k n v rest : cursor data p (le k v ++ rest) -> n = N.of_nat k -> (v < 256 ^ n)%N ->
  zle data n p = Ok (v, (p + n)%N).
Proof.
  intros H -> B. unfold zle, zbind. pose proof (zget_cursor _ _ _ _ H) as Z. unfold len in Z. rewrite le_length in Z.
  rewrite Z. cbn [bind]. unfold zret. rewrite of_le_le, N.mod_small by exact B. reflexivity.
Qed.
Lemma step_le {A} data p k n v rest (f : N -> at_pos A) R : cursor data p (le k v ++ rest) -> n = N.of_nat k -> (v < 256 ^ n)%N ->
  (cursor data (p + n) rest -> f v (p + n)%N = R) -> zbind (zle data n) f p = R.
Proof.
  intros H E B K. unfold zbind at 1. rewrite (zle_cursor _ _ _ _ _ _ H E B). cbn [bind]. apply K.
  apply cursor_move in H. unfold len in H. rewrite le_length, <- E in H. exact H.
Qed.
Lemma step_get {A} data p n w rest (f : bytes -> at_pos A) R : cursor data p (w ++ rest) -> n = len w ->
  (cursor data (p + n) rest -> f w (p + n)%N = R) -> zbind (zget data n) f p = R.
Proof.
  intros H -> K. unfold zbind at 1. rewrite (zget_cursor _ _ _ _ H). cbn [bind]. apply K. now apply cursor_move.
Qed.
Lemma zle_short data n p rest : cursor data p rest -> (len rest < n)%N -> zle data n p = Err (EIo UnexpectedEof).
Proof.
  intros [L E] S. unfold zle, zbind, zget. apply (f_equal (@length ascii)) in E. rewrite skipn_length in E. unfold size, len in *.
  destruct (N.leb_spec (p + n) (N.of_nat (length data))); [lia|reflexivity].
Qed.
Lemma zle_past data n p : (size data < p + n)%N -> zle data n p = Err (EIo UnexpectedEof).
Proof. intro H. unfold zle, zbind, zget. destruct (N.leb_spec (p + n) (size data)); [lia|reflexivity]. Qed.
Lemma zle_4 data p w rest : cursor data p (w ++ rest) -> length w = 4 -> zle data 4 p = Ok (of_le w, (p + 4)%N).
Proof.
  intros H L. unfold zle, zbind. pose proof (zget_cursor _ _ _ _ H) as Z. unfold len in Z. rewrite L in Z.
  change (N.of_nat 4) with 4%N in Z. rewrite Z. reflexivity.
Qed.

(** ** Finding the end record *)
Lemma find_steps data pre er max_back : data = pre ++ er -> 4 <= length er ->
  (forall k, 0 < k -> firstn 4 (skipn k er) <> le 4 0x06054b50) -> firstn 4 er = le 4 0x06054b50 ->
  (len er < max_back)%N -> forall fuel pos p0, 4 <= pos -> pos <= length er -> length er - pos < fuel ->
  find_eocdr data fuel (N.of_nat pos) max_back p0 = Ok (tt, (len pre + 4)%N).
Proof.
  intros E L4 U S M. induction fuel as [|fuel IH]; intros pos p0 P4 P F; [lia|]. cbn [find_eocdr].
  destruct (N.ltb_spec (N.of_nat pos) max_back); [|unfold len in M; lia].
  assert (Sz : size data = (len pre + len er)%N) by (rewrite E; unfold size, len; rewrite app_length; lia).
  unfold zbind at 1. unfold seek_back. destruct (N.leb_spec (N.of_nat pos) (size data)); [|unfold len in *; lia]. cbn [bind].
  set (k := length er - pos).
  assert (C : cursor data (size data - N.of_nat pos) (skipn k er)).
  { split; [lia|]. rewrite Sz. rewrite E, skipn_app. rewrite skipn_all2 by (unfold len, k in *; lia).
    cbn [app]. f_equal. unfold len, k. lia. }
  assert (Lk : length (firstn 4 (skipn k er)) = 4) by (rewrite firstn_length, skipn_length; unfold k; lia).
  rewrite <- (firstn_skipn 4 (skipn k er)) in C. unfold zbind at 1. rewrite (zle_4 _ _ _ _ C Lk). cbn [bind].
  destruct (N.eqb_spec (of_le (firstn 4 (skipn k er))) END_OF_CENTRAL_DIR_RECORD_SIGNATURE) as [Y|Nn].
  - unfold zret. f_equal. f_equal. destruct (Nat.eq_dec k 0) as [K0|K0].
    + rewrite Sz. unfold k in K0. unfold len. lia.
    + exfalso. apply (U k); [lia|]. unfold END_OF_CENTRAL_DIR_RECORD_SIGNATURE in Y. rewrite <- Y.
      pose proof (le_of_le (firstn 4 (skipn k er))) as X. rewrite Lk in X. symmetry. exact X.
  - assert (k <> 0).
    { intro K0. apply Nn. rewrite K0. cbn [skipn]. rewrite S, of_le_le. reflexivity. }
    replace (N.of_nat pos + 1)%N with (N.of_nat (Datatypes.S pos)) by lia. apply IH; unfold k in *; lia.
Qed.
Lemma find_end data pre er : data = pre ++ er -> 4 <= length er -> pre <> [] -> (len er < MAX_EOCDR_SEARCH_BACK_OFFSET)%N ->
  (forall k, 0 < k -> firstn 4 (skipn k er) <> le 4 0x06054b50) -> firstn 4 er = le 4 0x06054b50 ->
  forall p0, find_eocdr_and_prepare_to_read data p0 = Ok (tt, (len pre + 4)%N).
Proof.
  intros E L4 Np M U S p0. unfold find_eocdr_and_prepare_to_read.
  assert (Sz : size data = (len pre + len er)%N) by (rewrite E; unfold size, len; rewrite app_length; lia).
  assert (1 <= len pre)%N by (unfold len; destruct pre; [congruence|cbn; lia]).
  change 4%N with (N.of_nat 4) at 1. eapply find_steps; eauto.
  - lia.
  - unfold len in *. lia.
Qed.

(** ** The records *)
Lemma step_le_eq {A} data p k n v rest (f : N -> at_pos A) : cursor data p (le k v ++ rest) -> n = N.of_nat k -> (v < 256 ^ n)%N ->
  zbind (zle data n) f p = f v (p + n)%N /\ cursor data (p + n) rest.
Proof.
  intros H E B. split; [apply (step_le data p k n v rest f _ H E B); reflexivity|].
  apply cursor_move in H. unfold len in H. rewrite le_length, <- E in H. exact H.
Qed.
Lemma step_get_eq {A} data p n w rest (f : bytes -> at_pos A) : cursor data p (w ++ rest) -> n = len w ->
  zbind (zget data n) f p = f w (p + n)%N /\ cursor data (p + n) rest.
Proof. intros H E. split; [apply (step_get data p n w rest f _ H E); reflexivity|]. subst n. now apply cursor_move. Qed.
Lemma step_by {A} k (f : unit -> at_pos A) p : zbind (seek_by k) f p = f tt (p + k)%N.
Proof. reflexivity. Qed.
Lemma step_start {A} q (f : unit -> at_pos A) p : zbind (seek_start q) f p = f tt q.
Proof. reflexivity. Qed.
Ltac zstep C :=
  match type of C with
  | cursor ?data ?p (le ?k ?v ++ ?rest) =>
      match goal with
      | |- context [zbind (zle data ?n) ?f p] =>
          let E := fresh "E" in let C' := fresh "C" in
          destruct (step_le_eq data p k n v rest f C eq_refl) as [E C'];
          [assumption || (vm_compute; reflexivity)|]; rewrite E; clear E C; rename C' into C; cbv beta
      end
  end.

Definition eocdr_result (a : archive) : res (N * N) :=
  if negb (z_total a =? 1)%N || negb (z_here a =? 1)%N then Err (EIo InvalidData)
  else if negb (z_disk a =? 0)%N || negb (z_cd_disk a =? 0)%N then Err (EIo InvalidData)
  else Ok (match z_end64 a with None => len (until_central a) | Some e => e_offset e end, len (z_end_comment a)).
Lemma Forall_in {A} (P : A -> Prop) l x : Forall P l -> In x l -> P x.
Proof. intros F I. rewrite Forall_forall in F. exact (F x I). Qed.
Lemma central_length a : (len (central_header a) = 46 + len (z_name a) + len (extra_field (z_extra a)) + len (z_comment a))%N.
Proof. unfold central_header, len. rewrite !app_length, !le_length. lia. Qed.
Lemma eocdr_read a data p : archive_fits a -> cursor data p (skipn 4 (end_record a)) ->
  exists p', read_eocdr data p = let* x := eocdr_result a in Ok (x, p').
Proof.
  intros (F1 & F2 & F3 & F4 & F5 & F6 & F7 & F8) C. unfold end_record in C.
  match type of C with cursor _ _ (skipn 4 (_ ++ ?r)) => change (cursor data p r) in C end.
  assert (B : forall x, In x [z_made a; z_needed a; z_flags a; z_method a; z_time a; z_date a; z_disk_start a; z_internal a; z_disk a; z_cd_disk a; z_here a; z_total a] -> (x < 256 ^ 2)%N).
  { intros x I. exact (Forall_in _ _ _ F4 I). }
  assert (B1 : (z_disk a < 256 ^ 2)%N) by (apply B; cbn; tauto).
  assert (B2 : (z_cd_disk a < 256 ^ 2)%N) by (apply B; cbn; tauto).
  assert (B3 : (z_here a < 256 ^ 2)%N) by (apply B; cbn; tauto).
  assert (B4 : (z_total a < 256 ^ 2)%N) by (apply B; cbn; tauto).
  assert (B5 : (len (central_header a) < 256 ^ 4)%N).
  { rewrite central_length.
    assert (len (z_name a) < 65536)%N by (eapply (Forall_in _ _ _ F2); cbn; tauto).
    assert (len (extra_field (z_extra a)) < 65536)%N by (eapply (Forall_in _ _ _ F2); cbn; tauto).
    assert (len (z_comment a) < 65536)%N by (eapply (Forall_in _ _ _ F2); cbn; tauto).
    change (256 ^ 4)%N with 4294967296%N. lia. }
  assert (B6 : (match z_end64 a with None => len (until_central a) | Some e => e_offset e end < 256 ^ 4)%N).
  { destruct (z_end64 a); [apply F8|exact F8]. }
  assert (B7 : (len (z_end_comment a) < 256 ^ 2)%N) by (eapply (Forall_in _ _ _ F2); cbn; tauto).
  unfold read_eocdr. do 7 zstep C. rewrite step_by. unfold eocdr_result.
  destruct (_ || _); [eexists; reflexivity|]. destruct (_ || _); [eexists; reflexivity|]. eexists. reflexivity.
Unshelve. all: exact 0%N.
Qed.

Lemma end_length a : len (end_record a) = (22 + len (z_end_comment a))%N.
Proof. unfold end_record, len. rewrite !app_length, !le_length. lia. Qed.
Lemma offset_plain a data p : data = archive_bytes a -> z_end64 a = None ->
  (forall pre loc, until_central a ++ central_header a = pre ++ loc -> length loc = 20 -> firstn 4 loc <> le 4 0x07064b50) ->
  exists p', central_dir_offset data (len (until_central a), len (z_end_comment a)) p = Ok (len (until_central a), p').
Proof.
  intros E N64 U. unfold central_dir_offset. cbn [fst snd].
  set (pre := until_central a ++ central_header a).
  assert (Ed : data = pre ++ end_record a) by (rewrite E; unfold archive_bytes, pre, zip64_end; rewrite N64, app_assoc; reflexivity).
  assert (Lp : 46 <= length pre).
  { unfold pre. rewrite app_length. pose proof (central_length a). unfold len in *. lia. }
  assert (Sz : size data = (len pre + 22 + len (z_end_comment a))%N).
  { rewrite Ed. unfold size. rewrite app_length. pose proof (end_length a). unfold len in *. lia. }
  unfold seek_back, SIGNATURE_SIZE, ZIP64_END_OF_CENTRAL_DIRECTORY_LOCATOR_FIXED_FIELDS_SIZE, END_OF_CENTRAL_DIRECTORY_RECORD_FIXED_FIELDS_SIZE.
  destruct (N.leb_spec (4 + 16 + 4 + 18 + len (z_end_comment a)) (size data)); [|unfold len in *; lia].
  set (loc := skipn (length pre - 20) pre).
  assert (Ll : length loc = 20) by (unfold loc; rewrite skipn_length; lia).
  assert (Ep : pre = firstn (length pre - 20) pre ++ loc) by (symmetry; apply firstn_skipn).
  assert (C : cursor data (size data - (4 + 16 + 4 + 18 + len (z_end_comment a))) (firstn 4 loc ++ (skipn 4 loc ++ end_record a))).
  { split; [lia|]. rewrite app_assoc, firstn_skipn. rewrite Ed at 2. rewrite skipn_app, Sz. unfold loc. f_equal.
    - f_equal. unfold len. lia.
    - replace (_ - length pre) with 0 by (unfold len; lia). reflexivity. }
  assert (L4 : length (firstn 4 loc) = 4) by (rewrite firstn_length; lia).
  unfold zbind at 1. rewrite (zle_4 _ _ _ _ C L4). cbn [bind].
  destruct (N.eqb_spec (of_le (firstn 4 loc)) ZIP64_END_OF_CENTRAL_DIR_LOCATOR_SIGNATURE) as [Y|Y].
  - exfalso. apply (U _ _ Ep Ll). unfold ZIP64_END_OF_CENTRAL_DIR_LOCATOR_SIGNATURE in Y. rewrite <- Y.
    pose proof (le_of_le (firstn 4 loc)) as X. rewrite L4 in X. symmetry. exact X.
  - cbn [negb]. eexists. reflexivity.
Qed.
Lemma central_fits a : archive_fits a -> (len (central_header a) < 262144)%N.
Proof.
  intros (F1 & F2 & _). rewrite central_length.
  assert (len (z_name a) < 65536)%N by (eapply (Forall_in _ _ _ F2); cbn; tauto).
  assert (len (extra_field (z_extra a)) < 65536)%N by (eapply (Forall_in _ _ _ F2); cbn; tauto).
  assert (len (z_comment a) < 65536)%N by (eapply (Forall_in _ _ _ F2); cbn; tauto). lia.
Qed.
Lemma offset_zip64 a data p e o : data = archive_bytes a -> archive_fits a -> z_end64 a = Some e ->
  exists p', central_dir_offset data (o, len (z_end_comment a)) p = Ok (len (until_central a), p').
Proof.
  intros E Hf S64. unfold central_dir_offset. cbn [fst snd]. pose proof (central_fits a Hf) as Cf.
  destruct Hf as (F1 & F2 & F3 & F4 & F5 & F6 & F7 & F8). rewrite S64 in F8. destruct F8 as (G1 & G2 & G3 & G4 & G5).
  set (pre := until_central a ++ central_header a) in *.
  assert (Y1 : (44 + len (e_more e) < 256 ^ 8)%N) by exact G4.
  assert (Y2 : (len pre < 256 ^ 8)%N) by exact G5.
  assert (Y3 : (e_made e < 256 ^ 2)%N) by exact G1.
  assert (Y4 : (e_needed e < 256 ^ 2)%N) by exact G2.
  assert (Lp : len pre = (len (until_central a) + len (central_header a))%N) by (unfold pre, len; rewrite app_length; lia).
  assert (Y5 : (len (central_header a) < 256 ^ 8)%N) by (change (256 ^ 8)%N with 18446744073709551616%N; lia).
  assert (Y6 : (len (until_central a) < 256 ^ 8)%N) by (change (256 ^ 8)%N with 18446744073709551616%N in *; lia).
  set (rec := le 4 0x06064b50 ++ le 8 (44 + len (e_more e)) ++ le 2 (e_made e) ++ le 2 (e_needed e) ++ le 4 0 ++ le 4 0 ++ le 8 1 ++ le 8 1 ++
       le 8 (len (central_header a)) ++ le 8 (len (until_central a)) ++ e_more e).
  set (loc := le 4 0x07064b50 ++ le 4 0 ++ le 8 (len pre) ++ le 4 1).
  assert (Ed : data = pre ++ rec ++ loc ++ end_record a).
  { rewrite E. unfold archive_bytes, pre, zip64_end. rewrite S64. fold rec. fold pre. fold loc. rewrite <- !app_assoc. unfold pre. rewrite <- !app_assoc. reflexivity. }
  assert (Ll : len loc = 20%N) by (unfold loc, len; rewrite !app_length, !le_length; reflexivity).
  assert (Sz : size data = (len (pre ++ rec) + 42 + len (z_end_comment a))%N).
  { rewrite Ed. unfold size. rewrite !app_length. pose proof (end_length a). unfold len in *. rewrite app_length. lia. }
  unfold seek_back, SIGNATURE_SIZE, ZIP64_END_OF_CENTRAL_DIRECTORY_LOCATOR_FIXED_FIELDS_SIZE, END_OF_CENTRAL_DIRECTORY_RECORD_FIXED_FIELDS_SIZE.
  destruct (N.leb_spec (4 + 16 + 4 + 18 + len (z_end_comment a)) (size data)); [|lia].
  replace (size data - (4 + 16 + 4 + 18 + len (z_end_comment a)))%N with (len (pre ++ rec)) by lia.
  assert (C : cursor data (len (pre ++ rec)) (loc ++ end_record a)) by (apply cursor_app; rewrite Ed, <- app_assoc; reflexivity).
  unfold loc in C. rewrite <- !app_assoc in C. zstep C. unfold ZIP64_END_OF_CENTRAL_DIR_LOCATOR_SIGNATURE. rewrite N.eqb_refl. cbn [negb].
  assert (X : exists q, read_zip64_locator data (len (pre ++ rec) + 4)%N = Ok (len pre, q)).
  { unfold read_zip64_locator. do 3 zstep C. cbn [N.eqb Pos.eqb negb orb]. eexists. reflexivity. }
  destruct X as (q & X). unfold zbind at 1. rewrite X. cbn [bind]. rewrite step_start. clear C X.
  assert (C : cursor data (len pre) (rec ++ loc ++ end_record a)) by (apply cursor_app; exact Ed).
  unfold rec in C. rewrite <- !app_assoc in C. zstep C. unfold ZIP64_END_OF_CENTRAL_DIR_RECORD_SIGNATURE. rewrite N.eqb_refl. cbn [negb].
  unfold read_zip64_eocdr. do 9 zstep C. cbn [N.eqb Pos.eqb negb orb]. eexists. reflexivity.
Qed.
Lemma offset_read a data p : data = archive_bytes a -> archive_fits a -> end_unambiguous a ->
  exists p', central_dir_offset data (match z_end64 a with None => len (until_central a) | Some e => e_offset e end, len (z_end_comment a)) p
             = Ok (len (until_central a), p').
Proof.
  intros E Hf [_ U]. destruct (z_end64 a) eqn:S64; [apply (offset_zip64 a data p e _ E Hf S64)|exact (offset_plain a data p E S64 (U eq_refl))].
Qed.

(** ** The extra field *)
Definition sizes (l : list (N * bytes)) : N := fold_right (fun r n => (len (snd r) + n)%N) 0%N l.
Lemma extra_length l : len (extra_field l) = (4 * N.of_nat (length l) + sizes l)%N.
Proof.
  induction l as [|r l IH]; [reflexivity|]. change (extra_field (r :: l)) with (extra_record r ++ extra_field l).
  unfold len in *. cbn [length sizes fold_right]. fold (sizes l). rewrite app_length. unfold extra_record at 1. rewrite !app_length, !le_length. unfold len. lia.
Qed.
Lemma zip64_value_step data v d rest p : cursor data p (d ++ rest) -> missing v <= length d ->
  exists p', zip64_value data v p = Ok ((fst (take64 v d), N.of_nat (missing v)), p') /\ p' = (p + N.of_nat (missing v))%N /\
  cursor data p' (snd (take64 v d) ++ rest) /\ length (snd (take64 v d)) + missing v = length d.
Proof.
  intros C L. unfold zip64_value, take64, missing in *. destruct (v =? 0xffffffff)%N.
  - exists (p + 8)%N.
    assert (E : d ++ rest = firstn 8 d ++ (skipn 8 d ++ rest)) by (rewrite app_assoc, firstn_skipn; reflexivity).
    rewrite E in C. assert (L8 : len (firstn 8 d) = 8%N) by (unfold len; rewrite firstn_length; lia).
    unfold zle, zbind. rewrite <- L8 at 1. rewrite (zget_cursor _ _ _ _ C). cbn [bind]. unfold zret. cbn [bind fst snd].
    rewrite L8. split; [reflexivity|]. split; [reflexivity|]. split; [rewrite <- L8; apply cursor_move; exact C|].
    rewrite skipn_length. lia.
  - exists p. cbn [fst snd]. split; [reflexivity|]. split; [lia|]. split; [exact C|lia].
Qed.
Lemma extra_step64 data f total len0 v p r rest : record_complete v r -> (total < len0)%N -> (fst r < 256 ^ 2)%N -> (len (snd r) < 256 ^ 2)%N ->
  cursor data p (extra_record r ++ rest) ->
  read_extra data (S f) total len0 v p = read_extra data f (total + len (snd r))%N len0 (record_values v r) (p + len (extra_record r))%N.
Proof.
  intros Hv L B1 B2 C. cbn [read_extra]. destruct (N.ltb_spec total len0); [|lia].
  assert (Lr : len (extra_record r) = (4 + len (snd r))%N) by (unfold extra_record, len; rewrite !app_length, !le_length; lia).
  unfold extra_record in C. rewrite <- !app_assoc in C. do 2 zstep C.
  destruct v as [[un co] lo]. unfold record_complete, record_values in *.
  destruct (N.eqb_spec (fst r) 1) as [E1|N1].
  - specialize (Hv E1).
    destruct (zip64_value_step data un (snd r) rest _ C) as (p1 & X1 & Y1 & C1 & L1); [lia|].
    destruct (take64 un (snd r)) as [un' d1] eqn:T1. cbn [fst snd] in *.
    destruct (zip64_value_step data co d1 rest _ C1) as (p2 & X2 & Y2 & C2 & L2); [lia|].
    destruct (take64 co d1) as [co' d2] eqn:T2. cbn [fst snd] in *.
    destruct (zip64_value_step data lo d2 rest _ C2) as (p3 & X3 & Y3 & C3 & L3); [lia|].
    destruct (take64 lo d2) as [lo' d3] eqn:T3. cbn [fst snd] in *.
    unfold zbind. rewrite X1. cbn [bind]. rewrite X2. cbn [bind]. rewrite X3. cbn [bind]. unfold zret. cbn [bind].
    set (dr := (N.of_nat (missing un) + N.of_nat (missing co) + N.of_nat (missing lo))%N).
    destruct (N.ltb_spec (len (snd r)) dr); [unfold len, dr in *; lia|].
    unfold seek_by. cbn [bind]. f_equal. unfold len, dr in *. lia.
  - unfold zret. unfold zbind at 1. cbn [bind]. destruct (N.ltb_spec (len (snd r)) 0); [lia|].
    rewrite step_by. f_equal. unfold len in *. lia.
Qed.
Lemma extra_records64 data len0 : forall l v f total p rest,
  Forall (fun r => fst r < 65536 /\ len (snd r) < 65536)%N l -> records_complete v l ->
  cursor data p (extra_field l ++ rest) -> (total + len (extra_field l) <= len0)%N ->
  read_extra data (length l + f) total len0 v p =
  read_extra data f (total + sizes l)%N len0 (fold_left record_values l v) (p + len (extra_field l))%N.
Proof.
  induction l as [|r l IH]; intros v f total p rest F V C T.
  - cbn [length Nat.add sizes fold_right fold_left]. change (len (extra_field [])) with 0%N. rewrite !N.add_0_r. reflexivity.
  - pose proof (Forall_inv F) as [F1 F2]. apply Forall_inv_tail in F. destruct V as [V1 V2].
    change (extra_field (r :: l)) with (extra_record r ++ extra_field l) in *.
    assert (Lr : len (extra_record r) = (4 + len (snd r))%N) by (unfold extra_record, len; rewrite !app_length, !le_length; lia).
    assert (La : len (extra_record r ++ extra_field l) = (len (extra_record r) + len (extra_field l))%N) by (unfold len; rewrite app_length; lia).
    rewrite La in *. rewrite <- app_assoc in C. cbn [length Nat.add].
    rewrite (extra_step64 data _ total len0 v p r (extra_field l ++ rest) V1); [|lia|exact F1|exact F2|exact C].
    apply cursor_move in C. cbn [fold_left]. rewrite (IH _ f _ _ rest F V2 C) by lia.
    cbn [sizes fold_right]. fold (sizes l). f_equal; lia.
Qed.
(** Only zip64 records change anything, and only what asks for it. *)
Lemma no_zip64_values : forall l v, Forall (fun r => fst r <> 1%N) l -> fold_left record_values l v = v.
Proof.
  induction l as [|r l IH]; intros [[un co] lo] F; [reflexivity|]. cbn [fold_left record_values].
  destruct (N.eqb_spec (fst r) 1); [exfalso; exact (Forall_inv F e)|]. apply IH. exact (Forall_inv_tail F).
Qed.

(** After the records the reader goes on reading: with nothing there it fails, *)
Lemma extra_alone l v f total p data : records_complete v l -> l <> [] -> Forall (fun r => fst r < 65536 /\ len (snd r) < 65536)%N l ->
  cursor data p (extra_field l) -> 
  read_extra data (length l + S f) total (total + len (extra_field l))%N v p = Err (EIo UnexpectedEof).
Proof.
  intros Hv Nl F C. rewrite <- (app_nil_r (extra_field l)) in C.
  rewrite (extra_records64 data _ l v (S f) total p [] F Hv C) by lia. apply cursor_move in C.
  cbn [read_extra]. assert (S4 : (len (extra_field l) = 4 * N.of_nat (length l) + sizes l)%N) by apply extra_length.
  assert (1 <= length l) by (destruct l; [congruence|cbn; lia]).
  destruct (N.ltb_spec (total + sizes l) (total + len (extra_field l))); [|lia].
  unfold zbind at 1. rewrite (zle_short _ _ _ _ C); [reflexivity|]. reflexivity.
Qed.
(** with something that looks like a large record it stops there. *)
Lemma extra_step_other data f total len0 v p id sz rest : id <> 1%N -> (total < len0)%N -> (id < 256 ^ 2)%N -> (sz < 256 ^ 2)%N ->
  cursor data p (le 2 id ++ le 2 sz ++ rest) ->
  read_extra data (S f) total len0 v p = read_extra data f (total + sz)%N len0 v (p + 4 + sz)%N.
Proof.
  intros Ni L B1 B2 C. cbn [read_extra]. destruct (N.ltb_spec total len0); [|lia]. do 2 zstep C.
  destruct v as [[un co] lo]. destruct (N.eqb_spec id 1); [congruence|]. unfold zret. unfold zbind at 1. cbn [bind].
  destruct (N.ltb_spec sz 0); [lia|]. rewrite step_by, N.sub_0_r. f_equal. lia.
Qed.
Lemma extra_stops data l v f p id sz rest : records_complete v l -> Forall (fun r => fst r < 65536 /\ len (snd r) < 65536)%N l ->
  id <> 1%N -> (id < 65536)%N -> (sz < 65536)%N -> (4 * N.of_nat (length l) <= sz)%N ->
  cursor data p (extra_field l ++ le 2 id ++ le 2 sz ++ rest) ->
  exists p', read_extra data (length l + S (S f)) 0 (len (extra_field l)) v p = Ok (fold_left record_values l v, p').
Proof.
  intros Hv F Ni B1 B2 Bs C. rewrite (extra_records64 data _ l v _ 0%N p _ F Hv C) by lia. apply cursor_move in C.
  rewrite N.add_0_l. pose proof (extra_length l) as X. destruct l as [|r l].
  - eexists. cbn [read_extra sizes fold_right]. change (len (extra_field [])) with 0%N. reflexivity.
  - set (l0 := r :: l) in *. assert (1 <= length l0) by (cbn; lia).
    rewrite (extra_step_other data _ _ _ _ _ id sz rest Ni); [|lia|exact B1|exact B2|exact C].
    eexists. cbn [read_extra]. destruct (N.ltb_spec (sizes l0 + sz) (len (extra_field l0))); [lia|]. reflexivity.
Qed.

Definition central_of (a : archive) : central :=
  {| cd_method := z_method a; cd_crc32 := z_crc a; cd_compressed := len (z_payload a); cd_uncompressed := z_uncompressed a;
     cd_name := zip_name (z_flags a) (z_name a); cd_local := len (z_before a) |}.
Definition central_result (a : archive) : res central :=
  if N.testbit (z_flags a) 0 then Err (EIo InvalidData)
  else if negb (z_disk_start a =? 0)%N && negb (z_disk_start a =? 65535)%N then Err (EIo InvalidData)
  else Ok (central_of a).

Section Central.
Variables (a : archive) (data : bytes).
Hypothesis Hd : data = archive_bytes a.
Hypothesis Hf : archive_fits a.
Let v := z_fields a.
Let rest := zip64_end a ++ end_record a.
Lemma records_fit : length (z_extra a) + 4 <= length data.
Proof.
  rewrite Hd. unfold archive_bytes. rewrite !app_length. pose proof (central_length a). pose proof (end_length a).
  pose proof (extra_length (z_extra a)). unfold len in *. lia.
Qed.
(** What follows the extra field and the (empty) comment looks like a large record. *)
Lemma rest_shape : exists sz r, rest = le 2 0x4b50 ++ le 2 sz ++ r /\ (1541 <= sz < 65536)%N.
Proof.
  unfold rest, zip64_end. destruct (z_end64 a) as [e|].
  - exists 0x606%N. eexists. split; [|lia]. rewrite <- !app_assoc. change (le 4 101075792) with (le 2 0x4b50 ++ le 2 0x606). rewrite <- app_assoc. reflexivity.
  - exists 0x605%N, (skipn 4 (end_record a)). split; [reflexivity|lia].
Qed.
(** The extra field of the archive, from its place in the file. *)
Lemma extra_read p : cursor data p (extra_field (z_extra a) ++ z_comment a ++ rest) -> extra_tolerated a ->
  exists p', read_extra data (S (length data)) 0%N (len (extra_field (z_extra a))) v p = Ok ((z_uncompressed a, len (z_payload a), len (z_before a)), p').
Proof.
  intros C T. pose proof Hf as (_ & _ & F3 & _ & _ & F6 & F7 & _). rewrite <- F7. fold v in F6, F7 |- *.
  pose proof records_fit as Ld.
  destruct T as [T|[T T']].
  - rewrite T. eexists. cbn [read_extra fold_left]. change (len (extra_field [])) with 0%N. reflexivity.
  - rewrite T in C. cbn [app] in C. destruct rest_shape as (sz & r & Er & B). rewrite Er in C.
    replace (S (length data)) with (length (z_extra a) + S (S (length data - length (z_extra a) - 1))) by lia.
    eapply extra_stops; eauto; try lia; discriminate.
Qed.
(** More than 385 records: the reader runs out of file. *)
Lemma extra_fails p : cursor data p (extra_field (z_extra a) ++ z_comment a ++ rest) -> z_end64 a = None ->
  z_comment a = [] -> 385 < length (z_extra a) -> (len (z_end_comment a) < 1525)%N ->
  read_extra data (S (length data)) 0%N (len (extra_field (z_extra a))) v p = Err (EIo UnexpectedEof).
Proof.
  intros C N64 T T' Z. pose proof Hf as (_ & _ & F3 & _ & _ & F6 & _ & _). fold v in F6.
  pose proof records_fit as Ld.
  replace (S (length data)) with (length (z_extra a) + S (S (length data - length (z_extra a) - 1))) by lia.
  rewrite (extra_records64 data _ _ v _ _ _ _ F3 F6 C) by lia. apply cursor_move in C.
  rewrite N.add_0_l. pose proof (extra_length (z_extra a)) as X.
  rewrite T in C. cbn [app] in C. unfold rest, zip64_end in C. rewrite N64 in C. cbn [app] in C.
  assert (C1 : cursor data (p + len (extra_field (z_extra a)))%N (le 2 0x4b50 ++ le 2 0x605 ++ skipn 4 (end_record a))) by exact C.
  rewrite (extra_step_other data _ _ _ _ _ 0x4b50%N 0x605%N (skipn 4 (end_record a))); [|discriminate|lia|reflexivity|reflexivity|exact C1].
  cbn [read_extra]. destruct (N.ltb_spec (sizes (z_extra a) + 1541) (len (extra_field (z_extra a)))); [|lia].
  unfold zbind at 1. rewrite zle_past; [reflexivity|].
  destruct C as [C0 C]. apply (f_equal (@length ascii)) in C. rewrite skipn_length in C. pose proof (end_length a). unfold size, len in *. lia.
Qed.

(** The central header up to the extra field. *)
Lemma central_prefix p : cursor data p (central_header a ++ rest) ->
  exists q, cursor data q (extra_field (z_extra a) ++ z_comment a ++ rest) /\
  read_central data p =
    (let@ (un, co, lo) := read_extra data (S (length data)) 0%N (len (extra_field (z_extra a))) v in
     let@ _ := seek_by (len (z_comment a)) in
     if N.testbit (z_flags a) 0 then zfail InvalidData
     else if negb (z_disk_start a =? 0)%N && negb (z_disk_start a =? 65535)%N then zfail InvalidData
     else zret {| cd_method := z_method a; cd_crc32 := z_crc a; cd_compressed := co; cd_uncompressed := un;
                  cd_name := zip_name (z_flags a) (z_name a); cd_local := lo |}) q.
Proof.
  intro C. pose proof Hf as (F1 & F2 & F3 & F4 & F5 & _).
  unfold central_header in C. rewrite <- !app_assoc in C.
  assert (B2 : forall x, In x [z_made a; z_needed a; z_flags a; z_method a; z_time a; z_date a; z_disk_start a; z_internal a; z_disk a; z_cd_disk a; z_here a; z_total a] -> (x < 256 ^ 2)%N).
  { intros x I. exact (Forall_in _ _ _ F4 I). }
  assert (B2' : forall x, In x [z_local_name a; z_local_extra a; z_name a; extra_field (z_extra a); z_comment a; z_end_comment a] -> (len x < 256 ^ 2)%N).
  { intros x I. exact (Forall_in _ _ _ F2 I). }
  assert (B4 : forall x, In x [z_crc a; z_external a; fst (fst (z_fields a)); snd (fst (z_fields a)); snd (z_fields a)] -> (x < 256 ^ 4)%N).
  { intros x I. exact (Forall_in _ _ _ F5 I). }
  assert (Y1 : (z_made a < 256 ^ 2)%N) by (apply B2; cbn; tauto).
  assert (Y2 : (z_needed a < 256 ^ 2)%N) by (apply B2; cbn; tauto).
  assert (Y3 : (z_flags a < 256 ^ 2)%N) by (apply B2; cbn; tauto).
  assert (Y4 : (z_method a < 256 ^ 2)%N) by (apply B2; cbn; tauto).
  assert (Y5 : (z_time a < 256 ^ 2)%N) by (apply B2; cbn; tauto).
  assert (Y6 : (z_date a < 256 ^ 2)%N) by (apply B2; cbn; tauto).
  assert (Y7 : (z_disk_start a < 256 ^ 2)%N) by (apply B2; cbn; tauto).
  assert (Y8 : (z_internal a < 256 ^ 2)%N) by (apply B2; cbn; tauto).
  assert (Y9 : (len (z_name a) < 256 ^ 2)%N) by (apply B2'; cbn; tauto).
  assert (Y10 : (len (extra_field (z_extra a)) < 256 ^ 2)%N) by (apply B2'; cbn; tauto).
  assert (Y11 : (len (z_comment a) < 256 ^ 2)%N) by (apply B2'; cbn; tauto).
  assert (Y12 : (z_crc a < 256 ^ 4)%N) by (apply B4; cbn; tauto).
  assert (Y13 : (z_external a < 256 ^ 4)%N) by (apply B4; cbn; tauto).
  assert (Y14 : (fst (fst (z_fields a)) < 256 ^ 4)%N) by (apply B4; cbn; tauto).
  assert (Y15 : (snd (fst (z_fields a)) < 256 ^ 4)%N) by (apply B4; cbn; tauto).
  assert (Y16 : (snd (z_fields a) < 256 ^ 4)%N) by (apply B4; cbn; tauto).
  clear B2 B2' B4 F2 F4 F5.
  unfold read_central. zstep C. unfold CENTRAL_FILE_HEADER_SIGNATURE. rewrite N.eqb_refl. cbn [negb].
  do 16 zstep C.
  match type of C with cursor _ ?q _ =>
    match goal with |- context [zbind (zget data ?n) ?f q] =>
      destruct (step_get_eq data q n (z_name a) _ f C eq_refl) as [E C'] end end.
  rewrite E. cbv beta. eexists. split; [exact C'|]. unfold v. destruct (z_fields a) as [[? ?] ?]. reflexivity.
Qed.
Lemma central_read p : cursor data p (central_header a ++ rest) -> extra_tolerated a ->
  exists p', read_central data p = let* x := central_result a in Ok (x, p').
Proof.
  intros C T. destruct (central_prefix p C) as (q & C' & ->). destruct (extra_read q C' T) as (p' & E).
  unfold zbind at 1. rewrite E. cbn [bind]. rewrite step_by. unfold central_result, central_of.
  destruct (N.testbit _ _); [exists 0%N; reflexivity|]. destruct (_ && _); [exists 0%N; reflexivity|]. eexists. reflexivity.
Qed.
Lemma central_fails p : cursor data p (central_header a ++ rest) ->
  z_end64 a = None -> z_comment a = [] -> 385 < length (z_extra a) -> (len (z_end_comment a) < 1525)%N ->
  read_central data p = Err (EIo UnexpectedEof).
Proof.
  intros C N64 T T' Z. destruct (central_prefix p C) as (q & C' & ->). pose proof (extra_fails q C' N64 T T' Z) as E.
  unfold zbind at 1. rewrite E. reflexivity.
Qed.
End Central.

(** ** Opening *)
Section Open.
Variables (inflate bunzip : inner -> inner) (plan : list step).
Definition member_reader (a : archive) : res (crc_reader * bytes) :=
  let taken := {| i_data := z_payload a; i_tail := None; i_plan := plan |} in
  let name := zip_name (z_flags a) (z_name a) in
  if (z_method a =? 0)%N then Ok (crc_new taken (z_crc a), name)
  else if (z_method a =? 8)%N then Ok (crc_new (inflate taken) (z_crc a), name)
  else if (z_method a =? 12)%N then Ok (crc_new (bunzip taken) (z_crc a), name)
  else Err (EIo InvalidData).
Lemma cursor_skip data p w rest k : cursor data p (w ++ rest) -> k = len w -> cursor data (p + k) rest.
Proof. intros C ->. now apply cursor_move. Qed.

Section Open1.
Variable a : archive.
Hypothesis Hf : archive_fits a.
Hypothesis Hu : end_unambiguous a.
Let data := archive_bytes a.
Lemma open_end {A} (f : unit -> at_pos A) p0 : 
  zbind (find_eocdr_and_prepare_to_read data) f p0 = f tt (len (until_central a ++ central_header a ++ zip64_end a) + 4)%N /\
  cursor data (len (until_central a ++ central_header a ++ zip64_end a) + 4) (skipn 4 (end_record a)).
Proof.
  assert (Ed : data = (until_central a ++ central_header a ++ zip64_end a) ++ end_record a) by (unfold data, archive_bytes; rewrite <- !app_assoc; reflexivity).
  pose proof (end_length a) as El. pose proof (central_length a) as Cl.
  assert (Bc : (len (z_end_comment a) < 65536)%N) by (destruct Hf as (_ & F2 & _); eapply (Forall_in _ _ _ F2); cbn; tauto).
  split.
  - unfold zbind. rewrite (find_end data _ _ Ed); [reflexivity|unfold len in *; lia| |unfold MAX_EOCDR_SEARCH_BACK_OFFSET; lia|exact (proj1 Hu)|reflexivity].
    intro E. apply (f_equal (@length ascii)) in E. rewrite !app_length in E. cbn [length] in E. unfold len in *. lia.
  - apply (cursor_skip _ _ (le 4 0x06054b50)); [|reflexivity]. apply cursor_app. exact Ed.
Qed.
Lemma open_main : extra_tolerated a ->
  zip_open data inflate bunzip plan =
  (let* _ := eocdr_result a in let* _ := central_result a in member_reader a).
Proof.
  intro T. unfold zip_open, zip_open_at.
  match goal with |- context [zbind (find_eocdr_and_prepare_to_read data) ?f 0%N] => destruct (open_end f 0%N) as [E C] end.
  rewrite E. cbv beta. clear E.
  destruct (eocdr_read a data _ Hf C) as (p1 & E1). unfold zbind at 1. rewrite E1. clear E1.
  destruct (eocdr_result a) as [eo|e| | |] eqn:Er; try reflexivity. cbn [bind].
  assert (eo = (match z_end64 a with None => len (until_central a) | Some e => e_offset e end, len (z_end_comment a))) as ->.
  { unfold eocdr_result in Er. destruct (_ || _); [discriminate|]. destruct (_ || _); [discriminate|]. congruence. }
  destruct (offset_read a data p1 eq_refl Hf Hu) as (p2 & E2). unfold zbind at 1. rewrite E2. cbn [bind]. clear E2.
  rewrite step_start.
  assert (Cc : cursor data (len (until_central a)) (central_header a ++ zip64_end a ++ end_record a)) by (apply cursor_app; reflexivity).
  destruct (central_read a data eq_refl Hf _ Cc T) as (p3 & E3). unfold zbind at 1. rewrite E3. clear E3.
  destruct (central_result a) as [cd|e| | |] eqn:Ec; try reflexivity. cbn [bind].
  assert (cd = central_of a) as ->.
  { unfold central_result in Ec. destruct (N.testbit _ _); [discriminate|]. destruct (_ && _); [discriminate|]. congruence. }
  rewrite step_start. cbn [cd_local central_of].
  assert (Cl : cursor data (len (z_before a)) (local_header a ++ z_payload a ++ z_between a ++ central_header a ++ zip64_end a ++ end_record a)).
  { apply cursor_app. unfold data, archive_bytes, until_central. rewrite <- !app_assoc. reflexivity. }
  unfold local_header in Cl. rewrite <- !app_assoc in Cl.
  pose proof Hf as (F1 & F2 & _).
  assert (Y1 : (len (z_local_name a) < 256 ^ 2)%N) by (eapply (Forall_in _ _ _ F2); cbn; tauto).
  assert (Y2 : (len (z_local_extra a) < 256 ^ 2)%N) by (eapply (Forall_in _ _ _ F2); cbn; tauto).
  zstep Cl. unfold LOCAL_FILE_HEADER_SIGNATURE. rewrite N.eqb_refl. cbn [negb]. rewrite step_by.
  apply (cursor_skip _ _ _ _ LOCAL_HEADER_FIXED_FIELDS_SIZE) in Cl; [|unfold len; rewrite F1; reflexivity].
  do 2 zstep Cl. rewrite !step_by.
  apply (cursor_skip _ _ _ _ (len (z_local_name a))) in Cl; [|reflexivity].
  apply (cursor_skip _ _ _ _ (len (z_local_extra a))) in Cl; [|reflexivity].
  destruct Cl as [_ Cl]. rewrite Cl. cbn [central_of cd_compressed cd_method cd_crc32 cd_name].
  assert (Ft : firstn (N.to_nat (len (z_payload a))) (z_payload a ++ z_between a ++ central_header a ++ zip64_end a ++ end_record a) = z_payload a).
  { unfold len. rewrite Nat2N.id, firstn_app, firstn_all, Nat.sub_diag. cbn [firstn]. apply app_nil_r. }
  rewrite Ft. unfold member_reader. destruct (z_method a =? 0)%N; [reflexivity|]. destruct (z_method a =? 8)%N; [reflexivity|].
  destruct (z_method a =? 12)%N; reflexivity.
Qed.
Lemma open_too_many : eocdr_result a = Ok (match z_end64 a with None => len (until_central a) | Some e => e_offset e end, len (z_end_comment a)) ->
  z_end64 a = None -> z_comment a = [] -> 385 < length (z_extra a) -> (len (z_end_comment a) < 1525)%N ->
  zip_open data inflate bunzip plan = Err (EIo UnexpectedEof).
Proof.
  intros Er N64 T T' Z. unfold zip_open, zip_open_at.
  match goal with |- context [zbind (find_eocdr_and_prepare_to_read data) ?f 0%N] => destruct (open_end f 0%N) as [E C] end.
  rewrite E. cbv beta. clear E.
  destruct (eocdr_read a data _ Hf C) as (p1 & E1). unfold zbind at 1. rewrite E1, Er. clear E1. cbn [bind].
  destruct (offset_read a data p1 eq_refl Hf Hu) as (p2 & E2). unfold zbind at 1. rewrite E2. cbn [bind]. clear E2.
  rewrite step_start.
  assert (Cc : cursor data (len (until_central a)) (central_header a ++ zip64_end a ++ end_record a)) by (apply cursor_app; reflexivity).
  unfold zbind at 1. rewrite (central_fails a data eq_refl Hf _ Cc N64 T T' Z). reflexivity.
Qed.
End Open1.
End Open.

(** Any file whose last end record announces something else than one entry on one disk. *)
Lemma rejected_end data pre er d cd h t sz off cl comment inflate bunzip plan :
  data = pre ++ er -> pre <> [] -> er = le 4 0x06054b50 ++ le 2 d ++ le 2 cd ++ le 2 h ++ le 2 t ++ le 4 sz ++ le 4 off ++ le 2 cl ++ comment ->
  Forall (fun x => x < 65536)%N [d; cd; h; t; cl] -> (sz < 4294967296)%N -> (off < 4294967296)%N -> (len comment < 65536)%N ->
  (forall k, 0 < k -> firstn 4 (skipn k er) <> le 4 0x06054b50) ->
  ~ (t = 1 /\ h = 1 /\ d = 0 /\ cd = 0)%N ->
  zip_open data inflate bunzip plan = Err (EIo InvalidData).
Proof.
  intros E Np Ee F B1 B2 B3 U Ns. unfold zip_open, zip_open_at.
  assert (Le : len er = (22 + len comment)%N) by (rewrite Ee; unfold len; rewrite !app_length, !le_length; lia).
  unfold zbind at 1. rewrite (find_end data pre er E); trivial; [|unfold len in *; lia|unfold MAX_EOCDR_SEARCH_BACK_OFFSET; lia|rewrite Ee; reflexivity].
  cbn [bind].
  assert (C : cursor data (len pre + 4) (le 2 d ++ le 2 cd ++ le 2 h ++ le 2 t ++ le 4 sz ++ le 4 off ++ le 2 cl ++ comment)).
  { apply (cursor_skip _ _ (le 4 0x06054b50)); [|reflexivity]. rewrite Ee in E. apply cursor_app. exact E. }
  assert (Y : forall x, In x [d; cd; h; t; cl] -> (x < 256 ^ 2)%N) by (intros x I; exact (Forall_in _ _ _ F I)).
  assert (Y1 : (d < 256 ^ 2)%N) by (apply Y; cbn; tauto). assert (Y2 : (cd < 256 ^ 2)%N) by (apply Y; cbn; tauto).
  assert (Y3 : (h < 256 ^ 2)%N) by (apply Y; cbn; tauto). assert (Y4 : (t < 256 ^ 2)%N) by (apply Y; cbn; tauto).
  assert (Y5 : (cl < 256 ^ 2)%N) by (apply Y; cbn; tauto).
  assert (Y6 : (sz < 256 ^ 4)%N) by exact B1. assert (Y7 : (off < 256 ^ 4)%N) by exact B2.
  assert (X : read_eocdr data (len pre + 4)%N = Err (EIo InvalidData)).
  { unfold read_eocdr. do 7 zstep C. rewrite step_by.
    destruct (N.eqb_spec t 1), (N.eqb_spec h 1), (N.eqb_spec d 0), (N.eqb_spec cd 0); cbn [negb orb]; try reflexivity. exfalso. tauto. }
  unfold zbind at 1. rewrite X. reflexivity.
Qed.

(** ** Names *)
Lemma lossy_utf8 s : utf8 s = true -> lossy s = s.
Proof.
  assert (G : forall n s, length s <= n -> utf8 s = true -> lossy s = s).
  { induction n as [|n IH]; intros [|c t] L U; try reflexivity; [cbn in L; lia|].
    cbn [utf8 lossy] in *. cbn [length] in L.
    destruct (of_byte c <? 128)%N; [rewrite IH by (trivial; lia); reflexivity|].
    destruct (between 194 223 c).
    { destruct t as [|c1 t]; [discriminate|]. apply andb_true_iff in U. destruct U as [U1 U]. rewrite U1. cbn [length] in L. rewrite IH by (trivial; lia). reflexivity. }
    destruct (between 224 239 c).
    { destruct t as [|c1 [|c2 t]]; [discriminate..|]. apply andb_true_iff in U. destruct U as [U1 U]. apply andb_true_iff in U1. destruct U1 as [U1 U2].
      rewrite U1, U2. cbn [length] in L. rewrite IH by (trivial; lia). reflexivity. }
    destruct (between 240 244 c); [|discriminate].
    destruct t as [|c1 [|c2 [|c3 t]]]; [discriminate..|]. apply andb_true_iff in U. destruct U as [U1 U]. apply andb_true_iff in U1. destruct U1 as [U1 U3].
    apply andb_true_iff in U1. destruct U1 as [U1 U2].
    rewrite U1, U2, U3. cbn [length] in L. rewrite IH by (trivial; lia). reflexivity. }
  apply (G (length s)). reflexivity.
Qed.
Lemma name_shown flags name : shown_name flags name (zip_name flags name).
Proof.
  unfold shown_name, zip_name. destruct (N.testbit flags 11); [apply lossy_utf8|].
  apply flat_map_ext. intro c. destruct (N.leb_spec (of_byte c) 127), (N.ltb_spec (of_byte c) 128); try lia; reflexivity.
Qed.
