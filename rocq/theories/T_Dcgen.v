(** Property theorems: the example file dcgen writes (C110). *)
From Verif Require Import DcgenModel DcgenSpec DcLayout DcLayoutProofs DcProofs TimestampProofs DriverSpec.
From Verif Require Utf8Spec.
From Coq Require Decimal DecimalN DecimalPos DecimalFacts DecimalString.
Local Ltac Zify.zify_post_hook ::= idtac.

(** ** Decimal numerals have no leading zeros *)
Lemma of_acc_ge u : forall p, (Npos p * 10 ^ N.of_nat (Decimal.nb_digits u) <= Npos (Pos.of_uint_acc u p))%N.
Proof.
  induction u; intro p; [cbn; lia|..];
    cbn [Decimal.nb_digits Pos.of_uint_acc]; rewrite Nat2N.inj_succ, N.pow_succ_r';
    match goal with |- context [Pos.of_uint_acc u ?q] => specialize (IHu q) end;
    eapply N.le_trans; try exact IHu; rewrite N.mul_assoc; apply N.mul_le_mono_r; lia.
Qed.
Lemma to_uint_ge n : n <> 0%N -> (10 ^ N.of_nat (Decimal.nb_digits (N.to_uint n) - 1) <= n)%N.
Proof.
  intro H. pose proof (DecimalN.Unsigned.of_to n) as E. pose proof (DecimalN.Unsigned.to_of (N.to_uint n)) as U.
  rewrite E in U. destruct (N.to_uint n) as [|u|u|u|u|u|u|u|u|u|u]; cbn in E; try (now subst n).
  - exfalso. unfold Decimal.unorm in U. cbn [Decimal.nzhead] in U.
    pose proof (DecimalFacts.nb_digits_nzhead u) as L. destruct (Decimal.nzhead u) eqn:Z; try discriminate U.
    + injection U as ->. now subst n.
    + injection U as ->. cbn in L. lia.
  - pose proof (of_acc_ge u 1) as G. change (N.pos (Pos.of_uint_acc u 1) = n) in E. rewrite E in G. cbn [Decimal.nb_digits].
    rewrite Nat.sub_succ, Nat.sub_0_r. lia.
  - pose proof (of_acc_ge u 2) as G. change (N.pos (Pos.of_uint_acc u 2) = n) in E. rewrite E in G. cbn [Decimal.nb_digits].
    rewrite Nat.sub_succ, Nat.sub_0_r. lia.
  - pose proof (of_acc_ge u 3) as G. change (N.pos (Pos.of_uint_acc u 3) = n) in E. rewrite E in G. cbn [Decimal.nb_digits].
    rewrite Nat.sub_succ, Nat.sub_0_r. lia.
  - pose proof (of_acc_ge u 4) as G. change (N.pos (Pos.of_uint_acc u 4) = n) in E. rewrite E in G. cbn [Decimal.nb_digits].
    rewrite Nat.sub_succ, Nat.sub_0_r. lia.
  - pose proof (of_acc_ge u 5) as G. change (N.pos (Pos.of_uint_acc u 5) = n) in E. rewrite E in G. cbn [Decimal.nb_digits].
    rewrite Nat.sub_succ, Nat.sub_0_r. lia.
  - pose proof (of_acc_ge u 6) as G. change (N.pos (Pos.of_uint_acc u 6) = n) in E. rewrite E in G. cbn [Decimal.nb_digits].
    rewrite Nat.sub_succ, Nat.sub_0_r. lia.
  - pose proof (of_acc_ge u 7) as G. change (N.pos (Pos.of_uint_acc u 7) = n) in E. rewrite E in G. cbn [Decimal.nb_digits].
    rewrite Nat.sub_succ, Nat.sub_0_r. lia.
  - pose proof (of_acc_ge u 8) as G. change (N.pos (Pos.of_uint_acc u 8) = n) in E. rewrite E in G. cbn [Decimal.nb_digits].
    rewrite Nat.sub_succ, Nat.sub_0_r. lia.
  - pose proof (of_acc_ge u 9) as G. change (N.pos (Pos.of_uint_acc u 9) = n) in E. rewrite E in G. cbn [Decimal.nb_digits].
    rewrite Nat.sub_succ, Nat.sub_0_r. lia.
Qed.
Lemma string_of_uint_length u : length (b (DecimalString.NilEmpty.string_of_uint u)) = Decimal.nb_digits u.
Proof. induction u; cbn; try congruence; f_equal; exact IHu. Qed.
Lemma dec_length n k : 1 <= k -> (n < 10 ^ N.of_nat k)%N -> length (dec n) <= k.
Proof.
  intros Hk H. rewrite TimestampProofs.dec_eq, string_of_uint_length. destruct (N.eq_dec n 0) as [->|N]; [cbn; lia|].
  pose proof (to_uint_ge n N) as G. destruct (Nat.le_gt_cases (Decimal.nb_digits (N.to_uint n)) k) as [L|L]; [exact L|].
  exfalso. assert (10 ^ N.of_nat k <= 10 ^ N.of_nat (Decimal.nb_digits (N.to_uint n) - 1))%N; [|lia].
  apply N.pow_le_mono_r; [discriminate|lia].
Qed.

(** ** The double *)
Lemma f64_exact t : (t < 2 ^ 53)%N -> double_is (f64_of_u64 t) t.
Proof.
  intro H. unfold f64_of_u64. destruct (N.eqb_spec t 0) as [->|N]; [now left|]. right.
  pose proof (N.log2_spec t ltac:(lia)) as [L U]. set (k := N.log2 t) in *.
  assert (K : (k <= 52)%N). { unfold k. apply N.lt_succ_r. apply N.log2_lt_pow2; [lia|exact H]. }
  rewrite (proj2 (N.leb_le _ _) K). exists (1023 + k)%N, (t * 2 ^ (52 - k) - 2 ^ 52)%N.
  assert (P : (2 ^ 52 = 2 ^ k * 2 ^ (52 - k))%N) by (rewrite <- N.pow_add_r; f_equal; lia).
  assert (Q : (2 ^ 53 = 2 ^ N.succ k * 2 ^ (52 - k))%N) by (rewrite <- N.pow_add_r; f_equal; lia).
  assert (Z : (2 ^ (52 - k) <> 0)%N) by (apply N.pow_nonzero; discriminate).
  assert (G : (2 ^ 52 <= t * 2 ^ (52 - k))%N) by (rewrite P; now apply N.mul_le_mono_r).
  split; [reflexivity|]. split.
  - enough (t * 2 ^ (52 - k) < 2 ^ 53)%N by (change (2 ^ 53)%N with (2 * 2 ^ 52)%N in *; lia).
    rewrite Q. apply N.mul_lt_mono_pos_r; [lia|exact U].
  - split; [lia|]. replace (2 ^ 52 + (t * 2 ^ (52 - k) - 2 ^ 52))%N with (t * 2 ^ (52 - k))%N by lia.
    rewrite <- N.mul_assoc, <- N.pow_add_r. do 2 f_equal. lia.
Qed.
Lemma double_lt d t : double_is d t -> (d < 2 ^ 64)%N.
Proof. intros [[-> _]|(e & f & -> & F & E & _)]; [reflexivity|]. change (2 ^ 64)%N with (4096 * 2 ^ 52)%N. nia. Qed.

(** ** What the file gets *)
Lemma pour_whole f : forall bs o r w, length bs <= f -> pour f bs o = (r, w) ->
  exists done rest p, bs = done ++ rest /\ o_got (bw_out w) = o_got o ++ done /\ o_plan o = p ++ o_plan (bw_out w) /\ (is_ok r = true -> rest = []).
Proof.
  induction f as [|f IH]; intros bs o r w L E.
  - destruct bs; [|cbn in L; lia]. injection E as <- <-. exists [], [], []. cbn. now rewrite app_nil_r.
  - destruct bs as [|c bs]; [injection E as <- <-; exists [], [], []; cbn; now rewrite app_nil_r|]. cbn [pour] in E.
    unfold outer_write in E. destruct (o_plan o) as [|[k|e] p] eqn:P.
    + destruct (o_end o) as [e|].
      * injection E as <- <-. exists [], (c :: bs), []. cbn [bw_out]. rewrite app_nil_r, P. repeat split; discriminate.
      * cbn [length Nat.eqb] in E. change (S (length bs)) with (length (c :: bs)) in E. rewrite skipn_all in E.
        destruct (IH [] _ _ _ (Nat.le_0_l f) E) as (d & x & q & D & G & Q & _). symmetry in D. apply app_eq_nil in D. destruct D as [-> ->].
        exists (c :: bs), [], []. cbn [o_got o_plan] in *. rewrite ?app_nil_r in *. symmetry in Q. apply app_eq_nil in Q.
        destruct Q as [-> Q]. rewrite Q. auto.
    + destruct (Nat.eqb_spec (Nat.min k (length (c :: bs))) 0) as [Z|Z].
      * injection E as <- <-. exists [], (c :: bs), [Accept k]. cbn [bw_out o_got o_plan].
        assert (K : k = 0) by (cbn in Z; lia). subst k. repeat split; discriminate.
      * apply IH in E; [|rewrite skipn_length; lia]. destruct E as (d & x & q & D & G & Q & R). cbn [o_got o_plan] in *.
        exists (firstn k (c :: bs) ++ d), x, (Accept k :: q). rewrite <- app_assoc, <- D. split.
        -- destruct (Nat.le_ge_cases k (length (c :: bs))) as [Q'|Q'];
             [rewrite Nat.min_l by exact Q'; now rewrite firstn_skipn|].
           rewrite Nat.min_r by exact Q'. rewrite skipn_all, app_nil_r. symmetry. now apply firstn_all2.
        -- rewrite G, <- app_assoc, Q. auto.
    + injection E as <- <-. exists [], (c :: bs), [Refuse e]. cbn [bw_out o_got o_plan]. rewrite app_nil_r. repeat split; discriminate.
Qed.

Definition fits_call (L : nat) (c : call) : Prop := match c with Once bs => length bs <= L | All _ => True end.
Lemma call_whole L c o r o' : takes L o -> fits_call L c -> do_call c o = (r, o') ->
  (r = Ok tt /\ o_got o' = o_got o ++ called c /\ takes L o') \/
  (r = Panic /\ exists done rest, called c = done ++ rest /\ o_got o' = o_got o ++ done).
Proof.
  intros T F E. unfold do_call in E. destruct c as [bs|bs]; cbn [called fits_call] in *.
  - destruct (pour (length bs) bs o) as [r0 w] eqn:W.
    destruct (pour_whole (length bs) bs o r0 w (le_n _) W) as (d & x & p & D & G & P & R).
    injection E as <- <-. destruct r0; try (right; split; [reflexivity|now exists d, x]).
    left. rewrite (R eq_refl), app_nil_r in D. subst d. split; [reflexivity|]. split; [exact G|].
    unfold takes in *. rewrite P in T. now apply Forall_app in T.
  - unfold outer_write in E. unfold takes in *. destruct (o_plan o) as [|[k|e] p] eqn:P.
    + destruct (o_end o); injection E as <- <-; [right|left; cbn; auto]. split; [reflexivity|]. exists [], bs. now rewrite app_nil_r.
    + injection E as <- <-. left. inversion T; subst. cbn. split; [reflexivity|]. split; [|assumption].
      f_equal. apply firstn_all2. lia.
    + injection E as <- <-. right. split; [reflexivity|]. exists [], bs. cbn. now rewrite app_nil_r.
Qed.
Lemma calls_whole L cs : Forall (fits_call L) cs -> forall o r o', takes L o -> do_calls cs o = (r, o') ->
  (r = Ok tt /\ o_got o' = o_got o ++ concat (map called cs)) \/
  (r = Panic /\ exists done rest, concat (map called cs) = done ++ rest /\ o_got o' = o_got o ++ done).
Proof.
  induction 1 as [|c cs F Fs IH]; intros o r o' T E; cbn [do_calls] in E.
  - injection E as <- <-. left. cbn. now rewrite app_nil_r.
  - destruct (do_call c o) as [r1 o1] eqn:E1. cbn [map concat].
    destruct (call_whole L c o r1 o1 T F E1) as [(-> & G & T1)|(-> & d & x & D & G)].
    + destruct (IH o1 r o' T1 E) as [(-> & G')|(-> & d & x & D & G')]; [left|right].
      * split; [reflexivity|]. rewrite G', G, <- app_assoc. reflexivity.
      * split; [reflexivity|]. exists (called c ++ d), x. rewrite D, G', G, <- !app_assoc. auto.
    + injection E as <- <-. right. split; [reflexivity|]. exists d, (x ++ concat (map called cs)). now rewrite D, <- app_assoc.
Qed.

(** ** Its contents *)
Definition gen_value (t : N) : row :=
  {| ts := t; vals := [VDouble (f64_of_u64 t); VInt (Z.of_N t); VInt (Z.of_N t); VString (dec t)] |}.
Lemma called_app x y : concat (map called (x ++ y)) = concat (map called x) ++ concat (map called y).
Proof. now rewrite map_app, concat_app. Qed.
Lemma dec_utf8 t : utf8 (dec t) = true.
Proof.
  rewrite TimestampProofs.dec_eq. generalize (N.to_uint t). intro u. induction u; [reflexivity|..]; cbn in *; exact IHu.
Qed.
Lemma gen_sized_bytes s : concat (map called (gen_sized s)) = write_sized_string s.
Proof. unfold gen_sized, write_sized_string. cbn. now rewrite app_nil_r. Qed.
Lemma gen_string_bytes s : concat (map called (gen_string s)) = write_string_value s.
Proof.
  unfold gen_string, write_string_value. destruct (N.of_nat (length s) <=? 32767)%N; cbn [app map called concat];
    now rewrite ?app_nil_r, <- ?app_assoc.
Qed.
Lemma dec_dc t : (t < 2 ^ 31)%N -> dc_string (dec t) /\ length (dec t) <= 10.
Proof.
  intro H. assert (L : length (dec t) <= 10). { apply dec_length; [lia|]. change (10 ^ N.of_nat 10)%N with 10000000000%N. lia. }
  split; [|exact L]. split; [apply dec_utf8|]. lia.
Qed.
Lemma gen_column name t d ts' : dc_string name -> descriptor_of t (gen_type_string d) ->
  dc_column name t (concat (map called (gen_descriptor name d ts'))).
Proof.
  intros N D. unfold gen_descriptor. rewrite !called_app, !gen_sized_bytes.
  exists (write_sized_string name), (gen_type_string d), (write_sized_string (gen_type_string d)),
    (be 4 (to_unsigned 32 (if ts' then 0 else -1))), (if ts' then 0 else -1)%Z.
  split; [now apply write_sized_layout|]. split; [exact D|].
  split; [apply write_sized_layout; now destruct d|].
  split; [apply (be_signed 4); [lia|destruct ts'; cbn; lia]|]. split; [destruct ts'; lia|].
  unfold gen_hint. cbn [map called concat]. now rewrite app_nil_r.
Qed.
Lemma gen_header_layout :
  header_layout (h_names example_header) (h_types example_header) (concat (map called (gen_magic ++ gen_user_header ++ gen_descriptors))).
Proof.
  exists (be 8 0x44434154), (be 2 2), (be 4 7), (b "example"), (be 4 4),
    (concat (map called (gen_descriptor (b "a_double") GDouble false ++ gen_descriptor (b "an_int") GInt false ++
       gen_descriptor (b "an_int_timestamp") GInt true ++ gen_descriptor (b "a_string") GString false))).
  split; [now apply be_unsigned|]. split; [now apply be_unsigned|]. split; [now apply be_unsigned|]. split; [now apply be_unsigned|].
  split; [discriminate|]. split; [|reflexivity].
  rewrite !called_app. cbn [example_header h_names h_types].
  do 3 (apply cs_cons; [apply gen_column; [split; reflexivity|unfold descriptor_of; cbn; intuition]|]).
  rewrite <- (app_nil_r (concat (map called (gen_descriptor (b "a_string") GString false)))).
  apply cs_cons; [apply gen_column; [split; reflexivity|unfold descriptor_of; cbn; intuition]|]. constructor.
Qed.
Lemma gen_row_layout t : (t < 2 ^ 31)%N -> row_layout (h_types example_header) (gen_value t) (concat (map called (gen_row t))).
Proof.
  intro H. destruct (dec_dc t H) as [D _]. unfold gen_row. rewrite !called_app, gen_string_bytes.
  exists (be 8 t), [byte_of 0],
    (be 8 (f64_of_u64 t) ++ be 4 (t mod 2 ^ 32) ++ be 4 (t mod 2 ^ 32) ++ write_string_value (dec t)).
  assert (B : (2 ^ 31 < 2 ^ 53)%N) by reflexivity.
  split; [apply be_unsigned; change (256 ^ N.of_nat 8)%N with (2 ^ 64)%N; lia|]. split; [reflexivity|]. split.
  - cbn [vals gen_value h_types example_header]. apply vs_value; [reflexivity| |].
    { apply be_unsigned. eapply double_lt, f64_exact. lia. }
    rewrite N.mod_small by lia.
    assert (V : signed 4 (Z.of_N t) (be 4 t)).
    { replace t with (to_unsigned 32 (Z.of_N t)) at 2; [apply (be_signed 4); [lia|cbn; lia]|].
      unfold to_unsigned. rewrite Z.mod_small by (cbn; lia). apply N2Z.id. }
    apply vs_value; [reflexivity|exact V|]. apply vs_value; [reflexivity|exact V|].
    rewrite <- (app_nil_r (write_string_value _)). apply vs_value; [reflexivity|now apply write_string_layout|]. constructor.
  - cbn [map called concat gen_bitfield repeat Nat.div Nat.add Nat.sub app]. rewrite ?app_nil_r, <- !app_assoc. reflexivity.
Qed.
Lemma gen_rows_layout n : (N.of_nat n <= 2 ^ 31)%N ->
  rows_layout (h_types example_header) (map (fun i => gen_value (N.of_nat i)) (seq 0 n)) (concat (map called (gen_rows n))).
Proof.
  unfold gen_rows. intro H. assert (K : Forall (fun i => (N.of_nat i < 2 ^ 31)%N) (seq 0 n)).
  { apply Forall_forall. intros i I. apply in_seq in I. lia. }
  induction K as [|i l Hi _ IH]; cbn [map flat_map]; [constructor|]. rewrite called_app. constructor; [now apply gen_row_layout|exact IH].
Qed.
Lemma gen_fits n : (N.of_nat n <= 2 ^ 31)%N -> Forall (fits_call 18) (gen_calls n).
Proof.
  intro H.
  assert (P : Forall (fits_call 18) (gen_magic ++ gen_user_header ++ gen_descriptors)).
  { apply Forall_forall. intros c I. assert (D : forallb (fun c => match c with Once bs => length bs <=? 18 | All _ => true end) (gen_magic ++ gen_user_header ++ gen_descriptors) = true) by reflexivity.
    rewrite forallb_forall in D. specialize (D c I). destruct c; cbn [fits_call]; [exact Logic.I|now apply Nat.leb_le]. }
  unfold gen_calls. rewrite !app_assoc. apply Forall_app. split; [rewrite <- !app_assoc; exact P|].
  unfold gen_rows. apply Forall_flat_map. apply Forall_forall. intros i I. apply in_seq in I.
  destruct (dec_dc (N.of_nat i) ltac:(lia)) as [_ L]. unfold gen_row, gen_bitfield, gen_string.
  apply Forall_app. split; [constructor; [exact Logic.I|constructor]|].
  apply Forall_app. split; [constructor; [change (1 <= 18); lia|constructor]|].
  apply Forall_app. split; [repeat (constructor; [exact Logic.I|]); constructor|].
  apply Forall_app. split; [destruct (_ <=? _)%N; repeat (constructor; [exact Logic.I|]); constructor|].
  constructor; [|constructor]. cbn [fits_call]. lia.
Qed.

(** ** C110 *)
Lemma gen_file_layout n : (N.of_nat n <= 2 ^ 31)%N ->
  dc_layout (h_names example_header) (h_types example_header) (map (fun i => gen_value (N.of_nat i)) (seq 0 n)) (concat (map called (gen_calls n))).
Proof.
  intro H. exists (concat (map called (gen_magic ++ gen_user_header ++ gen_descriptors))), (concat (map called (gen_rows n))).
  split; [exact gen_header_layout|]. split; [now apply gen_rows_layout|]. unfold gen_calls. rewrite !called_app, !app_assoc. reflexivity.
Qed.
Lemma gen_rows_example n : (N.of_nat n <= 2 ^ 31)%N ->
  Forall2 example_row (map N.of_nat (seq 0 n)) (map (fun i => gen_value (N.of_nat i)) (seq 0 n)).
Proof.
  intro H. assert (K : Forall (fun i => (N.of_nat i < 2 ^ 31)%N) (seq 0 n)).
  { apply Forall_forall. intros i I. apply in_seq in I. lia. }
  induction K as [|i l Hi _ IH]; cbn [map]; constructor; [|exact IH]. split; [reflexivity|].
  exists (f64_of_u64 (N.of_nat i)). split; [|reflexivity]. apply f64_exact. assert (B : (2 ^ 31 < 2 ^ 53)%N) by reflexivity. lia.
Qed.

(** dcgen over a file [o] that takes writes of up to 18 bytes whole.  If it ends normally the
    file is a complete DC file which chopper reads as the rows 0, 1, 2 …, column by column the
    number as a double, as an int twice, and as text. *)
Theorem C110_generated_file_partial : forall n o o',
  (N.of_nat n <= 2 ^ 31)%N -> o_got o = [] -> takes 18 o ->
  dcgen n o = (Ok tt, o') ->
  exists rows, dc_read (file (o_got o')) = Ok (example_header, (rows, Ok tt)) /\ Forall2 example_row (map N.of_nat (seq 0 n)) rows.
Proof.
  intros n o o' H G T E. destruct (calls_whole 18 _ (gen_fits n H) o _ o' T E) as [(_ & G')|(X & _)]; [|discriminate X].
  rewrite G, app_nil_l in G'. eexists. split; [|now apply gen_rows_example].
  pose proof (read_layout _ _ _ _ [] None (gen_file_layout n H) ltac:(cbn; lia)) as R. rewrite app_nil_r, <- G' in R. exact R.
Qed.
Print Assumptions C110_generated_file_partial.

(** If it does not end normally it panics, and what is in the file by then reads as the first of
    those rows, or cannot be opened for want of data. *)
Theorem C110_interrupted_partial : forall n o r o',
  (N.of_nat n <= 2 ^ 31)%N -> o_got o = [] -> takes 18 o ->
  dcgen n o = (r, o') -> r <> Ok tt ->
  r = Panic /\
  ((exists h rows e all, dc_read (file (o_got o')) = Ok (h, (rows, e)) /\ h = example_header /\
      DriverSpec.prefix rows all /\ Forall2 example_row (map N.of_nat (seq 0 n)) all) \/
   dc_read (file (o_got o')) = Err (EIo UnexpectedEof)).
Proof.
  intros n o r o' H G T E N. destruct (calls_whole 18 _ (gen_fits n H) o _ o' T E) as [(-> & _)|(-> & d & x & D & G')]; [congruence|].
  split; [reflexivity|]. rewrite G, app_nil_l in G'. rewrite G'.
  pose proof (read_layout _ _ _ _ [] None (gen_file_layout n H) ltac:(cbn; lia)) as R. rewrite app_nil_r, D in R.
  change {| s_data := d ++ x; s_tail := None |} with (continued (file d) x None) in R.
  destruct (dc_read (file d)) as [[h [rows e]]| | | |] eqn:F.
  - destruct (dc_read_prefix (file d) x None h rows e F) as (rows' & e' & F' & P). rewrite F' in R. injection R as Rh Rr Re. rewrite Rr in P.
    left. exists h, rows, e. eexists. split; [reflexivity|]. split; [exact Rh|]. split; [exact P|]. now apply gen_rows_example.
  - right. unfold dc_read in R, F. destruct (dc_open (continued (file d) x None)) as [st| | | |] eqn:O; try discriminate R.
    destruct (dc_open_cut (file d) st x None O) as [(st1 & O1 & _)|O1]; rewrite O1 in F; [destruct (dc_rows st1); discriminate F|].
    injection F as <-. reflexivity.
  - exfalso. unfold dc_read in R, F. destruct (dc_open (continued (file d) x None)) as [st| | | |] eqn:O; try discriminate R.
    destruct (dc_open_cut (file d) st x None O) as [(st1 & O1 & _)|O1]; rewrite O1 in F; [destruct (dc_rows st1); discriminate F|discriminate F].
  - exfalso. unfold dc_read in R, F. destruct (dc_open (continued (file d) x None)) as [st| | | |] eqn:O; try discriminate R.
    destruct (dc_open_cut (file d) st x None O) as [(st1 & O1 & _)|O1]; rewrite O1 in F; [destruct (dc_rows st1); discriminate F|discriminate F].
  - exfalso. unfold dc_read in R, F. destruct (dc_open (continued (file d) x None)) as [st| | | |] eqn:O; try discriminate R.
    destruct (dc_open_cut (file d) st x None O) as [(st1 & O1 & _)|O1]; rewrite O1 in F; [destruct (dc_rows st1); discriminate F|discriminate F].
Qed.
Print Assumptions C110_interrupted_partial.

(** C110 fails if the file takes less: the user data's [write] takes three of its seven bytes,
    dcgen ends normally all the same, and nothing can be read. *)
Definition stingy : outer := {| o_got := []; o_plan := [Accept 8; Accept 2; Accept 4; Accept 3]; o_end := None |}.
Theorem C110_short_write_refuted :
  fst (dcgen 100 stingy) = Ok tt /\ dc_read (file (o_got (snd (dcgen 100 stingy)))) = Err (EIo UnexpectedEof).
Proof. split; vm_compute; reflexivity. Qed.
Print Assumptions C110_short_write_refuted.

(** The hypotheses are met: a disk that takes at most 18 bytes at a time, twice, then all. *)
Definition disk : outer := {| o_got := []; o_plan := [Accept 18; Accept 40]; o_end := None |}.
Example C110_case : takes 18 disk /\ fst (dcgen 100 disk) = Ok tt /\ length (o_got (snd (dcgen 100 disk))) = 3022.
Proof. split; [repeat constructor; lia|]. vm_compute. auto. Qed.
(** and one that is full after three calls *)
Definition full_disk : outer := {| o_got := []; o_plan := [Accept 18; Accept 18; Accept 18]; o_end := Some (OtherIo 28) |}.
Example C110_full_case : takes 18 full_disk /\ fst (dcgen 100 full_disk) = Panic.
Proof. split; [repeat constructor; lia|]. vm_compute. auto. Qed.
(** the double of 99 is 0x4058C00000000000 *)
Example double_case : f64_of_u64 99 = 0x4058C00000000000%N /\ f64_of_u64 (2 ^ 64 - 1) = 0x43F0000000000000%N.
Proof. vm_compute. auto. Qed.
