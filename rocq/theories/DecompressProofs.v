(** Proofs about compression detection. *)
From Verif Require Export DecompressModel ReaderLines.

(** ** Specification: the magic numbers *)
Definition magic (f : dformat) : list bytes :=
  match f with
  | GZ => [map byte_of [0x1F; 0x8B; 0x08]]
  | LZ4 => [map byte_of [0x04; 0x22; 0x4D; 0x18]; b "LZ4Block"]
  | LZF => [b "ZV" ++ map byte_of [1]; b "ZV" ++ map byte_of [0]]
  | ZIP => [b "PK" ++ map byte_of [3; 4]]
  | ZST => [map byte_of [0x28; 0xB5; 0x2F; 0xFD]]
  end%N.
(** A content has format [f]: it has at least four bytes and starts with a magic number
    of [f]. *)
Definition has_magic (f : dformat) (d : bytes) : Prop :=
  4 <= length d /\ exists m rest, In m (magic f) /\ d = m ++ rest.

(** ** Proofs *)

Lemma of_be_inj x y : length x = length y -> of_be x = of_be y -> x = y.
Proof.
  intros L H. rewrite <- (be_of_be x), <- (be_of_be y), L, H. reflexivity.
Qed.

Lemma of_be_eqb x m k : length x = length m -> of_be m = k -> (of_be x =? k)%N = bytes_eqb x m.
Proof.
  intros L <-. destruct (N.eqb_spec (of_be x) (of_be m)) as [E|E].
  - apply of_be_inj in E; [|exact L]. subst. symmetry. apply bytes_eqb_refl.
  - symmetry. apply bytes_eqb_neq. congruence.
Qed.

Lemma mask24 v : (v < 2 ^ 32)%N -> N.land v 0xFFFFFF00 = (256 * (v / 256))%N.
Proof.
  intro H. apply N.bits_inj. intro n. rewrite N.land_spec.
  replace (256 * (v / 256))%N with (N.shiftl (N.shiftr v 8) 8).
  2:{ rewrite N.shiftl_mul_pow2, N.shiftr_div_pow2. change (2 ^ 8)%N with 256%N. lia. }
  change 0xFFFFFF00%N with (N.shiftl (N.ones 24) 8).
  destruct (N.lt_ge_cases n 8) as [L|L].
  - rewrite !N.shiftl_spec_low by exact L. apply andb_false_r.
  - rewrite !N.shiftl_spec_high by (try apply N.le_0_l; exact L).
    rewrite N.shiftr_spec by apply N.le_0_l. replace (n - 8 + 8)%N with n by lia.
    destruct (N.lt_ge_cases (n - 8) 24) as [L2|L2].
    + rewrite N.ones_spec_low by exact L2. apply andb_true_r.
    + rewrite N.ones_spec_high by exact L2. rewrite andb_false_r. symmetry.
      destruct (N.eq_dec v 0) as [->|Hv]; [apply N.bits_0|].
      apply N.bits_above_log2. apply N.log2_lt_pow2; [lia|].
      eapply N.lt_le_trans; [exact H|]. apply N.pow_le_mono_r; lia.
Qed.

Lemma of_be_snoc s a : of_be (s ++ [a]) = (256 * of_be s + of_byte a)%N.
Proof. unfold of_be. rewrite rev_app_distr. cbn [rev app of_le]. lia. Qed.

Lemma bytes_eqb_starts m t : forall x, length x = length m ->
  bytes_eqb x m = starts_with m (x ++ t).
Proof.
  induction m as [|c m IH]; intros [|a x] L; cbn in *; try reflexivity; try (exfalso; lia).
  rewrite (IH x) by lia. destruct (Ascii.eqb_spec a c), (Ascii.eqb_spec c a); congruence.
Qed.

(** The detection as a table of prefixes. *)
Definition table (d : bytes) : option dformat :=
  (if starts_with (map byte_of [0x1F; 0x8B; 0x08]) d then Some GZ
  else if starts_with (map byte_of [0x04; 0x22; 0x4D; 0x18]) d then Some LZ4
  else if starts_with (b "LZ4Block") d then Some LZ4
  else if starts_with (b "ZV" ++ map byte_of [1]) d || starts_with (b "ZV" ++ map byte_of [0]) d then Some LZF
  else if starts_with (b "PK" ++ map byte_of [3; 4]) d then Some ZIP
  else if starts_with (map byte_of [0x28; 0xB5; 0x2F; 0xFD]) d then Some ZST
  else None)%N.

Lemma read_be4 s :
  read_be 4 (buf_stream s) =
  match s with
  | a :: c :: d :: e :: t => Ok (of_be [a; c; d; e], buf_stream t)
  | _ => Err (EIo UnexpectedEof)
  end.
Proof.
  unfold read_be, rbind, take_exact, buf_stream; cbn [s_data s_tail].
  destruct s as [|a [|c [|d [|e t]]]]; try reflexivity.
  destruct (N.ltb_spec (N.of_nat (length (a :: c :: d :: e :: t))) 4); [cbn [length] in *; lia|].
  reflexivity.
Qed.

Lemma detect_table p :
  is_compressed_using_previewer p = if length (get_buf p) <? 4 then None else table (get_buf p).
Proof.
  unfold is_compressed_using_previewer. set (s := get_buf p). clearbody s.
  rewrite read_be4. destruct s as [|a [|c [|d [|e t]]]]; try reflexivity.
  replace (length (a :: c :: d :: e :: t) <? 4) with false.
  2:{ symmetry. apply Nat.ltb_ge. cbn [length]. lia. }
  assert (L : (of_be [a; c; d; e] < 2 ^ 32)%N) by apply (of_be_lt [a; c; d; e]).
  rewrite (mask24 _ L).
  assert (Q : (of_be [a; c; d; e] / 256 = of_be [a; c; d])%N).
  { change [a; c; d; e] with ([a; c; d] ++ [e]). rewrite of_be_snoc.
    pose proof (of_byte_lt e). lia. }
  rewrite Q.
  assert (E3 : forall m k, length m = 3 -> (256 * of_be m)%N = k ->
             (256 * of_be [a; c; d] =? k)%N = starts_with m (a :: c :: d :: e :: t)).
  { intros m k Lm <-. change (a :: c :: d :: e :: t) with ([a; c; d] ++ (e :: t)).
    rewrite <- bytes_eqb_starts by (cbn; lia).
    rewrite <- (of_be_eqb [a; c; d] m (of_be m)) by (cbn; lia || reflexivity).
    destruct (N.eqb_spec (of_be [a; c; d]) (of_be m)), (N.eqb_spec (256 * of_be [a; c; d]) (256 * of_be m)); lia. }
  assert (E4 : forall m k, length m = 4 -> of_be m = k ->
             (of_be [a; c; d; e] =? k)%N = starts_with m (a :: c :: d :: e :: t)).
  { intros m k Lm Em. change (a :: c :: d :: e :: t) with ([a; c; d; e] ++ t).
    rewrite <- bytes_eqb_starts by (cbn; lia). apply of_be_eqb; [cbn; lia|exact Em]. }
  unfold table. cbv zeta.
  rewrite (E3 (map byte_of [0x1F; 0x8B; 0x08])%N 0x1F8B0800%N eq_refl eq_refl).
  rewrite (E4 (map byte_of [0x04; 0x22; 0x4D; 0x18])%N 0x04224D18%N eq_refl eq_refl).
  rewrite (E3 (b "ZV" ++ map byte_of [1])%N 0x5A560100%N eq_refl eq_refl).
  rewrite (E3 (b "ZV" ++ map byte_of [0])%N 0x5A560000%N eq_refl eq_refl).
  rewrite (E4 (b "PK" ++ map byte_of [3; 4])%N 0x504B0304%N eq_refl eq_refl).
  rewrite (E4 (map byte_of [0x28; 0xB5; 0x2F; 0xFD])%N 0x28B52FFD%N eq_refl eq_refl).
  rewrite (E4 (b "LZ4B") 0x4C5A3442%N eq_refl eq_refl).
  assert (EL : (starts_with (b "LZ4B") (a :: c :: d :: e :: t) &&
               match read_be 4 (buf_stream t) with
               | Ok (next32be, _) => (next32be =? 0x6C6F636B)%N
               | _ => false
               end) = starts_with (b "LZ4Block") (a :: c :: d :: e :: t)).
  { assert (S4 : starts_with (b "LZ4Block") (a :: c :: d :: e :: t) =
                 starts_with (b "LZ4B") (a :: c :: d :: e :: t) && starts_with (b "lock") t).
    { change (b "LZ4Block") with (b "LZ4B" ++ b "lock").
      change (b "LZ4B") with (["L"; "Z"; "4"; "B"]%char). cbn [app starts_with].
      rewrite <- !andb_assoc. reflexivity. }
    rewrite S4. f_equal. rewrite read_be4.
    destruct t as [|a' [|c' [|d' [|e' t]]]]; try (cbn [starts_with b list_ascii_of_string];
      rewrite ?andb_false_r; reflexivity).
    change (a' :: c' :: d' :: e' :: t) with ([a'; c'; d'; e'] ++ t).
    rewrite <- bytes_eqb_starts by reflexivity. apply of_be_eqb; reflexivity. }
  rewrite EL. reflexivity.
Qed.

Lemma starts_with_trans_firstn m d n :
  length m <= n -> starts_with m (firstn n d) = starts_with m d.
Proof.
  revert d n; induction m as [|a m IH]; intros d n L; [reflexivity|].
  destruct n as [|n]; [cbn in L; lia|]. destruct d as [|c d]; [reflexivity|].
  cbn [firstn starts_with]. rewrite IH by (cbn in L; lia). reflexivity.
Qed.

Lemma table_firstn n d : 8 <= n -> table (firstn n d) = table d.
Proof. intro H. unfold table. rewrite !starts_with_trans_firstn by (cbn; lia). reflexivity. Qed.

Lemma starts_clash m m' d :
  starts_with m d = true -> starts_with m' d = true -> length m <= length m' -> starts_with m m' = true.
Proof.
  intros H H' L. apply starts_with_spec in H as [t ->]. apply starts_with_spec in H' as [t' H'].
  assert (m = firstn (length m) m') as ->.
  { apply (f_equal (firstn (length m))) in H'. rewrite !firstn_app, Nat.sub_diag in H'.
    rewrite firstn_all in H'. cbn [firstn] in H'. rewrite app_nil_r in H'.
    replace (length m - length m') with 0 in H' by lia. cbn [firstn] in H'.
    rewrite app_nil_r in H'. exact H'. }
  apply starts_with_spec. exists (skipn (length m) m'). symmetry. apply firstn_skipn.
Qed.

Lemma table_spec d f : table d = Some f <-> exists m, In m (magic f) /\ starts_with m d = true.
Proof.
  unfold table. split.
  - repeat match goal with |- context [if ?c then _ else _] => destruct c eqn:? end;
      intros [= <-]; cbn [magic In]; eauto.
    apply orb_true_iff in Heqb2 as [H|H]; eauto.
  - intros (m & Hm & Hs).
    assert (C : forall m', starts_with m m' = false -> starts_with m' m = false ->
                  starts_with m' d = false).
    { intros m' H1 H2. destruct (starts_with m' d) eqn:E; [|reflexivity].
      destruct (Nat.le_ge_cases (length m) (length m')) as [L|L].
      - rewrite (starts_clash _ _ _ Hs E L) in H1. discriminate.
      - rewrite (starts_clash _ _ _ E Hs L) in H2. discriminate. }
    destruct f; cbn [magic In] in Hm;
      repeat match goal with H : _ \/ _ |- _ => destruct H | H : False |- _ => destruct H end;
      subst m; rewrite ?Hs;
      repeat match goal with
      | |- context [starts_with ?m' d] => rewrite (C m' eq_refl eq_refl)
      end; rewrite ?orb_true_r; reflexivity.
Qed.

Lemma detect_spec i p f :
  previewer_new i = Ok p ->
  (is_compressed_using_previewer p = Some f <-> has_magic f (i_data i)).
Proof.
  intro H. assert (HB : DEFAULT_BUF_SIZE <> 0) by (unfold DEFAULT_BUF_SIZE; lia).
  pose proof (previewer_spec DEFAULT_BUF_SIZE i HB) as S. fold previewer_new in S.
  change (previewer_with DEFAULT_BUF_SIZE i) with (previewer_new i) in S. rewrite H in S.
  destruct S as (_ & B & _). rewrite detect_table, B.
  rewrite firstn_length. unfold has_magic.
  assert (H8 : 8 <= DEFAULT_BUF_SIZE) by (unfold DEFAULT_BUF_SIZE; lia).
  destruct (Nat.ltb_spec (Nat.min DEFAULT_BUF_SIZE (length (i_data i))) 4).
  - split; [discriminate|]. lia.
  - rewrite table_firstn by exact H8. rewrite table_spec. split.
    + intros (m & H1 & H2). split; [lia|]. apply starts_with_spec in H2 as [t ->]. eauto.
    + intros [_ (m & rest & H1 & ->)]. exists m. split; [exact H1|].
      apply starts_with_spec. eauto.
Qed.
