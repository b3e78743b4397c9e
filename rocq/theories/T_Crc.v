(** The checksum of the model is CRC-32 by its definition (for C48). *)
From Verif Require Import ZipModel CrcSpec.
Local Open Scope N_scope.

(** ** Polynomials *)
Lemma times_double q g : times (N.double q) g = N.double (times q g).
Proof. destruct q; reflexivity. Qed.
Lemma times_succ_double q g : times (N.succ_double q) g = N.lxor (N.double (times q g)) g.
Proof. destruct q; [now rewrite N.lxor_0_l|reflexivity]. Qed.
Lemma lxor_double a b : N.double (N.lxor a b) = N.lxor (N.double a) (N.double b).
Proof. destruct a as [|a], b as [|b]; reflexivity. Qed.
Lemma lxor_ds a b : N.lxor (N.double a) (N.succ_double b) = N.succ_double (N.lxor a b).
Proof. destruct a as [|a], b as [|b]; reflexivity. Qed.
Lemma lxor_sd a b : N.lxor (N.succ_double a) (N.double b) = N.succ_double (N.lxor a b).
Proof. rewrite N.lxor_comm, lxor_ds, N.lxor_comm. reflexivity. Qed.
Lemma lxor_ss a b : N.lxor (N.succ_double a) (N.succ_double b) = N.double (N.lxor a b).
Proof. destruct a as [|a], b as [|b]; reflexivity. Qed.
Lemma N_halves a : (exists k, a = N.double k) \/ exists k, a = N.succ_double k.
Proof. destruct a as [|[p|p|]]; [left; now exists 0|right; now exists (Npos p)|left; now exists (Npos p)|right; now exists 0]. Qed.
Lemma times_lxor a g : forall c, times (N.lxor a c) g = N.lxor (times a g) (times c g).
Proof.
  induction a as [|a IH|a IH] using N.binary_ind; intro c; [now rewrite !N.lxor_0_l| |];
    destruct (N_halves c) as [[k ->]|[k ->]];
    rewrite <- ?lxor_double, ?lxor_ds, ?lxor_sd, ?lxor_ss, ?times_double, ?times_succ_double, ?IH, ?lxor_double.
  - reflexivity.
  - now rewrite N.lxor_assoc.
  - rewrite !N.lxor_assoc. f_equal. apply N.lxor_comm.
  - rewrite !N.lxor_assoc. f_equal. rewrite (N.lxor_comm g), N.lxor_assoc, N.lxor_nilpotent, N.lxor_0_r. reflexivity.
Qed.
Definition same_mod (a c : N) : Prop := exists q, N.lxor a c = times q generator.
Lemma same_refl a : same_mod a a. Proof. exists 0. apply N.lxor_nilpotent. Qed.
Lemma same_trans a c d : same_mod a c -> same_mod c d -> same_mod a d.
Proof.
  intros [p Hp] [q Hq]. exists (N.lxor p q). rewrite times_lxor, <- Hp, <- Hq, N.lxor_assoc, <- (N.lxor_assoc c), N.lxor_nilpotent, N.lxor_0_l. reflexivity.
Qed.
Lemma same_lxor a c d : same_mod a c -> same_mod (N.lxor a d) (N.lxor c d).
Proof.
  intros [q Hq]. exists q. rewrite <- Hq, N.lxor_assoc, (N.lxor_comm d), N.lxor_assoc, N.lxor_nilpotent, N.lxor_0_r. reflexivity.
Qed.
Lemma same_double a c : same_mod a c -> same_mod (N.double a) (N.double c).
Proof. intros [q Hq]. exists (N.double q). rewrite times_double, <- Hq, lxor_double. reflexivity. Qed.
Fixpoint doubles (k : nat) (a : N) : N := match k with O => a | S k => N.double (doubles k a) end.
Lemma same_doubles k a c : same_mod a c -> same_mod (doubles k a) (doubles k c).
Proof. intro H. induction k; [exact H|now apply same_double]. Qed.
Lemma doubles_mul k a : doubles k a = a * 2 ^ N.of_nat k.
Proof.
  induction k; [cbn; lia|]. cbn [doubles]. rewrite IHk, N.double_spec, Nat2N.inj_succ, N.pow_succ_r'. lia.
Qed.
Lemma doubles_lxor k a c : doubles k (N.lxor a c) = N.lxor (doubles k a) (doubles k c).
Proof. induction k; [reflexivity|]. cbn [doubles]. now rewrite IHk, lxor_double. Qed.

(** ** Reversing 32 bits *)
Definition flip (s : N) : N := fold_right (fun i acc => 2 * acc + N.b2n (N.testbit s (31 - i))) 0 (map N.of_nat (seq 0 32)).
Lemma flip_bits s i : N.testbit (flip s) i = (i <? 32) && N.testbit s (31 - i).
Proof.
  assert (G : forall (n k : nat) j, N.testbit (fold_right (fun i acc => 2 * acc + N.b2n (N.testbit s (31 - i))) 0 (map N.of_nat (seq k n))) j
     = (j <? N.of_nat n) && N.testbit s (31 - (N.of_nat k + j))).
  { induction n as [|n IH]; intros k j.
    - cbn. destruct (N.ltb_spec j 0); [lia|reflexivity].
    - cbn [seq map fold_right]. destruct (N.eq_dec j 0) as [->|Hj].
      + rewrite N.testbit_0_r. replace (0 <? N.of_nat (S n)) with true by (symmetry; apply N.ltb_lt; lia). cbn [andb]. f_equal. lia.
      + replace j with (N.succ (j - 1)) at 1 by lia. rewrite N.testbit_succ_r, IH. f_equal; [|f_equal; lia].
        destruct (N.ltb_spec (j - 1) (N.of_nat n)), (N.ltb_spec j (N.of_nat (S n))); lia || reflexivity. }
  unfold flip. rewrite G. reflexivity.
Qed.
Lemma flip_lxor s t : flip (N.lxor s t) = N.lxor (flip s) (flip t).
Proof. apply N.bits_inj. intro i. rewrite N.lxor_spec, !flip_bits, N.lxor_spec. destruct (i <? 32); [reflexivity|reflexivity]. Qed.
Lemma bits_small n a : a < 2 ^ n -> forall i, n <= i -> N.testbit a i = false.
Proof. intros H i L. rewrite <- (N.mod_small a (2 ^ n)) by exact H. now apply N.mod_pow2_bits_high. Qed.
Lemma small_bits n a : (forall i, n <= i -> N.testbit a i = false) -> a < 2 ^ n.
Proof.
  intro H. assert (a = a mod 2 ^ n) as ->; [|apply N.mod_lt, N.pow_nonzero; lia].
  apply N.bits_inj. intro i. destruct (N.lt_ge_cases i n); [now rewrite N.mod_pow2_bits_low|rewrite N.mod_pow2_bits_high by lia; auto].
Qed.
Lemma bit_step s : s < 2 ^ 32 -> crc_bit s < 2 ^ 32 /\
  flip (crc_bit s) = (if N.testbit (flip s) 31 then N.lxor (N.double (flip s)) generator else N.double (flip s)).
Proof.
  intro Hs. pose proof (bits_small 32 s Hs) as Hi.
  assert (Hp : forall i, 32 <= i -> N.testbit crc_poly i = false) by (apply bits_small; reflexivity).
  split.
  - apply small_bits. intros i L. unfold crc_bit. destruct (N.odd s); rewrite ?N.lxor_spec, N.shiftr_spec', ?Hp, Hi by lia; reflexivity.
  - assert (E : N.testbit (flip s) 31 = N.odd s) by (rewrite flip_bits; cbn [N.ltb N.compare Pos.compare Pos.compare_cont andb]; apply N.bit0_odd). rewrite E. unfold crc_bit.
    assert (D : flip (N.shiftr s 1) = (if N.odd s then N.lxor (N.double (flip s)) (2 ^ 32) else N.double (flip s))).
    { apply N.bits_inj. intro i. rewrite flip_bits, N.shiftr_spec'.
      assert (X : N.testbit (N.double (flip s)) i = (0 <? i) && (i <? 33) && N.testbit s (32 - i)).
      { destruct (N.eq_dec i 0) as [->|Hz]; [now rewrite N.double_spec, N.testbit_even_0|].
        rewrite N.double_spec. replace i with (N.succ (i - 1)) at 1 by lia. rewrite N.testbit_even_succ by lia. rewrite flip_bits.
        replace (31 - (i - 1)) with (32 - i) by lia.
        destruct (N.ltb_spec 0 i), (N.ltb_spec (i - 1) 32), (N.ltb_spec i 33); cbn; lia || reflexivity. }
      destruct (N.lt_ge_cases i 32) as [L|L].
      - replace (31 - i + 1) with (32 - i) by lia. replace (i <? 32) with true by (symmetry; now apply N.ltb_lt). cbn [andb].
        assert (Y : N.testbit (N.double (flip s)) i = N.testbit s (32 - i)).
        { rewrite X. replace (i <? 33) with true by (symmetry; apply N.ltb_lt; lia). destruct (N.ltb_spec 0 i); [reflexivity|].
          cbn. symmetry. apply Hi. assert (i = 0) by lia. subst i. reflexivity || (change (32 - 0) with 32; lia). }
        destruct (N.odd s); rewrite ?N.lxor_spec, Y; [rewrite N.pow2_bits_false by lia; now rewrite Bool.xorb_false_r|reflexivity].
      - replace (i <? 32) with false by (symmetry; apply N.ltb_ge; lia). cbn [andb].
        destruct (N.eq_dec i 32) as [->|Hn].
        + destruct (N.odd s) eqn:O; rewrite ?N.lxor_spec, X; cbn; rewrite ?N.bit0_odd, O; reflexivity.
        + destruct (N.odd s); rewrite ?N.lxor_spec, X; rewrite ?N.pow2_bits_false by lia;
            (replace (i <? 33) with false by (symmetry; apply N.ltb_ge; lia)); rewrite Bool.andb_false_r; reflexivity. }
    destruct (N.odd s) eqn:O; [|exact D]. rewrite flip_lxor, D, N.lxor_assoc. f_equal.
Qed.
Local Opaque flip.
Lemma bit_same s : s < 2 ^ 32 -> same_mod (flip (crc_bit s)) (N.double (flip s)).
Proof.
  intro H. rewrite (proj2 (bit_step s H)). destruct (N.testbit _ 31); [|apply same_refl].
  exists 1. cbn [times times_pos]. now rewrite N.lxor_comm, <- N.lxor_assoc, N.lxor_nilpotent, N.lxor_0_l.
Qed.
Lemma bits_same k s : s < 2 ^ 32 -> Nat.iter k crc_bit s < 2 ^ 32 /\ same_mod (flip (Nat.iter k crc_bit s)) (doubles k (flip s)).
Proof.
  intro H. induction k as [|k [IH1 IH2]]; [split; [exact H|change (same_mod (flip s) (flip s)); apply same_refl]|].
  change (Nat.iter (S k) crc_bit s) with (crc_bit (Nat.iter k crc_bit s)). split; [now apply bit_step|].
  eapply same_trans; [now apply bit_same|]. now apply same_double.
Qed.
Local Transparent flip.
Lemma byte_flip c : flip (of_byte c) = polynomial (bits_of c) * 2 ^ 24.
Proof. destruct c as [[] [] [] [] [] [] [] []]; vm_compute; reflexivity. Qed.
Local Opaque flip.
Lemma lxor_small a c : a < 2 ^ 32 -> c < 2 ^ 32 -> N.lxor a c < 2 ^ 32.
Proof. intros H K. apply small_bits. intros i L. now rewrite N.lxor_spec, (bits_small 32 a H), (bits_small 32 c K). Qed.
Lemma byte_same s c : s < 2 ^ 32 -> crc_byte s c < 2 ^ 32 /\
  same_mod (flip (crc_byte s c)) (N.lxor (flip s * 2 ^ 8) (polynomial (bits_of c) * 2 ^ 32)).
Proof.
  intro H. assert (B : of_byte c < 2 ^ 32) by (pose proof (N_ascii_bounded c); unfold of_byte; change (2 ^ 32) with 4294967296; lia).
  destruct (bits_same 8 (N.lxor s (of_byte c)) (lxor_small _ _ H B)) as [L M]. split; [exact L|].
  unfold crc_byte. rewrite flip_lxor, doubles_lxor, byte_flip in M. rewrite !doubles_mul, <- N.mul_assoc in M. exact M.
Qed.

(** ** Messages *)
Lemma polynomial_app x y : polynomial (x ++ y) = polynomial x * 2 ^ N.of_nat (length y) + polynomial y.
Proof.
  unfold polynomial. rewrite fold_left_app. generalize (fold_left (fun acc bit => 2 * acc + N.b2n bit) x 0). intro a.
  assert (G : forall l p, fold_left (fun acc bit => 2 * acc + N.b2n bit) l p = p * 2 ^ N.of_nat (length l) + fold_left (fun acc bit => 2 * acc + N.b2n bit) l 0).
  { induction l as [|v l IH]; intro p; cbn [fold_left length]; [cbn; lia|]. rewrite IH, (IH (2 * 0 + N.b2n v)), Nat2N.inj_succ, N.pow_succ_r'.
    destruct v; cbn [N.b2n]; ring. }
  apply G.
Qed.
Lemma polynomial_bound l : polynomial l < 2 ^ N.of_nat (length l).
Proof.
  induction l as [|v l IH] using rev_ind; [reflexivity|]. rewrite polynomial_app, app_length. cbn [length].
  rewrite Nat2N.inj_add, N.pow_add_r. change (N.of_nat 1) with 1. unfold polynomial at 2. destruct v; cbn; lia.
Qed.
Lemma message_snoc m c : message (m ++ [c]) = N.lxor (message m * 2 ^ 8) (polynomial (bits_of c)).
Proof.
  unfold message. rewrite flat_map_app. cbn [flat_map]. rewrite app_nil_r, polynomial_app. change (length (bits_of c)) with 8%nat.
  change (N.of_nat 8) with 8. generalize (polynomial (flat_map bits_of m)). intro a.
  pose proof (polynomial_bound (bits_of c)) as B. change (N.of_nat (length (bits_of c))) with 8 in B. revert B. generalize (polynomial (bits_of c)). intros d B.
  rewrite N.add_nocarry_lxor; [reflexivity|]. apply N.bits_inj. intro i. rewrite N.land_spec, N.bits_0.
  destruct (N.lt_ge_cases i 8) as [L|L]; [now rewrite N.mul_pow2_bits_low|]. rewrite (bits_small 8 d B i L). apply Bool.andb_false_r.
Qed.
Lemma update_same m : crc_update crc_init m < 2 ^ 32 /\
  same_mod (flip (crc_update crc_init m)) (N.lxor (message m * 2 ^ 32) ((2 ^ 32 - 1) * 2 ^ (8 * N.of_nat (length m)))).
Proof.
  induction m as [|c m [IH1 IH2]] using rev_ind.
  - split; [reflexivity|]. vm_compute. now exists 0.
  - assert (E : crc_update crc_init (m ++ [c]) = crc_byte (crc_update crc_init m) c) by (unfold crc_update; now rewrite fold_left_app).
    rewrite E. destruct (byte_same _ c IH1) as [B1 B2]. split; [exact B1|]. eapply same_trans; [exact B2|].
    apply (same_doubles 8) in IH2. rewrite doubles_lxor, !doubles_mul in IH2. change (N.of_nat 8) with 8 in IH2.
    apply (same_lxor _ _ (polynomial (bits_of c) * 2 ^ 32)) in IH2. eapply same_trans; [exact IH2|].
    rewrite message_snoc, app_length. cbn [length]. rewrite Nat2N.inj_add. change (N.of_nat 1) with 1.
    replace (8 * (N.of_nat (length m) + 1)) with (8 * N.of_nat (length m) + 8) by lia. rewrite N.pow_add_r, N.mul_assoc.
    rewrite <- !N.shiftl_mul_pow2, N.shiftl_lxor, !N.shiftl_mul_pow2.
    replace (message m * 2 ^ 8 * 2 ^ 32) with (message m * 2 ^ 32 * 2 ^ 8) by (rewrite <- !N.mul_assoc; f_equal; reflexivity).
    rewrite !N.lxor_assoc, (N.lxor_comm (polynomial _ * _)). apply same_refl.
Qed.
(** A message has one checksum: multiples of the generator differ from everything of lower degree. *)
Lemma times_big q : q <> 0 -> 2 ^ 32 <= times q generator.
Proof.
  intro H. destruct q as [|p]; [congruence|]. clear H. cbn [times]. induction p as [p IH|p IH|]; cbn [times_pos]; [|rewrite N.double_spec; lia|vm_compute; discriminate].
  set (t := times_pos p generator) in *. destruct (N.le_gt_cases (2 ^ 32) (N.lxor (N.double t) generator)) as [L|L]; [exact L|]. exfalso.
  assert (T : N.testbit t (N.log2 t) = true) by (apply N.bit_log2; lia).
  assert (L2 : 32 <= N.log2 t) by (apply N.log2_le_pow2; lia).
  pose proof (bits_small 32 _ L (N.succ (N.log2 t)) ltac:(lia)) as B. rewrite N.lxor_spec, N.double_spec, N.testbit_even_succ, T in B by lia.
  rewrite (bits_small 33 generator) in B; [discriminate|reflexivity|lia].
Qed.
Lemma checksum_unique m c d : checksum m c -> checksum m d -> c = d.
Proof.
  intros (q & r & E & Hr & Hc & Bc) (p & t & F & Ht & Hd & Bd). rewrite E in F. clear E.
  assert (X : times (N.lxor q p) generator = N.lxor r t).
  { rewrite times_lxor. apply (f_equal (fun x => N.lxor (N.lxor x r) (times p generator))) in F.
    rewrite N.lxor_assoc, N.lxor_assoc, <- (N.lxor_assoc r), N.lxor_nilpotent, N.lxor_0_l in F.
    rewrite F, (N.lxor_comm _ (times p generator)), <- !N.lxor_assoc, N.lxor_nilpotent, N.lxor_0_l. apply N.lxor_comm. }
  assert (q = p) as ->.
  { apply N.lxor_eq. destruct (N.eq_dec (N.lxor q p) 0) as [Z|Z]; [exact Z|]. apply times_big in Z. rewrite X in Z.
    pose proof (lxor_small r t Hr Ht). lia. }
  rewrite N.lxor_nilpotent in X. cbn [times] in X. symmetry in X. apply N.lxor_eq in X. subst t.
  apply N.bits_inj. intro i. destruct (N.lt_ge_cases i 32) as [L|L]; [now rewrite Bc, Bd|].
  now rewrite (bits_small 32 c Hc i L), (bits_small 32 d Hd i L).
Qed.
(** The model's crc32 is that checksum. *)
Theorem C48_standard : forall m c, checksum m c <-> c = crc32 m.
Proof.
  intros m c. enough (X : checksum m (crc32 m)) by (split; [intro H; exact (checksum_unique m _ _ H X)|intros ->; exact X]). destruct (update_same m) as [B [q Hq]]. set (s := crc_update crc_init m) in *. exists q, (flip s).
  split; [rewrite <- Hq, (N.lxor_comm (flip s)), N.lxor_assoc, N.lxor_nilpotent, N.lxor_0_r; reflexivity|].
  split; [apply small_bits; intros i L; rewrite flip_bits; now replace (i <? 32) with false by (symmetry; apply N.ltb_ge; lia)|].
  unfold crc32, crc_finish. fold s. split; [apply lxor_small; [exact B|reflexivity]|].
  intros i L. rewrite N.lxor_spec, flip_bits. replace (31 - i <? 32) with true by (symmetry; apply N.ltb_lt; lia). cbn [andb].
  replace (31 - (31 - i)) with i by lia. change 0xFFFFFFFF with (N.ones 32). rewrite N.ones_spec_low by exact L. apply Bool.xorb_true_r.
Qed.
Print Assumptions C48_standard.
Example C48_standard_value : checksum (b "123456789") 0xCBF43926.
Proof. apply C48_standard. vm_compute. reflexivity. Qed.
