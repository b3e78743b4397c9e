(** CRC-32: incremental, and sensitive to every change within four consecutive bytes. *)
From Verif Require Import ZipModel BytesProofs.
Local Open Scope N_scope.

Lemma crc_bit_lxor x y : crc_bit (N.lxor x y) = N.lxor (crc_bit x) (crc_bit y).
Proof.
  unfold crc_bit. rewrite N.shiftr_lxor.
  assert (O : N.odd (N.lxor x y) = xorb (N.odd x) (N.odd y)).
  { rewrite <- !N.bit0_odd. apply N.lxor_spec. }
  rewrite O. destruct (N.odd x), (N.odd y); cbn [xorb]; apply N.bits_inj; intro k; rewrite ?N.lxor_spec;
    destruct (N.testbit (N.shiftr x 1) k), (N.testbit (N.shiftr y 1) k), (N.testbit crc_poly k); reflexivity.
Qed.
Lemma iter_lxor n x y : Nat.iter n crc_bit (N.lxor x y) = N.lxor (Nat.iter n crc_bit x) (Nat.iter n crc_bit y).
Proof. induction n as [|n IH]; [reflexivity|]. cbn [Nat.iter nat_rect]. change (nat_rect _ ?a _ ?n) with (Nat.iter n crc_bit a). rewrite <- crc_bit_lxor. f_equal. exact IH. Qed.
Lemma crc_bit_double x : crc_bit (2 * x) = x.
Proof.
  unfold crc_bit. rewrite N.odd_mul. cbn [N.odd andb]. rewrite N.shiftr_div_pow2. change (2 ^ 1) with 2. rewrite N.mul_comm. apply N.div_mul. discriminate.
Qed.
Lemma iter_comm n x : Nat.iter n crc_bit (crc_bit x) = crc_bit (Nat.iter n crc_bit x).
Proof. induction n as [|n IH]; [reflexivity|]. cbn. f_equal. exact IH. Qed.
Lemma iter_pow n x : Nat.iter n crc_bit (2 ^ N.of_nat n * x) = x.
Proof.
  revert x. induction n as [|n IH]; intro x; [apply N.mul_1_l|]. cbn [Nat.iter nat_rect].
  change (nat_rect _ ?a _ ?n) with (Nat.iter n crc_bit a). rewrite Nat2N.inj_succ, N.pow_succ_r'.
  replace (2 * 2 ^ N.of_nat n * x) with (2 ^ N.of_nat n * (2 * x)) by lia. rewrite IH. apply crc_bit_double.
Qed.
Lemma iter_add n m x : Nat.iter (n + m) crc_bit x = Nat.iter n crc_bit (Nat.iter m crc_bit x).
Proof. induction n as [|n IH]; [reflexivity|]. cbn. f_equal. exact IH. Qed.

Lemma low_high a x : a < 256 -> a + 256 * x = N.lxor a (256 * x).
Proof.
  intro H. apply N.add_nocarry_lxor. apply N.bits_inj. intro k. rewrite N.land_spec, N.bits_0.
  change 256 with (2 ^ 8). destruct (N.lt_ge_cases k 8).
  - rewrite (N.mul_comm (2 ^ 8) x), N.mul_pow2_bits_low by assumption. apply andb_false_r.
  - rewrite (N.bits_above_log2 a k); [reflexivity|]. destruct (N.eq_dec a 0) as [->|Na]; [cbn; lia|].
    apply N.log2_lt_pow2; [lia|]. eapply N.lt_le_trans; [exact H|]. change 256 with (2 ^ 8). apply N.pow_le_mono_r; lia.
Qed.

(** The register after [bs] is a linear function of the register and the bytes together. *)
Lemma crc_update_iter bs : forall s, crc_update s bs = Nat.iter (8 * length bs) crc_bit (N.lxor s (of_le bs)).
Proof.
  induction bs as [|a t IH]; intro s.
  - cbn. rewrite N.lxor_0_r. reflexivity.
  - change (crc_update s (a :: t)) with (crc_update (crc_byte s a) t). rewrite IH. cbn [of_le length].
    replace (8 * S (length t))%nat with (8 * length t + 8)%nat by lia. rewrite iter_add. f_equal.
    rewrite low_high by apply of_byte_lt. rewrite <- N.lxor_assoc, iter_lxor. unfold crc_byte. f_equal.
    change 256 with (2 ^ N.of_nat 8). rewrite iter_pow. reflexivity.
Qed.

Lemma lt_pow2_bits x n : x < 2 ^ n <-> forall k, n <= k -> N.testbit x k = false.
Proof.
  split.
  - intros H k Hk. rewrite <- (N.mod_small x (2 ^ n)) by exact H. apply N.mod_pow2_bits_high. exact Hk.
  - intro H. destruct (N.eq_dec x 0) as [->|Nx]; [apply N.neq_0_lt_0, N.pow_nonzero; discriminate|].
    apply N.log2_lt_pow2; [lia|]. destruct (N.lt_ge_cases (N.log2 x) n) as [|L]; [assumption|].
    specialize (H _ L). rewrite N.bit_log2 in H by exact Nx. discriminate H.
Qed.
Lemma lxor_lt x y n : x < 2 ^ n -> y < 2 ^ n -> N.lxor x y < 2 ^ n.
Proof. rewrite !lt_pow2_bits. intros A B k Hk. rewrite N.lxor_spec, A, B by exact Hk. reflexivity. Qed.
Lemma shiftr_lt x n : x < 2 ^ n -> N.shiftr x 1 < 2 ^ n.
Proof. rewrite !lt_pow2_bits. intros A k Hk. rewrite N.shiftr_spec'. apply A. lia. Qed.
Lemma crc_bit_lt x : x < 2 ^ 32 -> crc_bit x < 2 ^ 32.
Proof. intro H. unfold crc_bit. destruct (N.odd x); [apply lxor_lt; [|reflexivity]|]; apply shiftr_lt, H. Qed.
Lemma iter_lt n x : x < 2 ^ 32 -> Nat.iter n crc_bit x < 2 ^ 32.
Proof. intro H. induction n as [|n IH]; [exact H|]. cbn. apply crc_bit_lt, IH. Qed.
Lemma lxor_cancel_r x y z : N.lxor x z = N.lxor y z -> x = y.
Proof. intro H. apply (f_equal (fun v => N.lxor v z)) in H. rewrite !N.lxor_assoc, N.lxor_nilpotent, !N.lxor_0_r in H. exact H. Qed.
Lemma lxor_cancel_l x y z : N.lxor z x = N.lxor z y -> x = y.
Proof. rewrite !(N.lxor_comm z). apply lxor_cancel_r. Qed.
Lemma half_inj x y : N.odd x = N.odd y -> N.shiftr x 1 = N.shiftr y 1 -> x = y.
Proof.
  intros O S. rewrite <- !N.bit0_odd in O. apply N.bits_inj. intro k. destruct (N.eq_dec k 0) as [->|Hk]; [exact O|].
  replace k with (N.pred k + 1) by lia. rewrite <- !N.shiftr_spec'. rewrite S. reflexivity.
Qed.
Lemma crc_bit_inj x y : x < 2 ^ 32 -> y < 2 ^ 32 -> crc_bit x = crc_bit y -> x = y.
Proof.
  intros Hx Hy H.
  assert (B : forall v, v < 2 ^ 32 -> N.testbit (N.shiftr v 1) 31 = false).
  { intros v Hv. rewrite N.shiftr_spec'. apply (proj1 (lt_pow2_bits v 32) Hv). vm_compute. discriminate. }
  unfold crc_bit in H. destruct (N.odd x) eqn:Ox, (N.odd y) eqn:Oy.
  - apply half_inj; [congruence|]. eapply lxor_cancel_r, H.
  - apply (f_equal (fun v => N.testbit v 31)) in H. rewrite N.lxor_spec, (B x Hx), (B y Hy) in H. discriminate H.
  - apply (f_equal (fun v => N.testbit v 31)) in H. rewrite N.lxor_spec, (B x Hx), (B y Hy) in H. discriminate H.
  - apply half_inj; congruence.
Qed.
Lemma iter_inj n x y : x < 2 ^ 32 -> y < 2 ^ 32 -> Nat.iter n crc_bit x = Nat.iter n crc_bit y -> x = y.
Proof.
  intros Hx Hy. induction n as [|n IH]; [exact (fun H => H)|]. cbn. intro H. apply IH. apply crc_bit_inj; [apply iter_lt, Hx|apply iter_lt, Hy|exact H].
Qed.

Lemma crc_update_app s x y : crc_update s (x ++ y) = crc_update (crc_update s x) y.
Proof. apply fold_left_app. Qed.
Lemma of_byte_lt32 c : of_byte c < 2 ^ 32.
Proof. pose proof (of_byte_lt c). eapply N.lt_trans; [eassumption|reflexivity]. Qed.
Lemma crc_update_lt s bs : s < 2 ^ 32 -> crc_update s bs < 2 ^ 32.
Proof.
  revert s. induction bs as [|c bs IH]; intros s H; [exact H|]. apply IH. apply iter_lt, lxor_lt; [exact H|apply of_byte_lt32].
Qed.
Lemma crc_update_inj_state bs : forall s s', s < 2 ^ 32 -> s' < 2 ^ 32 -> crc_update s bs = crc_update s' bs -> s = s'.
Proof.
  induction bs as [|c bs IH]; intros s s' H H' E; [exact E|]. apply IH in E.
  - apply iter_inj in E; [eapply lxor_cancel_r, E|apply lxor_lt; [assumption|apply of_byte_lt32]..].
  - apply iter_lt, lxor_lt; [assumption|apply of_byte_lt32].
  - apply iter_lt, lxor_lt; [assumption|apply of_byte_lt32].
Qed.
Lemma of_le_inj x y : length x = length y -> of_le x = of_le y -> x = y.
Proof. intros L E. rewrite <- (le_of_le x), <- (le_of_le y), L, E. reflexivity. Qed.
Lemma crc_update_inj_window s x y : s < 2 ^ 32 -> length x = length y -> (length x <= 4)%nat -> crc_update s x = crc_update s y -> x = y.
Proof.
  intros H L L4 E. rewrite !crc_update_iter, <- L in E.
  assert (B : forall v, (length v <= 4)%nat -> of_le v < 2 ^ 32).
  { intros v Hv. eapply N.lt_le_trans; [apply of_le_lt|]. change (2 ^ 32) with (256 ^ 4). apply N.pow_le_mono_r; lia. }
  apply iter_inj in E; [|apply lxor_lt; [assumption|apply B; lia]..]. apply of_le_inj; [exact L|]. eapply lxor_cancel_l, E.
Qed.
Lemma crc32_window p x y q : length x = length y -> (length x <= 4)%nat -> x <> y -> crc32 (p ++ x ++ q) <> crc32 (p ++ y ++ q).
Proof.
  intros L L4 Ne E. apply Ne. unfold crc32, crc_finish in E. apply lxor_cancel_r in E. rewrite !crc_update_app in E.
  assert (I : crc_init < 2 ^ 32) by reflexivity.
  apply crc_update_inj_state in E; [|apply crc_update_lt, crc_update_lt, I..].
  eapply crc_update_inj_window in E; eauto. apply crc_update_lt, I.
Qed.
