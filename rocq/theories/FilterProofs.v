(** Proofs about values, filters and remove_multiple. *)
From Verif Require Export FilterModel FilterSpec.

(** ** IEEE comparison on bits *)

Section Fp.
  Variables eb fb : N.
  Hypothesis Heb : (1 <= eb)%N.

  Let expo (bits : N) := ((bits / 2 ^ fb) mod 2 ^ eb)%N.
  Let frac (bits : N) := (bits mod 2 ^ fb)%N.

  (* value of a magnitude, in units of the smallest subnormal *)
  Definition magval (e f : N) : Z :=
    if N.eqb e 0 then Z.of_N f else (Z.of_N (2 ^ fb + f) * 2 ^ Z.of_N (e - 1))%Z.

  Lemma mag_decomp bits : f_mag (eb + fb + 1) bits = (expo bits * 2 ^ fb + frac bits)%N.
  Proof.
    unfold f_mag, expo, frac.
    replace (eb + fb + 1 - 1)%N with (fb + eb)%N by lia.
    rewrite N.pow_add_r.
    assert (2 ^ fb <> 0)%N by (apply N.pow_nonzero; lia).
    assert (2 ^ eb <> 0)%N by (apply N.pow_nonzero; lia).
    rewrite N.mod_mul_r by assumption. lia.
  Qed.

  Lemma frac_lt bits : (frac bits < 2 ^ fb)%N.
  Proof. apply N.mod_lt, N.pow_nonzero; lia. Qed.
  Lemma expo_lt bits : (expo bits < 2 ^ eb)%N.
  Proof. apply N.mod_lt, N.pow_nonzero; lia. Qed.

  Lemma magval_nonneg e f : (0 <= magval e f)%Z.
  Proof.
    unfold magval. destruct (N.eqb_spec e 0); [lia|].
    apply Z.mul_nonneg_nonneg; [lia|]. apply Z.pow_nonneg; lia.
  Qed.

  Lemma magval_ub e f : (f < 2 ^ fb)%N -> (magval e f < Z.of_N (2 ^ fb) * 2 ^ Z.of_N e)%Z.
  Proof.
    intro Hf. unfold magval. destruct (N.eqb_spec e 0) as [->|He].
    - change (2 ^ Z.of_N 0)%Z with 1%Z. lia.
    - replace (Z.of_N e) with (Z.succ (Z.of_N (e - 1))) by lia.
      rewrite Z.pow_succ_r by lia.
      assert (0 < 2 ^ Z.of_N (e - 1))%Z by (apply Z.pow_pos_nonneg; lia).
      nia.
  Qed.

  Lemma magval_lb e f : (e <> 0)%N -> (Z.of_N (2 ^ fb) * 2 ^ Z.of_N (e - 1) <= magval e f)%Z.
  Proof.
    intro He. unfold magval. destruct (N.eqb_spec e 0) as [|_]; [contradiction|].
    assert (0 < 2 ^ Z.of_N (e - 1))%Z by (apply Z.pow_pos_nonneg; lia). nia.
  Qed.

  Lemma magval_mono e1 f1 e2 f2 :
    (f1 < 2 ^ fb)%N -> (f2 < 2 ^ fb)%N ->
    (e1 * 2 ^ fb + f1 < e2 * 2 ^ fb + f2)%N -> (magval e1 f1 < magval e2 f2)%Z.
  Proof.
    intros H1 H2 Hlt.
    assert (e1 < e2 \/ (e1 = e2 /\ f1 < f2))%N as [He|[-> Hf]].
    { destruct (N.lt_trichotomy e1 e2) as [?|[->|?]]; [auto|right; split; [reflexivity|lia]|].
      exfalso. assert (e2 + 1 <= e1)%N by lia.
      assert ((e2 + 1) * 2 ^ fb <= e1 * 2 ^ fb)%N by (apply N.mul_le_mono_r; lia). lia. }
    - pose proof (magval_ub e1 f1 H1). pose proof (magval_lb e2 f2 ltac:(lia)).
      assert (2 ^ Z.of_N e1 <= 2 ^ Z.of_N (e2 - 1))%Z by (apply Z.pow_le_mono_r; lia).
      assert (0 < Z.of_N (2 ^ fb))%Z by (pose proof (N.pow_nonzero 2 fb ltac:(lia)); lia).
      nia.
    - unfold magval. destruct (N.eqb_spec e2 0); [lia|].
      assert (0 < 2 ^ Z.of_N (e2 - 1))%Z by (apply Z.pow_pos_nonneg; lia). nia.
  Qed.

  Lemma magval_cmp x y :
    ((f_mag (eb + fb + 1) x ?= f_mag (eb + fb + 1) y)%N =
     (magval (expo x) (frac x) ?= magval (expo y) (frac y))%Z).
  Proof.
    rewrite !mag_decomp.
    pose proof (frac_lt x). pose proof (frac_lt y).
    destruct (N.compare_spec (expo x * 2 ^ fb + frac x) (expo y * 2 ^ fb + frac y)) as [E|L|G].
    - symmetry. apply Z.compare_eq_iff.
      assert (expo x = expo y /\ frac x = frac y)%N as [-> ->]; [|reflexivity].
      assert (2 ^ fb <> 0)%N by (apply N.pow_nonzero; lia).
      apply (N.div_mod_unique (2 ^ fb)%N); try assumption. lia.
    - symmetry. apply Z.compare_lt_iff. now apply magval_mono.
    - symmetry. apply Z.compare_gt_iff. now apply magval_mono.
  Qed.

  Lemma sign_spec bits :
    f_neg (eb + fb + 1) bits = N.eqb ((bits / 2 ^ (eb + fb)) mod 2) 1.
  Proof.
    unfold f_neg. replace (eb + fb + 1 - 1)%N with (eb + fb)%N by lia.
    rewrite N.testbit_eqb. reflexivity.
  Qed.

  Lemma pow_eb_ge : (2 <= 2 ^ eb)%N.
  Proof. change 2%N with (2 ^ 1)%N at 1. apply N.pow_le_mono_r; lia. Qed.

  Lemma nan_spec bits : f_nan (eb + fb + 1) fb bits = true <-> fp_decode eb fb bits = FpNaN.
  Proof.
    unfold f_nan. rewrite mag_decomp. unfold fp_decode. fold (expo bits) (frac bits).
    pose proof (frac_lt bits). pose proof (expo_lt bits). pose proof pow_eb_ge.
    replace (eb + fb + 1 - 1)%N with (eb + fb)%N by lia. rewrite N.pow_add_r.
    assert (0 < 2 ^ fb)%N by (pose proof (N.pow_nonzero 2 fb ltac:(lia)); lia).
    replace (2 ^ eb * 2 ^ fb - 2 ^ fb)%N with ((2 ^ eb - 1) * 2 ^ fb)%N
      by (rewrite N.mul_sub_distr_r; lia).
    rewrite N.ltb_lt.
    destruct (N.eqb_spec (expo bits) (2 ^ eb - 1)) as [->|Hne].
    - destruct (N.eqb_spec (frac bits) 0) as [->|].
      + split; [lia|]. destruct (N.eqb _ 1); discriminate.
      + split; [reflexivity|lia].
    - split.
      + intro Hlt. exfalso.
        assert (expo bits + 1 <= 2 ^ eb - 1)%N as Hle by lia.
        apply (N.mul_le_mono_r _ _ (2 ^ fb)%N) in Hle. lia.
      + destruct (N.eqb (expo bits) 0); discriminate.
  Qed.

  (* order key of a non-NaN pattern, agreeing with the decoded value *)
  Definition fp_ord (x y : fp) : option comparison :=
    match x, y with
    | FpNaN, _ | _, FpNaN => None
    | FpNegInf, FpNegInf => Some Eq
    | FpNegInf, _ => Some Lt
    | FpFin _, FpNegInf => Some Gt
    | FpFin a, FpFin c => Some (a ?= c)%Z
    | FpFin _, FpPosInf => Some Lt
    | FpPosInf, FpPosInf => Some Eq
    | FpPosInf, _ => Some Gt
    end.

  Definition skey (bits : N) : Z :=
    let m := magval (expo bits) (frac bits) in
    if N.eqb ((bits / 2 ^ (eb + fb)) mod 2) 1 then (- m)%Z else m.

  Lemma key_cmp x y :
    (f_key (eb + fb + 1) x ?= f_key (eb + fb + 1) y)%Z = (skey x ?= skey y)%Z.
  Proof.
    unfold f_key, skey. rewrite <- !sign_spec.
    pose proof (magval_cmp x y) as C.
    pose proof (magval_nonneg (expo x) (frac x)). pose proof (magval_nonneg (expo y) (frac y)).
    assert (M0 : forall v, magval (expo v) (frac v) = 0%Z <-> f_mag (eb + fb + 1) v = 0%N).
    { intro v. rewrite mag_decomp. unfold magval.
      assert (0 < 2 ^ fb)%N by (pose proof (N.pow_nonzero 2 fb ltac:(lia)); lia).
      destruct (N.eqb_spec (expo v) 0) as [->|Hn]; [lia|].
      assert (0 < 2 ^ Z.of_N (expo v - 1))%Z by (apply Z.pow_pos_nonneg; lia). nia. }
    pose proof (M0 x) as Mx. pose proof (M0 y) as My. clear M0.
    set (mx := magval _ _) in *. set (my := magval (expo y) (frac y)) in *.
    set (gx := f_mag _ x) in *. set (gy := f_mag _ y) in *.
    clearbody mx my gx gy.
    destruct (N.compare_spec gx gy) as [E|L|G]; symmetry in C;
      [apply Z.compare_eq_iff in C|change (mx < my)%Z in C|apply (proj1 (Z.compare_gt_iff _ _)) in C];
    destruct (f_neg _ x), (f_neg _ y);
    match goal with |- (?a ?= ?c)%Z = (?d ?= ?e)%Z =>
      destruct (Z.compare_spec a c), (Z.compare_spec d e) end; try reflexivity; lia.
  Qed.

  Lemma fp_decode_skey bits :
    match fp_decode eb fb bits with
    | FpNaN => True
    | FpFin z => z = skey bits /\ (- magval (2 ^ eb - 1) 0 < z < magval (2 ^ eb - 1) 0)%Z
    | FpPosInf => skey bits = magval (2 ^ eb - 1) 0
    | FpNegInf => skey bits = (- magval (2 ^ eb - 1) 0)%Z
    end.
  Proof.
    unfold fp_decode, skey. fold (expo bits) (frac bits).
    pose proof (frac_lt bits). pose proof (expo_lt bits). pose proof pow_eb_ge.
    assert (0 < 2 ^ fb)%N by (pose proof (N.pow_nonzero 2 fb ltac:(lia)); lia).
    destruct (N.eqb_spec (expo bits) (2 ^ eb - 1)) as [Ei|Hne].
    - destruct (N.eqb_spec (frac bits) 0) as [Ef|]; [|exact I].
      rewrite Ei, Ef. destruct (N.eqb _ 1); reflexivity.
    - assert ((magval (expo bits) (frac bits) < magval (2 ^ eb - 1) 0)%Z) as Hub.
      { apply magval_mono; [assumption|lia|].
        assert (expo bits + 1 <= 2 ^ eb - 1)%N as Hle by lia.
        apply (N.mul_le_mono_r _ _ (2 ^ fb)%N) in Hle. lia. }
      pose proof (magval_nonneg (expo bits) (frac bits)) as Hnn.
      remember (magval (2 ^ eb - 1) 0) as M.
      unfold magval in *.
      destruct (N.eqb_spec (expo bits) 0); destruct (N.eqb _ 1); lia.
  Qed.

  Lemma f_cmp_spec x y :
    f_cmp (eb + fb + 1) fb x y = fp_ord (fp_decode eb fb x) (fp_decode eb fb y).
  Proof.
    unfold f_cmp.
    pose proof (nan_spec x) as Nx. pose proof (nan_spec y) as Ny.
    pose proof (fp_decode_skey x) as Kx. pose proof (fp_decode_skey y) as Ky.
    rewrite key_cmp.
    pose proof pow_eb_ge as Hp.
    assert ((0 < magval (2 ^ eb - 1) 0)%Z) as HM.
    { unfold magval. destruct (N.eqb_spec (2 ^ eb - 1) 0); [lia|].
      pose proof (N.pow_nonzero 2 fb ltac:(lia)).
      apply Z.mul_pos_pos; [lia|apply Z.pow_pos_nonneg; lia]. }
    set (M := magval _ _) in *. clearbody M.
    destruct (f_nan _ _ x).
    { rewrite (proj1 Nx eq_refl). reflexivity. }
    destruct (f_nan _ _ y).
    { rewrite (proj1 Ny eq_refl). cbn. destruct (fp_decode eb fb x); reflexivity. }
    cbn.
    destruct (fp_decode eb fb x) eqn:Dx; [discriminate (proj2 Nx eq_refl)| | |];
    (destruct (fp_decode eb fb y) eqn:Dy; [discriminate (proj2 Ny eq_refl)| | |]);
    cbn [fp_ord];
    try (f_equal;
         match goal with |- (?a ?= ?c)%Z = Eq => apply Z.compare_eq_iff
                       | |- (?a ?= ?c)%Z = Lt => apply Z.compare_lt_iff
                       | |- (?a ?= ?c)%Z = Gt => apply Z.compare_gt_iff end; lia).
    destruct Kx as [-> _], Ky as [-> _]. reflexivity.
  Qed.
End Fp.

Lemma f64_cmp_spec x y : f64_cmp x y = fp_ord (double_of x) (double_of y).
Proof. apply (f_cmp_spec 11 52). lia. Qed.
Lemma f32_cmp_spec x y : f32_cmp x y = fp_ord (float_of x) (float_of y).
Proof. apply (f_cmp_spec 8 23). lia. Qed.

Lemma fp_ord_spec x y :
  match fp_ord x y with
  | None => x = FpNaN \/ y = FpNaN
  | Some Eq => fp_eq x y
  | Some Lt => fp_lt x y
  | Some Gt => fp_lt y x
  end.
Proof.
  unfold fp_eq.
  destruct x, y; cbn; auto; try (split; congruence).
  destruct (Z.compare_spec z z0); subst; auto. split; congruence.
Qed.

(** ** Byte string order *)
Lemma bytes_cmp_spec x y :
  match bytes_cmp x y with
  | Eq => x = y
  | Lt => lex_lt x y
  | Gt => lex_lt y x
  end.
Proof.
  revert y; induction x as [|a x IH]; intros [|c y]; cbn.
  - reflexivity.
  - left. exists c, y. reflexivity.
  - left. exists a, x. reflexivity.
  - destruct (N.compare_spec (N_of_ascii a) (N_of_ascii c)) as [E|L|G].
    + assert (a = c) as ->.
      { rewrite <- (ascii_N_embedding a), E. apply ascii_N_embedding. }
      specialize (IH y). destruct (bytes_cmp x y).
      * congruence.
      * destruct IH as [(d & t & ->)|(p & d & e & s & t & -> & -> & Hl)].
        -- left. exists d, t. reflexivity.
        -- right. exists (c :: p), d, e, s, t. auto.
      * destruct IH as [(d & t & ->)|(p & d & e & s & t & -> & -> & Hl)].
        -- left. exists d, t. reflexivity.
        -- right. exists (c :: p), d, e, s, t. auto.
    + right. exists [], a, c, x, y. auto.
    + right. exists [], c, a, y, x. auto.
Qed.

Lemma bytes_cmp_eq x y : bytes_cmp x y = Eq <-> x = y.
Proof.
  split; [intro H; pose proof (bytes_cmp_spec x y) as S; rewrite H in S; exact S|].
  intros <-. induction x as [|a x IH]; cbn; [reflexivity|]. rewrite N.compare_refl. exact IH.
Qed.

Lemma lex_lt_irrefl x : ~ lex_lt x x.
Proof.
  intros [(c & t & E)|(p & a & c & s & t & -> & E & L)].
  - apply (f_equal (@length ascii)) in E. rewrite app_length in E. cbn in E. lia.
  - apply app_inv_head in E. injection E as -> _. lia.
Qed.

Lemma lex_lt_cmp x y : lex_lt x y <-> bytes_cmp x y = Lt.
Proof.
  split.
  - revert y; induction x as [|a x IH]; intros y H.
    + destruct H as [(c & t & ->)|(p & a & c & s & t & E & _)]; [reflexivity|].
      destruct p; discriminate.
    + destruct H as [(c & t & ->)|(p & d & c & s & t & E & -> & L)].
      * cbn. rewrite N.compare_refl. apply IH. left. eauto.
      * destruct p as [|q p].
        -- injection E as -> ->. cbn. rewrite (proj2 (N.compare_lt_iff _ _) L). reflexivity.
        -- injection E as -> ->. cbn. rewrite N.compare_refl. apply IH. right.
           exists p, d, c, s, t. auto.
  - intro H. pose proof (bytes_cmp_spec x y) as S. rewrite H in S. exact S.
Qed.

Lemma lex_lt_trans x y z : lex_lt x y -> lex_lt y z -> lex_lt x z.
Proof.
  rewrite !lex_lt_cmp. revert y z; induction x as [|a x IH]; intros [|c y] [|d z]; cbn;
    try discriminate; auto.
  destruct (N.compare_spec (N_of_ascii a) (N_of_ascii c)) as [E1|L1|G1];
  destruct (N.compare_spec (N_of_ascii c) (N_of_ascii d)) as [E2|L2|G2]; try discriminate;
  intros H1 H2;
  destruct (N.compare_spec (N_of_ascii a) (N_of_ascii d)); try lia; try reflexivity.
  eapply IH; eauto.
Qed.

(** ** Value comparison *)

Lemma fv_partial_cmp_spec x y :
  comparable x y ->
  exists o, fv_partial_cmp x y = Ok o /\
  match o with
  | None => is_nan_value x \/ is_nan_value y
  | Some Eq => val_eq x y
  | Some Lt => val_lt x y
  | Some Gt => val_lt y x
  end.
Proof.
  intros (T & NB & NBB).
  destruct x, y; cbn in T; try discriminate T; cbn in NB, NBB; try (exfalso; congruence);
    cbn [fv_partial_cmp]; (eexists; split; [reflexivity|]); cbn [val_eq val_lt is_nan_value].
  - destruct (N.compare_spec x x0); auto.
  - destruct (N.compare_spec x x0); auto.
  - rewrite f64_cmp_spec. apply fp_ord_spec.
  - rewrite f32_cmp_spec. apply fp_ord_spec.
  - destruct (Z.compare_spec x x0); auto.
  - destruct (Z.compare_spec x x0); auto.
  - destruct (Z.compare_spec x x0); auto.
  - apply bytes_cmp_spec.
  - exact I.
Qed.

Lemma fp_lt_irrefl x : ~ fp_lt x x.
Proof. destruct x; cbn; try tauto. lia. Qed.
Lemma fp_lt_trans x y z : fp_lt x y -> fp_lt y z -> fp_lt x z.
Proof. destruct x, y, z; cbn; try tauto; lia. Qed.

Lemma val_lt_irrefl x : ~ val_lt x x.
Proof.
  destruct x; cbn; try tauto; try lia; auto using fp_lt_irrefl, lex_lt_irrefl.
Qed.
Lemma val_lt_trans x y z : val_lt x y -> val_lt y z -> val_lt x z.
Proof.
  destruct x, y; cbn; try tauto; destruct z; cbn; try tauto; try lia;
    eauto using fp_lt_trans, lex_lt_trans.
Qed.
Lemma fp_eq_lt x y z : fp_eq x y -> fp_lt y z -> fp_lt x z.
Proof. intros [-> _]; auto. Qed.
Lemma val_eq_lt x y z : val_eq x y -> (val_lt y z <-> val_lt x z) /\ (val_lt z y <-> val_lt z x).
Proof.
  destruct x, y; cbn [val_eq]; try tauto; try (intros ->); unfold fp_eq; try (intros [E _]);
    destruct z; cbn; rewrite ?E; tauto.
Qed.
Lemma val_eq_sym x y : val_eq x y -> val_eq y x.
Proof.
  destruct x, y; cbn; try tauto; try congruence; unfold fp_eq; intros [-> ?]; auto.
Qed.
Lemma val_eq_trans x y z : val_eq x y -> val_eq y z -> val_eq x z.
Proof.
  destruct x, y; cbn; try tauto; destruct z; cbn; try tauto; try congruence;
    unfold fp_eq; intros [-> ?]; auto.
Qed.
Lemma val_eq_refl x : comparable x x -> ~ is_nan_value x -> val_eq x x.
Proof.
  intros (_ & NB & NBB) NN. destruct x; cbn in *; try congruence; auto; split; auto.
Qed.
Lemma val_eq_comparable x y : val_eq x y -> comparable x y.
Proof. unfold comparable. destruct x, y; cbn; try tauto; repeat split; congruence. Qed.

Lemma val_eq_not_lt x y : val_eq x y -> ~ val_lt x y.
Proof.
  intros E L. apply (val_lt_irrefl x).
  destruct (val_eq_lt _ _ x E) as [_ H]. apply (proj1 (val_eq_lt _ _ y E)) in L as L'.
  apply (proj1 (proj2 (val_eq_lt _ _ x E))). exact L.
Qed.

Lemma fv_eq_ok x y :
  ~ (type_of x = type_of y /\ (type_of x = Some TBoolean \/ type_of x = Some TByteBuf)) ->
  exists e, fv_eq x y = Ok e /\ (e = true <-> val_eq x y).
Proof.
  intro H.
  destruct x, y; cbn [type_of] in H; try (exfalso; apply H; tauto);
    cbn [fv_eq val_eq]; (eexists; split; [reflexivity|]);
    try (split; [discriminate|tauto]); try tauto;
    try apply N.eqb_eq; try apply Z.eqb_eq; try apply bytes_eqb_eq.
  - unfold f64_eqb, f_eqb. change (f_cmp 64 52 bits bits0) with (f64_cmp bits bits0).
    rewrite f64_cmp_spec. pose proof (fp_ord_spec (double_of bits) (double_of bits0)) as S.
    destruct (fp_ord _ _) as [[]|]; split; try discriminate; auto.
    + intros [E _]. rewrite E in S. now apply fp_lt_irrefl in S.
    + intros [E _]. rewrite E in S. now apply fp_lt_irrefl in S.
    + intros [E N']. rewrite E in *. destruct S as [S|S]; congruence.
  - unfold f32_eqb, f_eqb. change (f_cmp 32 23 bits bits0) with (f32_cmp bits bits0).
    rewrite f32_cmp_spec. pose proof (fp_ord_spec (float_of bits) (float_of bits0)) as S.
    destruct (fp_ord _ _) as [[]|]; split; try discriminate; auto.
    + intros [E _]. rewrite E in S. now apply fp_lt_irrefl in S.
    + intros [E _]. rewrite E in S. now apply fp_lt_irrefl in S.
    + intros [E N']. rewrite E in *. destruct S as [S|S]; congruence.
Qed.

Lemma fv_eq_exit x y :
  type_of x = type_of y /\ (type_of x = Some TBoolean \/ type_of x = Some TByteBuf) ->
  fv_eq x y = Exit.
Proof.
  intros [T [H|H]]; destruct x; try discriminate H; destruct y; try discriminate T; reflexivity.
Qed.

Lemma fv_partial_cmp_exit x y : ~ comparable x y -> fv_partial_cmp x y = Exit.
Proof.
  unfold comparable. intro H.
  destruct x, y; try reflexivity; exfalso; apply H; repeat split; cbn; congruence.
Qed.

Lemma fp_nan_no x y :
  x = FpNaN \/ y = FpNaN -> ~ fp_lt x y /\ ~ fp_lt y x /\ ~ fp_eq x y.
Proof.
  unfold fp_eq. intros [->| ->].
  - repeat split; [destruct y; auto|destruct y; auto|tauto].
  - repeat split; [destruct x; auto|destruct x; auto|intros [-> H]; tauto].
Qed.

Lemma fv_partial_cmp_iff x y :
  comparable x y ->
  (fv_partial_cmp x y = Ok (Some Lt) <-> val_lt x y) /\
  (fv_partial_cmp x y = Ok (Some Gt) <-> val_lt y x) /\
  (fv_partial_cmp x y = Ok (Some Eq) <-> val_eq x y) /\
  (fv_partial_cmp x y = Ok None <-> is_nan_value x \/ is_nan_value y).
Proof.
  intro C. destruct (fv_partial_cmp_spec x y C) as (o & E & S). rewrite E.
  assert (Hnan : is_nan_value x \/ is_nan_value y -> ~ val_lt x y /\ ~ val_lt y x /\ ~ val_eq x y).
  { clear. destruct x, y; cbn; try tauto; apply fp_nan_no. }
  assert (D1 : val_lt x y -> val_lt y x -> False).
  { intros A B. eapply val_lt_irrefl, val_lt_trans; eauto. }
  assert (D2 : val_eq x y -> val_lt x y -> False) by apply val_eq_not_lt.
  assert (D3 : val_eq x y -> val_lt y x -> False).
  { intros A. apply val_eq_not_lt, val_eq_sym, A. }
  destruct o as [[]|]; repeat split; intro H; try discriminate; try tauto;
    try injection H as H; try congruence; try reflexivity.
Qed.

(** ** Column lookup *)

Definition all_codes : list N := map N.of_nat (seq 0 256).
Lemma all_codes_in a : In (N_of_ascii a) all_codes.
Proof.
  unfold all_codes. apply in_map_iff. exists (N.to_nat (N_of_ascii a)).
  pose proof (N_ascii_bounded a). split; [lia|]. apply in_seq. lia.
Qed.

Lemma ci_table :
  forallb (fun i => forallb (fun j =>
     negb (Ascii.eqb (ascii_lower (ascii_of_N i)) (ascii_lower (ascii_of_N j))) ||
     (Ascii.eqb (ascii_of_N i) (ascii_of_N j) ||
      existsb (fun k => ((i =? 65 + k) && (j =? 97 + k))
                       || ((i =? 97 + k) && (j =? 65 + k)))%N
                       (map N.of_nat (seq 0 26)))) all_codes) all_codes = true.
Proof. vm_compute. reflexivity. Qed.

Lemma ascii_lower_ci a c : ascii_lower a = ascii_lower c <-> ci_char a c.
Proof.
  unfold ci_char. split.
  - intro H.
    assert (Hall : forall a c, ascii_lower a = ascii_lower c ->
              a = c \/ (existsb (fun k => ((N_of_ascii a =? 65 + k) && (N_of_ascii c =? 97 + k))
                       || ((N_of_ascii a =? 97 + k) && (N_of_ascii c =? 65 + k)))%N
                       (map N.of_nat (seq 0 26))) = true).
    { clear. intros a c H.
      pose proof (proj1 (forallb_forall _ _) ci_table (N_of_ascii a) (all_codes_in a)) as Ta.
      cbv beta in Ta. rewrite forallb_forall in Ta.
      specialize (Ta (N_of_ascii c) (all_codes_in c)). rewrite !ascii_N_embedding, H in Ta.
      rewrite Ascii.eqb_refl in Ta. cbn [negb orb] in Ta. apply orb_true_iff in Ta as [Ta|Ta].
      - left. now apply Ascii.eqb_eq.
      - right. exact Ta. }
    destruct (Hall a c H) as [->|E]; [now left|right].
    apply existsb_exists in E as (k & Hk & E).
    apply in_map_iff in Hk as (i & <- & Hi). apply in_seq in Hi.
    exists (N.of_nat i). split; [lia|].
    apply orb_true_iff in E as [E|E]; apply andb_true_iff in E as [E1 E2];
      apply N.eqb_eq in E1, E2; auto.
  - intros [->|(k & Hk & H)]; [reflexivity|]. unfold ascii_lower.
    assert (forall p q : ascii, (N_of_ascii p = 65 + k)%N -> (N_of_ascii q = 97 + k)%N ->
      (if ((65 <=? N_of_ascii p) && (N_of_ascii p <=? 90))%N then ascii_of_N (N_of_ascii p + 32) else p) =
      (if ((65 <=? N_of_ascii q) && (N_of_ascii q <=? 90))%N then ascii_of_N (N_of_ascii q + 32) else q)) as G.
    { intros p q Hp Hq. rewrite Hp, Hq.
      replace ((65 <=? 65 + k) && (65 + k <=? 90))%N with true by (symmetry; lia).
      replace ((65 <=? 97 + k) && (97 + k <=? 90))%N with false by (symmetry; lia).
      rewrite <- (ascii_N_embedding q), Hq. f_equal. lia. }
    destruct H as [[Hp Hq]|[Hp Hq]]; [now apply G|symmetry; now apply G].
Qed.

Lemma eq_ignore_ascii_case_spec x y : eq_ignore_ascii_case x y = true <-> ci_eq x y.
Proof.
  unfold eq_ignore_ascii_case, ci_eq. rewrite bytes_eqb_eq.
  revert y; induction x as [|a x IH]; intros [|c y]; cbn.
  - split; [constructor|reflexivity].
  - split; [discriminate|inversion 1].
  - split; [discriminate|inversion 1].
  - split.
    + intros [= E1 E2]. constructor; [now apply ascii_lower_ci|now apply IH].
    + inversion 1; subst. f_equal; [now apply ascii_lower_ci|now apply IH].
Qed.

Lemma find_column_position names name i :
  find_column names name i =
  option_map (fun k => i + k) (position (fun n => eq_ignore_ascii_case n name) names).
Proof.
  revert i; induction names as [|n names IH]; intro i; cbn; [reflexivity|].
  destruct (eq_ignore_ascii_case n name); cbn; [f_equal; lia|].
  rewrite IH. destruct (position _ names); cbn; [f_equal; lia|reflexivity].
Qed.

Lemma find_column_Some names name i :
  find_column names name 0 = Some i <-> first_named names name i.
Proof.
  rewrite find_column_position. unfold first_named.
  split.
  - intro H. destruct (position _ names) as [k|] eqn:E; [|discriminate].
    cbn in H. injection H as <-. apply position_Some in E as [(n & Hn & En) Hlt]. split.
    + exists n. split; [exact Hn|]. now apply eq_ignore_ascii_case_spec.
    + intros j m Hj Hm C. apply eq_ignore_ascii_case_spec in C.
      rewrite (Hlt j m Hj Hm) in C. discriminate.
  - intros [(n & Hn & En) Hlt].
    assert (position (fun n => eq_ignore_ascii_case n name) names = Some i) as ->;
      [|reflexivity].
    apply position_Some. split.
    + exists n. split; [exact Hn|]. now apply eq_ignore_ascii_case_spec.
    + intros j m Hj Hm. specialize (Hlt j m Hj Hm).
      rewrite <- eq_ignore_ascii_case_spec in Hlt.
      destruct (eq_ignore_ascii_case m name); congruence.
Qed.

Lemma find_column_None names name :
  find_column names name 0 = None <-> none_named names name.
Proof.
  rewrite find_column_position. unfold none_named.
  destruct (position _ names) as [k|] eqn:E; cbn.
  - split; [discriminate|]. intro H. apply position_Some in E as [(n & Hn & En) _].
    apply nth_error_In in Hn. apply eq_ignore_ascii_case_spec in En. destruct (H n Hn En).
  - split; [|reflexivity]. intros _ n Hn C. rewrite position_None in E.
    apply eq_ignore_ascii_case_spec in C. rewrite (E n Hn) in C. discriminate.
Qed.

Lemma first_or_none names name :
  (exists i, first_named names name i) \/ none_named names name.
Proof.
  destruct (find_column names name 0) as [i|] eqn:E.
  - left. exists i. now apply find_column_Some.
  - right. now apply find_column_None.
Qed.

(** ** remove *)
Lemma nth_error_skipn' {A} n k (l : list A) : nth_error (skipn n l) k = nth_error l (n + k).
Proof.
  revert k l; induction n as [|n IH]; intros k [|x l]; cbn; auto. destruct k; reflexivity.
Qed.
Lemma nth_error_firstn' {A} n k (l : list A) :
  k < n -> nth_error (firstn n l) k = nth_error l k.
Proof.
  revert k l; induction n as [|n IH]; intros k [|x l] H; cbn; try lia; auto.
  destruct k; cbn; [reflexivity|]. apply IH; lia.
Qed.

Lemma list_remove_without {A} i (l l' : list A) :
  list_remove i l = Ok l' <-> without i l l'.
Proof.
  split.
  - intro H. destruct (Nat.lt_ge_cases i (length l)) as [Hi|Hi].
    2:{ rewrite list_remove_panic in H by exact Hi. discriminate. }
    rewrite list_remove_spec in H by exact Hi. assert (l' = firstn i l ++ skipn (S i) l) as -> by congruence. clear H.
    unfold without. repeat split; [exact Hi| | |].
    + rewrite app_length, firstn_length, skipn_length. lia.
    + intros j Hj. rewrite nth_error_app1 by (rewrite firstn_length; lia).
      apply nth_error_firstn'; lia.
    + intros j Hj. rewrite nth_error_app2 by (rewrite firstn_length; lia).
      rewrite firstn_length, nth_error_skipn'. f_equal. lia.
  - intros (Hi & Hl & H1 & H2). rewrite list_remove_spec by exact Hi. f_equal.
    apply nth_error_ext. intro k.
    destruct (Nat.lt_ge_cases k i) as [Hk|Hk].
    + rewrite H1 by exact Hk. rewrite nth_error_app1 by (rewrite firstn_length; lia).
      apply nth_error_firstn'; lia.
    + rewrite H2 by exact Hk. rewrite nth_error_app2 by (rewrite firstn_length; lia).
      rewrite firstn_length, nth_error_skipn'. f_equal. lia.
Qed.

(** ** remove_multiple *)
From Coq Require Import Sorting.Sorted.

Definition not_in (idx : list nat) (i : nat) : bool := negb (existsb (Nat.eqb i) idx).

Lemma not_in_true idx i : not_in idx i = true <-> ~ In i idx.
Proof.
  unfold not_in. rewrite negb_true_iff, <- not_true_iff_false, existsb_exists.
  split; intros H C; apply H.
  - exists i. split; [exact C|apply Nat.eqb_refl].
  - destruct C as (x & Hx & E). apply Nat.eqb_eq in E. now subst.
Qed.
Lemma not_in_false idx i : not_in idx i = false <-> In i idx.
Proof.
  unfold not_in. rewrite negb_false_iff, existsb_exists. split.
  - intros (x & Hx & E). apply Nat.eqb_eq in E. now subst.
  - intro H. exists i. split; [exact H|apply Nat.eqb_refl].
Qed.

Lemma select_app {A} k i (x y : list A) :
  select k i (x ++ y) = select k i x ++ select k (i + length x) y.
Proof.
  revert i; induction x as [|a x IH]; intro i; cbn.
  - f_equal. lia.
  - rewrite IH. replace (S i + length x) with (i + S (length x)) by lia.
    destruct (k i); reflexivity.
Qed.

Lemma select_all {A} k i (x : list A) :
  (forall j, i <= j < i + length x -> k j = true) -> select k i x = x.
Proof.
  revert i; induction x as [|a x IH]; intros i H; cbn; [reflexivity|].
  rewrite (H i) by (cbn; lia). f_equal. apply IH. intros j Hj. apply H. cbn. lia.
Qed.

(* one rotation step: slice is K ++ G ++ x :: seg ++ tail *)
Lemma rotate_range_step {A} (K G seg tl : list A) x removed :
  length G = removed - 1 -> 1 <= removed ->
  rotate_range (length K) (length K + length G + 1 + length seg) removed
               (K ++ G ++ x :: seg ++ tl) = Ok (K ++ seg ++ (G ++ [x]) ++ tl).
Proof.
  intros HG Hr. unfold rotate_range.
  replace (length K + length G + 1 + length seg <? length K) with false by (symmetry; lia).
  replace (length (K ++ G ++ x :: seg ++ tl) <? length K + length G + 1 + length seg)
    with false by (symmetry; rewrite !app_length; cbn [length]; rewrite app_length; lia).
  cbn [orb].
  assert (firstn (length K + length G + 1 + length seg - length K)
            (skipn (length K) (K ++ G ++ x :: seg ++ tl)) = (G ++ [x]) ++ seg) as ->.
  { rewrite skipn_app, skipn_all, Nat.sub_diag. cbn [app skipn].
    replace (G ++ x :: seg ++ tl) with (((G ++ [x]) ++ seg) ++ tl)
      by (rewrite <- !app_assoc; reflexivity).
    replace (length K + length G + 1 + length seg - length K)
      with (length ((G ++ [x]) ++ seg)) by (rewrite !app_length; cbn [length]; lia).
    rewrite firstn_app, firstn_all, Nat.sub_diag. cbn. apply app_nil_r. }
  unfold rotate_left.
  replace (length ((G ++ [x]) ++ seg) <? removed) with false
    by (symmetry; rewrite !app_length; cbn [length]; lia).
  assert (removed = length (G ++ [x])) as Hrm by (rewrite app_length; cbn [length]; lia).
  assert (skipn removed ((G ++ [x]) ++ seg) = seg) as ->.
  { rewrite Hrm, skipn_app, skipn_all, Nat.sub_diag. reflexivity. }
  assert (firstn removed ((G ++ [x]) ++ seg) = G ++ [x]) as ->.
  { rewrite Hrm, firstn_app, firstn_all, Nat.sub_diag. cbn. apply app_nil_r. }
  cbn [bind]. f_equal.
  assert (firstn (length K) (K ++ G ++ x :: seg ++ tl) = K) as ->.
  { rewrite firstn_app, firstn_all, Nat.sub_diag. cbn. apply app_nil_r. }
  f_equal. rewrite <- app_assoc. f_equal.
  f_equal.
  replace (K ++ G ++ x :: seg ++ tl) with ((K ++ G ++ [x] ++ seg) ++ tl)
    by (rewrite <- !app_assoc; reflexivity).
  replace (length K + length G + 1 + length seg) with (length (K ++ G ++ [x] ++ seg))
    by (rewrite !app_length; cbn [length]; lia).
  rewrite skipn_app, skipn_all, Nat.sub_diag. reflexivity.
Qed.

Lemma skipn_split {A} (l : list A) p c :
  p < c -> c <= length l ->
  exists x, nth_error l p = Some x /\
    skipn p l = x :: firstn (c - p - 1) (skipn (S p) l) ++ skipn c l /\
    firstn c l = firstn p l ++ x :: firstn (c - p - 1) (skipn (S p) l).
Proof.
  revert p c; induction l as [|a l IH]; intros p c Hp Hc; cbn in Hc; [lia|].
  destruct c as [|c]; [lia|]. destruct p as [|p].
  - exists a. cbn. rewrite Nat.sub_0_r, firstn_skipn. auto.
  - destruct (IH p c ltac:(lia) ltac:(lia)) as (x & E1 & E2 & E3).
    exists x. split; [exact E1|]. split.
    + change (skipn (S p) (a :: l)) with (skipn p l). rewrite E2. reflexivity.
    + cbn [firstn app]. rewrite E3. reflexivity.
Qed.

Lemma rm_loop_inv {A} (l : list A) all rest prev removed G :
  Sorted lt (prev :: rest) -> (forall j, In j rest -> j < length l) -> prev < length l ->
  In prev all -> (forall j, prev < j -> (In j all <-> In j rest)) ->
  length G = removed - 1 -> 1 <= removed ->
  length (select (not_in all) 0 (firstn prev l)) + length G = prev ->
  exists prev' G', 
    rm_loop rest prev removed (select (not_in all) 0 (firstn prev l) ++ G ++ skipn prev l) =
      Ok (prev', removed + length rest,
          select (not_in all) 0 (firstn prev' l) ++ G' ++ skipn prev' l) /\
    prev' < length l /\ In prev' all /\ (forall j, prev' < j -> ~ In j all) /\
    length G' = removed + length rest - 1 /\
    length (select (not_in all) 0 (firstn prev' l)) + length G' = prev'.
Proof.
  revert prev removed G; induction rest as [|cur rest IH];
    intros prev removed G Hs Hb Hp Hin Hrest HG Hr Hlen.
  - exists prev, G. cbn [rm_loop]. rewrite Nat.add_0_r. repeat split; auto.
    intros j Hj. rewrite (Hrest j Hj). auto.
  - inversion Hs as [|? ? Hs' Hhd]; subst. inversion Hhd as [|? ? Hpc]; subst.
    assert (cur < length l) as Hcl by (apply Hb; now left).
    destruct (skipn_split l prev cur Hpc ltac:(lia)) as (x & Ex & Esk & Efn).
    cbn [rm_loop].
    replace (prev <? removed - 1) with false by (symmetry; lia).
    set (K := select (not_in all) 0 (firstn prev l)) in *.
    set (seg := firstn (cur - prev - 1) (skipn (S prev) l)) in *.
    assert (length seg = cur - prev - 1) as Hseg.
    { unfold seg. rewrite firstn_length, skipn_length. lia. }
    rewrite Esk.
    replace (prev - (removed - 1)) with (length K) by lia.
    pose proof (rotate_range_step K G seg (skipn cur l) x removed HG Hr) as R.
    replace (length K + length G + 1 + length seg) with cur in R by lia.
    rewrite R. clear R. cbn [bind].
    assert (select (not_in all) 0 (firstn cur l) = K ++ seg) as EK.
    { rewrite Efn, select_app. fold K. cbn [select].
      assert (length (firstn prev l) = prev) as Hfl by (rewrite firstn_length; lia).
      rewrite Hfl. cbn [Nat.add].
      rewrite (proj2 (not_in_false all prev) Hin).
      rewrite select_all; [reflexivity|].
      intros j Hj. apply not_in_true. intro C.
      apply Hrest in C; [|lia]. destruct C as [->|C]; [lia|].
      apply (Sorted_extends) in Hs'; [|intros ? ? ?; lia].
      rewrite Forall_forall in Hs'. specialize (Hs' j C). lia. }
    assert (Hnew : forall j, cur < j -> In j all <-> In j rest).
    { intros j Hj. rewrite (Hrest j) by lia. cbn. split; [|now right].
      intros [->|H]; [lia|exact H]. }
    destruct (IH cur (removed + 1) (G ++ [x])) as (p' & G' & E & H); auto.
    + intros j Hj. apply Hb. now right.
    + apply Hrest; [lia|]. now left.
    + rewrite app_length; cbn [length]; lia.
    + lia.
    + rewrite EK, !app_length. cbn. lia.
    + exists p', G'. rewrite EK in E.
      replace (K ++ seg ++ (G ++ [x]) ++ skipn cur l)
        with ((K ++ seg) ++ (G ++ [x]) ++ skipn cur l) by (now rewrite <- app_assoc).
      rewrite E. cbn [length].
      replace (removed + 1 + length rest) with (removed + S (length rest)) in * by lia.
      split; [reflexivity|exact H].
Qed.

Lemma remove_multiple_spec {A} idx (l : list A) :
  Sorted lt idx -> (forall i, In i idx -> i < length l) ->
  remove_multiple idx l = Ok (select (not_in idx) 0 l).
Proof.
  intros Hs Hb. destruct idx as [|i0 rest].
  - cbn. f_equal. symmetry. apply select_all. reflexivity.
  - unfold remove_multiple.
    assert (i0 < length l) as Hi0 by (apply Hb; now left).
    assert (forall j, In j rest -> i0 < j) as Hgt.
    { apply Sorted_extends in Hs; [|intros ? ? ?; lia]. now rewrite Forall_forall in Hs. }
    assert (select (not_in (i0 :: rest)) 0 (firstn i0 l) = firstn i0 l) as EK.
    { apply select_all. intros j Hj. apply not_in_true.
      rewrite firstn_length in Hj. intros [->|C]; [lia|]. specialize (Hgt j C). lia. }
    destruct (rm_loop_inv l (i0 :: rest) rest i0 1 [] Hs) as (p' & G' & E & Hp & Hin & Hno & HG & HL);
      auto.
    + intros j Hj. apply Hb. now right.
    + now left.
    + intros j Hj. cbn. split; [|now right]. intros [->|C]; [lia|exact C].
    + rewrite EK, firstn_length. cbn. lia.
    + rewrite EK in E. cbn [app] in E. rewrite firstn_skipn in E. rewrite E. cbn [bind].
      replace (p' <? 1 + length rest - 1) with false by (symmetry; lia).
      set (K := select _ 0 (firstn p' l)) in *.
      destruct (skipn_split l p' (length l) Hp ltac:(lia)) as (x & Ex & Esk & Efn).
      set (seg := firstn (length l - p' - 1) (skipn (S p') l)) in *.
      assert (length seg = length l - p' - 1) as Hseg.
      { unfold seg. rewrite firstn_length, skipn_length. lia. }
      rewrite Esk. rewrite skipn_all, app_nil_r.
      replace (p' - (1 + length rest - 1)) with (length K) by lia.
      replace (length (K ++ G' ++ x :: seg)) with (length K + length G' + 1 + length seg)
        by (rewrite !app_length; cbn [length]; lia).
      replace (K ++ G' ++ x :: seg) with (K ++ G' ++ x :: seg ++ []) by (now rewrite app_nil_r).
      rewrite rotate_range_step by lia. cbn [bind]. rewrite app_nil_r.
      replace (length (K ++ seg ++ G' ++ [x]) <? 1 + length rest) with false
        by (symmetry; rewrite !app_length; cbn [length]; lia).
      f_equal.
      replace (length (K ++ seg ++ G' ++ [x]) - (1 + length rest)) with (length (K ++ seg))
        by (rewrite !app_length; cbn [length]; lia).
      rewrite (app_assoc K seg).
      rewrite firstn_app, firstn_all, Nat.sub_diag. cbn [firstn]. rewrite app_nil_r.
      assert (l = firstn p' l ++ x :: seg) as El by (rewrite <- Efn; symmetry; apply firstn_all).
      rewrite El at 1. rewrite select_app. fold K. cbn [select].
      rewrite firstn_length. replace (min p' (length l)) with p' by lia. cbn [Nat.add].
      rewrite (proj2 (not_in_false _ _) Hin).
      rewrite select_all; [reflexivity|].
      intros j Hj. apply not_in_true. apply Hno. lia.
Qed.

(** ** The filters *)

Lemma equal_filter_full name v h :
  (none_named (h_names h) name -> is_err (row_filter_equal name v h) = true) /\
  (forall i, first_named (h_names h) name i ->
     exists sk, row_filter_equal name v h = Ok (h, sk) /\
       (forall past, sk_flush sk past = Ok tt) /\
       (forall past r x, nth_error (vals r) i = Some x ->
          ~ (type_of x = type_of v /\ (type_of x = Some TBoolean \/ type_of x = Some TByteBuf)) ->
          (val_eq x v -> sk_write sk past r = Ok [r]) /\
          (~ val_eq x v -> sk_write sk past r = Ok [])) /\
       (forall past r x, nth_error (vals r) i = Some x ->
          type_of x = type_of v -> (type_of x = Some TBoolean \/ type_of x = Some TByteBuf) ->
          sk_write sk past r = Exit) /\
       (forall past r, nth_error (vals r) i = None -> sk_write sk past r = Panic)).
Proof.
  split.
  - intro H. apply find_column_None in H. unfold row_filter_equal. now rewrite H.
  - intros i H. apply find_column_Some in H. unfold row_filter_equal. rewrite H.
    eexists. split; [reflexivity|]. cbn [sk_write sk_flush]. unfold equal_write, default_flush.
    split; [reflexivity|]. split; [|split].
    + intros past r x Hx Hs. rewrite Hx. cbn [unwrap bind].
      destruct (fv_eq_ok x v Hs) as (e & -> & He). cbn [bind].
      destruct e; cbn [negb]; split; intro E; try reflexivity; exfalso.
      * apply E. now apply He.
      * apply He in E. discriminate.
    + intros past r x Hx T B. rewrite Hx. cbn [unwrap bind].
      rewrite fv_eq_exit by auto. reflexivity.
    + intros past r Hx. rewrite Hx. reflexivity.
Qed.

Lemma greater_filter_full name v h :
  (none_named (h_names h) name -> is_err (row_filter_greater name v h) = true) /\
  (forall i, first_named (h_names h) name i ->
     exists sk, row_filter_greater name v h = Ok (h, sk) /\
       (forall past, sk_flush sk past = Ok tt) /\
       (forall past r x, nth_error (vals r) i = Some x -> comparable x v ->
          (val_lt v x -> sk_write sk past r = Ok [r]) /\
          (~ val_lt v x -> sk_write sk past r = Ok [])) /\
       (forall past r x, nth_error (vals r) i = Some x -> ~ comparable x v ->
          sk_write sk past r = Exit) /\
       (forall past r, nth_error (vals r) i = None -> sk_write sk past r = Panic)).
Proof.
  split.
  - intro H. apply find_column_None in H. unfold row_filter_greater. now rewrite H.
  - intros i H. apply find_column_Some in H. unfold row_filter_greater. rewrite H.
    eexists. split; [reflexivity|]. cbn [sk_write sk_flush]. unfold greater_write, default_flush.
    split; [reflexivity|]. split; [|split].
    + intros past r x Hx Hc. rewrite Hx. cbn [unwrap bind].
      destruct (fv_partial_cmp_iff x v Hc) as (_ & G & _).
      destruct (fv_partial_cmp_spec x v Hc) as (o & E & _). rewrite E in *. cbn [bind].
      split.
      * intro L. apply G in L. injection L as ->. reflexivity.
      * intro L. destruct o as [[]|]; try reflexivity. exfalso. apply L. now apply G.
    + intros past r x Hx Hc. rewrite Hx. cbn [unwrap bind].
      rewrite fv_partial_cmp_exit by exact Hc. reflexivity.
    + intros past r Hx. rewrite Hx. reflexivity.
Qed.

Lemma delete_filter_full name h :
  (none_named (h_names h) name -> is_err (column_filter_delete name h) = true) /\
  (forall i, first_named (h_names h) name i -> length (h_types h) = length (h_names h) ->
     exists h' sk, column_filter_delete name h = Ok (h', sk) /\
       without i (h_names h) (h_names h') /\ without i (h_types h) (h_types h') /\
       (forall past, sk_flush sk past = Ok tt) /\
       (forall past r, i < length (vals r) ->
          exists r', sk_write sk past r = Ok [r'] /\ ts r' = ts r /\
                     without i (vals r) (vals r')) /\
       (forall past r, length (vals r) <= i -> sk_write sk past r = Panic)).
Proof.
  split.
  - intro H. apply find_column_None in H. unfold column_filter_delete. now rewrite H.
  - intros i H Hlen.
    assert (i < length (h_names h)) as Hi.
    { destruct H as [(n & Hn & _) _]. apply nth_error_Some. congruence. }
    apply find_column_Some in H. unfold column_filter_delete. rewrite H.
    pose proof (list_remove_spec (h_names h) i Hi) as E1.
    pose proof (list_remove_spec (h_types h) i ltac:(lia)) as E2.
    rewrite E1, E2. cbn [bind].
    eexists _, _. split; [reflexivity|]. cbn [h_names h_types sk_write sk_flush].
    split; [now apply list_remove_without|]. split; [now apply list_remove_without|].
    unfold delete_write, default_flush. split; [reflexivity|]. split.
    + intros past r Hr. pose proof (list_remove_spec (vals r) i Hr) as E3.
      rewrite E3. cbn [bind]. eexists. split; [reflexivity|]. split; [reflexivity|].
      now apply list_remove_without.
    + intros past r Hr. rewrite list_remove_panic by exact Hr. reflexivity.
Qed.

Lemma comparison_coherent :
  (* equality is an equivalence away from NaN *)
  (forall x, comparable x x -> ~ is_nan_value x -> fv_eq x x = Ok true) /\
  (forall x y, fv_eq x y = Ok true -> fv_eq y x = Ok true) /\
  (forall x y z, fv_eq x y = Ok true -> fv_eq y z = Ok true -> fv_eq x z = Ok true) /\
  (* compares-Equal is equality *)
  (forall x y, fv_partial_cmp x y = Ok (Some Eq) <-> fv_eq x y = Ok true) /\
  (* order: antisymmetric, transitive, total away from NaN *)
  (forall x y, fv_partial_cmp x y = Ok (Some Lt) <-> fv_partial_cmp y x = Ok (Some Gt)) /\
  (forall x y z, fv_partial_cmp x y = Ok (Some Lt) -> fv_partial_cmp y z = Ok (Some Lt) ->
     fv_partial_cmp x z = Ok (Some Lt)) /\
  (forall x y, comparable x y -> ~ is_nan_value x -> ~ is_nan_value y ->
     exists o, fv_partial_cmp x y = Ok (Some o)) /\
  (forall x y, is_nan_value x \/ is_nan_value y -> comparable x y ->
     fv_partial_cmp x y = Ok None /\ fv_eq x y = Ok false) /\
  (* and it is the order of the denoted values *)
  (forall x y, comparable x y -> (fv_partial_cmp x y = Ok (Some Lt) <-> val_lt x y) /\
                                 (fv_eq x y = Ok true <-> val_eq x y)) /\
  (* anything else terminates the process *)
  (forall x y, ~ comparable x y -> fv_partial_cmp x y = Exit).
Proof.
  assert (Hsup : forall x y, comparable x y ->
     ~ (type_of x = type_of y /\ (type_of x = Some TBoolean \/ type_of x = Some TByteBuf))).
  { intros x y (T & NB & NBB) (_ & [C|C]); congruence. }
  assert (Heq : forall x y, fv_eq x y = Ok true <-> val_eq x y).
  { intros x y. split.
    - intro H. destruct (fv_eq_ok x y) as (e & E & S).
      + intro C. rewrite (fv_eq_exit x y C) in H. discriminate.
      + rewrite E in H. injection H as ->. now apply S.
    - intro H. destruct (fv_eq_ok x y (Hsup _ _ (val_eq_comparable _ _ H))) as (e & E & S).
      rewrite E. f_equal. now apply S. }
  assert (Hcmp : forall x y o, fv_partial_cmp x y = Ok o -> comparable x y).
  { intros x y o H. unfold comparable.
    destruct x, y; cbn in H; try discriminate; repeat split; cbn; congruence. }
  assert (Csym : forall x y, comparable x y -> comparable y x).
  { intros x y (T & A & C). unfold comparable. rewrite <- T. auto. }
  assert (Hlt : forall x y, fv_partial_cmp x y = Ok (Some Lt) <-> val_lt x y).
  { intros x y. split.
    - intro H. now apply (fv_partial_cmp_iff x y (Hcmp _ _ _ H)).
    - intro H. apply (fv_partial_cmp_iff x y); [|exact H].
      unfold comparable. destruct x, y; cbn in H; try tauto; repeat split; cbn; congruence. }
  assert (Hgt : forall x y, fv_partial_cmp x y = Ok (Some Gt) <-> val_lt y x).
  { intros x y. split.
    - intro H. now apply (fv_partial_cmp_iff x y (Hcmp _ _ _ H)).
    - intro H. apply (fv_partial_cmp_iff x y); [|exact H].
      unfold comparable. destruct x, y; cbn in H; try tauto; repeat split; cbn; congruence. }
  split; [intros x C NN; apply Heq, val_eq_refl; assumption|].
  split; [intros x y; rewrite !Heq; apply val_eq_sym|].
  split; [intros x y z; rewrite !Heq; apply val_eq_trans|].
  split.
  { intros x y. rewrite Heq. split.
    - intro H. now apply (fv_partial_cmp_iff x y (Hcmp _ _ _ H)).
    - intro H. apply (fv_partial_cmp_iff x y); [|exact H]. now apply val_eq_comparable. }
  split; [intros x y; rewrite Hlt, Hgt; reflexivity|].
  split; [intros x y z; rewrite !Hlt; apply val_lt_trans|].
  split.
  { intros x y C Nx Ny. destruct (fv_partial_cmp_spec x y C) as ([o|] & E & S); [eauto|tauto]. }
  split.
  { intros x y HN C. split.
    - now apply (fv_partial_cmp_iff x y C).
    - destruct (fv_eq_ok x y (Hsup _ _ C)) as (e & E & S). rewrite E. f_equal.
      destruct e; [|reflexivity]. exfalso.
      assert (fv_partial_cmp x y = Ok None) as E1 by (now apply (fv_partial_cmp_iff x y C)).
      assert (fv_partial_cmp x y = Ok (Some Eq)) as E2
        by (apply (fv_partial_cmp_iff x y C); now apply S).
      congruence. }
  split; [intros x y C; split; [apply Hlt|apply Heq]|].
  apply fv_partial_cmp_exit.
Qed.

Lemma remove_multiple_select {A} (idx : list nat) (l : list A) :
  Sorted lt idx -> (forall i, In i idx -> i < length l) ->
  exists l', remove_multiple idx l = Ok l' /\
    length l' = length l - length idx /\
    forall keep, (forall i, keep i = true <-> ~ In i idx) -> l' = select keep 0 l.
Proof.
  intros Hs Hb. exists (select (not_in idx) 0 l).
  split; [now apply remove_multiple_spec|].
  assert (Hcong : forall k1 k2 i (m : list A), (forall j, k1 j = k2 j) -> select k1 i m = select k2 i m).
  { intros k1 k2 i m H. revert i. induction m as [|a m IH]; intro i; cbn; [reflexivity|].
    rewrite H, IH. reflexivity. }
  split.
  - assert (NoDup idx) as Hnd.
    { clear Hb. apply Sorted_StronglySorted in Hs; [|intros ? ? ?; lia].
      induction Hs as [|a idx Hs IH Hf]; constructor; auto.
      intro C. rewrite Forall_forall in Hf. specialize (Hf a C). lia. }
    assert (G : forall (m : list A) i, length (select (not_in idx) i m) +
                length (filter (fun j => (i <=? j) && (j <? i + length m)) idx) = length m).
    { clear Hs Hb. intro m. induction m as [|a m IH]; intro i; cbn [select length].
      - rewrite Nat.add_0_r.
        assert (filter (fun j => (i <=? j) && (j <? i)) idx = []) as ->; [|reflexivity].
        clear Hnd. induction idx as [|x t IHt]; cbn [filter]; [reflexivity|].
        replace ((i <=? x) && (x <? i)) with false by (symmetry; lia). exact IHt.
      - specialize (IH (S i)).
        assert (F : length (filter (fun j => (i <=? j) && (j <? i + S (length m))) idx) =
                (if not_in idx i then 0 else 1) +
                length (filter (fun j => (S i <=? j) && (j <? S i + length m)) idx)).
        { clear IH. clear Hcong. induction idx as [|x t IHt]; cbn [filter length]; [reflexivity|].
          inversion Hnd as [|? ? Hx Hnd']; subst. specialize (IHt Hnd').
          destruct (Nat.eq_dec x i) as [->|Hne].
          - replace ((i <=? i) && (i <? i + S (length m))) with true by (symmetry; lia).
            replace ((S i <=? i) && (i <? S i + length m)) with false by (symmetry; lia).
            assert (not_in (i :: t) i = false) as -> by (apply not_in_false; now left).
            assert (not_in t i = true) as E by (now apply not_in_true).
            rewrite E in IHt. cbn [length]. lia.
          - assert (not_in (x :: t) i = not_in t i) as ->.
            { destruct (not_in t i) eqn:E.
              - apply not_in_true. apply not_in_true in E. intros [->|C]; auto.
              - apply not_in_false. apply not_in_false in E. now right. }
            destruct ((i <=? x) && (x <? i + S (length m))) eqn:E1;
            destruct ((S i <=? x) && (x <? S i + length m)) eqn:E2; cbn [length]; try lia. }
        destruct (not_in idx i); cbn [length]; lia. }
    specialize (G l 0).
    assert (filter (fun j => (0 <=? j) && (j <? 0 + length l)) idx = idx) as E.
    { clear -Hb. induction idx as [|x t IH]; cbn [filter]; [reflexivity|].
      replace ((0 <=? x) && (x <? 0 + length l)) with true.
      - f_equal. apply IH. intros i Hi. apply Hb. now right.
      - symmetry. specialize (Hb x (or_introl eq_refl)). lia. }
    rewrite E in G. lia.
  - intros keep Hk. apply Hcong. intro j.
    destruct (keep j) eqn:E.
    + apply not_in_true. now apply Hk.
    + apply not_in_false. destruct (in_dec Nat.eq_dec j idx) as [|n]; [assumption|].
      apply Hk in n. congruence.
Qed.
