From Verif Require Export CsvUtilSpec.
Local Open Scope nat_scope.
Local Ltac Zify.zify_post_hook ::= idtac.

(** ** chars *)
Lemma chars_encode c t : scalar c -> chars (encode c ++ t) = c :: chars t.
Proof.
  intros [Hc Hs]. unfold encode.
  destruct (digits64 c) as [D1 D2]. rewrite D1, D2. clear D1 D2.
  destruct (div64 c) as [A1 A2], (div64 (c / 64)) as [B1 B2], (div64 (c / 64 / 64)) as [C1 C2].
  set (x := (c mod 64)%N) in *. set (y := ((c / 64) mod 64)%N) in *. set (z := ((c / 64 / 64) mod 64)%N) in *.
  set (q1 := (c / 64)%N) in *. set (q2 := (q1 / 64)%N) in *. set (q3 := (q2 / 64)%N) in *.
  clearbody x y z q1 q2 q3.
  assert (L : forall n, (n < 64)%N -> low6 (byte_of (128 + n)) = n).
  { intros n Hn. unfold low6. rewrite of_byte_of by lia.
    replace (128 + n)%N with (n + 2 * 64)%N by lia. rewrite N.mod_add by discriminate. apply N.mod_small, Hn. }
  destruct (N.ltb_spec c 0x80).
  { cbn [map app chars]. rewrite of_byte_of by lia. destruct (N.ltb_spec c 0x80); [reflexivity|lia]. }
  destruct (N.ltb_spec c 0x800).
  { cbn [map app chars]. rewrite of_byte_of by lia.
    destruct (N.ltb_spec (0xC0 + q1) 0x80); [lia|]. destruct (N.ltb_spec (0xC0 + q1) 0xE0); [|lia].
    rewrite L by lia. f_equal. lia. }
  destruct (N.ltb_spec c 0x10000).
  { cbn [map app chars]. rewrite of_byte_of by lia.
    destruct (N.ltb_spec (0xE0 + q2) 0x80); [lia|]. destruct (N.ltb_spec (0xE0 + q2) 0xE0); [lia|].
    destruct (N.ltb_spec (0xE0 + q2) 0xF0); [|lia].
    rewrite !L by lia. f_equal. lia. }
  cbn [map app chars]. rewrite of_byte_of by lia.
  destruct (N.ltb_spec (0xF0 + q3) 0x80); [lia|]. destruct (N.ltb_spec (0xF0 + q3) 0xE0); [lia|].
  destruct (N.ltb_spec (0xF0 + q3) 0xF0); [lia|].
  rewrite !L by lia. f_equal. lia.
Qed.
Lemma chars_str cs : Forall scalar cs -> chars (str cs) = cs.
Proof.
  induction 1 as [|c cs Hc H IH]; [reflexivity|]. cbn [str flat_map]. rewrite chars_encode by exact Hc.
  f_equal. exact IH.
Qed.

(** ** guess_delimiter *)
Lemma sort_head {A} (key : A -> nat) l d :
  hd_error (sort_by (fun a c => match key c ?= key a with Gt => true | _ => false end) l) = Some d ->
  exists pre post, l = pre ++ d :: post /\ Forall (fun x => key x < key d) pre /\ Forall (fun x => key x <= key d) post.
Proof.
  set (gt := fun a c => match key c ?= key a with Gt => true | _ => false end).
  assert (G : forall x y, gt x y = false <-> key y <= key x).
  { intros x y. unfold gt. destruct (Nat.compare_spec (key y) (key x)); split; intros; try lia; try congruence. }
  intro H.
  assert (S : srt gt (sort_by gt l)).
  { apply sort_sorted.
    - intros x y Hxy. apply G. destruct (Nat.le_ge_cases (key x) (key y)) as [L|L]; [exact L|].
      apply G in L. congruence.
    - intros x y z. rewrite !G. lia. }
  pose proof (sort_perm gt l) as Pm.
  destruct (sort_by gt l) as [|d' s] eqn:E; [discriminate|]. cbn in H. injection H as ->.
  inversion S as [|? ? S' F]; subst.
  assert (Mx : forall x, In x l -> key x <= key d).
  { intros x Hx. apply (Permutation_in _ Pm) in Hx. destruct Hx as [<-|Hx]; [lia|].
    rewrite Forall_forall in F. apply G, F, Hx. }
  assert (St := sort_stable gt (fun x => key x =? key d) l).
  rewrite E in St. cbn [filter] in St. rewrite Nat.eqb_refl in St.
  assert (K : forall l', (forall x, In x l' -> key x <= key d) ->
            d :: filter (fun x => key x =? key d) s = filter (fun x => key x =? key d) l' ->
            exists pre post, l' = pre ++ d :: post /\ Forall (fun x => key x < key d) pre /\ Forall (fun x => key x <= key d) post).
  { generalize (filter (fun x => key x =? key d) s). intros s0.
    induction l' as [|x l' IH]; intros Hm He; [discriminate|]. cbn [filter] in He.
    destruct (Nat.eqb_spec (key x) (key d)) as [Ex|Ex].
    - injection He as <- He. exists [], l'. repeat split; [constructor|].
      rewrite Forall_forall. intros y Hy. apply Hm. right; exact Hy.
    - destruct (IH (fun y Hy => Hm y (or_intror Hy)) He) as (pre & post & -> & F1 & F2).
      exists (x :: pre), post. repeat split; auto. constructor; [|exact F1].
      specialize (Hm x (or_introl eq_refl)). lia. }
  apply K; [exact Mx|]. apply St. intros y z Hy Hz.
  apply Nat.eqb_eq in Hy, Hz. apply G. lia.
Qed.

(** ** split and trim *)
Lemma split_on_nonempty d s : split_on d s <> [].
Proof. destruct s as [|c s]; cbn; [discriminate|]. destruct (c =? d)%N; [discriminate|]. destruct (split_on d s); discriminate. Qed.

Definition joined (d : N) (fs : list text) : text :=
  match fs with
  | [] => []
  | f :: r => f ++ flat_map (fun g => d :: g) r
  end.
Lemma joined_enum d fs :
  concat (map (fun p => match p with (O, f) => f | (_, f) => d :: f end) (enum_from 0 fs)) = joined d fs.
Proof.
  destruct fs as [|f r]; [reflexivity|]. cbn. f_equal.
  assert (H : forall k, concat (map (fun p : nat * text => match p with (O, f) => f | (_, f) => d :: f end) (enum_from (S k) r)) = flat_map (fun g => d :: g) r).
  { induction r as [|g r IH]; intro k; [reflexivity|]. cbn. rewrite IH. reflexivity. }
  apply H.
Qed.
Lemma split_on_joined d s : joined d (split_on d s) = s /\ Forall (fun f => ~ In d f) (split_on d s).
Proof.
  induction s as [|c s [IH F]]; [split; [reflexivity|repeat constructor; intros []]|].
  cbn [split_on]. destruct (N.eqb_spec c d) as [->|N].
  - split; [|constructor; [intros []|exact F]].
    cbn. destruct (split_on d s) as [|f r] eqn:E; [exfalso; eapply split_on_nonempty; exact E|].
    cbn in IH |- *. rewrite IH. reflexivity.
  - destruct (split_on d s) as [|f r] eqn:E; [exfalso; eapply split_on_nonempty; exact E|].
    cbn in IH |- *. rewrite IH. split; [reflexivity|]. inversion F; subst.
    constructor; [|assumption]. intros [->|H]; [congruence|auto].
Qed.
Lemma split_on_fields d s : fields_of d s (split_on d s).
Proof.
  destruct (split_on_joined d s) as [J F]. split; [apply split_on_nonempty|]. split; [exact F|].
  rewrite joined_enum. symmetry. exact J.
Qed.
Lemma joined_split d fs : fs <> [] -> Forall (fun f => ~ In d f) fs -> split_on d (joined d fs) = fs.
Proof.
  destruct fs as [|f r]; [congruence|]. intros _ F. cbn [joined].
  revert f F. induction r as [|g r IH]; intros f F.
  - cbn. rewrite app_nil_r. inversion F; subst. clear - H1. induction f as [|c f IHf]; [reflexivity|].
    cbn. destruct (N.eqb_spec c d); [exfalso; apply H1; left; assumption|].
    rewrite IHf; [reflexivity|]. intro; apply H1; right; assumption.
  - inversion F as [|? ? Nf F']; subst. cbn [flat_map]. clear F.
    assert (E : split_on d (f ++ d :: (g ++ flat_map (fun g => d :: g) r)) = f :: split_on d (g ++ flat_map (fun g => d :: g) r)).
    { clear - Nf. induction f as [|c f IHf]; cbn; [rewrite N.eqb_refl; reflexivity|].
      destruct (N.eqb_spec c d); [exfalso; apply Nf; left; assumption|].
      rewrite IHf; [reflexivity|]. intro; apply Nf; right; assumption. }
    cbn [app] in *. rewrite E. f_equal. apply IH, F'.
Qed.
Lemma fields_unique d s fs : fields_of d s fs -> split_on d s = fs.
Proof. intros (N & F & E). rewrite joined_enum in E. subst s. apply joined_split; assumption. Qed.

Fixpoint upto (k : nat) (lo : N) : list N := match k with O => [] | S k' => lo :: upto k' (lo + 1)%N end.
Lemma range_eqb k : forall lo c, existsb (N.eqb c) (upto k lo) = ((lo <=? c) && (c <? lo + N.of_nat k))%N.
Proof.
  induction k as [|k IH]; intros lo c; cbn [upto existsb].
  - destruct (N.leb_spec lo c), (N.ltb_spec c (lo + N.of_nat 0)); cbn; trivial; lia.
  - rewrite IH. destruct (N.eqb_spec c lo), (N.leb_spec lo c), (N.leb_spec (lo + 1) c), (N.ltb_spec c (lo + 1 + N.of_nat k)), (N.ltb_spec c (lo + N.of_nat (S k)));
      cbn; trivial; exfalso; lia.
Qed.
Lemma white_space_eq c : white_space c = is_whitespace c.
Proof.
  unfold white_space, is_whitespace.
  change (existsb (N.eqb c) (upto 5 9 ++ [0x20; 0x85; 0xA0; 0x1680]%N ++ upto 11 0x2000 ++ [0x2028; 0x2029; 0x202F; 0x205F; 0x3000]%N) =
    ((9 <=? c) && (c <=? 13) || (c =? 32) || (c =? 0x85) || (c =? 0xA0) || (c =? 0x1680)
     || ((0x2000 <=? c) && (c <=? 0x200A)) || (c =? 0x2028) || (c =? 0x2029) || (c =? 0x202F) || (c =? 0x205F) || (c =? 0x3000))%N).
  rewrite !existsb_app, !range_eqb. cbn [existsb]. rewrite !orb_false_r.
  replace (c <=? 13)%N with (c <? 9 + N.of_nat 5)%N by (destruct (N.leb_spec c 13), (N.ltb_spec c (9 + N.of_nat 5)); trivial; lia).
  replace (c <=? 0x200A)%N with (c <? 0x2000 + N.of_nat 11)%N by (destruct (N.leb_spec c 0x200A), (N.ltb_spec c (0x2000 + N.of_nat 11)); trivial; lia).
  rewrite !orb_assoc. reflexivity.
Qed.
Lemma digit_iff c : digit c <-> is_digit c = true.
Proof. unfold digit, is_digit. lia. Qed.
Lemma trim_start_spec s : exists pre, s = pre ++ trim_start s /\ Forall (fun c => white_space c = true) pre /\
  (forall c t', trim_start s = c :: t' -> white_space c = false).
Proof.
  induction s as [|c s (pre & E & F & H)].
  - exists []. repeat split; [constructor|discriminate].
  - cbn. rewrite <- white_space_eq. destruct (white_space c) eqn:W.
    + exists (c :: pre). rewrite E at 1. repeat split; auto.
    + exists []. repeat split; [constructor|]. intros c' t' [= <- _]. exact W.
Qed.
Lemma trim_stripped s : stripped s (trim s).
Proof.
  unfold trim. destruct (trim_start_spec s) as (pre & E & F & H).
  destruct (trim_start_spec (rev (trim_start s))) as (post & E2 & F2 & H2).
  set (m := trim_start (rev (trim_start s))) in *.
  assert (Em : trim_start s = rev m ++ rev post).
  { rewrite <- (rev_involutive (trim_start s)), E2, rev_app_distr. reflexivity. }
  exists pre, (rev post). split; [rewrite E at 1; rewrite Em; reflexivity|].
  split; [exact F|]. split; [apply Forall_rev, F2|]. split.
  - intros c t' Et. apply (H c (t' ++ rev post)). rewrite Em, Et. reflexivity.
  - intros c t' Et. apply (H2 c (rev t')).
    rewrite <- (rev_involutive m), Et, rev_app_distr. reflexivity.
Qed.
Lemma stripped_unique s t t' : stripped s t -> stripped s t' -> t = t'.
Proof.
  intros (p & q & E & Fp & Fq & A & B) (p' & q' & E' & Fp' & Fq' & A' & B').
  subst s.
  assert (Pre : forall p p' u u', p ++ u = p' ++ u' ->
     Forall (fun c => white_space c = true) p -> Forall (fun c => white_space c = true) p' ->
     (forall c t, u = c :: t -> white_space c = false) -> (forall c t, u' = c :: t -> white_space c = false) -> u = u').
  { clear. induction p as [|c p IH]; intros [|c' p'] u u' E F F' A A'; cbn in E.
    - exact E.
    - subst u. inversion F'; subst. rewrite (A c' _ eq_refl) in H1. discriminate.
    - subst u'. inversion F; subst. rewrite (A' c _ eq_refl) in H1. discriminate.
    - injection E as -> E. inversion F; inversion F'; subst. eapply IH; eauto. }
  assert (Emp : forall (t q : text), (forall c t0, t = c :: t0 -> white_space c = false) ->
      Forall (fun c => white_space c = true) q -> forall p2 t2 q2, t ++ q = p2 ++ t2 ++ q2 -> t = [] ->
      Forall (fun c => white_space c = true) t2).
  { clear. intros t q _ F p2 t2 q2 E ->. cbn in E. subst q. rewrite !Forall_app in F. tauto. }
  assert (EmpT : t = [] -> t' = []).
  { intros ->. cbn in E'. destruct t' as [|c t']; [reflexivity|].
    assert (Forall (fun c => white_space c = true) (p ++ q)) as W by (apply Forall_app; auto).
    rewrite E', !Forall_app in W. destruct W as (_ & W & _). inversion W; subst.
    rewrite (A' c t' eq_refl) in H1. discriminate. }
  assert (EmpT' : t' = [] -> t = []).
  { intros ->. cbn in E'. destruct t as [|c t]; [reflexivity|].
    assert (Forall (fun c => white_space c = true) (p' ++ q')) as W by (apply Forall_app; auto).
    rewrite <- E', !Forall_app in W. destruct W as (_ & W & _). inversion W; subst.
    rewrite (A c t eq_refl) in H1. discriminate. }
  destruct t as [|c t]; [symmetry; auto|]. destruct t' as [|c' t']; [exfalso; discriminate (EmpT' eq_refl)|].
  assert (E1 : (c :: t) ++ q = (c' :: t') ++ q').
  { eapply Pre; [exact E'|exact Fp|exact Fp'|..].
    - intros x y [= <- _]. exact (A c t eq_refl).
    - intros x y [= <- _]. exact (A' c' t' eq_refl). }
  apply (f_equal (@rev _)) in E1. rewrite !rev_app_distr in E1.
  assert (E2 : rev (c :: t) = rev (c' :: t')).
  { eapply Pre; [exact E1|apply Forall_rev; assumption|apply Forall_rev; assumption|..].
    - intros x y Hx. apply (B x (rev y)). rewrite <- (rev_involutive (c :: t)), Hx. reflexivity.
    - intros x y Hx. apply (B' x (rev y)). rewrite <- (rev_involutive (c' :: t')), Hx. reflexivity. }
  apply (f_equal (@rev _)) in E2. now rewrite !rev_involutive in E2.
Qed.

(** ** Numbers *)
Lemma digits_val_app s c : forall acc,
  digits_val acc (s ++ [c]) =
  match digits_val acc s with Some n => if is_digit c then Some (n * 10 + (c - 48))%N else None | None => None end.
Proof.
  induction s as [|x s IH]; intro acc; cbn; [destruct (is_digit c); reflexivity|].
  destruct (is_digit x); [apply IH|reflexivity].
Qed.
Lemma digits1_spec s n : digits1 s = Some n <-> numeral s n.
Proof.
  split.
  - revert n. induction s as [|c s IH] using rev_ind; [discriminate|]. intros n H.
    destruct s as [|x s].
    + cbn in H. destruct (is_digit c) eqn:D; [|discriminate]. injection H as <-.
      apply numeral_one, digit_iff, D.
    + change (digits_val 0 ((x :: s) ++ [c]) = Some n) in H. rewrite digits_val_app in H.
      change (digits_val 0 (x :: s)) with (digits1 (x :: s)) in H.
      destruct (digits1 (x :: s)) as [m|]; [|discriminate].
      destruct (is_digit c) eqn:D; [|discriminate]. injection H as <-.
      rewrite N.mul_comm. apply numeral_more; [auto|]. now apply digit_iff.
  - induction 1 as [c D|s n c Hs IH D]; apply digit_iff in D.
    + cbn. rewrite D. reflexivity.
    + assert (s <> []) by (destruct Hs; [discriminate|destruct s; discriminate]).
      unfold digits1 in *. destruct s as [|x s]; [congruence|]. cbn [app].
      change (x :: s ++ [c]) with ((x :: s) ++ [c]). rewrite digits_val_app, IH, D.
      f_equal. lia.
Qed.
Lemma numeral_head s n : numeral s n -> exists c t, s = c :: t /\ digit c.
Proof.
  induction 1 as [c D|s n c Hs (x & t & -> & Dx) D]; [eauto|]. exists x, (t ++ [c]). auto.
Qed.
Lemma numeral_det s n m : numeral s n -> numeral s m -> n = m.
Proof. rewrite <- !digits1_spec. congruence. Qed.

Lemma int_text_det s z z' : int_text s z -> int_text s z' -> z = z'.
Proof.
  intros (d & n & H & K) (d' & n' & H' & K').
  destruct (numeral_head _ _ H) as (c & t & -> & D). destruct (numeral_head _ _ H') as (c' & t' & -> & D').
  unfold digit in *.
  destruct K as [[-> ->]|[[-> ->]|[-> ->]]]; destruct K' as [[E1 ->]|[[E1 ->]|[E1 ->]]];
    injection E1; intros; subst; try lia; do 2 f_equal; eapply numeral_det; eauto.
Qed.

Lemma skip_plus_digit s n : numeral s n -> skip_plus s = s /\ is_minus s = false.
Proof.
  intro H. destruct (numeral_head _ _ H) as (c & t & -> & D). unfold digit in D. cbn.
  destruct (N.eqb_spec c 43); [lia|]. destruct (N.eqb_spec c 45); [lia|]. auto.
Qed.
Lemma skip_plus_cases s : skip_plus s = s \/ s = 43%N :: skip_plus s.
Proof. destruct s as [|c s]; [left; reflexivity|]. cbn. destruct (N.eqb_spec c 43); subst; auto. Qed.
Lemma is_minus_true s : is_minus s = true -> s = 45%N :: tl s.
Proof. destruct s as [|c s]; [discriminate|]. cbn. intro H. apply N.eqb_eq in H. subst. reflexivity. Qed.

Lemma parse_i64_spec s z : parse_i64 s = Some z <-> int_text s z /\ (- 2 ^ 63 <= z < 2 ^ 63)%Z.
Proof.
  unfold parse_i64. split.
  - destruct (is_minus s) eqn:M.
    + apply is_minus_true in M. destruct (digits1 (tl s)) as [n|] eqn:E; [|discriminate].
      apply digits1_spec in E. destruct (N.leb_spec n (2 ^ 63)); [|discriminate]. intros [= <-].
      split; [|lia]. exists (tl s), n. auto.
    + destruct (digits1 (skip_plus s)) as [n|] eqn:E; [|discriminate].
      apply digits1_spec in E. destruct (N.ltb_spec n (2 ^ 63)); [|discriminate]. intros [= <-].
      split; [|lia]. exists (skip_plus s), n. split; [exact E|].
      destruct (skip_plus_cases s) as [K|K]; [left; auto|right; left; auto].
  - intros [(d & n & H & K) R].
    assert (E : digits1 d = Some n) by (apply digits1_spec, H).
    destruct (skip_plus_digit _ _ H) as [S M].
    destruct K as [[-> ->]|[[-> ->]|[-> ->]]].
    + rewrite M, S, E. destruct (N.ltb_spec n (2 ^ 63)); [reflexivity|lia].
    + cbn [is_minus]. change (43 =? 45)%N with false. cbn [skip_plus]. rewrite N.eqb_refl, E.
      destruct (N.ltb_spec n (2 ^ 63)); [reflexivity|lia].
    + cbn [is_minus tl]. rewrite N.eqb_refl, E. destruct (N.leb_spec n (2 ^ 63)); [reflexivity|lia].
Qed.
Lemma parse_u64_spec s n : parse_u64 s = Some n <->
  (n < 2 ^ 64)%N /\ (numeral s n \/ exists t, s = 43%N :: t /\ numeral t n).
Proof.
  unfold parse_u64. split.
  - destruct (digits1 (skip_plus s)) as [m|] eqn:E; [|discriminate].
    destruct (N.ltb_spec m (2 ^ 64)); [|discriminate]. intros [= <-]. split; [assumption|].
    apply digits1_spec in E. destruct (skip_plus_cases s) as [K|K]; [left; rewrite <- K; exact E|right; eauto].
  - intros [L [H|(t & -> & H)]].
    + destruct (skip_plus_digit _ _ H) as [S _]. apply digits1_spec in H. rewrite S, H.
      destruct (N.ltb_spec n (2 ^ 64)); [reflexivity|lia].
    + apply digits1_spec in H. cbn [skip_plus]. rewrite N.eqb_refl, H.
      destruct (N.ltb_spec n (2 ^ 64)); [reflexivity|lia].
Qed.

(** ** Guessing *)
Lemma i64_dec s : (exists z, parse_i64 s = Some z /\ i64_text s) \/ (parse_i64 s = None /\ ~ i64_text s).
Proof.
  destruct (parse_i64 s) as [z|] eqn:E.
  - left. exists z. split; [reflexivity|]. exists z. apply parse_i64_spec, E.
  - right. split; [reflexivity|]. intros [z H]. apply parse_i64_spec in H. congruence.
Qed.
Lemma guess_type_looks f s : looks_like f s (guess_type f (trim s)).
Proof.
  exists (trim s). split; [apply trim_stripped|]. unfold guess_type.
  destruct (i64_dec (trim s)) as [(z & -> & H)|[-> H]]; [left; auto|right].
  destruct (f (trim s)) eqn:E; [left|right]; auto.
Qed.
Lemma looks_like_det f s t t' : looks_like f s t -> looks_like f s t' -> t = t'.
Proof.
  intros (u & S & H) (u' & S' & H'). rewrite (stripped_unique _ _ _ S S') in *.
  destruct H as [[A ->]|[(A & B & ->)|(A & B & ->)]], H' as [[A' ->]|[(A' & B' & ->)|(A' & B' & ->)]];
    congruence || tauto.
Qed.
Lemma ftype_eqb_eq x y : ftype_eqb x y = true <-> x = y.
Proof. destruct x, y; cbn; split; congruence. Qed.
Lemma list_eqb_ftype x y : list_eqb ftype_eqb x y = true <-> x = y.
Proof.
  revert y. induction x as [|a x IH]; intros [|c y]; cbn; try (split; congruence).
  rewrite andb_true_iff, ftype_eqb_eq, IH. split; [intros [-> ->]; reflexivity|intros [= -> ->]; auto].
Qed.
Lemma line_types_spec f cs d ts : Forall scalar cs ->
  line_types f (str cs) d = ts <-> exists fs, fields_of (of_byte d) cs fs /\ Forall2 (looks_like f) fs ts.
Proof.
  intro H. unfold line_types. rewrite chars_str by exact H. split.
  - intros <-. exists (split_on (of_byte d) cs). split; [apply split_on_fields|].
    induction (split_on (of_byte d) cs); cbn; constructor; auto. apply guess_type_looks.
  - intros (fs & Hf & F). rewrite (fields_unique _ _ _ Hf). clear - F. induction F; cbn; [reflexivity|].
    f_equal; [|assumption]. eapply looks_like_det; [apply guess_type_looks|exact H].
Qed.

(** ** guess_common_type *)
Lemma upconvert_cases t : (non_numeric t /\ type_upconvert t = TString) \/
  (floating t /\ type_upconvert t = TDouble) \/ (~ non_numeric t /\ ~ floating t /\ type_upconvert t = TLong).
Proof. unfold non_numeric, floating. destruct t; cbn; intuition discriminate. Qed.
Lemma common_loop_spec l : forall g, g = TLong \/ g = TDouble ->
  (Exists non_numeric l /\ common_loop l g = TString) \/
  (~ Exists non_numeric l /\ (Exists floating l \/ g = TDouble) /\ common_loop l g = TDouble) \/
  (~ Exists non_numeric l /\ ~ Exists floating l /\ g = TLong /\ common_loop l g = TLong).
Proof.
  induction l as [|t l IH]; intros g Hg; cbn [common_loop].
  - assert (forall P : ftype -> Prop, ~ Exists P []) by (intros P H; inversion H).
    destruct Hg as [->| ->]; [right; right|right; left]; auto.
  - assert (ftype_eqb g TString = false) as -> by (destruct Hg as [->| ->]; reflexivity).
    destruct (upconvert_cases t) as [[N ->]|[[Fl ->]|(N & Fl & ->)]].
    + left. auto.
    + assert (~ non_numeric t) by (unfold non_numeric, floating in *; destruct Fl as [->| ->]; intuition discriminate).
      destruct (IH TDouble (or_intror eq_refl)) as [[A B]|[(A & B & C)|(_ & _ & D & _)]]; [left; auto| |discriminate].
      right; left. split; [rewrite Exists_cons; tauto|]. auto.
    + destruct (IH g Hg) as [[A B]|[(A & B & C)|(A & B & C & D)]].
      * left; auto.
      * right; left. rewrite !Exists_cons. tauto.
      * right; right. rewrite !Exists_cons. tauto.
Qed.
Lemma guess_common_spec l :
  ((l = [] \/ Exists non_numeric l) /\ guess_common_type l = TString) \/
  (l <> [] /\ ~ Exists non_numeric l /\ Exists floating l /\ guess_common_type l = TDouble) \/
  (l <> [] /\ ~ Exists non_numeric l /\ ~ Exists floating l /\ guess_common_type l = TLong).
Proof.
  destruct l as [|t l]; [left; auto|]. cbn [guess_common_type].
  destruct (upconvert_cases t) as [[N ->]|[[Fl ->]|(N & Fl & ->)]].
  - left. split; [right; left; exact N|]. reflexivity.
  - destruct (common_loop_spec (t :: l) TDouble (or_intror eq_refl)) as [[A B]|[(A & B & C)|(_ & _ & D & _)]]; [| |discriminate].
    + left. auto.
    + right; left. repeat split; auto. discriminate.
  - destruct (common_loop_spec (t :: l) TLong (or_introl eq_refl)) as [[A B]|[(A & [B|B] & C)|(A & B & C & D)]]; [| |discriminate|].
    + left. auto.
    + right; left. repeat split; auto. discriminate.
    + right; right. repeat split; auto. discriminate.
Qed.
