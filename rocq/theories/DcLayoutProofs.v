From Verif Require Export DcLayout DcProofs.
From Verif Require Import DriverSpec.

(** ** Numbers *)
Lemma number_app x y : number (x ++ y) = (number x * 256 ^ N.of_nat (length y) + number y)%N.
Proof.
  induction x as [|c x IH]; [reflexivity|]. cbn [app number]. rewrite IH, app_length, Nat2N.inj_add, N.pow_add_r. lia.
Qed.
Lemma number_of_be bs : number bs = of_be bs.
Proof.
  unfold of_be. rewrite <- (rev_involutive bs) at 1. induction (rev bs) as [|c t IH]; [reflexivity|].
  cbn [rev of_le]. rewrite number_app, IH. cbn [number length]. lia.
Qed.
Lemma number_lt bs : (number bs < 256 ^ N.of_nat (length bs))%N.
Proof. rewrite number_of_be. apply of_be_lt. Qed.

(** A reader that reads exactly the encodings of [L]: it reads every one of them, and what it
    reads is one.  [small] excludes streams of 4 GiB, where a negative short length would be
    taken for a real one. *)
Definition small (s : stream) : Prop := (N.of_nat (length (s_data s)) < 2 ^ 32 - 2 ^ 15)%N.
Definition exact {A} (p : rd A) (L : A -> bytes -> Prop) : Prop :=
  (forall x bs, L x bs -> reads p bs x) /\
  (forall s x s', small s -> p s = Ok (x, s') -> exists bs, L x bs /\ s_data s = bs ++ s_data s' /\ s_tail s' = s_tail s).

Lemma small_after s s' bs : small s -> s_data s = bs ++ s_data s' -> small s'.
Proof. unfold small. intros H E. rewrite E, app_length in H. lia. Qed.
Lemma exact_bind {A B} (p : rd A) (q : A -> rd B) (L : A -> bytes -> Prop) (M : A -> B -> bytes -> Prop) :
  exact p L -> (forall x, exact (q x) (M x)) ->
  exact (rbind p q) (fun y bs => exists x b1 b2, L x b1 /\ M x y b2 /\ bs = b1 ++ b2).
Proof.
  intros [P1 P2] Q. split.
  - intros y bs (x & b1 & b2 & H1 & H2 & ->). apply (reads_bind p q b1 b2 x y); [apply P1; exact H1|apply (proj1 (Q x)); exact H2].
  - intros s y s' Hs. unfold rbind. destruct (p s) as [[x s1]| | | |] eqn:E; cbn [bind]; try discriminate. intro H.
    destruct (P2 _ _ _ Hs E) as (b1 & L1 & E1 & T1).
    destruct (Q x) as [_ Q2]. destruct (Q2 _ _ _ (small_after _ _ _ Hs E1) H) as (b2 & L2 & E2 & T2).
    exists (b1 ++ b2). split; [eauto 8|]. split; [now rewrite E1, E2, app_assoc|congruence].
Qed.
Lemma exact_bind_in {A B} (p : rd A) (q : A -> rd B) (L : A -> bytes -> Prop) (M : A -> B -> bytes -> Prop) :
  exact p L -> (forall x b1, L x b1 -> exact (q x) (M x)) ->
  exact (rbind p q) (fun y bs => exists x b1 b2, L x b1 /\ M x y b2 /\ bs = b1 ++ b2).
Proof.
  intros [P1 P2] Q. split.
  - intros y bs (x & b1 & b2 & H1 & H2 & ->). apply (reads_bind p q b1 b2 x y); [apply P1; exact H1|apply (proj1 (Q x b1 H1)); exact H2].
  - intros s y s' Hs. unfold rbind. destruct (p s) as [[x s1]| | | |] eqn:E; cbn [bind]; try discriminate. intro H.
    destruct (P2 _ _ _ Hs E) as (b1 & L1 & E1 & T1).
    destruct (Q x b1 L1) as [_ Q2]. destruct (Q2 _ _ _ (small_after _ _ _ Hs E1) H) as (b2 & L2 & E2 & T2).
    exists (b1 ++ b2). split; [eauto 8|]. split; [now rewrite E1, E2, app_assoc|congruence].
Qed.
Lemma exact_eq {A} (p : rd A) (L M : A -> bytes -> Prop) : exact p L -> (forall x bs, L x bs <-> M x bs) -> exact p M.
Proof.
  intros [P1 P2] H. split.
  - intros x bs HM. apply P1, H, HM.
  - intros s x s' Hs E. destruct (P2 _ _ _ Hs E) as (bs & HL & R). exists bs. split; [apply H, HL|exact R].
Qed.
Lemma exact_lift {A} (r : res A) : exact (lift r) (fun x bs => r = Ok x /\ bs = []).
Proof.
  split.
  - intros x bs [-> ->]. now apply reads_lift.
  - intros s x s' _ H. unfold lift in H. destruct r; try discriminate. cbn in H. injection H as <- <-. exists []. auto.
Qed.
Lemma exact_ret {A} (x : A) : exact (ret x) (fun y bs => y = x /\ bs = []).
Proof.
  split.
  - intros y bs [-> ->]. apply reads_ret.
  - intros s y s' _ H. injection H as <- <-. exists []. auto.
Qed.
Lemma exact_take n : exact (take_exact n) (fun x bs => x = bs /\ N.of_nat (length bs) = n).
Proof.
  split.
  - intros x bs [-> L]. now apply reads_take.
  - intros s x s' _ H. destruct (take_length _ _ _ _ H) as (L & E & T). exists x. auto.
Qed.
Lemma exact_map {A B} (p : rd A) (f : A -> B) (L : A -> bytes -> Prop) : exact p L ->
  exact (let! x := p in ret (f x)) (fun y bs => exists x, y = f x /\ L x bs).
Proof.
  intro H. eapply exact_eq; [apply exact_bind; [exact H|intro; apply exact_ret]|].
  intros y bs. cbn beta. split.
  - intros (x & b1 & b2 & HL & (-> & ->) & ->). rewrite app_nil_r. eauto.
  - intros (x & -> & HL). exists x, bs, []. rewrite app_nil_r. auto.
Qed.
Lemma exact_be n k : n = N.of_nat k -> exact (read_be n) (unsigned k).
Proof.
  intros ->. eapply exact_eq; [apply exact_map, exact_take|]. intros x bs. cbn beta. unfold unsigned. rewrite number_of_be. split.
  - intros (y & -> & -> & E). split; [lia|reflexivity].
  - intros [L <-]. exists bs. split; [reflexivity|]. split; [reflexivity|]. now rewrite L.
Qed.

Lemma signed_of k x bs : 1 <= k ->
  (signed k x bs <-> exists n, unsigned k n bs /\ x = to_signed (N.of_nat (8 * k)) n).
Proof.
  intro Hk. unfold signed, unsigned, to_signed.
  assert (E : forall n, (n < 2 ^ (N.of_nat (8 * k) - 1))%N <-> (Z.of_N n < 2 ^ Z.of_nat (8 * k - 1))%Z).
  { intro n. rewrite N2Z.inj_lt, N2Z.inj_pow. replace (Z.of_N (N.of_nat (8 * k) - 1)) with (Z.of_nat (8 * k - 1)) by lia. reflexivity. }
  assert (E2 : (2 ^ Z.of_N (N.of_nat (8 * k)) = 2 * 2 ^ Z.of_nat (8 * k - 1))%Z).
  { rewrite <- Z.pow_succ_r by lia. f_equal. lia. }
  split.
  - intros [L H]. exists (number bs). split; [auto|].
    destruct (N.ltb_spec (number bs) (2 ^ (N.of_nat (8 * k) - 1))) as [C|C].
    + apply E in C. lia.
    + assert (~ (Z.of_N (number bs) < 2 ^ Z.of_nat (8 * k - 1))%Z) by (rewrite <- E; lia). lia.
  - intros (n & [L <-] & ->). split; [exact L|]. cbv zeta.
    destruct (N.ltb_spec (number bs) (2 ^ (N.of_nat (8 * k) - 1))) as [C|C].
    + apply E in C. lia.
    + assert (~ (Z.of_N (number bs) < 2 ^ Z.of_nat (8 * k - 1))%Z) by (rewrite <- E; lia). lia.
Qed.

(** ** Strings *)
Lemma utf8_unwrap_is s x : utf8_unwrap s = Ok x <-> utf8 s = true /\ x = s.
Proof. unfold utf8_unwrap. destruct (utf8 s); split; [intros [= <-]; auto|intros [_ ->]; reflexivity|discriminate|intros []; discriminate]. Qed.
Lemma exact_sized : exact get_sized_string sized.
Proof.
  unfold get_sized_string. eapply exact_eq.
  { apply exact_bind; [apply (exact_be 4 4 eq_refl)|]. intro n. apply exact_bind; [apply exact_take|]. intro. apply exact_lift. }
  intros x bs. cbn beta. unfold sized. split.
  - intros (n & l & b2 & Hl & (y & b1 & b3 & (-> & Ln) & (U & ->) & ->) & ->). apply utf8_unwrap_is in U as [U ->].
    split; [exact U|]. exists l. rewrite app_nil_r, Ln. auto.
  - intros (U & l & Hl & ->). exists (N.of_nat (length x)), l, x. split; [exact Hl|]. split; [|reflexivity].
    exists x, x, []. rewrite app_nil_r. split; [auto|]. split; [|reflexivity]. split; [now apply utf8_unwrap_is|reflexivity].
Qed.

(** ** Descriptors *)
Lemma type_of_string_is s t : type_of_string s = Some t <-> descriptor_of t s.
Proof.
  split.
  - unfold type_of_string. intro H. apply find_some in H as [Hi He]. apply bytes_eqb_eq in He. subst s.
    unfold descriptor_of. destruct t; cbn; tauto.
  - unfold descriptor_of. intro H. repeat destruct H as [H|H]; injection H as -> ->; reflexivity.
Qed.
Lemma exact_hint : exact (let! hint := read_be 4 in if ((-1 <=? to_signed 32 hint) && (to_signed 32 hint <=? 6))%Z then ret tt else lift (Err (ECustom "unexpected display hint value")))
  (fun _ bs => exists x, signed 4 x bs /\ (-1 <= x <= 6)%Z).
Proof.
  eapply exact_eq.
  { apply exact_bind; [apply (exact_be 4 4 eq_refl)|].
    intro n. instantiate (1 := fun n _ bs => (-1 <= to_signed 32 n <= 6)%Z /\ bs = []). cbn beta.
    destruct ((-1 <=? to_signed 32 n) && (to_signed 32 n <=? 6))%Z eqn:E.
    - apply andb_true_iff in E as [E1 E2]. apply Z.leb_le in E1, E2. eapply exact_eq; [apply exact_ret|].
      intros [] bs. tauto.
    - eapply exact_eq; [apply exact_lift|]. intros [] bs. apply andb_false_iff in E. rewrite !Z.leb_gt in E. cbn beta. split; [intros []; discriminate|lia]. }
  intros [] bs. cbn beta. split.
  - intros (n & b1 & b2 & Hn & (Hx & ->) & ->). rewrite app_nil_r. exists (to_signed 32 n). split; [|exact Hx].
    apply signed_of; [lia|]. eauto.
  - intros (x & Hx & Hr). apply signed_of in Hx as (n & Hn & ->); [|lia]. exists n, bs, []. rewrite app_nil_r. auto.
Qed.
Definition descriptor_layout (x : bytes * bytes) (bs : bytes) : Prop :=
  exists n dn hint v, sized (fst x) n /\ sized (snd x) dn /\ signed 4 v hint /\ (-1 <= v <= 6)%Z /\ bs = n ++ dn ++ hint.
Lemma exact_descriptor : exact read_descriptor descriptor_layout.
Proof.
  unfold read_descriptor. eapply exact_eq.
  { apply exact_bind; [apply exact_sized|]. intro name. apply exact_bind; [apply exact_sized|]. intro ty.
    instantiate (1 := fun ty x bs => x = (name, ty) /\ exists v, signed 4 v bs /\ (-1 <= v <= 6)%Z). cbn beta.
    destruct exact_hint as [H1 H2]. split.
    - intros x bs (-> & H). specialize (H1 tt bs H). intros t tl. specialize (H1 t tl). unfold rbind in *.
      destruct (read_be 4 _) as [[n s1]| | | |]; try discriminate H1. cbn [bind] in *.
      destruct ((-1 <=? to_signed 32 n) && (to_signed 32 n <=? 6))%Z; [|discriminate H1]. unfold ret in *. injection H1 as <-. reflexivity.
    - intros s x s' Hs H. specialize (H2 s tt s' Hs). unfold rbind in *.
      destruct (read_be 4 s) as [[n s1]| | | |]; try discriminate H. cbn [bind] in *.
      destruct ((-1 <=? to_signed 32 n) && (to_signed 32 n <=? 6))%Z; [|discriminate H]. unfold ret in *. injection H as <- <-.
      destruct (H2 eq_refl) as (bs & Hb & R). exists bs. auto. }
  intros x bs. cbn beta. unfold descriptor_layout. split.
  - intros (name & n & b2 & Hn & (ty & dn & hint & Hd & (-> & v & Hv & Hr) & ->) & ->). exists n, dn, hint, v. auto.
  - intros (n & dn & hint & v & Hn & Hd & Hv & Hr & ->). exists (fst x), n, (dn ++ hint). split; [exact Hn|]. split; [|reflexivity].
    exists (snd x), dn, hint. split; [exact Hd|]. split; [|reflexivity]. split; [now destruct x|]. eauto.
Qed.
Lemma exact_descriptors count : forall i, exact (read_descriptors count i)
  (fun x bs => exists names, fst x = default_names i names /\ length (snd x) = count /\ dc_columns names (snd x) bs).
Proof.
  induction count as [|count IH]; intro i; cbn [read_descriptors].
  - eapply exact_eq; [apply exact_ret|]. intros x bs. cbn beta. split.
    + intros [-> ->]. exists []. repeat split. constructor.
    + intros (names & E & L & C). destruct x as [ns ty]. cbn [fst snd] in *. destruct ty; [|discriminate].
      inversion C; subst. split; reflexivity.
  - eapply exact_eq.
    { apply exact_bind; [apply exact_descriptor|]. intros [name ty].
      instantiate (1 := fun d x bs => exists t names, descriptor_of t (snd d) /\ fst x = default_names i (fst d :: names) /\
        length (snd x) = S count /\ exists types, snd x = t :: types /\ dc_columns names types bs). cbn beta.
      eapply exact_eq.
      { apply exact_bind; [apply exact_lift|]. intro t. apply exact_bind; [apply (IH (S i))|]. intro p.
        instantiate (1 := fun p y bs => y = (match name with [] => b "col_" ++ dec (N.of_nat i) | _ => name end :: fst p, t :: snd p) /\ bs = []).
        destruct p as [ns tys]. apply exact_ret. }
      intros x bs. cbn beta. cbn [fst snd]. split.
      - intros (t & b1 & b2 & (Et & ->) & ((ns & tys) & b3 & b4 & (names & En & L & C) & (-> & ->) & ->) & ->).
        cbn [fst snd app] in *. rewrite app_nil_r. exists t, names.
        split; [apply type_of_string_is; destruct (type_of_string ty); [cbn in Et; congruence|discriminate]|].
        split; [cbn [default_names]; now rewrite En|]. split; [cbn; lia|]. eauto.
      - intros (t & names & Hd & En & L & types & Et & C). exists t, [], bs. split.
        { apply type_of_string_is in Hd. rewrite Hd. auto. }
        split; [|reflexivity]. exists (default_names (S i) names, types), bs, []. rewrite app_nil_r. split.
        { exists names. cbn [fst snd]. rewrite Et in L. cbn in L. split; [reflexivity|]. split; [lia|exact C]. }
        split; [|reflexivity]. split; [|reflexivity]. destruct x as [xn xt]. cbn [fst snd default_names] in *. subst. reflexivity. }
    intros x bs. cbn beta. split.
    + intros (d & b1 & b2 & (n & dn & hint & v & H1 & H2 & H3 & H4 & ->) & (t & names & Hd & En & L & types & Et & C) & ->).
      exists (fst d :: names). split; [exact En|]. split; [exact L|]. rewrite Et. constructor; [|exact C].
      exists n, (snd d), dn, hint, v. auto 10.
    + intros (names & En & L & C). destruct (snd x) as [|t types] eqn:Ex; [discriminate|].
      inversion C as [|name t' b1 names' types' b2 (n & d & dn & hint & v & H1 & H2 & H3 & H4 & H5 & ->) C']; subst.
      exists (name, d), (n ++ dn ++ hint), b2. split; [exists n, dn, hint, v; auto|]. split; [|reflexivity].
      exists t, names'. split; [exact H2|]. split; [exact En|]. split; [exact L|]. exists types. split; [reflexivity|exact C'].
Qed.

Lemma exact_open : exact open_rd (fun x bs => exists names, h_names (fst x) = default_names 0 names /\
  get_bitset_bytes (length (h_types (fst x))) = Ok (snd x) /\ header_layout names (h_types (fst x)) bs).
Proof.
  unfold open_rd. eapply exact_eq.
  { apply exact_bind; [apply (exact_be 8 8 eq_refl)|]. intro magic. apply exact_bind; [apply exact_lift|]. intro u1.
    apply exact_bind; [apply (exact_be 2 2 eq_refl)|]. intro version. apply exact_bind; [apply exact_lift|]. intro u2.
    apply exact_bind; [apply (exact_be 4 4 eq_refl)|]. intro user. apply exact_bind; [apply exact_take|]. intro ud.
    apply exact_bind; [apply (exact_be 4 4 eq_refl)|]. intro count. apply exact_bind; [apply exact_lift|]. intro n.
    apply exact_bind; [apply exact_descriptors|]. intro p.
    instantiate (1 := fun p y bs => y = ({| h_names := fst p; h_types := snd p |}, n) /\ bs = []). destruct p as [names types]. apply exact_ret. }
  intros x bs. cbn beta. split.
  - intros (magic & bm & z1 & Hm & (u1 & z2 & z3 & (E1 & ->) & (ver & bv & z4 & Hv & (u2 & z5 & z6 & (E2 & ->) &
      (ul & bu & z7 & Hu & (ud & z8 & z9 & (-> & Lu) & (count & bc & z10 & Hc & (n & z11 & z12 & (En & ->) &
      ((ns & tys) & bd & z13 & (names & Hn & Lt & C) & (-> & ->) & ->) & ->) & ->) & ->) & ->) & ->) & ->) & ->) & ->).
    cbn [fst snd h_names h_types app] in *. exists names. split; [exact Hn|]. rewrite Lt. split; [exact En|].
    destruct (N.eqb_spec magic MAGIC_NUM) as [->|]; [|discriminate E1].
    destruct (N.eqb_spec ver VERSION) as [->|]; [|discriminate E2].
    exists bm, bv, bu, z8, bc, bd. split; [exact Hm|]. split; [exact Hv|]. rewrite Lu. split; [exact Hu|].
    rewrite Lt, N2Nat.id. split; [exact Hc|]. split; [|split; [exact C|]].
    + intros ->. rewrite <- Lt in En. cbn in En. discriminate.
    + now rewrite app_nil_r.
  - intros (names & Hn & En & (bm & bv & bu & ud & bc & bd & Hm & Hv & Hu & Hc & Hne & C & ->)).
    destruct x as [[ns tys] n]. cbn [fst snd h_names h_types] in *.
    exists MAGIC_NUM, bm, (bv ++ bu ++ ud ++ bc ++ bd). split; [exact Hm|]. split; [|reflexivity].
    exists tt, [], (bv ++ bu ++ ud ++ bc ++ bd). split; [split; reflexivity|]. split; [|reflexivity].
    exists VERSION, bv, (bu ++ ud ++ bc ++ bd). split; [exact Hv|]. split; [|reflexivity].
    exists tt, [], (bu ++ ud ++ bc ++ bd). split; [split; reflexivity|]. split; [|reflexivity].
    exists (N.of_nat (length ud)), bu, (ud ++ bc ++ bd). split; [exact Hu|]. split; [|reflexivity].
    exists ud, ud, (bc ++ bd). split; [auto|]. split; [|reflexivity].
    exists (N.of_nat (length tys)), bc, bd. split; [exact Hc|]. split; [|reflexivity].
    exists n, [], bd. rewrite Nat2N.id. split; [auto|]. split; [|reflexivity].
    exists (ns, tys), bd, []. rewrite app_nil_r. split; [|split; [split; reflexivity|reflexivity]].
    exists names. auto.
Qed.

(** ** Values *)
Lemma exact_signed n k w : n = N.of_nat k -> w = N.of_nat (8 * k) -> 1 <= k ->
  exact (let! x := read_be n in ret (to_signed w x)) (fun x bs => signed k x bs).
Proof.
  intros -> -> Hk. eapply exact_eq; [apply exact_map, (exact_be _ _ eq_refl)|]. intros x bs. cbn beta.
  rewrite signed_of by exact Hk. split; intros (n & A & B); exists n; auto.
Qed.
Lemma string_short n : (n < 2 ^ 16)%N -> to_signed 16 n <> (-1)%Z ->
  (to_unsigned 32 (to_signed 16 n) < 2 ^ 32 - 2 ^ 15)%N ->
  to_signed 16 n = Z.of_N (to_unsigned 32 (to_signed 16 n)).
Proof.
  unfold to_signed, to_unsigned. change (2 ^ (16 - 1))%N with 32768%N. change (2 ^ Z.of_N 16)%Z with 65536%Z.
  change (2 ^ Z.of_N 32)%Z with 4294967296%Z. intros H1 H2 H3.
  change (2 ^ 16)%N with 65536%N in *. change (2 ^ 32 - 2 ^ 15)%N with 4294934528%N in *.
  destruct (N.ltb_spec n 32768); [rewrite Z.mod_small by lia; lia|].
  exfalso. pose proof (Z.mod_unique (Z.of_N n - 65536) 4294967296 (-1) (Z.of_N n - 65536 + 4294967296)) as U.
  rewrite <- U in H3 by lia. lia.
Qed.
Lemma exact_string : exact read_string string_value.
Proof.
  split.
  - intros s bs [U [(l & Hl & ->)|(m & l & Hm & Hl & ->)]].
    + apply signed_of in Hl as (n & Hn & En); [|lia]. change (N.of_nat (8 * 2)) with 16%N in En.
      unfold read_string. eapply reads_bind; [apply (proj1 (exact_be 2 2 eq_refl)); exact Hn|].
      destruct (Z.eqb_spec (to_signed 16 n) (-1)%Z) as [X|X]; [lia|].
      eapply reads_bind0; [apply reads_ret|].
      eapply reads_bind1; [apply reads_take|apply reads_lift; now apply utf8_unwrap_is].
      rewrite <- En. unfold to_unsigned. change (2 ^ Z.of_N 32)%Z with 4294967296%Z.
      assert (N.of_nat (length s) < 65536)%N. { destruct Hn as [Ln <-]. pose proof (number_lt l) as B. rewrite Ln in B. change (256 ^ N.of_nat 2)%N with 65536%N in B.
        unfold to_signed in En. change (2 ^ Z.of_N 16)%Z with 65536%Z in En. destruct (_ <? _)%N; lia. }
      rewrite Z.mod_small by lia. lia.
    + apply signed_of in Hm as (n & Hn & En); [|lia]. change (N.of_nat (8 * 2)) with 16%N in En.
      unfold read_string. eapply reads_bind; [apply (proj1 (exact_be 2 2 eq_refl)); exact Hn|].
      rewrite <- En. cbn [Z.eqb Pos.eqb].
      eapply reads_bind; [apply (proj1 (exact_be 4 4 eq_refl)); exact Hl|].
      eapply reads_bind1; [apply reads_take; reflexivity|apply reads_lift; now apply utf8_unwrap_is].
  - intros s x s' Hs. unfold read_string. unfold rbind at 1.
    destruct (read_be 2 s) as [[n s1]| | | |] eqn:E1; try discriminate. cbn [bind].
    destruct (proj2 (exact_be 2 2 eq_refl) _ _ _ Hs E1) as (b1 & Hn & D1 & T1). pose proof (small_after _ _ _ Hs D1) as Hs1.
    destruct (Z.eqb_spec (to_signed 16 n) (-1)%Z) as [X|X].
    + unfold rbind at 1. destruct (read_be 4 s1) as [[z s2]| | | |] eqn:E2; try discriminate. cbn [bind].
      destruct (proj2 (exact_be 4 4 eq_refl) _ _ _ Hs1 E2) as (b2 & Hz & D2 & T2).
      unfold rbind. destruct (take_exact z s2) as [[y s3]| | | |] eqn:E3; try discriminate. cbn [bind].
      destruct (take_length _ _ _ _ E3) as (L & D3 & T3). unfold lift. destruct (utf8_unwrap y) eqn:U; try discriminate. cbn [bind].
      intros [= <- <-]. apply utf8_unwrap_is in U as [U ->]. exists (b1 ++ b2 ++ y).
      split; [|split; [rewrite D1, D2, D3, <- !app_assoc; reflexivity|congruence]]. split; [exact U|]. right.
      exists b1, b2. split; [apply signed_of; [lia|]; exists n; change (N.of_nat (8 * 2)) with 16%N; auto|]. rewrite L. auto.
    + unfold rbind, ret. cbn [bind]. destruct (take_exact _ s1) as [[y s3]| | | |] eqn:E3; try discriminate. cbn [bind].
      destruct (take_length _ _ _ _ E3) as (L & D3 & T3). unfold lift. destruct (utf8_unwrap y) eqn:U; try discriminate. cbn [bind].
      intros [= <- <-]. apply utf8_unwrap_is in U as [U ->]. exists (b1 ++ y).
      split; [|split; [rewrite D1, D3, <- !app_assoc; reflexivity|congruence]]. split; [exact U|]. left.
      exists b1. split; [|reflexivity]. apply signed_of; [lia|]. exists n. change (N.of_nat (8 * 2)) with 16%N. split; [exact Hn|].
      rewrite (string_short n); [lia| |exact X|].
      * destruct Hn as [Ln <-]. pose proof (number_lt b1) as B. now rewrite Ln in B.
      * unfold small in Hs1. rewrite D3, app_length in Hs1. lia.
Qed.
Lemma exact_value t : exact (read_value t) (fun v bs => value t v bs).
Proof.
  destruct t; cbn [read_value].
  1,3: (eapply exact_eq; [apply exact_lift|]; intros v bs; cbn; split; [intros []; discriminate|destruct v; tauto]).
  all: eapply exact_eq; [first [apply exact_map, exact_string|apply exact_map, (exact_be 1 1 eq_refl)|apply exact_map, (exact_be 2 2 eq_refl)|apply exact_map, (exact_be 4 4 eq_refl)|apply exact_map, (exact_be 8 8 eq_refl)]|]; intros v bs; cbn beta.
  all: split; [intros (x & -> & H); cbn [value]|].
  all: try exact H.
  all: try (apply signed_of; [lia|]; exists x; split; [exact H|reflexivity]).
  all: destruct v as [| | | | | | | | | |]; cbn [value]; intro H; try contradiction.
  all: try (eexists; split; [reflexivity|exact H]).
  all: apply signed_of in H as (n & Hn & ->); [|lia]; exists n; split; [reflexivity|exact Hn].
Qed.

(** ** Rows *)
Lemma values_ext null null' types : forall i i' vs bs, (forall j, j < length types -> null (i + j) = null' (i' + j)) ->
  values null i types vs bs -> values null' i' types vs bs.
Proof.
  induction types as [|t types IH]; intros i i' vs bs E H.
  - inversion H; subst. constructor.
  - assert (E0 := E 0 ltac:(cbn; lia)). rewrite !Nat.add_0_r in E0.
    assert (E' : forall j, j < length types -> null (S i + j) = null' (S i' + j)).
    { intros j Hj. specialize (E (S j) ltac:(cbn; lia)). now rewrite !Nat.add_succ_r in E. }
    inversion H; subst; [apply vs_null|apply vs_value]; try congruence; eauto.
Qed.
Lemma values_app null t1 t2 : forall i vs bs, values null i (t1 ++ t2) vs bs <->
  exists v1 v2 b1 b2, vs = v1 ++ v2 /\ bs = b1 ++ b2 /\ values null i t1 v1 b1 /\ values null (i + length t1) t2 v2 b2.
Proof.
  induction t1 as [|t t1 IH]; intros i vs bs; cbn [app length].
  - rewrite Nat.add_0_r. split.
    + intro H. exists [], vs, [], bs. repeat split; [constructor|exact H].
    + intros (v1 & v2 & b1 & b2 & -> & -> & H1 & H2). inversion H1; subst. exact H2.
  - split.
    + intro H. inversion H as [|? ? ? vs' rest Hn H'|? ? v w ? vs' rest Hn Hv H']; subst; apply IH in H' as (v1 & v2 & b1 & b2 & -> & -> & H1 & H2);
        rewrite Nat.add_succ_r; cbn [Nat.add] in H2.
      * exists (VNone :: v1), v2, b1, b2. repeat split; [now constructor|exact H2].
      * exists (v :: v1), v2, (w ++ b1), b2. split; [reflexivity|]. split; [now rewrite app_assoc|]. split; [now constructor|exact H2].
    + intros (v1 & v2 & b1 & b2 & -> & -> & H1 & H2). rewrite Nat.add_succ_r in H2.
      inversion H1 as [|? ? ? vs' rest Hn H'|? ? v w ? vs' rest Hn Hv H']; subst; cbn [app].
      * apply vs_null; [exact Hn|]. apply IH. exists vs', v2, b1, b2. auto.
      * rewrite <- app_assoc. apply vs_value; [exact Hn|exact Hv|]. apply IH. exists vs', v2, rest, b2. auto.
Qed.
Lemma exact_byte_fields k : forall cur types, k = 0 \/ types <> [] ->
  exact (read_byte_fields k cur types)
    (fun x bs => snd x = skipn k types /\ values (fun j => N.testbit cur (N.of_nat j)) 0 (firstn k types) (fst x) bs).
Proof.
  induction k as [|k IH]; intros cur types Hk; cbn [read_byte_fields].
  - eapply exact_eq; [apply exact_ret|]. intros [vs rest] bs. cbn [fst snd skipn firstn]. split.
    + intros [[= -> ->] ->]. split; [reflexivity|constructor].
    + intros [-> H]. inversion H; subst. auto.
  - destruct types as [|t types]; [destruct Hk; congruence|]. clear Hk.
    assert (V : exact (if N.odd cur then ret VNone else read_value t)
              (fun v bs => if N.testbit cur 0 then v = VNone /\ bs = [] else value t v bs)).
    { rewrite N.bit0_odd. destruct (N.odd cur); [apply exact_ret|apply exact_value]. }
    assert (NV : forall v bs, value t v bs -> v <> VNone) by (intros v bs; destruct t, v; cbn; congruence || tauto).
    assert (Sh : forall j, N.testbit (cur / 2) (N.of_nat j) = N.testbit cur (N.of_nat (S j))).
    { intro j. rewrite <- N.div2_div, N.div2_spec, N.shiftr_spec'. f_equal. lia. }
    destruct types as [|t2 types].
    + eapply exact_eq; [apply exact_bind; [exact V|]; intro v; apply exact_ret|].
      intros [vs rest] bs. cbn [fst snd skipn firstn]. rewrite skipn_nil, firstn_nil. split.
      * intros (v & b1 & b2 & Hv & ([= -> ->] & ->) & ->). split; [reflexivity|].
        destruct (N.testbit cur 0) eqn:E.
        -- destruct Hv as [-> ->]. cbn [app]. apply vs_null; [exact E|constructor].
        -- apply vs_value; [exact E|exact Hv|constructor].
      * intros [-> H]. inversion H as [|? ? ? vs' r Hn H'|? ? v w ? vs' r Hn Hv H']; subst; inversion H'; subst.
        -- cbn in Hn. rewrite Hn. exists VNone, [], []. auto.
        -- cbn in Hn. rewrite Hn. exists v, w, []. auto.
    + eapply exact_eq.
      { apply exact_bind; [exact V|]. intro v. eapply exact_bind.
        - apply IH. right. discriminate.
        - intro p. instantiate (1 := fun p y bs => y = (v :: fst p, snd p) /\ bs = []). destruct p as [vs rest]. apply exact_ret. }
      intros [vs rest] bs. cbn [fst snd skipn firstn]. fold (firstn k (t2 :: types)) (skipn k (t2 :: types)).
      split.
      * intros (v & b1 & b2 & Hv & ((vs' & r) & b3 & b4 & (Hr & H) & ([= -> ->] & ->) & ->) & ->). cbn [fst snd] in *.
        split; [exact Hr|]. rewrite app_nil_r.
        assert (H' : values (fun j => N.testbit cur (N.of_nat j)) 1 (firstn k (t2 :: types)) vs' b3) by (eapply values_ext; [|exact H]; intros j _; apply Sh).
        destruct (N.testbit cur 0) eqn:E.
        -- destruct Hv as [-> ->]. cbn [app]. apply vs_null; [exact E|exact H'].
        -- apply vs_value; [exact E|exact Hv|exact H'].
      * intros [Hr H].
        assert (G : forall vs' r', values (fun j => N.testbit cur (N.of_nat j)) 1 (firstn k (t2 :: types)) vs' r' ->
                    values (fun j => N.testbit (cur / 2) (N.of_nat j)) 0 (firstn k (t2 :: types)) vs' r').
        { intros vs' r' X. eapply values_ext; [|exact X]. intros j _. symmetry. apply Sh. }
        inversion H as [|? ? ? vs' r Hn H'|? ? v w ? vs' r Hn Hv H']; subst; cbn in Hn; rewrite Hn.
        -- exists VNone, [], bs. split; [auto|]. split; [|reflexivity]. exists (vs', skipn k (t2 :: types)), bs, []. rewrite app_nil_r. auto.
        -- exists v, w, r. split; [exact Hv|]. split; [|reflexivity]. exists (vs', skipn k (t2 :: types)), r, []. rewrite app_nil_r. auto.
Qed.
Lemma null_bit_first x bm j : j < 8 -> null_bit (x :: bm) j = N.testbit (of_byte x) (N.of_nat j).
Proof. intro H. unfold null_bit. rewrite Nat.div_small, Nat.mod_small by exact H. reflexivity. Qed.
Lemma null_bit_rest x bm j : null_bit (x :: bm) (8 + j) = null_bit bm j.
Proof.
  unfold null_bit. replace (8 + j) with (j + 1 * 8) by lia. rewrite Nat.div_add, Nat.mod_add by lia.
  rewrite Nat.add_1_r. reflexivity.
Qed.
Lemma exact_fields bm : forall types, 8 * length bm < length types + 8 -> length types <= 8 * length bm ->
  exact (read_fields bm types) (fun vs bs => values (null_bit bm) 0 types vs bs).
Proof.
  induction bm as [|x bm IH]; intros types L1 L2; cbn [read_fields].
  - cbn [length] in L2. destruct types; [|cbn in L2; lia]. eapply exact_eq; [apply exact_ret|]. intros vs bs. cbn beta. split.
    + intros [-> ->]. constructor.
    + intro H. inversion H; auto.
  - cbn [length] in L1, L2. assert (Hne : types <> []) by (intros ->; cbn in L1; lia).
    assert (Et : firstn 8 types ++ skipn 8 types = types) by apply firstn_skipn.
    eapply exact_eq.
    { eapply exact_bind_in; [apply (exact_byte_fields 8 (of_byte x) types); now right|].
      intros p b1 (Hr & _). instantiate (1 := fun p y bs => exists vs', y = fst p ++ vs' /\ values (null_bit bm) 0 (skipn 8 types) vs' bs).
      destruct p as [vs rest]. cbn [fst snd] in *. subst rest.
      eapply exact_eq; [apply exact_map, IH; rewrite skipn_length; lia|]. intros y bs. cbn beta. reflexivity. }
    intros vs bs. cbn beta. pose proof (values_app (null_bit (x :: bm)) (firstn 8 types) (skipn 8 types) 0 vs bs) as VA. rewrite Et in VA. rewrite VA. clear VA. split.
    + intros (p & b1 & b2 & (Hr & H1) & (vs' & -> & H2) & ->). exists (fst p), vs', b1, b2. split; [reflexivity|]. split; [reflexivity|].
      split.
      * eapply values_ext; [|exact H1]. intros j Hj. cbn beta. rewrite firstn_length in Hj. symmetry. apply null_bit_first. cbn. lia.
      * destruct (skipn 8 types) as [|t8 ts8] eqn:E8; [inversion H2; subst; constructor|].
        assert (L8 : length (firstn 8 types) = 8).
        { rewrite firstn_length. assert (L := f_equal (@length ftype) E8). rewrite skipn_length in L. cbn [length] in L. lia. }
        rewrite L8. eapply values_ext; [|exact H2]. intros j _. symmetry. apply (null_bit_rest x bm j).
    + intros (v1 & v2 & b1 & b2 & -> & -> & H1 & H2). exists (v1, skipn 8 types), b1, b2. cbn [fst snd]. split; [|split; [|reflexivity]].
      * split; [reflexivity|]. eapply values_ext; [|exact H1]. intros j Hj. rewrite firstn_length in Hj. cbn [Nat.add]. apply null_bit_first. lia.
      * exists v2. split; [reflexivity|].
        destruct (skipn 8 types) as [|t8 ts8] eqn:E8; [inversion H2; subst; constructor|].
        assert (L8 : length (firstn 8 types) = 8).
        { rewrite firstn_length. assert (L := f_equal (@length ftype) E8). rewrite skipn_length in L. cbn [length] in L. lia. }
        rewrite L8 in H2. eapply values_ext; [|exact H2]. intros j _. apply (null_bit_rest x bm j).
Qed.

Lemma bitset_size n w : get_bitset_bytes n = Ok w <-> n <> 0 /\ w = (n + 7) / 8.
Proof.
  destruct n as [|k]; cbn [get_bitset_bytes]; [split; [discriminate|lia]|].
  assert (E : (S k + 7) / 8 = 1 + k / 8) by (replace (S k + 7) with (k + 1 * 8) by lia; rewrite Nat.div_add by lia; lia).
  rewrite E. split; [intros [= <-]; split; [lia|reflexivity]|intros [_ ->]; reflexivity].
Qed.
Definition body_layout (types : list ftype) (t : N) (r : row) (bs : bytes) : Prop :=
  exists bitmap body, ts r = t /\ length bitmap = (length types + 7) / 8 /\ values (null_bit bitmap) 0 types (vals r) body /\ bs = bitmap ++ body.
Lemma exact_row n types t : get_bitset_bytes (length types) = Ok n -> exact (read_row n types t) (body_layout types t).
Proof.
  intro Hn. destruct (bitset_range _ _ Hn) as (B1 & B2 & _). apply bitset_size in Hn as [_ ->].
  unfold read_row. eapply exact_eq.
  { eapply exact_bind_in; [apply exact_take|]. intros bm b1 [-> L]. apply exact_map, exact_fields; lia. }
  intros r bs. cbn beta. unfold body_layout. split.
  - intros (bm & b1 & b2 & (-> & L) & (vs & -> & H) & ->). exists b1, b2. split; [reflexivity|]. split; [lia|]. auto.
  - intros (bm & body & E & L & H & ->). exists bm, bm, body. split; [split; [reflexivity|lia]|]. split; [|reflexivity].
    exists (vals r). split; [|exact H]. destruct r. cbn in *. now subst.
Qed.

(** ** Files *)
Lemma rows_exact types n h junk : get_bitset_bytes (length types) = Ok n -> h_types h = types -> length junk < 8 ->
  forall rows bs f tl, rows_layout types rows bs -> length rows < f ->
  dc_read_rows f {| dc_header := h; dc_bitset := n; dc_rest := {| s_data := bs ++ junk; s_tail := tl |} |} = (rows, Ok tt).
Proof.
  intros Hn Ht Hj. induction rows as [|r rows IH]; intros bs f tl L Hf; (destruct f as [|f]; [lia|]); cbn [dc_read_rows].
  - inversion L; subst. unfold dc_next_row. cbn [dc_rest app].
    destruct (read_be_cases 8 {| s_data := junk; s_tail := tl |}) as [[_ X]|[E1 _]]; [cbn in X; lia|]. now rewrite E1.
  - inversion L as [|? b1 ? b2 (time & bm & body & H1 & H2 & H3 & ->) L']; subst.
    unfold dc_next_row. cbn [dc_rest dc_bitset dc_header].
    pose proof (proj1 (exact_be 8 8 eq_refl) (ts r) time H1 ((bm ++ body) ++ b2 ++ junk) tl) as R1. rewrite <- !app_assoc in *. rewrite R1.
    pose proof (proj1 (exact_row n (h_types h) (ts r) Hn) r (bm ++ body)) as R2.
    assert (B : body_layout (h_types h) (ts r) r (bm ++ body)) by (exists bm, body; auto).
    specialize (R2 B (b2 ++ junk) tl). rewrite <- app_assoc in R2.
    rewrite R2. cbn [bind]. rewrite (IH b2 f tl L') by (cbn in Hf; lia). reflexivity.
Qed.
Lemma rows_layout_length types rows bs : types <> [] -> rows_layout types rows bs -> length rows <= length bs.
Proof.
  intros Hne. induction 1 as [|r b1 rows b2 (time & bm & body & [H1 _] & _ & _ & ->) _ IH]; [cbn; lia|].
  rewrite !app_length. cbn. lia.
Qed.
Lemma rows_sound types n h : get_bitset_bytes (length types) = Ok n -> h_types h = types ->
  forall f s rows, small s ->
  dc_read_rows f {| dc_header := h; dc_bitset := n; dc_rest := s |} = (rows, Ok tt) ->
  exists core junk, s_data s = core ++ junk /\ length junk < 8 /\ rows_layout types rows core.
Proof.
  intros Hn Ht. induction f as [|f IH]; intros s rows Hs E; [discriminate|]. cbn [dc_read_rows] in E.
  unfold dc_next_row in E. cbn [dc_rest dc_bitset dc_header] in E.
  destruct (read_be_cases 8 s) as [[(t & s1 & E1) _]|[E1 L]].
  - rewrite E1 in E. destruct (proj2 (exact_be 8 8 eq_refl) _ _ _ Hs E1) as (time & H1 & D1 & T1).
    pose proof (small_after _ _ _ Hs D1) as Hs1.
    destruct (read_row n (h_types h) t s1) as [[r s2]| | | |] eqn:E2; cbn [bind] in E; try discriminate.
    rewrite Ht in E2. destruct (proj2 (exact_row n types t Hn) _ _ _ Hs1 E2) as (bs & (bm & body & Hts & Hl & Hv & ->) & D2 & T2).
    destruct (dc_read_rows f _) as [rs o] eqn:E3. injection E as <- ->.
    destruct (IH s2 rs (small_after _ _ _ Hs1 D2) E3) as (core & junk & D3 & Lj & R).
    exists ((time ++ bm ++ body) ++ core), junk. split; [rewrite D1, D2, D3, <- !app_assoc; reflexivity|]. split; [exact Lj|].
    constructor; [|exact R]. exists time, bm, body. subst t. auto.
  - rewrite E1 in E. injection E as <-. exists [], (s_data s). split; [reflexivity|]. split; [exact L|constructor].
Qed.

Lemma read_layout names types rows bs junk tl : dc_layout names types rows bs -> length junk < 8 ->
  dc_read {| s_data := bs ++ junk; s_tail := tl |} = Ok ({| h_names := default_names 0 names; h_types := types |}, (rows, Ok tt)).
Proof.
  intros (hb & rb & H & R & ->) Hj. pose proof H as (m & v & ul & u & c & cs & _ & _ & _ & _ & Hne & _).
  assert (Hn : exists n, get_bitset_bytes (length types) = Ok n).
  { eexists. apply bitset_size. split; [now destruct types|reflexivity]. }
  destruct Hn as [n Hn]. unfold dc_read. rewrite dc_open_eq.
  pose proof (proj1 exact_open ({| h_names := default_names 0 names; h_types := types |}, n) hb) as O.
  rewrite <- app_assoc, O; [|exists names; auto]. cbn [bind dc_header]. unfold dc_rows, dc_fuel. cbn [dc_rest s_data].
  erewrite (rows_exact types n _ junk Hn); [reflexivity|reflexivity|exact Hj|exact R|].
  pose proof (rows_layout_length _ _ _ Hne R). rewrite app_length. lia.
Qed.
Lemma open_sound s st : small s -> dc_open s = Ok st ->
  exists names hb, header_layout names (h_types (dc_header st)) hb /\ h_names (dc_header st) = default_names 0 names /\
    get_bitset_bytes (length (h_types (dc_header st))) = Ok (dc_bitset st) /\
    s_data s = hb ++ s_data (dc_rest st) /\ s_tail (dc_rest st) = s_tail s.
Proof.
  intros Hs. rewrite dc_open_eq. destruct (open_rd s) as [[[h n] rest]| | | |] eqn:E; cbn [bind]; try discriminate. intros [= <-].
  destruct (proj2 exact_open _ _ _ Hs E) as (hb & (names & Hn & Hb & Hl) & D & T). cbn [fst snd dc_header dc_rest dc_bitset] in *. eauto 8.
Qed.
Lemma read_sound s h rows : small s -> dc_read s = Ok (h, (rows, Ok tt)) ->
  exists names core junk, s_data s = core ++ junk /\ length junk < 8 /\ dc_layout names (h_types h) rows core /\
    h_names h = default_names 0 names.
Proof.
  intros Hs. unfold dc_read. destruct (dc_open s) as [st| | | |] eqn:E; cbn [bind]; try discriminate. intros [= <- Er].
  destruct (open_sound _ _ Hs E) as (names & hb & Hl & Hn & Hb & D & _).
  destruct st as [hd n rest]. cbn [dc_header dc_bitset dc_rest] in *.
  destruct (rows_sound _ _ hd Hb eq_refl _ _ _ (small_after _ _ _ Hs D) Er) as (core & junk & D2 & Lj & R).
  exists names, (hb ++ core), junk. split; [rewrite D, D2, app_assoc; reflexivity|]. split; [exact Lj|]. split; [|exact Hn].
  exists hb, core. auto.
Qed.

(** ** The writer *)
Lemma be_unsigned k x : (x < 256 ^ N.of_nat k)%N -> unsigned k x (be k x).
Proof. intro H. split; [apply be_length|]. rewrite number_of_be, of_be_be. now apply N.mod_small. Qed.
Lemma be_signed k x : 1 <= k -> (- 2 ^ (Z.of_nat (8 * k) - 1) <= x < 2 ^ (Z.of_nat (8 * k) - 1))%Z ->
  signed k x (be k (to_unsigned (N.of_nat (8 * k)) x)).
Proof.
  intros Hk Hx. apply signed_of; [exact Hk|]. exists (to_unsigned (N.of_nat (8 * k)) x). split.
  - apply be_unsigned. pose proof (to_unsigned_lt (N.of_nat (8 * k)) x). change 256%N with (2 ^ 8)%N. rewrite <- N.pow_mul_r.
    replace (8 * N.of_nat k)%N with (N.of_nat (8 * k)) by lia. exact H.
  - symmetry. apply to_signed_unsigned; [lia|]. now rewrite nat_N_Z.
Qed.
Lemma write_sized_layout s : dc_string s -> sized s (write_sized_string s).
Proof. intros [U L]. split; [exact U|]. exists (be 4 (N.of_nat (length s))). split; [apply be_unsigned; exact L|reflexivity]. Qed.
Lemma write_string_layout s : dc_string s -> string_value s (write_string_value s).
Proof.
  intros [U L]. split; [exact U|]. unfold write_string_value. destruct (N.leb_spec (N.of_nat (length s)) 32767) as [H|H].
  - left. exists (be 2 (N.of_nat (length s))). split; [|reflexivity]. split; [apply be_length|]. cbv zeta.
    rewrite (proj2 (be_unsigned 2 (N.of_nat (length s)) ltac:(change (256 ^ N.of_nat 2)%N with 65536%N; lia))).
    change (2 ^ Z.of_nat (8 * 2 - 1))%Z with 32768%Z. lia.
  - right. exists (be 2 (to_unsigned 16 (-1))), (be 4 (N.of_nat (length s))).
    split; [apply (be_signed 2 (-1)); [lia|cbn; lia]|]. split; [apply be_unsigned; exact L|now rewrite <- app_assoc].
Qed.
Lemma write_value_layout t v : value_fits t v -> v <> VNone -> value t v (fst (write_value v)).
Proof.
  destruct t, v; cbn [value_fits value write_value fst]; intros H Hv; try contradiction; try congruence;
    first [exact (write_string_layout _ H)|solve [apply be_unsigned; exact H]|idtac].
  - apply (be_signed 4); [lia|exact H].
  - apply (be_signed 8); [lia|exact H].
  - apply (be_signed 2); [lia|exact H].
Qed.
Lemma null_bits_testbit vs : forall j, j < length vs -> N.testbit (null_bits 1 vs) (N.of_nat j) = is_none (nth j vs VNone).
Proof.
  induction vs as [|v vs IH]; intros j Hj; [cbn in Hj; lia|]. destruct j as [|j].
  - cbn [nth N.of_nat]. rewrite N.bit0_odd. apply null_bits_odd.
  - cbn [nth]. rewrite <- (IH j) by (cbn in Hj; lia). rewrite <- (null_bits_div v vs), <- N.div2_div, N.div2_spec, N.shiftr_spec'.
    f_equal. lia.
Qed.
Lemma write_bitset_null n : forall vs i, i < length vs -> i < 8 * n -> null_bit (write_bitset n vs) i = is_none (nth i vs VNone).
Proof.
  induction n as [|n IH]; intros vs i Hi Hn; [lia|]. cbn [write_bitset].
  assert (B : (null_bits 1 (firstn 8 vs) < 256)%N).
  { pose proof (null_bits_lt (firstn 8 vs)) as B. eapply N.lt_le_trans; [exact B|]. change 256%N with (2 ^ 8)%N.
    apply N.pow_le_mono_r; [lia|]. rewrite firstn_length. lia. }
  destruct (Nat.lt_ge_cases i 8) as [L|L].
  - rewrite null_bit_first, of_byte_of by assumption. rewrite null_bits_testbit by (rewrite firstn_length; lia).
    f_equal. rewrite <- (firstn_skipn 8 vs) at 2. rewrite app_nth1 by (rewrite firstn_length; lia). reflexivity.
  - replace i with (8 + (i - 8)) at 1 by lia. rewrite null_bit_rest, IH by (rewrite ?skipn_length; lia).
    f_equal. rewrite <- (firstn_skipn 8 vs) at 2. rewrite app_nth2 by (rewrite firstn_length; lia). f_equal. rewrite firstn_length. lia.
Qed.
Lemma write_values_layout null types vs : forall i, Forall2 value_fits types vs ->
  (forall j, j < length vs -> null (i + j) = is_none (nth j vs VNone)) -> values null i types vs (vbytes vs).
Proof.
  revert vs. induction types as [|t types IH]; intros vs i H Hn; inversion H as [|? v ? vs' Hv Hvs]; subst; [constructor|].
  pose proof (Hn 0 ltac:(cbn; lia)) as H0. rewrite Nat.add_0_r in H0. cbn [nth] in H0.
  assert (H' : values null (S i) types vs' (vbytes vs')).
  { apply IH; [exact Hvs|]. intros j Hj. specialize (Hn (S j) ltac:(cbn; lia)). rewrite Nat.add_succ_r in Hn. exact Hn. }
  unfold vbytes. cbn [map concat]. fold (vbytes vs'). destruct (is_none v) eqn:E.
  - destruct v; try discriminate. cbn [write_value fst app]. now apply vs_null.
  - apply vs_value; [exact H0| |exact H']. apply write_value_layout; [exact Hv|]. intros ->. discriminate.
Qed.
Lemma Forall2_same_length {A B} (P : A -> B -> Prop) x y : Forall2 P x y -> length x = length y.
Proof. induction 1; cbn; congruence. Qed.
Lemma write_row_layout n h r : get_bitset_bytes (length (h_types h)) = Ok n -> row_fits h r ->
  row_layout (h_types h) r (fst (dc_write_row n r)).
Proof.
  intros Hn Hr. rewrite (row_bytes n h r Hr). destruct Hr as [Ht Hf]. cbn [fst].
  destruct (bitset_range _ _ Hn) as (B1 & B2 & _). apply bitset_size in Hn as [_ En].
  exists (be 8 (ts r)), (write_bitset n (vals r)), (vbytes (vals r)).
  split; [apply be_unsigned; exact Ht|]. split; [rewrite write_bitset_length; exact En|]. split; [|reflexivity].
  apply write_values_layout; [exact Hf|]. intros j Hj. cbn [Nat.add]. apply write_bitset_null; [exact Hj|].
  apply Forall2_same_length in Hf. lia.
Qed.
Lemma write_columns_layout names types : length names = length types -> Forall dc_string names -> Forall supported types ->
  dc_columns names types (fields_bytes names types).
Proof.
  revert names. induction types as [|t types IH]; intros [|nm names] L Hn Hs; try discriminate; [constructor|].
  inversion Hn; subst. inversion Hs; subst. cbn [fields_bytes].
  assert (E : forall x : bytes, write_sized_string nm ++ write_sized_string (type_string t) ++ write_display_hint ++ x =
              (write_sized_string nm ++ write_sized_string (type_string t) ++ write_display_hint) ++ x) by (intro; now rewrite <- !app_assoc).
  rewrite E. constructor; [|apply IH; auto; cbn in L; lia].
  exists (write_sized_string nm), (type_string t), (write_sized_string (type_string t)), write_display_hint, (-1)%Z.
  split; [now apply write_sized_layout|]. split; [apply type_of_string_is, type_of_type_string|].
  split; [apply write_sized_layout, type_string_fits|]. split; [apply (be_signed 4 (-1)); [lia|cbn; lia]|]. split; [lia|reflexivity].
Qed.
Lemma write_header_layout h : header_fits h -> h_types h <> [] ->
  header_layout (h_names h) (h_types h) (fst (dc_process_header h)).
Proof.
  intros Hh Hne. rewrite (header_bytes h Hh). destruct Hh as (L & Hs & Hn & Hc). cbn [fst].
  exists (be 8 MAGIC_NUM), (be 2 VERSION), (be 4 0), [], (be 4 (N.of_nat (length (h_types h)))), (fields_bytes (h_names h) (h_types h)).
  split; [apply be_unsigned; reflexivity|]. split; [apply be_unsigned; reflexivity|]. split; [apply be_unsigned; reflexivity|].
  split; [apply be_unsigned; exact Hc|]. split; [exact Hne|]. split; [now apply write_columns_layout|reflexivity].
Qed.
Lemma write_layout h evs : header_fits h -> 2 <= length (h_types h) -> length (h_types h) mod 8 <> 1 ->
  Forall (row_fits h) (ev_rows evs) -> dc_layout (h_names h) (h_types h) (ev_rows evs) (dc_file h evs).
Proof.
  intros Hh H2 Hm Hr. destruct (proj2 (bitset_agree (length (h_types h))) (conj H2 Hm)) as (n & Hw & Hn).
  exists (fst (dc_process_header h)), (dc_rows_bytes n evs). split.
  - apply write_header_layout; [exact Hh|]. intro E. rewrite E in H2. cbn in H2. lia.
  - split.
    + rewrite dc_rows_bytes_rows. induction (ev_rows evs) as [|r rows IH]; [constructor|]. inversion Hr; subst.
      cbn [rows_bytes]. constructor; [now apply write_row_layout|auto].
    + unfold dc_file. rewrite (header_bytes h Hh). cbn [fst snd]. now rewrite Hw.
Qed.

(** ** The writer's strings are the shortest, so a layout is never shorter than what it writes *)
Lemma value_min t v bs : value t v bs -> length (fst (write_value v)) <= length bs.
Proof.
  destruct t, v as [| | | | | | | | |x|]; cbn [value write_value fst]; intro H; try contradiction; try (destruct H as [L _]; rewrite ?be_length; lia).
  destruct H as [_ [(l & [L S] & ->)|(m & l & [Lm _] & [L _] & ->)]]; rewrite !app_length; rewrite string_value_length.
  - destruct (N.leb_spec (N.of_nat (length x)) 32767) as [H|H]; [lia|]. exfalso.
    pose proof (number_lt l) as B. rewrite L in B. change (256 ^ N.of_nat 2)%N with 65536%N in B.
    cbv zeta in S. change (2 ^ Z.of_nat (8 * 2 - 1))%Z with 32768%Z in S. lia.
  - destruct (N.of_nat (length x) <=? 32767)%N; lia.
Qed.
Lemma values_min null types : forall i vs bs, values null i types vs bs -> length (vbytes vs) <= length bs.
Proof.
  induction types as [|t types IH]; intros i vs bs H; inversion H as [|? ? ? vs' rest Hn H'|? ? v w ? vs' rest Hn Hv H']; subst;
    unfold vbytes; cbn [map concat write_value fst app]; [lia| |]; fold (vbytes vs').
  - eapply IH; eassumption.
  - rewrite !app_length. apply IH in H'. apply value_min in Hv. lia.
Qed.
Lemma rows_min h n types rows : h_types h = types -> length types mod 8 = 1 -> 9 <= length types ->
  writer_bitset (length types) = Ok n -> Forall (row_fits h) rows -> forall bs, rows_layout types rows bs ->
  length (rows_bytes n rows) + length rows <= length bs.
Proof.
  intros Ht Hm H9 Hw. induction rows as [|r rows IH]; intros Hr bs L; [cbn; lia|]. inversion Hr as [|? ? Hr1 Hr2]; subst.
  inversion L as [|? b1 ? b2 (time & bm & body & [H1 _] & H2 & H3 & ->) L']; subst. specialize (IH Hr2 _ L').
  cbn [rows_bytes]. rewrite (row_bytes n h r Hr1). cbn [fst]. rewrite !app_length, be_length, write_bitset_length.
  apply values_min in H3.
  assert (n + 1 <= length bm).
  { rewrite H2. destruct (length (h_types h)) as [|k]; [lia|]. cbn [writer_bitset] in Hw. apply bitset_size in Hw as [_ ->].
    replace (S k + 7) with (k + 1 * 8) by lia. rewrite Nat.div_add by lia.
    pose proof (Nat.div_mod (S k) 8). pose proof (Nat.div_mod k 8). pose proof (Nat.mod_upper_bound k 8).
    assert (k mod 8 = 0). { replace (S k) with (k + 1) in * by lia. rewrite Nat.add_mod in Hm by lia. change (1 mod 8) with 1 in Hm.
      destruct (k mod 8) as [|[|[|[|[|[|[|[|q]]]]]]]]; cbn in Hm; lia. }
    enough (k = 8 * (k / 8)) by (assert ((k + 7) / 8 = k / 8); [|lia]; symmetry; apply (Nat.div_unique _ 8 _ 7); lia). lia. }
  cbn [length]. lia.
Qed.
