(** Facts about byte encodings and readers. *)
From Verif Require Export DcSpec.

Lemma of_byte_of n : (n < 256)%N -> of_byte (byte_of n) = n.
Proof. intro H. unfold of_byte, byte_of. now apply N_ascii_embedding. Qed.
Lemma byte_of_of a : byte_of (of_byte a) = a.
Proof. apply ascii_N_embedding. Qed.
Lemma of_byte_lt a : (of_byte a < 256)%N.
Proof. unfold of_byte. apply N_ascii_bounded. Qed.

Lemma le_length n x : length (le n x) = n.
Proof. revert x; induction n; intro x; cbn; [reflexivity|]. now rewrite IHn. Qed.
Lemma be_length n x : length (be n x) = n.
Proof. unfold be. rewrite rev_length. apply le_length. Qed.

Lemma of_le_le n x : of_le (le n x) = (x mod 256 ^ N.of_nat n)%N.
Proof.
  revert x; induction n as [|n IH]; intro x.
  - cbn. now rewrite N.mod_1_r.
  - cbn [le of_le]. rewrite of_byte_of by (apply N.mod_lt; discriminate).
    rewrite IH. rewrite Nat2N.inj_succ, N.pow_succ_r'.
    rewrite N.mod_mul_r; [reflexivity|discriminate|]. apply N.pow_nonzero. discriminate.
Qed.
Lemma of_be_be n x : of_be (be n x) = (x mod 256 ^ N.of_nat n)%N.
Proof. unfold of_be, be. rewrite rev_involutive. apply of_le_le. Qed.
Lemma of_le_lt s : (of_le s < 256 ^ N.of_nat (length s))%N.
Proof.
  induction s as [|a s IH]; [reflexivity|]. cbn [of_le length].
  rewrite Nat2N.inj_succ, N.pow_succ_r'. pose proof (of_byte_lt a). lia.
Qed.
Lemma of_be_lt s : (of_be s < 256 ^ N.of_nat (length s))%N.
Proof. unfold of_be. pose proof (of_le_lt (rev s)). now rewrite rev_length in H. Qed.
Lemma le_of_le s : le (length s) (of_le s) = s.
Proof.
  induction s as [|a s IH]; [reflexivity|]. cbn [of_le length le].
  pose proof (of_byte_lt a).
  replace ((of_byte a + 256 * of_le s) mod 256)%N with (of_byte a).
  2:{ rewrite N.mul_comm, N.mod_add by discriminate. symmetry. now apply N.mod_small. }
  replace ((of_byte a + 256 * of_le s) / 256)%N with (of_le s).
  2:{ rewrite N.mul_comm, N.div_add by discriminate. rewrite N.div_small by exact H. reflexivity. }
  now rewrite IH, byte_of_of.
Qed.
Lemma be_of_be s : be (length s) (of_be s) = s.
Proof.
  unfold be, of_be. rewrite <- (rev_length s), le_of_le. apply rev_involutive.
Qed.

Lemma to_unsigned_lt w z : (to_unsigned w z < 2 ^ w)%N.
Proof.
  unfold to_unsigned.
  assert (0 < 2 ^ Z.of_N w)%Z by (apply Z.pow_pos_nonneg; lia).
  pose proof (Z.mod_pos_bound z _ H) as B.
  apply N2Z.inj_lt. rewrite N2Z.inj_pow, Z2N.id by lia. cbn. lia.
Qed.
Lemma to_signed_unsigned w z :
  (0 < w)%N -> (- 2 ^ (Z.of_N w - 1) <= z < 2 ^ (Z.of_N w - 1))%Z -> to_signed w (to_unsigned w z) = z.
Proof.
  intros Hw Hz. unfold to_signed, to_unsigned.
  assert (E : (2 ^ Z.of_N w = 2 * 2 ^ (Z.of_N w - 1))%Z).
  { rewrite <- Z.pow_succ_r by lia. f_equal. lia. }
  set (p := (2 ^ (Z.of_N w - 1))%Z) in *.
  assert (P : Z.of_N (2 ^ (w - 1)) = p).
  { rewrite N2Z.inj_pow. unfold p. f_equal. lia. }
  rewrite E.
  destruct (Z.ltb_spec z 0) as [Hn|Hn].
  - assert (Em : (z mod (2 * p) = z + 2 * p)%Z).
    { symmetry. apply (Z.mod_unique z (2 * p) (-1)); lia. }
    rewrite Em. destruct (N.ltb_spec (Z.to_N (z + 2 * p)) (2 ^ (w - 1))) as [L|L].
    + apply N2Z.inj_lt in L. rewrite P, Z2N.id in L by lia. lia.
    + rewrite Z2N.id by lia. lia.
  - rewrite Z.mod_small by lia.
    destruct (N.ltb_spec (Z.to_N z) (2 ^ (w - 1))) as [L|L].
    + rewrite Z2N.id by lia. reflexivity.
    + apply N2Z.inj_le in L. rewrite P, Z2N.id in L by lia. lia.
Qed.

(** ** Readers that read back what was written *)
Definition reads {A} (p : rd A) (w : bytes) (x : A) : Prop :=
  forall t tl, p {| s_data := w ++ t; s_tail := tl |} = Ok (x, {| s_data := t; s_tail := tl |}).

Lemma reads_ret {A} (x : A) : reads (ret x) [] x.
Proof. intros t tl. reflexivity. Qed.
Lemma reads_lift {A} (r : res A) x : r = Ok x -> reads (lift r) [] x.
Proof. intros -> t tl. reflexivity. Qed.
Lemma reads_bind {A B} (p : rd A) (q : A -> rd B) w w' x y :
  reads p w x -> reads (q x) w' y -> reads (rbind p q) (w ++ w') y.
Proof. intros Hp Hq t tl. unfold rbind. rewrite <- app_assoc, Hp. cbn. apply Hq. Qed.
Lemma reads_bind0 {A B} (p : rd A) (q : A -> rd B) w x y :
  reads p [] x -> reads (q x) w y -> reads (rbind p q) w y.
Proof. intros Hp Hq. change w with ([] ++ w). eapply reads_bind; eauto. Qed.
Lemma reads_bind1 {A B} (p : rd A) (q : A -> rd B) w x y :
  reads p w x -> reads (q x) [] y -> reads (rbind p q) w y.
Proof. intros Hp Hq. rewrite <- (app_nil_r w). eapply reads_bind; eauto. Qed.
Lemma reads_bind_ret {A B} (p : rd A) (f : A -> B) w x : reads p w x -> reads (rbind p (fun a => ret (f a))) w (f x).
Proof. intros Hp t tl. unfold rbind. rewrite Hp. reflexivity. Qed.
Lemma reads_eq {A} (p : rd A) w w' x x' : reads p w x -> w = w' -> x = x' -> reads p w' x'.
Proof. intros H <- <-. exact H. Qed.
Lemma reads_take n w : n = N.of_nat (length w) -> reads (take_exact n) w w.
Proof.
  intros -> t tl. unfold take_exact. cbn [s_data s_tail]. rewrite app_length, Nat2N.id.
  destruct (N.ltb_spec (N.of_nat (length w + length t)) (N.of_nat (length w))); [lia|].
  rewrite firstn_app, firstn_all, Nat.sub_diag, skipn_app, skipn_all, Nat.sub_diag.
  cbn. now rewrite app_nil_r.
Qed.
Lemma reads_be n k x : n = N.of_nat k -> (x < 256 ^ N.of_nat k)%N -> reads (read_be n) (be k x) x.
Proof.
  intros -> Hx. unfold read_be. eapply reads_eq; [apply reads_bind_ret, reads_take| |].
  - now rewrite be_length.
  - reflexivity.
  - rewrite of_be_be. now apply N.mod_small.
Qed.
Lemma reads_le n k x : n = N.of_nat k -> (x < 256 ^ N.of_nat k)%N -> reads (read_le n) (le k x) x.
Proof.
  intros -> Hx. unfold read_le. eapply reads_eq; [apply reads_bind_ret, reads_take| |].
  - now rewrite le_length.
  - reflexivity.
  - rewrite of_le_le. now apply N.mod_small.
Qed.

(** ** Readers depend only on the bytes they consume *)
Record good_rd {A} (p : rd A) : Prop := {
  good_eats : forall s x s', p s = Ok (x, s') ->
    s_tail s' = s_tail s /\ exists d, s_data s = d ++ s_data s';
  good_mono : forall s x s' d tl, p s = Ok (x, s') -> p (continued s d tl) = Ok (x, continued s' d tl);
  good_cut : forall s x s' d tl, p (continued s d tl) = Ok (x, s') ->
    (exists s1, p s = Ok (x, s1) /\ s' = continued s1 d tl) \/ p s = Err (end_err s)
}.

Lemma good_ret {A} (x : A) : good_rd (ret x).
Proof.
  split; unfold ret.
  - intros s y s' [= _ <-]. split; [reflexivity|]. now exists [].
  - intros s y s' d tl [= <- <-]. reflexivity.
  - intros s y s' d tl [= <- <-]. left. eauto.
Qed.
Lemma good_lift {A} (r : res A) : good_rd (lift r).
Proof.
  split; unfold lift; destruct r as [x|e| | |]; cbn; try discriminate.
  - intros s y s' [= _ <-]. split; [reflexivity|]. now exists [].
  - intros s y s' d tl [= <- <-]. reflexivity.
  - intros s y s' d tl [= <- <-]. left. eauto.
Qed.
Lemma end_err_tail s s' : s_tail s' = s_tail s -> end_err s' = end_err s.
Proof. intro E. unfold end_err. now rewrite E. Qed.
Lemma good_bind {A B} (p : rd A) (q : A -> rd B) :
  good_rd p -> (forall x, good_rd (q x)) -> good_rd (rbind p q).
Proof.
  intros Hp Hq. split; unfold rbind.
  - intros s y s' H. destruct (p s) as [[x s1]|e| | |] eqn:E; cbn in H; try discriminate.
    destruct (good_eats _ Hp _ _ _ E) as [T1 [d1 D1]].
    destruct (good_eats _ (Hq x) _ _ _ H) as [T2 [d2 D2]].
    split; [congruence|]. exists (d1 ++ d2). rewrite D1, D2, app_assoc. reflexivity.
  - intros s y s' d tl H. destruct (p s) as [[x s1]|e| | |] eqn:E; cbn in H; try discriminate.
    rewrite (good_mono _ Hp _ _ _ d tl E). cbn. now apply (good_mono _ (Hq x)).
  - intros s y s' d tl H.
    destruct (p (continued s d tl)) as [[x s1]|e| | |] eqn:E; cbn in H; try discriminate.
    destruct (good_cut _ Hp _ _ _ _ _ E) as [(s2 & E2 & ->)|E2].
    + rewrite E2. cbn. destruct (good_cut _ (Hq x) _ _ _ _ _ H) as [?|E3]; [auto|].
      right. rewrite E3. f_equal. apply end_err_tail. now apply (good_eats _ Hp _ _ _ E2).
    + right. now rewrite E2.
Qed.
Lemma good_take n : good_rd (take_exact n).
Proof.
  split; unfold take_exact, continued; cbn [s_data s_tail].
  - intros s x s' H. destruct (N.ltb_spec (N.of_nat (length (s_data s))) n); [discriminate|].
    injection H as <- <-. cbn. split; [reflexivity|]. exists (firstn (N.to_nat n) (s_data s)).
    now rewrite firstn_skipn.
  - intros s x s' d tl H. destruct (N.ltb_spec (N.of_nat (length (s_data s))) n); [discriminate|].
    injection H as <- <-. cbn [s_data s_tail].
    rewrite app_length. destruct (N.ltb_spec (N.of_nat (length (s_data s) + length d)) n); [lia|].
    rewrite firstn_app, skipn_app.
    replace (N.to_nat n - length (s_data s)) with 0 by lia. cbn. now rewrite app_nil_r.
  - intros s x s' d tl. rewrite app_length.
    destruct (N.ltb_spec (N.of_nat (length (s_data s))) n) as [L|L].
    + right. reflexivity.
    + destruct (N.ltb_spec (N.of_nat (length (s_data s) + length d)) n); [lia|].
      rewrite firstn_app, skipn_app.
      replace (N.to_nat n - length (s_data s)) with 0 by lia. cbn. rewrite app_nil_r.
      intros [= <- <-]. left. eauto.
Qed.
Lemma good_read_be n : good_rd (read_be n).
Proof. apply good_bind; [apply good_take|intro; apply good_ret]. Qed.
Lemma good_read_le n : good_rd (read_le n).
Proof. apply good_bind; [apply good_take|intro; apply good_ret]. Qed.

Ltac good := repeat first
  [ assumption | apply good_ret | apply good_lift | apply good_take | apply good_read_be | apply good_read_le
  | (apply good_bind; [|intro])
  | match goal with |- good_rd (match ?x with _ => _ end) => destruct x end ].

(** A reader that returned took the bytes it takes from the start of the stream. *)
Lemma good_length {A} (p : rd A) : good_rd p ->
  forall s x s', p s = Ok (x, s') -> length (s_data s') <= length (s_data s).
Proof.
  intros G s x s' H. destruct (good_eats _ G _ _ _ H) as [_ [d ->]]. rewrite app_length. lia.
Qed.
Lemma take_length n s x s' :
  take_exact n s = Ok (x, s') -> N.of_nat (length x) = n /\ s_data s = x ++ s_data s' /\ s_tail s' = s_tail s.
Proof.
  unfold take_exact. destruct (N.ltb_spec (N.of_nat (length (s_data s))) n); [discriminate|].
  intros [= <- <-]. cbn [s_data s_tail]. rewrite firstn_length, firstn_skipn. split; [lia|auto].
Qed.
Lemma read_be_length n s x s' :
  read_be n s = Ok (x, s') -> length (s_data s) = (N.to_nat n + length (s_data s'))%nat /\ s_tail s' = s_tail s.
Proof.
  unfold read_be, rbind. destruct (take_exact n s) as [[y s1]|e| | |] eqn:E; cbn; try discriminate.
  intros [= _ <-]. apply take_length in E as (L & D & T). rewrite D, app_length. split; [lia|exact T].
Qed.
