(** What well-formed UTF-8 is (RFC 3629), and that the byte-wise check of BytesModel.v
    accepts exactly that. *)
From Verif Require Export BytesProofs.
Local Open Scope N_scope.
Local Ltac Zify.zify_post_hook ::= idtac.

(** Unicode scalar values. *)
Definition scalar (c : N) : Prop := c < 0x110000 /\ ~ (0xD800 <= c <= 0xDFFF).

(** Their encoding. *)
Definition encode (c : N) : bytes :=
  map byte_of
    (if c <? 0x80 then [c]
     else if c <? 0x800 then [0xC0 + c / 64; 0x80 + c mod 64]
     else if c <? 0x10000 then [0xE0 + c / 4096; 0x80 + c / 64 mod 64; 0x80 + c mod 64]
     else [0xF0 + c / 262144; 0x80 + c / 4096 mod 64; 0x80 + c / 64 mod 64; 0x80 + c mod 64]).

Definition well_formed (s : bytes) : Prop :=
  exists cs, Forall scalar cs /\ s = flat_map encode cs.

Lemma div64 c : c = 64 * (c / 64) + c mod 64 /\ c mod 64 < 64.
Proof. split; [apply N.div_mod; discriminate|apply N.mod_lt; discriminate]. Qed.

Lemma digits64 c :
  c / 4096 = c / 64 / 64 /\ c / 262144 = c / 64 / 64 / 64.
Proof. rewrite !N.div_div by discriminate. split; reflexivity. Qed.

Lemma utf8_encode c t : scalar c -> utf8 (encode c ++ t) = utf8 t.
Proof.
  intros [Hc Hs]. unfold encode.
  destruct (digits64 c) as [D1 D2]. rewrite D1, D2. clear D1 D2.
  destruct (div64 c) as [A1 A2], (div64 (c / 64)) as [B1 B2], (div64 (c / 64 / 64)) as [C1 C2].
  set (x := c mod 64) in *. set (y := (c / 64) mod 64) in *. set (z := (c / 64 / 64) mod 64) in *.
  set (q1 := c / 64) in *. set (q2 := q1 / 64) in *. set (q3 := q2 / 64) in *.
  clearbody x y z q1 q2 q3.
  destruct (N.ltb_spec c 0x80).
  { cbn [map app utf8]. rewrite of_byte_of by lia.
    destruct (N.ltb_spec c 0x80); [reflexivity|lia]. }
  assert (T : forall n lo hi, lo <= n -> n <= hi -> n < 256 -> between lo hi (byte_of n) = true).
  { intros n lo hi K1 K2 K3. unfold between. rewrite of_byte_of by exact K3.
    apply andb_true_iff. split; apply N.leb_le; assumption. }
  assert (F : forall n lo hi, hi < n -> n < 256 -> between lo hi (byte_of n) = false).
  { intros n lo hi K1 K3. unfold between. rewrite of_byte_of by exact K3.
    apply andb_false_iff. right. apply N.leb_gt, K1. }
  destruct (N.ltb_spec c 0x800).
  { cbn [map app utf8]. rewrite !of_byte_of by lia.
    destruct (N.ltb_spec (0xC0 + q1) 0x80); [lia|].
    unfold cont. rewrite !T by lia. reflexivity. }
  destruct (N.ltb_spec c 0x10000).
  { cbn [map app utf8]. rewrite !of_byte_of by lia.
    destruct (N.ltb_spec (0xE0 + q2) 0x80); [lia|].
    unfold cont. rewrite (F (0xE0 + q2) 0xC2 0xDF) by lia. rewrite (T (0xE0 + q2)) by lia.
    rewrite (T (0x80 + x)) by lia.
    destruct (N.eqb_spec (0xE0 + q2) 0xE0); [|destruct (N.eqb_spec (0xE0 + q2) 0xED)];
      rewrite T by lia; reflexivity. }
  cbn [map app utf8]. rewrite !of_byte_of by lia.
  destruct (N.ltb_spec (0xF0 + q3) 0x80); [lia|].
  unfold cont. rewrite (F (0xF0 + q3) 0xC2 0xDF), (F (0xF0 + q3) 0xE0 0xEF) by lia.
  rewrite (T (0xF0 + q3)) by lia.
  rewrite (T (0x80 + x)), (T (0x80 + y)) by lia.
  destruct (N.eqb_spec (0xF0 + q3) 0xF0); [|destruct (N.eqb_spec (0xF0 + q3) 0xF4)];
    rewrite T by lia; reflexivity.
Qed.

Lemma byte_of_eq n a : n = of_byte a -> byte_of n = a.
Proof. intros ->. apply byte_of_of. Qed.

Lemma utf8_head s : utf8 s = true -> s <> [] ->
  exists c t, scalar c /\ s = encode c ++ t /\ utf8 t = true /\ (length t < length s)%nat.
Proof.
  intros H Hne. destruct s as [|a s]; [congruence|]. clear Hne.
  cbn [utf8] in H. unfold cont, between in H.
  pose proof (of_byte_lt a) as La.
  destruct (N.ltb_spec (of_byte a) 0x80).
  { exists (of_byte a), s. split; [split; lia|]. unfold encode.
    destruct (N.ltb_spec (of_byte a) 0x80); [|lia]. cbn. rewrite byte_of_of. auto. }
  destruct ((0xC2 <=? of_byte a) && (of_byte a <=? 0xDF)) eqn:B1.
  { destruct s as [|c1 s]; [discriminate|].
    apply andb_true_iff in B1 as [B1 B1']. apply N.leb_le in B1, B1'.
    apply andb_true_iff in H as [H H']. apply andb_true_iff in H as [H1 H2].
    apply N.leb_le in H1, H2.
    exists ((of_byte a - 0xC0) * 64 + (of_byte c1 - 0x80)), s.
    set (c := (of_byte a - 0xC0) * 64 + (of_byte c1 - 0x80)).
    assert (Q1 : c / 64 = of_byte a - 0xC0) by (symmetry; apply (N.div_unique _ _ _ (of_byte c1 - 0x80)); unfold c; lia).
    assert (R1 : c mod 64 = of_byte c1 - 0x80) by (symmetry; apply (N.mod_unique _ _ (of_byte a - 0xC0)); unfold c; lia).
    split; [split; unfold c; lia|]. split; [|split; [exact H'|cbn; lia]].
    unfold encode. destruct (N.ltb_spec c 0x80); [unfold c in *; lia|].
    destruct (N.ltb_spec c 0x800); [|unfold c in *; lia].
    cbn [map app]. rewrite Q1, R1.
    rewrite (byte_of_eq _ a) by lia. rewrite (byte_of_eq _ c1) by lia. reflexivity. }
  destruct ((0xE0 <=? of_byte a) && (of_byte a <=? 0xEF)) eqn:B2.
  { destruct s as [|c1 [|c2 s]]; [discriminate|discriminate|].
    apply andb_true_iff in B2 as [B2 B2']. apply N.leb_le in B2, B2'.
    apply andb_true_iff in H as [H H']. apply andb_true_iff in H as [H1 H2].
    apply andb_true_iff in H2 as [H2 H3]. apply N.leb_le in H2, H3.
    assert (K : 0x80 <= of_byte c1 <= 0xBF /\ (of_byte a = 0xE0 -> 0xA0 <= of_byte c1) /\
                (of_byte a = 0xED -> of_byte c1 <= 0x9F)).
    { destruct (N.eqb_spec (of_byte a) 0xE0); [|destruct (N.eqb_spec (of_byte a) 0xED)];
        apply andb_true_iff in H1 as [K1 K2]; apply N.leb_le in K1, K2; lia. }
    clear H1. destruct K as (K1 & K2 & K3).
    set (q2 := of_byte a - 0xE0). set (y := of_byte c1 - 0x80). set (x := of_byte c2 - 0x80).
    exists ((q2 * 64 + y) * 64 + x), s.
    set (c := (q2 * 64 + y) * 64 + x).
    assert (Q1 : c / 64 = q2 * 64 + y) by (symmetry; apply (N.div_unique _ _ _ x); unfold c, x; lia).
    assert (R1 : c mod 64 = x) by (symmetry; apply (N.mod_unique _ _ (q2 * 64 + y)); unfold c, x; lia).
    assert (Q2 : (q2 * 64 + y) / 64 = q2) by (symmetry; apply (N.div_unique _ _ _ y); unfold y; lia).
    assert (R2 : (q2 * 64 + y) mod 64 = y) by (symmetry; apply (N.mod_unique _ _ q2); unfold y; lia).
    split; [split; unfold c, q2, y, x; lia|]. split; [|split; [exact H'|cbn; lia]].
    unfold encode. destruct (digits64 c) as [-> _].
    destruct (N.ltb_spec c 0x80); [unfold c, q2, y, x in *; lia|].
    destruct (N.ltb_spec c 0x800); [unfold c, q2, y, x in *; lia|].
    destruct (N.ltb_spec c 0x10000); [|unfold c, q2, y, x in *; lia].
    cbn [map app]. rewrite Q1, R1, Q2, R2.
    rewrite (byte_of_eq _ a), (byte_of_eq _ c1), (byte_of_eq _ c2) by (unfold q2, y, x; lia).
    reflexivity. }
  destruct ((0xF0 <=? of_byte a) && (of_byte a <=? 0xF4)) eqn:B3; [|discriminate].
  destruct s as [|c1 [|c2 [|c3 s]]]; try discriminate.
  apply andb_true_iff in B3 as [B3 B3']. apply N.leb_le in B3, B3'.
  apply andb_true_iff in H as [H H']. apply andb_true_iff in H as [H H4].
  apply andb_true_iff in H as [H1 H2].
  apply andb_true_iff in H2 as [H2 H3]. apply N.leb_le in H2, H3.
  apply andb_true_iff in H4 as [H4 H5]. apply N.leb_le in H4, H5.
  assert (K : 0x80 <= of_byte c1 <= 0xBF /\ (of_byte a = 0xF0 -> 0x90 <= of_byte c1) /\
              (of_byte a = 0xF4 -> of_byte c1 <= 0x8F)).
  { destruct (N.eqb_spec (of_byte a) 0xF0); [|destruct (N.eqb_spec (of_byte a) 0xF4)];
      apply andb_true_iff in H1 as [K1 K2]; apply N.leb_le in K1, K2; lia. }
  clear H1. destruct K as (K1 & K2 & K3).
  set (q3 := of_byte a - 0xF0). set (z := of_byte c1 - 0x80).
  set (y := of_byte c2 - 0x80). set (x := of_byte c3 - 0x80).
  exists (((q3 * 64 + z) * 64 + y) * 64 + x), s.
  set (c := ((q3 * 64 + z) * 64 + y) * 64 + x).
  assert (Q1 : c / 64 = (q3 * 64 + z) * 64 + y) by (symmetry; apply (N.div_unique _ _ _ x); unfold c, x; lia).
  assert (R1 : c mod 64 = x) by (symmetry; apply (N.mod_unique _ _ ((q3 * 64 + z) * 64 + y)); unfold c, x; lia).
  assert (Q2 : ((q3 * 64 + z) * 64 + y) / 64 = q3 * 64 + z) by (symmetry; apply (N.div_unique _ _ _ y); unfold y; lia).
  assert (R2 : ((q3 * 64 + z) * 64 + y) mod 64 = y) by (symmetry; apply (N.mod_unique _ _ (q3 * 64 + z)); unfold y; lia).
  assert (Q3 : (q3 * 64 + z) / 64 = q3) by (symmetry; apply (N.div_unique _ _ _ z); unfold z; lia).
  assert (R3 : (q3 * 64 + z) mod 64 = z) by (symmetry; apply (N.mod_unique _ _ q3); unfold z; lia).
  split; [split; unfold c, q3, z, y, x; lia|]. split; [|split; [exact H'|cbn; lia]].
  unfold encode. destruct (digits64 c) as [-> ->].
  destruct (N.ltb_spec c 0x80); [unfold c, q3, z, y, x in *; lia|].
  destruct (N.ltb_spec c 0x800); [unfold c, q3, z, y, x in *; lia|].
  destruct (N.ltb_spec c 0x10000); [unfold c, q3, z, y, x in *; lia|].
  cbn [map app]. rewrite Q1, R1, Q2, R2, Q3, R3.
  rewrite (byte_of_eq _ a), (byte_of_eq _ c1), (byte_of_eq _ c2), (byte_of_eq _ c3)
    by (unfold q3, z, y, x; lia).
  reflexivity.
Qed.

(** The check used throughout the model is exactly well-formedness. *)
Theorem utf8_well_formed s : utf8 s = true <-> well_formed s.
Proof.
  split.
  - remember (length s) as n eqn:E. revert s E.
    induction n as [n IH] using lt_wf_ind. intros s -> H.
    destruct s as [|a s]; [exists []; split; [constructor|reflexivity]|].
    destruct (utf8_head _ H ltac:(discriminate)) as (c & t & Hc & Es & Ht & Hl).
    destruct (IH _ Hl t eq_refl Ht) as (cs & H1 & H2).
    exists (c :: cs). split; [constructor; assumption|]. cbn [flat_map]. congruence.
  - intros (cs & H & ->). induction H as [|c cs Hc H IH]; [reflexivity|].
    cbn [flat_map]. rewrite utf8_encode by exact Hc. exact IH.
Qed.
