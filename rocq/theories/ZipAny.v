(** What holds of the archive reader for arbitrary bytes: it ends, and what it accepts. *)
From Verif Require Import ZipModel ZipSpec ZipProofs.
Local Open Scope nat_scope.

(** The little-endian number of [n] bytes at position [p]. *)
Definition field (data : bytes) (p : N) (n : N) : N := of_le (firstn (N.to_nat n) (skipn (N.to_nat p) data)).

Lemma zle_inv data n p v p' : zle data n p = Ok (v, p') -> (p + n <= size data)%N /\ v = field data p n /\ p' = (p + n)%N.
Proof.
  unfold zle, zbind, zget. destruct (N.leb_spec (p + n) (size data)); cbn [bind]; [|discriminate].
  unfold zret. intros [= <- <-]. auto.
Qed.
Lemma zget_inv data n p v p' : zget data n p = Ok (v, p') -> p' = (p + n)%N /\ (p + n <= size data)%N.
Proof. unfold zget. destruct (N.leb_spec (p + n) (size data)); [|discriminate]. intros [= <- <-]. auto. Qed.
Lemma zbind_inv {A B} (m : at_pos A) (k : A -> at_pos B) p y q : zbind m k p = Ok (y, q) -> exists x p', m p = Ok (x, p') /\ k x p' = Ok (y, q).
Proof. unfold zbind. destruct (m p) as [[x p']| | | |]; cbn [bind]; try discriminate. eauto. Qed.

(** ** Outcomes: never a panic, never out of fuel *)
Definition calm {A} (r : res A) : Prop := match r with Ok _ | Err _ => True | _ => False end.
Lemma calm_bind {A B} (m : at_pos A) (k : A -> at_pos B) p : calm (m p) -> (forall x p', m p = Ok (x, p') -> calm (k x p')) -> calm (zbind m k p).
Proof. unfold zbind. destruct (m p) as [[x p']| | | |]; cbn; try tauto. intros _ H. exact (H x p' eq_refl). Qed.
Lemma calm_get data n p : calm (zget data n p).
Proof. unfold zget. destruct (_ <=? _)%N; exact I. Qed.
Lemma calm_le data n p : calm (zle data n p).
Proof. apply calm_bind; [apply calm_get|]. intros. exact I. Qed.
Lemma calm_back data k p : calm (seek_back data k p).
Proof. unfold seek_back. destruct (_ <=? _)%N; exact I. Qed.
Ltac calm :=
  repeat first
    [ exact I
    | apply calm_le | apply calm_get | apply calm_back
    | match goal with |- calm (if ?c then _ else _) => destruct c end
    | match goal with |- calm ((if ?c then _ else _) _) => destruct c end
    | apply calm_bind; [|intros ? ? _] ].
Lemma find_calm data max_back : forall fuel pos p, (max_back < pos + N.of_nat fuel)%N -> fuel <> 0 -> calm (find_eocdr data fuel pos max_back p).
Proof.
  induction fuel as [|f IH]; intros pos p H Nf; [congruence|]. cbn [find_eocdr].
  destruct (N.ltb_spec pos max_back); [|exact I].
  apply calm_bind; [calm|]. intros [] p1 _. apply calm_bind; [calm|]. intros sig p2 _.
  destruct (_ =? _)%N; [exact I|]. apply IH; lia.
Qed.
Lemma extra_calm data len0 : forall fuel total v p, (size data < p + 4 * N.of_nat fuel)%N -> fuel <> 0 -> calm (read_extra data fuel total len0 v p).
Proof.
  induction fuel as [|f IH]; intros total v p H Nf; [congruence|]. cbn [read_extra].
  destruct (total <? len0)%N; [|exact I].
  apply calm_bind; [calm|]. intros id p1 E1. apply zle_inv in E1. apply calm_bind; [calm|]. intros sz p2 E2. apply zle_inv in E2.
  destruct v as [[un co] lo].
  apply calm_bind.
  { destruct (id =? 1)%N; [|exact I]. unfold zip64_value. 
    repeat (apply calm_bind; [calm|]; intros [? ?] ? _). exact I. }
  intros [v' dr] p3 E3. destruct (sz <? dr)%N; [exact I|].
  unfold zbind, seek_by. cbn [bind].
  assert (L : (p2 <= p3)%N).
  { clear -E3. destruct (id =? 1)%N; [|injection E3; intros; subst; lia].
    apply zbind_inv in E3. destruct E3 as ([un' d1] & q1 & X1 & E3). apply zbind_inv in E3. destruct E3 as ([co' d2] & q2 & X2 & E3).
    apply zbind_inv in E3. destruct E3 as ([lo' d3] & q3 & X3 & E3). injection E3. intros <- _ _.
    assert (Z : forall x y q q', zip64_value data x q = Ok (y, q') -> (q <= q')%N).
    { intros x y q q' Hz. unfold zip64_value in Hz. destruct (_ =? _)%N; [|injection Hz; intros; subst; lia].
      apply zbind_inv in Hz. destruct Hz as (w & qq & Hw & Hz). apply zle_inv in Hw. injection Hz. intros; subst. lia. }
    apply Z in X1, X2, X3. lia. }
  apply IH; [lia|]. intros ->. lia.
Qed.
Lemma open_calm data inflate bunzip plan : calm (zip_open data inflate bunzip plan).
Proof.
  assert (G : calm (zip_open_at data inflate bunzip plan 0%N)).
  { unfold zip_open_at.
    apply calm_bind; [unfold find_eocdr_and_prepare_to_read; apply find_calm; [lia|discriminate]|]. intros [] p1 _.
    apply calm_bind; [unfold read_eocdr; calm|]. intros e p2 _.
    apply calm_bind.
    { unfold central_dir_offset. destruct (seek_back _ _ _) as [[[] q]| | | |]; try exact I.
      unfold read_zip64_locator, read_zip64_eocdr. calm. }
    intros start p3 _. apply calm_bind; [calm|]. intros _ p4 _.
    apply calm_bind.
    { unfold read_central. apply calm_bind; [calm|]. intros sig q0 _. destruct (negb _); [exact I|].
      do 17 (apply calm_bind; [calm|]; intros ? ? _).
      apply calm_bind; [apply extra_calm; [unfold size; lia|discriminate]|]. intros [[un co] lo] q _. calm. }
    intros cd p5 _. calm. }
  unfold zip_open. destruct (zip_open_at data inflate bunzip plan 0%N) as [[x p]| | | |]; exact G.
Qed.

(** ** What is accepted *)
Lemma find_inv data max_back : forall fuel pos p q, find_eocdr data fuel pos max_back p = Ok (tt, q) -> (4 <= pos)%N -> (max_back <= size data)%N ->
  (4 < q)%N /\ (q <= size data)%N /\ (q + pos <= size data + 4)%N /\ field data (q - 4) 4 = 0x06054b50%N /\
  (forall q', q - 4 < q' -> q' + pos <= size data -> field data q' 4 <> 0x06054b50)%N.
Proof.
  induction fuel as [|f IH]; intros pos p q H P M; [discriminate|]. cbn [find_eocdr] in H.
  destruct (N.ltb_spec pos max_back); [|discriminate].
  apply zbind_inv in H. destruct H as ([] & p1 & E1 & H). unfold seek_back in E1.
  destruct (N.leb_spec pos (size data)); [|discriminate]. injection E1. intros <-. clear E1.
  apply zbind_inv in H. destruct H as (sig & p2 & E2 & H). apply zle_inv in E2. destruct E2 as (L2 & -> & ->).
  destruct (N.eqb_spec (field data (size data - pos) 4) END_OF_CENTRAL_DIR_RECORD_SIGNATURE) as [E|N0].
  - injection H. intros <-. replace (size data - pos + 4 - 4)%N with (size data - pos)%N by lia.
    repeat split; try lia. exact E.
  - apply IH in H; [|lia|lia]. destruct H as (K1 & K2 & K3 & K4 & K5). do 3 (split; [lia|]). split; [exact K4|].
    intros q' L1 L3. destruct (N.eq_dec (q' + pos) (size data)) as [Eq|Nq].
    + replace q' with (size data - pos)%N by lia. exact N0.
    + apply K5; lia.
Qed.
Ltac zinv H :=
  apply zbind_inv in H;
  let v := fresh "v" in let p := fresh "p" in let E := fresh "E" in
  destruct H as (v & p & E & H); apply zle_inv in E;
  let L := fresh "L" in destruct E as (L & -> & ->).
Lemma eocdr_inv data q o c p : read_eocdr data q = Ok ((o, c), p) ->
  (q + 18 <= size data)%N /\ field data q 2 = 0%N /\ field data (q + 2) 2 = 0%N /\ field data (q + 4) 2 = 1%N /\ field data (q + 6) 2 = 1%N /\
  o = field data (q + 12) 4 /\ c = field data (q + 16) 2.
Proof.
  unfold read_eocdr. intro H. do 7 zinv H. rewrite step_by in H.
  destruct (_ || _) eqn:B1 in H; [discriminate|]. destruct (_ || _) eqn:B2 in H; [discriminate|].
  apply orb_false_iff in B1, B2. destruct B1 as [B1 B1'], B2 as [B2 B2'].
  apply negb_false_iff, N.eqb_eq in B1, B1', B2, B2'. injection H. intros <- <- <-.
  rewrite <- !N.add_assoc in *. cbn [N.add Pos.add Pos.succ Pos.add_carry] in *. repeat split; auto.
Qed.
Lemma central_inv data q cd p : read_central data q = Ok (cd, p) ->
  (q + 46 <= size data)%N /\ field data q 4 = 0x02014b50%N /\ N.testbit (field data (q + 8) 2) 0 = false /\
  cd_method cd = field data (q + 10) 2 /\ cd_crc32 cd = field data (q + 16) 4 /\
  (field data (q + 34) 2 = 0 \/ field data (q + 34) 2 = 65535)%N.
Proof.
  unfold read_central. intro H. zinv H.
  destruct (N.eqb_spec (field data q 4) CENTRAL_FILE_HEADER_SIGNATURE) as [S|]; cbn [negb] in H; [|discriminate].
  do 16 zinv H. apply zbind_inv in H. destruct H as (name & pn & En & H).
  apply zbind_inv in H. destruct H as ([[un co] lo] & px & Ex & H). rewrite step_by in H.
  destruct (N.testbit _ 0) eqn:Fl in H; [discriminate|]. destruct (_ && _) eqn:Ds in H; [discriminate|].
  injection H. intros <- <-. cbn [cd_method cd_crc32].
  rewrite <- !N.add_assoc in *. cbn [N.add Pos.add Pos.succ Pos.add_carry] in *.
  repeat split; auto.
  apply andb_false_iff in Ds. destruct Ds as [Ds|Ds]; apply negb_false_iff, N.eqb_eq in Ds; auto.
Qed.
(** The position of the central directory: from the end record, or from a zip64 record. *)
Definition zip64_says (data : bytes) (start : N) : Prop := exists l z,
  (field data l 4 = 0x07064b50 /\ field data (l + 4) 4 = 0 /\ z = field data (l + 8) 8 /\ field data (l + 16) 4 = 1 /\
   field data z 4 = 0x06064b50 /\ field data (z + 16) 4 = 0 /\ field data (z + 20) 4 = 0 /\
   field data (z + 24) 8 = 1 /\ field data (z + 32) 8 = 1 /\ start = field data (z + 48) 8)%N.
Lemma offset_inv data o c q start p : central_dir_offset data (o, c) q = Ok (start, p) -> start = o \/ zip64_says data start.
Proof.
  unfold central_dir_offset. cbn [fst snd]. destruct (seek_back _ _ _) as [[[] l]| | | |]; [|intros [= <- _]; auto..].
  intro H. zinv H. destruct (N.eqb_spec (field data l 4) ZIP64_END_OF_CENTRAL_DIR_LOCATOR_SIGNATURE) as [S|]; cbn [negb] in H; [|injection H; auto].
  right. apply zbind_inv in H. destruct H as (z & pz & E & H). unfold read_zip64_locator in E. do 3 zinv E.
  destruct (_ || _) eqn:B1 in E; [discriminate|]. apply orb_false_iff in B1. destruct B1 as [B1 B1'].
  apply negb_false_iff, N.eqb_eq in B1, B1'. injection E. intros <- <-. clear E.
  rewrite step_start in H. zinv H. destruct (N.eqb_spec (field data (field data (l + 4 + 4) 8) 4) ZIP64_END_OF_CENTRAL_DIR_RECORD_SIGNATURE) as [S'|]; cbn [negb] in H; [|discriminate].
  unfold read_zip64_eocdr in H. do 9 zinv H.
  destruct (_ || _) eqn:B2 in H; [discriminate|]. destruct (_ || _) eqn:B3 in H; [discriminate|].
  apply orb_false_iff in B2, B3. destruct B2 as [B2 B2'], B3 as [B3 B3'].
  apply negb_false_iff, N.eqb_eq in B2, B2', B3, B3'. injection H. intros <- <-.
  exists l, (field data (l + 4 + 4) 8).
  rewrite <- !N.add_assoc in *. cbn [N.add Pos.add Pos.succ Pos.add_carry] in *. repeat split; auto.
Qed.
