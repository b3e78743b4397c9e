(** C139: the compressed stream of util/infistream. *)
From Verif Require Export InfiGzSpec.
From Verif Require Import T_Infi.
Local Open Scope nat_scope.

Section Gz.
Context {E : Type} (write : encoder E) (fresh : E).
Lemma gz_from prof n : forall g d taken sent, greedy write fresh -> g_vec g = [] -> encoded write fresh taken sent (g_encoder g) ->
  infi_gz_from write prof n g = Ok d ->
  exists plain e, infi_from prof n (g_timestamp g) = Ok plain /\ encoded write fresh (taken ++ plain) (sent ++ d) e.
Proof.
  induction n as [|n IH]; intros [v e vec] d taken sent G V H R; cbn [g_vec g_encoder g_timestamp] in *; subst vec.
  - injection R as <-. exists [], e. rewrite !app_nil_r. auto.
  - cbn [infi_gz_from] in R. unfold infi_gz_poll in R. cbn [g_vec g_encoder g_timestamp] in R. cbn [infi_from].
    destruct (infi_poll prof v) as [[row v']| | | |]; try discriminate. cbn [bind] in *.
    destruct (write row e) as [[[k more] e']| | | |] eqn:Ew; try discriminate. cbn [bind] in R.
    destruct (infi_gz_from write prof n _) as [rest| | | |] eqn:Er; try discriminate. cbn [bind] in R. injection R as <-.
    pose proof (encoded_more write fresh taken sent e row k more e' H Ew) as H'.
    rewrite (G _ _ _ _ _ _ _ H Ew), firstn_all in H'.
    destruct (IH {| g_timestamp := v'; g_encoder := e'; g_vec := [] |} rest (taken ++ row) (sent ++ more) G eq_refl H' Er) as (plain & e2 & A & B).
    cbn [g_timestamp] in A. exists (row ++ plain), e2. rewrite A. cbn [bind]. split; [reflexivity|].
    cbn [app] in *. rewrite !app_assoc in *. exact B.
Qed.
Lemma infi_line_len v : 1 <= length (infi_row v).
Proof. rewrite infi_row_line, app_length. cbn. lia. Qed.
Lemma infi_from_len prof n : forall v d, infi_from prof n v = Ok d -> n <= length d.
Proof.
  induction n as [|n IH]; intros v d H; [lia|]. cbn [infi_from] in H. unfold infi_poll in H.
  assert (K : forall v', (let* rest := infi_from prof n v' in Ok (infi_row v ++ rest)) = Ok d -> S n <= length d).
  { intros v' K. destruct (infi_from prof n v') as [rest| | | |] eqn:Er; try discriminate. cbn [bind] in K. injection K as <-.
    rewrite app_length. specialize (IH _ _ Er). pose proof (infi_line_len v). lia. }
  destruct (_ <? _)%N; [exact (K _ H)|]. destruct prof; [discriminate|exact (K _ H)].
Qed.
Lemma infi_from_prefix prof n m : n <= m -> forall v d, infi_from prof m v = Ok d -> exists c more, infi_from prof n v = Ok c /\ d = c ++ more.
Proof.
  revert n. induction m as [|m IH]; intros n L v d H.
  - assert (n = 0) as -> by lia. exists [], d. auto.
  - destruct n as [|n]; [exists [], d; auto|]. cbn [infi_from] in *.
    destruct (infi_poll prof v) as [[row v']| | | |]; try discriminate. cbn [bind] in *.
    destruct (infi_from prof m v') as [rest| | | |] eqn:Er; try discriminate. cbn [bind] in H. injection H as <-.
    destruct (IH n ltac:(lia) v' rest Er) as (c & more & A & ->). rewrite A. cbn [bind]. exists (row ++ c), more. rewrite app_assoc. auto.
Qed.

(** infinite.csv.gz: after any number of polls, what has been sent decompresses to a beginning of infinite.csv (the rows
    0, 1, 2... of C112), short of it by no more than the encoder holds back. *)
Theorem C139_stream_partial : forall prof gunzip lag n d,
  decodable write fresh gunzip lag -> greedy write fresh -> infi_gz_body write prof fresh n = Ok d ->
  exists plain k, infi_body prof n = Ok plain /\ gunzip d = firstn k plain /\ length plain <= length (gunzip d) + lag.
Proof.
  intros prof gunzip lag n d D G R.
  destruct (gz_from prof n {| g_timestamp := 0; g_encoder := fresh; g_vec := [] |} d [] [] G eq_refl (encoded_nothing write fresh) R) as (plain & e & A & B). cbn [g_timestamp app] in *.
  destruct (D _ _ _ B) as (k & E1 & E2). exists plain, k. split; [exact A|]. split; [exact E1|exact E2].
Qed.
(** So every row comes through, [lag] polls later at most. *)
Theorem C139_every_row_partial : forall prof gunzip lag n d,
  decodable write fresh gunzip lag -> greedy write fresh -> infi_gz_body write prof fresh (n + lag) = Ok d ->
  exists rows more, infi_body prof n = Ok rows /\ gunzip d = rows ++ more.
Proof.
  intros prof gunzip lag n d D G R.
  destruct (C139_stream_partial prof gunzip lag (n + lag) d D G R) as (plain & k & P & E1 & L).
  unfold infi_body in P.
  destruct (infi_from_prefix prof n (n + lag) ltac:(lia) 0%N plain P) as (rows & more & A & ->).
  assert (M : lag <= length more).
  { clear - P A. revert P A. generalize 0%N. revert rows. induction n as [|m IH]; intros rows v P A.
    - cbn [infi_from] in A. injection A as <-. cbn [app] in P. exact (infi_from_len _ _ _ _ P).
    - cbn [infi_from Nat.add] in *. destruct (infi_poll prof v) as [[row v']| | | |]; try discriminate. cbn [bind] in *.
      destruct (infi_from prof (m + lag) v') as [x| | | |] eqn:Ex; try discriminate. cbn [bind] in P.
      destruct (infi_from prof m v') as [y| | | |] eqn:Ey; try discriminate. cbn [bind] in A.
      injection A as <-. injection P as P. rewrite <- app_assoc in P. apply app_inv_head in P. subst x. exact (IH _ _ Ex Ey). }
  exists rows. rewrite E1 in *. rewrite firstn_length, app_length in L.
  exists (firstn (k - length rows) more). split; [exact A|].
  rewrite firstn_app. f_equal. apply firstn_all2. lia.
Qed.
End Gz.

(** If a write takes fewer bytes than it is given, the rest of the row is lost: an encoder that takes ten bytes at a time. *)
Definition ten : encoder unit := fun x e => Ok (min 10 (length x), firstn 10 x, e).
Lemma firstn_least {A} n (x : list A) : firstn (min n (length x)) x = firstn n x.
Proof.
  destruct (Nat.le_ge_cases n (length x)) as [L|L].
  - now rewrite Nat.min_l by exact L.
  - rewrite Nat.min_r by exact L. now rewrite firstn_all, firstn_all2.
Qed.
Lemma ten_decodable : decodable ten tt (fun s => s) 0.
Proof.
  intros taken sent e H. assert (X : taken = sent).
  { induction H as [|taken sent e x n more e' H IH Ew]; [reflexivity|]. unfold ten in Ew. injection Ew as <- <- <-. rewrite IH. apply (f_equal (app sent)). exact (firstn_least 10 x). }
  subst taken. exists (length sent). rewrite firstn_all. split; [reflexivity|lia].
Qed.
Theorem C139_short_write_refuted : exists (E : Type) (write : encoder E) fresh gunzip n d plain,
  decodable write fresh gunzip 0 /\ infi_gz_body write Debug fresh n = Ok d /\ infi_body Debug n = Ok plain /\
  forall k, gunzip d <> firstn k plain.
Proof.
  exists unit, ten, tt, (fun s => s), 2, (b "0,a0,b0,c01,a1,b1,c1"), (infi_row 0 ++ infi_row 1).
  split; [exact ten_decodable|]. split; [reflexivity|]. split; [reflexivity|].
  intros k E. apply (f_equal (fun l => nth 10 l "!"%char)) in E.
  destruct (Nat.le_gt_cases k 10) as [L|L].
  - rewrite (nth_overflow (firstn k _)) in E by (rewrite firstn_length; lia). discriminate E.
  - assert (X : forall (l : bytes) j m, j < m -> nth j (firstn m l) "!"%char = nth j l "!"%char).
    { induction l as [|x l IH]; intros [|j] [|m] Hj; try lia; try reflexivity. cbn. apply IH. lia. }
    rewrite X in E by exact L. discriminate E.
Qed.
(** An encoder that takes everything: one that sends each row when the next one comes. *)
Definition late : encoder bytes := fun x held => Ok (length x, held, x).
Example C139_late : infi_gz_body late Debug [] 3 = Ok (infi_row 0 ++ infi_row 1) /\ greedy late [] /\
  (forall taken sent e, encoded late [] taken sent e -> taken = sent ++ e).
Proof.
  split; [reflexivity|]. split; [intros taken sent e x n more e' _ H; unfold late in H; now injection H as <- _ _|].
  intros taken sent e H. induction H as [|taken sent e x n more e' H IH Ew]; [reflexivity|].
  unfold late in Ew. injection Ew as <- <- <-. now rewrite firstn_all, IH.
Qed.
(** Both hypotheses met: an encoder that holds back the last seven bytes of what it has been given. *)
Definition seven : encoder bytes := fun x held =>
  let all := held ++ x in Ok (length x, firstn (length all - 7) all, skipn (length all - 7) all).
Lemma seven_keeps taken sent e : encoded seven [] taken sent e -> taken = sent ++ e /\ length e <= 7.
Proof.
  intros H. induction H as [|taken sent e x n more e' H [IH L] Ew]; [split; [reflexivity|cbn; lia]|].
  unfold seven in Ew. injection Ew as <- <- <-. split.
  - rewrite firstn_all, IH, <- !app_assoc. f_equal. now rewrite firstn_skipn.
  - rewrite skipn_length. lia.
Qed.
Example C139_seven : decodable seven [] (fun s => s) 7 /\ greedy seven [] /\
  infi_gz_body seven Debug [] 2 = Ok (b "0,a0,b0,c0,d0,e0,f0" ++ ["010"%char] ++ b "1,a1,b1,c1,d1").
Proof.
  split; [|split].
  - intros taken sent e H. destruct (seven_keeps _ _ _ H) as [-> L]. exists (length sent).
    rewrite firstn_app, firstn_all, Nat.sub_diag. cbn [firstn]. rewrite app_nil_r, app_length. split; [reflexivity|lia].
  - intros taken sent e x n more e' _ H. unfold seven in H. now injection H as <- _ _.
  - reflexivity.
Qed.
Print Assumptions C139_stream_partial.
Print Assumptions C139_every_row_partial.
Print Assumptions C139_short_write_refuted.
