(** C39-C41: guessing a CSV file's delimiter, header and column types. *)
From Verif Require Import CsvUtilModel CsvUtilSpec CsvUtilProofs.
From Coq Require Import Permutation.
Local Open Scope nat_scope.

(** ** C39 *)

(** What the property asks of a guess: a candidate occurring most often in the line, the
    earliest listed among ties. *)
Definition best_delimiter (cs : text) (possible : list byte) (d : byte) : Prop :=
  exists pre post, possible = pre ++ d :: post /\
    Forall (fun x => occurs (of_byte x) cs < occurs (of_byte d) cs) pre /\
    Forall (fun x => occurs (of_byte x) cs <= occurs (of_byte d) cs) post.

Lemma count_alias d cs : Forall (fun c => (c mod 256 = d -> c = d)%N) cs -> (d < 256)%N ->
  length (filter (fun c => (c mod 256 =? d)%N) cs) = occurs d cs.
Proof.
  unfold occurs. intros H Hd. induction H as [|c cs Hc H IH]; [reflexivity|]. cbn.
  destruct (N.eqb_spec (c mod 256) d) as [E|E].
  - rewrite (Hc E). destruct (N.eq_dec d d); [|congruence]. cbn. rewrite IH. reflexivity.
  - destruct (N.eq_dec c d) as [->|]; [exfalso; apply E; apply N.mod_small, Hd|exact IH].
Qed.

Lemma guess_head row possible d : guess_delimiter row possible = Ok d ->
  exists pre post, possible = pre ++ d :: post /\
    Forall (fun x => delim_count row x < delim_count row d) pre /\
    Forall (fun x => delim_count row x <= delim_count row d) post.
Proof.
  unfold guess_delimiter. destruct possible as [|p ps]; [discriminate|].
  intro H. apply sort_head.
  destruct (hd_error _) as [x|]; cbn in H; [congruence|discriminate].
Qed.

(** What holds: on lines none of whose characters has a candidate as its low byte without
    being it (in particular on ASCII lines), the guess is the most frequent candidate, and
    there is a guess unless the list of candidates is empty. *)
Theorem C39_most_frequent_partial cs possible :
  Forall scalar cs -> possible <> [] ->
  (forall c x, In c cs -> In x possible -> (c mod 256 = of_byte x -> c = of_byte x)%N) ->
  exists d, guess_delimiter (str cs) possible = Ok d /\ best_delimiter cs possible d.
Proof.
  intros S Np A.
  assert (G : exists d, guess_delimiter (str cs) possible = Ok d).
  { unfold guess_delimiter. destruct possible as [|p ps]; [congruence|].
    set (l := sort_by _ (p :: ps)). assert (P : Permutation (p :: ps) l) by apply sort_perm.
    destruct l as [|x l]; [apply Permutation_sym, Permutation_nil in P; discriminate|].
    exists x. reflexivity. }
  destruct G as [d G]. exists d. split; [exact G|].
  destruct (guess_head _ _ _ G) as (pre & post & E & Fp & Fq).
  assert (C : forall x, In x possible -> delim_count (str cs) x = occurs (of_byte x) cs).
  { intros x Hx. unfold delim_count. rewrite chars_str by exact S. apply count_alias; [|apply of_byte_lt].
    apply Forall_forall. intros c Hc. apply A; assumption. }
  exists pre, post. split; [exact E|].
  assert (I : forall x, In x pre \/ x = d \/ In x post -> In x possible).
  { intros x Hx. rewrite E. apply in_or_app. cbn. intuition. }
  rewrite Forall_forall in Fp, Fq. split; apply Forall_forall; intros x Hx.
  - rewrite <- !C by (apply I; auto). apply Fp, Hx.
  - rewrite <- !C by (apply I; auto). apply Fq, Hx.
Qed.
Print Assumptions C39_most_frequent_partial.

(** On ASCII lines and candidates in particular. *)
Corollary C39_ascii_partial cs possible : Forall (fun c => c < 128)%N cs -> possible <> [] ->
  exists d, guess_delimiter (str cs) possible = Ok d /\ best_delimiter cs possible d.
Proof.
  intros A Np. rewrite Forall_forall in A. apply C39_most_frequent_partial; [|exact Np|].
  - apply Forall_forall. intros c Hc. specialize (A c Hc). unfold scalar. lia.
  - intros c x Hc _ E. specialize (A c Hc). rewrite N.mod_small in E by lia. exact E.
Qed.
Print Assumptions C39_ascii_partial.

(** The program violates the property in general: the letter U+012C counts as a comma.  A line of
    [n] tabs and [n + 1] such letters has no comma, and yet the comma is what is guessed from the
    candidates that CSVSource uses. *)
Theorem C39_non_ascii_refuted : forall n, 1 <= n ->
  let line := (repeat 0x12C (S n) ++ repeat 9 n)%N in
  let candidates := [byte_of 44; byte_of 9; byte_of 32] in
  guess_delimiter (str line) candidates = Ok (byte_of 44) /\
  occurs 44 line = 0 /\ occurs 9 line = n /\
  ~ best_delimiter line candidates (byte_of 44).
Proof.
  intros n Hn line candidates.
  assert (O : forall c d k, occurs d (repeat c k) = if N.eq_dec c d then k else 0).
  { intros c d k. unfold occurs. induction k as [|k IH]; cbn; [destruct (N.eq_dec c d); reflexivity|].
    destruct (N.eq_dec c d); rewrite IH; reflexivity. }
  assert (L : occurs 44 line = 0 /\ occurs 9 line = n).
  { unfold line, occurs. rewrite !count_occ_app. fold (occurs 44 (repeat 0x12C%N (S n))) (occurs 44 (repeat 9%N n))
      (occurs 9 (repeat 0x12C%N (S n))) (occurs 9 (repeat 9%N n)). rewrite !O. cbn. lia. }
  destruct L as [L1 L2].
  assert (Sc : Forall scalar line).
  { unfold line. apply Forall_app. split; apply Forall_forall; intros x Hx; apply repeat_spec in Hx; rewrite Hx; unfold scalar; lia. }
  assert (F : forall d c k, length (filter (fun c => (c mod 256 =? d)%N) (repeat c k)) = if (c mod 256 =? d)%N then k else 0).
  { intros d c k. induction k as [|k IH]; cbn [repeat filter]; [destruct (_ =? _)%N; reflexivity|].
    destruct (c mod 256 =? d)%N; cbn [length]; rewrite IH; reflexivity. }
  assert (C1 : delim_count (str line) (byte_of 44) = 1 + n /\ delim_count (str line) (byte_of 9) = n
             /\ delim_count (str line) (byte_of 32) = 0).
  { unfold delim_count. rewrite chars_str by exact Sc. unfold line. rewrite !filter_app, !app_length, !F.
    change (of_byte (byte_of 9)) with 9%N. change (of_byte (byte_of 44)) with 44%N.
    change (of_byte (byte_of 32)) with 32%N. cbn -[repeat]. lia. }
  destruct C1 as (C1 & C2 & C3).
  repeat split; try assumption.
  - unfold guess_delimiter, candidates. remember (byte_of 9) as tab. remember (byte_of 44) as comma.
    remember (byte_of 32) as space.
    assert (K1 : (n ?= 1 + n) = Lt) by (apply Nat.compare_lt_iff; lia).
    assert (K2 : (1 + n ?= n) = Gt) by (apply Nat.compare_gt_iff; lia).
    assert (K3 : (0 ?= n) = Lt) by (apply Nat.compare_lt_iff; lia).
    assert (K4 : (n ?= 0) = Gt) by (apply Nat.compare_gt_iff; lia).
    cbn -[delim_count str line Nat.compare]. repeat (rewrite ?C1, ?C2, ?C3, ?K1, ?K2, ?K3, ?K4; cbn -[delim_count str line Nat.compare]).
    reflexivity.
  - intros (pre & post & E & Fp & Fq). change (of_byte (byte_of 44)) with 44%N in *. rewrite L1 in *.
    destruct pre as [|x pre]; [|inversion Fp; lia].
    assert (Ep : post = [byte_of 9; byte_of 32]) by (apply (f_equal (@tl byte)) in E; symmetry; exact E). rewrite Ep in Fq.
    apply Forall_inv in Fq. change (of_byte (byte_of 9)) with 9%N in Fq. rewrite L2 in Fq. lia.
Qed.
Print Assumptions C39_non_ascii_refuted.

Example C39_nonvacuous : (* "a\tb\tc,d" with the program's own candidates *)
  guess_delimiter (b "a	b	c,d") [byte_of 44; byte_of 9; byte_of 32] = Ok (byte_of 9) /\
  guess_delimiter (b "plain") [byte_of 44; byte_of 9; byte_of 32] = Ok (byte_of 44).
Proof. vm_compute. auto. Qed.

(** ** C40 *)

(** False without two lines; with two lines, true exactly when the sequences of column types
    differ. *)
Theorem C40_conservative f64_ok d :
  (forall l, guess_has_header f64_ok None l d = false) /\
  (forall l, guess_has_header f64_ok l None d = false) /\
  forall l1 l2 fs1 fs2, Forall scalar l1 -> Forall scalar l2 ->
    fields_of (of_byte d) l1 fs1 -> fields_of (of_byte d) l2 fs2 ->
    (guess_has_header f64_ok (Some (str l1)) (Some (str l2)) d = false <->
     exists ts, Forall2 (looks_like f64_ok) fs1 ts /\ Forall2 (looks_like f64_ok) fs2 ts).
Proof.
  split; [reflexivity|]. split; [intros [l|]; reflexivity|].
  intros l1 l2 fs1 fs2 S1 S2 F1 F2. unfold guess_has_header. rewrite Bool.negb_false_iff, list_eqb_ftype.
  assert (U : forall l fs fs', fields_of (of_byte d) l fs -> fields_of (of_byte d) l fs' -> fs = fs').
  { intros l fs fs' A B. apply fields_unique in A, B. congruence. }
  split.
  - intro E. exists (line_types f64_ok (str l1) d). split.
    + destruct (proj1 (line_types_spec f64_ok l1 d _ S1) eq_refl) as (fs & A & B). rewrite (U _ _ _ F1 A). exact B.
    + rewrite E. destruct (proj1 (line_types_spec f64_ok l2 d _ S2) eq_refl) as (fs & A & B). rewrite (U _ _ _ F2 A). exact B.
  - intros (ts & A & B).
    rewrite (proj2 (line_types_spec f64_ok l1 d ts S1)) by eauto.
    rewrite (proj2 (line_types_spec f64_ok l2 d ts S2)) by eauto. reflexivity.
Qed.
Print Assumptions C40_conservative.

(** Every line has exactly one sequence of fields, every field exactly one type. *)
Theorem C40_fields_and_types_unique f64_ok d :
  (forall l, exists fs, fields_of d l fs /\ forall fs', fields_of d l fs' -> fs' = fs) /\
  (forall f, exists t, looks_like f64_ok f t /\ forall t', looks_like f64_ok f t' -> t' = t).
Proof.
  split.
  - intro l. exists (split_on d l). split; [apply split_on_fields|]. intros fs' H. symmetry. apply fields_unique, H.
  - intro f. exists (guess_type f64_ok (trim f)). split; [apply guess_type_looks|].
    intros t' H. eapply looks_like_det; [exact H|apply guess_type_looks].
Qed.
Print Assumptions C40_fields_and_types_unique.

Example C40_nonvacuous :
  let no_floats := fun _ : text => false in
  guess_has_header no_floats (Some (b "time,price")) (Some (b "100, 23 ")) (byte_of 44) = true /\
  guess_has_header no_floats (Some (b "x,12")) (Some (b "y, -7")) (byte_of 44) = false /\
  guess_has_header no_floats (Some (b "x,12")) (Some (b "y")) (byte_of 44) = true.
Proof. vm_compute. auto. Qed.

(** ** C41 *)
Theorem C41_common_type l :
  ((l = [] \/ Exists non_numeric l) -> guess_common_type l = TString) /\
  (l <> [] -> ~ Exists non_numeric l -> Exists floating l -> guess_common_type l = TDouble) /\
  (l <> [] -> ~ Exists non_numeric l -> ~ Exists floating l -> guess_common_type l = TLong).
Proof.
  destruct (guess_common_spec l) as [[A B]|[(A & B & C & D)|(A & B & C & D)]]; repeat split; intros; try assumption; exfalso; tauto.
Qed.
Print Assumptions C41_common_type.

Theorem C41_order_irrelevant l l' : Permutation l l' -> guess_common_type l = guess_common_type l'.
Proof.
  intro P.
  assert (Q : forall R : ftype -> Prop, Exists R l <-> Exists R l').
  { intro R. rewrite !Exists_exists. split; intros (x & I & H); exists x; split; trivial.
    - eapply Permutation_in; eauto. - eapply Permutation_in; [apply Permutation_sym|]; eauto. }
  assert (E : l = [] <-> l' = []).
  { split; intros ->; [apply Permutation_nil|apply Permutation_nil, Permutation_sym]; exact P. }
  pose proof (Q non_numeric). pose proof (Q floating).
  destruct (guess_common_spec l) as [[A ->]|[(A & B & C & ->)|(A & B & C & ->)]];
    destruct (guess_common_spec l') as [[A' ->]|[(A' & B' & C' & ->)|(A' & B' & C' & ->)]]; try reflexivity; exfalso; tauto.
Qed.
Print Assumptions C41_order_irrelevant.

Example C41_nonvacuous :
  guess_common_type [TInt; TFloat; TByte] = TDouble /\ guess_common_type [TInt; TBoolean] = TString /\
  guess_common_type [TInt; TShort] = TLong.
Proof. repeat split. Qed.
