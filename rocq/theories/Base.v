(** Shared vocabulary of the model: results, bytes, Rust machine integers. *)
From Coq Require Export Ascii String List Arith NArith ZArith Lia Bool.
From Coq Require Export ZifyBool ZifyNat ZifyN.
Export ListNotations.
Open Scope list_scope.
Notation length := Datatypes.length (only parsing).
Notation concat := List.concat (only parsing).

Ltac Zify.zify_post_hook ::= Z.div_mod_to_equations.

(** ** Outcomes of Rust functions *)

(** io::ErrorKind, as far as the code distinguishes kinds (src/util/file.rs:33-36,
    src/decompress/zip.rs). *)
Inductive ioerr := UnexpectedEof | InvalidData | OtherIo (n : N).

(** src/error.rs:20-27. [ECustom] carries a short tag standing for the message. *)
Inductive error := EIo (e : ioerr) | ECsv (n : N) | ETime | ECustom (msg : string).

(** [CliResult<T>] plus the ways a Rust call may not return:
    [Panic] (unwrap/index/overflow panics), [Exit] (process::exit, reached through
    src/error.rs:31-41, from src/chopper/types.rs:108-156), and [NoFuel], the model's
    own marker for an exhausted recursion bound (never a behaviour of the code). *)
Inductive res (A : Type) :=
| Ok (a : A) | Err (e : error) | Panic | Exit | NoFuel.
Arguments Ok {A} a.
Arguments Err {A} e.
Arguments Panic {A}.
Arguments Exit {A}.
Arguments NoFuel {A}.

(** The [?] operator and plain sequencing. *)
Definition bind {A B} (r : res A) (k : A -> res B) : res B :=
  match r with
  | Ok a => k a
  | Err e => Err e
  | Panic => Panic
  | Exit => Exit
  | NoFuel => NoFuel
  end.
Notation "'let*' x ':=' r 'in' k" := (bind r (fun x => k))
  (at level 200, x pattern, right associativity).

Definition is_ok {A} (r : res A) : bool := match r with Ok _ => true | _ => false end.
Definition is_err {A} (r : res A) : bool := match r with Err _ => true | _ => false end.

(** Re-typing of a failure. *)
Definition fail_as {A B} (r : res A) : res B :=
  match r with
  | Ok _ => Panic (* unused *)
  | Err e => Err e
  | Panic => Panic
  | Exit => Exit
  | NoFuel => NoFuel
  end.

(** [Option::unwrap]. *)
Definition unwrap {A} (o : option A) : res A :=
  match o with Some a => Ok a | None => Panic end.

(** ** Bytes *)
Notation byte := ascii (only parsing).
Notation bytes := (list ascii) (only parsing).

(** String literals as byte strings. *)
Definition b (s : string) : bytes := list_ascii_of_string s.

Definition byte_eqb : byte -> byte -> bool := Ascii.eqb.

Fixpoint bytes_eqb (x y : bytes) : bool :=
  match x, y with
  | [], [] => true
  | a :: x', c :: y' => Ascii.eqb a c && bytes_eqb x' y'
  | _, _ => false
  end.

Lemma bytes_eqb_eq x y : bytes_eqb x y = true <-> x = y.
Proof.
  revert y; induction x as [|a x IH]; intros [|c y]; cbn; try (split; congruence).
  rewrite andb_true_iff, IH, Ascii.eqb_eq. split; [intros [-> ->]; reflexivity|].
  intros [= -> ->]; auto.
Qed.

Lemma bytes_eqb_refl x : bytes_eqb x x = true.
Proof. apply bytes_eqb_eq; reflexivity. Qed.

Lemma bytes_eqb_neq x y : bytes_eqb x y = false <-> x <> y.
Proof.
  rewrite <- not_true_iff_false, bytes_eqb_eq. tauto.
Qed.

Lemma bytes_eq_dec (x y : bytes) : {x = y} + {x <> y}.
Proof. apply list_eq_dec, ascii_dec. Defined.

(** ** Vec helpers *)

(** [Vec::remove(i)]: panics when out of range. *)
Fixpoint list_remove {A} (i : nat) (l : list A) {struct l} : res (list A) :=
  match l, i with
  | [], _ => Panic
  | _ :: t, O => Ok t
  | x :: t, S i' => let* t' := list_remove i' t in Ok (x :: t')
  end.

(** [v[i] = x]: panics when out of range. *)
Fixpoint list_set {A} (i : nat) (x : A) (l : list A) {struct l} : res (list A) :=
  match l, i with
  | [], _ => Panic
  | _ :: t, O => Ok (x :: t)
  | y :: t, S i' => let* t' := list_set i' x t in Ok (y :: t')
  end.

(** [slice::swap(i, j)]: panics when either index is out of range. *)
Definition list_swap {A} (i j : nat) (l : list A) : res (list A) :=
  match nth_error l i, nth_error l j with
  | Some x, Some y =>
      let* l1 := list_set i y l in list_set j x l1
  | _, _ => Panic
  end.

(** [iter().position(p)] *)
Fixpoint position {A} (p : A -> bool) (l : list A) : option nat :=
  match l with
  | [] => None
  | x :: t => if p x then Some O else option_map S (position p t)
  end.

(** Elements paired with their index, starting at [i] ([enumerate]). *)
Fixpoint enum_from {A} (i : nat) (l : list A) : list (nat * A) :=
  match l with
  | [] => []
  | x :: t => (i, x) :: enum_from (S i) t
  end.

(** [str::starts_with] / [str::ends_with] on byte strings. *)
Fixpoint starts_with (p s : bytes) : bool :=
  match p, s with
  | [], _ => true
  | _, [] => false
  | a :: p', c :: s' => Ascii.eqb a c && starts_with p' s'
  end.
Definition ends_with (p s : bytes) : bool := starts_with (rev p) (rev s).

(** ** Facts about these helpers *)

Lemma list_remove_spec {A} (l : list A) i :
  i < length l -> list_remove i l = Ok (firstn i l ++ skipn (S i) l).
Proof.
  revert i; induction l as [|x l IH]; intros i Hi; cbn in Hi; [lia|].
  destruct i as [|i]; cbn; [reflexivity|].
  rewrite IH by lia. reflexivity.
Qed.

Lemma list_remove_panic {A} (l : list A) i :
  length l <= i -> list_remove i l = Panic.
Proof.
  revert i; induction l as [|x l IH]; intros i Hi; cbn in *; [reflexivity|].
  destruct i as [|i]; [lia|]. rewrite IH by lia. reflexivity.
Qed.

Lemma list_set_spec {A} (l : list A) i x :
  i < length l -> list_set i x l = Ok (firstn i l ++ x :: skipn (S i) l).
Proof.
  revert i; induction l as [|y l IH]; intros i Hi; cbn in Hi; [lia|].
  destruct i as [|i]; cbn; [reflexivity|].
  rewrite IH by lia. reflexivity.
Qed.

Lemma list_set_nth {A} (l l' : list A) i x :
  list_set i x l = Ok l' ->
  forall j, nth_error l' j = if Nat.eqb i j then Some x else nth_error l j.
Proof.
  revert i l'; induction l as [|y l IH]; intros i l' H j; cbn in H; [destruct i; discriminate|].
  destruct i as [|i].
  - injection H as <-. destruct j; reflexivity.
  - destruct (list_set i x l) as [l1| | | |] eqn:E; cbn in H; try discriminate.
    injection H as <-. destruct j as [|j]; cbn; [reflexivity|]. apply (IH _ _ E).
Qed.

Lemma list_set_length {A} (l l' : list A) i x :
  list_set i x l = Ok l' -> length l' = length l.
Proof.
  revert i l'; induction l as [|y l IH]; intros i l' H; cbn in H; [destruct i; discriminate|].
  destruct i as [|i].
  - injection H as <-. reflexivity.
  - destruct (list_set i x l) as [l1| | | |] eqn:E; cbn in H; try discriminate.
    injection H as <-. cbn. f_equal. eapply IH; eauto.
Qed.

Lemma list_set_ok {A} (l : list A) i x :
  i < length l -> exists l', list_set i x l = Ok l'.
Proof. intro H. rewrite list_set_spec by exact H. eauto. Qed.

Lemma list_swap_ok {A} (l : list A) i j :
  i < length l -> j < length l -> exists l', list_swap i j l = Ok l'.
Proof.
  intros Hi Hj. unfold list_swap.
  destruct (nth_error l i) as [x|] eqn:Ex; [|apply nth_error_None in Ex; lia].
  destruct (nth_error l j) as [y|] eqn:Ey; [|apply nth_error_None in Ey; lia].
  destruct (list_set_ok l i y Hi) as [l1 E1]. rewrite E1. cbn.
  apply list_set_ok. apply list_set_length in E1. lia.
Qed.

Lemma list_swap_inv {A} (l l' : list A) i j :
  list_swap i j l = Ok l' ->
  length l' = length l /\ i < length l /\ j < length l /\
  forall k, nth_error l' k =
    if Nat.eqb j k then nth_error l i
    else if Nat.eqb i k then nth_error l j else nth_error l k.
Proof.
  unfold list_swap. intro H.
  destruct (nth_error l i) as [x|] eqn:Ex; [|discriminate].
  destruct (nth_error l j) as [y|] eqn:Ey; [|discriminate].
  destruct (list_set i y l) as [l1| | | |] eqn:E1; cbn in H; try discriminate.
  pose proof (list_set_length _ _ _ _ E1) as L1.
  pose proof (list_set_length _ _ _ _ H) as L2.
  assert (i < length l) by (apply nth_error_Some; congruence).
  assert (j < length l) by (apply nth_error_Some; congruence).
  repeat split; try lia.
  intro k. rewrite (list_set_nth _ _ _ _ H), (list_set_nth _ _ _ _ E1).
  destruct (Nat.eqb_spec j k); [congruence|].
  destruct (Nat.eqb_spec i k); congruence.
Qed.

Lemma position_Some {A} (p : A -> bool) l i :
  position p l = Some i <->
  (exists x, nth_error l i = Some x /\ p x = true) /\
  (forall k y, k < i -> nth_error l k = Some y -> p y = false).
Proof.
  revert i; induction l as [|x l IH]; intro i; cbn.
  - split; [discriminate|]. intros [[y [Hy _]] _]. destruct i; discriminate.
  - destruct (p x) eqn:Px.
    + split.
      * intros [= <-]. split; [exists x; auto|]. intros; lia.
      * intros [[y [Hy Py]] Hlt]. destruct i as [|i]; [reflexivity|].
        specialize (Hlt 0 x ltac:(lia) eq_refl). congruence.
    + destruct (position p l) as [j|] eqn:E; cbn.
      * split.
        -- intros [= <-]. destruct (proj1 (IH j) eq_refl) as [[y [Hy Py]] Hlt].
           split; [exists y; auto|]. intros [|k] z Hk Hz; cbn in Hz; [congruence|].
           eapply Hlt; [|exact Hz]; lia.
        -- intros [[y [Hy Py]] Hlt]. destruct i as [|i]; cbn in Hy; [congruence|].
           f_equal. f_equal.
           assert (Some j = Some i) as E2; [|congruence].
           apply IH. split; [exists y; auto|].
           intros k z Hk Hz. apply (Hlt (S k) z); [lia|exact Hz].
      * split; [discriminate|]. intros [[y [Hy Py]] Hlt].
        destruct i as [|i]; cbn in Hy; [congruence|].
        assert (None = Some i) as E2; [|discriminate]. apply IH.
        split; [exists y; auto|]. intros k z Hk Hz. apply (Hlt (S k) z); [lia|exact Hz].
Qed.

Lemma position_None {A} (p : A -> bool) l :
  position p l = None <-> (forall x, In x l -> p x = false).
Proof.
  induction l as [|x l IH]; cbn; [tauto|].
  destruct (p x) eqn:Px.
  - split; [discriminate|]. intro H. rewrite (H x) in Px; auto; discriminate.
  - destruct (position p l); cbn.
    + split; [discriminate|]. intro H.
      assert (Some n = None) as E; [|discriminate]. apply IH. intros; apply H; auto.
    + split; [|reflexivity]. intros _ y [<-|Hy]; [exact Px|]. apply IH; auto.
Qed.

Lemma position_lt {A} (p : A -> bool) l i : position p l = Some i -> i < length l.
Proof.
  intro H. apply position_Some in H as [[x [Hx _]] _].
  apply nth_error_Some. congruence.
Qed.

Lemma enum_from_length {A} (l : list A) i : length (enum_from i l) = length l.
Proof. revert i; induction l as [|x l IH]; intro i; cbn; [reflexivity|]. now rewrite IH. Qed.

Lemma enum_from_nth {A} (l : list A) i k :
  nth_error (enum_from i l) k = option_map (fun x => (i + k, x)) (nth_error l k).
Proof.
  revert i k; induction l as [|x l IH]; intros i k; cbn.
  - destruct k; reflexivity.
  - destruct k as [|k]; cbn; [repeat f_equal; lia|]. rewrite IH.
    destruct (nth_error l k); cbn; [repeat f_equal; lia|reflexivity].
Qed.

Lemma starts_with_spec p s : starts_with p s = true <-> exists t, s = p ++ t.
Proof.
  revert s; induction p as [|a p IH]; intro s; cbn.
  - split; [eexists; reflexivity|reflexivity].
  - destruct s as [|c s]; [split; [discriminate|intros [t Ht]; discriminate]|].
    rewrite andb_true_iff, Ascii.eqb_eq, IH. split.
    + intros [-> [t ->]]. exists t; reflexivity.
    + intros [t [= -> ->]]. split; [reflexivity|]. exists t; reflexivity.
Qed.

Lemma ends_with_spec p s : ends_with p s = true <-> exists t, s = t ++ p.
Proof.
  unfold ends_with. rewrite starts_with_spec. split.
  - intros [t Ht]. exists (rev t).
    rewrite <- (rev_involutive s), Ht, rev_app_distr, rev_involutive. reflexivity.
  - intros [t ->]. exists (rev t). apply rev_app_distr.
Qed.

Lemma nth_error_ext {A} (l l' : list A) :
  (forall k, nth_error l k = nth_error l' k) -> l = l'.
Proof.
  revert l'; induction l as [|x l IH]; intros l' H.
  - destruct l'; [reflexivity|]. specialize (H 0); discriminate.
  - destruct l' as [|y l']; [specialize (H 0); discriminate|].
    pose proof (H 0) as H0; cbn in H0; injection H0 as ->. f_equal.
    apply IH. intro k. apply (H (S k)).
Qed.
