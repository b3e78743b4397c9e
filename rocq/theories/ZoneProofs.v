(** Zone tables: offsets from local times. *)
From Verif Require Import DateTextSpec.
Local Open Scope Z_scope.

Definition in_utc (t : Z) (s : option Z * option Z * Z) : bool :=
  let '(from, till, off) := s in
  (match from with Some x => x <=? t | None => true end) && (match till with Some x => t <? x | None => true end).
Lemma in_span_utc u s : in_span u s = in_utc (u - snd s) s.
Proof.
  destruct s as [[[f|] [x|]] o]; cbn [in_span in_utc snd];
  repeat match goal with |- context [?a <=? ?b] => destruct (Z.leb_spec a b) | |- context [?a <? ?b] => destruct (Z.ltb_spec a b) end; cbn [andb]; try reflexivity; lia.
Qed.
Lemma ascending_tail x l : ascending (x :: l) -> ascending l.
Proof. destruct l; [exact (fun _ => I)|intros [_ H]; exact H]. Qed.
Lemma ascending_after x l : ascending (x :: l) -> Forall (fun c => fst x < fst c) l.
Proof.
  revert x. induction l as [|y l IH]; intros x H; [constructor|]. destruct H as [H1 H2].
  constructor; [exact H1|]. specialize (IH y H2). rewrite Forall_forall in *. intros c Hc. specialize (IH c Hc). lia.
Qed.
Lemma late_offset (l : list (Z * Z)) off t : Forall (fun c => t < fst c) l -> fold_left (fun o c => if fst c <=? t then snd c else o) l off = off.
Proof.
  revert off. induction l as [|c l IH]; intros off F; [reflexivity|]. inversion F as [|? ? H1 H2]; subst. cbn [fold_left].
  destruct (Z.leb_spec (fst c) t); [lia|]. apply IH, H2.
Qed.
Lemma late_spans (l : list (Z * Z)) f off t : t < f -> Forall (fun c => t < fst c) l -> filter (in_utc t) (spans (Some f) off l) = [].
Proof.
  revert f off. induction l as [|[x o] l IH]; intros f off Hf F; cbn [spans filter in_utc].
  - destruct (Z.leb_spec f t); [lia|]. reflexivity.
  - destruct (Z.leb_spec f t); [lia|]. inversion F as [|? ? H1 H2]; subst. cbn [fst] in H1. cbn [andb]. apply IH; [exact H1|exact H2].
Qed.
Lemma one_span l : ascending l -> forall from off t, match from with Some x => x <= t | None => True end ->
  exists s, filter (in_utc t) (spans from off l) = [s] /\ snd s = fold_left (fun o c => if fst c <=? t then snd c else o) l off.
Proof.
  induction l as [|[x o] l IH]; intros A from off t Hf.
  - exists (from, None, off). split; [|reflexivity]. cbn [spans filter in_utc].
    destruct from as [f|]; [destruct (Z.leb_spec f t); [|lia]|]; reflexivity.
  - cbn [spans filter fold_left]. cbn [fst snd].
    destruct (Z.leb_spec x t) as [H|H].
    + assert (E : in_utc t (from, Some x, off) = false).
      { cbn [in_utc]. destruct (Z.ltb_spec t x); [lia|]. apply andb_false_r. }
      rewrite E. destruct (IH (ascending_tail _ _ A) (Some x) o t H) as (s & E1 & E2). exists s. split; [exact E1|exact E2].
    + assert (E : in_utc t (from, Some x, off) = true).
      { cbn [in_utc]. destruct (Z.ltb_spec t x); [|lia]. destruct from as [f|]; [destruct (Z.leb_spec f t); [|lia]|]; reflexivity. }
      rewrite E. assert (L : Forall (fun c => t < fst c) l).
      { pose proof (ascending_after _ _ A) as F. rewrite Forall_forall in *. intros c Hc. specialize (F c Hc). cbn [fst] in F. lia. }
      exists (from, Some x, off). rewrite (late_spans l x o t H L), (late_offset l off t L). split; reflexivity.
Qed.
Lemma filter_filter_le {A} (P Q : A -> bool) l : (length (filter Q (filter P l)) <= length (filter Q l))%nat.
Proof. induction l as [|x l IH]; [reflexivity|]. cbn [filter]. destruct (P x); cbn [filter]; destruct (Q x); cbn [length]; lia. Qed.

Definition zspans z := spans None (zt_first z) (zt_changes z).
Lemma shows_iff z t u : good_table z -> clock_shows z t u <-> exists s, In s (zspans z) /\ in_span u s = true /\ t = u - snd s.
Proof.
  intros G. destruct (one_span _ G None (zt_first z) t I) as (s & E1 & E2). fold (zspans z) in E1. fold (offset_at z t) in E2.
  unfold clock_shows. split.
  - intros ->. assert (M : In s (filter (in_utc t) (zspans z))) by (rewrite E1; left; reflexivity). apply filter_In in M. destruct M as [M1 M2].
    exists s. split; [exact M1|]. rewrite in_span_utc, E2. replace (t + offset_at z t - offset_at z t) with t by lia. split; [exact M2|lia].
  - intros (s' & M1 & M2 & ->). rewrite in_span_utc in M2.
    assert (M : In s' (filter (in_utc (u - snd s')) (zspans z))) by (apply filter_In; auto). rewrite E1 in M. destruct M as [M|[]]. subst s'. lia.
Qed.
Lemma from_local_spec z l : good_table z ->
  match from_local z l with
  | LNone => forall t, ~ clock_shows z t (stamp_secs l)
  | LSingle i => exists t, once z l t /\ i = t * 1000000000 + s_nano l
  | LAmbiguous i j => exists t t', t <> t' /\ clock_shows z t (stamp_secs l) /\ clock_shows z t' (stamp_secs l)
  end.
Proof.
  intros G. unfold from_local, local_offsets, once. fold (zspans z). fold (stamp_secs l). set (u := stamp_secs l).
  assert (S : forall t, clock_shows z t u <-> In (u - t) (map snd (filter (in_span u) (zspans z)))).
  { intros t. rewrite shows_iff by exact G. rewrite in_map_iff. split.
    - intros (s & A & B & ->). exists s. split; [lia|]. apply filter_In; auto.
    - intros (s & A & B). apply filter_In in B. exists s. split; [apply B|]. split; [apply B|lia]. }
  destruct (filter (in_span u) (zspans z)) as [|s1 [|s2 rest]] eqn:E; cbn [map] in *.
  - intros t H. apply S in H. exact H.
  - exists (u - snd s1). split; [split|].
    + apply S. left. lia.
    + intros t' H. apply S in H. destruct H as [H|[]]. lia.
    + unfold instant. fold u. lia.
  - exists (u - snd s1), (u - snd s2). split; [|split; apply S; [left|right; left]; lia].
    intros H. set (t := u - snd s1) in *.
    destruct (one_span _ G None (zt_first z) t I) as (s & E1 & _). fold (zspans z) in E1.
    pose proof (filter_filter_le (in_span u) (in_utc t) (zspans z)) as L. rewrite E, E1 in L.
    assert (I1 : in_utc t s1 = true).
    { assert (M : In s1 (filter (in_span u) (zspans z))) by (rewrite E; left; reflexivity). apply filter_In in M. destruct M as [_ M]. rewrite in_span_utc in M. exact M. }
    assert (I2 : in_utc t s2 = true).
    { assert (M : In s2 (filter (in_span u) (zspans z))) by (rewrite E; right; left; reflexivity). apply filter_In in M. destruct M as [_ M]. rewrite in_span_utc in M.
      replace t with (u - snd s2) by exact (eq_sym H). exact M. }
    cbn [filter] in L. rewrite I1, I2 in L. cbn [length] in L. lia.
Qed.
