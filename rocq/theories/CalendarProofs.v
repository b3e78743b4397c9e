(** ChronoModel's day numbers are those of CalendarSpec. *)
From Verif Require Import ChronoModel.
From Verif Require Export CalendarSpec.
Local Open Scope Z_scope.

Lemma is_leap_iff y : is_leap y = true <-> leap_year y.
Proof.
  unfold is_leap, leap_year. rewrite andb_true_iff, orb_true_iff, negb_true_iff, !Z.eqb_eq, Z.eqb_neq.
  rewrite <- !Z.mod_divide by lia. lia.
Qed.

Lemma month_nth y m n : month_length y m n <->
  1 <= m <= 12 /\ nth (Z.to_nat (m - 1)) (month_lengths y) 0 = n.
Proof.
  split.
  - intros H. destruct H as [m H|m H|H|H].
    1-2: split; [lia|]; repeat (destruct H as [->|H]); try subst m; reflexivity.
    + split; [lia|]. apply is_leap_iff in H. cbn. rewrite H. reflexivity.
    + split; [lia|]. cbn. destruct (is_leap y) eqn:E; [apply is_leap_iff in E; contradiction|reflexivity].
  - intros [Hm <-].
    assert (G : m = 1 \/ m = 2 \/ m = 3 \/ m = 4 \/ m = 5 \/ m = 6 \/ m = 7 \/ m = 8 \/ m = 9 \/ m = 10 \/ m = 11 \/ m = 12) by lia.
    repeat (destruct G as [->|G]); try subst m; cbn.
    all: try (apply long_month; lia). all: try (apply short_month; lia).
    destruct (is_leap y) eqn:E.
    + apply february_leap, is_leap_iff, E.
    + apply february. rewrite <- is_leap_iff, E. discriminate.
Qed.

Definition year_length y := if is_leap y then 366 else 365.
Lemma sum_months y : sum_Z (month_lengths y) = year_length y.
Proof. unfold year_length; cbn. destruct (is_leap y); reflexivity. Qed.
Lemma before_next y : before_year (y + 1) = before_year y + year_length y.
Proof.
  unfold before_year, year_length, is_leap.
  destruct (y mod 4 =? 0) eqn:E4, (y mod 100 =? 0) eqn:E1, (y mod 400 =? 0) eqn:E3; cbn [andb orb negb]; lia.
Qed.
Lemma before_mono y k : (0 <= k)%Z -> before_year y <= before_year (y + k).
Proof. intros Hk. unfold before_year. lia. Qed.

Lemma lengths_pos y : Forall (fun n => 28 <= n <= 31) (month_lengths y).
Proof. unfold month_lengths. destruct (is_leap y); repeat constructor; lia. Qed.

Lemma nth_length y m : 1 <= m <= 12 -> 28 <= nth (Z.to_nat (m - 1)) (month_lengths y) 0 <= 31.
Proof.
  intros Hm. pose proof (lengths_pos y) as F. rewrite Forall_forall in F. apply F, nth_In. cbn [length month_lengths]. lia.
Qed.

Lemma sum_firstn_S l i : (i < length l)%nat -> sum_Z (firstn (S i) l) = sum_Z (firstn i l) + nth i l 0.
Proof.
  revert i. induction l as [|n l IH]; intros i Hi; cbn in Hi; [lia|].
  destruct i as [|i]; [cbn; lia|].
  change (n + sum_Z (firstn (S i) l) = n + sum_Z (firstn i l) + nth i l 0). rewrite IH by lia. lia.
Qed.

Lemma month_of_spec ls : Forall (fun n => 28 <= n <= 31) ls -> forall k o, 0 <= o < sum_Z ls ->
  exists i, (i < length ls)%nat /\ month_of k ls o = (k + Z.of_nat i, o - sum_Z (firstn i ls) + 1)
            /\ 0 <= o - sum_Z (firstn i ls) < nth i ls 0.
Proof.
  induction 1 as [|n ls Hn _ IH]; intros k o Ho; [cbn in Ho; lia|].
  change (sum_Z (n :: ls)) with (n + sum_Z ls) in Ho. cbn [month_of].
  destruct (Z.ltb_spec o n) as [H|H].
  - exists 0%nat. cbn. split; [lia|]. split; [f_equal; lia|lia].
  - destruct (IH (k + 1) (o - n)) as (i & Hi & E & G); [lia|].
    exists (S i). cbn [firstn nth length]. change (sum_Z (n :: firstn i ls)) with (n + sum_Z (firstn i ls)).
    split; [lia|]. split; [rewrite E; f_equal; lia|lia].
Qed.
Lemma month_of_inv ls : Forall (fun n => 28 <= n <= 31) ls -> forall k i d, (i < length ls)%nat -> 1 <= d <= nth i ls 0 ->
  month_of k ls (sum_Z (firstn i ls) + (d - 1)) = (k + Z.of_nat i, d).
Proof.
  induction 1 as [|n ls Hn F IH]; intros k i d Hi Hd; [cbn in Hi; lia|].
  destruct i as [|i]; cbn [month_of firstn nth] in *.
  - destruct (Z.ltb_spec (sum_Z [] + (d - 1)) n); cbn in *; [f_equal; lia|lia].
  - change (sum_Z (n :: firstn i ls)) with (n + sum_Z (firstn i ls)).
    assert (0 <= sum_Z (firstn i ls)).
    { clear - F. revert i. induction F as [|m l Hm _ IH]; intros [|i]; cbn; try lia. specialize (IH i). unfold sum_Z in IH. lia. }
    destruct (Z.ltb_spec (n + sum_Z (firstn i ls) + (d - 1)) n); [lia|].
    replace (n + sum_Z (firstn i ls) + (d - 1) - n) with (sum_Z (firstn i ls) + (d - 1)) by lia.
    cbn in Hi. rewrite IH by (try lia; exact Hd). f_equal. lia.
Qed.

(** *** years within the 400-year cycle *)
Lemma year_delta_next y : 0 <= y < 400 -> year_delta (y + 1) = year_delta y + (if is_leap y then 1 else 0).
Proof.
  intros Hy. unfold year_delta, is_leap.
  destruct (y mod 4 =? 0) eqn:E4, (y mod 100 =? 0) eqn:E1, (y mod 400 =? 0) eqn:E3; cbn [andb orb negb]; lia.
Qed.
Lemma cycle_spec c : 0 <= c < 146097 ->
  let '(y, o) := cycle_to_year c in 0 <= y < 400 /\ c = 365 * y + year_delta y + o /\ 0 <= o < year_length y.
Proof.
  intros Hc. unfold cycle_to_year.
  pose proof (Z.div_mod c 365 ltac:(lia)) as Hq. pose proof (Z.mod_pos_bound c 365 ltac:(lia)) as Hr.
  set (y := c / 365) in *. set (o := c mod 365) in *. clearbody y o.
  assert (Hy : 0 <= y <= 400) by lia.
  assert (B : 0 <= year_delta y <= 97) by (unfold year_delta; lia).
  destruct (Z.ltb_spec o (year_delta y)) as [H|H].
  - assert (y <> 0) by (intros ->; unfold year_delta in H; cbn in H; lia).
    pose proof (year_delta_next (y - 1) ltac:(lia)) as N. replace (y - 1 + 1) with y in N by lia.
    unfold year_length. destruct (is_leap (y - 1)); lia.
  - assert (y < 400). { destruct (Z.eq_dec y 400) as [->|]; [|lia]. unfold year_delta in H. cbn in H. lia. }
    unfold year_length. destruct (is_leap y); lia.
Qed.
Lemma is_leap_400 q y : is_leap (400 * q + y) = is_leap y.
Proof.
  unfold is_leap. replace ((400 * q + y) mod 4) with (y mod 4) by lia.
  replace ((400 * q + y) mod 100) with (y mod 100) by lia. replace ((400 * q + y) mod 400) with (y mod 400) by lia. reflexivity.
Qed.
Lemma before_cycle q y : before_year (400 * q + y) = 146097 * q + 365 * y + year_delta y - 366.
Proof. unfold before_year, year_delta. lia. Qed.
Lemma year_length_400 q y : year_length (400 * q + y) = year_length y.
Proof. unfold year_length. rewrite is_leap_400. reflexivity. Qed.

Lemma ymd_valid n : valid_date (ymd n) /\ let '(y, m, d) := ymd n in day_number y m d = n.
Proof.
  unfold ymd. set (c := n + 719528).
  pose proof (cycle_spec (c mod 146097) (Z.mod_pos_bound c 146097 ltac:(lia))) as H.
  destruct (cycle_to_year (c mod 146097)) as [y o]. destruct H as (Hy & Hc & Ho).
  set (q := c / 146097) in *. set (Y := 400 * q + y).
  assert (Ho' : 0 <= o < sum_Z (month_lengths Y)) by (rewrite sum_months; unfold Y; rewrite year_length_400; exact Ho).
  destruct (month_of_spec _ (lengths_pos Y) 1 o Ho') as (i & Hi & E & Hd). rewrite E.
  assert (Hi' : (i < 12)%nat) by (revert Hi; unfold month_lengths; cbn; lia).
  assert (Ei : Z.to_nat (1 + Z.of_nat i - 1) = i) by lia.
  split.
  - exists (nth i (month_lengths Y) 0). split; [|lia]. apply month_nth. rewrite Ei. split; [lia|reflexivity].
  - unfold day_number. rewrite Ei. unfold Y at 1. rewrite before_cycle.
    pose proof (Z.div_mod c 146097 ltac:(lia)) as D. fold q in D. unfold c in D. lia.
Qed.

Lemma day_number_inj x : valid_date x -> let '(y, m, d) := x in ymd (day_number y m d) = x.
Proof.
  destruct x as [[y m] d]. intros (n & Hm & Hd). apply month_nth in Hm. destruct Hm as [Hm En].
  pose proof (ymd_valid (day_number y m d)) as [V E]. destruct (ymd (day_number y m d)) as [[y' m'] d'].
  destruct V as (n' & Hm' & Hd'). apply month_nth in Hm'. destruct Hm' as [Hm' En'].
  unfold day_number in E.
  set (i := Z.to_nat (m - 1)) in *. set (i' := Z.to_nat (m' - 1)) in *.
  assert (Hi : (i < length (month_lengths y))%nat) by (cbn; lia).
  assert (Hi' : (i' < length (month_lengths y'))%nat) by (cbn; lia).
  assert (Bound : forall y i d n, (i < length (month_lengths y))%nat -> nth i (month_lengths y) 0 = n -> 1 <= d <= n ->
            0 <= sum_Z (firstn i (month_lengths y)) + (d - 1) < year_length y).
  { clear. intros y i d n Hi En Hd. rewrite <- sum_months.
    assert (F := lengths_pos y). revert Hi En. generalize dependent (month_lengths y). intros l F. revert i.
    induction F as [|a l Ha F IH]; intros i Hi En; cbn in Hi; [lia|].
    change (sum_Z (a :: l)) with (a + sum_Z l).
    assert (0 <= sum_Z l). { clear - F. induction F; [cbn; lia|]. change (sum_Z (x :: l)) with (x + sum_Z l). lia. }
    destruct i as [|i]; cbn [firstn nth] in *; [cbn; lia|].
    change (sum_Z (a :: firstn i l)) with (a + sum_Z (firstn i l)). specialize (IH i ltac:(lia) En). lia. }
  pose proof (Bound y i d n Hi En Hd) as B1. pose proof (Bound y' i' d' n' Hi' En' Hd') as B2.
  assert (y' = y).
  { destruct (Z.lt_trichotomy y y') as [L|[L|L]]; [|congruence|].
    - pose proof (before_mono (y + 1) (y' - (y + 1)) ltac:(lia)) as M. replace (y + 1 + (y' - (y + 1))) with y' in M by lia.
      rewrite before_next in M. lia.
    - pose proof (before_mono (y' + 1) (y - (y' + 1)) ltac:(lia)) as M. replace (y' + 1 + (y - (y' + 1))) with y in M by lia.
      rewrite before_next in M. lia. }
  subst y'.
  pose proof (month_of_inv (month_lengths y) (lengths_pos y) 1 i d Hi ltac:(rewrite En; exact Hd)) as I1.
  pose proof (month_of_inv (month_lengths y) (lengths_pos y) 1 i' d' Hi' ltac:(rewrite En'; exact Hd')) as I2.
  replace (sum_Z (firstn i' (month_lengths y)) + (d' - 1)) with (sum_Z (firstn i (month_lengths y)) + (d - 1)) in I2 by lia.
  rewrite I1 in I2. pose proof (f_equal fst I2) as A. pose proof (f_equal snd I2) as B. unfold fst, snd in A, B. assert (i = i') by lia. assert (m' = m) by lia. congruence.
Qed.

Lemma tomorrow_valid x x' : tomorrow x x' -> valid_date x /\ valid_date x' /\
  let '(y, m, d) := x in let '(y', m', d') := x' in day_number y' m' d' = day_number y m d + 1.
Proof.
  assert (One : forall y m, 1 <= m <= 12 -> valid_date (y, m, 1)).
  { intros y m Hm. exists (nth (Z.to_nat (m - 1)) (month_lengths y) 0). split; [apply month_nth; auto|].
    pose proof (nth_length y m Hm). lia. }
  intros [y m d n Hm Hd|y m n Hm Hlt|y].
  - split; [exists n; split; [assumption|lia]|]. split; [exists n; split; [assumption|lia]|]. unfold day_number. lia.
  - apply month_nth in Hm. destruct Hm as [Hm En].
    assert (Hn : 1 <= n).
    { pose proof (nth_length y m Hm). lia. }
    split; [exists n; split; [apply month_nth; auto|lia]|]. split; [apply One; lia|].
    unfold day_number. replace (Z.to_nat (m + 1 - 1)) with (S (Z.to_nat (m - 1))) by lia.
    rewrite sum_firstn_S by (cbn; lia). rewrite En. lia.
  - split; [exists 31; split; [apply long_month; lia|lia]|]. split; [apply One; lia|].
    unfold day_number. rewrite before_next, <- sum_months.
    change (Z.to_nat (12 - 1)) with 11%nat. change (Z.to_nat (1 - 1)) with 0%nat.
    change (sum_Z (firstn 0 (month_lengths (y + 1)))) with 0.
    assert (S12 : sum_Z (month_lengths y) = sum_Z (firstn 11 (month_lengths y)) + 31) by (cbn; destruct (is_leap y); reflexivity).
    lia.
Qed.
Lemma has_tomorrow x : valid_date x -> exists x', tomorrow x x'.
Proof.
  destruct x as [[y m] d]. intros (n & Hm & Hd). destruct (Z.eq_dec d n) as [->|].
  - destruct (Z.eq_dec m 12) as [->|].
    + apply month_nth in Hm as Hm'. destruct Hm' as [_ <-]. exists (y + 1, 1, 1). apply next_year.
    + apply month_nth in Hm as Hm'. exists (y, m + 1, 1). eapply next_month; [exact Hm|lia].
  - exists (y, m, d + 1). eapply next_day; [exact Hm|lia].
Qed.
Lemma ymd_next n : tomorrow (ymd n) (ymd (n + 1)).
Proof.
  destruct (ymd_valid n) as [V E]. destruct (ymd n) as [[y m] d] eqn:En.
  destruct (has_tomorrow _ V) as ([[y' m'] d'] & T). destruct (tomorrow_valid _ _ T) as (_ & V' & E').
  pose proof (day_number_inj _ V') as I. cbn in I. rewrite E', E in I. rewrite I. exact T.
Qed.
Lemma ymd_days n : days_since_1970 (ymd n) n.
Proof.
  assert (Up : forall k, days_since_1970 (ymd (Z.of_nat k)) (Z.of_nat k)).
  { induction k as [|k IH]; [apply the_epoch|]. rewrite Nat2Z.inj_succ. unfold Z.succ. eapply one_later; [exact IH|apply ymd_next]. }
  assert (Down : forall k, days_since_1970 (ymd (- Z.of_nat k)) (- Z.of_nat k)).
  { induction k as [|k IH]; [apply the_epoch|].
    replace (- Z.of_nat (S k)) with (- Z.of_nat k - 1) by lia. eapply one_earlier; [exact IH|].
    pose proof (ymd_next (- Z.of_nat k - 1)) as N. replace (- Z.of_nat k - 1 + 1) with (- Z.of_nat k) in N by lia. exact N. }
  destruct (Z.le_gt_cases 0 n) as [H|H].
  - replace n with (Z.of_nat (Z.to_nat n)) by lia. apply Up.
  - replace n with (- Z.of_nat (Z.to_nat (- n))) by lia. apply Down.
Qed.
Lemma days_unique x n : days_since_1970 x n -> valid_date x /\ let '(y, m, d) := x in n = day_number y m d.
Proof.
  induction 1 as [|x x' n _ [V E] T|x x' n _ [V E] T].
  - split; [|reflexivity]. exists 31. split; [apply long_month; lia|lia].
  - destruct (tomorrow_valid _ _ T) as (_ & V' & E'). split; [exact V'|].
    destruct x as [[y m] d], x' as [[y' m'] d']. lia.
  - destruct (tomorrow_valid _ _ T) as (V' & _ & E'). split; [exact V'|].
    destruct x as [[y m] d], x' as [[y' m'] d']. lia.
Qed.
(** The day numbers of the model are those of the calendar. *)
Lemma days_iff y m d n : days_since_1970 (y, m, d) n <-> valid_date (y, m, d) /\ n = day_number y m d.
Proof.
  split; [intros H; exact (days_unique _ _ H)|]. intros [V ->].
  pose proof (day_number_inj _ V) as I. cbn in I. rewrite <- I at 1. apply ymd_days.
Qed.
Lemma ymd_iff y m d n : ymd n = (y, m, d) <-> days_since_1970 (y, m, d) n.
Proof.
  split; [intros <-; apply ymd_days|]. intros H. apply days_iff in H. destruct H as [V ->]. exact (day_number_inj _ V).
Qed.
Lemma from_ymd_iff y m d n : from_ymd_opt y m d = Some n <->
  -262144 <= y <= 262143 /\ days_since_1970 (y, m, d) n.
Proof.
  unfold from_ymd_opt. rewrite days_iff.
  match goal with |- (if ?c then _ else _) = _ <-> _ => assert (C : c = true <-> -262144 <= y <= 262143 /\ valid_date (y, m, d)) end.
  { rewrite !andb_true_iff, !Z.leb_le. split.
    - intros H. split; [lia|]. exists (nth (Z.to_nat (m - 1)) (month_lengths y) 0). split; [apply month_nth; split; [lia|reflexivity]|lia].
    - intros [H (k & Hm & Hd)]. apply month_nth in Hm. destruct Hm as [Hm <-]. lia. }
  match goal with |- (if ?c then _ else _) = _ <-> _ => destruct c end.
  - destruct C as [C _]. specialize (C eq_refl). split; [intros [= <-]; intuition|]. intros (_ & _ & ->). reflexivity.
  - split; [discriminate|]. intros (Y & V & _). destruct C as [_ C]. specialize (C (conj Y V)). discriminate.
Qed.
