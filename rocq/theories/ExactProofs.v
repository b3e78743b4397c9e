(** chrono's parser accepts exactly the texts of ExactSpec. *)
From Verif Require Import BytesProofs DateTextProofs CalendarProofs.
From Verif Require Export LayoutProofs ExactSpec.
Local Open Scope Z_scope.

(** ** Splitting a text *)
Lemma span (P : byte -> Prop) (dec : forall c, {P c} + {~ P c}) s :
  exists a r, s = a ++ r /\ Forall P a /\ next_not P r.
Proof.
  induction s as [|c s (a & r & -> & F & N)]; [exists [], []; repeat split; constructor|].
  destruct (dec c) as [H|H]; [exists (c :: a), r; repeat split; auto|exists [], (c :: a ++ r); repeat split; auto].
Qed.
Lemma white_dec c : {white_space c} + {~ white_space c}.
Proof.
  unfold white_space. destruct (((9 <=? of_byte c) && (of_byte c <=? 13) || (of_byte c =? 32))%N) eqn:E; [left|right]; lia.
Qed.
Lemma figure_dec c : {is_figure c} + {~ is_figure c}.
Proof. unfold is_figure. destruct (((48 <=? of_byte c) && (of_byte c <=? 57))%N) eqn:E; [left|right]; lia. Qed.
Lemma sep_dec c : {white_space c \/ [c] = b ":"} + {~ (white_space c \/ [c] = b ":")}.
Proof.
  destruct (white_dec c) as [H|H]; [auto|]. destruct (ascii_dec c (byte_of 58)) as [->|Ne]; [left; right; reflexivity|].
  right. intros [X|X]; [auto|]. injection X as ->. apply Ne. reflexivity.
Qed.
Lemma figure_of c : is_figure c -> exists d, 0 <= d < 10 /\ c = figure d.
Proof.
  unfold is_figure. intros H. exists (Z.of_N (of_byte c - 48)). split; [lia|]. unfold figure. rewrite <- (byte_of_of c) at 1. f_equal. lia.
Qed.
Lemma figures_of a : Forall is_figure a -> exists ds, all_figures ds /\ a = figures ds.
Proof.
  induction 1 as [|c a H _ (ds & F & ->)]; [exists []; split; [constructor|reflexivity]|].
  destruct (figure_of c H) as (d & Hd & ->). exists (d :: ds). split; [constructor; assumption|reflexivity].
Qed.
Lemma figure_byte d : 0 <= d < 10 -> is_figure (figure d).
Proof. intros H. unfold is_figure. rewrite fig_byte by exact H. unfold fig. lia. Qed.
Lemma all_byte ds : all_figures ds -> Forall is_figure (figures ds).
Proof. intros F. unfold figures. apply Forall_map. revert F. apply Forall_impl. apply figure_byte. Qed.
(** the figures in front *)
Lemma front s : exists ds r, s = figures ds ++ r /\ all_figures ds /\ next_not is_figure r.
Proof.
  destruct (span is_figure figure_dec s) as (a & r & -> & F & N). destruct (figures_of a F) as (ds & Fd & ->). eauto.
Qed.
Lemma map_figures ds : all_figures ds -> map of_byte (figures ds) = map fig ds.
Proof. unfold figures. intros F. rewrite map_map. induction F as [|d ds Hd _ IH]; [reflexivity|]. cbn [map]. rewrite fig_byte, IH by exact Hd. reflexivity. Qed.

(** ** scan::number *)
Lemma number_back min max s n r : (1 <= min)%nat -> number min max (map of_byte s) = Some (n, r) ->
  exists ds rest, s = figures ds ++ rest /\ r = map of_byte rest /\ n = value ds /\ (min <= length ds)%nat /\ taken max ds rest.
Proof.
  intros Hm H. destruct (front s) as (ds & rest & -> & F & N). rewrite map_app, map_figures in H by exact F.
  destruct (Nat.le_gt_cases (length ds) max) as [L|L].
  - assert (X : no_digit (map of_byte rest) \/ max = length ds) by (left; apply no_digit_rest, N).
    unfold number in H. rewrite take_value in H by assumption. destruct (Nat.ltb_spec (length ds) min); [discriminate|]. injection H as <- <-.
    exists ds, rest. repeat split; try assumption. destruct (Nat.eq_dec (length ds) max); [left; assumption|right; split; [lia|exact N]].
  - assert (E : ds = firstn max ds ++ skipn max ds) by (symmetry; apply firstn_skipn).
    assert (Lf : length (firstn max ds) = max) by (apply firstn_length_le; lia).
    assert (F1 : all_figures (firstn max ds)) by (apply Forall_forall; intros d Hd; unfold all_figures in F; rewrite Forall_forall in F; apply F; rewrite E; apply in_app_iff; auto).
    assert (F2 : all_figures (skipn max ds)) by (apply Forall_forall; intros d Hd; unfold all_figures in F; rewrite Forall_forall in F; apply F; rewrite E; apply in_app_iff; auto).
    rewrite E, map_app, <- app_assoc in H. unfold number in H. rewrite take_value in H; [|exact F1|lia|right; lia].
    destruct (Nat.ltb_spec (length (firstn max ds)) min); [discriminate|]. injection H as <- <-.
    exists (firstn max ds), (figures (skipn max ds) ++ rest). split; [|split; [|split; [|split]]].
    + rewrite app_assoc. f_equal. unfold figures. rewrite <- map_app, <- E. reflexivity.
    + rewrite map_app, map_figures by exact F2. reflexivity.
    + reflexivity.
    + assumption.
    + split; [exact F1|left; exact Lf].
Qed.
Lemma number_taken min max ds rest : (min <= length ds)%nat -> taken max ds rest ->
  number min max (map fig ds ++ map of_byte rest) = Some (value ds, map of_byte rest).
Proof.
  intros L [F H]. apply number_figs; [exact F| |destruct H as [H|[H _]]; lia].
  destruct H as [H|[H N]]; [right; lia|left; apply no_digit_rest, N].
Qed.
Lemma nanosecond_back s n r : nanosecond (map of_byte s) = Some (n, r) ->
  exists ds rest, s = figures ds ++ rest /\ r = map of_byte rest /\ n = nanos_of ds /\ some_figures ds /\ next_not is_figure rest.
Proof.
  intros H. destruct (front s) as (ds & rest & -> & F & N). rewrite map_app, map_figures in H by exact F.
  destruct ds as [|d ds].
  - exfalso. cbn [map app] in H. unfold nanosecond in H. pose proof (no_digit_rest _ N) as D. destruct (map of_byte rest) as [|c t]; [discriminate|].
    cbn [take_digits] in H. cbn in D. rewrite D in H. discriminate.
  - assert (Sf : some_figures (d :: ds)) by (split; [discriminate|exact F]).
    rewrite nanosecond_figs in H by (try exact Sf; apply no_digit_rest, N). injection H as <- <-. exists (d :: ds), rest. auto.
Qed.
Lemma trim_back s : asc s -> exists ws rest, s = ws ++ rest /\ Forall white_space ws /\ next_not white_space rest /\ trim_start (map of_byte s) = map of_byte rest.
Proof.
  intros A. destruct (span white_space white_dec s) as (ws & rest & -> & F & N). exists ws, rest. repeat (split; [auto|]).
  rewrite map_app, trim_white by exact F. apply trim_none; [|exact N]. apply Forall_app in A. apply A.
Qed.

(** ** One part *)
Definition exact (q : parsed) (v : moment) (said : list what) : Prop :=
  forall w, In w said /\ q (fld w) = Some (v w) \/ ~ In w said /\ q (fld w) = None.
Lemma what_eq (x y : what) : {x = y} + {x <> y}.
Proof. decide equality. Qed.
Lemma exact_set q v said w : exact q v said -> exists q', set (fld w) (v w) q = Some q' /\ exact q' v (said ++ [w]).
Proof.
  intros E. unfold set. destruct (E w) as [[I Q]|[I Q]]; rewrite Q.
  - rewrite Z.eqb_refl. exists q. split; [reflexivity|]. intros x. destruct (E x) as [[Ix Qx]|[Ix Qx]]; [left; split; [apply in_app_iff; auto|exact Qx]|].
    destruct (what_eq w x) as [->|Ne]; [contradiction|]. right. split; [|exact Qx]. intros X. apply in_app_iff in X as [X|[X|[]]]; auto.
  - eexists. split; [reflexivity|]. intros x. unfold upd. destruct (field_eqb (fld w) (fld x)) eqn:F.
    + apply field_eqb_fld in F. subst x. left. split; [apply in_app_iff; cbn; auto|reflexivity].
    + assert (Ne : w <> x) by (intros ->; rewrite field_eqb_same in F; discriminate).
      destruct (E x) as [[Ix Qx]|[Ix Qx]]; [left; split; [apply in_app_iff; auto|exact Qx]|]. right. split; [|exact Qx].
      intros X. apply in_app_iff in X as [X|[X|[]]]; auto.
Qed.
Lemma figs_front ds t : all_figures ds -> ds <> [] -> trim_start (map fig ds ++ t) = map fig ds ++ t.
Proof. intros F N. destruct F as [|d ds Hd F]; [congruence|]. cbn [map app]. apply trim_fig, Hd. Qed.
Lemma taken_some max ds rest : (1 <= max)%nat -> taken max ds rest -> ds <> [] /\ (1 <= length ds)%nat.
Proof. intros M [_ H]. assert (1 <= length ds)%nat by (destruct H as [H|[H _]]; lia). split; [intros ->; cbn in *; lia|assumption]. Qed.

Lemma admits_reads v p i t rest x : item_of p i -> asc (t ++ rest) -> admits v p t rest x ->
  (x = [] /\ forall q, parse_item i (map of_byte (t ++ rest)) q = Some (map of_byte rest, q)) \/
  exists y, x = [y] /\ forall q, parse_item i (map of_byte (t ++ rest)) q = set_rest (fld y) (Some (v y, map of_byte rest)) q.
Proof.
  intros I A H. assert (Ar : asc rest) by (apply Forall_app in A; apply A).
  destruct H as [c rest|t rest F N|ws ds rest F T E|ws sg ds rest F Fd Nd N Sg|w ws ds rest Hw F T E|rest N|ds rest S N E|k ds rest L F E|ws ds rest F T E|ws sg h1 h2 sep m1 m2 rest F Fh M Fs Sg].
  - inversion I; subst. left. split; [reflexivity|]. intros q. apply item_literal.
  - inversion I; subst. left. split; [reflexivity|]. intros q. cbn [parse_item]. rewrite map_app, trim_white by exact F. rewrite trim_none by assumption. reflexivity.
  - inversion I; subst. right. exists TheYear. split; [reflexivity|]. intros q. cbn [parse_item fld]. f_equal.
    destruct (taken_some 4 ds rest ltac:(lia) T) as [Nd Ld]. rewrite <- app_assoc, map_app, map_app, map_figures by apply T.
    unfold parse_num. rewrite trim_white by exact F. rewrite figs_front by (try apply T; exact Nd). rewrite E.
    rewrite <- (number_taken 1 4 ds rest Ld T). destruct T as [Fd _]. destruct Fd as [|d ds Hd Fd]; [congruence|]. cbn [map app].
    unfold is. rewrite !fig_is by (try reflexivity; lia). reflexivity.
  - inversion I; subst. right. exists TheYear. split; [reflexivity|]. intros q. cbn [parse_item fld]. f_equal.
    rewrite <- !app_assoc, map_app. unfold parse_num. rewrite trim_white by exact F.
    assert (G : forall n, n = length (map of_byte (figures ds ++ rest)) -> number 1 n (map of_byte (figures ds ++ rest)) = Some (value ds, map of_byte rest)).
    { intros n ->. rewrite map_app, map_figures by exact Fd. apply number_taken; [destruct ds; [congruence|cbn; lia]|].
      split; [exact Fd|]. rewrite app_length, !map_length. destruct rest; [left; cbn; lia|right]. split; [destruct ds; [congruence|]; cbn [length]; lia|exact N]. }
    destruct Sg as [[-> E]|[-> E]].
    + change (map of_byte (b "+" ++ figures ds ++ rest)) with (43%N :: map of_byte (figures ds ++ rest)). cbn [trim_start].
      change (is_whitespace 43) with false. cbn iota. change (is 43 "-") with false. change (is 43 "+") with true. cbn iota.
      rewrite (G _ eq_refl), E. reflexivity.
    + change (map of_byte (b "-" ++ figures ds ++ rest)) with (45%N :: map of_byte (figures ds ++ rest)). cbn [trim_start].
      change (is_whitespace 45) with false. cbn iota. change (is 45 "-") with true. cbn iota.
      rewrite (G _ eq_refl), E. reflexivity.
  - inversion I as [| |w0 pd Hin| | | |]; subst. right. exists w. split; [reflexivity|]. intros q. cbn [parse_item]. f_equal.
    destruct (taken_some 2 ds rest ltac:(lia) T) as [Nd Ld]. rewrite <- app_assoc, map_app, map_app, map_figures by apply T.
    unfold parse_num. rewrite trim_white by exact F. rewrite figs_front by (try apply T; exact Nd). rewrite E.
    cbn [In] in Hin. destruct w; try congruence; try (intuition discriminate); cbn [fld width]; apply number_taken; assumption.
  - inversion I; subst. left. split; [reflexivity|]. intros q. cbn [app parse_item]. destruct rest as [|c rest]; [reflexivity|].
    cbn [map one_char]. assert (P : is (of_byte c) "." = false).
    { unfold is. apply N.eqb_neq. intros X. apply N. rewrite <- (byte_of_of c), X. reflexivity. }
    rewrite P. reflexivity.
  - inversion I; subst. right. exists TheNanos. split; [reflexivity|]. intros q. cbn [parse_item].
    change (map of_byte ((b "." ++ figures ds) ++ rest)) with (46%N :: map of_byte (figures ds ++ rest)).
    unfold one_char. change (is 46 ".") with true. cbn iota. rewrite map_app, map_figures by apply S.
    rewrite nanosecond_figs by (try exact S; apply no_digit_rest, N). rewrite E. reflexivity.
  - inversion I as [| | | |k' Hk Ek| |]; subst. right. exists TheNanos. split; [reflexivity|]. intros q. cbn [parse_item fld]. f_equal.
    rewrite map_app, map_figures by exact F. destruct (places ds (map of_byte rest) (length ds) F) as (n & En & Ev); [lia|].
    rewrite En. cbn [option_map]. rewrite Ev, E. reflexivity.
  - inversion I; subst. right. exists TheNanos. split; [reflexivity|]. intros q. cbn [parse_item fld]. f_equal.
    destruct (taken_some 9 ds rest ltac:(lia) T) as [Nd Ld]. rewrite <- app_assoc, map_app, map_app, map_figures by apply T.
    unfold parse_num. rewrite trim_white by exact F. rewrite figs_front by (try apply T; exact Nd). rewrite E. cbn [width]. apply number_taken; assumption.
  - inversion I; subst. right. exists TheOffset. split; [reflexivity|]. intros q. cbn [parse_item fld]. f_equal.
    inversion Fh as [|? ? H1 Fh1]; subst. inversion Fh1 as [|? ? H2 Fh2]; subst. inversion Fh2 as [|? ? M1 Fh3]; subst. inversion Fh3 as [|? ? M2 _]; subst.
    rewrite <- !app_assoc, map_app, trim_white by exact F. cbn [value fold_left] in M, Sg. unfold value in Sg. cbn [fold_left] in Sg.
    assert (Fh12 : all_figures [h1; h2]) by (constructor; [lia|constructor; [lia|constructor]]).
    assert (Fm12 : all_figures [m1; m2]) by (constructor; [lia|constructor; [lia|constructor]]).
    assert (X : forall c, (c = 45%N \/ c = 43%N) -> timezone_offset (fun s => Some (colon_or_space s)) (trim_start (c :: map of_byte (figures [h1; h2] ++ sep ++ figures [m1; m2] ++ rest)))
            = Some ((if is c "-" then -1 else 1) * ((10 * h1 + h2) * 3600 + (10 * m1 + m2) * 60), map of_byte rest)).
    { intros c0 Hc. cbn [trim_start]. assert (W : is_whitespace c0 = false) by (destruct Hc as [->| ->]; reflexivity). rewrite W.
      assert (Z3 : (is c0 "+" || is c0 "-") = true) by (destruct Hc as [->| ->]; reflexivity).
      unfold timezone_offset. rewrite Z3. rewrite !map_app, (map_figures _ Fh12), (map_figures _ Fm12).
      rewrite (number_figs 2 2 [h1; h2]); [|exact Fh12|right; reflexivity|cbn; lia].
      assert (Cs : colon_or_space (map of_byte sep ++ map fig [m1; m2] ++ map of_byte rest) = map fig [m1; m2] ++ map of_byte rest).
      { pose proof (colon_sep sep (10 * m1 + m2) (map of_byte rest) Fs ltac:(lia)) as Q. unfold two_c in Q.
        replace ((10 * m1 + m2) / 10) with m1 in Q by lia. replace ((10 * m1 + m2) mod 10) with m2 in Q by lia. exact Q. }
      rewrite Cs. rewrite (number_figs 2 2 [m1; m2]); [|exact Fm12|right; reflexivity|cbn; lia].
      unfold value. cbn [fold_left]. assert (L : (10 * (10 * 0 + m1) + m2 <? 60) = true) by (unfold value in M; cbn [fold_left] in M; lia). rewrite L.
      f_equal. }
    destruct Sg as [[-> E]|[-> E]].
    + change (map of_byte (b "+" ++ figures [h1; h2] ++ sep ++ figures [m1; m2] ++ rest)) with (43%N :: map of_byte (figures [h1; h2] ++ sep ++ figures [m1; m2] ++ rest)).
      rewrite X by auto. change (is 43 "-") with false. cbn iota. apply f_equal, f_equal2; [rewrite E; lia|reflexivity].
    + change (map of_byte (b "-" ++ figures [h1; h2] ++ sep ++ figures [m1; m2] ++ rest)) with (45%N :: map of_byte (figures [h1; h2] ++ sep ++ figures [m1; m2] ++ rest)).
      rewrite X by auto. change (is 45 "-") with true. cbn iota. apply f_equal, f_equal2; [rewrite E; lia|reflexivity].
Qed.

(** What one part reads it shows. *)
Lemma reads_admits p i s q r q' : item_of p i -> asc s -> parse_item i (map of_byte s) q = Some (r, q') ->
  exists t rest, s = t ++ rest /\ r = map of_byte rest /\
    ((q' = q /\ forall v, admits v p t rest []) \/
     exists y n, set (fld y) n q = Some q' /\ forall v, v y = n -> admits v p t rest [y]).
Proof.
  intros I A H.
  assert (One : forall y u, set_rest (fld y) u q = Some (r, q') -> exists n, u = Some (n, r) /\ set (fld y) n q = Some q').
  { intros y u E. destruct u as [[n r']|]; [|discriminate]. cbn [set_rest] in E. destruct (set (fld y) n q) as [q1|] eqn:Es; [|discriminate].
    injection E as -> ->. eauto. }
  assert (Num2 : forall y max ws rest n, (1 <= max)%nat -> s = ws ++ rest -> Forall white_space ws -> number 1 max (map of_byte rest) = Some (n, r) ->
     set (fld y) n q = Some q' -> (forall v ds rest', rest = figures ds ++ rest' -> taken max ds rest' -> v y = value ds -> admits v p (ws ++ figures ds) rest' [y]) ->
     exists t rest, s = t ++ rest /\ r = map of_byte rest /\
     ((q' = q /\ forall v, admits v p t rest []) \/
     exists y n, set (fld y) n q = Some q' /\ forall v, v y = n -> admits v p t rest [y])).
  { intros y max ws rest n Hm E F En Es K. apply number_back in En; [|lia]. destruct En as (ds & rest' & -> & -> & -> & _ & T).
    exists (ws ++ figures ds), rest'. split; [rewrite E, app_assoc; reflexivity|]. split; [reflexivity|]. right. exists y, (value ds). split; [exact Es|].
    intros v Hv. apply K; auto. }
  destruct I as [c|c|w pd Hin|o|k Hk|pd|colon].
  - (* Char *) cbn [parse_item] in H. unfold literal, one_char in H. destruct s as [|x s]; [discriminate|]. cbn [map] in H.
    destruct (N.eqb_spec (of_byte x) (of_byte c)) as [E|E]; [|discriminate]. injection H as <- <-.
    assert (x = c) by (rewrite <- (byte_of_of x), E, byte_of_of; reflexivity). subst x.
    exists [c], s. split; [reflexivity|]. split; [reflexivity|]. left. split; [reflexivity|]. intros v. constructor.
  - (* White *) cbn [parse_item] in H. destruct (trim_back s A) as (ws & rest & -> & F & N & E). rewrite E in H. injection H as <- <-.
    exists ws, rest. split; [reflexivity|]. split; [reflexivity|]. left. split; [reflexivity|]. intros v. constructor; assumption.
  - (* Number *) cbn [parse_item] in H. apply One in H. destruct H as (n & H & Es). unfold parse_num in H.
    destruct (trim_back s A) as (ws & rest & E & F & N & Et). rewrite Et in H.
    destruct (what_eq w TheYear) as [->|Nw].
    + cbn [fld] in H. destruct rest as [|c rest]; [discriminate|]. cbn [map] in H.
      destruct (is (of_byte c) "-") eqn:Em; [|destruct (is (of_byte c) "+") eqn:Ep].
      * assert (Ec : [c] = b "-"). { unfold is in Em. apply N.eqb_eq in Em. rewrite <- (byte_of_of c), Em. reflexivity. }
        destruct (number 1 (length (map of_byte rest)) (map of_byte rest)) as [[n' r']|] eqn:En; [|discriminate]. injection H as <- <-.
        apply number_back in En; [|lia]. destruct En as (ds & rest' & -> & -> & -> & L & Fd & T).
        exists (ws ++ b "-" ++ figures ds), rest'. split; [rewrite E, <- Ec, <- !app_assoc; reflexivity|]. split; [reflexivity|].
        right. exists TheYear, (- value ds). split; [exact Es|]. intros v Hv. apply ad_signed_year; try assumption.
        -- intros ->. cbn in L. lia.
        -- destruct T as [T|[_ T]]; [|exact T]. rewrite map_length, app_length in T. unfold figures in T. rewrite map_length in T. destruct rest'; [exact Logic.I|cbn in T; lia].
        -- right. auto.
      * assert (Ec : [c] = b "+"). { unfold is in Ep. apply N.eqb_eq in Ep. rewrite <- (byte_of_of c), Ep. reflexivity. }
        apply number_back in H; [|lia]. destruct H as (ds & rest' & -> & -> & -> & L & Fd & T).
        exists (ws ++ b "+" ++ figures ds), rest'. split; [rewrite E, <- Ec, <- !app_assoc; reflexivity|]. split; [reflexivity|].
        right. exists TheYear, (value ds). split; [exact Es|]. intros v Hv. apply ad_signed_year; try assumption.
        -- intros ->. cbn in L. lia.
        -- destruct T as [T|[_ T]]; [|exact T]. rewrite map_length, app_length in T. unfold figures in T. rewrite map_length in T. destruct rest'; [exact Logic.I|cbn in T; lia].
        -- left. auto.
      * change (of_byte c :: map of_byte rest) with (map of_byte (c :: rest)) in H.
        apply (Num2 TheYear 4%nat ws (c :: rest) n); try assumption; [lia|]. intros v ds rest' _ T Hv. apply ad_year; assumption.
    + assert (H2 : number 1 2 (map of_byte rest) = Some (n, r)).
      { cbn [In] in Hin. destruct w; try congruence; try (intuition discriminate); exact H. }
      apply (Num2 w 2%nat ws rest n); try assumption; [lia|]. intros v ds rest' _ T Hv. apply ad_number; assumption.
  - (* Point *) cbn [parse_item] in H. destruct s as [|c s].
    + cbn in H. injection H as <- <-. exists [], []. split; [reflexivity|]. split; [reflexivity|]. left. split; [reflexivity|]. intros v. constructor. exact Logic.I.
    + cbn [map one_char] in H. destruct (is (of_byte c) ".") eqn:Ep.
      * assert (Ec : [c] = b "."). { unfold is in Ep. apply N.eqb_eq in Ep. rewrite <- (byte_of_of c), Ep. reflexivity. }
        apply (One TheNanos) in H. destruct H as (n & H & Es). apply nanosecond_back in H. destruct H as (ds & rest & -> & -> & -> & Sf & N).
        exists (b "." ++ figures ds), rest. split; [rewrite <- Ec; reflexivity|]. split; [reflexivity|]. right. exists TheNanos, (nanos_of ds). split; [exact Es|].
        intros v Hv. apply ad_point; assumption.
      * injection H as <- <-. exists [], (c :: s). split; [reflexivity|]. split; [reflexivity|]. left. split; [reflexivity|]. intros v. constructor.
        cbn [next_not]. intros Ec. injection Ec as ->. discriminate.
  - (* Places *) cbn [parse_item] in H. apply (One TheNanos) in H. destruct H as (n & H & Es).
    destruct (number k k (map of_byte s)) as [[m r']|] eqn:En; [|discriminate]. cbn [option_map] in H. injection H as <- <-.
    destruct k as [|k].
    + unfold number in En. cbn [take_digits Nat.ltb Nat.leb] in En.
      assert (X : Some (0, map of_byte s) = Some (m, r')) by (destruct (map of_byte s); exact En). injection X as <- <-.
      exists [], s. split; [reflexivity|]. split; [reflexivity|]. right. exists TheNanos, 0. split; [exact Es|]. intros v Hv.
      apply (ad_places v 0 [] s); [reflexivity|constructor|exact Hv].
    + apply number_back in En; [|lia]. destruct En as (ds & rest & -> & -> & -> & L & Fd & T).
      assert (Lk : length ds = S k) by (destruct T as [T|[T _]]; lia).
      exists (figures ds), rest. split; [reflexivity|]. split; [reflexivity|]. right. exists TheNanos, (nanos_of ds). split.
      * destruct (places ds [] (length ds) Fd) as (n & En & Ev); [lia|]. rewrite app_nil_r in En.
        pose proof (number_figs (length ds) (length ds) ds [] Fd (or_intror eq_refl) ltac:(lia)) as En'. rewrite app_nil_r in En'.
        rewrite En in En'. injection En' as ->. assert (Es' : set (fld TheNanos) (value ds * 10 ^ Z.of_nat (9 - S k)) q = Some q') by exact Es.
        rewrite <- Lk, Ev in Es'. exact Es'.
      * intros v Hv. apply ad_places; assumption.
  - (* Count *) cbn [parse_item] in H. apply (One TheNanos) in H. destruct H as (n & H & Es). unfold parse_num in H.
    destruct (trim_back s A) as (ws & rest & E & F & N & Et). rewrite Et in H. cbn [width] in H.
    apply (Num2 TheNanos 9%nat ws rest n); try assumption; [lia|]. intros v ds rest' _ T Hv. apply ad_count; assumption.
  - (* Zone *) cbn [parse_item] in H. apply (One TheOffset) in H. destruct H as (n & H & Es).
    destruct (trim_back s A) as (ws & rest & E & F & N & Et). rewrite Et in H.
    unfold timezone_offset in H. destruct rest as [|c rest]; [discriminate|]. cbn [map] in H.
    destruct (is (of_byte c) "+" || is (of_byte c) "-") eqn:Sg; [|discriminate].
    destruct (number 2 2 (map of_byte rest)) as [[hh r1]|] eqn:E1; [|discriminate].
    apply number_back in E1; [|lia]. destruct E1 as (d1 & rest1 & -> & -> & -> & L1 & F1 & T1).
    assert (A1 : asc rest1).
    { rewrite E in A. apply Forall_app in A. destruct A as [_ A]. inversion A as [|? ? _ A']; subst. apply Forall_app in A'. apply A'. }
    destruct (span _ sep_dec rest1) as (sep & rest2 & E2 & Fs & Ns). subst rest1.
    assert (A2 : asc rest2) by (apply Forall_app in A1; apply A1).
    assert (Cs : colon_or_space (map of_byte (sep ++ rest2)) = map of_byte rest2).
    { rewrite map_app. clear - Fs Ns A2. induction Fs as [|x sep Hx _ IH].
      - cbn [map app]. destruct rest2 as [|x rest2]; [reflexivity|]. cbn [map colon_or_space]. cbn in Ns. inversion A2; subst.
        assert (X1 : is (of_byte x) ":" = false).
        { unfold is. apply N.eqb_neq. intros X. apply Ns. right. rewrite <- (byte_of_of x), X. reflexivity. }
        assert (X2 : is_whitespace (of_byte x) = false) by (apply asc_not_white; [assumption|tauto]). rewrite X1, X2. reflexivity.
      - cbn [map app colon_or_space]. assert (X : is (of_byte x) ":" || is_whitespace (of_byte x) = true).
        { destruct Hx as [Hx|Hx]; [rewrite white_char by exact Hx; apply orb_true_r|injection Hx as ->; reflexivity]. }
        rewrite X. exact IH. }
    rewrite Cs in H. destruct (number 2 2 (map of_byte rest2)) as [[mm r3]|] eqn:E3; [|discriminate].
    apply number_back in E3; [|lia]. destruct E3 as (d2 & rest3 & -> & -> & -> & L2 & F2 & T2).
    destruct (Z.ltb_spec (value d2) 60) as [Lm|Lm]; [|discriminate]. injection H as <- <-.
    destruct d1 as [|h1 [|h2 [|? ?]]]; cbn in L1, T1; try lia. destruct d2 as [|m1 [|m2 [|? ?]]]; cbn in L2, T2; try lia.
    exists (ws ++ [c] ++ figures [h1; h2] ++ sep ++ figures [m1; m2]), rest3.
    split; [rewrite E; cbn [app figures map]; rewrite <- !app_assoc; cbn [app]; rewrite <- app_assoc; reflexivity|]. split; [reflexivity|].
    right. exists TheOffset. eexists. split; [exact Es|]. intros v Hv. apply ad_zone; try assumption.
    + unfold all_figures in *. inversion F1 as [|? ? X1 X2]; subst. inversion X2; subst. repeat (constructor; [assumption|]). exact F2.
    + destruct (is (of_byte c) "-") eqn:Em.
      * right. split; [unfold is in Em; apply N.eqb_eq in Em; rewrite <- (byte_of_of c), Em; reflexivity|]. rewrite Hv. lia.
      * left. rewrite orb_false_r in Sg. split; [unfold is in Sg; apply N.eqb_eq in Sg; rewrite <- (byte_of_of c), Sg; reflexivity|]. rewrite Hv. lia.
Qed.

(** ** All parts *)
Lemma parts_complete v ps l s x : Forall2 item_of ps l -> forall rest q said, admitted v ps s rest x -> asc (s ++ rest) -> exact q v said ->
  exists q', run_items l (map of_byte (s ++ rest)) q = Some (map of_byte rest, q') /\ exact q' v (said ++ x).
Proof.
  intros I. revert s x. induction I as [|p i ps l Ip _ IH]; intros s x rest q said H A E; inversion H as [|? t ? s0 ? x1 x2 H1 H2]; subst.
  - exists q. split; [reflexivity|]. rewrite app_nil_r. exact E.
  - rewrite <- app_assoc in A |- *. cbn [run_items]. destruct (admits_reads v p i t _ x1 Ip A H1) as [[-> R]|(y & -> & R)]; rewrite R.
    + cbn [and_then app]. apply IH; [exact H2|apply Forall_app in A; apply A|exact E].
    + cbn [set_rest]. destruct (exact_set q v said y E) as (q1 & -> & E1). cbn [and_then].
      destruct (IH s0 x2 rest q1 (said ++ [y]) H2) as (q' & Er & E'); [apply Forall_app in A; apply A|exact E1|].
      exists q'. split; [exact Er|]. rewrite <- app_assoc in E'. exact E'.
Qed.
Lemma set_keeps w n q q' : set (fld w) n q = Some q' ->
  q' (fld w) = Some n /\ (forall x m, q (fld x) = Some m -> q' (fld x) = Some m) /\ (forall x, q' (fld x) <> None -> q (fld x) <> None \/ x = w).
Proof.
  unfold set. intros H. destruct (q (fld w)) as [m|] eqn:E.
  - destruct (Z.eqb_spec m n) as [->|]; [|discriminate]. injection H as <-. auto.
  - injection H as <-. unfold upd. rewrite field_eqb_same. split; [reflexivity|]. split.
    + intros x m Q. destruct (field_eqb (fld w) (fld x)) eqn:F; [apply field_eqb_fld in F; congruence|exact Q].
    + intros x Q. destruct (field_eqb (fld w) (fld x)) eqn:F; [apply field_eqb_fld in F; auto|auto].
Qed.
Lemma parts_sound ps l : Forall2 item_of ps l -> forall s q qf, asc s -> parse_items l (map of_byte s) q = Some qf ->
  (forall w n, q (fld w) = Some n -> qf (fld w) = Some n) /\
  forall v, (forall w n, qf (fld w) = Some n -> v w = n) ->
    exists x, admitted v ps s [] x /\ forall w, qf (fld w) <> None <-> q (fld w) <> None \/ In w x.
Proof.
  induction 1 as [|p i ps l Ip _ IH]; intros s q qf A H.
  - cbn [parse_items] in H. destruct s as [|c s]; [|discriminate]. cbn in H. injection H as <-. split; [auto|].
    intros v _. exists []. split; [constructor|]. intros w. cbn. tauto.
  - cbn [parse_items] in H. destruct (parse_item i (map of_byte s) q) as [[r q']|] eqn:E; [|discriminate]. cbn [and_then] in H.
    destruct (reads_admits p i s q r q' Ip A E) as (t & rest & -> & -> & D).
    assert (Ar : asc rest) by (apply Forall_app in A; apply A).
    destruct (IH rest q' qf Ar H) as [P K]. destruct D as [[-> Ad]|(y & n & Es & Ad)].
    + split; [exact P|]. intros v Hv. destruct (K v Hv) as (x & Hx & Ix). exists x. split; [|exact Ix].
      apply (admitted_next v p t ps rest [] [] x); [|exact Hx]. rewrite app_nil_r. apply Ad.
    + destruct (set_keeps y n q q' Es) as (S1 & S2 & S3). split; [intros w m Q; apply P, S2, Q|].
      intros v Hv. destruct (K v Hv) as (x & Hx & Ix). exists ([y] ++ x). split.
      * apply (admitted_next v p t ps rest [] [y] x); [|exact Hx]. rewrite app_nil_r. apply Ad. apply Hv, P, S1.
      * intros w. rewrite Ix. split.
        -- intros [Q|Q]; [apply S3 in Q as [Q| ->]; [auto|right; left; reflexivity]|right; right; exact Q].
        -- intros [Q|[<-|Q]]; [left; destruct (q (fld w)) as [m|] eqn:Eq; [rewrite (S2 w m Eq); discriminate|congruence]|left; congruence|right; exact Q].
Qed.

(** ** From the fields *)
Lemma exact_date q v said n : exact q v said -> to_naive_date q = Some n <-> says_day v said n.
Proof.
  intros E. unfold to_naive_date, says_day.
  pose proof (E TheYear) as Y. pose proof (E TheMonth) as M. pose proof (E TheDay) as D. cbn [fld] in *.
  destruct Y as [[Iy Y]|[Iy Y]], M as [[Im M]|[Im M]], D as [[Id D]|[Id D]]; rewrite Y; try rewrite M; try rewrite D;
    try (split; [discriminate|tauto]).
  rewrite from_ymd_iff. tauto.
Qed.
Lemma pair_some {A B} (x1 x2 : A) (y1 y2 : B) : Some (x1, y1) = Some (x2, y2) -> x1 = x2 /\ y1 = y2.
Proof. intros [= -> ->]. split; reflexivity. Qed.
Lemma exact_time q v said sec nano : exact q v said -> to_naive_time q = Some (sec, nano) <-> says_clock v said sec nano.
Proof.
  intros E. unfold to_naive_time, says_clock.
  pose proof (E TheHour) as H. pose proof (E TheMinute) as M. pose proof (E TheSecond) as S. pose proof (E TheNanos) as N. cbn [fld] in *.
  destruct H as [[Ih H]|[Ih H]]; rewrite H; [|split; [discriminate|tauto]].
  destruct M as [[Im M]|[Im M]]; rewrite M; [|split; [discriminate|tauto]].
  destruct ((v TheHour <? 24) && (v TheMinute <? 60)) eqn:B.
  2:{ split; [discriminate|]. intros (_ & _ & B1 & B2 & _). lia. }
  destruct N as [[In_ N]|[In_ N]], S as [[Is S]|[Is S]]; rewrite N, S.
  - destruct (Z.ltb_spec (v TheSecond) 60) as [L|L]; [|destruct (Z.eqb_spec (v TheSecond) 60) as [L'|L']].
    + split.
      * intros H1. apply pair_some in H1 as [<- <-]. repeat (split; [assumption||lia|]). exists (v TheSecond), (v TheNanos). split; [auto|]. split; [auto|]. left. lia.
      * intros (_ & _ & _ & _ & s & n & Hs & Hn & K). destruct Hs as [[_ ->]|[? _]]; [|tauto]. destruct Hn as [[_ ->]|[? _]]; [|tauto].
        f_equal. f_equal; lia.
    + split.
      * intros H1. apply pair_some in H1 as [<- <-]. repeat (split; [assumption||lia|]). exists (v TheSecond), (v TheNanos). split; [auto|]. split; [auto|]. right. lia.
      * intros (_ & _ & _ & _ & s & n & Hs & Hn & K). destruct Hs as [[_ ->]|[? _]]; [|tauto]. destruct Hn as [[_ ->]|[? _]]; [|tauto].
        f_equal. f_equal; lia.
    + split; [discriminate|]. intros (_ & _ & _ & _ & s & n & Hs & Hn & K). destruct Hs as [[_ ->]|[? _]]; [lia|tauto].
  - split; [discriminate|]. intros (_ & _ & _ & _ & s & n & Hs & Hn & K). tauto.
  - destruct (Z.ltb_spec (v TheSecond) 60) as [L|L]; [|destruct (Z.eqb_spec (v TheSecond) 60) as [L'|L']].
    + split.
      * intros H1. apply pair_some in H1 as [<- <-]. repeat (split; [assumption||lia|]). exists (v TheSecond), 0. split; [auto|]. split; [auto|]. left. lia.
      * intros (_ & _ & _ & _ & s & n & Hs & Hn & K). destruct Hs as [[_ ->]|[? _]]; [|tauto]. destruct Hn as [[? _]|[_ ->]]; [tauto|].
        f_equal. f_equal; lia.
    + split.
      * intros H1. apply pair_some in H1 as [<- <-]. repeat (split; [assumption||lia|]). exists (v TheSecond), 0. split; [auto|]. split; [auto|]. right. lia.
      * intros (_ & _ & _ & _ & s & n & Hs & Hn & K). destruct Hs as [[_ ->]|[? _]]; [|tauto]. destruct Hn as [[? _]|[_ ->]]; [tauto|].
        f_equal. f_equal; lia.
    + split; [discriminate|]. intros (_ & _ & _ & _ & s & n & Hs & Hn & K). destruct Hs as [[_ ->]|[? _]]; [lia|tauto].
  - cbn [Z.ltb Z.compare]. split.
    + intros H1. apply pair_some in H1 as [<- <-]. repeat (split; [assumption||lia|]). exists 0, 0. split; [auto|]. split; [auto|]. left. lia.
    + intros (_ & _ & _ & _ & s & n & Hs & Hn & K). destruct Hs as [[? _]|(_ & _ & ->)]; [tauto|]. destruct Hn as [[? _]|[_ ->]]; [tauto|].
      f_equal. f_equal; lia.
Qed.
Lemma exact_naive q v said l : exact q v said -> to_naive q = Some l <-> says_local v said l.
Proof.
  intros E. unfold to_naive, says_local. rewrite <- (exact_date q v said (s_day l) E), <- (exact_time q v said (s_sec l) (s_nano l) E).
  destruct (to_naive_date q) as [d|]; [|split; [discriminate|intros [? _]; discriminate]].
  destruct (to_naive_time q) as [[s n]|]; [|split; [discriminate|intros [_ ?]; discriminate]].
  split; [intros [= <-]; split; reflexivity|]. intros [[= ->] [= -> ->]]. destruct l; reflexivity.
Qed.
Lemma exact_instant q v said i : exact q v said -> to_datetime q = Some i <-> says_instant v said i.
Proof.
  intros E. unfold to_datetime, says_instant. pose proof (E TheOffset) as O. cbn [fld] in O.
  destruct O as [[Io O]|[Io O]]; rewrite O; [|split; [discriminate|intros (l & _ & ? & _); tauto]].
  destruct (to_naive q) as [l|] eqn:El.
  - apply (exact_naive q v said l E) in El. destruct ((-86400 <? v TheOffset) && (v TheOffset <? 86400)) eqn:B.
    + split.
      * intros [= <-]. exists l. split; [exact El|]. split; [exact Io|]. split; [lia|]. reflexivity.
      * intros (l' & Hl & _ & _ & ->). assert (l' = l); [|subst; reflexivity].
        apply (exact_naive q v said _ E) in Hl, El. congruence.
    + split; [discriminate|]. intros (_ & _ & _ & B' & _). lia.
  - split; [discriminate|]. intros (l & Hl & _). apply (exact_naive q v said l E) in Hl. congruence.
Qed.

Lemma parse_exact {A} (to : parsed -> option A) (says : moment -> list what -> A -> Prop) other ps f s a :
  (forall q v said a, exact q v said -> to q = Some a <-> says v said a) -> spelled ps f -> asc s ->
  parse_from_str to other f s = Some a <-> exists v said, admitted v ps s [] said /\ says v said a.
Proof.
  intros K Sp As. destruct (spelled_items ps f Sp) as [_ I]. unfold parse_from_str. rewrite (not_other ps _ I), (chars_asc s As). split.
  - destruct (parse_items (items (chars f)) (map of_byte s) nothing) as [qf|] eqn:E; [|discriminate]. intros H.
    destruct (parts_sound ps _ I s nothing qf As E) as [_ P].
    destruct (P (fun w => match qf (fld w) with Some n => n | None => 0 end)) as (x & Hx & Ix).
    { intros w n ->. reflexivity. }
    exists (fun w => match qf (fld w) with Some n => n | None => 0 end), x. split; [exact Hx|]. apply (K qf); [|exact H].
    intros w. specialize (Ix w). unfold nothing in Ix. destruct (qf (fld w)) as [n|] eqn:Eq.
    + left. split; [|reflexivity]. destruct (proj1 Ix ltac:(discriminate)) as [X|X]; [congruence|exact X].
    + right. split; [|reflexivity]. intros X. apply (proj2 Ix (or_intror X) eq_refl).
  - intros (v & said & Ad & H). destruct (parts_complete v ps _ s said I [] nothing [] Ad) as (q & E & Ex).
    + rewrite app_nil_r. exact As.
    + intros w. right. split; [intros []|reflexivity].
    + rewrite app_nil_r in E. rewrite <- (app_nil_r (items (chars f))), parse_items_app, E. cbn [and_then parse_items map]. apply (K q v said); assumption.
Qed.

(** ** ISO 8601 *)
Lemma two_back s n r : number 2 2 (map of_byte s) = Some (n, r) -> exists rest, s = two n ++ rest /\ r = map of_byte rest /\ 0 <= n < 100.
Proof.
  intros H. apply number_back in H; [|lia]. destruct H as (ds & rest & -> & -> & -> & L & F & T).
  destruct ds as [|a [|c [|? ?]]]; cbn in L, T; try lia. unfold all_figures in F. inversion F as [|? ? Ha F1]; subst. inversion F1 as [|? ? Hc _]; subst.
  exists rest. unfold value. cbn [fold_left]. split; [|split; [reflexivity|lia]]. unfold two, figures. cbn [map].
  replace ((10 * (10 * 0 + a) + c) / 10) with a by lia. replace ((10 * (10 * 0 + a) + c) mod 10) with c by lia. reflexivity.
Qed.
Lemma four_back s n r : number 4 4 (map of_byte s) = Some (n, r) -> exists rest, s = four n ++ rest /\ r = map of_byte rest /\ 0 <= n <= 9999.
Proof.
  intros H. apply number_back in H; [|lia]. destruct H as (ds & rest & -> & -> & -> & L & F & T).
  destruct ds as [|a [|c [|e [|g [|? ?]]]]]; cbn in L, T; try lia. unfold all_figures in F.
  inversion F as [|? ? Ha F1]; subst. inversion F1 as [|? ? Hc F2]; subst. inversion F2 as [|? ? He F3]; subst. inversion F3 as [|? ? Hg _]; subst.
  exists rest. unfold value. cbn [fold_left]. split; [|split; [reflexivity|lia]]. unfold four, two, figures. cbn [map app].
  set (n := 10 * (10 * (10 * (10 * 0 + a) + c) + e) + g). assert (n = 1000 * a + 100 * c + 10 * e + g) by (unfold n; lia).
  replace (n / 100 / 10) with a by lia. replace ((n / 100) mod 10) with c by lia.
  replace (n mod 100 / 10) with e by lia. replace ((n mod 100) mod 10) with g by lia. reflexivity.
Qed.
Lemma literal_back (P : N -> bool) s q r q' : literal P (map of_byte s) q = Some (r, q') ->
  exists c rest, s = c :: rest /\ r = map of_byte rest /\ q' = q /\ P (of_byte c) = true.
Proof.
  unfold literal, one_char. destruct s as [|c s]; [discriminate|]. cbn [map]. destruct (P (of_byte c)) eqn:E; [|discriminate].
  intros [= <- <-]. exists c, s. auto.
Qed.
Lemma is_back c s x : is (of_byte c) s = true -> b s = [x] -> c = x.
Proof.
  unfold is, code. intros H E. rewrite E in H. apply N.eqb_eq in H. rewrite <- (byte_of_of c), H. apply byte_of_of.
Qed.
Lemma zulu_back s o r : timezone_offset_zulu (one_char (fun c => is c ":")) (map of_byte s) = Some (o, r) -> -86400 < o < 86400 ->
  exists off rest, s = off ++ rest /\ r = map of_byte rest /\ (offset_text off o \/ In off utc_names /\ o = 0).
Proof.
  intros H B. destruct s as [|c s]; [discriminate|]. cbn [map timezone_offset_zulu] in H.
  destruct (is (of_byte c) "z" || is (of_byte c) "Z") eqn:Ez.
  { injection H as <- <-. exists [c], s. split; [reflexivity|]. split; [reflexivity|]. right. split; [|reflexivity].
    apply orb_true_iff in Ez. destruct Ez as [E|E]; eapply is_back in E; try reflexivity; subst c; cbn; tauto. }
  destruct (is (of_byte c) "u" || is (of_byte c) "U") eqn:Eu.
  { destruct s as [|c1 [|c2 s]]; [discriminate|discriminate|]. cbn [map] in H.
    destruct (is (to_lower (of_byte c1)) "t" && is (to_lower (of_byte c2)) "c") eqn:Et; [|discriminate]. injection H as <- <-.
    exists [c; c1; c2], s. split; [reflexivity|]. split; [reflexivity|]. right. split; [|reflexivity].
    assert (Low : forall x, to_lower (of_byte x) = code "t" -> x = byte_of 84 \/ x = byte_of 116).
    { intros x. unfold to_lower. change (code "t") with 116%N. destruct ((65 <=? of_byte x) && (of_byte x <=? 90))%N eqn:E; intros X;
        [left|right]; rewrite <- (byte_of_of x); f_equal; lia. }
    assert (Low' : forall x, to_lower (of_byte x) = code "c" -> x = byte_of 67 \/ x = byte_of 99).
    { intros x. unfold to_lower. change (code "c") with 99%N. destruct ((65 <=? of_byte x) && (of_byte x <=? 90))%N eqn:E; intros X;
        [left|right]; rewrite <- (byte_of_of x); f_equal; lia. }
    apply andb_true_iff in Et. destruct Et as [E1 E2]. unfold is in E1, E2. apply N.eqb_eq in E1, E2.
    apply orb_true_iff in Eu. cbn [utc_names map].
    destruct Eu as [E|E]; eapply is_back in E; try reflexivity; subst c;
      destruct (Low _ E1) as [-> | ->], (Low' _ E2) as [-> | ->]; cbn; tauto. }
  cbn [timezone_offset] in H. destruct (is (of_byte c) "+" || is (of_byte c) "-") eqn:Sg; [|discriminate].
  destruct (number 2 2 (map of_byte s)) as [[hh r1]|] eqn:E1; [|discriminate]. apply two_back in E1. destruct E1 as (s1 & -> & -> & Hh).
  destruct s1 as [|c1 s1]; [discriminate|]. cbn [map one_char] in H. destruct (is (of_byte c1) ":") eqn:Ec; [|discriminate].
  eapply is_back in Ec; [|reflexivity]. subst c1.
  destruct (number 2 2 (map of_byte s1)) as [[mm r3]|] eqn:E3; [|discriminate]. apply two_back in E3. destruct E3 as (s3 & -> & -> & Hm).
  destruct (Z.ltb_spec mm 60) as [Lm|Lm]; [|discriminate]. injection H as <- <-.
  destruct (is (of_byte c) "-") eqn:Em.
  - eapply is_back in Em; [|reflexivity]. subst c. exists (b "-" ++ two hh ++ b ":" ++ two mm), s3.
    split; [cbn [app b list_ascii_of_string]; rewrite <- app_assoc; reflexivity|]. split; [reflexivity|]. left.
    replace (-1 * (hh * 3600 + mm * 60)) with (- (3600 * hh + 60 * mm)) by lia. constructor; lia.
  - rewrite orb_false_r in Sg. eapply is_back in Sg; [|reflexivity]. subst c. exists (b "+" ++ two hh ++ b ":" ++ two mm), s3.
    split; [cbn [app b list_ascii_of_string]; rewrite <- app_assoc; reflexivity|]. split; [reflexivity|]. left.
    replace (1 * (hh * 3600 + mm * 60)) with (3600 * hh + 60 * mm) by lia. constructor; lia.
Qed.
Lemma set_back f u q r q' : q f = None -> set_rest f u q = Some (r, q') -> exists n, u = Some (n, r) /\ q' = upd f n q.
Proof. intros N H. destruct u as [[n r']|]; [|discriminate]. cbn [set_rest] in H. rewrite set_none in H by exact N. injection H as <- <-. eauto. Qed.
Lemma rfc3339_back s p : parse_rfc3339 (map of_byte s) nothing = Some ([], p) ->
  exists y m d x h mi sc fs off o, s = four y ++ b "-" ++ two m ++ b "-" ++ two d ++ x ++ two h ++ b ":" ++ two mi ++ b ":" ++ two sc ++ fs ++ off /\
    0 <= y <= 9999 /\ 0 <= m < 100 /\ 0 <= d < 100 /\ 0 <= h < 100 /\ 0 <= mi < 100 /\ 0 <= sc < 100 /\
    In x [b "T"; b "t"] /\ (offset_text off o \/ In off utc_names /\ o = 0) /\ -86400 < o < 86400 /\
    p FYear = Some y /\ p FMonth = Some m /\ p FDay = Some d /\ p FHour = Some h /\ p FMinute = Some mi /\ p FSecond = Some sc /\ p FOffset = Some o /\
    (fs = [] /\ p FNano = None \/ exists ds, fs = b "." ++ figures ds /\ some_figures ds /\ p FNano = Some (nanos_of ds)).
Proof.
  unfold parse_rfc3339, and_then. intros H.
  assert (Lit : forall s' t q, literal (fun c => is c t) (map of_byte s') q = None \/
            exists c rest, s' = c :: rest /\ literal (fun c => is c t) (map of_byte s') q = Some (map of_byte rest, q) /\ is (of_byte c) t = true).
  { intros s' t q. destruct (literal (fun c => is c t) (map of_byte s') q) as [[r q']|] eqn:E; [right|auto].
    apply literal_back in E. destruct E as (c & rest & -> & -> & -> & E). eauto. }
  destruct (set_rest FYear _ _) as [[r q]|] eqn:E; [|discriminate]. apply set_back in E; [|reflexivity]. destruct E as (y & E & ->).
  apply four_back in E. destruct E as (s1 & -> & -> & Hy).
  destruct (Lit s1 "-"%string (upd FYear y nothing)) as [E|(c & s2 & -> & E & Ec)]; rewrite E in H; [discriminate|]. eapply is_back in Ec; [|reflexivity]. subst c.
  destruct (set_rest FMonth _ _) as [[r q]|] eqn:E2; [|discriminate]. apply set_back in E2; [|reflexivity]. destruct E2 as (m & E2 & ->).
  apply two_back in E2. destruct E2 as (s3 & -> & -> & Hm).
  match type of H with match literal _ _ ?q with _ => _ end = _ => destruct (Lit s3 "-"%string q) as [E3|(c & s4 & -> & E3 & Ec)] end; rewrite E3 in H; [discriminate|]. eapply is_back in Ec; [|reflexivity]. subst c.
  destruct (set_rest FDay _ _) as [[r q]|] eqn:E4; [|discriminate]. apply set_back in E4; [|reflexivity]. destruct E4 as (d & E4 & ->).
  apply two_back in E4. destruct E4 as (s5 & -> & -> & Hd).
  match type of H with match ?u with _ => _ end = _ => destruct u as [[r q]|] eqn:E5 end; [|discriminate].
  apply literal_back in E5. destruct E5 as (c & s6 & -> & -> & -> & Ec).
  assert (Hx : In [c] [b "T"; b "t"]). { apply orb_true_iff in Ec. destruct Ec as [Ec|Ec]; eapply is_back in Ec; try reflexivity; subst c; cbn; auto. }
  destruct (set_rest FHour _ _) as [[r q]|] eqn:E6; [|discriminate]. apply set_back in E6; [|reflexivity]. destruct E6 as (h & E6 & ->).
  apply two_back in E6. destruct E6 as (s7 & -> & -> & Hh).
  match type of H with match literal _ _ ?q with _ => _ end = _ => destruct (Lit s7 ":"%string q) as [E7|(c' & s8 & -> & E7 & Ec')] end; rewrite E7 in H; [discriminate|]. eapply is_back in Ec'; [|reflexivity]. subst c'.
  destruct (set_rest FMinute _ _) as [[r q]|] eqn:E8; [|discriminate]. apply set_back in E8; [|reflexivity]. destruct E8 as (mi & E8 & ->).
  apply two_back in E8. destruct E8 as (s9 & -> & -> & Hmi).
  match type of H with match literal _ _ ?q with _ => _ end = _ => destruct (Lit s9 ":"%string q) as [E9|(c' & s10 & -> & E9 & Ec')] end; rewrite E9 in H; [discriminate|]. eapply is_back in Ec'; [|reflexivity]. subst c'.
  destruct (set_rest FSecond _ _) as [[r q]|] eqn:E10; [|discriminate]. apply set_back in E10; [|reflexivity]. destruct E10 as (sc & E10 & ->).
  apply two_back in E10. destruct E10 as (s11 & -> & -> & Hsc).
  match type of H with match ?u with _ => _ end = _ => destruct u as [[r q]|] eqn:E11 end; [|discriminate].
  assert (F : exists fs s12, s11 = fs ++ s12 /\ r = map of_byte s12 /\
     (fs = [] /\ q = upd FSecond sc (upd FMinute mi (upd FHour h (upd FDay d (upd FMonth m (upd FYear y nothing))))) \/
      exists ds, fs = b "." ++ figures ds /\ some_figures ds /\ q = upd FNano (nanos_of ds) (upd FSecond sc (upd FMinute mi (upd FHour h (upd FDay d (upd FMonth m (upd FYear y nothing)))))))).
  { destruct s11 as [|c1 s11]; cbn [map one_char] in E11.
    - injection E11 as <- <-. exists [], []. split; [reflexivity|]. split; [reflexivity|]. left. auto.
    - destruct (is (of_byte c1) ".") eqn:Ep.
      + eapply is_back in Ep; [|reflexivity]. subst c1. apply set_back in E11; [|reflexivity]. destruct E11 as (n & E11 & ->).
        apply nanosecond_back in E11. destruct E11 as (ds & rest & -> & -> & -> & Sf & _).
        exists (b "." ++ figures ds), rest. split; [reflexivity|]. split; [reflexivity|]. right. exists ds. auto.
      + injection E11 as <- <-. exists [], (c1 :: s11). split; [reflexivity|]. split; [reflexivity|]. left. auto. }
  destruct F as (fs & s12 & -> & -> & F).
  destruct (timezone_offset_zulu _ _) as [[o t]|] eqn:E12; [|discriminate].
  destruct ((-86400 <? o) && (o <? 86400)) eqn:B; [|discriminate].
  assert (Nq : q FOffset = None) by (destruct F as [[_ ->]|(ds & _ & _ & ->)]; reflexivity).
  apply set_back in H; [|exact Nq]. destruct H as (n & Ho & ->). injection Ho as <- ->.
  apply zulu_back in E12; [|lia]. destruct E12 as (off & rest & -> & Er & Ho).
  destruct rest; [|discriminate]. rewrite app_nil_r.
  exists y, m, d, [c], h, mi, sc, fs, off, o. split; [cbn [app b list_ascii_of_string]; reflexivity|].
  do 6 (split; [assumption|]). split; [exact Hx|]. split; [exact Ho|]. split; [lia|].
  destruct F as [[-> ->]|(ds & -> & Sf & ->)]; (do 7 (split; [reflexivity|])).
  - left. split; reflexivity.
  - right. exists ds. split; [reflexivity|]. split; [exact Sf|]. reflexivity.
Qed.
Lemma iso_leap_reads o s i : iso_exact s i -> c_datetime (civil o) (b "%+") s = Some i.
Proof.
  intros [s' i' H|y m d x h mi f fs off of_ l T Hx O F]; [apply iso_like_reads, H|].
  pose proof (the_time_ranges _ _ _ _ _ _ _ _ T) as (?&?&?&?&?&?).
  assert (G : exists q, fraction_fine q /\ chars (fs ++ off) = fraction_c q ++ chars off /\ f = fraction_of q).
  { destruct F as [[-> ->]|(ds & -> & H5 & ->)]; [exists None; repeat split|].
    exists (Some ds). split; [exact H5|]. split; [|reflexivity]. rewrite <- app_assoc, chars_dot, chars_figures by apply H5. reflexivity. }
  destruct G as (q & Hq & Eq & ->).
  assert (X : exists c, (c = 84%N \/ c = 116%N) /\ forall t, chars (x ++ t) = c :: chars t).
  { destruct Hx as [<-|[<-|[]]]; [exists 84%N|exists 116%N]; (split; [auto|intros t; reflexivity]). }
  destruct X as (c & Hc & Ec).
  assert (Y : timezone_offset_zulu (one_char (fun c => is c ":")) (chars off) = Some (of_, []) /\ -86400 < of_ < 86400 /\
              exists c t, chars off = c :: t /\ is_digit c = false /\ is c "." = false).
  { destruct O as [O|[O ->]].
    - destruct (offset_chars _ _ O) as (w & Hw & -> & ->). split; [apply zulu, Hw|]. split; [apply offset_small, Hw|apply offset_start].
    - cbn [utc_names map In] in O. repeat (destruct O as [<-|O]; [split; [reflexivity|]; split; [lia|]; eexists; eexists; split; [reflexivity|]; split; reflexivity|]). contradiction. }
  destruct Y as (Y1 & Y2 & Y3).
  cbn [c_datetime civil]. open_format.
  assert (E : chars (four y ++ b "-" ++ two m ++ b "-" ++ two d ++ x ++ two h ++ b ":" ++ two mi ++ b ":" ++ two 60 ++ fs ++ off)
            = four_c y ++ 45%N :: two_c m ++ 45%N :: two_c d ++ c :: two_c h ++ 58%N :: two_c mi ++ 58%N :: two_c 60 ++ fraction_c q ++ chars off)
    by (text_chars; rewrite Ec; text_chars; rewrite Eq; reflexivity).
  rewrite E.
  destruct (rfc3339_gen y m d c h mi 60 q (chars off) of_) as (p & Ep & A1 & A2 & A3 & A4 & A5 & A6 & A7 & A8); try lia; try assumption.
  cbn [parse_items parse_item]. rewrite Ep. cbn [and_then]. unfold to_datetime. rewrite A8.
  destruct T as [Ty Td (Th & Tm & _) Ts Tn]. unfold to_naive. rewrite (fields_date p y m d (s_day l) Ty Td A1 A2 A3).
  unfold to_naive_time. rewrite A4, A5, A6. assert (B1 : (h <? 24) && (mi <? 60) = true) by lia. rewrite B1. cbn [Z.ltb Z.compare Z.eqb Pos.eqb Pos.compare Pos.compare_cont].
  assert (B' : (-86400 <? of_) && (of_ <? 86400) = true) by lia. rewrite B'.
  assert (El : {| s_day := s_day l; s_sec := h * 3600 + mi * 60 + 59; s_nano := 1000000000 + fraction_of q |} = l).
  { destruct l as [ld ls ln]. cbn [s_day s_sec s_nano] in *. subst. f_equal. lia. }
  destruct A7 as [A7|[A7 Ez]]; rewrite A7; [rewrite El; reflexivity|]. clear El. f_equal. unfold instant, stamp_secs. cbn [s_day s_sec s_nano]. lia.
Qed.
Lemma some_same {A} (x y : A) : Some x = Some y -> x = y.
Proof. intros [= ->]. reflexivity. Qed.
Lemma iso_iff o s i : ascii_text s -> c_datetime (civil o) (b "%+") s = Some i <-> iso_exact s i.
Proof.
  intros A. split; [|apply iso_leap_reads]. cbn [c_datetime civil]. open_format. rewrite (chars_asc s A). cbn [parse_items parse_item].
  destruct (parse_rfc3339 (map of_byte s) nothing) as [[r p]|] eqn:E; [|discriminate]. cbn [and_then]. destruct r; [|discriminate].
  apply rfc3339_back in E. destruct E as (y & m & d & x & h & mi & sc & fs & off & o' & -> & Hy & Hm & Hd & Hh & Hmi & Hsc & Hx & Ho & B & A1 & A2 & A3 & A4 & A5 & A6 & A7 & F).
  unfold to_datetime, to_naive. rewrite A7. destruct (to_naive_date p) as [day|] eqn:Ed; [|discriminate].
  assert (Dy : days_since_1970 (y, m, d) day). { unfold to_naive_date in Ed. rewrite A1, A2, A3 in Ed. apply from_ymd_iff in Ed. apply Ed. }
  unfold to_naive_time. rewrite A4, A5, A6. destruct ((h <? 24) && (mi <? 60)) eqn:B1; [|discriminate].
  assert (Fx : exists f, (fs = [] /\ f = 0 \/ exists ds, fs = b "." ++ figures ds /\ some_figures ds /\ f = nanos_of ds) /\
               match p FNano with Some n => n | None => 0 end = f).
  { destruct F as [[-> F]|(ds & -> & Sf & F)]; rewrite F; [exists 0; auto|exists (nanos_of ds); split; [right; exists ds; auto|reflexivity]]. }
  destruct Fx as (f & Ff & En). rewrite En.
  assert (B2 : (-86400 <? o') && (o' <? 86400) = true) by lia.
  destruct (Z.ltb_spec sc 60) as [Ls|Ls]; [|destruct (Z.eqb_spec sc 60) as [->|Ne]].
  - intros H. assert (H' : Some (instant {| s_day := day; s_sec := h * 3600 + mi * 60 + sc; s_nano := f |} o') = Some i).
    { destruct (p FNano); cbn iota beta in H; rewrite B2 in H; exact H. }
    apply some_same in H'. subst i. apply iso_plain.
    apply (an_iso y m d x h mi sc f fs off o' {| s_day := day; s_sec := h * 3600 + mi * 60 + sc; s_nano := f |}); try assumption.
    constructor; cbn [s_day s_sec s_nano]; [lia|exact Dy|unfold time_of_day; lia|lia|reflexivity].
  - intros H. assert (H' : Some (instant {| s_day := day; s_sec := h * 3600 + mi * 60 + 59; s_nano := 1000000000 + f |} o') = Some i).
    { destruct (p FNano); cbn iota beta in H; rewrite B2 in H; exact H. }
    apply some_same in H'. subst i.
    apply (iso_leap y m d x h mi f fs off o' {| s_day := day; s_sec := h * 3600 + mi * 60 + 59; s_nano := 1000000000 + f |}); try assumption.
    constructor; cbn [s_day s_sec s_nano]; [lia|exact Dy|unfold time_of_day; lia|lia|reflexivity].
  - destruct (p FNano); discriminate.
Qed.
