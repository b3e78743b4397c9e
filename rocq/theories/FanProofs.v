(** Filtering and merging, splitting (C99, C100). *)
From Verif Require Export RouteProofs CliProofs.

Lemma nth_mid' {A} (l1 : list A) x l2 i : i = length l1 -> nth_error (l1 ++ x :: l2) i = Some x.
Proof. intros ->. apply nth_error_mid. Qed.

(** ** Headers *)
Lemma add_mid (l1 : dgraph) ch l2 nd c :
  c = length l1 -> add_node (l1 ++ ch :: l2) nd c = Ok (l1 ++ (ch ++ [nd]) :: l2).
Proof. intros ->. unfold add_node. rewrite nth_error_mid. apply list_set_mid. Qed.

Lemma walk_steps rec hg l1 ch l2 c h fs h' ks acts rest :
  steps h fs h' ks acts -> c = length l1 ->
  walk_header rec (hg, l1 ++ ch :: l2) c h (map HSink fs ++ rest) =
  walk_header rec (hg, l1 ++ (ch ++ map DSink ks) :: l2) c h' rest.
Proof.
  intros H Hc. revert ch; induction H as [h|h f h1 k a fs h' ks acts Hf Ha HS IH]; intro ch.
  - cbn [map app]. now rewrite app_nil_r.
  - cbn [map app walk_header]. rewrite Hf. cbn [bind fst snd]. rewrite add_mid by exact Hc.
    cbn [unwrap_res bind]. rewrite IH. now rewrite <- app_assoc.
Qed.

Lemma swap_mid (l1 : hgraph) ch l2 c :
  c = length l1 -> swap_remove (l1 ++ ch :: l2) c = Ok (ch, l1 ++ [] :: l2).
Proof. intros ->. unfold swap_remove. rewrite nth_error_mid, list_set_mid. reflexivity. Qed.

Section FanIn.
  Variables (n : nat) (post : list header_sink) (out : header_sink).
  Variables (hm hp ho : header) (kp : list sink) (ap : list (row -> option row)) (k : sink).
  Hypothesis Hpost : steps hm post hp kp ap.
  Hypothesis Hout : out hp = Ok (ho, k).

  Definition last_h (st : option header) (m : nat) : hchain := HMerge st m :: map HSink post ++ [HSink out].
  Definition last_d : dchain := DSink pass_sink :: map DSink kp ++ [DSink k].

  Lemma fan_last f e1 (d1 : dgraph) :
    length e1 = n -> length d1 = n ->
    exists hg', match_remove_chain (S f) (e1 ++ [last_h None 0], d1 ++ [[]]) n hm = Ok (hg', d1 ++ [last_d]).
  Proof.
    intros L1 L2. cbn [match_remove_chain fst snd]. rewrite swap_mid by auto. cbn [bind].
    unfold last_h at 1. cbn [walk_header merge_data_sink bind fst snd]. rewrite add_mid by auto.
    cbn [bind app]. erewrite walk_steps by eauto. cbn [walk_header]. rewrite Hout. cbn [bind fst snd].
    rewrite add_mid by auto. cbn [unwrap_res bind]. eexists. reflexivity.
  Qed.

  Definition hch (fs : list header_sink) : hchain := map HSink fs ++ [HGoto n].
  Definition dch (ks : list sink) : dchain := map DSink ks ++ [DMerge n].

  Lemma fan_headers f hs chains kss actss :
    Forall2 (fun p q => steps (fst p) (snd p) hm (fst q) (snd q)) (combine hs chains) (combine kss actss) ->
    length hs = length chains -> length kss = length chains -> length actss = length chains -> chains <> [] ->
    forall i e1 d1 st, length e1 = i -> length d1 = i -> i + length chains = n ->
      (st = None \/ st = Some hm) ->
      exists hg', process_headers (S (S f))
        (e1 ++ map hch chains ++ [last_h st (length chains)], d1 ++ repeat [] (length chains) ++ [[]]) i hs
        = Ok (hg', d1 ++ map dch kss ++ [last_d]).
  Proof.
    revert chains kss actss. induction hs as [|h hs IH]; intros chains kss actss HF Lh Lk La Hne i e1 d1 st Le Ld Hn Hst.
    { destruct chains; [congruence|discriminate]. }
    destruct chains as [|fs chains]; [discriminate|]. destruct kss as [|ks kss]; [discriminate|].
    destruct actss as [|acts actss]; [discriminate|].
    cbn [combine] in HF. inversion HF as [|? ? ? ? Hs HF']; subst. cbn [fst snd] in Hs.
    cbn [length] in *. cbn [map repeat app process_headers].
    set (i := length e1) in *.
    assert (Step : forall m, 
       process_header_re (S (S f)) (e1 ++ hch fs :: map hch chains ++ [last_h st (S m)],
          d1 ++ [] :: repeat [] (length chains) ++ [[]]) i h =
       match m with
       | S _ => Ok (e1 ++ [] :: map hch chains ++ [last_h (Some hm) m],
                    d1 ++ dch ks :: repeat [] (length chains) ++ [[]])
       | O => match_remove_chain (S f) (e1 ++ [] :: map hch chains ++ [last_h None 0],
                    d1 ++ dch ks :: repeat [] (length chains) ++ [[]]) n hm
       end).
    { intro m. unfold process_header_re. cbn [fst]. rewrite nth_mid' by reflexivity.
      assert (E0 : match hch fs with [] => Panic | HMerge _ _ :: _ => 
          check_merge_header (match_remove_chain (S (S f)))
            (e1 ++ hch fs :: map hch chains ++ [last_h st (S m)], d1 ++ [] :: repeat [] (length chains) ++ [[]]) i h
        | _ :: _ => match_remove_chain (S (S f))
            (e1 ++ hch fs :: map hch chains ++ [last_h st (S m)], d1 ++ [] :: repeat [] (length chains) ++ [[]]) i h end =
        match_remove_chain (S (S f))
            (e1 ++ hch fs :: map hch chains ++ [last_h st (S m)], d1 ++ [] :: repeat [] (length chains) ++ [[]]) i h).
      { unfold hch. destruct fs; reflexivity. }
      rewrite E0. clear E0. remember (S f) as f1. cbn [match_remove_chain fst snd]. rewrite swap_mid by reflexivity.
      cbn [bind]. change (hch fs) with (map HSink fs ++ [HGoto n]). erewrite walk_steps by eauto.
      cbn [walk_header fst snd]. rewrite add_mid by auto. cbn [bind]. cbn [app].
      unfold check_merge_header.
      replace (e1 ++ [] :: map hch chains ++ [last_h st (S m)])
        with ((e1 ++ [] :: map hch chains) ++ [last_h st (S m)]) by (rewrite <- app_assoc; reflexivity).
      assert (Ln : n = length (e1 ++ [] :: map hch chains)).
      { rewrite app_length. cbn [length]. rewrite map_length. fold i. lia. }
      rewrite nth_mid' by exact Ln. unfold last_h at 1.
      assert (Ck : check_header st hm = Ok (Some hm)).
      { destruct Hst as [->| ->]; cbn; [reflexivity|].
        destruct (header_eqb hm hm) eqn:X; [reflexivity|].
        assert (header_eqb hm hm = true) by now apply header_eqb_eq. congruence. }
      rewrite Ck. cbn [bind unwrap].
      fold (dch ks). destruct m as [|m].
      - rewrite list_set_at by exact Ln. cbn [bind]. fold (last_h None 0).
        rewrite <- app_assoc. cbn [app]. unfold dch. now destruct (match_remove_chain f1 _ n hm).
      - rewrite list_set_at by exact Ln. cbn [bind]. fold (last_h (Some hm) (S m)).
        rewrite <- app_assoc. cbn [app]. reflexivity. }
    rewrite Step. clear Step. destruct chains as [|fs2 chains].
    - destruct kss; [|discriminate]. destruct hs; [|discriminate].
      cbn [length map repeat app] in *. 
      destruct (fan_last f (e1 ++ [[]]) (d1 ++ [dch ks])) as (hg' & E).
      { rewrite app_length. cbn. fold i. lia. }
      { rewrite app_length. cbn. lia. }
      rewrite <- !app_assoc in E. cbn [app] in E. rewrite E. cbn [bind process_headers].
      eexists. reflexivity.
    - cbn [length bind].
      assert (X : exists hg', process_headers (S (S f))
        ((e1 ++ [[]]) ++ map hch (fs2 :: chains) ++ [last_h (Some hm) (length (fs2 :: chains))],
         (d1 ++ [dch ks]) ++ repeat [] (length (fs2 :: chains)) ++ [[]]) (S i) hs
        = Ok (hg', (d1 ++ [dch ks]) ++ map dch kss ++ [last_d])).
      { apply (IH (fs2 :: chains) kss actss HF'); cbn [length]; try lia; try discriminate; auto.
        - rewrite app_length. cbn. fold i. lia.
        - rewrite app_length. cbn. lia. 
        - fold i. cbn [length] in Hn. lia. }
      destruct X as (hg' & E).
      cbn [length] in E. rewrite <- !app_assoc in E. cbn [app] in E. cbn [map repeat app] in E |- *.
      eexists. exact E.
  Qed.
End FanIn.

Lemma fan_new chains post out hs hm hp ho kp ap k kss actss :
  chains <> [] -> length hs = length chains -> length kss = length chains -> length actss = length chains ->
  Forall2 (fun p q => steps (fst p) (snd p) hm (fst q) (snd q)) (combine hs chains) (combine kss actss) ->
  steps hm post hp kp ap -> out hp = Ok (ho, k) ->
  driver_new (length chains) (fan_in chains post out) hs =
  Ok (map (dch (length chains)) kss ++ [last_d kp k]).
Proof.
  intros Hne Lh Lk La HF Hp Ho. unfold driver_new, fan_in. rewrite app_length, map_length. cbn [length].
  destruct (Nat.ltb_spec (length chains + 1) (length chains)); [lia|].
  unfold process_header, hfuel. rewrite app_length, map_length. cbn [length].
  match goal with |- context [2 + ?x] => set (f := x) end. change (2 + f) with (S (S f)).
  destruct (fan_headers (length chains) post out hm hp ho kp ap k Hp Ho f hs chains kss actss HF Lh Lk La Hne
              0 [] [] None eq_refl eq_refl eq_refl (or_introl eq_refl)) as (hg' & E).
  cbn [app] in E. unfold hch, last_h in E.
  replace (repeat [] (length chains + 1)) with (repeat (@nil dnode) (length chains) ++ [[]]).
  2:{ rewrite repeat_snoc. f_equal. lia. }
  rewrite E. reflexivity.
Qed.

(** ** Rows *)
Definition opt_list {A} (o : option A) : list A := match o with Some x => [x] | None => [] end.

Lemma steps_acts h fs h' ks acts : steps h fs h' ks acts -> Forall2 acts_as ks acts.
Proof. induction 1; constructor; auto. Qed.

Lemma kept_ev_opt f e : kept_ev f e = match e with EvRow r => map EvRow (opt_list (f r)) | EvFlush => [EvFlush] end.
Proof. destruct e as [r|]; [cbn; now destruct (f r)|reflexivity]. Qed.
Lemma kept_ev_id fs e : fs = [] -> kept_ev (through fs) e = [e].
Proof. intros ->. now destruct e. Qed.
Lemma kept_ev_cons f fs e : kept_ev (through (f :: fs)) e = flat_map (kept_ev (through fs)) (kept_ev f e).
Proof. destruct e as [r|]; [|reflexivity]. cbn. destruct (f r); cbn; [now rewrite app_nil_r|reflexivity]. Qed.
Lemma kept_ev_app a c e : kept_ev (through (a ++ c)) e = flat_map (kept_ev (through c)) (kept_ev (through a) e).
Proof.
  revert e; induction a as [|f a IH]; intro e.
  - cbn [app]. rewrite (kept_ev_id [] e eq_refl). cbn. now rewrite app_nil_r.
  - cbn [app]. rewrite !kept_ev_cons. destruct e as [r|]; [|reflexivity].
    cbn [kept_ev]. destruct (f r); [|reflexivity]. cbn [flat_map]. now rewrite !app_nil_r, IH.
Qed.
Lemma kept_ev_cases f e : kept_ev f e = [] \/ exists e', kept_ev f e = [e'].
Proof. destruct e as [r|]; cbn; [destruct (f r)|]; eauto. Qed.

(** A call going through some sinks of a chain. *)
Lemma chain_route g A d m c pre ks fs tl e o :
  nth_error g c = Some (pre ++ map DSink ks ++ tl) -> tl <> [] ->
  ~ (c = d /\ length pre <= m < length pre + length ks) ->
  length ks = length fs ->
  (forall i f x, nth_error fs i = Some f -> A c (length pre + i) x = opt_list (f x)) ->
  route g A d m c (length pre) e o ->
  match kept_ev (through fs) e with
  | e' :: _ => route g A d m c (length pre + length ks) e' o
  | [] => o = []
  end.
Proof.
  revert pre fs e o. induction ks as [|k ks IH]; intros pre fs e o Hc Ht Hd Hl HA H.
  - destruct fs; [|discriminate]. rewrite kept_ev_id by reflexivity. cbn [length]. now rewrite Nat.add_0_r.
  - destruct fs as [|f fs]; [discriminate|]. cbn [length] in Hl. rewrite kept_ev_cons.
    assert (Hk : node_at g c (length pre) = Some (DSink k)).
    { unfold node_at. rewrite Hc. cbn [map app]. apply nth_error_mid. }
    assert (Hn : node_at g c (S (length pre)) <> None).
    { unfold node_at. rewrite Hc. apply nth_error_Some. rewrite !app_length, map_length. cbn [length].
      destruct tl; [congruence|]. cbn [length]. lia. }
    inversion H as [|c1 n1 r1 N1 F1|c1 n1 r1 k1 N1 F1 F2|c1 n1 r1 k1 outs1 N1 F1 F2 HF1|c1 n1 r1 nd1 outs1 rest1 N1 F1 F2 HF1 HR1]; subst.
    + exfalso. apply Hd. cbn [length]. lia.
    + congruence.
    + contradiction.
    + assert (Ep : passes_on (A c (length pre)) e = kept_ev f e).
      { rewrite kept_ev_opt. destruct e as [r|]; [|reflexivity]. cbn. f_equal.
        specialize (HA 0 f r eq_refl). now rewrite Nat.add_0_r in HA. }
      rewrite Ep in HF1.
      destruct (kept_ev_cases f e) as [Ek|[e' Ek]]; rewrite Ek in *; inversion HF1 as [|? o1 ? os Ho HF2]; subst; [reflexivity|].
      inversion HF2; subst. cbn [concat flat_map]. rewrite !app_nil_r.
      replace (length pre + length (k :: ks)) with (length (pre ++ [DSink k]) + length ks)
        by (rewrite app_length; cbn [length]; lia).
      replace (S (length pre)) with (length (pre ++ [DSink k])) in Ho by (rewrite app_length; cbn [length]; lia).
      apply IH; auto.
      * now rewrite <- app_assoc.
      * rewrite app_length. cbn [length] in *. lia.
      * intros i f' x Hi. rewrite app_length. cbn [length].
        replace (length pre + 1 + i) with (length pre + S i) by lia. now apply HA.
    + exfalso. apply (F2 k). congruence.
Qed.

Lemma F2_nth {A B} (P : A -> B -> Prop) x y i a :
  Forall2 P x y -> nth_error x i = Some a -> exists b, nth_error y i = Some b /\ P a b.
Proof.
  intro H. revert i; induction H as [|? ? ? ? Hp H IH]; intros [|i] E; cbn in *; try discriminate; [|auto].
  injection E as <-. eauto.
Qed.

Section FanRows.
  Variables (kss : list (list sink)) (actss : list (list (row -> option row))).
  Variables (kp : list sink) (ap : list (row -> option row)) (k : sink).
  Notation n := (length kss).
  Hypothesis La : Forall2 (Forall2 acts_as) kss actss.
  Hypothesis Lp : Forall2 acts_as kp ap.
  Definition fan_data : dgraph := map (dch n) kss ++ [last_d kp k].

  Definition fan_acts (c i : nat) (r : row) : list row :=
    match nth_error (actss ++ [Some :: ap]) c with
    | Some fs => match nth_error fs i with Some f => opt_list (f r) | None => [] end
    | None => []
    end.

  Lemma fan_chain c ks : nth_error kss c = Some ks -> nth_error fan_data c = Some (map DSink ks ++ [DMerge n]).
  Proof.
    intro H. unfold fan_data. rewrite nth_error_app1 by (rewrite map_length; apply nth_error_Some; congruence).
    erewrite map_nth_error by eauto. reflexivity.
  Qed.
  Lemma fan_end : nth_error fan_data n = Some (DSink pass_sink :: map DSink kp ++ [DSink k]).
  Proof. unfold fan_data. apply nth_mid'. now rewrite map_length. Qed.
  Lemma fan_none c : n < c -> nth_error fan_data c = None.
  Proof. intro H. apply nth_error_None. unfold fan_data. rewrite app_length, map_length. cbn. lia. Qed.

  Lemma fan_by_row : row_by_row fan_data fan_acts.
  Proof.
    pose proof (GraphProps.Forall2_len _ _ _ La) as Le.
    intros c i q past r rows Hq Hnx Hw. unfold node_at in Hq, Hnx.
    destruct (Nat.lt_ge_cases c n) as [Hc|Hc].
    - destruct (nth_error kss c) as [ks|] eqn:Ek; [|apply nth_error_None in Ek; lia].
      rewrite (fan_chain c ks Ek) in Hq, Hnx.
      assert (Hi : i < length ks).
      { apply nth_error_Some in Hnx. rewrite app_length, map_length in Hnx. cbn in Hnx. lia. }
      rewrite nth_error_app1 in Hq by now rewrite map_length.
      destruct (nth_error ks i) as [k0|] eqn:Ei; [|apply nth_error_None in Ei; lia].
      erewrite map_nth_error in Hq by eauto. injection Hq as ->.
      destruct (F2_nth _ _ _ _ _ La Ek) as (fs & Ef & X).
      unfold fan_acts. rewrite nth_error_app1 by lia. rewrite Ef.
      destruct (F2_nth _ _ _ _ _ X Ei) as (f & -> & Y).
      apply Y in Hw. exact Hw.
    - destruct (Nat.eq_dec c n) as [->|Nc]; [|rewrite fan_none in Hq by lia; discriminate].
      rewrite fan_end in Hq, Hnx. unfold fan_acts. rewrite (nth_mid' _ _ _ n) by exact Le.
      destruct i as [|i].
      + cbn in Hq. injection Hq as <-. cbn in Hw. injection Hw as <-. reflexivity.
      + change (nth_error (map DSink kp ++ [DSink k]) i = Some (DSink q)) in Hq.
        change (nth_error (map DSink kp ++ [DSink k]) (S i) <> None) in Hnx.
        change (nth_error (Some :: ap) (S i)) with (nth_error ap i).
        assert (Hi : i < length kp).
        { apply nth_error_Some in Hnx. rewrite app_length, map_length in Hnx. cbn in Hnx. lia. }
        rewrite nth_error_app1 in Hq by now rewrite map_length.
        destruct (nth_error kp i) as [k0|] eqn:Ei; [|apply nth_error_None in Ei; lia].
        erewrite map_nth_error in Hq by eauto. injection Hq as ->.
        destruct (F2_nth _ _ _ _ _ Lp Ei) as (f & -> & Y).
        apply Y in Hw. exact Hw.
  Qed.

  Lemma fan_acyclic : acyclic fan_data.
  Proof.
    exists (fun c => if c =? n then 0 else 1). intros c d (chain & nd & Hc & Hin & Hd).
    destruct (Nat.lt_ge_cases c n) as [L|L].
    - destruct (nth_error kss c) as [ks|] eqn:Ek; [|apply nth_error_None in Ek; lia].
      rewrite (fan_chain c ks Ek) in Hc. injection Hc as <-.
      apply in_app_or in Hin as [Hin|[<-|[]]].
      + apply in_map_iff in Hin as (q & <- & _). destruct Hd.
      + destruct Hd as [<-|[]]. rewrite Nat.eqb_refl. destruct (Nat.eqb_spec c n); lia.
    - destruct (Nat.eq_dec c n) as [->|Nc]; [|rewrite fan_none in Hc by lia; discriminate].
      rewrite fan_end in Hc. injection Hc as <-. exfalso.
      destruct Hin as [<-|Hin]; [destruct Hd|]. apply in_app_or in Hin as [Hin|[<-|[]]]; [|destruct Hd].
      apply in_map_iff in Hin as (q & <- & _). destruct Hd.
  Qed.

  Lemma fan_route c fs e o :
    nth_error actss c = Some fs ->
    route fan_data fan_acts n (S (length kp)) c 0 e o -> o = kept_ev (through (fs ++ ap)) e.
  Proof.
    pose proof (GraphProps.Forall2_len _ _ _ La) as Le.
    pose proof (GraphProps.Forall2_len _ _ _ Lp) as Lpe.
    intros Hf H. assert (Hc : c < n) by (rewrite Le; apply nth_error_Some; congruence).
    destruct (nth_error kss c) as [ks|] eqn:Ek; [|apply nth_error_None in Ek; lia].
    assert (Lk : length ks = length fs).
    { destruct (F2_nth _ _ _ _ _ La Ek) as (fs' & E' & Y).
      assert (fs' = fs) as -> by congruence. exact (GraphProps.Forall2_len _ _ _ Y). }
    rewrite kept_ev_app.
    pose proof (chain_route fan_data fan_acts n (S (length kp)) c [] ks fs [DMerge n] e o) as R.
    cbn [app length Nat.add] in R.
    specialize (R (fan_chain c ks Ek) ltac:(discriminate) ltac:(lia) Lk).
    assert (HA : forall i f x, nth_error fs i = Some f -> fan_acts c i x = opt_list (f x)).
    { intros i f x Hi. unfold fan_acts. rewrite nth_error_app1 by lia. now rewrite Hf, Hi. }
    specialize (R HA H).
    destruct (kept_ev_cases (through fs) e) as [Ee|[e' Ee]]; rewrite Ee in *; [subst; reflexivity|].
    cbn [flat_map]. rewrite app_nil_r.
    assert (Hm : node_at fan_data c (length ks) = Some (DMerge n)).
    { unfold node_at. rewrite (fan_chain c ks Ek). apply nth_mid'. now rewrite map_length. }
    assert (Hx : node_at fan_data c (S (length ks)) = None).
    { unfold node_at. rewrite (fan_chain c ks Ek). apply nth_error_None.
      rewrite app_length, map_length. cbn. lia. }
    inversion R as [|c1 n1 r1 N1 F1|c1 n1 r1 k1 N1 F1 F2|c1 n1 r1 k1 outs1 N1 F1 F2 HF1|c1 n1 r1 nd1 outs1 rest1 N1 F1 F2 HF1 HR1]; subst;
      try (exfalso; lia); try congruence.
    assert (nd1 = DMerge n) as -> by congruence. cbn [targets] in HF1.
    inversion HF1 as [|? o1 ? os Ho HF2]; subst. inversion HF2; subst. cbn [concat]. rewrite app_nil_r.
    assert (rest1 = []) as ->.
    { inversion HR1; subst; auto; try congruence. exfalso. lia. }
    rewrite app_nil_r.
    pose proof (chain_route fan_data fan_acts n (S (length kp)) n [] (pass_sink :: kp) (Some :: ap) [DSink k] e' o1) as R2.
    cbn [app length Nat.add map] in R2.
    specialize (R2 fan_end ltac:(discriminate) ltac:(lia) ltac:(lia)).
    assert (HA2 : forall i f x, nth_error (Some :: ap) i = Some f -> fan_acts n i x = opt_list (f x)).
    { intros i f x Hi. unfold fan_acts. rewrite (nth_mid' _ _ _ n) by exact Le. now rewrite Hi. }
    specialize (R2 HA2 Ho).
    assert (Ep : kept_ev (through (Some :: ap)) e' = kept_ev (through ap) e') by (destruct e'; reflexivity).
    rewrite Ep in R2.
    destruct (kept_ev_cases (through ap) e') as [Eq|[e2 Eq]]; rewrite Eq in *; [exact R2|].
    inversion R2; subst; auto; exfalso; auto.
  Qed.

  Lemma fan_rows F srcs rng s :
    drive F fan_data srcs rng = (s, Ok tt) -> length srcs = n ->
    events_at (r_log s) n (S (length kp)) =
    flat_map (fun p => kept_ev (through (nth (n - 1 - fst p) actss [] ++ ap)) (snd p))
      (by_source n (r_devs s)).
  Proof.
    pose proof (GraphProps.Forall2_len _ _ _ La) as Le.
    intros H Ln.
    destruct (drive_routes F fan_data srcs rng s fan_acts n (S (length kp)) H fan_acyclic fan_by_row) as (outs & HF & ->).
    { unfold node_at. rewrite fan_end. apply nth_error_Some. cbn [length]. rewrite app_length, map_length. cbn. lia. }
    assert (Hch : forall dv, In dv (r_devs s) -> fst (handing dv) < n).
    { rewrite <- Ln. intros dv Hd. apply (drive_chains _ _ _ _ _ _ H) in Hd. now destruct dv. }
    unfold by_source. revert outs HF. induction (r_devs s) as [|dv ds IH]; intros outs HF; inversion HF as [|? o ? outs' Ho HF']; subst; [reflexivity|].
    cbn [concat flat_map map fst snd].
    rewrite (IH ltac:(intros; apply Hch; now right) _ HF'). f_equal.
    pose proof (Hch _ (or_introl eq_refl)) as Hc.
    replace (n - 1 - (n - 1 - fst (handing dv))) with (fst (handing dv)) by lia.
    apply (fan_route (fst (handing dv))); [|exact Ho]. rewrite (nth_error_nth' actss []) by lia. reflexivity.
  Qed.
End FanRows.
