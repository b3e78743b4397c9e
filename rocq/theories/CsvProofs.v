(** Proofs about CSV input and output. *)
From Verif Require Import CsvModel CsvSpec CsvUtilProofs TimestampProofs BytesProofs Utf8Spec.
Local Open Scope nat_scope.

(** ** join and columns *)
Fixpoint split_at (d : byte) (s : bytes) : list bytes :=
  match s with
  | [] => [[]]
  | c :: t => if Ascii.eqb c d then [] :: split_at d t
              else match split_at d t with x :: r => (c :: x) :: r | [] => [[c]] end
  end.
Lemma split_join d cols : cols <> [] -> Forall (fun f => ~ In d f) cols -> split_at d (join [d] cols) = cols.
Proof.
  destruct cols as [|f r]; [congruence|]. intros _ F. cbn [join].
  assert (A : forall f s, ~ In d f -> split_at d (f ++ s) = match split_at d s with x :: r => (f ++ x) :: r | [] => [f] end).
  { clear. induction f as [|c f IH]; intros s H.
    - cbn. destruct s as [|c s]; [reflexivity|]. cbn. destruct (Ascii.eqb c d); [reflexivity|]. destruct (split_at d s); reflexivity.
    - cbn. destruct (Ascii.eqb_spec c d); [exfalso; apply H; left; assumption|].
      rewrite IH by (intro; apply H; right; assumption). destruct (split_at d s); reflexivity. }
  revert f F. induction r as [|g r IH]; intros f F.
  - cbn. rewrite A by (inversion F; assumption). cbn. rewrite app_nil_r. reflexivity.
  - rewrite A by (inversion F; assumption). cbn [flat_map]. change (([d] ++ g) ++ flat_map (fun x => [d] ++ x) r) with (d :: (g ++ flat_map (fun x => [d] ++ x) r)).
    cbn [split_at]. rewrite Ascii.eqb_refl. cbn [app]. rewrite IH by (inversion F; assumption). rewrite app_nil_r. reflexivity.
Qed.
Lemma columns_unique d line c c' : columns d line c -> columns d line c' -> c = c'.
Proof. intros (N & F & E) (N' & F' & E'). rewrite <- (split_join d c), <- (split_join d c') by assumption. congruence. Qed.

Lemma header_names_join names : header_names true names = join (b ",") names.
Proof.
  destruct names as [|n t]; [reflexivity|]. cbn [header_names join]. f_equal.
  induction t as [|m t IH]; [reflexivity|]. cbn [header_names flat_map]. rewrite IH. reflexivity.
Qed.

(** ** The sink *)
Section Sink.
Variables (f64 f32 : N -> bytes).
Lemma csv_values_ok d vs texts : Forall2 (fun v t => csv_value f64 f32 v = Ok t) vs texts ->
  forall first, csv_values f64 f32 d first vs =
    ((if first then join d texts else flat_map (fun x => d ++ x) texts), Ok tt).
Proof.
  induction 1 as [|v t vs texts E H IH]; intros [|]; cbn [csv_values]; [reflexivity|reflexivity|..];
    rewrite E, IH; cbn [join flat_map app]; rewrite ?app_assoc; reflexivity.
Qed.
Definition time_texts (cfg : csv_output) (t : bytes) : list bytes := if co_print_time cfg then [t] else [].
Lemma csv_row_ok cfg r time texts :
  (co_print_time cfg = true -> csv_time cfg (ts r) = Ok time) ->
  Forall2 (fun v t => csv_value f64 f32 v = Ok t) (vals r) texts ->
  csv_write_row f64 f32 cfg r =
    (join (co_delimiter cfg) (time_texts cfg time ++ texts) ++ [byte_of 10], Ok tt).
Proof.
  intros T F. unfold csv_write_row, time_texts. destruct (co_print_time cfg).
  - rewrite T by reflexivity. rewrite (csv_values_ok _ _ _ F). cbn [negb]. cbn [app join]. rewrite app_assoc. reflexivity.
  - cbn [negb]. rewrite (csv_values_ok _ _ _ F). reflexivity.
Qed.
End Sink.

(** ** The source *)
Section Source.
Context (prof : profile) (ch : chrono) (lower : bytes -> bytes) (f64_ok : text -> bool).
Variable split : byte -> stream -> list (res (list bytes)).

(** What remains to be delivered. *)
Fixpoint rows_from (s : csv_source ch) (next : row) (reader : list (res (list bytes))) : list (res row) :=
  match reader with
  | [] => [Ok next]
  | o :: rest =>
      match (let* raw := o in string_record raw) with
      | Ok r =>
          match update_row prof ch (cs_col s) (cs_fmt s) (cs_tz s) next r with
          | (next', Ok _) => Ok next :: rows_from s next' rest
          | (_, e) => [fail_as e]
          end
      | e => [fail_as e]
      end
  end.
Lemma rows_from_same s s' : cs_col s = cs_col s' -> cs_fmt s = cs_fmt s' -> cs_tz s = cs_tz s' ->
  forall reader next, rows_from s next reader = rows_from s' next reader.
Proof.
  intros A B C. induction reader as [|o rest IH]; intro next; [reflexivity|]. cbn. rewrite A, B, C.
  destruct (let* raw := o in string_record raw); trivial.
  destruct (update_row _ _ _ _ _ _ _) as [n' [?| | | |]]; trivial. rewrite IH. reflexivity.
Qed.
Lemma fail_fail {A B C} (r : res A) : is_ok r = false -> @fail_as B C (fail_as r) = fail_as r.
Proof. destruct r; [discriminate|reflexivity..]. Qed.
Lemma drain_rows n : forall s, cs_has_next s = true -> length (cs_reader s) = n ->
  forall f, 2 + n <= f -> csv_drain prof ch f s = rows_from s (cs_next s) (cs_reader s).
Proof.
  induction n as [|n IH]; intros s H L [|[|f]] Hf; try lia.
  - destruct (cs_reader s) as [|? ?] eqn:E; [|discriminate L].
    cbn [csv_drain]. unfold csv_next at 1. rewrite H, E. cbn [negb]. reflexivity.
  - destruct (cs_reader s) as [|o rest] eqn:E; [discriminate L|]. injection L as L.
    change (csv_drain prof ch (S (S f)) s) with
      (match csv_next prof ch s with
      | (_, Ok None) => []
      | (s', Ok (Some r)) => Ok r :: csv_drain prof ch (S f) s'
      | (_, e) => [fail_as e]
      end).
    unfold csv_next. rewrite H, E. cbn [negb rows_from].
    destruct (let* raw := o in string_record raw) as [r|e| | |]; try reflexivity.
    destruct (update_row prof ch (cs_col s) (cs_fmt s) (cs_tz s) (cs_next s) r) as [next' [[]|e| | |]]; try reflexivity.
    cbn [bind]. f_equal. rewrite IH; [|reflexivity|exact L|lia]. apply rows_from_same; reflexivity.
Qed.
Lemma csv_rows_from s : cs_has_next s = true -> csv_rows prof ch s = rows_from s (cs_next s) (cs_reader s).
Proof. intro H. unfold csv_rows. eapply drain_rows; eauto. Qed.

Lemma overwrite_spec vs r : overwrite vs r =
  if length r <=? length vs then Ok (map VString r ++ skipn (length r) vs) else Panic.
Proof.
  revert vs. induction r as [|x r IH]; intros vs; [destruct vs; reflexivity|]. destruct vs as [|v vs]; [reflexivity|].
  cbn [overwrite length]. rewrite IH. cbn [map app skipn]. change (S (length r) <=? S (length vs)) with (length r <=? length vs).
  destruct (length r <=? length vs); reflexivity.
Qed.

Lemma string_record_decodes raw r : (let* fs := raw in string_record fs) = Ok r <-> decodes raw r.
Proof.
  unfold decodes. split.
  - destruct raw as [fs| | | |]; try discriminate. cbn [bind]. unfold string_record.
    destruct (forallb utf8 fs) eqn:U; [|discriminate]. intros [= <-]. exists fs. split; [reflexivity|].
    rewrite forallb_forall in U. induction fs as [|f fs IH]; [constructor|]. cbn [map]. constructor; [|apply IH; intros; apply U; right; assumption].
    destruct (proj1 (utf8_well_formed f) (U f (or_introl eq_refl))) as (cs & Hc & E).
    exists cs, (trim cs). subst f. repeat split; trivial; [apply trim_stripped|].
    unfold trim_str. change (flat_map encode cs) with (str cs). rewrite chars_str by exact Hc. reflexivity.
  - intros (fs & -> & F). cbn [bind]. unfold string_record.
    assert (U : forallb utf8 fs = true).
    { apply forallb_forall. intros f Hf. induction F as [|f' t fs r (cs & ct & Hc & E & _) F IH]; [destruct Hf|].
      destruct Hf as [->|Hf]; [|auto]. apply utf8_well_formed. exists cs. auto. }
    rewrite U. f_equal. clear U. induction F as [|f t fs r (cs & ct & Hc & E & St & E') F IH]; [reflexivity|]. cbn [map].
    rewrite IH. f_equal. unfold trim_str. subst. rewrite chars_str by exact Hc.
    rewrite (stripped_unique _ _ _ St (trim_stripped cs)). reflexivity.
Qed.
Lemma decodes_length raw r fs : decodes raw r -> raw = Ok fs -> length fs = length r.
Proof. intros (fs' & -> & F) [= <-]. induction F; cbn; congruence. Qed.

(** ** Opening *)
Lemma csv_new_spec cfg lines data s :
  csv_new prof ch lower f64_ok split cfg lines data = Ok s ->
  exists d pre first rest,
    delimiter_used cfg lines d /\
    split d data = pre ++ first :: rest /\
    match pre with
    | [] => has_header_used f64_ok cfg lines d = false
    | [h] => has_header_used f64_ok cfg lines d = true /\ decodes h (h_names (cs_header s))
    | _ => False
    end /\
    (exists r, decodes first r /\ cs_next s = row_of r (ts (cs_next s)) /\
       (pre = [] -> h_names (cs_header s) = map (fun i => b "col_" ++ dec (N.of_nat i)) (seq 0 (length r))) /\
       h_types (cs_header s) = repeat TString (length r) /\
       get_col_and_fmt ch lower (cs_header s) r (ci_col cfg) (ci_fmt cfg) (ci_tz cfg) = Ok (cs_col s, cs_fmt s) /\
       get_timestamp prof ch r (cs_col s) (cs_fmt s) (ci_tz cfg) = Ok (ts (cs_next s))) /\
    cs_reader s = rest /\ cs_tz s = ci_tz cfg /\ cs_has_next s = true.
Proof.
  unfold csv_new.
  set (line := fun i => match lines with Some l => nth_error l i | None => None end). cbv zeta.
  destruct (match ci_delimiter cfg with Some d => Ok d | None => _ end) as [d| | | |] eqn:Ed; try discriminate. cbn [bind].
  assert (Dd : delimiter_used cfg lines d).
  { unfold delimiter_used. revert Ed. destruct (ci_delimiter cfg); intro Ed; [congruence|]. unfold line in Ed.
    destruct lines as [[|l ls]|]; cbn -[guess_delimiter byte_of] in Ed; try exact Ed; injection Ed as <-; reflexivity. }
  set (hh := match ci_has_header cfg with Yes => true | No => false | Auto => _ end).
  assert (Dh : has_header_used f64_ok cfg lines d = hh).
  { unfold has_header_used, hh, line. destruct (ci_has_header cfg); trivial. destruct lines as [[|l [|l' ls]]|]; reflexivity. }
  destruct (if hh then _ else _) as [[hdr recs]| | | |] eqn:Eh; try discriminate. cbn [bind].
  destruct recs as [|o rest]; [discriminate|].
  destruct (match o with Ok r => _ | _ => _ end) as [[first rest']| | | |] eqn:Ef; try discriminate.
  destruct o as [r0| | | |]; try (cbn in Ef; congruence).
  destruct (string_record r0) as [r| | | |] eqn:Er; cbn [bind] in Ef; try discriminate. injection Ef as <- <-.
  cbn [bind].
  destruct (match hdr with Some h => _ | None => _ end) as [names| | | |] eqn:En; try discriminate. cbn [bind].
  destruct (get_col_and_fmt _ _ _ _ _ _ _) as [[col fmt]| | | |] eqn:Ec; try discriminate. cbn [bind].
  unfold update_row. rewrite overwrite_spec. cbn [vals]. rewrite repeat_length, Nat.leb_refl.
  destruct (get_timestamp _ _ _ _ _ _) as [t| | | |] eqn:Et; try discriminate. cbn [bind]. intros [= <-]. cbn.
  exists d, (match hdr with Some h => [Ok h] | None => [] end), (Ok r0), rest.
  assert (Es : split d data = match hdr with Some h => [Ok h] | None => [] end ++ Ok r0 :: rest /\ (hh = true <-> hdr <> None)).
  { destruct hh.
    - destruct (split d data) as [|[h| | | |] recs']; try discriminate Eh. injection Eh as <- ->. split; [reflexivity|]. split; congruence.
    - injection Eh as <- ->. split; [reflexivity|]. split; congruence. }
  destruct Es as [Es Hh].
  split; [exact Dd|]. split; [exact Es|]. split.
  { destruct hdr as [h|]; [|rewrite Dh; destruct hh; [exfalso; apply Hh; reflexivity|reflexivity]].
    split; [rewrite Dh; apply Hh; discriminate|]. apply string_record_decodes. exact En. }
  split; [|auto]. exists r. split; [apply string_record_decodes; exact Er|].
  split. { unfold row_of. rewrite skipn_all2, app_nil_r by (rewrite repeat_length; lia). reflexivity. }
  split. { intro E. destruct hdr; [discriminate E|]. injection En as <-. reflexivity. }
  auto.
Qed.
End Source.
