(** The stream of util/infistream (C112). *)
From Verif Require Export InfiSpec.
From Verif Require Import T_CsvStream T_WholeCsv T_CsvTime T_Csv CsvProofs CsvUtilProofs T_Reader ReaderProofs ReaderLines TimestampProofs Utf8Spec.
From Verif Require Import StreamSpec T_StreamChop T_Whole CsvProofs2 T_CsvQuote T_CliCsv ProgramProofs.
Local Open Scope nat_scope.

(** ** The bytes *)
Definition infi_line (v : N) : bytes := join [byte_of 44] (infi_cells v).
Definition infi_text (l : list N) : bytes := concat (map (fun v => infi_line v ++ [byte_of 10]) l).
Lemma infi_row_line v : infi_row v = infi_line v ++ [byte_of 10].
Proof.
  unfold infi_row, infi_line, infi_cells, join. cbn [map flat_map]. rewrite <- !app_assoc.
  change (byte_of 44) with ","%char. reflexivity.
Qed.
Lemma infi_from_text prof n : forall v, (v + N.of_nat n <= 2 ^ 64)%N ->
  (n <> 0 -> prof = Debug -> (v + N.of_nat n < 2 ^ 64)%N) ->
  infi_from prof n v = Ok (infi_text (map (fun i => (v + N.of_nat i)%N) (seq 0 n))).
Proof.
  induction n as [|n IH]; intros v L D; [reflexivity|]. cbn [infi_from]. unfold infi_poll.
  assert (E : map (fun i => (v + N.of_nat i)%N) (seq 0 (S n)) = v :: map (fun i => (v + 1 + N.of_nat i)%N) (seq 0 n)).
  { cbn [seq map]. f_equal; [lia|]. rewrite <- seq_shift, map_map. apply map_ext. intros i. lia. }
  rewrite E. cbn [map concat infi_text].
  destruct (N.ltb_spec (v + 1) (2 ^ 64)).
  - cbn [bind]. rewrite IH by (intros; try apply D; lia || (intros; specialize (D ltac:(lia) H1); lia)). cbn [bind]. rewrite infi_row_line. reflexivity.
  - assert (n = 0) as -> by lia. destruct prof; [specialize (D ltac:(lia) eq_refl); lia|].
    cbn [infi_from bind map seq concat]. rewrite infi_row_line. reflexivity.
Qed.
Lemma infi_from_inv prof n : forall v d, (v + N.of_nat n <= 2 ^ 64)%N -> infi_from prof n v = Ok d ->
  d = infi_text (map (fun i => (v + N.of_nat i)%N) (seq 0 n)).
Proof.
  induction n as [|n IH]; intros v d L; [now intros [= <-]|]. cbn [infi_from]. unfold infi_poll.
  assert (E : map (fun i => (v + N.of_nat i)%N) (seq 0 (S n)) = v :: map (fun i => (v + 1 + N.of_nat i)%N) (seq 0 n)).
  { cbn [seq map]. f_equal; [lia|]. rewrite <- seq_shift, map_map. apply map_ext. intros i. lia. }
  rewrite E. cbn [map concat infi_text].
  destruct (N.ltb_spec (v + 1) (2 ^ 64)).
  - cbn [bind]. destruct (infi_from prof n (v + 1)) as [r| | | |] eqn:Er; try discriminate. cbn [bind]. intros [= <-].
    rewrite infi_row_line. unfold infi_text. cbn [map concat]. f_equal. apply IH; [lia|exact Er].
  - assert (n = 0) as -> by lia. destruct prof; [discriminate|].
    cbn [infi_from bind]. intros [= <-]. rewrite infi_row_line. reflexivity.
Qed.
Lemma infi_body_text prof n d : (N.of_nat n <= 2 ^ 64)%N -> infi_body prof n = Ok d -> d = infi_text (counts n).
Proof. intros L H. apply (infi_from_inv prof n 0 d) in H; [exact H|lia]. Qed.

(** ** Cells *)
Definition simple (c : byte) : Prop := ((48 <= of_byte c <= 57) \/ (97 <= of_byte c <= 102))%N.
Lemma dec_simple v : Forall simple (dec v).
Proof. eapply Forall_impl; [|apply dec_digits]. intros c H. left. exact H. Qed.
Lemma letter_simple c : In c ["a"; "b"; "c"; "d"; "e"; "f"]%string -> exists x, b c = [x] /\ simple x /\ (97 <= of_byte x)%N.
Proof.
  intros [<-|[<-|[<-|[<-|[<-|[<-|[]]]]]]]; eexists; (split; [reflexivity|]); unfold simple; cbn; lia.
Qed.
Lemma cells_simple v s : In s (infi_cells v) -> s <> [] /\ Forall simple s.
Proof.
  intros [<-|H]; [split; [apply dec_nonempty|apply dec_simple]|].
  apply in_map_iff in H as (c & <- & Hc). destruct (letter_simple c Hc) as (x & -> & Hx & _). cbn [app].
  split; [discriminate|]. constructor; [exact Hx|apply dec_simple].
Qed.
Lemma simple_not c x : simple c -> (of_byte x < 48 \/ 102 < of_byte x \/ (57 < of_byte x /\ of_byte x < 97))%N -> c <> x.
Proof. intros H D ->. unfold simple in H. lia. Qed.
Lemma simple_chars s : Forall simple s -> s = str (map of_byte s) /\ Forall (fun n => (n < 128)%N /\ white_space n = false) (map of_byte s).
Proof.
  intro H. induction H as [|c s Hc _ [E F]]; [split; [reflexivity|constructor]|].
  assert (W : (of_byte c < 128)%N /\ white_space (of_byte c) = false).
  { split; [unfold simple in Hc; lia|]. unfold white_space. cbn [existsb].
    repeat match goal with |- context[(of_byte c =? ?x)%N] => replace (of_byte c =? x)%N with false by (symmetry; apply N.eqb_neq; unfold simple in Hc; lia) end. reflexivity. }
  split; [|constructor; [exact W|exact F]]. cbn [map str flat_map]. fold (str (map of_byte s)). rewrite <- E.
  unfold encode. replace (of_byte c <? 0x80)%N with true by (symmetry; apply N.ltb_lt; tauto). cbn [map app]. rewrite BytesProofs.byte_of_of. reflexivity.
Qed.
Lemma simple_trimmed s : Forall simple s -> trimmed s s.
Proof.
  intro H. destruct (simple_chars s H) as [E F]. exists (map of_byte s), (map of_byte s).
  split; [eapply Forall_impl; [|exact F]; intros n [L _]; unfold scalar; lia|]. split; [exact E|]. split; [|exact E].
  exists [], []. rewrite app_nil_r. split; [reflexivity|]. split; [constructor|]. split; [constructor|].
  rewrite Forall_forall in F. split; intros c t Ec; apply F; rewrite Ec; [now left|apply in_or_app; right; now left].
Qed.
Lemma line_chars v c : In c (infi_line v) -> simple c \/ c = byte_of 44.
Proof.
  unfold infi_line. assert (H : forall s, In s (infi_cells v) -> Forall simple s) by (intros s Hs; now apply cells_simple in Hs).
  revert H. generalize (infi_cells v). intros l H. unfold join. destruct l as [|s l]; [intros []|].
  intro I. apply in_app_or in I as [I|I].
  - left. specialize (H s (or_introl eq_refl)). rewrite Forall_forall in H. auto.
  - apply in_flat_map in I as (t & Ht & [<-|I]); [now right|]. left. specialize (H t (or_intror Ht)). rewrite Forall_forall in H. auto.
Qed.
Lemma line_not v x : x <> byte_of 44 -> (of_byte x < 48 \/ 102 < of_byte x \/ (57 < of_byte x /\ of_byte x < 97))%N -> ~ In x (infi_line v).
Proof. intros Nx D I. apply line_chars in I as [I|I]; [|congruence]. now apply (simple_not x x). Qed.
Lemma line_ne v : infi_line v <> [].
Proof. unfold infi_line, infi_cells, join. intro E. apply app_eq_nil in E as [E _]. now apply dec_nonempty in E. Qed.

(** ** Records *)
Lemma infi_csv_text l : csv_text (byte_of 44) (map infi_cells l) (infi_text l).
Proof.
  induction l as [|v l IH]; [constructor|]. cbn [map]. unfold infi_text. cbn [map concat]. rewrite <- app_assoc.
  apply text_line; [|now left|exact IH]. exists (infi_cells v). split; [discriminate|]. split; [|split; [reflexivity|apply line_ne]].
  assert (H : forall s, In s (infi_cells v) -> Forall simple s) by (intros s Hs; now apply cells_simple in Hs).
  induction (infi_cells v) as [|s cs IHc]; constructor; [|apply IHc; intros x Hx; apply H; now right].
  specialize (H s (or_introl eq_refl)). rewrite Forall_forall in H.
  constructor; intro I; apply H in I; unfold simple in I; cbn in I; lia.
Qed.
Lemma infi_no_bom l x : infi_text l <> bom ++ x.
Proof.
  destruct l as [|v l]; [discriminate|]. unfold infi_text. cbn [map concat]. intro E.
  destruct (infi_line v) as [|c s] eqn:El; [now apply line_ne in El|]. cbn in E. injection E as Ec _.
  assert (I : In c (infi_line v)) by (rewrite El; now left). apply line_chars in I as [I|I]; rewrite Ec in I; [unfold simple in I; cbn in I; lia|discriminate I].
Qed.
Lemma infi_no_quote l : ~ In quote (infi_text l).
Proof.
  unfold infi_text. intro I. apply in_concat in I as (x & Hx & I). apply in_map_iff in Hx as (v & <- & _).
  apply in_app_or in I as [I|[I|[]]]; [|discriminate I]. revert I. apply line_not; [discriminate|cbn; lia].
Qed.

(** ** The first lines *)
Lemma lines_head l t ls last : ~ In LF l -> Forall (fun x => ~ In LF x) (ls ++ [last]) ->
  concat (map (fun x => x ++ [LF]) ls) ++ last = l ++ [LF] ++ t ->
  exists ls', ls = l :: ls' /\ concat (map (fun x => x ++ [LF]) ls') ++ last = t /\ Forall (fun x => ~ In LF x) (ls' ++ [last]).
Proof.
  intros Hl F E. destruct ls as [|x ls].
  - exfalso. cbn in E. inversion F; subst. apply H1. apply in_or_app. right. now left.
  - inversion F as [|? ? Hx F']; subst. cbn [map concat app] in E. rewrite <- !app_assoc in E.
    assert (x = l /\ [LF] ++ concat (map (fun x => x ++ [LF]) ls) ++ last = [LF] ++ t) as [-> E2].
    { clear - Hl Hx E. cbn [app] in *. revert x Hx E. induction l as [|c l IH]; intros [|y x] Hx E; cbn [app] in *.
      - split; [reflexivity|exact E].
      - injection E as Ec _. exfalso. apply Hx. left. exact Ec.
      - injection E as Ec _. exfalso. apply Hl. left. now symmetry.
      - injection E as -> E. destruct (IH (fun I => Hl (or_intror I)) x (fun I => Hx (or_intror I)) E) as [-> E2]. auto. }
    injection E2 as E2. exists ls. auto.
Qed.
Lemma firstn_long {A} n (x y : list A) : length x <= n -> exists k, firstn n (x ++ y) = x ++ firstn k y.
Proof. intro L. exists (n - length x). rewrite firstn_app, (firstn_all2 x L). reflexivity. Qed.
Lemma strip_line v l' : strip_cr (infi_line v) l' -> l' = infi_line v.
Proof.
  intros [E|[E _]]; [|now symmetry]. exfalso. apply (line_not v CR); [discriminate|cbn; lia|]. rewrite E. apply in_or_app. right. now left.
Qed.
Lemma infi_lines y lines : first_lines (infi_text [0; 1]%N ++ y) lines ->
  lines = None \/ exists more, lines = Some (infi_line 0 :: infi_line 1 :: more).
Proof.
  intros (raw & Pv & H). destruct lines as [out|]; [|now left]. right.
  destruct Pv as (ls & last & Eb & F & Er).
  destruct (firstn_long (8 * 1024) (infi_text [0; 1]%N) y) as [k Ek]; [apply Nat.leb_le; vm_compute; reflexivity|].
  rewrite Ek in *. clear Ek. unfold infi_text in Eb. cbn [map concat] in Eb. rewrite app_nil_r, <- !app_assoc in Eb. symmetry in Eb.
  assert (N : forall v, ~ In LF (infi_line v)) by (intro v; apply line_not; [discriminate|cbn; lia]).
  apply lines_head in Eb as (ls1 & -> & Eb & F1); [|apply N|exact F]. apply lines_head in Eb as (ls2 & -> & Eb & F2); [|apply N|exact F1].
  cbn [app] in Er. subst raw. inversion H as [|? l0 ? out1 [S0 _] H1]; subst. inversion H1 as [|? l1 ? out2 [S1 _] H2]; subst.
  rewrite (strip_line _ _ S0), (strip_line _ _ S1). eauto.
Qed.
Lemma ascii_lines data : Forall (fun c => simple c \/ c = byte_of 44 \/ c = LF) data -> exists out, first_lines data (Some out).
Proof.
  intro A. destruct (preview_lines_exist (firstn (8 * 1024) data) (length (firstn (8 * 1024) data) =? 8 * 1024)) as [raw Pv].
  exists raw, raw. split; [exact Pv|]. destruct Pv as (ls & last & Eb & F & Er).
  assert (In_raw : forall l, In l raw -> Forall (fun c => simple c \/ c = byte_of 44) l).
  { intros l Hl. assert (In l (ls ++ [last])).
    { rewrite Er in Hl. apply in_app_or in Hl as [Hl|Hl]; apply in_or_app; [now left|right].
      destruct (_ =? _); [destruct Hl|]. destruct last; [destruct Hl|exact Hl]. }
    rewrite Forall_forall in *. intros c Hc.
    assert (I : In c data).
    { rewrite <- (firstn_skipn (8 * 1024) data), Eb. apply in_or_app. left. apply in_app_or in H as [H|[<-|[]]]; apply in_or_app; [left|now right].
      apply in_concat. exists (l ++ [LF]). split; [apply in_map_iff; eauto|apply in_or_app; now left]. }
    destruct (A c I) as [S|[S|S]]; auto. subst c. destruct (F l H Hc). }
  clear - In_raw. induction raw as [|l raw IH]; constructor; [|apply IH; intros x Hx; apply In_raw; now right].
  specialize (In_raw l (or_introl eq_refl)). rewrite Forall_forall in In_raw. split.
  - right. split; [reflexivity|]. intros x ->. destruct (In_raw CR) as [I|I]; [apply in_or_app; right; now left| |discriminate I].
    unfold simple in I. cbn in I. lia.
  - exists (map of_byte l). clear - In_raw. induction l as [|c l IH]; [split; [constructor|reflexivity]|].
    destruct IH as [F E]; [intros x Hx; apply In_raw; now right|].
    assert (L : (of_byte c < 128)%N) by (destruct (In_raw c (or_introl eq_refl)) as [I| ->]; [unfold simple in I; lia|reflexivity]).
    cbn [map flat_map]. split; [constructor; [unfold scalar; lia|exact F]|]. rewrite <- E.
    unfold encode. replace (of_byte c <? 0x80)%N with true by (symmetry; apply N.ltb_lt; exact L). cbn [map app]. rewrite BytesProofs.byte_of_of. reflexivity.
Qed.

(** ** What it stands for *)
Section Content.
Context (ch : chrono) (lower : bytes -> bytes) (f64_ok : text -> bool).
Hypothesis lower_names : forall s, In s (h_names infi_header) -> lower s = s.
Hypothesis no_floats : letters_no_float f64_ok.

Lemma infi_two_lines : guess_has_header f64_ok (Some (infi_line 0)) (Some (infi_line 1)) (byte_of 44) = false.
Proof.
  assert (T : forall v, v = 0%N \/ v = 1%N -> line_types f64_ok (infi_line v) (byte_of 44) = TLong :: repeat TString 6).
  { intros v Hv. unfold line_types.
    assert (S : split_on (of_byte (byte_of 44)) (chars (infi_line v)) = map chars (infi_cells v)) by (destruct Hv as [-> | ->]; vm_compute; reflexivity).
    rewrite S. unfold infi_cells. cbn [map repeat].
    assert (E0 : guess_type f64_ok (trim (chars (dec v))) = TLong) by (destruct Hv as [-> | ->]; vm_compute; reflexivity).
    assert (E : forall c, In c ["a"; "b"; "c"; "d"; "e"; "f"]%string -> guess_type f64_ok (trim (chars (b c ++ dec v))) = TString).
    { intros c Hc. pose proof (no_floats c v Hc) as Hn.
      assert (trim (chars (b c ++ dec v)) = chars (b c ++ dec v)) as ->.
      { destruct Hv as [-> | ->]; destruct Hc as [<-|[<-|[<-|[<-|[<-|[<-|[]]]]]]]; vm_compute; reflexivity. }
      unfold guess_type. rewrite Hn.
      destruct Hv as [-> | ->]; destruct Hc as [<-|[<-|[<-|[<-|[<-|[<-|[]]]]]]]; vm_compute; reflexivity. }
    rewrite E0. rewrite !E by (cbn; tauto). reflexivity. }
  unfold guess_has_header. rewrite !T by auto. reflexivity.
Qed.

Lemma infi_content_by a (z : option (zone ch)) u lines n :
  infi_options a u -> (N.of_nat n * nanos_per u < 2 ^ 64)%N ->
  lines = None \/ lines = Some [infi_line 0] \/ (exists more, lines = Some (infi_line 0 :: infi_line 1 :: more)) ->
  csv_content_by lower f64_ok a z lines (infi_text (counts (S n))) infi_header (infi_rows u (S n)).
Proof.
  intros (A1 & A2 & A3 & A4 & A5 & A6 & l & A7 & Hu) L Hl.
  exists (byte_of 44), false, (infi_text (counts (S n))), (map infi_cells (counts (S n))), (map infi_cells (counts (S n))), [],
    (infi_cells 0), (map infi_cells (map N.of_nat (seq 1 n))), (map dec (counts (S n))), (map (fun v => v * nanos_per u)%N (counts (S n))), (ColIndex 0), None, (FUnits u).
  split. { unfold input_delimiter. rewrite A1. destruct Hl as [->|[->|[more ->]]]; [reflexivity|vm_compute; reflexivity..]. }
  do 3 (split; [discriminate|]).
  split. { right. right. split; [exact A2|]. destruct Hl as [->|[->|[more ->]]]; [reflexivity..|]. symmetry. apply infi_two_lines. }
  split; [now left|]. split; [apply infi_no_bom|]. split; [apply infi_csv_text|].
  split. { assert (H : forall l0, Forall2 (Forall2 trimmed) (map infi_cells l0) (map infi_cells l0)).
    { intro l0. induction l0 as [|v l0 IH]; constructor; [|exact IH].
      assert (H : forall s, In s (infi_cells v) -> Forall simple s) by (intros s Hs; now apply cells_simple in Hs).
      induction (infi_cells v) as [|s cs IHc]; constructor; [apply simple_trimmed, H; now left|apply IHc; intros x Hx; apply H; now right]. }
    apply H. }
  assert (Ec : counts (S n) = 0%N :: map N.of_nat (seq 1 n)) by reflexivity.
  split; [rewrite Ec; reflexivity|].
  split. { apply Forall_forall. intros r Hr. apply in_map_iff in Hr as (v & <- & _). reflexivity. }
  split; [vm_compute; reflexivity|]. split; [reflexivity|].
  split. { apply no_column; [exact A4|exact A3|]. unfold get_timestamp_col, auto_col, auto_found.
    replace (map lower (h_names infi_header)) with (h_names infi_header); [vm_compute; reflexivity|].
    rewrite <- (map_id (h_names infi_header)) at 1. apply map_ext_in. intros s Hs. symmetry. now apply lower_names. }
  split. { intros x _. apply (epoch_units _ _ _ _ _ l u); assumption. }
  replace (infi_cells 0 :: map infi_cells (map N.of_nat (seq 1 n))) with (map infi_cells (counts (S n))) by (rewrite Ec; reflexivity).
  split. { clear. induction (counts (S n)) as [|v l0 IH]; constructor; [|exact IH]. constructor. reflexivity. }
  split. { assert (B : Forall (fun v => (v <= N.of_nat n)%N) (counts (S n))).
    { apply Forall_forall. intros v Hv. apply in_map_iff in Hv as (i & <- & Hi). apply in_seq in Hi. lia. }
    clear - B L. induction B as [|v l0 Hv _ IH]; constructor; [|exact IH]. exists v. split; [apply dec_numeral|]. split; [reflexivity|].
    eapply N.le_lt_trans; [|exact L]. apply N.mul_le_mono_r. exact Hv. }
  unfold infi_rows. clear. induction (counts (S n)) as [|v l0 IH]; [reflexivity|]. cbn [map combine fst snd]. rewrite <- IH. reflexivity.
Qed.

Lemma counts_lines n y : exists y', infi_text (counts (S (S n))) ++ y = infi_text [0; 1]%N ++ y'.
Proof.
  exists (infi_text (map N.of_nat (seq 2 n)) ++ y). unfold infi_text. change (counts (S (S n))) with ([0; 1]%N ++ map N.of_nat (seq 2 n)).
  rewrite map_app, concat_app, <- app_assoc. reflexivity.
Qed.

Lemma infi_simple l : Forall (fun c => simple c \/ c = byte_of 44 \/ c = LF) (infi_text l).
Proof.
  apply Forall_forall. intros c H. apply in_concat in H as (x & Hx & I). apply in_map_iff in Hx as (v & <- & _).
  apply in_app_or in I as [I|[<-|[]]]; [apply line_chars in I; tauto|auto].
Qed.
(** Any number of polls gives a CSV file with the rows of the numbers so far. *)
Theorem C112_contents : forall prof n data a (z : option (zone ch)) u,
  infi_body prof (S n) = Ok data -> infi_options a u -> (N.of_nat n * nanos_per u < 2 ^ 64)%N ->
  csv_content lower f64_ok a z data infi_header (infi_rows u (S n)).
Proof.
  intros prof n data a z u Hb Ho L.
  apply infi_body_text in Hb as ->; [|destruct u; cbn [nanos_per] in L; lia].
  apply content_by_lines.
  destruct (ascii_lines _ (infi_simple (counts (S n)))) as [out Hout]. exists (Some out). split; [exact Hout|].
  apply infi_content_by; auto.
  destruct n as [|n].
  - right. left. destruct Hout as (raw & (ls & last & Eb & F & Er) & H).
    rewrite firstn_all2 in Eb by (apply Nat.leb_le; vm_compute; reflexivity).
    unfold infi_text, counts in Eb. cbn [seq map concat] in Eb. rewrite <- app_assoc in Eb. symmetry in Eb.
    apply lines_head in Eb as (ls1 & -> & Eb & F1); [|apply line_not; [discriminate|cbn; lia]|exact F].
    apply app_eq_nil in Eb as [Eb ->]. destruct ls1 as [|x ls1]; [|cbn in Eb; apply app_eq_nil in Eb as [Eb _]; apply app_eq_nil in Eb as [_ Eb]; discriminate].
    rewrite Er in H. destruct (_ =? _); cbn [app] in H; inversion H as [|? l0 ? out1 [S0 _] H1]; subst; inversion H1; subst; rewrite (strip_line _ _ S0); reflexivity.
  - right. right. destruct (counts_lines n []) as [y Ey]. rewrite app_nil_r in Ey. rewrite Ey in Hout.
    destruct (infi_lines _ _ Hout) as [E|[more E]]; [discriminate|eauto].
Qed.
End Content.
Print Assumptions C112_contents.

(** ** chop on it *)
Lemma sorted_same l1 : forall l2, Sorted ts_le l1 -> Sorted ts_le l2 -> Permutation l1 l2 ->
  (forall x y, In x l2 -> In y l2 -> ts x = ts y -> x = y) -> l1 = l2.
Proof.
  assert (Tr : Relations_1.Transitive ts_le) by (intros x y z; unfold ts_le; lia).
  induction l1 as [|a l1 IH]; intros l2 S1 S2 P Inj; [now apply Permutation_nil in P|].
  destruct l2 as [|c l2]; [apply Permutation_sym, Permutation_nil in P; discriminate|].
  apply Sorted_StronglySorted in S1, S2; try exact Tr. inversion S1 as [|? ? S1' F1]; inversion S2 as [|? ? S2' F2]; subst.
  assert (a = c) as ->.
  { apply Inj; [eapply Permutation_in; [exact P|now left]|now left|].
    rewrite Forall_forall in F1, F2.
    assert (Ia : In a (c :: l2)) by (eapply Permutation_in; [exact P|now left]).
    assert (Ic : In c (a :: l1)) by (eapply Permutation_in; [apply Permutation_sym, P|now left]).
    destruct Ia as [->|Ia]; [reflexivity|]. destruct Ic as [->|Ic]; [reflexivity|]. apply F1 in Ic. apply F2 in Ia. unfold ts_le in *. lia. }
  f_equal. apply IH; [now apply StronglySorted_Sorted..|eapply Permutation_cons_inv; exact P|].
  intros x y Hx Hy. apply Inj; now right.
Qed.
Lemma infi_ordered u n : time_ordered (infi_rows u n).
Proof.
  assert (Tr : Relations_1.Transitive ts_le) by (intros x y z; unfold ts_le; lia).
  apply StronglySorted_Sorted. unfold infi_rows, counts. rewrite map_map. generalize 0. induction n as [|n IH]; intro k; [constructor|].
  cbn [seq map]. constructor; [apply IH|]. apply Forall_forall. intros r Hr. apply in_map_iff in Hr as (i & <- & Hi). apply in_seq in Hi.
  unfold ts_le. cbn [ts]. apply N.mul_le_mono_r. lia.
Qed.
Lemma counts_S n : counts (S n) = counts n ++ [N.of_nat n].
Proof. unfold counts. rewrite seq_S, map_app. reflexivity. Qed.
Lemma infi_rows_S u n : infi_rows u (S n) = infi_rows u n ++ [{| ts := (N.of_nat n * nanos_per u)%N; vals := map VString (infi_cells (N.of_nat n)) |}].
Proof. unfold infi_rows. rewrite counts_S, map_app. reflexivity. Qed.
Lemma infi_earlier u n : earlier range_all (N.of_nat n * nanos_per u)%N (infi_rows u (S n)) = infi_rows u n.
Proof.
  unfold earlier. rewrite infi_rows_S, filter_app. cbn [filter ts]. rewrite N.ltb_irrefl, andb_false_r, app_nil_r.
  unfold infi_rows, counts. rewrite map_map. assert (L : forall i, In i (seq 0 n) -> i < n) by (intros i Hi; apply in_seq in Hi; lia).
  induction (seq 0 n) as [|i l IH]; [reflexivity|]. cbn [map filter ts]. cbn [StreamSpec.in_range range_all from_begin before_end tr_begin tr_end andb].
  replace (N.of_nat i * nanos_per u <? N.of_nat n * nanos_per u)%N with true; [f_equal; apply IH; intros j Hj; apply L; now right|].
  symmetry. apply N.ltb_lt. specialize (L i (or_introl eq_refl)). apply N.mul_lt_mono_pos_r; [destruct u; reflexivity|lia].
Qed.

Lemma strip_exists (l : bytes) : exists l', strip_cr l l'.
Proof.
  destruct l as [|c l] using rev_ind; [exists []; right; split; [reflexivity|intros x E; destruct x; discriminate]|].
  destruct (Ascii.eqb_spec c CR) as [->|N]; [exists l; now left|]. exists (l ++ [c]). right. split; [reflexivity|].
  intros x E. apply app_inj_tail in E as [_ E]. congruence.
Qed.
Lemma first_lines_exist data : exists lines, first_lines data lines.
Proof.
  destruct (preview_lines_exist (firstn (8 * 1024) data) (length (firstn (8 * 1024) data) =? 8 * 1024)) as [raw Pv].
  enough ((exists out, Forall2 (fun l l' => strip_cr l l' /\ well_formed l') raw out) \/ exists l l', In l raw /\ strip_cr l l' /\ ~ well_formed l') as [[out H]|H].
  - exists (Some out), raw. auto.
  - exists None, raw. auto.
  - clear. induction raw as [|l raw IH]; [left; exists []; constructor|].
    destruct (strip_exists l) as [l' Hl]. destruct (utf8 l') eqn:E.
    + apply utf8_well_formed in E. destruct IH as [[out H]|(x & x' & I & H)]; [left; exists (l' :: out); constructor; auto|right; exists x, x'; cbn; auto].
    + right. exists l, l'. split; [now left|]. split; [exact Hl|]. intro W. apply utf8_well_formed in W. congruence.
Qed.

Section Chop.
Context (prof : profile) (ch : chrono) (lower : bytes -> bytes) (f64_ok : text -> bool).

(** While the stream goes on - or breaks off in any way - everything up to the last row but two is handed to the
    output. *)
Theorem C112_endless : forall prof' a (z : option (zone ch)) cfg u n data F out h' k,
  (forall s, In s (h_names infi_header) -> lower s = s) -> letters_no_float f64_ok ->
  infi_body prof' (S (S n)) = Ok data -> infi_options a u -> (N.of_nat (S n) * nanos_per u < 2 ^ 64)%N ->
  csv_input_options a z = Ok cfg ->
  3 <= F -> out infi_header = Ok (h', k) ->
  (forall past r, exists rows, sk_write k past r = Ok rows) -> (forall past, sk_flush k past = Ok tt) ->
  exists calls,
    filter (fun r => (ts r <? N.of_nat n * nanos_per u)%N) (ev_rows calls) = infi_rows u n /\
    time_ordered (ev_rows calls) /\
    forall i p more, i_data i = data ++ more -> previewer_new i = Ok p ->
      exists src, csv_create prof ch lower f64_ok csv_records cfg p = Ok (infi_header, src) /\
        DriverSpec.prefix calls (events_at (r_log (fst (chop F [(infi_header, src)] out range_all))) 0 0).
Proof.
  intros prof' a z cfg u n data F out h' k Hlow Hfl Hb Ho L Hc HF Hout Hw Hfs.
  apply infi_body_text in Hb as ->; [|destruct u; cbn [nanos_per] in L; lia].
  destruct (C108_chop F [infi_rows u (S n)] out range_all infi_header h' k (N.of_nat n * nanos_per u)%N HF ltac:(discriminate) Hout Hw Hfs) as (calls & Sc & Pc & Pre).
  { constructor; [apply infi_ordered|constructor]. }
  { constructor; [|constructor]. eexists. split; [rewrite infi_rows_S; apply in_or_app; right; now left|]. split; [reflexivity|apply N.le_refl]. }
  exists calls. cbn [map concat] in Pc. rewrite app_nil_r, infi_earlier in Pc. split.
  { apply sorted_same; [| |exact Pc|].
    - apply StronglySorted_Sorted. apply Sorted_StronglySorted in Sc; [|intros x y w; unfold ts_le; lia]. clear - Sc.
      induction Sc as [|r l _ IH Fr]; cbn [filter]; [constructor|]. destruct (_ <? _)%N; [|exact IH]. constructor; [exact IH|].
      rewrite Forall_forall in *. intros x Hx. apply Fr. now apply filter_In in Hx as [Hx _].
    - apply infi_ordered.
    - intros x y Hx Hy. apply in_map_iff in Hx as (v & <- & _), Hy as (v' & <- & _). cbn [ts]. intro E.
      apply N.mul_cancel_r in E; [now subst|destruct u; discriminate]. }
  split; [exact Sc|]. intros i p more Ed Hp.
  destruct (first_lines_exist (i_data i)) as [lines Fl].
  destruct (C108_csv_input prof ch lower f64_ok a z cfg i p (infi_text (counts (S n)) ++ infi_line (N.of_nat (S n))) more lines infi_header (infi_rows u (S (S n))) Hc Hp) as [rest Er].
  - rewrite Ed. f_equal. rewrite counts_S. unfold infi_text. rewrite map_app, concat_app. cbn [map concat]. rewrite app_nil_r, <- app_assoc. reflexivity.
  - intro I. apply in_app_or in I as [I|I]; [now apply infi_no_quote in I|]. revert I. apply line_not; [discriminate|cbn; lia].
  - exact Fl.
  - replace ((infi_text (counts (S n)) ++ infi_line (N.of_nat (S n))) ++ [byte_of 10]) with (infi_text (counts (S (S n)))).
    2:{ rewrite (counts_S (S n)). unfold infi_text. rewrite map_app, concat_app. cbn [map concat]. rewrite app_nil_r, <- app_assoc. reflexivity. }
    apply infi_content_by; auto. rewrite Ed in Fl. destruct (counts_lines n more) as [y' Ey]. rewrite Ey in Fl.
    destruct (infi_lines _ _ Fl) as [->|[m ->]]; eauto.
  - exists (map Ok (infi_rows u (S n)) ++ rest). rewrite Er. split; [rewrite (infi_rows_S u (S n)), List.removelast_last; reflexivity|].
    apply (Pre [rest] eq_refl).
Qed.

(** The times are small numbers: without the option that gives their unit (and formats that read 0) nothing can be
    read at all. *)
Theorem C112_no_units_refuted : forall prof' (cfg : csv_input ch) n data more p i,
  (forall s, In s (h_names infi_header) -> lower s = s) -> letters_no_float f64_ok ->
  infi_body prof' (S (S n)) = Ok data -> (N.of_nat n < 2 ^ 63)%N -> i_data i = data ++ more -> previewer_new i = Ok p ->
  ci_delimiter cfg = None -> ci_has_header cfg = CsvModel.Auto -> ci_col cfg = CfgAuto -> ci_fmt cfg = FmtAuto ->
  (forall f, c_datetime ch f (b "0") = None) -> (forall f, c_naive ch f (b "0") = None) -> (forall f, c_date ch f (b "0") = None) ->
  csv_create prof ch lower f64_ok csv_records cfg p = cannot_parse.
Proof.
  intros prof' cfg n data more p i Hlow Hfl Hb L Ed Hp C1 C2 C3 C4 P1 P2 P3.
  apply infi_body_text in Hb as ->; [|lia].
  destruct (first_lines_exist (i_data i)) as [lines Fl].
  assert (El : get_lines p = lines).
  { destruct Fl as (raw & Pv & Lx). rewrite <- (C28_preview_is_prefix _ _ Hp) in Pv.
    destruct (C29_lines_proof _ _ _ Hp Pv) as [L1 L2]. destruct lines; [now apply L1|now apply L2]. }
  unfold csv_create. rewrite El, (preview_stream _ _ Hp), Ed. rewrite Ed in Fl. destruct (counts_lines n more) as [y Ey]. rewrite Ey in *.
  assert (Hd : delimiter_used cfg lines (byte_of 44)).
  { unfold delimiter_used. rewrite C1. destruct (infi_lines _ _ Fl) as [->|[m ->]]; [reflexivity|vm_compute; reflexivity]. }
  assert (Hh : has_header_used f64_ok cfg lines (byte_of 44) = false).
  { unfold has_header_used. rewrite C2. destruct (infi_lines _ _ Fl) as [->|[m ->]]; [reflexivity|now apply infi_two_lines]. }
  assert (R : exists A, csv_records (byte_of 44) {| s_data := infi_text [0; 1]%N ++ y; s_tail := i_tail i |} = Ok (infi_cells 0) :: A).
  { eexists. unfold csv_records, strip_bom. cbn [s_data s_tail]. unfold infi_text. cbn [map concat]. rewrite <- app_assoc.
    change (infi_line 0 ++ [byte_of 10]) with (b "0,a0,b0,c0,d0,e0,f0" ++ [byte_of 10]). cbn. reflexivity. }
  destruct R as [A R]. unfold csv_new. cbv zeta.
  match goal with |- bind (bind ?x _) _ = _ => replace x with (@Ok byte (byte_of 44)) end.
  2:{ unfold delimiter_used in Hd. rewrite C1 in *. destruct lines as [[|l0 ls]|]; cbn [nth_error]; first [congruence|now symmetry]. }
  cbn [bind].
  match goal with |- bind (bind (if ?x then _ else _) _) _ = _ => replace x with false end.
  2:{ symmetry. unfold has_header_used in Hh. rewrite C2 in *. destruct lines as [[|l0 [|l1 ls]]|]; try reflexivity. exact Hh. }
  cbn [bind]. rewrite R. cbn [bind].
  replace (string_record (infi_cells 0)) with (@Ok record (infi_cells 0)) by (vm_compute; reflexivity). cbn [bind].
  rewrite C3, C4. unfold get_col_and_fmt.
  replace (get_timestamp_col lower _ CfgAuto) with (@Ok (ts_col * option units) (ColIndex 0, None)).
  2:{ symmetry. unfold get_timestamp_col, auto_col, auto_found. cbn [h_names].
      match goal with |- context[map lower ?l] => change l with (h_names infi_header) end.
      replace (map lower (h_names infi_header)) with (h_names infi_header); [vm_compute; reflexivity|].
      rewrite <- (map_id (h_names infi_header)) at 1. apply map_ext_in. intros s Hs. symmetry. now apply Hlow. }
  cbn [bind fmt_auto]. unfold fmt_auto_index. change (nth_error (infi_cells 0) 0) with (Some (b "0")). cbn [unwrap bind].
  assert (F : forall X (q : bytes -> bytes -> option X) fs, (forall f, q f (b "0") = None) -> first_fmt q fs (b "0") = None).
  { intros X q fs H. induction fs as [|f fs IH]; [reflexivity|]. cbn [first_fmt]. rewrite H. exact IH. }
  rewrite !F by assumption. reflexivity.
Qed.
End Chop.
Print Assumptions C112_endless.
Print Assumptions C112_no_units_refuted.

(** ** The whole program *)
Section Program.
Context (prof : profile) (ch : chrono) (lower : bytes -> bytes) (f64_ok : text -> bool).
Variables (ds : decoders) (inflate bunzip : inner -> inner) (f64 f32 : N -> bytes).
Variables (zones : option (bytes -> option (zone ch))) (parse_zone : bytes -> option (zone ch)).
Variable create : bytes -> res unit.
Local Notation cli := (chopper_cli prof ch lower f64_ok csv_records ds inflate bunzip f64 f32 None None zones parse_zone create).
Local Notation args_of := (parse_args prof ch zones parse_zone).

(** A file that holds a beginning of the stream is copied to CSV, row by row. *)
Theorem C112_chop : forall prof' n data F w a opts z u v path,
  (forall s, In s (h_names infi_header) -> lower s = s) -> letters_no_float f64_ok ->
  infi_body prof' (S n) = Ok data -> infi_options a u -> (N.of_nat n * nanos_per u < 2 ^ 64)%N ->
  3 <= F -> a_inputs a = Some [path] -> a_formats a = None -> csv_name (a_output a) ->
  args_of w a = Ok opts -> zone_meant (a_timezone a) (w_env_tz w) zones parse_zone z -> granularity a v ->
  (forall p, a_output a = Some p -> create p = Ok tt) ->
  (a_out_print_time a = b "yes" -> a_out_epoch a = false -> z <> None) ->
  plain_file w path (b ".csv") data -> selected (op_range ch opts) (map Ok (infi_rows u (S n))) <> [] ->
  exists header lines,
    run_ok (cli F w a) (header ++ [byte_of 10] ++ concat (map (fun l => l ++ [byte_of 10]) lines)) /\
    output_header_line a v infi_header header /\
    Forall2 (output_line f64 f32 a z v) (selected (op_range ch opts) (map Ok (infi_rows u (S n)))) lines.
Proof.
  intros prof' n data F w a opts z u v path Hlow Hfl Hb Ho L HF Ain Af Hcsv Ea Hz Hu Ec Hzone Pf Hne.
  destruct (C104_to_csv prof ch lower f64_ok ds inflate bunzip f64 f32 zones parse_zone create F w a opts z v [path] infi_header [infi_rows u (S n)])
    as (header & rows & lines & Hr & Hh & Hl & _ & _ & One); auto; try discriminate.
  - constructor; [|constructor]. split; [|exact Hne]. left. exists data. split; [exact Pf|]. split.
    + apply infi_body_text in Hb as ->; [|destruct u; cbn [nanos_per] in L; lia]. intros [t E]. unfold infi_text in E.
      change (counts (S n)) with (0%N :: map N.of_nat (seq 1 n)) in E. cbn [map concat] in E. rewrite <- app_assoc in E. vm_compute in E. discriminate E.
    + eapply C112_contents; eauto.
  - rewrite (One _ eq_refl) in Hl. eauto.
Qed.
End Program.
Print Assumptions C112_chop.
