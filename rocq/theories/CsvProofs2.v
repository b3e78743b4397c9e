(** Proofs about CSV input: the rows; the csv crate's splitter on plain text. *)
From Verif Require Import CsvModel CsvSpec CsvProofs CsvUtilProofs TimestampProofs BytesProofs Utf8Spec.
Local Open Scope nat_scope.

(** Rows when shorter records keep the values of the row before them. *)
Fixpoint carried (old : list fvalue) (recs : list record) (times : list nanos) : list row :=
  match recs, times with
  | r :: recs', t :: times' =>
      let vs := map VString r ++ skipn (length r) old in
      {| ts := t; vals := vs |} :: carried vs recs' times'
  | _, _ => []
  end.

Lemma last_default {A} (x : A) l a c : last (x :: l) a = last (x :: l) c.
Proof. revert x. induction l as [|y l IH]; intro x; [reflexivity|]. exact (IH y). Qed.

Section Rows.
Context (prof : profile) (ch : chrono).
Notation timed := (timed prof ch).
Notation bad_record := (bad_record prof ch).

Lemma update_ok s old r t : length r <= length (vals old) -> timed s r t ->
  update_row prof ch (cs_col s) (cs_fmt s) (cs_tz s) old r =
    ({| ts := t; vals := map VString r ++ skipn (length r) (vals old) |}, Ok tt).
Proof.
  intros L T. unfold update_row. rewrite overwrite_spec. destruct (Nat.leb_spec (length r) (length (vals old))); [|lia].
  unfold timed in T. rewrite T. reflexivity.
Qed.
Lemma carried_width vs (r : record) : length r <= length vs -> length (map VString r ++ skipn (length r) vs) = length vs.
Proof. intro L. rewrite app_length, map_length, skipn_length. lia. Qed.

(** The good records before [rest]: all but the last of the rows are out, the last is held. *)
Lemma rows_good s : forall reader recs times next rest,
  Forall2 decodes reader recs -> Forall2 (timed s) recs times ->
  Forall (fun r => length r <= length (vals next)) recs ->
  let all := next :: carried (vals next) recs times in
  rows_from prof ch s next (reader ++ rest) = map Ok (removelast all) ++ rows_from prof ch s (last all next) rest.
Proof.
  intros reader recs times next rest D. revert times next. induction D as [|raw r reader recs Hr D IH]; intros times next T W.
  - inversion T; subst. cbn. reflexivity.
  - inversion T as [|? t ? times' Ht T']; subst. inversion W as [|? ? Wr W']; subst.
    cbn [app rows_from]. apply string_record_decodes in Hr. rewrite Hr. rewrite (update_ok _ _ _ _ Wr Ht).
    cbn [carried]. set (n' := {| ts := t; vals := map VString r ++ skipn (length r) (vals next) |}).
    specialize (IH times' n' T').
    rewrite IH.
    + cbn zeta. cbn [vals n'].
      set (l := carried (map VString r ++ skipn (length r) (vals next)) recs times').
      change (removelast (next :: n' :: l)) with (next :: removelast (n' :: l)).
      change (last (next :: n' :: l) next) with (last (n' :: l) next).
      replace (last (n' :: l) next) with (last (n' :: l) n'); [reflexivity|].
      apply last_default.
    + eapply Forall_impl; [|exact W']. cbn beta. intros x Hx. unfold n'. cbn [vals]. rewrite carried_width by exact Wr. exact Hx.
Qed.
Lemma carried_length s recs times : Forall2 (timed s) recs times -> forall old, length (carried old recs times) = length recs.
Proof. induction 1 as [|r t recs times _ H IH]; intro old; [reflexivity|]. cbn. rewrite IH. reflexivity. Qed.
Lemma rows_all s reader recs times next :
  Forall2 decodes reader recs -> Forall2 (timed s) recs times ->
  Forall (fun r => length r <= length (vals next)) recs ->
  rows_from prof ch s next reader = map Ok (next :: carried (vals next) recs times).
Proof.
  intros D T W. pose proof (rows_good s reader recs times next [] D T W) as H. rewrite app_nil_r in H. rewrite H.
  cbn [rows_from]. cbn zeta. change [Ok (last (next :: carried (vals next) recs times) next)] with
    (map (@Ok row) [last (next :: carried (vals next) recs times) next]). rewrite <- map_app.
  rewrite <- app_removelast_last by discriminate. reflexivity.
Qed.
Lemma carried_same : forall recs times old, Forall (fun r => length r = length old) recs ->
  carried old recs times = map (fun p => row_of (fst p) (snd p)) (combine recs times).
Proof.
  induction recs as [|r recs IH]; intros [|t times] old W; try reflexivity. inversion W as [|? ? Wr W']; subst.
  cbn [carried combine map fst snd]. rewrite skipn_all2, app_nil_r by lia. unfold row_of at 1. f_equal.
  apply IH. eapply Forall_impl; [|exact W']. cbn beta. intros x Hx. rewrite map_length. congruence.
Qed.
Lemma rows_bad s next raw rest : bad_record s (length (vals next)) raw ->
  exists e, is_ok e = false /\ rows_from prof ch s next (raw :: rest) = [e].
Proof.
  intro B. cbn [rows_from].
  destruct (let* fs := raw in string_record fs) as [r|e| | |] eqn:E;
    try (eexists; split; [|reflexivity]; reflexivity).
  apply string_record_decodes in E. destruct B as [B|(r' & D & B)]; [exfalso; exact (B _ E)|].
  assert (r' = r). { apply string_record_decodes in E, D. congruence. } subst r'.
  unfold update_row. rewrite overwrite_spec.
  destruct (Nat.leb_spec (length r) (length (vals next))).
  - destruct B as [B|B]; [lia|]. destruct (get_timestamp prof ch r (cs_col s) (cs_fmt s) (cs_tz s)) eqn:G;
      try (eexists; split; [|reflexivity]; reflexivity). exfalso. exact (B _ G).
  - eexists. split; [|reflexivity]. reflexivity.
Qed.
End Rows.

(** ** The splitter on plain text *)
Lemma keep_field d st fields cur tail f s :
  ~ In d f -> ~ In quote f -> ~ In (byte_of 10) f -> ~ In (byte_of 13) f -> f <> [] ->
  (st = StartRecord \/ st = StartField \/ st = InField) ->
  csv_parse d st fields cur tail (f ++ s) = csv_parse d InField fields (cur ++ f) tail s.
Proof.
  intros Hd Hq Hn Hr. revert st cur. induction f as [|c f IH]; intros st cur Ne Hst; [congruence|].
  assert (T : csv_trans d st c = Keep InField).
  { assert (Et : is_term c = false).
    { unfold is_term. destruct (Ascii.eqb_spec c (byte_of 10)); [exfalso; apply Hn; left; assumption|].
      destruct (Ascii.eqb_spec c (byte_of 13)); [exfalso; apply Hr; left; assumption|reflexivity]. }
    assert (Ed : Ascii.eqb c d = false) by (apply Ascii.eqb_neq; intros ->; apply Hd; left; reflexivity).
    assert (Eq : Ascii.eqb c quote = false) by (apply Ascii.eqb_neq; intros ->; apply Hq; left; reflexivity).
    destruct Hst as [->|[->| ->]]; unfold csv_trans; rewrite ?Et, ?Ed, ?Eq; reflexivity. }
  cbn [app csv_parse]. rewrite T. destruct f as [|c' f].
  - reflexivity.
  - rewrite IH; try discriminate; auto; try (intro X; (apply Hd + apply Hq + apply Hn + apply Hr); right; exact X).
    rewrite <- app_assoc. reflexivity.
Qed.
Definition unquoted (d : byte) (f : bytes) : Prop :=
  ~ In d f /\ ~ In quote f /\ ~ In (byte_of 10) f /\ ~ In (byte_of 13) f.
(** A line of plain fields is one record; [d] itself is neither quote nor line end. *)
Definition delim_ok (d : byte) : Prop := d <> quote /\ is_term d = false.
Lemma parse_rest d : delim_ok d -> forall cols st fields cur tail s,
  Forall (unquoted d) cols -> (st = StartField \/ st = InField) ->
  csv_parse d st fields cur tail (flat_map (fun x => [d] ++ x) cols ++ byte_of 10 :: s) =
  Ok (fields ++ cur :: cols) :: csv_parse d StartRecord [] [] tail s.
Proof.
  intros [Dq Dt]. induction cols as [|f cols IH]; intros st fields cur tail s F St.
  - cbn [flat_map app csv_parse].
    assert (T : csv_trans d st (byte_of 10) = EndRecord).
    { assert (E : Ascii.eqb (byte_of 10) d = false).
      { apply Ascii.eqb_neq. intros <-. discriminate Dt. }
      destruct St as [->| ->]; unfold csv_trans; rewrite E; reflexivity. }
    rewrite T. reflexivity.
  - inversion F as [|? ? (H1 & H2 & H3 & H4) F']; subst. cbn [flat_map]. rewrite <- !app_assoc. cbn [app csv_parse].
    assert (T : csv_trans d st d = EndField).
    { assert (E : Ascii.eqb d quote = false) by (apply Ascii.eqb_neq; exact Dq).
      destruct St as [->| ->]; unfold csv_trans; rewrite ?E, Ascii.eqb_refl; reflexivity. }
    rewrite T.
    destruct f as [|c f].
    + cbn [app]. rewrite IH by auto. rewrite <- app_assoc. reflexivity.
    + rewrite keep_field by (auto; discriminate). rewrite IH by auto. rewrite <- app_assoc. reflexivity.
Qed.
Lemma parse_line d cols tail s : delim_ok d -> Forall (unquoted d) cols -> cols <> [] -> cols <> [[]] ->
  csv_parse d StartRecord [] [] tail (join [d] cols ++ byte_of 10 :: s) =
  Ok cols :: csv_parse d StartRecord [] [] tail s.
Proof.
  intros D F Ne Ne'. destruct cols as [|f cols]; [congruence|]. cbn [join]. rewrite <- app_assoc.
  inversion F as [|? ? (H1 & H2 & H3 & H4) F']; subst.
  destruct f as [|c f].
  - destruct cols as [|g cols]; [congruence|]. cbn [app flat_map csv_parse]. destruct D as [Dq Dt].
    assert (T : csv_trans d StartRecord d = EndField).
    { assert (E : Ascii.eqb d quote = false) by (apply Ascii.eqb_neq; exact Dq).
      unfold csv_trans. rewrite Dt, E, Ascii.eqb_refl. reflexivity. }
    rewrite T. rewrite <- !app_assoc. cbn [app]. inversion F' as [|? ? (G1 & G2 & G3 & G4) F'']; subst.
    destruct g as [|c g].
    + cbn [app]. rewrite parse_rest by (auto; split; assumption). reflexivity.
    + rewrite keep_field by (auto; discriminate). rewrite parse_rest by (auto; split; assumption). reflexivity.
  - rewrite keep_field by (auto; discriminate). rewrite parse_rest by auto. reflexivity.
Qed.
Lemma parse_lines d tail lines : delim_ok d ->
  Forall (fun cols => Forall (unquoted d) cols /\ cols <> [] /\ cols <> [[]]) lines ->
  csv_parse d StartRecord [] [] tail (concat (map (fun cols => join [d] cols ++ [byte_of 10]) lines)) =
  map Ok lines ++ match tail with Some e => [Err (EIo e)] | None => [] end.
Proof.
  intros D. induction 1 as [|cols lines (F & N & N') H IH]; [destruct tail; reflexivity|].
  cbn [map concat]. rewrite <- app_assoc. cbn [app]. rewrite parse_line by assumption. rewrite IH. reflexivity.
Qed.
Lemma plain_decodes d cols : Forall (plain d) cols -> decodes (Ok cols) cols.
Proof.
  intro F. exists cols. split; [reflexivity|]. induction F as [|c cols (_ & _ & _ & _ & cs & Hc & E & St) F IH]; constructor; [|exact IH].
  exists cs, cs. auto.
Qed.
Lemma plain_unquoted d s : plain d s -> unquoted d s.
Proof. intros (A & B & C & D & _). repeat split; assumption. Qed.
Lemma stripped_digits cs : Forall (fun c => is_digit c = true) cs -> stripped cs cs.
Proof.
  intro H. exists [], []. repeat split; try constructor.
  - rewrite app_nil_r. reflexivity.
  - intros c t ->. apply Forall_inv in H. rewrite white_space_eq. unfold is_digit, is_whitespace in *. lia.
  - intros c t ->. apply Forall_app in H. destruct H as [_ H]. apply Forall_inv in H. rewrite white_space_eq. unfold is_digit, is_whitespace in *. lia.
Qed.
Lemma dec_plain d n : ~ digit_byte d -> plain d (dec n).
Proof.
  intro Hd. pose proof (dec_digits n) as D.
  assert (X : forall c, ~ digit_byte c -> ~ In c (dec n)).
  { intros c Hc I. rewrite Forall_forall in D. exact (Hc (D c I)). }
  split; [apply X, Hd|].
  split; [apply X; intros [H _]; vm_compute in H; congruence|].
  split; [apply X; intros [H _]; vm_compute in H; congruence|].
  split; [apply X; intros [H _]; vm_compute in H; congruence|].
  exists (map of_byte (dec n)). split; [|split].
  - apply Forall_map. eapply Forall_impl; [|exact D]. unfold digit_byte, scalar. cbn beta. intros; lia.
  - clear X. induction D as [|c s Hc D IH]; [reflexivity|]. cbn [map str flat_map]. change (flat_map encode (map of_byte s)) with (str (map of_byte s)).
    rewrite <- IH. unfold encode. unfold digit_byte in Hc. destruct (N.ltb_spec (of_byte c) 0x80); [|lia]. cbn [map app]. rewrite byte_of_of. reflexivity.
  - apply stripped_digits, Forall_map. eapply Forall_impl; [|exact D]. unfold digit_byte, is_digit. cbn beta. intros; lia.
Qed.
