(** Proofs about DC files. *)
From Verif Require Export BytesProofs.
From Verif Require Import DriverSpec.

(** ** Bitmap size *)
Definition writer_bitset (n : nat) : res nat :=
  match n with O => Panic | S k => get_bitset_bytes k end.

Lemma bitset_agree n :
  (exists w, writer_bitset n = Ok w /\ get_bitset_bytes n = Ok w) <-> 2 <= n /\ n mod 8 <> 1.
Proof.
  destruct n as [|[|m]]; cbn [writer_bitset get_bitset_bytes].
  - split; [intros (w & E & _); discriminate|lia].
  - split; [intros (w & E & _); discriminate|lia].
  - split.
    + intros (w & E1 & E2). split; [lia|].
      assert (X : Ok (1 + m / 8) = Ok (1 + S m / 8)) by congruence.
      assert (Y : 1 + m / 8 = 1 + S m / 8).
      { change (match Ok (1 + m / 8) with Ok x => x | _ => 0 end = match Ok (1 + S m / 8) with Ok x => x | _ => 0 end).
        now rewrite X. }
      clear X E1 E2. lia.
    + intros [_ H]. exists (1 + m / 8). split; [reflexivity|]. do 2 f_equal. lia.
Qed.

(** ** Writing values *)
Definition vbytes (vs : list fvalue) : bytes := concat (map (fun v => fst (write_value v)) vs).
Definition writable (v : fvalue) : Prop := snd (write_value v) = Ok tt.

Lemma write_values_ok vs : Forall writable vs -> write_values vs = (vbytes vs, Ok tt).
Proof.
  induction 1 as [|v vs Hv Hvs IH]; [reflexivity|]. cbn [write_values].
  unfold writable in Hv. destruct (write_value v) as [w o] eqn:E. cbn in Hv. subst o.
  rewrite IH. unfold vbytes. cbn. now rewrite E.
Qed.
Lemma fits_writable t v : value_fits t v -> writable v.
Proof. destruct t, v; cbn; try contradiction; reflexivity. Qed.
Lemma Forall2_writable ts vs : Forall2 value_fits ts vs -> Forall writable vs.
Proof. induction 1; constructor; eauto using fits_writable. Qed.

Lemma utf8_unwrap_ok s : utf8 s = true -> utf8_unwrap s = Ok s.
Proof. unfold utf8_unwrap. now intros ->. Qed.

(** ** Strings *)
Lemma reads_sized s : dc_string s -> reads get_sized_string (write_sized_string s) s.
Proof.
  intros [U L]. unfold get_sized_string, write_sized_string.
  eapply reads_bind; [apply reads_be; [reflexivity|exact L]|].
  eapply reads_eq; [eapply reads_bind; [apply reads_take; reflexivity|apply reads_lift, utf8_unwrap_ok, U]| |].
  - apply app_nil_r.
  - reflexivity.
Qed.

Lemma reads_string s : dc_string s -> reads read_string (write_string_value s) s.
Proof.
  intros [U L]. unfold read_string, write_string_value.
  destruct (N.leb_spec (N.of_nat (length s)) 32767) as [H|H].
  - eapply reads_bind; [apply reads_be; [reflexivity|cbn; lia]|].
    assert (E : to_signed 16 (N.of_nat (length s)) = Z.of_nat (length s)).
    { unfold to_signed. cbn. destruct (N.ltb_spec (N.of_nat (length s)) 32768); lia. }
    rewrite E. destruct (Z.eqb_spec (Z.of_nat (length s)) (-1)); [lia|].
    assert (E2 : to_unsigned 32 (Z.of_nat (length s)) = N.of_nat (length s)).
    { unfold to_unsigned. rewrite Z.mod_small; [lia|]. cbn. lia. }
    rewrite E2. eapply reads_bind0; [apply reads_ret|].
    eapply reads_eq; [eapply reads_bind; [apply reads_take; reflexivity|apply reads_lift, utf8_unwrap_ok, U]| |].
    + apply app_nil_r.
    + reflexivity.
  - rewrite <- app_assoc. eapply reads_bind; [apply reads_be; [reflexivity|cbn; lia]|].
    change (to_signed 16 (to_unsigned 16 (-1)) =? -1)%Z with true. cbv iota.
    eapply reads_bind; [apply reads_be; [reflexivity|exact L]|].
    eapply reads_eq; [eapply reads_bind; [apply reads_take; reflexivity|apply reads_lift, utf8_unwrap_ok, U]| |].
    + apply app_nil_r.
    + reflexivity.
Qed.

(** ** Values *)
Lemma reads_value t v : supported t -> value_fits t v -> v <> VNone -> reads (read_value t) (fst (write_value v)) v.
Proof.
  intros [S1 S2] Hf Hn. destruct t, v; cbn [value_fits] in Hf; try contradiction; try congruence;
    cbn [read_value write_value fst].
  - apply reads_bind_ret, reads_be; [reflexivity|exact Hf].
  - apply reads_bind_ret, reads_be; [reflexivity|exact Hf].
  - apply reads_bind_ret, reads_be; [reflexivity|exact Hf].
  - apply reads_bind_ret, reads_be; [reflexivity|exact Hf].
  - eapply reads_eq; [apply (reads_bind_ret _ (fun x => VInt (to_signed 32 x))), (reads_be 4 4); [reflexivity|exact (to_unsigned_lt 32 x)]|reflexivity|].
    rewrite to_signed_unsigned; [reflexivity|lia|exact Hf].
  - eapply reads_eq; [apply (reads_bind_ret _ (fun x => VLong (to_signed 64 x))), (reads_be 8 8); [reflexivity|exact (to_unsigned_lt 64 x)]|reflexivity|].
    rewrite to_signed_unsigned; [reflexivity|lia|exact Hf].
  - eapply reads_eq; [apply (reads_bind_ret _ (fun x => VShort (to_signed 16 x))), (reads_be 2 2); [reflexivity|exact (to_unsigned_lt 16 x)]|reflexivity|].
    rewrite to_signed_unsigned; [reflexivity|lia|exact Hf].
  - apply reads_bind_ret, reads_string, Hf.
Qed.

(** ** The bitmap *)
Lemma null_bits_double w vs : null_bits (2 * w) vs = (2 * null_bits w vs)%N.
Proof.
  revert w; induction vs as [|v vs IH]; intro w; [reflexivity|]. cbn [null_bits].
  rewrite (IH (2 * w)%N). destruct (is_none v); lia.
Qed.
Lemma null_bits_cons v vs : null_bits 1 (v :: vs) = ((if is_none v then 1 else 0) + 2 * null_bits 1 vs)%N.
Proof. cbn [null_bits]. rewrite (null_bits_double 1 vs). reflexivity. Qed.
Lemma null_bits_lt vs : (null_bits 1 vs < 2 ^ N.of_nat (length vs))%N.
Proof.
  induction vs as [|v vs IH]; [reflexivity|]. rewrite null_bits_cons. cbn [length].
  rewrite Nat2N.inj_succ, N.pow_succ_r'. destruct (is_none v); lia.
Qed.
Lemma null_bits_odd v vs : N.odd (null_bits 1 (v :: vs)) = is_none v.
Proof. rewrite null_bits_cons, N.odd_add_mul_2. now destruct (is_none v). Qed.
Lemma null_bits_div v vs : (null_bits 1 (v :: vs) / 2 = null_bits 1 vs)%N.
Proof. rewrite null_bits_cons. destruct (is_none v); lia. Qed.

Lemma reads_byte_fields k types vs :
  1 <= k -> types <> [] -> Forall supported types -> Forall2 value_fits types vs ->
  reads (read_byte_fields k (null_bits 1 (firstn k vs)) types) (vbytes (firstn k vs))
        (firstn k vs, skipn k types).
Proof.
  revert types vs; induction k as [|k IH]; intros types vs Hk Ht Hs Hf; [lia|].
  inversion Hf as [|t v types' vs' Hv Hvs]; subst; [congruence|].
  inversion Hs as [|? ? St Ss]; subst.
  cbn [read_byte_fields firstn skipn]. rewrite null_bits_odd, null_bits_div.
  change (vbytes (v :: firstn k vs')) with (fst (write_value v) ++ vbytes (firstn k vs')).
  eapply reads_bind with (x := v).
  { destruct (is_none v) eqn:En.
    - destruct v; try discriminate. apply reads_ret.
    - apply reads_value; auto. intros ->. discriminate. }
  destruct types' as [|t2 types'].
  - inversion Hvs; subst. rewrite firstn_nil, skipn_nil. apply reads_ret.
  - destruct k as [|k].
    + cbn [read_byte_fields firstn skipn]. eapply reads_bind1; [apply reads_ret|]. apply reads_ret.
    + eapply reads_bind1; [apply (IH (t2 :: types') vs'); auto; [lia|discriminate]|]. apply reads_ret.
Qed.

Lemma reads_fields n types vs :
  8 * n < length types + 8 -> length types <= 8 * n -> Forall supported types -> Forall2 value_fits types vs ->
  reads (read_fields (write_bitset n vs) types) (vbytes vs) vs.
Proof.
  revert types vs; induction n as [|n IH]; intros types vs H1 H2 Hs Hf.
  - destruct types; [|cbn in H2; lia]. inversion Hf; subst. apply reads_ret.
  - cbn [write_bitset read_fields].
    rewrite of_byte_of.
    2:{ pose proof (null_bits_lt (firstn 8 vs)) as L.
        assert (length (firstn 8 vs) <= 8) by (rewrite firstn_length; lia).
        eapply N.lt_le_trans; [exact L|]. change 256%N with (2 ^ 8)%N. apply N.pow_le_mono_r; lia. }
    assert (Ev : vbytes vs = vbytes (firstn 8 vs) ++ vbytes (skipn 8 vs)).
    { unfold vbytes. now rewrite <- concat_app, <- map_app, firstn_skipn. }
    rewrite Ev. eapply reads_bind.
    { apply reads_byte_fields; auto; [lia|]. destruct types; [cbn in H1; lia|discriminate]. }
    cbv beta iota.
    eapply reads_eq; [apply (reads_bind_ret _ (fun v2 => firstn 8 vs ++ v2)), (IH (skipn 8 types) (skipn 8 vs))| |].
    + rewrite skipn_length. lia.
    + rewrite skipn_length. lia.
    + apply Forall_forall. intros x Hx. rewrite Forall_forall in Hs. apply Hs.
      rewrite <- (firstn_skipn 8 types). apply in_or_app. now right.
    + clear -Hf. revert Hf. generalize 8. intro k. revert types vs.
      induction k as [|k IHk]; intros types vs Hf; [exact Hf|]. destruct Hf; [constructor|]. cbn. auto.
    + reflexivity.
    + now rewrite firstn_skipn.
Qed.

Lemma bitset_range n w : get_bitset_bytes n = Ok w -> 8 * w < n + 8 /\ n <= 8 * w /\ 1 <= w.
Proof. destruct n as [|k]; [discriminate|]. unfold get_bitset_bytes. intro H. assert (E : w = 1 + k / 8) by congruence.
  clear H. lia. Qed.

Lemma write_bitset_length n vs : length (write_bitset n vs) = n.
Proof. revert vs; induction n; intro vs; cbn; [reflexivity|]. now rewrite IHn. Qed.

Lemma reads_row n h r :
  get_bitset_bytes (length (h_types h)) = Ok n -> Forall supported (h_types h) -> row_fits h r ->
  reads (read_row n (h_types h) (ts r)) (write_bitset n (vals r) ++ vbytes (vals r)) r.
Proof.
  intros Hn Hs [Ht Hf]. destruct (bitset_range _ _ Hn) as (B1 & B2 & _).
  unfold read_row. eapply reads_bind; [apply reads_take; now rewrite write_bitset_length|].
  eapply reads_eq; [apply (reads_bind_ret _ (fun v => {| ts := ts r; vals := v |})), reads_fields; eauto|reflexivity|].
  now destruct r.
Qed.

(** ** Header *)
Lemma type_of_type_string t : type_of_string (type_string t) = Some t.
Proof. destruct t; reflexivity. Qed.
Lemma type_string_fits t : dc_string (type_string t).
Proof. split; destruct t; reflexivity. Qed.

Lemma write_field_type_ok t : supported t -> write_field_type t = (write_sized_string (type_string t), Ok tt).
Proof. intros [A B0]. destruct t; congruence || reflexivity. Qed.

Fixpoint fields_bytes (names : list bytes) (types : list ftype) : bytes :=
  match names, types with
  | nm :: names', t :: types' =>
      write_sized_string nm ++ write_sized_string (type_string t) ++ write_display_hint ++ fields_bytes names' types'
  | _, _ => []
  end.
Lemma write_fields_ok names types : Forall supported types -> write_fields names types = (fields_bytes names types, Ok tt).
Proof.
  intro H. revert names; induction H as [|t types Ht Hs IH]; intros [|nm names]; try reflexivity.
  cbn [write_fields fields_bytes]. rewrite (write_field_type_ok t Ht), IH. reflexivity.
Qed.

Lemma reads_descriptor nm t :
  dc_string nm -> reads read_descriptor (write_sized_string nm ++ write_sized_string (type_string t) ++ write_display_hint)
    (nm, type_string t).
Proof.
  intro H. unfold read_descriptor. eapply reads_bind; [now apply reads_sized|].
  eapply reads_bind; [apply reads_sized, type_string_fits|].
  eapply reads_eq; [eapply reads_bind; [apply (reads_be 4 4 (to_unsigned 32 (-1))); [reflexivity|exact (to_unsigned_lt 32 _)]|]| |reflexivity].
  - change ((-1 <=? to_signed 32 (to_unsigned 32 (-1))) && (to_signed 32 (to_unsigned 32 (-1)) <=? 6))%Z with true.
    cbv iota. apply reads_ret.
  - apply app_nil_r.
Qed.

Lemma reads_descriptors names types i :
  length names = length types -> Forall dc_string names ->
  reads (read_descriptors (length types) i) (fields_bytes names types) (default_names i names, types).
Proof.
  revert names i; induction types as [|t types IH]; intros [|nm names] i L Hn; try discriminate.
  - apply reads_ret.
  - cbn [length read_descriptors fields_bytes default_names]. inversion Hn; subst.
    replace (write_sized_string nm ++ write_sized_string (type_string t) ++ write_display_hint ++ fields_bytes names types)
      with ((write_sized_string nm ++ write_sized_string (type_string t) ++ write_display_hint) ++ fields_bytes names types)
      by (now rewrite <- !app_assoc).
    eapply reads_bind; [now apply reads_descriptor|]. cbv beta iota.
    eapply reads_bind0; [apply reads_lift; now rewrite type_of_type_string|].
    eapply reads_bind1; [apply IH; auto|]. apply reads_ret.
Qed.

Lemma header_bytes h :
  header_fits h ->
  dc_process_header h =
    (be 8 MAGIC_NUM ++ be 2 VERSION ++ be 4 0 ++ be 4 (N.of_nat (length (h_types h))) ++ fields_bytes (h_names h) (h_types h),
     writer_bitset (length (h_types h))).
Proof.
  intros (L & S & _ & _). unfold dc_process_header, write_header, write_field_descriptors.
  rewrite L, Nat.eqb_refl, write_fields_ok by exact S. reflexivity.
Qed.

Lemma dc_open_ok h n t tl :
  header_fits h -> get_bitset_bytes (length (h_types h)) = Ok n ->
  dc_open {| s_data := fst (dc_process_header h) ++ t; s_tail := tl |} =
  Ok {| dc_header := with_default_names h; dc_bitset := n; dc_rest := {| s_data := t; s_tail := tl |} |}.
Proof.
  intros Hh Hn. rewrite (header_bytes h Hh). destruct Hh as (L & S & Nm & C). cbn [fst].
  unfold dc_open.
  match goal with |- (let* _ := ?p _ in _) = _ =>
    assert (R : reads p (be 8 MAGIC_NUM ++ be 2 VERSION ++ be 4 0 ++ be 4 (N.of_nat (length (h_types h))) ++ fields_bytes (h_names h) (h_types h))
                  (with_default_names h, n)) end.
  { eapply reads_bind; [apply reads_be; [reflexivity|reflexivity]|].
    eapply reads_bind0; [apply reads_lift; reflexivity|].
    eapply reads_bind; [apply reads_be; [reflexivity|reflexivity]|].
    eapply reads_bind0; [apply reads_lift; reflexivity|].
    eapply reads_bind; [apply reads_be; [reflexivity|reflexivity]|].
    eapply reads_bind0; [apply reads_take; reflexivity|].
    eapply reads_bind; [apply reads_be; [reflexivity|exact C]|]. rewrite Nat2N.id.
    eapply reads_bind0; [apply reads_lift; exact Hn|].
    eapply reads_bind1; [apply (reads_descriptors (h_names h)); auto|]. apply reads_ret. }
  rewrite R. reflexivity.
Qed.

(** ** Rows *)
Lemma row_bytes n h r :
  row_fits h r -> dc_write_row n r = (be 8 (ts r) ++ write_bitset n (vals r) ++ vbytes (vals r), Ok tt).
Proof.
  intros [_ F]. unfold dc_write_row. rewrite write_values_ok by (eapply Forall2_writable; eauto). reflexivity.
Qed.

Lemma dc_next_row_ok h n r t tl :
  get_bitset_bytes (length (h_types h)) = Ok n -> Forall supported (h_types h) -> row_fits h r ->
  dc_next_row {| dc_header := with_default_names h; dc_bitset := n;
                 dc_rest := {| s_data := fst (dc_write_row n r) ++ t; s_tail := tl |} |} =
  Ok (Some r, {| dc_header := with_default_names h; dc_bitset := n; dc_rest := {| s_data := t; s_tail := tl |} |}).
Proof.
  intros Hn Hs Hr. rewrite (row_bytes n h r Hr). cbn [fst]. unfold dc_next_row. cbn [dc_rest dc_bitset dc_header].
  rewrite <- app_assoc. rewrite (reads_be 8 8 (ts r)); [|reflexivity|exact (proj1 Hr)].
  change (h_types (with_default_names h)) with (h_types h).
  rewrite (reads_row n h r Hn Hs Hr). reflexivity.
Qed.

Fixpoint rows_bytes (n : nat) (rows : list row) : bytes :=
  match rows with [] => [] | r :: t => fst (dc_write_row n r) ++ rows_bytes n t end.
Lemma dc_rows_bytes_rows n evs : dc_rows_bytes n evs = rows_bytes n (ev_rows evs).
Proof. induction evs as [|[r|] evs IH]; cbn; congruence. Qed.
Lemma rows_bytes_length n h rows : Forall (row_fits h) rows -> length rows <= length (rows_bytes n rows).
Proof.
  induction 1 as [|r rows Hr _ IH]; [cbn; lia|]. cbn [rows_bytes length]. rewrite (row_bytes n h r Hr), app_length.
  cbn [fst]. rewrite app_length, be_length. lia.
Qed.

(* data end, possibly by an error while the next timestamp is read *)
Lemma dc_next_row_end h n tl :
  exists st, dc_next_row {| dc_header := h; dc_bitset := n; dc_rest := {| s_data := []; s_tail := tl |} |} = Ok (None, st).
Proof. eexists. reflexivity. Qed.

Lemma dc_read_rows_ok h n rows tl f :
  get_bitset_bytes (length (h_types h)) = Ok n -> Forall supported (h_types h) -> Forall (row_fits h) rows ->
  length rows < f ->
  dc_read_rows f {| dc_header := with_default_names h; dc_bitset := n;
                    dc_rest := {| s_data := rows_bytes n rows; s_tail := tl |} |} = (rows, Ok tt).
Proof.
  intros Hn Hs Hr. revert f; induction Hr as [|r rows Hr Hrs IH]; intros f Hf; (destruct f as [|f]; [cbn in Hf; lia|]).
  - reflexivity.
  - cbn [dc_read_rows rows_bytes]. rewrite (dc_next_row_ok h n r) by assumption.
    rewrite IH by (cbn in Hf; lia). reflexivity.
Qed.

Theorem dc_roundtrip h evs tl :
  header_fits h -> 2 <= length (h_types h) -> length (h_types h) mod 8 <> 1 ->
  Forall (row_fits h) (ev_rows evs) ->
  dc_read {| s_data := dc_file h evs; s_tail := tl |} = Ok (with_default_names h, (ev_rows evs, Ok tt)).
Proof.
  intros Hh H2 H8 Hr. destruct (proj2 (bitset_agree _) (conj H2 H8)) as (n & Ew & Er).
  unfold dc_file. rewrite (header_bytes h Hh) at 2. cbn [snd]. rewrite Ew.
  unfold dc_read. rewrite (dc_open_ok h n) by assumption. cbn [bind dc_header].
  unfold dc_rows. cbn [dc_rest]. rewrite dc_rows_bytes_rows, (dc_read_rows_ok h n); auto.
  - apply Hh.
  - unfold dc_fuel. cbn [s_data]. pose proof (rows_bytes_length n h _ Hr). lia.
Qed.

(** ** Truncation *)
Lemma good_sized : good_rd get_sized_string.
Proof. unfold get_sized_string. good. Qed.
Lemma good_descriptor : good_rd read_descriptor.
Proof. unfold read_descriptor. repeat (apply good_bind; [apply good_sized|intro]). good. Qed.
Lemma good_descriptors n i : good_rd (read_descriptors n i).
Proof.
  revert i; induction n as [|n IH]; intro i; cbn [read_descriptors]; [apply good_ret|].
  apply good_bind; [apply good_descriptor|]. intros [nm ty].
  apply good_bind; [apply good_lift|]. intro t. apply good_bind; [apply IH|]. intros [ns tys]. apply good_ret.
Qed.
Lemma good_string : good_rd read_string.
Proof. unfold read_string. good. Qed.
Lemma good_value t : good_rd (read_value t).
Proof. destruct t; cbn [read_value]; good. Qed.
Lemma good_byte_fields k cur types : good_rd (read_byte_fields k cur types).
Proof.
  revert cur types; induction k as [|k IH]; intros cur types; cbn [read_byte_fields]; [apply good_ret|].
  destruct types as [|t types]; [apply good_lift|].
  apply good_bind; [destruct (N.odd cur); [apply good_ret|apply good_value]|]. intro v.
  destruct types as [|t2 types]; [apply good_ret|].
  apply good_bind; [apply IH|]. intros [vs rest]. apply good_ret.
Qed.
Lemma good_fields bs types : good_rd (read_fields bs types).
Proof.
  revert types; induction bs as [|x bs IH]; intro types; cbn [read_fields]; [apply good_ret|].
  apply good_bind; [apply good_byte_fields|]. intros [vs rest].
  apply good_bind; [apply IH|]. intro. apply good_ret.
Qed.
Lemma good_row n types t : good_rd (read_row n types t).
Proof. unfold read_row. apply good_bind; [apply good_take|]. intro. apply good_bind; [apply good_fields|]. intro. apply good_ret. Qed.

Definition open_rd : rd (header * nat) :=
  (let! magic := read_be 8 in
   let! _ := lift (if (magic =? MAGIC_NUM)%N then Ok tt else Err (ECustom "DCReader -- wrong magic number")) in
   let! version := read_be 2 in
   let! _ := lift (if (version =? VERSION)%N then Ok tt else Err (ECustom "DCReader -- wrong version")) in
   let! user := read_be 4 in
   let! _ := take_exact user in
   let! count := read_be 4 in
   let! n := lift (get_bitset_bytes (N.to_nat count)) in
   let! (names, types) := read_descriptors (N.to_nat count) 0 in
   ret ({| h_names := names; h_types := types |}, n)).
Lemma good_open : good_rd open_rd.
Proof.
  unfold open_rd. repeat (first [apply good_bind; [first [apply good_read_be|apply good_lift|apply good_take]|intro]]).
  apply good_bind; [apply good_descriptors|]. intros [ns ty]. apply good_ret.
Qed.
Lemma dc_open_eq s : dc_open s =
  let* (x, rest) := open_rd s in let (h, n) := x in Ok {| dc_header := h; dc_bitset := n; dc_rest := rest |}.
Proof. reflexivity. Qed.

Lemma dc_open_mono s st d tl :
  dc_open s = Ok st -> dc_open (continued s d tl) = Ok (dc_continued st d tl).
Proof.
  rewrite !dc_open_eq. destruct (open_rd s) as [[[h n] rest]|e| | |] eqn:E; cbn; try discriminate.
  intros [= <-]. rewrite (good_mono _ good_open _ _ _ d tl E). reflexivity.
Qed.
Lemma dc_open_cut s st d tl :
  dc_open (continued s d tl) = Ok st ->
  (exists st1, dc_open s = Ok st1 /\ st = dc_continued st1 d tl) \/ dc_open s = Err (end_err s).
Proof.
  rewrite !dc_open_eq. destruct (open_rd (continued s d tl)) as [[[h n] rest]|e| | |] eqn:E; cbn; try discriminate.
  intros [= <-]. destruct (good_cut _ good_open _ _ _ _ _ E) as [(s1 & E1 & ->)|E1].
  - left. rewrite E1. cbn. eexists. split; [reflexivity|]. reflexivity.
  - right. now rewrite E1.
Qed.

Lemma read_be_cases n s :
  (exists x s', read_be n s = Ok (x, s')) /\ N.to_nat n <= length (s_data s) \/
  read_be n s = Err (end_err s) /\ length (s_data s) < N.to_nat n.
Proof.
  unfold read_be, rbind, take_exact. destruct (N.ltb_spec (N.of_nat (length (s_data s))) n); cbn [bind].
  - right. split; [reflexivity|lia].
  - left. unfold ret. split; [eauto|lia].
Qed.

Lemma dc_next_row_mono st r st' d tl :
  dc_next_row st = Ok (Some r, st') -> dc_next_row (dc_continued st d tl) = Ok (Some r, dc_continued st' d tl).
Proof.
  unfold dc_next_row, dc_continued. cbn [dc_header dc_bitset dc_rest].
  destruct (read_be_cases 8 (dc_rest st)) as [[(x & s' & E) _]|[E _]]; rewrite E; [|discriminate].
  rewrite (good_mono _ (good_read_be 8) _ _ _ d tl E).
  destruct (read_row _ _ x s') as [[r1 s2]|e| | |] eqn:E2; cbn; try discriminate.
  intros [= <- <-]. rewrite (good_mono _ (good_row _ _ _) _ _ _ d tl E2). reflexivity.
Qed.

(* the same next_row on the truncated stream *)
Lemma dc_next_row_cut st r st' d tl :
  dc_next_row (dc_continued st d tl) = Ok (Some r, st') ->
  (exists st1, dc_next_row st = Ok (Some r, st1) /\ st' = dc_continued st1 d tl) \/
  (8 <= length (s_data (dc_rest st)) /\ dc_next_row st = Err (end_err (dc_rest st))) \/
  (length (s_data (dc_rest st)) < 8 /\ exists st1, dc_next_row st = Ok (None, st1)).
Proof.
  unfold dc_next_row, dc_continued. cbn [dc_header dc_bitset dc_rest].
  destruct (read_be_cases 8 (dc_rest st)) as [[(x & s' & E) L]|[E L]]; rewrite E.
  - rewrite (good_mono _ (good_read_be 8) _ _ _ d tl E).
    destruct (read_row _ _ x (continued s' d tl)) as [[r1 s2]|e| | |] eqn:E2; cbn; try discriminate.
    intros [= <- <-]. destruct (good_cut _ (good_row _ _ _) _ _ _ _ _ E2) as [(s3 & E3 & ->)|E3].
    + left. rewrite E3. cbn. eexists. split; reflexivity.
    + right; left. rewrite E3. cbn. split; [exact L|]. f_equal. apply end_err_tail.
      now apply (read_be_length 8) in E as [_ ?].
  - intros _. right; right. split; [exact L|]. eauto.
Qed.

Lemma dc_rows_prefix f f' st d tl :
  f <= f' -> prefix (fst (dc_read_rows f st)) (fst (dc_read_rows f' (dc_continued st d tl))).
Proof.
  revert f' st; induction f as [|f IH]; intros f' st Hf; [now eexists|].
  destruct f' as [|f']; [lia|]. cbn [dc_read_rows].
  destruct (dc_next_row st) as [[[r|] st']|e| | |] eqn:E; try (eexists; reflexivity).
  rewrite (dc_next_row_mono _ _ _ d tl E).
  specialize (IH f' st' ltac:(lia)).
  destruct (dc_read_rows f st') as [rs o], (dc_read_rows f' (dc_continued st' d tl)) as [rs' o'].
  cbn [fst] in *. destruct IH as [z ->]. now exists z.
Qed.

(** ** Progress *)
Lemma dc_next_row_progress st r st' :
  1 <= dc_bitset st -> dc_next_row st = Ok (Some r, st') ->
  length (s_data (dc_rest st')) + 9 <= length (s_data (dc_rest st)) /\ dc_bitset st' = dc_bitset st /\
  dc_header st' = dc_header st.
Proof.
  intro Hb. unfold dc_next_row.
  destruct (read_be_cases 8 (dc_rest st)) as [[(x & s' & E) L]|[E L]]; rewrite E; [|discriminate].
  destruct (read_row _ _ x s') as [[r1 s2]|e| | |] eqn:E2; cbn; try discriminate.
  intros [= <- <-]. cbn. apply read_be_length in E as [E _].
  unfold read_row, rbind in E2.
  destruct (take_exact _ s') as [[bs s3]|e| | |] eqn:E3; cbn in E2; try discriminate.
  apply take_length in E3 as (L3 & D3 & _).
  destruct (read_fields bs _ s3) as [[vs s4]|e| | |] eqn:E4; cbn in E2; try discriminate.
  injection E2 as <- <-. pose proof (good_length _ (good_fields _ _) _ _ _ E4).
  rewrite D3, app_length in E. change (N.to_nat 8) with 8 in E. split; [lia|auto].
Qed.

Definition no_fuel_rd {A} (p : rd A) : Prop := forall s, p s <> NoFuel.
Lemma nf_bind {A B} (p : rd A) (q : A -> rd B) : no_fuel_rd p -> (forall x, no_fuel_rd (q x)) -> no_fuel_rd (rbind p q).
Proof. intros Hp Hq s. unfold rbind. specialize (Hp s). destruct (p s) as [[x s1]|e| | |]; cbn [bind]; try discriminate; [apply Hq|congruence]. Qed.
Lemma nf_ret {A} (x : A) : no_fuel_rd (ret x).
Proof. intro s. discriminate. Qed.
Lemma nf_take n : no_fuel_rd (take_exact n).
Proof. intro s. unfold take_exact. destruct (_ <? _)%N; discriminate. Qed.
Lemma nf_be n : no_fuel_rd (read_be n).
Proof. apply nf_bind; [apply nf_take|intro; apply nf_ret]. Qed.
Lemma nf_lift {A} (r : res A) : r <> NoFuel -> no_fuel_rd (lift r).
Proof. intros H s. unfold lift. destruct r; cbn; congruence. Qed.
Lemma nf_string : no_fuel_rd read_string.
Proof.
  unfold read_string. apply nf_bind; [apply nf_be|]. intro x. apply nf_bind; [destruct (_ =? _)%Z; [apply nf_be|apply nf_ret]|].
  intro y. apply nf_bind; [apply nf_take|]. intro z. apply nf_lift. unfold utf8_unwrap. destruct (utf8 z); discriminate.
Qed.
Lemma nf_row n types t : no_fuel_rd (read_row n types t).
Proof.
  assert (nf_value : forall t, no_fuel_rd (read_value t)).
  { intros []; cbn [read_value]; try (apply nf_lift; discriminate);
      (apply nf_bind; [try apply nf_be; apply nf_string|]; intro; apply nf_ret). }
  assert (nf_byte : forall k cur types, no_fuel_rd (read_byte_fields k cur types)).
  { induction k as [|k IH]; intros cur tys; cbn [read_byte_fields]; [apply nf_ret|].
    destruct tys as [|t0 tys]; [apply nf_lift; discriminate|].
    apply nf_bind; [destruct (N.odd cur); [apply nf_ret|apply nf_value]|]. intro v.
    destruct tys as [|t2 tys]; [apply nf_ret|]. apply nf_bind; [apply IH|]. intros [vs rest]. apply nf_ret. }
  assert (nf_fields : forall bs types, no_fuel_rd (read_fields bs types)).
  { induction bs as [|x bs IH]; intro tys; cbn [read_fields]; [apply nf_ret|].
    apply nf_bind; [apply nf_byte|]. intros [vs rest]. apply nf_bind; [apply IH|]. intro. apply nf_ret. }
  unfold read_row. apply nf_bind; [apply nf_take|]. intro. apply nf_bind; [apply nf_fields|]. intro. apply nf_ret.
Qed.

Lemma dc_read_rows_ends f st :
  1 <= dc_bitset st -> length (s_data (dc_rest st)) < f ->
  snd (dc_read_rows f st) <> NoFuel /\ 9 * length (fst (dc_read_rows f st)) <= length (s_data (dc_rest st)).
Proof.
  revert st; induction f as [|f IH]; intros st Hb Hl; [lia|]. cbn [dc_read_rows].
  destruct (dc_next_row st) as [[[r|] st']|e| | |] eqn:E; cbn [fst snd length fail_as]; try (split; [discriminate|lia]).
  - destruct (dc_next_row_progress _ _ _ Hb E) as (P & Q & _).
    destruct (IH st' ltac:(lia) ltac:(lia)) as [A B0].
    destruct (dc_read_rows f st') as [rs o]. cbn [fst snd length] in *. split; [exact A|lia].
  - exfalso. unfold dc_next_row in E.
    destruct (read_be 8 (dc_rest st)) as [[x s']|e| | |]; try discriminate.
    pose proof (nf_row (dc_bitset st) (h_types (dc_header st)) x s') as NF.
    destruct (read_row _ _ x s') as [[r1 s2]|e| | |]; cbn in E; congruence.
Qed.
Lemma dc_read_rows_mono f f' st :
  f <= f' -> snd (dc_read_rows f st) <> NoFuel -> dc_read_rows f' st = dc_read_rows f st.
Proof.
  revert f' st; induction f as [|f IH]; intros f' st Hf Hn; [cbn in Hn; congruence|].
  destruct f' as [|f']; [lia|]. cbn [dc_read_rows] in *.
  destruct (dc_next_row st) as [[[r|] st']|e| | |]; try reflexivity.
  rewrite (IH f' st'); [reflexivity|lia|]. destruct (dc_read_rows f st'). exact Hn.
Qed.

Lemma dc_open_bitset s st : dc_open s = Ok st -> 1 <= dc_bitset st.
Proof.
  rewrite dc_open_eq. destruct (open_rd s) as [[[h n] rest]|e| | |] eqn:E; cbn; try discriminate.
  intros [= <-]. cbn. unfold open_rd, rbind in E.
  repeat match type of E with
  | (let* (_, _) := ?x in _) = _ => destruct x as [[? ?]|?| | |] eqn:?; cbn [bind] in E; try discriminate
  end.
  destruct p as [ns ty]. injection E as <- <- <-.
  match goal with H : lift (get_bitset_bytes ?k) _ = Ok _ |- _ => unfold lift in H; destruct k; cbn in H; [discriminate|injection H as <- _] end.
  lia.
Qed.

Lemma dc_read_prefix s d tl h rows o :
  dc_read s = Ok (h, (rows, o)) ->
  exists rows' o', dc_read (continued s d tl) = Ok (h, (rows', o')) /\ prefix rows rows'.
Proof.
  unfold dc_read. destruct (dc_open s) as [st|e| | |] eqn:E; cbn [bind]; try discriminate.
  intro H. injection H as <- Hr. rewrite (dc_open_mono _ _ d tl E). cbn [bind].
  unfold dc_rows in *.
  pose proof (dc_rows_prefix (dc_fuel (dc_rest st)) (dc_fuel (dc_rest (dc_continued st d tl))) st d tl) as P.
  destruct (dc_read_rows _ (dc_continued st d tl)) as [rows' o'].
  exists rows', o'. split; [reflexivity|]. rewrite Hr in P. cbn [fst] in P. apply P.
  unfold dc_fuel. cbn. rewrite app_length. lia.
Qed.

(** ** C26 *)
Lemma write_fields_reject names types :
  length names = length types ->
  (Forall supported types -> snd (write_fields names types) = Ok tt) /\
  (~ Forall supported types -> exists e, snd (write_fields names types) = Err e).
Proof.
  revert types; induction names as [|nm names IH]; intros [|t types] L; try discriminate.
  - split; [reflexivity|]. intro H. exfalso. apply H. constructor.
  - injection L as L. destruct (IH types L) as [A B0]. split.
    + intro H. rewrite write_fields_ok by exact H. reflexivity.
    + intro H. cbn [write_fields].
      destruct (write_field_type t) as [w o] eqn:E.
      destruct t; cbn in E; injection E as <- <-; try (eexists; reflexivity);
        (destruct B0 as [e He];
         [intro F; apply H; constructor; [split; discriminate|exact F]|];
         destruct (write_fields names types) as [w' o']; exists e; exact He).
Qed.

Lemma string_value_length s :
  length (write_string_value s) = (if (N.of_nat (length s) <=? 32767)%N then 2 else 6) + length s.
Proof.
  unfold write_string_value. destruct (N.of_nat (length s) <=? 32767)%N; rewrite ?app_length, ?be_length; reflexivity.
Qed.
