(** Specifications for zip archives and checked readers. *)
From Verif Require Export ZipModel.
Local Open Scope nat_scope.

(** ** Readers *)

(** The outcomes of successive [read] calls with buffers of the given sizes. *)
Fixpoint inner_reads (ns : list nat) (i : inner) : list (res bytes) :=
  match ns with
  | [] => []
  | n :: ns' => let (o, i') := inner_read n i in o :: inner_reads ns' i'
  end.
Fixpoint crc_reads (ns : list nat) (c : crc_reader) : list (res bytes) :=
  match ns with
  | [] => []
  | n :: ns' => let (o, c') := crc_read n c in o :: crc_reads ns' c'
  end.
(** No sequence of calls tells the reader [c] from the plain reader [i]. *)
Definition behaves_like (c : crc_reader) (i : inner) : Prop := forall ns, crc_reads ns c = inner_reads ns i.

(** ** Zip64 values: a size or offset of all ones is replaced by the next 8 bytes of the zip64
    record (id 1), in this order. *)
Definition take64 (v : N) (d : bytes) : N * bytes :=
  if (v =? 0xffffffff)%N then (of_le (firstn 8 d), skipn 8 d) else (v, d).
Definition record_values (v : N * N * N) (r : N * bytes) : N * N * N :=
  let '(un, co, lo) := v in
  if (fst r =? 1)%N then
    let (un', d1) := take64 un (snd r) in
    let (co', d2) := take64 co d1 in
    let (lo', _) := take64 lo d2 in
    (un', co', lo')
  else v.
(** Enough bytes for the values that need them. *)
Definition missing (v : N) : nat := if (v =? 0xffffffff)%N then 8 else 0.
Definition record_complete (v : N * N * N) (r : N * bytes) : Prop :=
  let '(un, co, lo) := v in fst r = 1%N -> missing un + missing co + missing lo <= length (snd r).
Fixpoint records_complete (v : N * N * N) (l : list (N * bytes)) : Prop :=
  match l with
  | [] => True
  | r :: t => record_complete v r /\ records_complete (record_values v r) t
  end.

(** ** Archives with one member (APPNOTE.TXT 4.3) *)

(** What a zip64 archive has in addition: fields of the zip64 end record, and the offset in the
    plain end record, which is then not used. *)
Record end64 := { e_made : N; e_needed : N; e_more : bytes; e_offset : N }.
Record archive := {
  z_before : bytes;                                          (* anything before the local header *)
  z_fixed : bytes;                                           (* its 22 fixed bytes *)
  z_local_name : bytes; z_local_extra : bytes;
  z_payload : bytes;                                         (* the (compressed) file data *)
  z_between : bytes;                                         (* data descriptor etc. *)
  z_made : N; z_needed : N; z_flags : N; z_method : N; z_time : N; z_date : N; z_crc : N;
  z_uncompressed : N;                                        (* the file's size *)
  z_fields : N * N * N;                                      (* the three 32-bit fields: size, compressed size, offset *)
  z_name : bytes; z_extra : list (N * bytes); z_comment : bytes;
  z_disk_start : N; z_internal : N; z_external : N;
  z_disk : N; z_cd_disk : N; z_here : N; z_total : N;
  z_end_comment : bytes;
  z_end64 : option end64
}.
Definition len (s : bytes) : N := N.of_nat (length s).
Definition extra_record (r : N * bytes) : bytes := le 2 (fst r) ++ le 2 (len (snd r)) ++ snd r.
Definition extra_field (l : list (N * bytes)) : bytes := flat_map extra_record l.

Definition local_header (a : archive) : bytes :=
  le 4 0x04034b50 ++ z_fixed a ++ le 2 (len (z_local_name a)) ++ le 2 (len (z_local_extra a)) ++ z_local_name a ++ z_local_extra a.
Definition central_header (a : archive) : bytes :=
  le 4 0x02014b50 ++ le 2 (z_made a) ++ le 2 (z_needed a) ++ le 2 (z_flags a) ++ le 2 (z_method a) ++ le 2 (z_time a) ++ le 2 (z_date a) ++
  le 4 (z_crc a) ++ le 4 (snd (fst (z_fields a))) ++ le 4 (fst (fst (z_fields a))) ++ le 2 (len (z_name a)) ++ le 2 (len (extra_field (z_extra a))) ++
  le 2 (len (z_comment a)) ++ le 2 (z_disk_start a) ++ le 2 (z_internal a) ++ le 4 (z_external a) ++ le 4 (snd (z_fields a)) ++
  z_name a ++ extra_field (z_extra a) ++ z_comment a.
Definition until_central (a : archive) : bytes := z_before a ++ local_header a ++ z_payload a ++ z_between a.
Definition zip64_end (a : archive) : bytes :=
  match z_end64 a with
  | None => []
  | Some e =>
      (le 4 0x06064b50 ++ le 8 (44 + len (e_more e)) ++ le 2 (e_made e) ++ le 2 (e_needed e) ++ le 4 0 ++ le 4 0 ++ le 8 1 ++ le 8 1 ++
       le 8 (len (central_header a)) ++ le 8 (len (until_central a)) ++ e_more e) ++
      le 4 0x07064b50 ++ le 4 0 ++ le 8 (len (until_central a ++ central_header a)) ++ le 4 1
  end.
Definition end_record (a : archive) : bytes :=
  le 4 0x06054b50 ++ le 2 (z_disk a) ++ le 2 (z_cd_disk a) ++ le 2 (z_here a) ++ le 2 (z_total a) ++
  le 4 (len (central_header a)) ++ le 4 (match z_end64 a with None => len (until_central a) | Some e => e_offset e end) ++
  le 2 (len (z_end_comment a)) ++ z_end_comment a.
Definition archive_bytes (a : archive) : bytes := until_central a ++ central_header a ++ zip64_end a ++ end_record a.

(** The fields have the sizes the format gives them, and the sizes and the offset are where it says:
    in the fields, or in a zip64 extra record. *)
Definition archive_fits (a : archive) : Prop :=
  length (z_fixed a) = 22 /\ Forall (fun s => len s < 65536)%N [z_local_name a; z_local_extra a; z_name a; extra_field (z_extra a); z_comment a; z_end_comment a] /\
  Forall (fun r => fst r < 65536 /\ len (snd r) < 65536)%N (z_extra a) /\
  Forall (fun x => x < 65536)%N [z_made a; z_needed a; z_flags a; z_method a; z_time a; z_date a; z_disk_start a; z_internal a; z_disk a; z_cd_disk a; z_here a; z_total a] /\
  Forall (fun x => x < 4294967296)%N [z_crc a; z_external a; fst (fst (z_fields a)); snd (fst (z_fields a)); snd (z_fields a)] /\
  records_complete (z_fields a) (z_extra a) /\
  fold_left record_values (z_extra a) (z_fields a) = (z_uncompressed a, len (z_payload a), len (z_before a)) /\
  match z_end64 a with
  | None => len (until_central a) < 4294967296
  | Some e => e_made e < 65536 /\ e_needed e < 65536 /\ e_offset e < 4294967296 /\
              44 + len (e_more e) < 18446744073709551616 /\ len (until_central a ++ central_header a) < 18446744073709551616
  end%N.

(** The end record can be told apart: its signature does not occur again after its start, and
    unless there is a zip64 locator, the 20 bytes before it do not look like one. *)
Definition end_unambiguous (a : archive) : Prop :=
  (forall k, 0 < k -> firstn 4 (skipn k (end_record a)) <> le 4 0x06054b50) /\
  (z_end64 a = None -> forall pre loc, until_central a ++ central_header a = pre ++ loc -> length loc = 20 -> firstn 4 loc <> le 4 0x07064b50).

(** What the extra field may be: none, or up to 385 records with no file comment after them. *)
Definition extra_tolerated (a : archive) : Prop :=
  z_extra a = [] \/ (z_comment a = [] /\ length (z_extra a) <= 385).

(** A single, unencrypted member on a single disk. *)
Definition supported (a : archive) : Prop :=
  z_total a = 1%N /\ z_here a = 1%N /\ z_disk a = 0%N /\ z_cd_disk a = 0%N /\
  N.testbit (z_flags a) 0 = false /\ (z_disk_start a = 0%N \/ z_disk_start a = 65535%N).

(** The name of the member: UTF-8 if the flag says so, else ASCII; anything else becomes U+FFFD. *)
Definition shown_name (flags : N) (name shown : bytes) : Prop :=
  if N.testbit flags 11
  then utf8 name = true -> shown = name
  else shown = flat_map (fun c => if (of_byte c <? 128)%N then [c] else encode 0xFFFD) name.
