(** Model of src/decompress/zip.rs and src/decompress/crc32.rs. *)
From Verif Require Export ReaderModel Utf8Spec.

(** ** CRC-32 (crc32fast, not part of the repository): bit by bit, reflected polynomial *)
Definition crc_poly : N := 0xEDB88320.
Definition crc_bit (s : N) : N := if N.odd s then N.lxor (N.shiftr s 1) crc_poly else N.shiftr s 1.
Definition crc_byte (s : N) (c : byte) : N := Nat.iter 8 crc_bit (N.lxor s (of_byte c)).
(** Hasher::new, update and finish *)
Definition crc_init : N := 0xFFFFFFFF.
Definition crc_update (s : N) (bs : bytes) : N := fold_left crc_byte bs s.
Definition crc_finish (s : N) : N := N.lxor s 0xFFFFFFFF.
Definition crc32 (bs : bytes) : N := crc_finish (crc_update crc_init bs).

(** ** Crc32Reader *)

(* src/decompress/crc32.rs:4-8 *)
Record crc_reader := { c_inner : inner; c_crc32 : N; c_hasher : N }.
(* src/decompress/crc32.rs:11-17 new *)
Definition crc_new (i : inner) (expected : N) : crc_reader :=
  {| c_inner := i; c_crc32 := expected; c_hasher := crc_init |}.
(* src/decompress/crc32.rs:21-38 Read::read with a buffer of [n] bytes *)
Definition crc_read (n : nat) (c : crc_reader) : res bytes * crc_reader :=
  let (o, i) := inner_read n (c_inner c) in
  match o with
  | Ok bs =>
      let c' h := {| c_inner := i; c_crc32 := c_crc32 c; c_hasher := h |} in
      if (length bs =? 0) && negb (n =? 0) && negb (crc_finish (c_hasher c) =? c_crc32 c)%N
      then (Err (EIo InvalidData), c' (c_hasher c))
      else (Ok bs, c' (crc_update (c_hasher c) bs))
  | e => (e, {| c_inner := i; c_crc32 := c_crc32 c; c_hasher := c_hasher c |})
  end.

(** ** Archives

    A seekable file is its contents and a position.  Reading it fails only at its end (no other
    I/O errors), and positions past the end may be set, however large. *)
Definition at_pos (A : Type) := N -> res (A * N).
Definition zret {A} (x : A) : at_pos A := fun p => Ok (x, p).
Definition zbind {A B} (m : at_pos A) (k : A -> at_pos B) : at_pos B :=
  fun p => let* (x, p') := m p in k x p'.
Notation "'let@' x ':=' m 'in' k" := (zbind m (fun x => k)) (at level 200, x pattern, right associativity).
Definition zfail {A} (e : ioerr) : at_pos A := fun _ => Err (EIo e).

(* src/decompress/zip.rs:9-19 *)
Definition LOCAL_FILE_HEADER_SIGNATURE : N := 0x04034b50.
Definition CENTRAL_FILE_HEADER_SIGNATURE : N := 0x02014b50.
Definition END_OF_CENTRAL_DIR_RECORD_SIGNATURE : N := 0x06054b50.
Definition ZIP64_END_OF_CENTRAL_DIR_RECORD_SIGNATURE : N := 0x06064b50.
Definition ZIP64_END_OF_CENTRAL_DIR_LOCATOR_SIGNATURE : N := 0x07064b50.
Definition MAX_EOCDR_SEARCH_BACK_OFFSET : N := 1048576.
Definition LOCAL_HEADER_FIXED_FIELDS_SIZE : N := 22.
Definition END_OF_CENTRAL_DIRECTORY_RECORD_FIXED_FIELDS_SIZE : N := 18.
Definition ZIP64_END_OF_CENTRAL_DIRECTORY_LOCATOR_FIXED_FIELDS_SIZE : N := 16.
Definition SIGNATURE_SIZE : N := 4.

(** String::from_utf8_lossy: ill-formed parts become U+FFFD. *)
Definition replacement : bytes := [byte_of 0xEF; byte_of 0xBF; byte_of 0xBD].
Fixpoint lossy (s : bytes) : bytes :=
  match s with
  | [] => []
  | a :: t =>
      if (of_byte a <? 0x80)%N then a :: lossy t
      else if between 0xC2 0xDF a then
        match t with
        | c1 :: t1 => if cont c1 then a :: c1 :: lossy t1 else replacement ++ lossy t
        | [] => replacement
        end
      else if between 0xE0 0xEF a then
        match t with
        | c1 :: t1 =>
            if (if (of_byte a =? 0xE0)%N then between 0xA0 0xBF c1
                else if (of_byte a =? 0xED)%N then between 0x80 0x9F c1 else cont c1)
            then match t1 with
                 | c2 :: t2 => if cont c2 then a :: c1 :: c2 :: lossy t2 else replacement ++ lossy t1
                 | [] => replacement
                 end
            else replacement ++ lossy t
        | [] => replacement
        end
      else if between 0xF0 0xF4 a then
        match t with
        | c1 :: t1 =>
            if (if (of_byte a =? 0xF0)%N then between 0x90 0xBF c1
                else if (of_byte a =? 0xF4)%N then between 0x80 0x8F c1 else cont c1)
            then match t1 with
                 | c2 :: t2 =>
                     if cont c2
                     then match t2 with
                          | c3 :: t3 => if cont c3 then a :: c1 :: c2 :: c3 :: lossy t3 else replacement ++ lossy t2
                          | [] => replacement
                          end
                     else replacement ++ lossy t1
                 | [] => replacement
                 end
            else replacement ++ lossy t
        | [] => replacement
        end
      else replacement ++ lossy t
  end.
(* src/decompress/zip.rs:323-330 the file name *)
Definition zip_name (bit_flag : N) (name : bytes) : bytes :=
  if N.testbit bit_flag 11 then lossy name
  else flat_map (fun c => if (of_byte c <=? 0x7f)%N then [c] else replacement) name.

(* src/decompress/zip.rs:258-266 the fields that are used *)
Record central := {
  cd_method : N; cd_crc32 : N; cd_compressed : N; cd_uncompressed : N; cd_name : bytes; cd_local : N
}.

Section File.
Variable data : bytes.
Definition size : N := N.of_nat (length data).

(** Read::read_exact and byteorder *)
Definition zget (n : N) : at_pos bytes := fun p =>
  if (p + n <=? size)%N then Ok (firstn (N.to_nat n) (skipn (N.to_nat p) data), (p + n)%N) else Err (EIo UnexpectedEof).
Definition zle (n : N) : at_pos N := let@ bs := zget n in zret (of_le bs).
(** Seek::seek: Start, Current (never negative here) and End(-k) *)
Definition seek_start (q : N) : at_pos unit := fun _ => Ok (tt, q).
Definition seek_by (k : N) : at_pos unit := fun p => Ok (tt, (p + k)%N).
Definition seek_back (k : N) : at_pos unit := fun _ => if (k <=? size)%N then Ok (tt, (size - k)%N) else Err (EIo (OtherIo 2)).

(* src/decompress/zip.rs:48-55 is_zip *)
Definition is_zip : res bool :=
  if (size <? 4)%N then Ok false
  else let* (sig, _) := zle 4 0%N in Ok (sig =? LOCAL_FILE_HEADER_SIGNATURE)%N.

(* src/decompress/zip.rs:118-135 find_eocdr_and_prepare_to_read: [pos] counts up to [max_back],
   at most [fuel] further times *)
Fixpoint find_eocdr (fuel : nat) (pos max_back : N) : at_pos unit :=
  match fuel with
  | O => fun _ => NoFuel
  | S f =>
      if (pos <? max_back)%N then
        let@ _ := seek_back pos in
        let@ sig := zle 4 in
        if (sig =? END_OF_CENTRAL_DIR_RECORD_SIGNATURE)%N then zret tt
        else find_eocdr f (pos + 1)%N max_back
      else zfail InvalidData
  end.
Definition find_eocdr_and_prepare_to_read : at_pos unit :=
  let max_back := N.min size MAX_EOCDR_SEARCH_BACK_OFFSET in
  find_eocdr (S (N.to_nat max_back)) 4%N max_back.

(* src/decompress/zip.rs:217-255 EndOfCentralDirRecord::read: offset of the central directory and
   length of the comment *)
Definition read_eocdr : at_pos (N * N) :=
  let@ disk_number := zle 2 in
  let@ disk_with_cd := zle 2 in
  let@ entries_on_disk := zle 2 in
  let@ entries := zle 2 in
  let@ _cd_size := zle 4 in
  let@ cd_offset := zle 4 in
  let@ comment := zle 2 in
  let@ _ := seek_by comment in
  if negb (entries =? 1)%N || negb (entries_on_disk =? 1)%N then zfail InvalidData
  else if negb (disk_number =? 0)%N || negb (disk_with_cd =? 0)%N then zfail InvalidData
  else zret (cd_offset, comment).

(* src/decompress/zip.rs:172-185 read_zip64_eocdl_and_get_eocdr_offset *)
Definition read_zip64_locator : at_pos N :=
  let@ disk_with_cd := zle 4 in
  let@ offset := zle 8 in
  let@ disks := zle 4 in
  if negb (disks =? 1)%N || negb (disk_with_cd =? 0)%N then zfail InvalidData else zret offset.
(* src/decompress/zip.rs:187-215 read_zip64_eocdr_and_get_central_dir_offset *)
Definition read_zip64_eocdr : at_pos N :=
  let@ _record_size := zle 8 in
  let@ _made_by := zle 2 in
  let@ _needed := zle 2 in
  let@ disk_number := zle 4 in
  let@ disk_with_cd := zle 4 in
  let@ files_on_disk := zle 8 in
  let@ files := zle 8 in
  let@ _cd_size := zle 8 in
  let@ cd_offset := zle 8 in
  if negb (files =? 1)%N || negb (files_on_disk =? 1)%N then zfail InvalidData
  else if negb (disk_number =? 0)%N || negb (disk_with_cd =? 0)%N then zfail InvalidData
  else zret cd_offset.

(* src/decompress/zip.rs:137-170 get_start_of_central_dir_offset *)
Definition central_dir_offset (eocdr : N * N) : at_pos N := fun p =>
  match seek_back (SIGNATURE_SIZE + ZIP64_END_OF_CENTRAL_DIRECTORY_LOCATOR_FIXED_FIELDS_SIZE + SIGNATURE_SIZE
                   + END_OF_CENTRAL_DIRECTORY_RECORD_FIXED_FIELDS_SIZE + snd eocdr)%N p with
  | Ok (_, q) =>
      (let@ sig := zle 4 in
       if negb (sig =? ZIP64_END_OF_CENTRAL_DIR_LOCATOR_SIGNATURE)%N then zret (fst eocdr)
       else
         let@ zip64 := read_zip64_locator in
         let@ _ := seek_start zip64 in
         let@ sig := zle 4 in
         if negb (sig =? ZIP64_END_OF_CENTRAL_DIR_RECORD_SIGNATURE)%N then zfail InvalidData
         else read_zip64_eocdr) q
  | _ => Ok (fst eocdr, p)
  end.

(* src/decompress/zip.rs:343-384 read_extra_field: [total] counts only the data sizes; every round
   reads 4 bytes, so [fuel] beyond the file's length changes nothing *)
Definition zip64_value (v : N) : at_pos (N * N) :=
  if (v =? 0xffffffff)%N then let@ x := zle 8 in zret (x, 8%N) else zret (v, 0%N).
Fixpoint read_extra (fuel : nat) (total len : N) (v : N * N * N) : at_pos (N * N * N) :=
  match fuel with
  | O => fun _ => NoFuel
  | S f =>
      if (total <? len)%N then
        let@ id := zle 2 in
        let@ data_size := zle 2 in
        let '(un, co, lo) := v in
        let@ (v', data_read) :=
          if (id =? 1)%N then
            let@ (un', d1) := zip64_value un in
            let@ (co', d2) := zip64_value co in
            let@ (lo', d3) := zip64_value lo in
            zret (un', co', lo', (d1 + d2 + d3)%N)
          else zret (v, 0%N) in
        if (data_size <? data_read)%N then zfail InvalidData
        else
          let@ _ := seek_by (data_size - data_read)%N in
          read_extra f (total + data_size)%N len v'
      else zret v
  end.

(* src/decompress/zip.rs:269-341 CentralDirHeader::read *)
Definition read_central : at_pos central :=
  let@ sig := zle 4 in
  if negb (sig =? CENTRAL_FILE_HEADER_SIGNATURE)%N then zfail InvalidData else
  let@ _made_by := zle 2 in
  let@ _needed := zle 2 in
  let@ bit_flag := zle 2 in
  let@ method := zle 2 in
  let@ _time := zle 2 in
  let@ _date := zle 2 in
  let@ crc := zle 4 in
  let@ compressed := zle 4 in
  let@ uncompressed := zle 4 in
  let@ name_len := zle 2 in
  let@ extra_len := zle 2 in
  let@ comment_len := zle 2 in
  let@ disk_start := zle 2 in
  let@ _internal := zle 2 in
  let@ _external := zle 4 in
  let@ local := zle 4 in
  let@ name := zget name_len in
  let@ (un, co, lo) := read_extra (S (length data)) 0%N extra_len (uncompressed, compressed, local) in
  let@ _ := seek_by comment_len in
  if N.testbit bit_flag 0 then zfail InvalidData
  else if negb (disk_start =? 0)%N && negb (disk_start =? 0xffff)%N then zfail InvalidData
  else zret {| cd_method := method; cd_crc32 := crc; cd_compressed := co; cd_uncompressed := un;
               cd_name := zip_name bit_flag name; cd_local := lo |}.

(** flate2's DeflateDecoder and bzip2's BzDecoder: from the reader of the compressed bytes to the
    reader of the decoded ones; [plan] is how the file's reads behave once the data is reached *)
Variables (inflate bunzip : inner -> inner) (plan : list step).

(* src/decompress/zip.rs:57-116 new_reader_for_single_file_zip_archive *)
Definition zip_open_at : at_pos (crc_reader * bytes) :=
  let@ _ := find_eocdr_and_prepare_to_read in
  let@ eocdr := read_eocdr in
  let@ start := central_dir_offset eocdr in
  let@ _ := seek_start start in
  let@ cd := read_central in
  let@ _ := seek_start (cd_local cd) in
  let@ sig := zle 4 in
  if negb (sig =? LOCAL_FILE_HEADER_SIGNATURE)%N then zfail InvalidData else
  let@ _ := seek_by LOCAL_HEADER_FIXED_FIELDS_SIZE in
  let@ name_len := zle 2 in
  let@ extra_len := zle 2 in
  let@ _ := seek_by name_len in
  let@ _ := seek_by extra_len in
  fun p =>
    let taken := {| i_data := firstn (N.to_nat (cd_compressed cd)) (skipn (N.to_nat p) data); i_tail := None; i_plan := plan |} in
    if (cd_method cd =? 0)%N then Ok ((crc_new taken (cd_crc32 cd), cd_name cd), p)
    else if (cd_method cd =? 8)%N then Ok ((crc_new (inflate taken) (cd_crc32 cd), cd_name cd), p)
    else if (cd_method cd =? 12)%N then Ok ((crc_new (bunzip taken) (cd_crc32 cd), cd_name cd), p)
    else Err (EIo InvalidData).
Definition zip_open : res (crc_reader * bytes) := let* (x, _) := zip_open_at 0%N in Ok x.
End File.
