(** Model of src/decompress/decompress.rs: which compression a name or a content has. *)
From Verif Require Export ReaderModel.

(* src/decompress/decompress.rs:15-27 *)
Inductive dformat := GZ | LZ4 | LZF | ZIP | ZST.
Definition GZ_ext := b ".gz".
Definition LZ4_ext := b ".lz4".
Definition LZF_ext := b ".lzf".
Definition ZIP_ext := b ".zip".
Definition ZST_ext := b ".zst".

(** [format[..(format.len() - ext.len())]] *)
Definition cut_end (ext s : bytes) : bytes := firstn (length s - length ext) s.

(* src/decompress/decompress.rs:29-61 is_compressed_using_format *)
Definition is_compressed_using_format (format : bytes) : option (dformat * bytes) :=
  if ends_with GZ_ext format then Some (GZ, cut_end GZ_ext format)
  else if ends_with LZ4_ext format then Some (LZ4, cut_end LZ4_ext format)
  else if ends_with LZF_ext format then Some (LZF, cut_end LZF_ext format)
  else if ends_with ZIP_ext format then Some (ZIP, cut_end ZIP_ext format)
  else if ends_with ZST_ext format then Some (ZST, cut_end ZST_ext format)
  else None.

(** [BufReader::new(buf.as_ref())] over the preview: a stream of those bytes *)
Definition buf_stream (buf : bytes) : stream := {| s_data := buf; s_tail := None |}.

(* src/decompress/decompress.rs:63-101 is_compressed_using_previewer *)
Definition is_compressed_using_previewer (p : previewer) : option dformat :=
  match read_be 4 (buf_stream (get_buf p)) with
  | Ok (header32be, rest) =>
      let header24be := N.land header32be 0xFFFFFF00 in
      if (header24be =? 0x1F8B0800)%N then Some GZ
      else if (header32be =? 0x04224D18)%N then Some LZ4
      else if (header32be =? 0x4C5A3442)%N &&
              match read_be 4 rest with
              | Ok (next32be, _) => (next32be =? 0x6C6F636B)%N
              | _ => false
              end then Some LZ4
      else if (header24be =? 0x5A560100)%N || (header24be =? 0x5A560000)%N then Some LZF
      else if (header32be =? 0x504B0304)%N then Some ZIP
      else if (header32be =? 0x28B52FFD)%N then Some ZST
      else None
  | _ => None
  end.
