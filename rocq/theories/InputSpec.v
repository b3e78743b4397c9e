(** What opening an input should do (C31, C54-C56), independently of the code's loops. *)
From Verif Require Export InputModel DecompressProofs.

(** The file name extension of a compression format. *)
Definition ext_of (f : dformat) : bytes :=
  match f with
  | GZ => b ".gz" | LZ4 => b ".lz4" | LZF => b ".lzf" | ZIP => b ".zip" | ZST => b ".zst"
  end.

(** [x] is the first element of [l] that satisfies [P]. *)
Definition is_first {A} (P : A -> bool) (l : list A) (x : A) : Prop :=
  exists pre post, l = pre ++ x :: post /\ P x = true /\ Forall (fun y => P y = false) pre.
Definition none_of {A} (P : A -> bool) (l : list A) : Prop := Forall (fun y => P y = false) l.

(** The compression layer a name announces: its format and the rest of the name. *)
Inductive name_layer : bytes -> option dformat -> bytes -> Prop :=
| nl_some f core : name_layer (core ++ ext_of f) (Some f) core
| nl_none name : (forall f core, name <> core ++ ext_of f) -> name_layer name None name.

(** The compression layer a content shows. *)
Definition content_layer (p : previewer) (f : option dformat) : Prop :=
  match f with
  | Some f => has_magic f (get_buf p)
  | None => forall f, ~ has_magic f (get_buf p)
  end.

Section Spec.
Context {S : Type} (ds : decoders) (sfs : list (factory S)).

(** Which decoder a layer needs.  LZ4 comes in two kinds: the block streams of the Java
    library, recognised by their first bytes, and frames.  Zip archives are not opened here. *)
Definition java_block_stream (p : previewer) : Prop := exists t, get_buf p = b "LZ4Block" ++ t.
Inductive decoded : dformat -> previewer -> res inner -> Prop :=
| dec_gz p : decoded GZ p (d_gz ds (get_reader p))
| dec_java p : java_block_stream p -> decoded LZ4 p (d_lz4_jblock ds (get_reader p))
| dec_frame p : ~ java_block_stream p -> decoded LZ4 p (d_lz4_frame ds (get_reader p))
| dec_lzf p : decoded LZF p (d_lzf ds (get_reader p))
| dec_zst p : decoded ZST p (d_zst ds (get_reader p))
| dec_zip p e : decoded ZIP p (Err e).
(** Removing a layer: decode, and preview the decoded stream. *)
Inductive removed : option dformat -> previewer -> res previewer -> Prop :=
| rm_none p : removed None p (Ok p)
| rm_some f p i : decoded f p i -> removed (Some f) p (let* i := i in previewer_new i).

(** Go on with a previewer, or report the failure to get one. *)
Definition after (r : res previewer) (k : previewer -> res S -> Prop) (out : res S) : Prop :=
  match r with Ok p => k p out | e => out = fail_as e end.
Definition after_layer (f : option dformat) (p : previewer) (k : previewer -> res S -> Prop) (out : res S) : Prop :=
  exists r, removed f p r /\ after r k out.

(** The first factory accepting the name core / the content creates the source. *)
Definition open_by_name (core : bytes) (p : previewer) (out : res S) : Prop :=
  (exists sf, is_first (fun sf => sf_format sf core) sfs sf /\ out = sf_create sf p) \/
  (none_of (fun sf => sf_format sf core) sfs /\ exists m, out = Err (ECustom m)).
Definition open_by_content (p : previewer) (out : res S) : Prop :=
  (exists sf, is_first (fun sf => sf_preview sf p) sfs sf /\ out = sf_create sf p) \/
  (none_of (fun sf => sf_preview sf p) sfs /\ exists m, out = Err (ECustom m)).

(** Contents alone: at most one layer, then the first factory that accepts. *)
Definition resolve_by_content (p : previewer) (out : res S) : Prop :=
  exists f, content_layer p f /\ after_layer f p open_by_content out.

(** A format given by the user decides alone. *)
Definition resolve_user (ext : bytes) (p : previewer) (out : res S) : Prop :=
  exists dotted f core,
    (dotted = ext /\ (exists t, ext = b "." ++ t) \/
     dotted = b "." ++ ext /\ (forall t, ext <> b "." ++ t)) /\
    name_layer dotted f core /\ after_layer f p (open_by_name core) out.

(** The name decides if some factory accepts it, else the contents, with at most one layer
    removed in total. *)
Definition resolve_by_name (name : bytes) (p : previewer) (out : res S) : Prop :=
  exists f core, name_layer name f core /\
    after_layer f p (fun p' out =>
      (exists sf, is_first (fun sf => sf_format sf core) sfs sf /\ out = sf_create sf p') \/
      (none_of (fun sf => sf_format sf core) sfs /\
       match f with
       | Some _ => open_by_content p' out
       | None => resolve_by_content p' out
       end)) out.

Definition resolve (name : option bytes) (fmt : input_format) (p : previewer) (out : res S) : Prop :=
  match fmt, name with
  | Extension ext, _ => resolve_user ext p out
  | Auto, Some name => resolve_by_name name p out
  | Auto, None => resolve_by_content p out
  end.
End Spec.

(** Two factories that differ at most in how they judge contents. *)
Definition same_but_preview {S} (x y : factory S) : Prop :=
  (forall f, sf_format x f = sf_format y f) /\ (forall p, sf_create x p = sf_create y p).

(** A DC stream: magic number and version. *)
Definition dc_magic : bytes := be 8 0x44434154 ++ be 2 2.
