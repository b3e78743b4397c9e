(** Model of src/source/multi_file_source.rs, src/input/files_in_dir_provider.rs,
    src/transport/dir/dir_transport.rs and of std's path ordering and stable sort as used there. *)
From Verif Require Export DriverModel.

(** ** Realigning columns *)

(* src/source/multi_file_source.rs:117-154 the loop over the expected columns [names]
   (those from index [i] on); result: the swap map and is_identity_map *)
Fixpoint check_loop (ref : header) (names : list bytes) (i : nat) (new : header)
  : res (list nat * bool) :=
  match names with
  | [] => Ok ([], true)
  | name :: names' =>
      match position (fun s => bytes_eqb s name) (skipn i (h_names new)) with
      | None => Err (ECustom "next file in a multi-file input is missing at least one expected column")
      | Some off =>
          let j := i + off in
          match nth_error (h_types ref) i, nth_error (h_types new) j with
          | Some t, Some t' =>
              if ftype_eqb t t' then
                let* new' :=
                  if i =? j then Ok new
                  else
                    let* ns := list_swap i j (h_names new) in
                    let* ts := list_swap i j (h_types new) in
                    Ok {| h_names := ns; h_types := ts |} in
                let* (m, ident) := check_loop ref names' (S i) new' in
                Ok (j :: m, (i =? j) && ident)
              else Err (ECustom "next file in a multi-file input has unexpected column type")
          | _, _ => Panic
          end
      end
  end.

(* src/source/multi_file_source.rs:100-161 check_headers_match_and_return_swap_map *)
Definition check_headers (ref new : header) : res (list nat) :=
  if length (h_names new) <? length (h_names ref)
  then Err (ECustom "next file in a multi-file input has less columns than expected")
  else
    let* (m, ident) := check_loop ref (h_names ref) 0 new in
    Ok (if ident : bool then [] else m).

(* src/source/multi_file_source.rs:182-184 the swaps of next_row *)
Fixpoint apply_swaps {A} (m : list nat) (i : nat) (l : list A) : res (list A) :=
  match m with
  | [] => Ok l
  | j :: m' => let* l' := list_swap i j l in apply_swaps m' (S i) l'
  end.

(* src/source/multi_file_source.rs:181-187; an empty map passes the row through *)
Definition realign (m : list nat) (r : row) : res row :=
  match m with
  | [] => Ok r
  | _ => let* vs := apply_swaps m 0 (vals r) in
         Ok {| ts := ts r; vals := firstn (length m) vs |}
  end.

(** ** The source *)

Section Multi.
Context {P : Type}.
(** [open] is SingleFileInputFactory::create_source_from_path with the input format fixed;
    a source is its header and the results of its successive next_row calls. *)
Variable open : P -> res (option (header * source)).

(* src/source/multi_file_source.rs:11-18; the path provider is the list of paths still to come *)
Record multi := { m_paths : list P; m_common : header; m_map : list nat; m_cur : option source }.

(* src/source/multi_file_source.rs:83-98 create_source_from_path *)
Definition create_source (p : P) : res (header * source) :=
  let* s := open p in
  match s with
  | None => Err (EIo (OtherIo 2))
  | Some s => Ok s
  end.

(* src/source/multi_file_source.rs:21-56 SerialMultiFileSource::new *)
Definition multi_new (paths : list P) (ext : option header) : res multi :=
  match paths with
  | [] => Ok {| m_paths := []; m_common := {| h_names := []; h_types := [] |}; m_map := []; m_cur := None |}
  | p :: ps =>
      let* (h, s) := create_source p in
      let* (common, m) :=
        match ext with
        | None => Ok (h, [])
        | Some c => let* m := check_headers c h in Ok (c, m)
        end in
      Ok {| m_paths := ps; m_common := common; m_map := m; m_cur := Some s |}
  end.

(* src/source/multi_file_source.rs:58-81 update_to_next_source and 169-193 the loop of
   next_row; the recursion follows the paths that are left *)
Fixpoint multi_loop (common : header) (paths : list P) (m : list nat) (cur : option source)
  : res (option row * multi) :=
  match cur with
  | None => Ok (None, {| m_paths := paths; m_common := common; m_map := m; m_cur := None |})
  | Some (Ok r :: s) =>
      let* r' := realign m r in
      Ok (Some r', {| m_paths := paths; m_common := common; m_map := m; m_cur := Some s |})
  | Some (e :: _) => fail_as e
  | Some [] =>
      match paths with
      | [] => Ok (None, {| m_paths := []; m_common := common; m_map := []; m_cur := None |})
      | p :: ps =>
          let* (h, s) := create_source p in
          let* m' := check_headers common h in
          multi_loop common ps m' (Some s)
      end
  end.
Definition multi_next (st : multi) : res (option row * multi) :=
  multi_loop (m_common st) (m_paths st) (m_map st) (m_cur st).

(** The results of the first [n] calls of next_row, up to the end of the data or the first
    failure: what the driver sees of this source. *)
Fixpoint drain (n : nat) (st : multi) : list (res row) :=
  match n with
  | O => []
  | S n' =>
      match multi_next st with
      | Ok (Some r, st') => Ok r :: drain n' st'
      | Ok (None, _) => []
      | e => [fail_as e]
      end
  end.
End Multi.

(** ** Directories *)

(** std::path::Component on Unix (std::path, not in /repo). *)
Inductive component := RootDir | CurDir | ParentDir | Normal (s : bytes).

Fixpoint split_slash (p : bytes) : list bytes :=
  match p with
  | [] => [[]]
  | c :: t =>
      if Ascii.eqb c "/" then [] :: split_slash t
      else match split_slash t with
           | s :: r => (c :: s) :: r
           | [] => [[c]]
           end
  end.
(* Path::components: repeated slashes and inner "." are dropped *)
Definition inner_component (s : bytes) : list component :=
  if bytes_eqb s [] then []
  else if bytes_eqb s (b ".") then []
  else if bytes_eqb s (b "..") then [ParentDir]
  else [Normal s].
Definition components (p : bytes) : list component :=
  match split_slash p with
  | [] => []
  | s :: r =>
      (match p with
       | "/"%char :: _ => [RootDir]
       | _ => if bytes_eqb s (b ".") then [CurDir] else inner_component s
       end) ++ concat (map inner_component r)
  end.
(* derived Ord of Component, without the Windows prefix *)
Definition comp_rank (c : component) : nat :=
  match c with RootDir => 0 | CurDir => 1 | ParentDir => 2 | Normal _ => 3 end.
Definition comp_cmp (x y : component) : comparison :=
  match x, y with
  | Normal s, Normal t => bytes_cmp s t
  | _, _ => comp_rank x ?= comp_rank y
  end.
Fixpoint lex_cmp {A} (cmp : A -> A -> comparison) (x y : list A) : comparison :=
  match x, y with
  | [], [] => Eq
  | [], _ :: _ => Lt
  | _ :: _, [] => Gt
  | a :: x', c :: y' => match cmp a c with Eq => lex_cmp cmp x' y' | o => o end
  end.
(* impl Ord for PathBuf: the components in lexicographic order *)
Definition path_cmp (x y : bytes) : comparison := lex_cmp comp_cmp (components x) (components y).

(** [slice::sort_by]: a stable sort, here insertion; [gt x y] is [compare(x, y) == Greater]. *)
Fixpoint insert_by {A} (gt : A -> A -> bool) (x : A) (l : list A) : list A :=
  match l with
  | [] => [x]
  | y :: t => if gt x y then y :: insert_by gt x t else x :: y :: t
  end.
Definition sort_by {A} (gt : A -> A -> bool) (l : list A) : list A :=
  fold_right (insert_by gt) [] l.

(* src/transport/dir/dir_transport.rs:6-13 *)
Record dir_transport := {
  dt_can_handle : bytes -> bool;
  dt_is_dir : bytes -> bool;
  dt_read_dir : bytes -> res (list bytes)
}.

(* src/input/files_in_dir_provider.rs:16-37 FilesInDirPathProvider::new: files_in_reverse *)
Definition files_in_dir (t : dir_transport) (path : bytes) : res (list bytes) :=
  if negb (dt_is_dir t path) then Err (EIo InvalidData)
  else
    let* entries := dt_read_dir t path in
    Ok (sort_by (fun a c => match path_cmp c a with Gt => true | _ => false end)
          (filter (fun e => negb (dt_is_dir t e)) entries)).

(* src/input/files_in_dir_provider.rs:40-44 get_next_path pops from the end, so successive
   calls yield the reversed vector *)
Definition provider_paths (files_in_reverse : list bytes) : list bytes := rev files_in_reverse.

(* src/input/input_factory.rs:118-134 the directory branch of create_source_from_input *)
Definition dir_source (open : bytes -> res (option (header * source))) (t : dir_transport) (path : bytes)
  : res multi :=
  let* files := files_in_dir t path in
  multi_new open (provider_paths files) None.
