(** What a faithful view of a byte stream is (C27-C29), independently of the reader. *)
From Verif Require Export ReaderModel.

(** A consumer's calls: [Read n] is Read::read with a buffer of n bytes, [Peek] is
    BufRead::fill_buf, [Use n] is fill_buf followed by consume(n) (clipped to what was
    shown). *)
Inductive op := Read (n : nat) | Peek | Use (n : nat).

Definition do_op (o : op) (r : breader) : res bytes * breader :=
  match o with
  | Read n => read n r
  | Peek => fill_buf r
  | Use n => let (x, r') := fill_buf r in
             match x with
             | Ok bs => (Ok (firstn n bs), consume n r')
             | e => (e, r')
             end
  end.

(** The calls made, each with its outcome. *)
Fixpoint run (ops : list op) (r : breader) : list (op * res bytes) :=
  match ops with
  | [] => []
  | o :: ops' => let (x, r') := do_op o r in (o, x) :: run ops' r'
  end.

(** A failure the consumer sees is one the underlying reader produced. *)
Definition blamed (rest : bytes) (tl : option ioerr) (plan : list step) (e : error) : Prop :=
  exists k, e = EIo k /\ (In (Fail k) plan \/ (rest = [] /\ tl = Some k)).

(** [faithful rest ...]: the outcomes are those of reading [rest], in order, nothing lost,
    nothing added, and the end reported only at the end. *)
Fixpoint faithful (rest : bytes) (tl : option ioerr) (plan : list step)
  (tr : list (op * res bytes)) : Prop :=
  match tr with
  | [] => True
  | (o, Ok bs) :: tr' =>
      exists rest', rest = bs ++ rest' /\
        match o with
        | Read n => length bs <= n /\ (n <> 0 -> bs = [] -> rest = [] /\ tl = None) /\
                    faithful rest' tl plan tr'
        | Use n => length bs <= n /\ (n <> 0 -> bs = [] -> rest = [] /\ tl = None) /\
                   faithful rest' tl plan tr'
        | Peek => (bs = [] -> rest = [] /\ tl = None) /\ faithful rest tl plan tr'
        end
  | (_, Err e) :: tr' => blamed rest tl plan e /\ faithful rest tl plan tr'
  | _ => False
  end.

(** The bytes obtained by the calls that take bytes. *)
Fixpoint obtained (tr : list (op * res bytes)) : bytes :=
  match tr with
  | [] => []
  | (Peek, _) :: tr' => obtained tr'
  | (_, Ok bs) :: tr' => bs ++ obtained tr'
  | _ :: tr' => obtained tr'
  end.

(** The underlying reader never fails before its data is used up. *)
Definition smooth (plan : list step) : Prop := forall e, ~ In (Fail e) plan.

(** read_exact calls in a row, until the first failure, on the buffered reader and on a
    plain stream. *)
Fixpoint read_exacts (ns : list nat) (r : breader) : list (res bytes) :=
  match ns with
  | [] => []
  | n :: ns' => let (x, r') := read_exact n r in
                x :: (if is_ok x then read_exacts ns' r' else [])
  end.
Fixpoint take_exacts (ns : list nat) (s : stream) : list (res bytes) :=
  match ns with
  | [] => []
  | n :: ns' => match take_exact (N.of_nat n) s with
                | Ok (bs, s') => Ok bs :: take_exacts ns' s'
                | e => [fail_as e]
                end
  end.

(** Lines: one trailing CR does not belong to the line. *)
Definition strip_cr (l l' : bytes) : Prop :=
  l = l' ++ [CR] \/ (l = l' /\ forall x, l <> x ++ [CR]).

(** [raw] are the lines of the preview [buf]: those that end in a newline, then what follows
    the last newline, unless it is empty or the preview is [full]. *)
Definition preview_lines (buf : bytes) (full : bool) (raw : list bytes) : Prop :=
  exists ls last,
    buf = concat (map (fun l => l ++ [LF]) ls) ++ last /\
    Forall (fun l => ~ In LF l) (ls ++ [last]) /\
    raw = ls ++ (if full then [] else match last with [] => [] | _ => [last] end).
