(** Inputs that break off in one run and go on in another (C141). *)
From Verif Require Export DamageAnySpec.
Local Open Scope nat_scope.

Section BreakOff.
Variables (ds : decoders) (inflate bunzip : inner -> inner).
(** The input is there in both worlds, the same: a file that is no directory, or the standard input. *)
Definition unaffected (w w' : world) (t : input_type) : Prop :=
  match t with
  | StdIn => w_stdin w' = w_stdin w
  | Path p => w_is_dir w p = false /\ w_is_dir w' p = false /\ w_exists w' p = w_exists w p /\ w_open w' p = w_open w p /\
      w_http w' p = w_http w p
  end.
(** The input is a CSV input of any kind; in the first world it breaks off with a read error, in the second it goes on. *)
Definition breaks_off (w w' : world) (t : input_type) (fmt : input_format) : Prop :=
  exists x y e tail, input_ends ds inflate bunzip w fmt t KCsv x (Some e) /\ input_ends ds inflate bunzip w' fmt t KCsv (x ++ y) tail.
End BreakOff.
