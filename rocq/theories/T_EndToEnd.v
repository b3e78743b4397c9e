(** Property theorems about whole invocations: chop writing a DC file, and reading it. *)
From Verif Require Import HeaderMore DcProofs.

Lemma Forall_perm {A} (P : A -> Prop) x y : Permutation x y -> Forall P y -> Forall P x.
Proof. intros H F. apply Permutation_sym in H. eapply Permutation_Forall; eauto. Qed.

Lemma C57_proof : forall F inputs rng h s,
  inputs <> [] -> (forall i, In i inputs -> fst i = h) ->
  header_fits h -> 2 <= length (h_types h) -> length (h_types h) mod 8 <> 1 ->
  (forall i r, In i inputs -> In r (selected rng (snd i)) -> row_fits h r) ->
  chop F inputs dc_header_sink rng = (s, Ok tt) ->
  let written := dc_file h (events_at (r_log s) (out_chain (length inputs)) (out_node (length inputs))) in
  exists rows,
    dc_read (file written) = Ok (with_default_names h, (rows, Ok tt)) /\
    Permutation rows (concat (map (selected rng) (map snd inputs))) /\
    ((forall i, In i inputs -> time_ordered (rows_before_failure (snd i))) -> time_ordered rows).
Proof.
  intros F inputs rng h s Hne Hh Hf H2 H8 Hr H written.
  destruct (proj2 (bitset_agree _) (conj H2 H8)) as (n & Ew & Er).
  assert (Ho : dc_header_sink h = Ok (h, dc_sink n)).
  { unfold dc_header_sink. rewrite (header_bytes h Hf). cbn [snd]. rewrite Ew. reflexivity. }
  destruct (chop_ok _ _ _ _ _ _ _ _ Hne Hh Ho H) as (_ & P & So & _).
  eexists. split; [|split; [exact P|exact So]].
  unfold written. apply dc_roundtrip; auto.
  eapply Forall_perm; [exact P|]. apply Forall_concat, Forall_map, Forall_map, Forall_forall.
  intros i Hi. apply Forall_forall. intros r Hin. eauto.
Qed.

(** C57: chop with DC output, then reading that file: the header and the time-ordered merge
    of the in-range rows of all inputs. *)
Theorem C57_chop_to_dc_and_back : forall F inputs rng h s,
  inputs <> [] -> (forall i, In i inputs -> fst i = h) ->
  header_fits h -> 2 <= length (h_types h) -> length (h_types h) mod 8 <> 1 ->
  (forall i r, In i inputs -> In r (selected rng (snd i)) -> row_fits h r) ->
  chop F inputs dc_header_sink rng = (s, Ok tt) ->
  let written := dc_file h (events_at (r_log s) (out_chain (length inputs)) (out_node (length inputs))) in
  exists rows,
    dc_read (file written) = Ok (with_default_names h, (rows, Ok tt)) /\
    Permutation rows (concat (map (selected rng) (map snd inputs))) /\
    ((forall i, In i inputs -> time_ordered (rows_before_failure (snd i))) -> time_ordered rows).
Proof. exact C57_proof. Qed.
Print Assumptions C57_chop_to_dc_and_back.

Definition he : header := {| h_names := [b "x"; b "y"]; h_types := [TInt; TString] |}.
Definition re (t : N) (z : Z) : row := {| ts := t; vals := [VInt z; VNone] |}.
Definition ex_in : list (header * source) :=
  [(he, map Ok [re 1 10; re 4 11]); (he, map Ok [re 2 20; re 4 21; re 9 22])].
Example ex_c57 : exists s, chop 3 ex_in dc_header_sink range_all = (s, Ok tt) /\
  dc_read (file (dc_file he (events_at (r_log s) 2 1))) =
    Ok (he, ([re 1 10; re 2 20; re 4 21; re 4 11; re 9 22], Ok tt)).
Proof. eexists. split; [reflexivity|]. vm_compute. reflexivity. Qed.
Example ex_c57_fits : header_fits he /\
  forall i r, In i ex_in -> In r (selected range_all (snd i)) -> row_fits he r.
Proof.
  split.
  - split; [reflexivity|]. split; [repeat constructor; discriminate|]. split; [repeat constructor|reflexivity].
  - intros i r [<-|[<-|[]]]; cbn; intros H;
      repeat (destruct H as [<-|H]; [split; [reflexivity|]; repeat constructor; cbn; lia|]); destruct H.
Qed.
