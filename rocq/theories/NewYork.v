(** The clocks of New York from 1987 to 2037 (before: as at the end of 1986), and of UTC, as tables (ChronoModel).
    Until 2006 daylight saving time is from the first Sunday of April to the last of October, since 2007 from the
    second Sunday of March to the first of November, from 2 to 2 o'clock.  Used in examples only. *)
From Verif Require Import DateTextSpec.
Local Open Scope Z_scope.
Definition new_york : zone_table := {| zt_first := -18000; zt_changes := [
  (544604400, -14400); (562140000, -18000); (576054000, -14400); (594194400, -18000);
  (607503600, -14400); (625644000, -18000); (638953200, -14400); (657093600, -18000);
  (671007600, -14400); (688543200, -18000); (702457200, -14400); (719992800, -18000);
  (733906800, -14400); (752047200, -18000); (765356400, -14400); (783496800, -18000);
  (796806000, -14400); (814946400, -18000); (828860400, -14400); (846396000, -18000);
  (860310000, -14400); (877845600, -18000); (891759600, -14400); (909295200, -18000);
  (923209200, -14400); (941349600, -18000); (954658800, -14400); (972799200, -18000);
  (986108400, -14400); (1004248800, -18000); (1018162800, -14400); (1035698400, -18000);
  (1049612400, -14400); (1067148000, -18000); (1081062000, -14400); (1099202400, -18000);
  (1112511600, -14400); (1130652000, -18000); (1143961200, -14400); (1162101600, -18000);
  (1173596400, -14400); (1194156000, -18000); (1205046000, -14400); (1225605600, -18000);
  (1236495600, -14400); (1257055200, -18000); (1268550000, -14400); (1289109600, -18000);
  (1299999600, -14400); (1320559200, -18000); (1331449200, -14400); (1352008800, -18000);
  (1362898800, -14400); (1383458400, -18000); (1394348400, -14400); (1414908000, -18000);
  (1425798000, -14400); (1446357600, -18000); (1457852400, -14400); (1478412000, -18000);
  (1489302000, -14400); (1509861600, -18000); (1520751600, -14400); (1541311200, -18000);
  (1552201200, -14400); (1572760800, -18000); (1583650800, -14400); (1604210400, -18000);
  (1615705200, -14400); (1636264800, -18000); (1647154800, -14400); (1667714400, -18000);
  (1678604400, -14400); (1699164000, -18000); (1710054000, -14400); (1730613600, -18000);
  (1741503600, -14400); (1762063200, -18000); (1772953200, -14400); (1793512800, -18000);
  (1805007600, -14400); (1825567200, -18000); (1836457200, -14400); (1857016800, -18000);
  (1867906800, -14400); (1888466400, -18000); (1899356400, -14400); (1919916000, -18000);
  (1930806000, -14400); (1951365600, -18000); (1962860400, -14400); (1983420000, -18000);
  (1994310000, -14400); (2014869600, -18000); (2025759600, -14400); (2046319200, -18000);
  (2057209200, -14400); (2077768800, -18000); (2088658800, -14400); (2109218400, -18000);
  (2120108400, -14400); (2140668000, -18000)] |}.
Definition utc : zone_table := {| zt_first := 0; zt_changes := [] |}.
Fixpoint ascends (l : list (Z * Z)) : bool :=
  match l with x :: (y :: _) as l' => (fst x <? fst y) && ascends l' | _ => true end.
Lemma ascends_spec l : ascends l = true -> ascending l.
Proof.
  induction l as [|x l IH]; intros H; [exact I|]. destruct l as [|y l]; [exact I|].
  change ((fst x <? fst y) && ascends (y :: l) = true) in H. apply andb_true_iff in H. destruct H as [A B]. apply Z.ltb_lt in A.
  split; [exact A|apply IH, B].
Qed.
Lemma new_york_good : good_table new_york.
Proof. apply ascends_spec. vm_compute. reflexivity. Qed.
Lemma utc_good : good_table utc.
Proof. exact I. Qed.
