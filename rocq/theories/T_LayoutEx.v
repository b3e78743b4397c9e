(** Cases of C133 and C134. *)
From Verif Require Import NewYork DateTextProofs CalendarProofs T_Time T_DateText T_DateEx LayoutProofs T_Layout CsvSpec TimestampSpec.
Local Open Scope Z_scope.

Definition at_time (y m d h mi s ns off : Z) : moment := fun w =>
  match w with
  | TheYear => y | TheMonth => m | TheDay => d | TheHour => h | TheMinute => mi | TheSecond => s | TheNanos => ns | TheOffset => off
  end.
Definition chr (s : string) : byte := hd (byte_of 0) (b s).
Ltac spell t k := match goal with |- spelled ?ps ?f =>
  let n := eval vm_compute in (length (b t)) in
  let r := eval vm_compute in (skipn n f) in
  let p1 := eval cbn [firstn] in (firstn k ps) in
  let p2 := eval cbn [skipn] in (skipn k ps) in
  refine (spelled_next p1 (b t) p2 r _ _) end.
Ltac show t := match goal with |- shown _ _ ?s _ =>
  let n := eval vm_compute in (length (b t)) in
  let r := eval vm_compute in (skipn n s) in
  refine (shown_next _ _ (b t) _ r _ _ _) end.
Ltac number p l := apply (sp_number _ (b p) (b l)); cbn; tauto.
Ltac plain_char := apply sp_char; split; [vm_compute; reflexivity|split; [unfold white_space; vm_compute; intuition discriminate|discriminate]].
Ltac white_char := apply sp_white; unfold white_space; vm_compute; intuition congruence.

(** %F %T%.f %z *)
Definition ex_iso : list part :=
  [Number TheYear; Char (chr "-"); Number TheMonth; Char (chr "-"); Number TheDay; White;
   Number TheHour; Char (chr ":"); Number TheMinute; Char (chr ":"); Number TheSecond; Point; White; Zone].
Lemma ex_iso_spelled : spelled ex_iso (b "%F %T%.f %z").
Proof.
  unfold ex_iso. spell "%F"%string 5%nat; [apply (sp_F (chr "-")); reflexivity|].
  spell " "%string 1%nat; [white_char|]. spell "%T"%string 5%nat; [apply (sp_T (chr ":")); reflexivity|].
  spell "%.f"%string 1%nat; [apply sp_point; cbn; tauto|]. spell " "%string 1%nat; [white_char|].
  spell "%z"%string 1%nat; [apply sp_zone; cbn; tauto|]. constructor.
Qed.
Ltac sh_char := apply (sh_char _ (chr _)).
Ltac not_next := cbn [next_not app]; first [exact I|unfold white_space, is_figure; vm_compute; intuition congruence].
Ltac a_white := apply sh_white; [repeat apply Forall_cons; try apply Forall_nil; unfold white_space; vm_compute; intuition congruence|not_next].
Definition some_time := at_time 2018 4 1 9 30 0 500000000 (-14400).
Definition half_past : stamp := {| s_day := 17622; s_sec := 34200; s_nano := 500000000 |}.
Lemma some_time_is : moment_of some_time half_past.
Proof. unfold moment_of, some_time. cbn [at_time]. a_time. Qed.
Lemma ex_iso_shown : shown some_time ex_iso (b "2018-04-01  9:30:00.50 -04:00") [].
Proof.
  unfold ex_iso. show "2018"%string; [exact (sh_year some_time [] _ (Forall_nil _))|]. show "-"%string; [apply sh_char|].
  show "04"%string; [apply (sh_two some_time TheMonth []); [discriminate|constructor]|]. show "-"%string; [apply sh_char|].
  show "01"%string; [apply (sh_two some_time TheDay []); [discriminate|constructor]|]. show "  "%string; [a_white|].
  show "9"%string; [apply (sh_one some_time TheHour []); [discriminate|constructor|vm_compute; reflexivity|not_next]|]. show ":"%string; [apply sh_char|].
  show "30"%string; [apply (sh_two some_time TheMinute []); [discriminate|constructor]|]. show ":"%string; [apply sh_char|].
  show "00"%string; [apply (sh_two some_time TheSecond []); [discriminate|constructor]|].
  show ".50"%string; [apply (sh_point some_time [5; 0]); [split; [discriminate|repeat constructor; lia]|reflexivity|not_next]|].
  show " "%string; [a_white|].
  show "-04:00"%string; [apply (sh_zone some_time [] (b "-") 4 (b ":") 0); [constructor|lia|lia|repeat constructor; right; reflexivity|right; split; reflexivity]|].
  constructor.
Qed.
Example C133_offset_example : forall o z,
  let h := {| h_names := map b ["t"; "x"]%string; h_types := [] |} in
  spelled ex_iso (b "%F %T%.f %z") /\ tells_day ex_iso /\ In Zone ex_iso /\ tells_clock ex_iso some_time /\
  moment_of some_time half_past /\ shown some_time ex_iso (b "2018-04-01  9:30:00.50 -04:00") [] /\
  get_col_and_fmt (civil o) (fun s => s) h [b "2018-04-01  9:30:00.50 -04:00"; b "1"] (CfgIndex 0) (FmtExplicit (b "%F %T%.f %z")) z
    = Ok (ColIndex 0, FDateTimeTz (b "%F %T%.f %z")).
Proof.
  intros o z h. split; [exact ex_iso_spelled|]. split; [unfold tells_day, has; cbn; tauto|]. split; [cbn; tauto|].
  assert (C : tells_clock ex_iso some_time).
  { unfold tells_clock, has, has_fraction. cbn [ex_iso In]. split; [tauto|]. split; [tauto|]. split; [left; tauto|left; left; tauto]. }
  split; [exact C|]. split; [exact some_time_is|]. split; [exact ex_iso_shown|].
  apply (C133_offset Debug o (fun s => s) h _ (CfgIndex 0) (FmtExplicit (b "%F %T%.f %z")) z (ColIndex 0) None _ ex_iso some_time (b "2018-04-01  9:30:00.50 -04:00") half_past).
  - reflexivity.
  - left. reflexivity.
  - exact ex_iso_spelled.
  - unfold tells_day, has; cbn; tauto.
  - cbn; tauto.
  - constructor. reflexivity.
  - exact some_time_is.
  - exact ex_iso_shown.
  - exact C.
Qed.

(** A date column and a time column: %d/%m/%Y and %k.%M *)
Definition ex_two : list part :=
  [Number TheDay; Char (chr "/"); Number TheMonth; Char (chr "/"); Number TheYear; Char (chr "#"); Number TheHour; Char (chr "."); Number TheMinute].
Lemma ex_two_spelled : spelled ex_two (b "%d/%-m/%Y" ++ b "#" ++ b "%k.%M").
Proof.
  unfold ex_two. change (b "%d/%-m/%Y" ++ b "#" ++ b "%k.%M") with (b "%d/%-m/%Y#%k.%M").
  spell "%d"%string 1%nat; [number ""%string "d"%string|]. spell "/"%string 1%nat; [plain_char|].
  spell "%-m"%string 1%nat; [number "-"%string "m"%string|]. spell "/"%string 1%nat; [plain_char|].
  spell "%Y"%string 1%nat; [number ""%string "Y"%string|]. spell "#"%string 1%nat; [plain_char|].
  spell "%k"%string 1%nat; [number ""%string "k"%string|]. spell "."%string 1%nat; [plain_char|].
  spell "%M"%string 1%nat; [number ""%string "M"%string|]. constructor.
Qed.
Definition at_nine := at_time 2018 4 1 9 30 0 0 0.
Lemma ex_two_shown : shown at_nine ex_two (b "01/4/2018" ++ b "#" ++ b " 9.30") [].
Proof.
  unfold ex_two. change (b "01/4/2018" ++ b "#" ++ b " 9.30") with (b "01/4/2018# 9.30").
  show "01"%string; [apply (sh_two at_nine TheDay []); [discriminate|constructor]|]. show "/"%string; [apply sh_char|].
  show "4"%string; [apply (sh_one at_nine TheMonth []); [discriminate|constructor|vm_compute; reflexivity|not_next]|]. show "/"%string; [apply sh_char|].
  show "2018"%string; [exact (sh_year at_nine [] _ (Forall_nil _))|]. show "#"%string; [apply sh_char|].
  show " 9"%string; [apply (sh_one at_nine TheHour [chr " "]); [discriminate|repeat constructor; unfold white_space; vm_compute; intuition congruence|vm_compute; reflexivity|not_next]|].
  show "."%string; [apply sh_char|].
  show "30"%string; [apply (sh_two at_nine TheMinute []); [discriminate|constructor]|]. constructor.
Qed.
Example C133_local_example : forall o,
  let h := {| h_names := map b ["date"; "time"]%string; h_types := [] |} in
  let r := [b "01/4/2018"; b " 9.30"] in
  exists n, get_timestamp Debug (civil o) r (ColDateTime 0 1) (FDateTime (b "%d/%-m/%Y" ++ b "#" ++ b "%k.%M")) (zone_of o new_york) = Ok n /\
    Z.of_N n = 1522589400000000000.
Proof.
  intros o h r. assert (M : moment_of at_nine morning) by (unfold moment_of, at_nine; cbn [at_time]; a_time).
  assert (C : tells_clock ex_two at_nine).
  { unfold tells_clock, has, has_fraction. cbn [ex_two In]. split; [tauto|]. split; [tauto|]. split; [|right; reflexivity].
    right. split; [|reflexivity]. intros [X|[X|(k & X)]]; repeat (destruct X as [X|X]; [discriminate X|]); exact X. }
  assert (T : row_text r (ColDateTime 0 1) (b "01/4/2018" ++ b "#" ++ b " 9.30")) by (constructor; reflexivity).
  destruct (C133_local Debug o (fun s => s) h r (CfgDateTimeIndex 0 1) (FmtDateTimeExplicit (b "%d/%-m/%Y") (b "%k.%M")) new_york (ColDateTime 0 1) None
              (b "%d/%-m/%Y" ++ b "#" ++ b "%k.%M") ex_two at_nine (b "01/4/2018" ++ b "#" ++ b " 9.30") morning) as (_ & _ & R).
  - reflexivity.
  - right. exists (b "%d/%-m/%Y"), (b "%k.%M"). auto.
  - exact ex_two_spelled.
  - unfold tells_day, has; cbn; tauto.
  - intros X. repeat (destruct X as [X|X]; [discriminate X|]). exact X.
  - exact new_york_good.
  - exact T.
  - exact M.
  - exact ex_two_shown.
  - exact C.
  - destruct (R r _ _ _ T M ex_two_shown C) as [R1 _].
    destruct (proj1 (C117_local_times o new_york morning new_york_good) 1522589400000000000) as [X _].
    destruct X as (t & O & Et); [vm_compute; reflexivity|]. cbn [s_nano morning] in *. assert (t = 1522589400) by lia. subst t.
    destruct (R1 _ O) as (n & E & En); [cbn [s_nano morning]; lia|]. exists n. split; [exact E|]. rewrite En. reflexivity.
Qed.

(** An hour without minutes: %Y%m%d %H *)
Definition ex_hour : list part := [Number TheYear; Number TheMonth; Number TheDay; White; Number TheHour].
Lemma ex_hour_spelled : spelled ex_hour (b "%Y%m%d %H").
Proof.
  unfold ex_hour. spell "%Y"%string 1%nat; [number ""%string "Y"%string|]. spell "%m"%string 1%nat; [number ""%string "m"%string|].
  spell "%d"%string 1%nat; [number ""%string "d"%string|]. spell " "%string 1%nat; [white_char|].
  spell "%H"%string 1%nat; [number ""%string "H"%string|]. constructor.
Qed.
Lemma ex_hour_shown h t : In (h, t) [(5, "20180401 05"); (17, "20180401 17")]%string ->
  shown (at_time 2018 4 1 h 0 0 0 0) ex_hour (b t) [].
Proof.
  intros [[= <- <-]|[[= <- <-]|[]]]; unfold ex_hour.
  - show "2018"%string; [exact (sh_year (at_time 2018 4 1 5 0 0 0 0) [] _ (Forall_nil _))|].
    show "04"%string; [apply (sh_two (at_time 2018 4 1 5 0 0 0 0) TheMonth []); [discriminate|constructor]|].
    show "01"%string; [apply (sh_two (at_time 2018 4 1 5 0 0 0 0) TheDay []); [discriminate|constructor]|].
    show " "%string; [a_white|].
    show "05"%string; [apply (sh_two (at_time 2018 4 1 5 0 0 0 0) TheHour []); [discriminate|constructor]|]. constructor.
  - show "2018"%string; [exact (sh_year (at_time 2018 4 1 17 0 0 0 0) [] _ (Forall_nil _))|].
    show "04"%string; [apply (sh_two (at_time 2018 4 1 17 0 0 0 0) TheMonth []); [discriminate|constructor]|].
    show "01"%string; [apply (sh_two (at_time 2018 4 1 17 0 0 0 0) TheDay []); [discriminate|constructor]|].
    show " "%string; [a_white|].
    show "17"%string; [apply (sh_two (at_time 2018 4 1 17 0 0 0 0) TheHour []); [discriminate|constructor]|]. constructor.
Qed.
Example C134_unused_example : forall o,
  let h := {| h_names := map b ["t"; "x"]%string; h_types := [] |} in
  let time s := get_timestamp Debug (civil o) [b s; b "1"] (ColIndex 0) (FDate (b "%Y%m%d %H")) (zone_of o utc) in
  tells_day ex_hour /\ lacks_clock ex_hour /\ has ex_hour TheHour /\ spelled ex_hour (b "%Y%m%d %H") /\
  get_col_and_fmt (civil o) (fun s => s) h [b "20180401 05"; b "1"] (CfgIndex 0) (FmtExplicit (b "%Y%m%d %H")) (zone_of o utc)
    = Ok (ColIndex 0, FDate (b "%Y%m%d %H")) /\
  time "20180401 05"%string = Ok 1522540800000000000%N /\ time "20180401 17"%string = Ok 1522540800000000000%N /\
  time "20180401 05"%string = time "20180401 17"%string.
Proof.
  intros o h time. assert (D : tells_day ex_hour) by (unfold tells_day, has; cbn; tauto).
  assert (L : lacks_clock ex_hour). { right. left. intros X. repeat (destruct X as [X|X]; [discriminate X|]). exact X. }
  split; [exact D|]. split; [exact L|]. split; [unfold has; cbn; tauto|]. split; [exact ex_hour_spelled|].
  split; [vm_compute; reflexivity|]. split; [vm_compute; reflexivity|]. split; [vm_compute; reflexivity|].
  apply (C134_unused_refuted Debug o utc (ColIndex 0) (b "%Y%m%d %H") ex_hour _ _ (b "20180401 05") (b "20180401 17")
           (at_time 2018 4 1 5 0 0 0 0) (at_time 2018 4 1 17 0 0 0 0) {| s_day := 17622; s_sec := 18000; s_nano := 0 |} {| s_day := 17622; s_sec := 61200; s_nano := 0 |}).
  - exact ex_hour_spelled.
  - exact D.
  - exact L.
  - constructor. reflexivity.
  - unfold moment_of. cbn [at_time]. a_time.
  - apply ex_hour_shown. cbn. tauto.
  - constructor. reflexivity.
  - unfold moment_of. cbn [at_time]. a_time.
  - apply ex_hour_shown. cbn. tauto.
  - reflexivity.
Qed.

(** The hour twice: %Y%m%d %H %H *)
Example C134_clash_example : forall o,
  let h := {| h_names := map b ["t"; "x"]%string; h_types := [] |} in
  spelled (ex_hour ++ [White; Number TheHour]) (b "%Y%m%d %H %H") /\
  exists e, get_col_and_fmt (civil o) (fun s => s) h [b "20180401 05 17"; b "1"] (CfgIndex 0) (FmtExplicit (b "%Y%m%d %H %H")) (zone_of o utc) = Err e.
Proof.
  intros o h. assert (Sp : spelled (ex_hour ++ [White; Number TheHour]) (b "%Y%m%d %H %H")).
  { unfold ex_hour. cbn [app]. spell "%Y"%string 1%nat; [number ""%string "Y"%string|]. spell "%m"%string 1%nat; [number ""%string "m"%string|].
    spell "%d"%string 1%nat; [number ""%string "d"%string|]. spell " "%string 1%nat; [white_char|].
    spell "%H"%string 1%nat; [number ""%string "H"%string|]. spell " "%string 1%nat; [white_char|].
    spell "%H"%string 1%nat; [number ""%string "H"%string|]. constructor. }
  split; [exact Sp|].
  apply (C134_clash_partial Debug o (fun s => s) h [b "20180401 05 17"; b "1"] (CfgIndex 0) (FmtExplicit (b "%Y%m%d %H %H")) (zone_of o utc) (ColIndex 0) None
    (b "%Y%m%d %H %H") ex_hour [White; Number TheHour] (at_time 2018 4 1 5 0 0 0 0) (at_time 2018 4 1 17 0 0 0 0) (b "20180401 05") (b " 17")
    {| s_day := 17622; s_sec := 18000; s_nano := 0 |} {| s_day := 17622; s_sec := 61200; s_nano := 0 |} TheHour).
  - reflexivity.
  - left. reflexivity.
  - exact Sp.
  - unfold moment_of. cbn [at_time]. a_time.
  - unfold moment_of. cbn [at_time]. a_time.
  - set (v := at_time 2018 4 1 5 0 0 0 0). unfold ex_hour.
    show "2018"%string; [exact (sh_year v [] _ (Forall_nil _))|].
    show "04"%string; [apply (sh_two v TheMonth []); [discriminate|constructor]|].
    show "01"%string; [apply (sh_two v TheDay []); [discriminate|constructor]|].
    show " "%string; [a_white|].
    show "05"%string; [apply (sh_two v TheHour []); [discriminate|constructor]|]. constructor.
  - show " "%string; [a_white|].
    show "17"%string; [apply (sh_two (at_time 2018 4 1 17 0 0 0 0) TheHour []); [discriminate|constructor]|]. constructor.
  - left. unfold has. cbn. tauto.
  - left. unfold has. cbn. tauto.
  - discriminate.
  - constructor. reflexivity.
Qed.
(** ISO 8601 with UTC by name. *)
Example C133_iso_example : iso_like (b "2018-04-01t09:30:00.5utc") 1522575000500000000 /\ ~ (exists o, offset_text (b "utc") o).
Proof.
  split.
  - apply (an_iso 2018 4 1 (b "t") 9 30 0 500000000 (b ".5") (b "utc") 0 half_past).
    + unfold half_past. a_time.
    + cbn. tauto.
    + right. split; [cbn; tauto|reflexivity].
    + right. exists [5]. split; [reflexivity|]. split; [|reflexivity]. split; [discriminate|]. repeat constructor; lia.
  - intros (o & H). inversion H; discriminate.
Qed.
