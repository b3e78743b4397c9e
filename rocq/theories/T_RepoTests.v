(** The tests of /repo/tests run on the model.  These are examples: what they settle is that the model, with the calendar and
    the zone of ChronoModel and NewYork, gives byte for byte the output the reference files of the repository hold. *)
From Verif Require Import ReaderModel CsvUtilModel MultiModel FilterModel NewYork ChronoModel T_DateText ExamplesModel T_WholeEx.
Local Open Scope nat_scope.

Definition crlf : bytes := [byte_of 13; byte_of 10].
Fixpoint joined (sep : bytes) (ls : list bytes) : bytes :=
  match ls with [] => [] | [x] => x | x :: t => x ++ sep ++ joined sep t end.
Definition ended (ls : list bytes) : bytes := concat (map (fun x => x ++ nl) ls).

(** tests/input *)
Definition time_city : bytes := joined crlf (map b [
  "Date,DateTime,Time,Int,Short,Double,Float,Byte,Char,String";
  "20160101,2016/01/01-00:00:00,0:00,1,1,10,10,1,1,New York";
  "20160101,2016/01/01-01:00:00,1:00,2,2,20,20,2,2,Tokyo";
  "20170101,2017/01/01-02:00:00,2:00,3,3,10,10,3,3,London";
  "20170101,2017/01/01-10:00:00,10:00,4,4,20,20,4,A,New York";
  "20180101,2018/01/01-11:00:00,11:00,5,5,10,10,5,B,Tokyo";
  "20180101,2018/01/01-12:00:00,12:00,6,6,20,20,6,C,London";
  "20190101,2019/01/01-13:00:00,13:00,7,7,10.5,10.5,7,a,New York";
  "20190101,2019/01/01-21:00:00,21:00,8,8,20.5,20.5,8,b,Tokyo";
  "20191201,2019/12/01-22:00:00,22:00,9,9,-10,-10,9,c,London";
  "20191201,2019/12/01-23:00:00,23:00,10,10,-20,-20,10,@,New York"]%string).
Definition multi_1 : bytes := ended (map b [
  "Date,DateTime,Time,Int,Short,Double,Float,Byte,Char,String";
  "20160101,2016/01/01-00:00:00,0:00,1,1,10,10,1,1,New York";
  "20160101,2016/01/01-01:00:00,1:00,2,2,20,20,2,2,Tokyo";
  "20170101,2017/01/01-02:00:00,2:00,3,3,10,10,3,3,London"]%string).
Definition multi_2 : bytes := ended (map b [
  "Date,DateTime,Time,Int,Short,Double,Float,Byte,Char,String";
  "20170101,2017/01/01-10:00:00,10:00,4,4,20,20,4,A,New York";
  "20180101,2018/01/01-11:00:00,11:00,5,5,10,10,5,B,Tokyo";
  "20180101,2018/01/01-12:00:00,12:00,6,6,20,20,6,C,London"]%string).
Definition multi_3 : bytes := ended (map b [
  "Date,DateTime,Time,Int,Short,Double,Float,Byte,Char,String";
  "20190101,2019/01/01-13:00:00,13:00,7,7,10.5,10.5,7,a,New York";
  "20190101,2019/01/01-21:00:00,21:00,8,8,20.5,20.5,8,b,Tokyo";
  "20191201,2019/12/01-22:00:00,22:00,9,9,-10,-10,9,c,London";
  "20191201,2019/12/01-23:00:00,23:00,10,10,-20,-20,10,@,New York"]%string).
Definition multi_inner : bytes := ended (map b [
  "Date,DateTime,Time,Int,Short,Double,Float,Byte,Char,String";
  "20200101,2020/01/01-13:00:00,13:00,7,7,10.5,10.5,7,a,New York"]%string).
(** tests/reference *)
Definition ref_decompress : bytes := ended (map b [
  "timestampNanos,Date,DateTime,Time,Int,Short,Double,Float,Byte,Char,String";
  "1451624400000000000,20160101,2016/01/01-00:00:00,0:00,1,1,10,10,1,1,New York";
  "1451628000000000000,20160101,2016/01/01-01:00:00,1:00,2,2,20,20,2,2,Tokyo";
  "1483254000000000000,20170101,2017/01/01-02:00:00,2:00,3,3,10,10,3,3,London";
  "1483282800000000000,20170101,2017/01/01-10:00:00,10:00,4,4,20,20,4,A,New York";
  "1514822400000000000,20180101,2018/01/01-11:00:00,11:00,5,5,10,10,5,B,Tokyo";
  "1514826000000000000,20180101,2018/01/01-12:00:00,12:00,6,6,20,20,6,C,London";
  "1546365600000000000,20190101,2019/01/01-13:00:00,13:00,7,7,10.5,10.5,7,a,New York";
  "1546394400000000000,20190101,2019/01/01-21:00:00,21:00,8,8,20.5,20.5,8,b,Tokyo";
  "1575255600000000000,20191201,2019/12/01-22:00:00,22:00,9,9,-10,-10,9,c,London";
  "1575259200000000000,20191201,2019/12/01-23:00:00,23:00,10,10,-20,-20,10,@,New York"]%string).
Definition ref_filters : bytes := ended (map b [
  "timestampNanos,Date,DateTime,Time,Int,Short,Double,Float,Byte,String";
  "1546365600000000000,20190101,2019/01/01-13:00:00,13:00,7,7,10.5,10.5,7,New York"]%string).
Definition ref_merge : bytes := ended (map b [
  "timestampNanos,Date,DateTime,Time,Int,Short,Double,Float,Byte,Char,String";
  "1451624400000000000,20160101,2016/01/01-00:00:00,0:00,1,1,10,10,1,1,New York";
  "1451624400000000000,20160101,2016/01/01-00:00:00,0:00,1,1,10,10,1,1,New York";
  "1451628000000000000,20160101,2016/01/01-01:00:00,1:00,2,2,20,20,2,2,Tokyo";
  "1451628000000000000,20160101,2016/01/01-01:00:00,1:00,2,2,20,20,2,2,Tokyo";
  "1483254000000000000,20170101,2017/01/01-02:00:00,2:00,3,3,10,10,3,3,London";
  "1483254000000000000,20170101,2017/01/01-02:00:00,2:00,3,3,10,10,3,3,London";
  "1483282800000000000,20170101,2017/01/01-10:00:00,10:00,4,4,20,20,4,A,New York";
  "1483282800000000000,20170101,2017/01/01-10:00:00,10:00,4,4,20,20,4,A,New York";
  "1514822400000000000,20180101,2018/01/01-11:00:00,11:00,5,5,10,10,5,B,Tokyo";
  "1514822400000000000,20180101,2018/01/01-11:00:00,11:00,5,5,10,10,5,B,Tokyo";
  "1514826000000000000,20180101,2018/01/01-12:00:00,12:00,6,6,20,20,6,C,London";
  "1514826000000000000,20180101,2018/01/01-12:00:00,12:00,6,6,20,20,6,C,London";
  "1546365600000000000,20190101,2019/01/01-13:00:00,13:00,7,7,10.5,10.5,7,a,New York";
  "1546365600000000000,20190101,2019/01/01-13:00:00,13:00,7,7,10.5,10.5,7,a,New York";
  "1546394400000000000,20190101,2019/01/01-21:00:00,21:00,8,8,20.5,20.5,8,b,Tokyo";
  "1546394400000000000,20190101,2019/01/01-21:00:00,21:00,8,8,20.5,20.5,8,b,Tokyo";
  "1575255600000000000,20191201,2019/12/01-22:00:00,22:00,9,9,-10,-10,9,c,London";
  "1575255600000000000,20191201,2019/12/01-22:00:00,22:00,9,9,-10,-10,9,c,London";
  "1575259200000000000,20191201,2019/12/01-23:00:00,23:00,10,10,-20,-20,10,@,New York";
  "1575259200000000000,20191201,2019/12/01-23:00:00,23:00,10,10,-20,-20,10,@,New York"]%string).
Definition ref_multi_file : bytes := ref_decompress.
Definition ref_multi_row_output : bytes := ended (map b [
  "timestampNanos,Date,DateTime,Time,Int,Short,Double,Float,Byte,Char,String";
  "1451624400000000000,20160101,2016/01/01-00:00:00,0:00,1,1,10,10,1,1,New York";
  "1451624400000000000,20160101,2016/01/01-00:00:00,0:00,1,1,10,10,1,1,New York";
  "1451624400000000000,20160101,2016/01/01-00:00:00,0:00,1,1,10,10,1,1,New York";
  "1451628000000000000,20160101,2016/01/01-01:00:00,1:00,2,2,20,20,2,2,Tokyo";
  "1451628000000000000,20160101,2016/01/01-01:00:00,1:00,2,2,20,20,2,2,Tokyo";
  "1451628000000000000,20160101,2016/01/01-01:00:00,1:00,2,2,20,20,2,2,Tokyo";
  "1483254000000000000,20170101,2017/01/01-02:00:00,2:00,3,3,10,10,3,3,London";
  "1483254000000000000,20170101,2017/01/01-02:00:00,2:00,3,3,10,10,3,3,London";
  "1483254000000000000,20170101,2017/01/01-02:00:00,2:00,3,3,10,10,3,3,London";
  "1483282800000000000,20170101,2017/01/01-10:00:00,10:00,4,4,20,20,4,A,New York";
  "1483282800000000000,20170101,2017/01/01-10:00:00,10:00,4,4,20,20,4,A,New York";
  "1483282800000000000,20170101,2017/01/01-10:00:00,10:00,4,4,20,20,4,A,New York";
  "1514822400000000000,20180101,2018/01/01-11:00:00,11:00,5,5,10,10,5,B,Tokyo";
  "1514822400000000000,20180101,2018/01/01-11:00:00,11:00,5,5,10,10,5,B,Tokyo";
  "1514822400000000000,20180101,2018/01/01-11:00:00,11:00,5,5,10,10,5,B,Tokyo";
  "1514826000000000000,20180101,2018/01/01-12:00:00,12:00,6,6,20,20,6,C,London";
  "1514826000000000000,20180101,2018/01/01-12:00:00,12:00,6,6,20,20,6,C,London";
  "1514826000000000000,20180101,2018/01/01-12:00:00,12:00,6,6,20,20,6,C,London";
  "1546365600000000000,20190101,2019/01/01-13:00:00,13:00,7,7,10.5,10.5,7,a,New York";
  "1546365600000000000,20190101,2019/01/01-13:00:00,13:00,7,7,10.5,10.5,7,a,New York";
  "1546365600000000000,20190101,2019/01/01-13:00:00,13:00,7,7,10.5,10.5,7,a,New York";
  "1546394400000000000,20190101,2019/01/01-21:00:00,21:00,8,8,20.5,20.5,8,b,Tokyo";
  "1546394400000000000,20190101,2019/01/01-21:00:00,21:00,8,8,20.5,20.5,8,b,Tokyo";
  "1546394400000000000,20190101,2019/01/01-21:00:00,21:00,8,8,20.5,20.5,8,b,Tokyo";
  "1575255600000000000,20191201,2019/12/01-22:00:00,22:00,9,9,-10,-10,9,c,London";
  "1575255600000000000,20191201,2019/12/01-22:00:00,22:00,9,9,-10,-10,9,c,London";
  "1575255600000000000,20191201,2019/12/01-22:00:00,22:00,9,9,-10,-10,9,c,London";
  "1575259200000000000,20191201,2019/12/01-23:00:00,23:00,10,10,-20,-20,10,@,New York";
  "1575259200000000000,20191201,2019/12/01-23:00:00,23:00,10,10,-20,-20,10,@,New York";
  "1575259200000000000,20191201,2019/12/01-23:00:00,23:00,10,10,-20,-20,10,@,New York"]%string).
Definition ref_split_merge_complex_chain2 : bytes := ref_decompress.
Definition ref_split_merge_complex_chain3 : bytes := ref_decompress.
Definition ref_split_merge_complex_chain4 : bytes := ref_decompress.
Definition ref_split_merge_complex_chain5 : bytes := ref_decompress.
Definition ref_split_merge_complex_chain7 : bytes := ref_merge.
Definition ref_split_merge_simple : bytes := ref_merge.
Definition ref_timestamp_1 : bytes := ref_decompress.
Definition ref_timestamp_2 : bytes := ref_decompress.

Definition rt_files : list (bytes * bytes) :=
  [(b "./tests/input/time_city.csv", time_city); (b "./tests/input/time_city.csv.gz", b "packed");
   (b "./tests/input/multi_file/1.csv", multi_1); (b "./tests/input/multi_file/2.csv", multi_2);
   (b "./tests/input/multi_file/3.csv", multi_3); (b "./tests/input/multi_file/inner/inner.csv", multi_inner)].
Definition rt_open (p : bytes) : res handle :=
  match find (fun f => bytes_eqb (fst f) p) rt_files with
  | Some f => Ok {| f_reads := {| i_data := snd f; i_tail := None; i_plan := [Chunk 100; Chunk 7] |}; f_seekable := true |}
  | None => Err (EIo (OtherIo 2))
  end.
Definition rt_is_dir (p : bytes) : bool :=
  bytes_eqb p (b "./tests/input/multi_file") || bytes_eqb p (b "./tests/input/multi_file/inner").
Definition rt_world : world :=
  {| w_exists := fun p => is_ok (rt_open p) || rt_is_dir p; w_is_dir := rt_is_dir;
     w_read_dir := fun p => Ok (map b ["./tests/input/multi_file/inner"; "./tests/input/multi_file/2.csv";
                                       "./tests/input/multi_file/3.csv"; "./tests/input/multi_file/1.csv"]%string);
     w_open := rt_open; w_http := fun _ => Err (EIo (OtherIo 2)); w_stdin := reads_as [] []; w_env_tz := None |}.
(** The decoder for the one compressed file gives the text that file holds. *)
Definition rt_decoders : decoders :=
  let d (r : breader) := Ok {| i_data := time_city; i_tail := None; i_plan := [] |} in
  {| d_gz := d; d_lz4_frame := d; d_lz4_jblock := d; d_lzf := d; d_zst := d |}.
Definition nothing_else : foreign := {| f_datetime := fun _ _ => None; f_naive := fun _ _ => None; f_date := fun _ _ => None |}.
Notation ch := (civil nothing_else).
Notation nyc := (zone_of nothing_else new_york).
Definition a_number (t : text) : bool := forallb (fun c => CsvUtilModel.is_digit c || (c =? 46)%N || (c =? 45)%N) t.

Notation out_csv := (HSink (csv_header_sink (fun _ => []) (fun _ => []) csv_output_default)).
(** What is written for the calls of the output at [place], with the header of the input unless [h] is given. *)
Definition rt_run (cc : col_config) (f : fmt_config) (paths : list bytes) (rng : ts_range) (graph : hgraph)
  (h : option header) (places : list (nat * nat)) : list bytes * res unit :=
  match csv_input_new ch None CsvModel.Auto cc f nyc with
  | Ok cfg =>
      match open_paths rt_decoders (fun i => i) (fun i => i) rt_world
              (all_factories Debug ch (map ascii_lower) a_number csv_records None cfg) paths with
      | Ok inputs =>
          match driver_new (length inputs) graph (map fst inputs), (match h with Some x => Some x | None => output_header inputs end) with
          | Ok g, Some hd =>
              let (st, r) := drive 9 g (map snd inputs) rng in
              (map (fun p => csv_file (fun _ => []) (fun _ => []) csv_output_default hd (events_at (r_log st) (fst p) (snd p))) places, r)
          | Ok _, None => ([], Panic)
          | e, _ => ([], fail_as e)
          end
      | e => ([], fail_as e)
      end
  | e => ([], fail_as e)
  end.
Notation city := [b "./tests/input/time_city.csv"].
Notation by_name := (CfgName (b "DateTime")).

(* tests/test_timestamp.rs *)
Example test_timestamp_1 :
  rt_run (CfgIndex 1) (FmtExplicit (b "%Y/%m/%d-%H:%M:%S")) city range_all [[out_csv]] None [(0, 0)] = ([ref_timestamp_1], Ok tt).
Proof. vm_compute. reflexivity. Qed.
Example test_timestamp_2 :
  rt_run (CfgDateTimeIndex 0 2) (FmtDateTimeExplicit (b "%Y%m%d") (b "%-H:%M")) city range_all [[out_csv]] None [(0, 0)] =
  ([ref_timestamp_2], Ok tt).
Proof. vm_compute. reflexivity. Qed.
(* tests/test_decompress.rs *)
Example test_decompress :
  rt_run by_name FmtAuto [b "./tests/input/time_city.csv.gz"] range_all [[out_csv]] None [(0, 0)] = ([ref_decompress], Ok tt).
Proof. vm_compute. reflexivity. Qed.
(* tests/test_multi_file.rs *)
Example test_multi_file :
  rt_run CfgAuto FmtAuto [b "./tests/input/multi_file"] range_all [[out_csv]] None [(0, 0)] = ([ref_multi_file], Ok tt).
Proof. vm_compute. reflexivity. Qed.
(* tests/test_filters.rs *)
Definition filtered_header : header :=
  {| h_names := map b ["Date"; "DateTime"; "Time"; "Int"; "Short"; "Double"; "Float"; "Byte"; "String"]%string;
     h_types := repeat TString 9 |}.
Example test_filters :
  match parse_range_element Debug ch (b "2018") nyc with
  | Ok begin =>
      rt_run by_name FmtAuto city {| tr_begin := Some begin; tr_end := None |}
        [[HSink (row_filter_equal (b "String") (VString (b "New York"))); HSink (row_filter_greater (b "Double") (VString (b "10.0")));
          HSink (column_filter_delete (b "Char")); out_csv]] (Some filtered_header) [(0, 3)]
  | _ => ([], Panic)
  end = ([ref_filters], Ok tt).
Proof. vm_compute. reflexivity. Qed.
(* tests/test_merge.rs *)
Example test_merge :
  rt_run by_name FmtAuto (city ++ city) range_all [[HGoto 2]; [HGoto 2]; [HMerge None 2; out_csv]] None [(2, 1)] = ([ref_merge], Ok tt).
Proof. vm_compute. reflexivity. Qed.
(* tests/test_multi_row_output.rs *)
Definition multi_row_filter : header_sink := fun h =>
  Ok (h, {| sk_write := fun _ r => Ok [r; r; r]; sk_flush := default_flush |}).
Example test_multi_row_output :
  rt_run by_name FmtAuto city range_all [[HSink multi_row_filter; out_csv]] None [(0, 1)] = ([ref_multi_row_output], Ok tt).
Proof. vm_compute. reflexivity. Qed.
(* tests/test_split_merge_simple.rs *)
Example test_split_merge_simple :
  rt_run by_name FmtAuto city range_all [[split_node [1; 2]]; [HGoto 3]; [HGoto 3]; [HMerge None 2; out_csv]] None [(3, 1)] =
  ([ref_split_merge_simple], Ok tt).
Proof. vm_compute. reflexivity. Qed.
(* tests/test_split_merge_complex.rs *)
Example test_split_merge_complex :
  rt_run by_name FmtAuto city range_all
    [[split_node [1; 2]]; [split_node [3; 4]]; [split_node [5; 6]; out_csv]; [out_csv]; [HGoto 7; out_csv]; [out_csv]; [HGoto 7];
     [HMerge None 2; out_csv]] None [(2, 1); (3, 0); (4, 1); (5, 0); (7, 1)] =
  ([ref_split_merge_complex_chain2; ref_split_merge_complex_chain3; ref_split_merge_complex_chain4; ref_split_merge_complex_chain5;
    ref_split_merge_complex_chain7], Ok tt).
Proof. vm_compute. reflexivity. Qed.

(** ** The unit tests in src *)
(* src/util/reader.rs:340-530 *)
Definition lines_of (capacity : nat) (text : list bytes) : option (list bytes) :=
  match previewer_with capacity {| i_data := concat text; i_tail := None; i_plan := [] |} with Ok p => get_lines p | _ => None end.
Definition cr : bytes := [byte_of 13].
Notation z3 := (b "zzz").
Notation x3 := (b "xxx").
Example test_preview : map (fun t => lines_of DEFAULT_BUF_SIZE t)
    [[]; [nl]; [cr; nl]; [z3; nl]; [z3; cr; nl]; [b "z"]; [z3; nl; cr; nl]; [z3; cr; nl; x3]; [z3; nl; x3; cr; b "x"; nl];
     [z3; cr; nl; x3; nl; b "yyy"]] =
  map Some [[]; [[]]; [[]]; [z3]; [z3]; [b "z"]; [z3; []]; [z3; x3]; [z3; x3 ++ cr ++ b "x"]; [z3; x3; b "yyy"]].
Proof. vm_compute. reflexivity. Qed.
Example test_preview_3 : map (fun capacity => lines_of capacity [z3; nl; x3; nl; b "yyy"]) (seq 1 20) =
  repeat (Some []) 3 ++ repeat (Some [z3]) 4 ++ repeat (Some [z3; x3]) 4 ++ repeat (Some [z3; x3; b "yyy"]) 9.
Proof. vm_compute. reflexivity. Qed.
Example test_preview_trimmed_buf :
  match previewer_new {| i_data := z3; i_tail := None; i_plan := [] |} with Ok p => get_buf p | _ => [] end = z3.
Proof. vm_compute. reflexivity. Qed.
(* src/util/csv_util.rs:125-169 *)
Example test_guess_has_header :
  map (fun p => guess_has_header a_number (Some (b (fst p))) (Some (b (snd p))) (byte_of 44))
    [("zzz", "123"); ("zzz", "zzz"); ("123", "123"); ("zzz,zzz,zzz,zzz", "zzz,zzz,123,zzz"); ("zzz,zzz,123,zzz", "zzz,zzz, 123 ,zzz");
     ("123", "123.4")]%string = [true; false; false; true; false; true].
Proof. vm_compute. reflexivity. Qed.
Example test_guess_type : map (fun s => guess_type a_number (chars (b s))) ["zzz"; "123"; "123.4"]%string = [TString; TLong; TDouble].
Proof. vm_compute. reflexivity. Qed.
(* src/util/remove_multiple.rs:34-63 *)
Example test_remove_multiple :
  map (fun l => remove_multiple l [1; 2; 3; 4; 5]) [[]; [0; 1; 2; 3; 4]; [0]; [4]; [0; 4]; [1; 2; 3]; [2]] =
  map Ok [[1; 2; 3; 4; 5]; []; [2; 3; 4; 5]; [1; 2; 3; 4]; [2; 3; 4]; [1; 5]; [1; 2; 4; 5]].
Proof. vm_compute. reflexivity. Qed.
(* src/source/multi_file_source.rs:201-341 *)
Definition hd_of (names : list string) (types : list ftype) : header := {| h_names := map b names; h_types := types |}.
Example test_check_headers_match_and_return_swap_map :
  let five := [TBoolean; TByte; TString; TInt; TLong] in
  let ref := hd_of ["f1"; "f2"; "f3"; "f4"; "f5"]%string five in
  check_headers ref ref = Ok [] /\
  is_ok (check_headers ref (hd_of ["f1"; "f2"; "f3"; "f4"; "f6"]%string five)) = false /\
  is_ok (check_headers ref (hd_of ["f1"; "f3"; "f2"; "f4"; "f5"]%string five)) = false /\
  check_headers ref (hd_of ["f1"; "f3"; "f2"; "f4"; "f5"]%string [TBoolean; TString; TByte; TInt; TLong]) = Ok [0; 2; 2; 3; 4] /\
  check_headers ref (hd_of ["f1"; "f3"; "q2"; "q2"; "f2"; "f4"; "f5"; "q4"]%string
    [TBoolean; TString; TDouble; TDouble; TByte; TInt; TLong; TDouble]) = Ok [0; 4; 4; 5; 6].
Proof. vm_compute. repeat split. Qed.
