(* C42: the name of a XIA file gives back its parts, and files are sorted by their parts.
   C43: selecting detectors keeps exactly those asked for.
   C67: grouping puts every file in its own group and loses none. *)
From Coq Require Import String.
From Verif Require Import Base Text XiaModel XiaSpec XiaProofs XiaNameProofs XiaGroupProofs XiaFacts XiaSelectProofs.
From Verif Require Import XiaModel.
Close Scope string_scope.
Local Open Scope nat_scope.
Local Notation s := list_ascii_of_string.

(* ---- C42 ---- *)
(* spectra: the label is mca, or xia and two characters *)
Theorem C42_spectrum : forall f counters radix m l label,
  (0 <= m)%Z -> (0 <= l)%Z -> radix <> [] -> plain radix -> spectrum_label label ->
  is_path f (xiafilename radix m l label) ->
  parse_with counters f = Ok (named radix m l label).
Proof. exact spectrum_round. Qed.
Print Assumptions C42_spectrum.
Example spectrum_case :
  parse (s "/data/a_xia01_0000_0000_b_1_xia07_0012_0000_0345.edf") =
  Ok (mkName (s "a_xia01_0000_0000_b_1") 12 345 (s "xia07") (s "xia") (s "07")).
Proof. reflexivity. Qed.
Example spectrum_case_hyp : plain (s "a_xia01_0000_0000_b_1") /\ spectrum_label (s "xia07") /\
  is_path (s "/data/a_xia01_0000_0000_b_1_xia07_0012_0000_0345.edf") (xiafilename (s "a_xia01_0000_0000_b_1") 12 345 (s "xia07")).
Proof.
  split; [split; cbn; intuition discriminate|]. split.
  - right. exists (ch 48), (ch 55). split; [reflexivity|]. split; cbn; intuition discriminate.
  - right. exists (s "/data"). reflexivity.
Qed.
(* counters: the label begins with the name of a counter, which is found nowhere else *)
Theorem C42_counter : forall f counters before ctr after radix m label,
  default_names ++ counters = before ++ ctr :: after ->
  (0 <= m)%Z -> radix <> [] -> plain radix -> plain label ->
  counter_of ctr label -> unambiguous before ctr radix label ->
  digit (hd underscore ctr) = false -> ctr <> [] -> ~ numbered label ->
  is_path f (xiafilename radix m (-1) label) ->
  parse_with counters f = Ok (named radix m (-1) label).
Proof. exact counter_round. Qed.
Print Assumptions C42_counter.
Example counter_case :
  parse (s "b/scan_2_xmap_x1_03_0012_0000.edf") =
  Ok (mkName (s "scan_2") 12 (-1) (s "xmap_x1_03") (s "xmap_x1") (s "03")) /\
  parse_with [s "norm"] (s "scan_norm_i0_10000_0000.edf") =
  Ok (mkName (s "scan") 10000 (-1) (s "norm_i0") (s "norm_i0") []).
Proof. split; reflexivity. Qed.
Example counter_case_hyp : default_names ++ [] = [s "PUZ_arr"; s "PUZ_xmap"] ++ s "xmap" :: [s "arr"; s "zap"; s "mosca"] /\
  counter_of (s "xmap") (s "xmap_x1_03") /\
  unambiguous [s "PUZ_arr"; s "PUZ_xmap"] (s "xmap") (s "scan_2") (s "xmap_x1_03") /\ ~ numbered (s "xmap_x1_03").
Proof. exact counter_hyp. Qed.
(* the detector of a label *)
Theorem C42_label_xia : forall d, parse_label (s "xia" ++ d) = (s "xia", d).
Proof. exact label_xia. Qed.
Print Assumptions C42_label_xia.
Theorem C42_label_detector : forall base x d, In base [s "xmap"; s "PUZ_xmap"] -> is_detector d = true ->
  (forall a, base ++ x <> a ++ s "_") -> parse_label (base ++ x ++ s "_" ++ d) = (base ++ x, d).
Proof. exact label_detector. Qed.
Print Assumptions C42_label_detector.
(* a second underscore before the detector is dropped as well *)
Theorem C42_label_double : forall base x d, In base [s "xmap"; s "PUZ_xmap"] -> is_detector d = true ->
  parse_label (base ++ x ++ s "__" ++ d) = (base ++ x, d).
Proof. exact label_double. Qed.
Print Assumptions C42_label_double.
Theorem C42_label_plain : forall ctr x, In ctr [s "arr"; s "zap"; s "mosca"; s "PUZ_arr"] ->
  parse_label (ctr ++ x) = (ctr ++ x, []).
Proof. exact label_plain. Qed.
Print Assumptions C42_label_plain.
Example label_case :
  parse_label (s "PUZ_xmap_x1_S0") = (s "PUZ_xmap_x1", s "S0") /\ is_detector (s "S0") = true /\
  parse_label (s "zap_p0") = (s "zap_p0", []).
Proof. repeat split. Qed.
(* the name of another counter in the radix is taken for the label *)
Theorem C42_radix_refuted :
  parse (xiafilename (s "foo_arr1") 1 (-1) (s "zap_p0")) = Ok (named (s "foo") 1 (-1) (s "arr1_zap_p0")).
Proof. exact eq_refl. Qed.
Print Assumptions C42_radix_refuted.
(* a radix cannot be empty *)
Theorem C42_empty_refuted : parse (xiafilename [] 1 2 (s "xia00")) = Err RuntimeError.
Proof. exact eq_refl. Qed.
Print Assumptions C42_empty_refuted.

(* sorting: the same files, in the order of radix, map, line and label; files with equal parts
   keep their order *)
Theorem C42_sort : forall files, (forall f, In f files -> parses f) ->
  exists l, sorted_files files = Ok l /\ Permutation files l /\ StronglySorted in_order l /\
            forall k, filter (has_key k) l = filter (has_key k) files.
Proof. exact sort_fact. Qed.
Print Assumptions C42_sort.
Theorem C42_sort_error : forall files f e, In f files -> parse f = Err e -> sorted_entries files = Err RuntimeError.
Proof. exact sort_err. Qed.
Print Assumptions C42_sort_error.
Example sort_case :
  sorted_files [s "b_xia00_0001_0000_0000.edf"; s "a_xia01_0010_0000_0000.edf"; s "a_xia00_0010_0000_0000.edf";
                s "a_xia00_0009_0000_0010.edf"; s "x/a_xia00_0010_0000_0000.edf"; s "a_arr_1_0009_0000.edf"] =
  Ok [s "a_arr_1_0009_0000.edf"; s "a_xia00_0009_0000_0010.edf"; s "a_xia00_0010_0000_0000.edf";
      s "x/a_xia00_0010_0000_0000.edf"; s "a_xia01_0010_0000_0000.edf"; s "b_xia00_0001_0000_0000.edf"].
Proof. vm_compute. reflexivity. Qed.
(* the order is a strict total order *)
Theorem C42_order : (forall a, ~ before_key a a) /\ (forall a b c, before_key a b -> before_key b c -> before_key a c) /\
  (forall a b, before_key a b \/ a = b \/ before_key b a).
Proof. exact (conj before_irrefl (conj before_trans before_total)). Qed.
Print Assumptions C42_order.

(* ---- C43 ---- *)
(* spectra: the files whose label is denoted by no excluded identifier and, if any is included,
   by an included one *)
Theorem C43_files : forall files exclude include, (exclude <> [] \/ include <> []) -> (forall f, In f files -> parses f) ->
  exists r, select_files files exclude include = Ok r /\ selection (chosen labelled exclude include) files r.
Proof. exact files_fact. Qed.
Print Assumptions C43_files.
Theorem C43_files_all : forall files, select_files files [] [] = Ok files.
Proof. exact files_all. Qed.
Print Assumptions C43_files_all.
Theorem C43_files_error : forall files exclude include f e, (exclude <> [] \/ include <> []) -> In f files -> parse f = Err e ->
  select_files files exclude include = Err RuntimeError.
Proof. exact files_err. Qed.
Print Assumptions C43_files_error.
Theorem C43_selection_unique : forall keep files r r', selection keep files r -> selection keep files r' -> r = r'.
Proof. exact selection_unique. Qed.
Print Assumptions C43_selection_unique.
Theorem C43_denotes_unique : forall i a b, denotes i a -> denotes i b -> a = b.
Proof. exact denotes_unique. Qed.
Print Assumptions C43_denotes_unique.
(* a number, its digits, and the label itself select the same files *)
Theorem C43_notation : forall n i, (0 <= n)%Z -> (writes i n \/ i = IStr (s "xia" ++ format_int 2 n)) ->
  forall o, labelled i o <-> x_label o = s "xia" ++ format_int 2 n.
Proof. exact same_notation. Qed.
Print Assumptions C43_notation.
Example files_case :
  select_files [s "a_xia05_0000_0000_0001.edf"; s "a_xia00_0000_0000_0001.edf"; s "a_xia05_0000_0000_0000.edf";
                s "a_xiaS0_0000_0000_0000.edf"; s "a_xia12_0000_0000_0000.edf"]
    [IStr (s "S0")] [INum 5; IStr (s "12"); IStr (s "xiaS0")] =
  Ok [s "a_xia05_0000_0000_0001.edf"; s "a_xia05_0000_0000_0000.edf"; s "a_xia12_0000_0000_0000.edf"].
Proof. vm_compute. reflexivity. Qed.
(* the label must be written in full after xia *)
Theorem C43_short_label_refuted :
  select_files [s "a_xia05_0000_0000_0001.edf"] [] [IStr (s "xia5")] = Ok [] /\
  select_files [s "a_xia05_0000_0000_0001.edf"] [] [IStr (s "5")] = Ok [s "a_xia05_0000_0000_0001.edf"].
Proof. exact (conj eq_refl eq_refl). Qed.
Print Assumptions C43_short_label_refuted.

(* counters: those without a detector, and those of the selected detectors below 100 *)
Theorem C43_counters : forall files exclude include, (exclude <> [] \/ include <> []) ->
  (forall i, In i (exclude ++ include) -> exists n, (0 <= n < 100)%Z /\ writes_xia i n) ->
  (forall f, In f files -> exists o, parse f = Ok o /\ (x_det o = [] \/ two_digits (x_det o))) ->
  exists r, select_counters files exclude include = Ok r /\
    selection (fun o => x_det o = [] \/ chosen numbered_as exclude include o) files r.
Proof. exact counters_fact. Qed.
Print Assumptions C43_counters.
Theorem C43_counters_all : forall files, select_counters files [] [] = Ok files.
Proof. exact counters_all. Qed.
Print Assumptions C43_counters_all.
Theorem C43_counters_error : forall files exclude include f e, (exclude <> [] \/ include <> []) -> In f files -> parse f = Err e ->
  select_counters files exclude include = Err RuntimeError.
Proof. exact counters_err. Qed.
Print Assumptions C43_counters_error.
Example counters_case :
  select_counters [s "a_xmap_x1_05_0000_0000.edf"; s "a_xmap_x1_00_0000_0000.edf"; s "a_arr_1_0000_0000.edf";
                   s "a_xmap_x1_12_0000_0000.edf"] [INum 0] [INum 5; IStr (s "xia12"); IStr (s "0")] =
  Ok [s "a_xmap_x1_05_0000_0000.edf"; s "a_arr_1_0000_0000.edf"; s "a_xmap_x1_12_0000_0000.edf"].
Proof. vm_compute. reflexivity. Qed.
(* the end of the detector is compared: 0 also selects 100; S0 selects sum and not S0 *)
Theorem C43_counters_end_refuted :
  select_counters [s "a_xmap_x1_100_0000_0000.edf"] [] [INum 0] = Ok [s "a_xmap_x1_100_0000_0000.edf"] /\
  select_counters [s "a_xmap_x1_S0_0000_0000.edf"; s "a_xmap_x1_sum_0000_0000.edf"] [IStr (s "S0")] [] =
  Ok [s "a_xmap_x1_S0_0000_0000.edf"].
Proof. exact (conj eq_refl eq_refl). Qed.
Print Assumptions C43_counters_end_refuted.
(* the number of an identifier *)
Theorem C43_number : forall i, (forall n, writes_xia i n -> to_number i = Some n) /\
  ((forall n, ~ writes_xia i n) -> to_number i = None).
Proof. exact number_fact. Qed.
Print Assumptions C43_number.
Example number_case : to_number (IStr (s "xia07")) = Some 7%Z /\ to_number (IStr (s "S0")) = None.
Proof. split; reflexivity. Qed.

(* ---- C67 ---- *)
(* radix, map, line: no file is lost, each is under its own radix, map and line, in order *)
Theorem C67_group : forall files, (forall f, In f files -> parses f) ->
  exists D, xiagroup files = Ok D /\ Permutation files (flat3 D) /\ StronglySorted in_order (flat3 D) /\ radices_of D.
Proof. exact group_fact. Qed.
Print Assumptions C67_group.
Example group_case :
  xiagroup [s "b_xia00_0001_0000_0000.edf"; s "a_xia01_0010_0000_0000.edf"; s "a_xia00_0010_0000_0000.edf";
            s "a_xia00_0010_0000_0001.edf"; s "a_arr_1_0009_0000.edf"] =
  Ok [(s "a", [(9%Z, [((-1)%Z, [s "a_arr_1_0009_0000.edf"])]);
               (10%Z, [(0%Z, [s "a_xia00_0010_0000_0000.edf"; s "a_xia01_0010_0000_0000.edf"]);
                       (1%Z, [s "a_xia00_0010_0000_0001.edf"])])]);
      (s "b", [(1%Z, [(0%Z, [s "b_xia00_0001_0000_0000.edf"])])])].
Proof. vm_compute. reflexivity. Qed.
Theorem C67_groupmaps : forall files r, (forall f, In f files -> parses f) -> files <> [] ->
  (forall f o, In f files -> parse f = Ok o -> x_radix o = r) ->
  exists M, xiagroupmaps files = Ok M /\ Permutation files (flat2 M) /\ StronglySorted in_order (flat2 M) /\
            maps_of (fun o => x_radix o = r) M.
Proof. exact groupmaps_fact. Qed.
Print Assumptions C67_groupmaps.
Theorem C67_grouplines : forall files r m, (forall f, In f files -> parses f) -> files <> [] ->
  (forall f o, In f files -> parse f = Ok o -> x_radix o = r) ->
  (forall f o, In f files -> parse f = Ok o -> x_map o = m) ->
  exists L, xiagrouplines files = Ok L /\ Permutation files (flat1 L) /\ StronglySorted in_order (flat1 L) /\
            lines_of (fun o => x_radix o = r /\ x_map o = m) L.
Proof. exact grouplines_fact. Qed.
Print Assumptions C67_grouplines.
Example grouplines_case :
  xiagrouplines [s "a_xia01_0010_0000_0002.edf"; s "a_xia00_0010_0000_0002.edf"; s "a_arr_1_0010_0000.edf"] =
  Ok [((-1)%Z, [s "a_arr_1_0010_0000.edf"]); (2%Z, [s "a_xia00_0010_0000_0002.edf"; s "a_xia01_0010_0000_0002.edf"])].
Proof. vm_compute. reflexivity. Qed.
(* the name radix_map stands for one radix and one map *)
Theorem C67_groupmaps2 : forall files, (forall f, In f files -> parses f) ->
  exists D, xiagroupmaps2 files = Ok D /\ Permutation files (flat2 D) /\ StronglySorted in_order (flat2 D) /\
    NoDup (map fst D) /\
    forall k L, In (k, L) D -> exists r m, k = r ++ s "_" ++ str_int m /\ lines_of (fun o => x_radix o = r /\ x_map o = m) L.
Proof. exact groupmaps2_fact. Qed.
Print Assumptions C67_groupmaps2.
Example groupmaps2_case :
  xiagroupmaps2 [s "a_1_xia00_0001_0000_0000.edf"; s "a_xia00_0011_0000_0000.edf"] =
  Ok [(s "a_11", [(0%Z, [s "a_xia00_0011_0000_0000.edf"])]); (s "a_1_1", [(0%Z, [s "a_1_xia00_0001_0000_0000.edf"])])].
Proof. vm_compute. reflexivity. Qed.
(* a name that does not parse *)
Theorem C67_error : forall files f e, In f files -> parse f = Err e ->
  xiagroup files = Err RuntimeError /\ xiagroupmaps files = Err RuntimeError /\ xiagrouplines files = Err RuntimeError /\
  xiagroupmaps2 files = Err RuntimeError /\ xiagroupdetectors files = Err RuntimeError.
Proof. exact group_err. Qed.
Print Assumptions C67_error.
Example error_case : parse (s "a_xia00_001_0000_0000.edf") = Err RuntimeError.
Proof. reflexivity. Qed.

(* detectors: every file found is under its own detector and label *)
Theorem C67_detectors_sound : forall files, (forall f, In f files -> parses f) ->
  exists D, xiagroupdetectors files = Ok D /\ detectors_of D.
Proof. exact groupdetectors_sound. Qed.
Print Assumptions C67_detectors_sound.
(* no file is lost when no two have the same detector and label, or all have the same *)
Theorem C67_detectors : forall files D, (forall f, In f files -> parses f) ->
  NoDup (map (fun f => match parse f with Ok o => (x_det o, x_base o) | Err _ => ([], []) end) files) ->
  xiagroupdetectors files = Ok D -> Permutation files (flat2 D).
Proof. exact groupdetectors_fact. Qed.
Print Assumptions C67_detectors.
Theorem C67_detectors_one : forall files k b,
  (forall f, In f files -> exists o, parse f = Ok o /\ x_det o = k /\ x_base o = b) -> files <> [] ->
  exists F, xiagroupdetectors files = Ok [(k, [(b, F)])] /\ Permutation files F /\ StronglySorted in_order F.
Proof. exact groupdetectors_one. Qed.
Print Assumptions C67_detectors_one.
Example detectors_case :
  xiagroupdetectors [s "a_xmap_x2_00_0001_0000.edf"; s "a_xmap_x1_01_0001_0000.edf"; s "a_xmap_x1_00_0001_0000.edf"] =
  Ok [(s "00", [(s "xmap_x1", [s "a_xmap_x1_00_0001_0000.edf"]); (s "xmap_x2", [s "a_xmap_x2_00_0001_0000.edf"])]);
      (s "01", [(s "xmap_x1", [s "a_xmap_x1_01_0001_0000.edf"])])].
Proof. vm_compute. reflexivity. Qed.
(* with two lines and two detectors, only the files of the last line are left *)
Theorem C67_detectors_refuted :
  xiagroupdetectors [s "a_xia00_0001_0000_0000.edf"; s "a_xia01_0001_0000_0000.edf";
                     s "a_xia00_0001_0000_0001.edf"; s "a_xia01_0001_0000_0001.edf"] =
  Ok [(s "00", [(s "xia", [s "a_xia00_0001_0000_0001.edf"])]); (s "01", [(s "xia", [s "a_xia01_0001_0000_0001.edf"])])].
Proof. exact eq_refl. Qed.
Print Assumptions C67_detectors_refuted.
