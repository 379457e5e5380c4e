(** Model of the files of the bi-objective logger across the problems of an experiment: src/logger_biobj.c 265-295, 451-595,
    802-853, 942-988 and 1019-1162. *)
From Coq Require Import String List Arith NArith ZArith Ascii Bool.
From Verif Require Import CBase StrModel FsModel IdModel DblModel BiobjModel IndexModel.
Import ListNotations.
Local Notation length := List.length.
Local Open Scope nat_scope.

Definition TAB : ascii := "009"%char.

(** src/observer_biobj.c:15 *)
Inductive vars_mode := VarsNever | VarsLowDim | VarsAlways.

(** The fields of the observer and of its data (src/observer_biobj.c:30-43) that do not change *)
Record observer := {
  result_folder : cstr;
  algorithm_name : cstr;
  algorithm_info : cstr;
  log_nondom_mode : mode;
  log_vars_mode : vars_mode;
  compute_indicators : bool }.
(** previous_function and previous_dimension, of type long *)
Record previous := { previous_function : Z; previous_dimension : Z }.
(** src/observer_biobj.c:139-140 *)
Definition new_previous : previous := {| previous_function := -1; previous_dimension := -1 |}.

(** A line with a solution: evaluation number, objective values (and constraint values), variables *)
Record row := { r_evaluation : N; r_values : list double; r_variables : list (Z + double) }.

(** A problem observed from its construction to its end, with the numbers that are printed for it: [BiobjModel] says which lines
    these are.  They are written here at the end; while the problem is observed no other problem of the observer writes (lines
    1040-1042). *)
Record observed := {
  suite_name : cstr;
  problem_id : cstr;
  problem_type : cstr;
  problem_name : cstr;
  suite_dep_index : N;
  suite_dep_function : N;
  suite_dep_instance : N;
  number_of_variables : N;
  number_of_constraints : N;
  best_value : double;
  num_func_evaluations : N;
  overall_value : double;
  adat_rows : list row;
  dat_rows : list (N * double * double);
  tdat_rows : list (N * double);
  rdat_rows : list (N * double);
  mdat_rows : list row }.

(** "%2lu" *)
Definition print_2lu (n : N) : cstr := let s := print_lu 0 n in repeat " "%char (2 - length s) ++ s.

Section Formats.
(** printf of doubles with "%.*e" and precision_f, precision_x, and with "%.1e"; the version of the library *)
Variables ef ex e1 : double -> cstr.
Variable coco_version : cstr.
(** Whether fopen(path, "a") fails *)
Variable refused : disk -> cstr -> bool.

(** Lines 278-289 and 836-846; the variables are only there if log_vars. *)
Definition row_text (r : row) : cstr :=
  print_lu 0 (r_evaluation r) ++ [TAB] ++ concat (map (fun v => ef v ++ [TAB]) (r_values r)) ++
  concat (map (fun c => match c with inl z => print_int z ++ [TAB] | inr v => ex v ++ [TAB] end) (r_variables r)) ++ [NL].
(** Lines 580-583 and 703-707 *)
Definition dat_text (r : N * double * double) : cstr :=
  let '(n, v, t) := r in print_lu 0 n ++ [TAB] ++ ef v ++ [TAB] ++ ef t ++ [NL].
(** Lines 586-589, 714-717, 724-727 and 730-733 *)
Definition tdat_text (r : N * double) : cstr := let (n, v) := r in print_lu 0 n ++ [TAB] ++ ef v ++ [NL].

(** memcpy(path_name, observer->result_folder, ...) into COCO_PATH_MAX + 1 bytes *)
Definition folder_copy (o : observer) : res cstr :=
  if COCO_PATH_MAX <? length (result_folder o) then UB else Ok (result_folder o).
Definition join (path name : cstr) : res cstr := coco_join_path (COCO_PATH_MAX + 1) COCO_PATH_MAX path [name].
(** fopen(path, "a") followed by the check *)
Definition open (d : disk) (path : cstr) : res disk := if refused d path then Err else Ok (append d path []).

Definition id_prefix (p : observed) : res cstr := coco_remove_from_string (problem_id p) (str "_i") (str "_d").

(** Lines 451-488; the directory is assumed to be created. *)
Definition logger_biobj_indicator_initialize_file (o : observer) (p : observed) (d : disk) (file_ending : cstr)
    (output_targets : bool) : res (cstr * disk) :=
  do folder <- folder_copy o;
  do path <- join folder (problem_type p);
  do prefix <- id_prefix p;
  do file_name <- coco_strdupf (prefix ++ str "_hyp." ++ file_ending);
  do file <- join path file_name;
  do d1 <- open d file;
  Ok (file, append d1 file
    (str "%" ++ [NL] ++ str "% index = " ++ print_lu 0 (suite_dep_index p) ++ str ", name = " ++ problem_name p ++ [NL] ++
     str "% instance = " ++ print_lu 0 (suite_dep_instance p) ++ str ", reference value = " ++ ef (best_value p) ++ [NL] ++
     str "% function evaluation | indicator value" ++ (if output_targets then str " | target hit" else []) ++ [NL])).

(** The files of the indicator *)
Record indicator_files := { info_file : cstr; dat_file : cstr; tdat_file : cstr; rdat_file : cstr }.

(** Lines 495-572, the files only *)
Definition logger_biobj_indicator (o : observer) (s : previous) (p : observed) (d : disk) : res (indicator_files * disk) :=
  do folder <- folder_copy o;
  do file_name <- coco_strdupf (problem_type p ++ str "_hyp.info");
  do info <- join folder file_name;
  let info_file_exists := exists_file d info in
  do d1 <- open d info;
  do prefix <- id_prefix p;
  let d2 :=
    if info_file_exists then d1 else
    append d1 info (str "suite = '" ++ suite_name p ++ str "', algorithm = '" ++ algorithm_name o ++
      str "', indicator = 'hyp', folder = '" ++ problem_type p ++ str "', coco_version = '" ++ coco_version ++ str "'" ++ [NL] ++
      str "% " ++ algorithm_info o ++ match log_nondom_mode o with NondomRead => str " (reconstructed)" | _ => [] end) in
  let d3 :=
    if negb (previous_function s =? Z.of_N (suite_dep_function p))%Z || negb (previous_dimension s =? Z.of_N (number_of_variables p))%Z
    then append (append (append d2 info ([NL] ++ str "function = " ++ print_2lu (suite_dep_function p) ++ str ", "))
           info (str "dim = " ++ print_2lu (number_of_variables p) ++ str ", ")) info (prefix ++ str "_hyp.dat")
    else d2 in
  do (dat, d4) <- logger_biobj_indicator_initialize_file o p d3 (str "dat") true;
  do (tdat, d5) <- logger_biobj_indicator_initialize_file o p d4 (str "tdat") false;
  do (rdat, d6) <- logger_biobj_indicator_initialize_file o p d5 (str "rdat") false;
  Ok ({| info_file := info; dat_file := dat; tdat_file := tdat; rdat_file := rdat |}, d6).

(** Lines 577-595 *)
Definition logger_biobj_indicator_finalize (p : observed) (h : indicator_files) (d : disk) : disk :=
  append (append (append (append d (dat_file h) (concat (map dat_text (dat_rows p))))
    (tdat_file h) (concat (map tdat_text (tdat_rows p))))
    (rdat_file h) (concat (map tdat_text (rdat_rows p))))
    (info_file h) (str ", " ++ print_lu 0 (suite_dep_instance p) ++ str ":" ++ print_lu 0 (num_func_evaluations p) ++ str "|" ++
                   e1 (overall_value p)).

(** Lines 1063-1067 *)
Definition log_vars (o : observer) (p : observed) : bool :=
  match log_vars_mode o with
  | VarsNever => false
  | VarsLowDim => negb (5 <? number_of_variables p)%N
  | VarsAlways => true
  end.

(** Lines 1069-1104 *)
Definition open_archive (o : observer) (p : observed) (d : disk) : res (option cstr * disk) :=
  match match log_nondom_mode o with NondomAll => Some (str "_nondom_all.adat") | NondomFinal => Some (str "_nondom_final.adat")
        | _ => None end with
  | None => Ok (None, d)
  | Some ending =>
    do folder <- folder_copy o;
    do path <- join folder (str "archive");
    do file_name <- coco_strdupf (problem_id p ++ ending);
    do file <- join path file_name;
    do d1 <- open d file;
    Ok (Some file, append (append d1 file
      (str "% instance = " ++ print_lu 0 (suite_dep_instance p) ++ str ", name = " ++ problem_name p ++ [NL])) file
      (str "% function evaluation | 2 objectives " ++
       (if log_vars o p then str "| " ++ print_lu 0 (number_of_variables p) ++ str " variables" else []) ++ [NL]))
  end.

(** Lines 1125-1157 *)
Definition open_recommendations (o : observer) (p : observed) (d : disk) : res (cstr * disk) :=
  do folder <- folder_copy o;
  do path <- join folder (problem_type p);
  do prefix <- id_prefix p;
  do file_name <- coco_strdupf (prefix ++ str ".mdat");
  do file <- join path file_name;
  do d1 <- open d file;
  Ok (file, append d1 file
    (str "% instance = " ++ print_lu 0 (suite_dep_instance p) ++ str ", name = " ++ problem_name p ++ [NL] ++
     str "% function evaluation | 2 objectives" ++
     (if (0 <? number_of_constraints p)%N then str " | " ++ print_lu 0 (number_of_constraints p) ++ str " constraints" else []) ++
     (if log_vars o p then str " | " ++ print_lu 0 (number_of_variables p) ++ str " variables" else []) ++ [NL])).

(** A problem from its construction (lines 1019-1162) to its end (lines 942-988) *)
Definition run_problem (o : observer) (s : previous) (d : disk) (p : observed) : res (previous * disk) :=
  do (archive, d1) <- open_archive o p d;
  do (files, s1, d2) <-
    (if compute_indicators o then
       do (h, d2) <- logger_biobj_indicator o s p d1;
       Ok (Some h, {| previous_function := Z.of_N (suite_dep_function p); previous_dimension := Z.of_N (number_of_variables p) |}, d2)
     else Ok (None, s, d1));
  do (mdat, d3) <- open_recommendations o p d2;
  let d4 := append d3 mdat (concat (map row_text (mdat_rows p))) in
  let d5 := match archive with Some a => append d4 a (concat (map row_text (adat_rows p))) | None => d4 end in
  let d6 := match files with Some h => logger_biobj_indicator_finalize p h d5 | None => d5 end in
  let d7 := match archive with
            | Some a => append d6 a (str "% evaluations = " ++ print_lu 0 (num_func_evaluations p) ++ [NL])
            | None => d6
            end in
  Ok (s1, d7).

Fixpoint run_all (o : observer) (s : previous) (d : disk) (ps : list observed) : res (previous * disk) :=
  match ps with
  | [] => Ok (s, d)
  | p :: ps' => do (s1, d1) <- run_problem o s d p; run_all o s1 d1 ps'
  end.

Definition campaign (o : observer) (d : disk) (ps : list observed) : res disk :=
  do (_, d1) <- run_all o new_previous d ps; Ok d1.
End Formats.
