(** Model of the files of the bbob logger across the problems of an experiment: names, headers and the index (.info)
    files; src/logger_bbob.c 159-357 and 558-640, src/observer_bbob.c. *)
From Coq Require Import String List Arith NArith ZArith Ascii Bool.
From Verif Require Import CBase StrModel OptModel FsModel IdModel DblModel BbobModel.
Import ListNotations.
Local Notation length := List.length.

Definition NL : ascii := "010"%char.

(** The contents of the files, by path.  The files are only read and written under the paths the logger builds; links,
    directories and other processes are not part of the model. *)
Definition disk := cstr -> option cstr.
Definition exists_file (d : disk) (path : cstr) : bool := match d path with Some _ => true | None => false end.
(** Opening with "a" creates a missing file; writing appends. *)
Definition append (d : disk) (path text : cstr) : disk :=
  fun p => if streq p path then Some (match d path with Some old => old ++ text | None => text end) else d p.

(** The fields of the observer that are used (src/coco_internal.h, src/observer_bbob.c:19-29); the first group does not
    change. *)
Record observer := { result_folder : cstr; algorithm_name : cstr; observer_name : cstr; prefix : cstr }.
Record last_used := { last_function : N; last_dimension : N; last_dat_file : cstr }.
(** src/observer_bbob.c:82-87 *)
Definition new_observer : last_used := {| last_function := 0; last_dimension := 0; last_dat_file := str "init" |}.

(** A problem observed from its construction to its end: its numbers and what [BbobModel.logger_bbob_free] writes at the end
    together with all earlier lines; None if it was neither evaluated nor recommended for.  The lines of the data files are
    written here at the end; while the problem is observed no other problem of the observer writes (line 681). *)
Record run := {
  suite_name : cstr;
  function : N;
  dimension : N;
  instance : N;
  opt_known : bool;
  optimum : double;
  outcome : option (N * double * files) }.

(** strncat into a buffer of COCO_PATH_MAX + 2 bytes bounded by COCO_PATH_MAX - strlen - 1 *)
Definition cat (dst src : cstr) : res cstr :=
  strncat (COCO_PATH_MAX + 2) dst src (COCO_PATH_MAX - length dst - 1).

(** Lines 159-166 *)
Definition logger_bbob_start_new_line (s : last_used) (current_dimension current_function : N) : bool :=
  if ((current_function =? last_function s) && (current_dimension =? last_dimension s))%N then false else true.

Section Formats.
(** printf of doubles with "%13.12e", "%.1e", "%+10.9e" and "%+5.4e"; the version of the library *)
Variables e12 e1 e9 e4 : double -> cstr.
Variable coco_version : cstr.
(** Whether fopen(path, "a") fails *)
Variable refused : disk -> cstr -> bool.

(** Lines 123-130 *)
Definition header (known : bool) (optimum : double) : cstr :=
  str "% f evaluations | g evaluations | best noise-free fitness - " ++ str (if known then "Fopt" else "Fref") ++
  str " (" ++ e12 optimum ++
  str ") + sum g_i+ | measured fitness | best measured fitness or single-digit g-values | x1 | x2..." ++ [NL].

(** "%d" *)
Definition print_int (z : Z) : cstr :=
  (if (z <? 0)%Z then ["-"%char] else []) ++ print_lu 0 (Z.to_N (Z.abs z)).

(** Lines 171-203: the text of a line *)
Definition line_text (l : line) : cstr :=
  print_lu 0 (f_evaluations l) ++ str " " ++ print_lu 0 (g_evaluations l) ++ str " " ++ e9 (gap l) ++ str " " ++
  e9 (measured l) ++ str " " ++
  match fifth l with inl digits => concat (map print_int digits) | inr best => e9 best end ++
  concat (map (fun c => match c with inl z => str " " ++ print_int z | inr v => str " " ++ e4 v end) (coordinates l)) ++
  [NL].
Definition lines_text (ls : list line) : cstr := concat (map line_text ls).

(** Lines 208-215 *)
Definition logger_bbob_open_file (d : disk) (path : cstr) : res disk :=
  if refused d path then Err else Ok (append d path []).

(** Lines 220-228; the path is built as in coco_create_unique_filename. *)
Definition logger_bbob_open_data_file (o : observer) (d : disk) (file_name file_extension : cstr) : res (cstr * disk) :=
  do path <- checked_path (result_folder o) file_name file_extension;
  do d1 <- logger_bbob_open_file d path;
  Ok (path, d1).

(** Lines 233-284; "Precision" is pow(10, -8) printed with "%.3e". *)
Definition logger_bbob_open_info_file (o : observer) (r : run) (d : disk) (function_string data_file_name : cstr)
    (start_new_line : bool) : res (cstr * disk) :=
  let data_file_path := firstn (COCO_PATH_MAX - 1) data_file_name in
  do n1 <- cat (firstn (COCO_PATH_MAX - 1) (prefix o)) (str "_f");
  do n2 <- cat n1 function_string;
  do file_name <- cat n2 (str ".info");
  do file_path <- coco_join_path (COCO_PATH_MAX + 2) (COCO_PATH_MAX + 2) [] [result_folder o; file_name];
  let add_empty_line := exists_file d file_path in
  do d1 <- logger_bbob_open_file d file_path;
  let d2 :=
    if start_new_line then
      append (append (append (if add_empty_line then append d1 file_path [NL] else d1) file_path
        (str "suite = '" ++ suite_name r ++ str "', funcId = " ++ print_lu 0 (function r) ++ str ", DIM = " ++
         print_lu 0 (dimension r) ++ str ", Precision = 1.000e-08, algId = '" ++ algorithm_name o ++
         str "', coco_version = '" ++ coco_version ++ str "', logger = '" ++ observer_name o ++
         str "', data_format = 'bbob-new2'" ++ [NL])) file_path (str "%" ++ [NL])) file_path (data_file_path ++ str ".dat")
    else d1 in
  Ok (file_path, d2).

(** The files opened for a problem *)
Record opened := { info_file : cstr; dat_file : cstr; tdat_file : cstr; rdat_file : cstr; mdat_file : cstr }.

(** Lines 289-357.  The creation of the folder (lines 317-318) is assumed to succeed; the buffers start filled with zeros, so
    that the strncpy of line 329 leaves a terminated string. *)
Definition logger_bbob_initialize (o : observer) (s : last_used) (r : run) (d : disk) : res (opened * last_used * disk) :=
  do function_string <- FsModel.coco_strdupf (print_lu 0 (function r));
  do dimension_string <- FsModel.coco_strdupf (print_lu 0 (dimension r));
  do p1 <- cat (str "data_f") function_string;
  do _ <- coco_join_path (COCO_PATH_MAX + 2) (COCO_PATH_MAX + 2) [] [result_folder o; p1];
  do p2 <- cat p1 (str "/bbobexp_f");
  do p3 <- cat p2 function_string;
  do p4 <- cat p3 (str "_DIM");
  do relative_path <- cat p4 dimension_string;
  let start_new_line := logger_bbob_start_new_line s (dimension r) (function r) in
  do (relative_path_pointer, s1) <-
    (if start_new_line then
       do name <- coco_create_unique_filename (fun _ p => exists_file d p) (result_folder o) relative_path (str ".dat");
       Ok (name, {| last_function := function r; last_dimension := dimension r;
                    last_dat_file := firstn COCO_PATH_MAX name |})
     else Ok (last_dat_file s, s));
  do (info, d1) <- logger_bbob_open_info_file o r d function_string relative_path_pointer start_new_line;
  let d2 := append d1 info (str ", " ++ print_lu 0 (instance r)) in
  let head := header (opt_known r) (optimum r) in
  do (dat, d3) <- logger_bbob_open_data_file o d2 relative_path_pointer (str ".dat");
  let d4 := append d3 dat head in
  do (tdat, d5) <- logger_bbob_open_data_file o d4 relative_path_pointer (str ".tdat");
  let d6 := append d5 tdat head in
  do (rdat, d7) <- logger_bbob_open_data_file o d6 relative_path_pointer (str ".rdat");
  let d8 := append d7 rdat head in
  do (mdat, d9) <- logger_bbob_open_data_file o d8 relative_path_pointer (str ".mdat");
  Ok ({| info_file := info; dat_file := dat; tdat_file := tdat; rdat_file := rdat; mdat_file := mdat |}, s1,
      append d9 mdat head).

(** A problem from its first evaluation or recommendation to its end (lines 558-609) *)
Definition run_problem (o : observer) (s : last_used) (d : disk) (r : run) : res (last_used * disk) :=
  match outcome r with
  | None => Ok (s, d)
  | Some (evaluations, difference, f) =>
    do (h, s1, d0) <- logger_bbob_initialize o s r d;
    let d1 := append d0 (info_file h) (str ":" ++ print_lu 0 evaluations ++ str "|" ++ e1 difference) in
    let d2 := append d1 (dat_file h) (lines_text (dat f)) in
    let d3 := append d2 (tdat_file h) (lines_text (tdat f)) in
    let d4 := append d3 (rdat_file h) (lines_text (rdat f)) in
    Ok (s1, append d4 (mdat_file h) (lines_text (mdat f)))
  end.

(** The problems of an experiment, one after the other *)
Fixpoint run_all (o : observer) (s : last_used) (d : disk) (rs : list run) : res (last_used * disk) :=
  match rs with
  | [] => Ok (s, d)
  | r :: rs' => do (s1, d1) <- run_problem o s d r; run_all o s1 d1 rs'
  end.

Definition campaign (o : observer) (d : disk) (rs : list run) : res disk :=
  do (_, d1) <- run_all o new_observer d rs; Ok d1.
End Formats.
