(** Model of the files of the old bbob logger across the problems of a process: names, headers, the index (.info) files and
    the static variables; src/logger_bbob_old.c 37-58, 120-141, 183-405 and 511-623. *)
From Coq Require Import String List Arith NArith ZArith Ascii Bool.
From Verif Require Import CBase StrModel OptModel FsModel IdModel DblModel BbobModel IndexModel.
Import ListNotations.
Local Notation length := List.length.
Local Open Scope nat_scope.

(** Lines 37-58: the static variables bbob_old_current_dim, bbob_old_current_funId, bbob_old_infoFile_firstInstance,
    bbob_old_dimensions_in_current_infoFile and bbob_old_logger_is_open *)
Record globals := {
  current_dim : N;
  current_fun : N;
  first_instance : N;
  dimensions : list N;
  is_open : bool }.
Definition fresh_process : globals :=
  {| current_dim := 0; current_fun := 0; first_instance := 0; dimensions := repeat 0%N 6; is_open := false |}.
Definition set_open (g : globals) (b : bool) : globals :=
  {| current_dim := current_dim g; current_fun := current_fun g; first_instance := first_instance g;
     dimensions := dimensions g; is_open := b |}.

(** Lines 273-278: the number of slots before the first one that is 0 or n *)
Fixpoint scan (dims : list N) (n : N) : nat :=
  match dims with
  | [] => 0
  | d :: dims' => if ((d =? 0) || (d =? n))%N then 0 else S (scan dims' n)
  end.
Definition store (dims : list N) (i : nat) (n : N) : res (list N) :=
  if i <? length dims then Ok (firstn i dims ++ n :: skipn (S i) dims) else UB.

Section Formats.
(** printf of doubles with "%13.12e", "%.1e", "%+10.9e" and "%+5.4e"; the version of the library *)
Variables e12 e1 e9 e4 : double -> cstr.
Variable coco_version : cstr.
(** Whether fopen(path, "a+") fails *)
Variable refused : disk -> cstr -> bool.

(** Lines 134-141 *)
Definition old_header (optimum : double) : cstr :=
  str "% f evaluations | g evaluations | best noise-free fitness - Fopt (" ++ e12 optimum ++
  str ") + sum g_i+ | measured fitness | best measured fitness or single-digit g-values | x1 | x2..." ++ [NL].

(** fopen with the error of lines 186-189 *)
Definition old_open_file (d : disk) (path : cstr) : res disk :=
  if refused d path then Err else Ok (append d path []).

(** Lines 200-215; the path is built as in coco_create_unique_filename. *)
Definition logger_bbob_old_open_dataFile (o : observer) (d : disk) (file_name file_extension : cstr) : res (cstr * disk) :=
  do path <- checked_path (result_folder o) file_name file_extension;
  do d1 <- old_open_file d path;
  Ok (path, d1).

(** Lines 270-307, the part on the dimensions: whether a new line is needed, the path of the index file, the first instance and
    the slots.  Line 289 cuts off "_i", the instance and ".info"; the bounds of lines 294-296 are computed from file_name. *)
Definition old_dimensions (g : globals) (r : run) (first : N) (first_char file_name file_path : cstr)
    : res (bool * cstr * N * cstr * list N) :=
  if (current_dim g =? dimension r)%N
  then Ok (negb (current_fun g =? function r)%N, file_path, first, first_char, dimensions g)
  else
    let i := scan (dimensions g) (dimension r) in
    if (i <? length (dimensions g)) && (nth i (dimensions g) 0%N =? 0)%N
    then do dims <- store (dimensions g) i (dimension r);
         Ok (true, file_path, first, first_char, dims)
    else
      do (new_line, path, first', first_char') <-
        (if i <? length (dimensions g)
         then do c <- FsModel.coco_strdupf (print_lu 0 (instance r));
              let bound := COCO_PATH_MAX - length file_name - 1 in
              do p1 <- FsModel.strncat (COCO_PATH_MAX + 2) (firstn (length file_path - length first_char - 7) file_path) (str "_i") bound;
              do p2 <- FsModel.strncat (COCO_PATH_MAX + 2) p1 c bound;
              do p3 <- FsModel.strncat (COCO_PATH_MAX + 2) p2 (str ".info") bound;
              Ok (false, p3, instance r, c)
         else Ok (true, file_path, first, first_char));
      do dims <- store (repeat 0%N (length (dimensions g))) i (dimension r);
      Ok (new_line, path, first', first_char', dims).

(** Lines 242-338.  "Precision" is pow(10, -8) printed with "%.3e"; the function is printed with "%d" (it is below 2^31). *)
Definition logger_bbob_old_openIndexFile (o : observer) (g : globals) (r : run) (d : disk) (function_string dataFile_path : cstr)
    : res (cstr * cstr * globals * disk) :=
  let used_dataFile_path := firstn (COCO_PATH_MAX - 1) dataFile_path in
  let first := if (first_instance g =? 0)%N then instance r else first_instance g in
  do first_char <- FsModel.coco_strdupf (print_lu 0 first);
  do n1 <- cat (firstn (COCO_PATH_MAX - 1) (str "bbobexp")) (str "_f");
  do n2 <- cat n1 function_string;
  do n3 <- cat n2 (str "_i");
  do n4 <- cat n3 first_char;
  do file_name <- cat n4 (str ".info");
  do file_path <- coco_join_path (COCO_PATH_MAX + 2) (COCO_PATH_MAX + 2) [] [result_folder o; file_name];
  let tmp_file := exists_file d file_path in
  if tmp_file && (current_dim g =? dimension r)%N && (current_fun g =? function r)%N then
    do d1 <- old_open_file d file_path;
    Ok (file_path, first_char,
        {| current_dim := current_dim g; current_fun := current_fun g; first_instance := first; dimensions := dimensions g;
           is_open := is_open g |}, d1)
  else
    do (newLine, path, first', first_char', dims) <- old_dimensions g r first first_char file_name file_path;
    do d1 <- old_open_file d path;
    let d2 := if tmp_file && newLine then append d1 path [NL] else d1 in
    let d3 := append d2 path
      (str "suite = '" ++ suite_name r ++ str "', funcId = " ++ print_lu 0 (function r) ++ str ", DIM = " ++
       print_lu 0 (dimension r) ++ str ", Precision = 1.000e-08, algId = '" ++ algorithm_name o ++
       str "', coco_version = '" ++ coco_version ++ str "', logger = 'bbob_old', data_format = 'bbob-new2'" ++ [NL]) in
    let d4 := append d3 path (str "%" ++ [NL]) in
    do u1 <- cat used_dataFile_path (str "_i");
    do u2 <- cat u1 first_char';
    Ok (path, first_char',
        {| current_dim := dimension r; current_fun := function r; first_instance := first'; dimensions := dims;
           is_open := is_open g |}, append d4 path (u2 ++ str ".dat")).

(** The files opened for a problem *)
Record old_opened := { old_info : cstr; old_dat : cstr; old_tdat : cstr }.

(** Lines 343-403.  The creation of the folder is assumed to succeed. *)
Definition logger_bbob_old_initialize (o : observer) (g : globals) (r : run) (d : disk) : res (old_opened * globals * disk) :=
  do function_string <- FsModel.coco_strdupf (print_lu 0 (function r));
  do dimension_string <- FsModel.coco_strdupf (print_lu 0 (dimension r));
  do p1 <- cat (firstn COCO_PATH_MAX (str "data_f")) function_string;
  do _ <- coco_join_path (COCO_PATH_MAX + 2) (COCO_PATH_MAX + 2) [] [result_folder o; p1];
  do p2 <- cat p1 (str "/bbobexp_f");
  do p3 <- cat p2 function_string;
  do p4 <- cat p3 (str "_DIM");
  do p5 <- cat p4 dimension_string;
  do (info, first_char, g1, d1) <- logger_bbob_old_openIndexFile o g r d function_string p5;
  let d2 := append d1 info (str ", " ++ print_lu 0 (instance r)) in
  do p6 <- cat p5 (str "_i");
  do p7 <- cat p6 first_char;
  let head := old_header (optimum r) in
  do (dat, d3) <- logger_bbob_old_open_dataFile o d2 p7 (str ".dat");
  let d4 := append d3 dat head in
  do (tdat, d5) <- logger_bbob_old_open_dataFile o d4 p7 (str ".tdat");
  let d6 := append d5 tdat head in
  do (rdat, d7) <- logger_bbob_old_open_dataFile o d6 p7 (str ".rdat");
  Ok ({| old_info := info; old_dat := dat; old_tdat := tdat |}, g1, append d7 rdat head).

(** Lines 573-574 and 621 *)
Definition old_construct (g : globals) : res globals := if is_open g then Err else Ok (set_open g true).

(** A problem from its construction to its end (lines 511-561); the lines of the data files are written here at the end, as in
    IndexModel.v, and those of the .rdat and .mdat file of the outcome are not used. *)
Definition old_run_problem (o : observer) (g : globals) (d : disk) (r : run) : res (globals * disk) :=
  do g0 <- old_construct g;
  match outcome r with
  | None => Ok (set_open g0 false, d)
  | Some (evaluations, difference, f) =>
    do (h, g1, d0) <- logger_bbob_old_initialize o g0 r d;
    let d1 := append d0 (old_info h) (str ":" ++ print_lu 0 evaluations ++ str "|" ++ e1 difference) in
    let d2 := append d1 (old_dat h) (lines_text e9 e4 (dat f)) in
    Ok (set_open g1 false, append d2 (old_tdat h) (lines_text e9 e4 (tdat f)))
  end.

(** The problems of an experiment, one after the other *)
Fixpoint old_campaign (o : observer) (g : globals) (d : disk) (rs : list run) : res (globals * disk) :=
  match rs with
  | [] => Ok (g, d)
  | r :: rs' => do (g1, d1) <- old_run_problem o g d r; old_campaign o g1 d1 rs'
  end.
End Formats.
