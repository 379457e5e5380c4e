(** What the folder of an experiment with the bi-objective logger contains (C67). *)
From Coq Require Import String List Arith NArith ZArith Ascii Bool.
From Verif Require Import CBase StrModel StrSpec IdSpec DblModel BiobjModel IndexModel FolderModel.
From Verif Require IndexSpec.
Import ListNotations.
Local Open Scope nat_scope.

Definition decimals := IndexSpec.decimals.
Definition same_key := IndexSpec.same_key.
Definition unlines := IndexSpec.unlines.
Definition lines := IndexSpec.lines.
Definition split_on := IndexSpec.split_on.
Definition extends := IndexSpec.extends.

Definition key (p : observed) : N * N := (suite_dep_function p, number_of_variables p).

(** The id without its instance: the part from the first "_i" to the first "_d" is left out. *)
Definition stem_of (id stem : cstr) : Prop :=
  exists a i b, id = a ++ str "_i" ++ i ++ str "_d" ++ b /\ stem = a ++ str "_d" ++ b /\
    first_occurrence id (str "_i") (List.length a) /\ first_occurrence id (str "_d") (List.length (a ++ str "_i" ++ i)).

Inductive kind := Adat | Dat | Tdat | Rdat | Mdat.
Definition extension (k : kind) : cstr :=
  str match k with Adat => ".adat" | Dat => ".dat" | Tdat => ".tdat" | Rdat => ".rdat" | Mdat => ".mdat" end%string.

(** At least two characters *)
Definition padded (t : cstr) : cstr := match t with [c] => [" "%char; c] | _ => t end.

Section Texts.
Variable dec : N -> cstr.
Variables ef ex e1 : double -> cstr.
Variable version : cstr.
Variable o : observer.
Variable stem : observed -> cstr.

(** Which files there are *)
Definition used (k : kind) : bool :=
  match k with
  | Adat => match log_nondom_mode o with NondomAll | NondomFinal => true | _ => false end
  | Dat | Tdat | Rdat => compute_indicators o
  | Mdat => true
  end.
Definition path (k : kind) (p : observed) : cstr :=
  result_folder o ++ str "/" ++
  match k with
  | Adat => str "archive/" ++ problem_id p ++ str (match log_nondom_mode o with NondomAll => "_nondom_all" | _ => "_nondom_final" end)
  | Mdat => problem_type p ++ str "/" ++ stem p
  | _ => problem_type p ++ str "/" ++ stem p ++ str "_hyp"
  end ++ extension k.
Definition info_path (type : cstr) : cstr := result_folder o ++ str "/" ++ type ++ str "_hyp.info".

Definition line_of (l : list cstr) : cstr := concat l ++ [NL].
Definition cell (t : cstr) : cstr := t ++ [TAB].
Definition integer_text (z : Z) : cstr := IndexSpec.integer_text dec z.
Definition solution_line (r : row) : cstr :=
  line_of (map cell (dec (r_evaluation r) :: map ef (r_values r) ++
    map (fun c => match c with inl z => integer_text z | inr v => ex v end) (r_variables r))).
Definition with_target (r : N * double * double) : cstr := let '(n, v, t) := r in line_of [cell (dec n); cell (ef v); ef t].
Definition without_target (r : N * double) : cstr := let '(n, v) := r in line_of [cell (dec n); ef v].

Definition variables_logged (p : observed) : bool :=
  match log_vars_mode o with VarsNever => false | VarsLowDim => (number_of_variables p <=? 5)%N | VarsAlways => true end.
Definition indicator_head (p : observed) (targets : bool) : cstr :=
  line_of [str "%"] ++
  line_of [str "% index = "; dec (suite_dep_index p); str ", name = "; problem_name p] ++
  line_of [str "% instance = "; dec (suite_dep_instance p); str ", reference value = "; ef (best_value p)] ++
  line_of [str "% function evaluation | indicator value"; if targets then str " | target hit" else []].

(** What a problem adds to its file of a kind *)
Definition part (k : kind) (p : observed) : cstr :=
  match k with
  | Adat =>
    line_of [str "% instance = "; dec (suite_dep_instance p); str ", name = "; problem_name p] ++
    line_of (str "% function evaluation | 2 objectives " ::
      if variables_logged p then [str "| "; dec (number_of_variables p); str " variables"] else []) ++
    concat (map solution_line (adat_rows p)) ++
    line_of [str "% evaluations = "; dec (num_func_evaluations p)]
  | Dat => indicator_head p true ++ concat (map with_target (dat_rows p))
  | Tdat => indicator_head p false ++ concat (map without_target (tdat_rows p))
  | Rdat => indicator_head p false ++ concat (map without_target (rdat_rows p))
  | Mdat =>
    line_of [str "% instance = "; dec (suite_dep_instance p); str ", name = "; problem_name p] ++
    line_of ([str "% function evaluation | 2 objectives"] ++
      (if (number_of_constraints p =? 0)%N then [] else [str " | "; dec (number_of_constraints p); str " constraints"]) ++
      (if variables_logged p then [str " | "; dec (number_of_variables p); str " variables"] else [])) ++
    concat (map solution_line (mdat_rows p))
  end.

(** The texts added to a file *)
Definition added (old : option cstr) (texts : list cstr) : option cstr :=
  match texts with
  | [] => old
  | _ => Some (match old with Some t => t | None => [] end ++ concat texts)
  end.

(** The index of a type of problems: two lines and then one line for each session *)
Definition title (p : observed) : cstr :=
  str "suite = '" ++ suite_name p ++ str "', algorithm = '" ++ algorithm_name o ++ str "', indicator = 'hyp', folder = '" ++
  problem_type p ++ str "', coco_version = '" ++ version ++ str "'".
Definition comment : cstr :=
  str "% " ++ algorithm_info o ++ match log_nondom_mode o with NondomRead => str " (reconstructed)" | _ => [] end.
Definition field (p : observed) : cstr :=
  str " " ++ dec (suite_dep_instance p) ++ str ":" ++ dec (num_func_evaluations p) ++ str "|" ++ e1 (overall_value p).
Definition session_line (s : list observed) : cstr :=
  match s with
  | r :: _ => str "function = " ++ padded (dec (suite_dep_function r)) ++ str ", dim = " ++ padded (dec (number_of_variables r)) ++
      str ", " ++ stem r ++ str "_hyp.dat" ++ concat (map (fun p => ","%char :: field p) s)
  | [] => []
  end.
Definition of_type (type : cstr) (s : list observed) : bool :=
  match s with r :: _ => streq (problem_type r) type | [] => false end.
Definition info_lines (type : cstr) (ss : list (list observed)) : list cstr :=
  match filter (of_type type) ss with
  | (r :: s) :: l => title r :: comment :: map session_line ((r :: s) :: l)
  | _ => []
  end.

(** The files after an experiment with the problems ps *)
Definition data_recorded (ps : list observed) (before after : disk) : Prop :=
  forall k p, used k = true -> In p ps ->
    after (path k p) = added (before (path k p)) (map (part k) (filter (fun q => streq (path k q) (path k p)) ps)).
Definition info_recorded (ss : list (list observed)) (after : disk) : Prop :=
  forall type, after (info_path type) =
    match info_lines type ss with [] => None | l => Some (unlines l) end.
Definition untouched (ps : list observed) (before after : disk) : Prop :=
  forall x, (forall k p, used k = true -> In p ps -> x <> path k p) ->
    (compute_indicators o = true -> forall p, In p ps -> x <> info_path (problem_type p)) -> after x = before x.
End Texts.

(** Maximal sequences of consecutive problems with one function and dimension *)
Definition sessions_of (ps : list observed) (ss : list (list observed)) : Prop :=
  concat ss = ps /\
  Forall (fun s => s <> [] /\ forall p q, In p s -> In q s -> key p = key q) ss /\
  forall a s t b p q, ss = a ++ s :: t :: b -> In p s -> In q t -> key p <> key q.

(** Problems of one function and dimension have one type. *)
Definition typed (ps : list observed) : Prop := forall p q, In p ps -> In q ps -> key p = key q -> problem_type p = problem_type q.

(** 64-bit numbers (function and dimension 63-bit), and names that fit the buffers *)
Definition row_fine (r : row) : Prop :=
  (r_evaluation r < 2 ^ 64)%N /\ forall z, In (inl z) (r_variables r) -> (Z.abs z < 2 ^ 63)%Z.
Definition plausible (stem : observed -> cstr) (p : observed) : Prop :=
  stem_of (problem_id p) (stem p) /\ (List.length (problem_id p) <= 200)%nat /\ (List.length (problem_type p) <= 200)%nat /\
  (suite_dep_index p < 2 ^ 64)%N /\ (suite_dep_function p < 2 ^ 63)%N /\ (suite_dep_instance p < 2 ^ 64)%N /\
  (number_of_variables p < 2 ^ 63)%N /\ (number_of_constraints p < 2 ^ 64)%N /\ (num_func_evaluations p < 2 ^ 64)%N /\
  Forall row_fine (adat_rows p) /\ Forall row_fine (mdat_rows p) /\
  Forall (fun r => let '(n, _, _) := r in (n < 2 ^ 64)%N) (dat_rows p) /\
  Forall (fun r => (fst r < 2 ^ 64)%N) (tdat_rows p) /\ Forall (fun r => (fst r < 2 ^ 64)%N) (rdat_rows p).
Definition fits (o : observer) : Prop := result_folder o <> [] /\ (List.length (result_folder o) <= N.to_nat 3500)%nat.
Definition no_index (o : observer) (d : disk) : Prop := forall type, d (info_path o type) = None.

(** The texts that are not made by the logger are on one line; printed numbers have no comma, no tabulator and no line break. *)
Definition readable (e1 : double -> cstr) (version : cstr) (o : observer) (stem : observed -> cstr) (ps : list observed) : Prop :=
  ~ In NL version /\ ~ In NL (algorithm_name o) /\ ~ In NL (algorithm_info o) /\
  (forall p, In p ps -> ~ In NL (suite_name p) /\ ~ In NL (problem_type p) /\ ~ In NL (stem p) /\ ~ In ","%char (stem p)) /\
  forall x, ~ In NL (e1 x) /\ ~ In ","%char (e1 x).
Definition tabular (e : double -> cstr) : Prop := forall x, ~ In NL (e x) /\ ~ In TAB (e x) /\ ~ In "%"%char (e x).

(** The table in a data file: the lines that are not comments, split at the tabulators *)
Definition is_comment (line : cstr) : bool := match line with c :: _ => Ascii.eqb c "%" | [] => false end.
Definition table (text : cstr) : list (list cstr) := map (split_on TAB) (filter (fun l => negb (is_comment l)) (lines text)).
(** The rows of a problem: a solution's line ends with a tabulator, which gives an empty last column. *)
Definition solution_columns (dec : N -> cstr) (ef ex : double -> cstr) (r : row) : list cstr :=
  dec (r_evaluation r) :: map ef (r_values r) ++
  map (fun c => match c with inl z => integer_text dec z | inr v => ex v end) (r_variables r) ++ [[]].
Definition rows (dec : N -> cstr) (ef ex : double -> cstr) (k : kind) (p : observed) : list (list cstr) :=
  match k with
  | Adat => map (solution_columns dec ef ex) (adat_rows p)
  | Mdat => map (solution_columns dec ef ex) (mdat_rows p)
  | Dat => map (fun r => let '(n, v, t) := r in [dec n; ef v; ef t]) (dat_rows p)
  | Tdat => map (fun r => let '(n, v) := r in [dec n; ef v]) (tdat_rows p)
  | Rdat => map (fun r => let '(n, v) := r in [dec n; ef v]) (rdat_rows p)
  end.
