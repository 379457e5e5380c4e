(** What the folder of an experiment with the old bbob logger contains (C73). *)
From Coq Require Import String List Arith NArith ZArith Ascii Bool.
From Verif Require Import CBase DblModel IdSpec FsSpec BbobModel IndexModel IndexSpec OldIndexModel.
Import ListNotations.
Local Open Scope nat_scope.

(** Numbers as in C66; instances are positive, and functions are printed as an int. *)
Definition ordinary (r : run) : Prop := plausible r /\ (0 < instance r)%N /\ (function r < 2 ^ 31)%N.

(** The observed problems of a function and dimension *)
Definition runs_of (k : N * N) (rs : list run) : list run := filter (fun r => observed r && same_key (key r) k) rs.
(** The first elements of a list of numbers, without repetitions *)
Fixpoint firsts (seen l : list N) : list N :=
  match l with
  | [] => []
  | n :: l' => if existsb (N.eqb n) seen then firsts seen l' else n :: firsts (n :: seen) l'
  end.
(** The dimensions of the observed problems of a function, and of all observed problems *)
Definition dims_of (f : N) (rs : list run) : list N :=
  firsts [] (map dimension (filter (fun r => observed r && (function r =? f)%N) rs)).
Definition all_dims (rs : list run) : list N := firsts [] (map dimension (filter observed rs)).

(** Once left, a dimension, and a function within a dimension, is not returned to. *)
Definition in_order (rs : list run) : Prop :=
  forall a x b y c, filter observed rs = a ++ x :: b ++ y :: c ->
    (dimension x = dimension y -> forall z, In z b -> dimension z = dimension y) /\
    (key x = key y -> forall z, In z b -> key z = key y).

Section Texts.
Variable dec : N -> cstr.
Variables e12 e1 e9 e4 : double -> cstr.
Variable version : cstr.
Variable o : observer.
(** The instance in all names *)
Variable i : N.

Definition old_info_path (f : N) : cstr :=
  result_folder o ++ str "/" ++ str "bbobexp_f" ++ dec f ++ str "_i" ++ dec i ++ str ".info".
Definition old_name (k : N * N) : cstr := base_name dec k ++ str "_i" ++ dec i.

(** The three lines for a function and dimension, whose first problem is r *)
Definition old_first_line (r : run) : cstr :=
  str "suite = '" ++ suite_name r ++ str "', funcId = " ++ dec (function r) ++ str ", DIM = " ++ dec (dimension r) ++
  str ", Precision = 1.000e-08, algId = '" ++ algorithm_name o ++ str "', coco_version = '" ++ version ++
  str "', logger = 'bbob_old', data_format = 'bbob-new2'".
Definition old_lines (k : N * N) (rs : list run) : list cstr :=
  match runs_of k rs with
  | r :: _ => [old_first_line r; str "%"; old_name k ++ str ".dat" ++ concat (map (entry dec e1) (runs_of k rs))]
  | [] => []
  end.
Definition old_info_text (f : N) (rs : list run) : option cstr :=
  match dims_of f rs with
  | [] => None
  | l => Some (unlines (concat (map (fun d => old_lines (f, d) rs) l)))
  end.

(** The part of a data file that belongs to one problem; .rdat files have comments only, and there are no .mdat files. *)
Definition old_part (k : kind) (r : run) : cstr :=
  match outcome r with
  | Some (_, _, f) => header e12 true (optimum r) ++ match k with Rdat => [] | _ => lines_text e9 e4 (data k f) end
  | None => []
  end.
Definition old_data_text (k : kind) (key : N * N) (rs : list run) : option cstr :=
  match runs_of key rs with
  | [] => None
  | l => Some (concat (map (old_part k) l))
  end.

Definition old_recorded (rs : list run) (before after : disk) : Prop :=
  (forall f, (f < 2 ^ 64)%N -> after (old_info_path f) = old_info_text f rs) /\
  (forall key k, (fst key < 2 ^ 64)%N -> (snd key < 2 ^ 64)%N -> k <> Mdat ->
     after (data_path o (old_name key) k) = old_data_text k key rs) /\
  (forall p, (forall r, In r rs -> observed r = true -> p <> old_info_path (function r)) ->
     (forall r k, In r rs -> observed r = true -> k <> Mdat -> p <> data_path o (old_name (key r)) k) ->
     after p = before p).
End Texts.

(** A process in which nothing was observed by the logger yet, or in which the last problem observed has another dimension than
    n and the current list of dimensions starts with n *)
Definition ready (g : globals) (n : N) : Prop :=
  is_open g = false /\ List.length (dimensions g) = 6 /\ (first_instance g < 2 ^ 64)%N /\ current_dim g <> n /\
  ((first_instance g = 0%N /\ dimensions g = repeat 0%N 6) \/ hd 0%N (dimensions g) = n).
