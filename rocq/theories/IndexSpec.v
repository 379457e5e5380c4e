(** What the folder of an experiment with the bbob logger contains (C66). *)
From Coq Require Import String List Arith NArith ZArith Ascii Bool.
From Verif Require Import CBase DblModel IdSpec FsSpec BbobModel IndexModel.
Import ListNotations.

(** A text of decimal digits for every unsigned 64-bit number, without leading zeros. *)
Definition decimals (dec : N -> cstr) : Prop := forall n, (n < 2 ^ 64)%N -> numeral 0 n (dec n).

(** A problem that was evaluated (or for which a solution was recommended) *)
Definition observed (r : run) : bool := match outcome r with Some _ => true | None => false end.
Definition key (r : run) : N * N := (function r, dimension r).
Definition same_key (a b : N * N) : bool := (fst a =? fst b)%N && (snd a =? snd b)%N.

(** Consecutive observed problems of one function and dimension, and the name of their data files *)
Record session := { name : cstr; members : list run }.
Definition of_key (k : N * N) (s : session) : bool :=
  match members s with r :: _ => same_key (key r) k | [] => false end.
Definition of_function (f : N) (s : session) : bool :=
  match members s with r :: _ => (function r =? f)%N | [] => false end.
(** How many sessions have this function and dimension *)
Definition count (k : N * N) (ss : list session) : nat := List.length (filter (of_key k) ss).

(** All problems of a session have one function and dimension. *)
Definition uniform (s : session) : Prop := members s <> [] /\ forall a, In a (members s) -> of_key (key a) s = true.
(** Neighbours differ in function or dimension. *)
Definition apart (ss : list session) : Prop :=
  forall a s t b r, ss = a ++ s :: t :: b -> In r (members s) -> of_key (key r) t = false.

Inductive kind := Dat | Tdat | Rdat | Mdat.
Definition extension (k : kind) : cstr :=
  str match k with Dat => ".dat" | Tdat => ".tdat" | Rdat => ".rdat" | Mdat => ".mdat" end%string.
Definition data (k : kind) (f : files) : list line :=
  match k with Dat => dat f | Tdat => tdat f | Rdat => rdat f | Mdat => mdat f end.

Section Texts.
Variable dec : N -> cstr.
Variables e12 e1 e9 e4 : double -> cstr.
Variable version : cstr.
Variable o : observer.

Definition base_name (k : N * N) : cstr :=
  str "data_f" ++ dec (fst k) ++ str "/bbobexp_f" ++ dec (fst k) ++ str "_DIM" ++ dec (snd k).

(** Each session has the name for its function and dimension, with a number if it is not the first one with them. *)
Definition named (ss : list session) : Prop :=
  forall a s b r, ss = a ++ s :: b -> In r (members s) ->
    name s = candidate (base_name (key r)) (count (key r) a) /\ (count (key r) a <= N.to_nat 9998)%nat.

Definition info_path (f : N) : cstr := result_folder o ++ str "/" ++ prefix o ++ str "_f" ++ dec f ++ str ".info".
Definition data_path (name : cstr) (k : kind) : cstr := result_folder o ++ str "/" ++ name ++ extension k.

(** instance:evaluations|precision *)
Definition entry (r : run) : cstr :=
  match outcome r with
  | Some (evaluations, difference, _) => str ", " ++ dec (instance r) ++ str ":" ++ dec evaluations ++ str "|" ++ e1 difference
  | None => []
  end.
(** The same without the comma *)
Definition field (r : run) : cstr := tl (entry r).
Definition first_line (r : run) : cstr :=
  str "suite = '" ++ suite_name r ++ str "', funcId = " ++ dec (function r) ++ str ", DIM = " ++ dec (dimension r) ++
  str ", Precision = 1.000e-08, algId = '" ++ algorithm_name o ++ str "', coco_version = '" ++ version ++
  str "', logger = '" ++ observer_name o ++ str "', data_format = 'bbob-new2'".
(** The three lines of a session, without a newline at the end *)
Definition session_lines (s : session) : list cstr :=
  match members s with
  | r :: _ => [first_line r; str "%"; name s ++ str ".dat" ++ concat (map entry (members s))]
  | [] => []
  end.
Fixpoint unlines (ls : list cstr) : cstr :=
  match ls with
  | [] => []
  | [l] => l
  | l :: ls' => l ++ NL :: unlines ls'
  end.
Definition info_text (f : N) (ss : list session) : option cstr :=
  match filter (of_function f) ss with
  | [] => None
  | l => Some (unlines (concat (map session_lines l)))
  end.

(** The part of a data file that belongs to one problem *)
Definition part (k : kind) (r : run) : cstr :=
  match outcome r with
  | Some (_, _, f) => header e12 (opt_known r) (optimum r) ++ lines_text e9 e4 (data k f)
  | None => []
  end.
Definition data_text (k : kind) (s : session) : cstr := concat (map (part k) (members s)).

Definition written (ss : list session) (p : cstr) : Prop :=
  exists s, In s ss /\ ((exists r, In r (members s) /\ p = info_path (function r)) \/ exists k, p = data_path (name s) k).

(** The files after an experiment with the sessions ss *)
Definition recorded (ss : list session) (before after : disk) : Prop :=
  (forall f, (f < 2 ^ 64)%N -> after (info_path f) = info_text f ss) /\
  (forall s k, In s ss -> after (data_path (name s) k) = Some (data_text k s)) /\
  (forall p, ~ written ss p -> after p = before p).
End Texts.

Definition sessions_of (dec : N -> cstr) (rs : list run) (ss : list session) : Prop :=
  concat (map members ss) = filter observed rs /\ Forall uniform ss /\ apart ss /\ named dec ss.

(** 64-bit numbers, and names that fit the buffers *)
Definition plausible (r : run) : Prop :=
  (function r < 2 ^ 64)%N /\ (dimension r < 2 ^ 64)%N /\ (0 < dimension r)%N /\ (instance r < 2 ^ 64)%N /\
  match outcome r with Some (n, _, _) => (n < 2 ^ 64)%N | None => True end.
Definition fits (o : observer) : Prop :=
  result_folder o <> [] /\ (List.length (result_folder o) + List.length (prefix o) <= N.to_nat 3900)%nat.
Definition empty_folder (o : observer) (d : disk) : Prop := forall p, d (result_folder o ++ str "/" ++ p) = None.

(** The parts of a text between the occurrences of a character *)
Fixpoint split_on (sep : ascii) (text : cstr) : list cstr :=
  match text with
  | [] => [[]]
  | c :: t => if Ascii.eqb c sep then [] :: split_on sep t
              else match split_on sep t with l :: ls => (c :: l) :: ls | [] => [[c]] end
  end.
Definition lines : cstr -> list cstr := split_on NL.

(** The texts that are not made by the logger are on one line; a printed number has no comma. *)
Definition readable (e1 : double -> cstr) (version : cstr) (o : observer) (rs : list run) : Prop :=
  ~ In NL version /\ ~ In NL (algorithm_name o) /\ ~ In NL (observer_name o) /\
  (forall r, In r rs -> ~ In NL (suite_name r)) /\ forall x, ~ In NL (e1 x) /\ ~ In ","%char (e1 x).

(** The text of every file is kept and possibly followed by more. *)
Definition extends (d d' : disk) : Prop := forall p t, d p = Some t -> exists u, d' p = Some (t ++ u).

(** The words of a line *)
Definition words (text : cstr) : list cstr := filter (fun w => match w with [] => false | _ => true end) (split_on " "%char text).
(** A number is printed as one word, possibly after blanks. *)
Definition one_word (text : cstr) : Prop := ~ In NL text /\ exists w, words text = [w].

Section Columns.
Variable dec : N -> cstr.
Variables e12 e9 e4 : double -> cstr.

Definition integer_text (z : Z) : cstr := (if (z <? 0)%Z then ["-"%char] else []) ++ dec (Z.to_N (Z.abs z)).
(** The columns of a line of a data file *)
Definition columns (l : line) : list cstr :=
  dec (f_evaluations l) :: dec (g_evaluations l) :: words (e9 (gap l)) ++ words (e9 (measured l)) ++
  match fifth l with inl digits => [concat (map integer_text digits)] | inr best => words (e9 best) end ++
  concat (map (fun c => match c with inl z => [integer_text z] | inr v => words (e4 v) end) (coordinates l)).
Definition representable (l : line) : Prop :=
  (f_evaluations l < 2 ^ 64)%N /\ (g_evaluations l < 2 ^ 64)%N /\
  match fifth l with inl digits => digits <> [] /\ forall z, In z digits -> (Z.abs z < 2 ^ 63)%Z | inr _ => True end /\
  forall z, In (inl z) (coordinates l) -> (Z.abs z < 2 ^ 63)%Z.

(** The lines of a data file of a session: for every problem a comment and the problem's lines *)
Definition problem_lines (k : kind) (r : run) : list cstr :=
  match outcome r with
  | Some (_, _, f) => removelast (header e12 (opt_known r) (optimum r)) :: map (fun l => removelast (line_text e9 e4 l)) (data k f)
  | None => []
  end.
End Columns.
