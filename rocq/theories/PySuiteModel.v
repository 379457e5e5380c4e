(** Model of the Python classes Suite and Problem, build/python/src/cocoex/interface.pyx: which problems a suite gives
    access to, and when the C problem behind a Python problem is freed. *)
From Coq Require Import List Arith NArith ZArith Ascii String Bool.
From Verif Require Import CBase StrModel OptModel SuiteModel IdModel.
Import ListNotations.
Local Open Scope nat_scope.

(** The result of a Python call: a value, an exception, or the end of the process (coco_error or undefined behaviour in
    the C code). *)
Inductive exn := ValueError | NoSuchProblem | NoSuchSuite | OverflowError | IndexError | InvalidProblem | AssertionError.
Inductive out (A : Type) := Ret (a : A) | Raise (e : exn) | Dead.
Arguments Ret {A} a.
Arguments Raise {A} e.
Arguments Dead {A}.

(** Lines 12-19 known_suite_names, with the kind of ids of each suite (suite_problem_id of IdModel.v). *)
Definition known_suite_names : list (cstr * suite_id) :=
  [(str "bbob", Bbob); (str "bbob-biobj", BbobBiobj); (str "bbob-biobj-ext", BbobBiobj); (str "bbob-boxed", BbobBoxed);
   (str "bbob-constrained", BbobConstrained); (str "bbob-largescale", BbobLargescale); (str "bbob-mixint", BbobMixint);
   (str "bbob-biobj-mixint", BbobBiobjMixint); (str "bbob-noisy", BbobNoisy)].
Fixpoint lookup (name : cstr) (l : list (cstr * suite_id)) : option suite_id :=
  match l with
  | [] => None
  | (n, k) :: l' => if streq name n then Some k else lookup name l'
  end.

(** A Python problem, lines 529-585: the C problem it was made of, and whether the attribute problem still points to it
    (otherwise it is NULL).  Attaching an observer replaces the pointer by one to a problem that owns the former one;
    observers are not modelled.  _do_free is True for all problems of a suite. *)
Record pobj := mk_pobj { o_problem : problem; o_open : bool }.

(** A Python suite, lines 100-114, with all problem objects that were created from it, in order; an object is known by
    its position.  [freed] lists the objects whose C problem was passed to coco_problem_free, in order.  The attributes
    _names and _number_of_objectives are not modelled. *)
Record pysuite := mk_pysuite {
  c_suite : option suite;            (* None: NULL *)
  kind : suite_id;
  indices : list N;
  ids : list cstr;
  problem_dimensions : list N;
  current_index : option nat;
  current : option nat;              (* current_problem_ *)
  initialized : bool;
  objects : list pobj;
  freed : list nat
}.

Definition set_cursor (ps : pysuite) (i : option nat) (c : option nat) : pysuite :=
  mk_pysuite (c_suite ps) (kind ps) (indices ps) (ids ps) (problem_dimensions ps) i c (initialized ps) (objects ps) (freed ps).
Definition set_objects (ps : pysuite) (l : list pobj) (fr : list nat) : pysuite :=
  mk_pysuite (c_suite ps) (kind ps) (indices ps) (ids ps) (problem_dimensions ps) (current_index ps) (current ps)
    (initialized ps) l fr.

(** The loop of lines 156-167; [fuel] bounds the number of rounds. *)
Fixpoint sweep (fuel : nat) (s : suite) : res (list problem) :=
  match fuel with
  | O => UB
  | S m => do (p, s1) <- coco_suite_get_next_problem s;
           match p with
           | None => Ok []
           | Some q => do r <- sweep m s1; Ok (q :: r)
           end
  end.
Definition problem_id (k : suite_id) (p : problem) : res cstr :=
  suite_problem_id k (dep_function p) (dep_instance p) (dep_dimension p).
Fixpoint problem_ids (k : suite_id) (l : list problem) : res (list cstr) :=
  match l with
  | [] => Ok []
  | p :: l' => do i <- problem_id k p; do r <- problem_ids k l'; Ok (i :: r)
  end.

(** Lines 116-170: __cinit__ and _initialize.  The second call of coco_suite (line 168) has the result of the first.  The
    seeds of the noisy suite that line 138 resets are part of NoiseModel.v. *)
Definition new_suite (name inst options : cstr) : out pysuite :=
  match lookup name known_suite_names with
  | None => Raise ValueError
  | Some k =>
    match coco_suite_initialize name with
    | Ok d =>
      match coco_suite d inst options with
      | Ok None => Raise NoSuchSuite
      | Ok (Some s) =>
        match sweep (S (List.length (functions s) * List.length (dimensions s) * List.length (instances s))) s with
        | Ok l => match problem_ids k l with
                  | Ok is => Ret (mk_pysuite (Some s) k (map dep_index l) is (map dep_dimension l) None None true [] [])
                  | _ => Dead
                  end
        | _ => Dead
        end
      | _ => Dead
      end
    | _ => Dead
    end
  end.

(** Problem.free, lines 808-819, and Problem.__dealloc__, lines 821-826. *)
Fixpoint close (l : list pobj) (h : nat) : list pobj :=
  match l, h with
  | [], _ => []
  | o :: l', O => mk_pobj (o_problem o) false :: l'
  | o :: l', S h' => o :: close l' h'
  end.
Definition free_problem (ps : pysuite) (h : nat) : pysuite :=
  match nth_error (objects ps) h with
  | Some o => if o_open o then set_objects ps (close (objects ps) h) (freed ps ++ [h]) else ps
  | None => ps
  end.

Definition free_current (ps : pysuite) : pysuite :=
  match current ps with Some h => free_problem ps h | None => ps end.

(** Lines 171-178. *)
Definition reset (ps : pysuite) : pysuite := set_cursor (free_current ps) None None.

(** Problem_init, lines 518-526 and 551-556, for the result of a C function that returns a problem; a NULL pointer is a
    ValueError.  The new object and its number. *)
Definition problem_init (ps : pysuite) (r : res (option problem)) : out nat * pysuite :=
  match r with
  | Ok (Some p) => (Ret (List.length (objects ps)), set_objects ps (objects ps ++ [mk_pobj p true]) (freed ps))
  | Ok None => (Raise ValueError, ps)
  | _ => (Dead, ps)
  end.

(** The C suite as argument; the C functions do not accept NULL. *)
Definition with_suite {A} (ps : pysuite) (f : suite -> res A) : res A :=
  match c_suite ps with Some s => f s | None => UB end.

(** Lines 179-205.  [Ret None] is None. *)
Definition next_problem (ps : pysuite) : out (option nat) * pysuite :=
  if negb (initialized ps) then (Raise ValueError, ps) else
  let ps1 := free_current ps in
  let i := match current_index ps with None => 0 | Some k => k + 1 end in
  if List.length (indices ps) <=? i then (Ret None, set_cursor ps1 (Some i) None)
  else
    let '(r, ps2) := problem_init (set_cursor ps1 (Some i) (current ps1))
                                  (with_suite ps1 (fun s => coco_suite_get_problem s (nth i (indices ps) 0%N))) in
    match r with
    | Ret h => (Ret (Some h), set_cursor ps2 (Some i) (Some h))
    | Raise e => (Raise e, ps2)
    | Dead => (Dead, ps2)
    end.

(** Indexing of a Python list. *)
Definition list_index (n : nat) (z : Z) : option nat :=
  if (0 <=? z)%Z then if Z.to_nat z <? n then Some (Z.to_nat z) else None
  else if (- Z.of_nat n <=? z)%Z then Some (Z.to_nat (Z.of_nat n + z)) else None.
(** list.index on the ids. *)
Fixpoint position (x : cstr) (l : list cstr) (i : nat) : option nat :=
  match l with
  | [] => None
  | y :: l' => if streq x y then Some i else position x l' (S i)
  end.
(** The argument of get_problem: an integer or a string; a string is never equal to the integer it may stand for. *)
Inductive key := KInt (z : Z) | KStr (s : cstr).

(** Lines 206-248 (and 289-292). *)
Definition get_problem (ps : pysuite) (k : key) : out nat * pysuite :=
  if negb (initialized ps) then (Raise ValueError, ps) else
  match match k with KInt z => Some z | KStr s => option_map Z.of_nat (position s (ids ps) 0) end with
  | None => (Raise ValueError, ps)
  | Some z =>
    match list_index (List.length (indices ps)) z with
    | None => (Raise NoSuchProblem, ps)
    | Some i =>
      let '(r, ps1) := problem_init ps (with_suite ps (fun s => coco_suite_get_problem s (nth i (indices ps) 0%N))) in
      (match r with Raise _ => Raise NoSuchProblem | _ => r end, ps1)
    end
  end.

(** Conversion of an integer to size_t, lines 271-273. *)
Definition size_t (z : Z) : option N := if (0 <=? z)%Z && (z <? 2 ^ 64)%Z then Some (Z.to_N z) else None.

(** Lines 250-287. *)
Definition get_problem_by_function_dimension_instance (ps : pysuite) (f d i : Z) : out nat * pysuite :=
  match size_t f, size_t d, size_t i with
  | Some f', Some d', Some i' =>
    if negb (initialized ps) then (Raise ValueError, ps) else
    let '(r, ps1) := problem_init ps (with_suite ps (fun s => get_problem_by_numbers s f' d' i')) in
    (match r with Raise _ => Raise NoSuchProblem | _ => r end, ps1)
  | _, _, _ => (Raise OverflowError, ps)
  end.

(** str.find(t) >= 0. *)
Fixpoint contains (s t : cstr) : bool :=
  is_prefix t s || match s with [] => false | _ :: s' => contains s' t end.
(** Lines 310-356, without and with get_problem=True. *)
Definition find_ids (ps : pysuite) (snippets : list cstr) : list cstr :=
  filter (fun i => forallb (contains i) snippets) (ids ps).
Definition find_problem (ps : pysuite) (snippets : list cstr) : out nat * pysuite :=
  match find_ids ps snippets with
  | [] => (Raise IndexError, ps)
  | i :: _ => get_problem ps (KStr i)
  end.

(** Lines 385-387: sorted(set(...)). *)
Fixpoint insert (n : N) (l : list N) : list N :=
  match l with
  | [] => [n]
  | m :: l' => if (n <? m)%N then n :: l else if (n =? m)%N then l else m :: insert n l'
  end.
Definition suite_dimensions (ps : pysuite) : list N := fold_right insert [] (problem_dimensions ps).

(** Lines 294-299. *)
Definition free_suite (ps : pysuite) : pysuite :=
  mk_pysuite None (kind ps) (indices ps) (ids ps) (problem_dimensions ps) (current_index ps) (current ps) false (objects ps)
    (freed ps).

(** What a program can do with a suite and its problems.  [Drop h]: the last reference to the object disappears, which
    calls __dealloc__; the suite itself holds a reference to its current problem. *)
Inductive op := Next | Reset | Get (k : key) | ByNumbers (f d i : Z) | Find (snippets : list cstr) | FreeProblem (h : nat)
  | Drop (h : nat) | FreeSuite.

(** The object that the operation returns, if any. *)
Definition perform (ps : pysuite) (o : op) : out (option nat) * pysuite :=
  let some (r : out nat * pysuite) :=
    (match fst r with Ret h => Ret (Some h) | Raise e => Raise e | Dead => Dead end, snd r) in
  match o with
  | Next => next_problem ps
  | Reset => (Ret None, reset ps)
  | Get k => some (get_problem ps k)
  | ByNumbers f d i => some (get_problem_by_function_dimension_instance ps f d i)
  | Find l => some (find_problem ps l)
  | FreeProblem h => (Ret None, free_problem ps h)
  | Drop h => (Ret None, match current ps with
                         | Some c => if c =? h then ps else free_problem ps h
                         | None => free_problem ps h
                         end)
  | FreeSuite => (Ret None, free_suite ps)
  end.
Fixpoint run (ps : pysuite) (os : list op) : pysuite :=
  match os with [] => ps | o :: os' => run (snd (perform ps o)) os' end.

(** Lines 429-454: `for p in suite: body(p)`; the body of the k-th round performs the operations [body k], which may
    concern the object obtained.  What next_problem returned in [n] rounds. *)
Fixpoint rounds (n k : nat) (body : nat -> nat -> list op) (ps : pysuite) : list (out (option problem)) * pysuite :=
  match n with
  | O => ([], ps)
  | S m =>
    let '(r, ps1) := next_problem ps in
    match r with
    | Ret (Some h) =>
      let '(l, ps2) := rounds m (S k) body (run ps1 (body k h)) in
      (Ret (match nth_error (objects ps1) h with Some o => if o_open o then Some (o_problem o) else None | None => None end) :: l,
       ps2)
    | Ret None => let '(l, ps2) := rounds m (S k) body ps1 in (Ret None :: l, ps2)
    | Raise e => ([Raise e], ps1)
    | Dead => ([Dead], ps1)
    end
  end.
Definition iterate (n : nat) (body : nat -> nat -> list op) (ps : pysuite) : list (out (option problem)) * pysuite :=
  rounds n 0 body (reset ps).

(** ** Methods and attributes of a problem *)

(** __call__ (829-847), constraint (587-606), recommend (607-623) and logger_biobj_feed_solution (625-645) of a vector of
    the right size or of a wrong one; observe_with (653-670) and a None observer; initial_solution (724-728) and
    initial_solution_proposal (676-722), also with a later restart number; evaluations, evaluations_constraints (773-777);
    final_target_hit, best_observed_fvalue1, largest_fvalues_of_interest (779-799); id, name (850-853, 886-888);
    id_function, id_instance (865-883); index, dimension, bounds (741-771, 891-893); str, repr (905-937). *)
Inductive method := MCall (size_ok : bool) | MConstraint (size_ok : bool) | MRecommend (size_ok : bool) | MFeed (size_ok : bool)
  | MObserve | MObserveNone | MInitial | MEvaluations | MEvaluationsConstraints | MTarget | MBest | MLargest | MId | MIdNumber
  | MAttribute | MText.

(** What they do on a problem whose pointer is NULL; the C functions called for MInitial, MEvaluations and
    MEvaluationsConstraints require problem != NULL (coco_problem.c 426-434, 575-583).  [has_constraints]: the problem has
    constraints.  initial_solution_proposal of a problem without constraints does not use the pointer when the restart
    number is positive; it is MAttribute then. *)
Definition on_freed (has_constraints : bool) (m : method) : out unit :=
  match m with
  | MCall b | MRecommend b | MFeed b => if b then Raise InvalidProblem else Raise ValueError
  | MConstraint b => if negb has_constraints then Ret tt else if b then Raise InvalidProblem else Raise ValueError
  | MObserve | MTarget | MBest | MLargest => Raise AssertionError
  | MObserveNone | MId | MIdNumber | MAttribute | MText => Ret tt
  | MInitial | MEvaluations | MEvaluationsConstraints => Dead
  end.

(** ** Numbers in ids: _parse_id, lines 855-862; the id is given. *)

(** id.find(t): the text behind the first occurrence. *)
Fixpoint behind (s t : cstr) : option cstr :=
  if is_prefix t s then Some (skipn (List.length t) s)
  else match s with [] => None | _ :: s' => behind s' t end.
(** split('_')[0] *)
Fixpoint before_underscore (s : cstr) : cstr :=
  match s with [] => [] | c :: s' => if Ascii.eqb c "_"%char then [] else c :: before_underscore s' end.
(** int(...) of a string of decimal digits; other strings that int accepts (with a sign or spaces) do not occur in ids of
    suites and are treated like strings it rejects. *)
Definition py_int (s : cstr) : option N :=
  match s with
  | [] => None
  | _ => if forallb isdigit s then Some (fold_left (fun a c => (a * 10 + N.of_nat (code c - 48))%N) s 0%N) else None
  end.
Definition parse_id (id substr : cstr) : out N :=
  match behind id substr with
  | None => Raise ValueError
  | Some t => match py_int (before_underscore t) with Some n => Ret n | None => Raise ValueError end
  end.
Definition id_function (id : cstr) : out N := parse_id id (str "_f").
Definition id_instance (id : cstr) : out N := parse_id id (str "_i").
