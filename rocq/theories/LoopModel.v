(** Model of experiments that iterate over a suite, as objects in memory: coco_suite_get_next_problem and coco_suite_free in
    src/coco_suite.c, the loops of build/c/example_experiment.c 179-239, build/java/Benchmark.java with build/java/CocoJNI.c, and
    build/rust/src/suite.rs. *)
From Coq Require Import String List Arith Ascii Bool.
Import ListNotations.
From Verif Require Import CBase StrModel IdModel HeapModel.
Local Notation length := List.length.

(** src/coco_suite.c 883-960.  Which problem comes next (None at the end, name and number of objectives otherwise) is the subject of
    SuiteModel.v and an argument here; [current] is the field current_problem of the suite.  At the end the function returns before
    line 909, so that the last problem stays.  Messages are left out.  Result: the problem, the heap, the new current_problem. *)
Definition next_problem (h : heap) (current : option addr) (next : option (cstr * nat)) (observer : option addr)
  : res (option addr * heap * option addr) :=
  match next with
  | None => Ok (None, h, current)
  | Some (name, m) =>
      do h1 <- match current with None => Ok h | Some a => coco_problem_free (S (length h)) h a end;
      do (p, h2) <- step h1 (NewProblem name m);
      do (w, h3) <- match observer with None => Ok (p, h2) | Some _ => coco_problem_add_observer h2 p observer end;
      Ok (w, h3, w)
  end.
(** src/coco_suite.c, coco_suite_free: the part about current_problem; the arrays of the suite itself are not part of this model *)
Definition suite_free (h : heap) (current : option addr) : res heap :=
  match current with None => Ok h | Some a => coco_problem_free (S (length h)) h a end.
(** build/rust/coco-sys/wrapper.c 4-7 *)
Definition forget_current (current : option addr) : option addr := None.

(** What a solver does with the problem it was given *)
Inductive use := UEvaluate | URecommend | URestart.
Definition use_problem (h : heap) (observer : option addr) (w : addr) (u : use) : res heap :=
  match u with
  | UEvaluate => evaluate_touches (S (length h)) h w
  | URecommend => recommend_touches (S (length h)) h w
  | URestart => coco_observer_signal_restart h observer (Some w)
  end.
Fixpoint uses (h : heap) (observer : option addr) (w : addr) (us : list use) : res heap :=
  match us with
  | [] => Ok h
  | u :: us' => do h1 <- use_problem h observer w u; uses h1 observer w us'
  end.

(** example_experiment.c 185-236; Benchmark.getNextProblem of Benchmark.java with CocoJNI.c calls the same function.  Each element of the
    list is a problem (name, objectives) with what the solver does. *)
Definition work := ((cstr * nat) * list use)%type.
Fixpoint c_loop (h : heap) (current observer : option addr) (l : list work) : res (heap * option addr) :=
  match l with
  | [] => Ok (h, current)
  | (nm, us) :: l' =>
      do x <- next_problem h current (Some nm) observer;
      let '(w, h1, current1) := x in
      match w with
      | None => Ok (h1, current1)
      | Some a => do h2 <- uses h1 observer a us; c_loop h2 current1 observer l'
      end
  end.
(** build/rust/src/suite.rs 147-160 and problem.rs 221-227: current_problem is forgotten, the problem is freed when it goes out of scope
    at the end of the body of the loop (rust/examples/example-experiment.rs 33-47) *)
Fixpoint rust_loop (h : heap) (current observer : option addr) (l : list work) : res (heap * option addr) :=
  match l with
  | [] => Ok (h, current)
  | (nm, us) :: l' =>
      do x <- next_problem h current (Some nm) observer;
      let '(w, h1, current1) := x in
      match w with
      | None => Ok (h1, current1)
      | Some a => do h2 <- uses h1 observer a us;
                  do h3 <- coco_problem_free (S (length h2)) h2 a;
                  rust_loop h3 (forget_current current1) observer l'
      end
  end.

(** coco_observer (None: NULL, "no-observer") before the loop *)
Definition start (o : option (cstr * kind)) : res (option addr * heap) :=
  match o with
  | None => Ok (None, [])
  | Some (n, k) => step [] (NewObserver n k)
  end.
(** The end: example_experiment.c 238-239 and Benchmark.java 41-42 free the observer first; [suite_first] is the other order *)
Definition finish (suite_first : bool) (h : heap) (current observer : option addr) : res heap :=
  if suite_first then do h1 <- suite_free h current; coco_observer_free h1 observer
  else do h1 <- coco_observer_free h observer; suite_free h1 current.
