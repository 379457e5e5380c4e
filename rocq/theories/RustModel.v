(** Model of the Rust binding (build/rust/src/problem.rs, observer.rs, suite.rs) over the objects in memory of HeapModel.v. *)
From Coq Require Import String List Arith Ascii Bool.
Import ListNotations.
From Verif Require Import CBase HeapModel LoopModel.
Local Notation length := List.length.

(** observer.rs 13-33: the observers that can be named; Name::None gives no observer object (coco_observer returns NULL) *)
Inductive rname := RBbob | RBiobj | RToy.
Definition name_str (n : rname) : cstr := match n with RBbob => str "bbob" | RBiobj => str "bbob-biobj" | RToy => str "toy" end.
(** coco_observer.c: the kind of observer for the name (see ObsModel.v) *)
Definition name_kind (n : rname) : kind := match n with RBbob => KBbob | RBiobj => KBiobj | RToy => KToy end.

(** The variables of a program that own a Problem or an Observer; None: moved into drop *)
Record rust := mk_rust { r_heap : heap; r_problems : list (option addr); r_observers : list (option addr) }.
Definition look (l : list (option addr)) (i : nat) : option addr := match nth_error l i with Some (Some a) => Some a | _ => None end.

(** The calls.  The borrow of the suite (one problem of a suite at a time) is not used: any number of problems may exist, as with several
    suites.  Problems come from Suite::problem and Suite::problem_by_function_dimension_instance (suite.rs 163-198) or from
    Suite::next_problem (147-160); name and objectives are those of the C problem. *)
Inductive rop :=
| RObserver (n : rname)
| RProblem (name : cstr) (objectives : nat)
| RNext (name : cstr) (objectives : nat) (o : option nat)
| RAdd (p o : nat)
| RRemove (p o : nat)
| REvaluate (p : nat)
| RRestart (o p : nat)
| RDropProblem (p : nat)
| RDropObserver (o : nat).

(** None: the compiler rejects the program, because a variable is used that does not own its object (any more). *)
Definition r_step (r : rust) (x : rop) : option (res rust) :=
  let '(mk_rust h ps os) := r in
  match x with
  | RObserver n => (* observer.rs 74-84 *)
      Some (do (b, h1) <- step h (NewObserver (name_str n) (name_kind n)); Ok (mk_rust h1 ps (os ++ [b])))
  | RProblem name m => Some (do (a, h1) <- step h (NewProblem name m); Ok (mk_rust h1 (ps ++ [a]) os))
  | RNext name m o => (* suite.rs 147-160; current_problem is always NULL, see forget_current *)
      let next b := do x <- next_problem h None (Some (name, m)) b; let '(a, h1, _) := x in Ok (mk_rust h1 (ps ++ [a]) os) in
      match o with
      | None => Some (next None)
      | Some j => match look os j with Some b => Some (next (Some b)) | None => None end
      end
  | RAdd i j => (* problem.rs 65-70 *)
      match look ps i, look os j with
      | Some a, Some b => Some (do (w, h1) <- step h (Add (Some a) (Some b)); Ok (mk_rust h1 (upd ps i w) os))
      | _, _ => None
      end
  | RRemove i j => (* problem.rs 73-78 *)
      match look ps i, look os j with
      | Some a, Some b => Some (do (w, h1) <- step h (Remove (Some a) (Some b)); Ok (mk_rust h1 (upd ps i w) os))
      | _, _ => None
      end
  | REvaluate i => (* problem.rs 91-98 *)
      match look ps i with
      | Some a => Some (do (_, h1) <- step h (Evaluate a); Ok (mk_rust h1 ps os))
      | None => None
      end
  | RRestart j i => (* observer.rs 96-100 *)
      match look os j, look ps i with
      | Some b, Some a => Some (do (_, h1) <- step h (Restart (Some b) (Some a)); Ok (mk_rust h1 ps os))
      | _, _ => None
      end
  | RDropProblem i => (* problem.rs 221-227 *)
      match look ps i with
      | Some a => Some (do (_, h1) <- step h (FreeProblem a); Ok (mk_rust h1 (upd ps i None) os))
      | None => None
      end
  | RDropObserver j => (* observer.rs 103-109 *)
      match look os j with
      | Some b => Some (do (_, h1) <- step h (FreeObserver (Some b)); Ok (mk_rust h1 ps (upd os j None)))
      | None => None
      end
  end.
Definition r_init : rust := mk_rust [] [] [].
Fixpoint r_run (r : rust) (xs : list rop) : option (res rust) :=
  match xs with
  | [] => Some (Ok r)
  | x :: xs' => match r_step r x with
                | Some (Ok r1) => r_run r1 xs'
                | other => other
                end
  end.
