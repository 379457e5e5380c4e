(** Specification of the Python suite: the problems are the list of SuiteSpec.all_problems, by position. *)
From Coq Require Import List Arith NArith ZArith Ascii String Bool.
From Verif Require Import CBase StrModel OptModel SuiteModel SuiteSpec IdModel PySuiteModel.
Import ListNotations.
Local Open Scope nat_scope.

(** The suites known to Python. *)
Definition python_names : list cstr :=
  map str ["bbob"; "bbob-biobj"; "bbob-biobj-ext"; "bbob-boxed"; "bbob-constrained"; "bbob-largescale"; "bbob-mixint"; "bbob-biobj-mixint"; "bbob-noisy"]%string.

(** All numbers are values of size_t. *)
Definition fits (s : suite) : Prop :=
  Forall (fun n => (n < 2 ^ 64)%N) (functions s) /\ Forall (fun n => (n < 2 ^ 64)%N) (dimensions s) /\
  Forall (fun n => (n < 2 ^ 64)%N) (instances s).

(** [ps] is a Python suite made from the given strings, after any operations, and [s] the C suite for these strings. *)
Definition made_from (name inst options : cstr) (s : suite) (ps : pysuite) : Prop :=
  exists d ps0 os, coco_suite_initialize name = Ok d /\ coco_suite d inst options = Ok (Some s) /\
    new_suite name inst options = Ret ps0 /\ ps = run ps0 os.

(** No FreeSuite so far. *)
Definition usable (ps : pysuite) : Prop := initialized ps = true.

(** The k-th round of a loop may do everything but ask for the next problem, reset or free the suite. *)
Definition quiet (o : op) : Prop := match o with Next | Reset | FreeSuite => False | _ => True end.

(** The object a call returned is new and valid and gives access to the problem [p]. *)
Definition returns_problem (ps : pysuite) (r : out nat * pysuite) (p : problem) : Prop :=
  exists h ps', r = (Ret h, ps') /\ nth_error (objects ps) h = None /\ nth_error (objects ps') h = Some (mk_pobj p true).

(** Python's indices: from the left or, negative, from the right. *)
Definition at_index (l : list problem) (z : Z) (p : problem) : Prop :=
  exists k, nth_error l k = Some p /\ (z = Z.of_nat k \/ z = (Z.of_nat k - Z.of_nat (List.length l))%Z).

(** The first element with a property. *)
Definition first_with {A} (P : A -> Prop) (l : list A) (a : A) : Prop :=
  exists l1 l2, l = l1 ++ a :: l2 /\ P a /\ Forall (fun b => ~ P b) l1.

(** A part of a text. *)
Definition part_of (t s : cstr) : Prop := exists a b, s = a ++ t ++ b.

(** Object [h] is valid, or it is not. *)
Definition valid (ps : pysuite) (h : nat) : Prop := exists p, nth_error (objects ps) h = Some (mk_pobj p true).
Definition finished (ps : pysuite) (h : nat) : Prop := exists p, nth_error (objects ps) h = Some (mk_pobj p false).

(** Operations that end the object [h] on request. *)
Definition ends (h : nat) (o : op) : Prop := o = FreeProblem h \/ o = Drop h.
Definition moves (o : op) : Prop := o = Next \/ o = Reset.
