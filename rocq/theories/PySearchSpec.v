(** Specification of random search. *)
From Coq Require Import List Arith ZArith Reals.
From Verif Require Import CBase DblModel DblSpec ProbSpec PySearchModel.
Import ListNotations.
Local Open Scope R_scope.

(** The values of the points H, evaluated in this order, are V: each is the value given by the problem after the former ones. *)
Definition values_of (P : problem_view) (H : list (list double)) (V : list double) : Prop :=
  length V = length H /\ forall k x, nth_error H k = Some x -> nth_error V k = Some (value P (firstn k H) x).
(** The first of the points with the smallest value *)
Definition first_best (H : list (list double)) (V : list double) (r : option (list double)) : Prop :=
  match r with
  | None => H = []
  | Some x => exists i v, nth_error H i = Some x /\ nth_error V i = Some v /\
      (forall w, In w V -> ~ below w v) /\ (forall j w, (j < i)%nat -> nth_error V j = Some w -> below v w)
  end.
Definition satisfies (P : problem_view) (x : list double) : Prop := Forall (fun c => num c /\ val c <= 0) (constraint P x).
