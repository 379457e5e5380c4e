(** The published forms of the toy functions, and where their optima lie. *)

From Coq Require Import ZArith List Bool Reals.
From Verif Require Import FunModel FunSpec FunDocSpec.
Local Open Scope R_scope.

Definition toy_documented (D function : nat) (x : point) : R :=
  match function with
  | 1 => squares D x
  | 2 => ellipsoid D x
  | 3 | 4 => rastrigin D x
  | 5 => slope D (fun _ => 5) x
  | 6 => rosenbrock D x
  | _ => 0
  end.

Definition toy_optimum (function : nat) : R := match function with 5 => 5 | 6 => 1 | _ => 0 end.
