(** The boxed suite, whose problems are infinite outside of their region of interest, and the toy suite.
    Conventions as in FunModel.v. *)

From Coq Require Import ZArith List Bool.
From Verif Require Import FunModel.
Import ListNotations.

Section Box.
Variable A : arith.
Notation T := (num A).
Notation problem := (problem A).
Local Notation L := (lit A).
Local Notation "x .[ i ]" := (at_ A x i) (at level 1, left associativity, format "x .[ i ]").

(** What an evaluation yields: NAN, infinity, a number, or a failed assertion. *)
Inductive outcome := NotANumber | Infinite | Number (v : T) | Aborted.

(** transform_vars_enforce_box.c:25-31: the loop over the variables *)
Fixpoint violated (n : nat) (p : problem) (x : list T) : bool :=
  match n with
  | O => false
  | S k => violated k p x || lt A x.[k] (smallest A p).[k] || lt A (largest A p).[k] x.[k]
  end.

(** transform_vars_enforce_box.c:14-46 for a problem without constraints *)
Definition enforce_box_evaluate (p : problem) (x : list T) : outcome :=
  if contains_nan A x then NotANumber
  else if violated (dimension A p) p x then Infinite
  else let y := evaluate A p x in
       if le A (best_value A p) (add A y (L 1 13)) then Number y else Aborted.

(** suite_sbox_cost.c:75-205: the problem and its evaluation; best parameter, best value and region of interest are
    those of the inner problem. *)
Definition get_boxed_problem (function n : nat) (d : draws A) : option (problem * (list T -> outcome)) :=
  match get_bbob_problem A function n true d with
  | Some p => Some (p, enforce_box_evaluate p)
  | None => None
  end.

(** suite_toy.c:42-66; double xopt[40] = {5.0} has zeros behind the first entry, and more than 40 variables would be read
    behind its end *)
Definition toy_xopt : list T := L 5 0 :: repeat (zero A) 39.
Definition get_toy_problem (function n : nat) : option problem :=
  match function with
  | 1 => Some (allocate A n (sphere_raw A n) (zero A))
  | 2 => Some (allocate A n (ellipsoid_raw A n (L 1000000 0)) (zero A))
  | 3 => Some (allocate A n (rastrigin_raw A n) (zero A))
  | 4 => Some (allocate A n (bueche_rastrigin_raw A n) (zero A))
  | 5 => Some (linear_slope_allocate A n toy_xopt)
  | 6 => Some (allocate A n (rosenbrock_raw A n) (L 1 0))
  | _ => None
  end.
End Box.
Arguments NotANumber {A}.
Arguments Infinite {A}.
Arguments Number {A}.
Arguments Aborted {A}.
