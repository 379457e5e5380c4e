(** Exact real arithmetic for the benchmark functions of FunModel.v, and what a reported optimum has to satisfy. *)

From Coq Require Import ZArith List Bool Reals.
From Verif Require Import FunModel.
Import ListNotations.
Local Open Scope R_scope.

(** pow of math.h on the reals: a positive base by exp and log, base zero, and a negative base with an integer
    exponent.  The remaining cases (not a number in C) are given the value 0. *)
Definition real_pow (x y : R) : R :=
  if Req_EM_T x 0 then (if Req_EM_T y 0 then 1 else 0)
  else if Rlt_dec 0 x then Rpower x y
  else if Req_EM_T y (IZR (Int_part y)) then powerRZ x (Int_part y) else 0.

(** All operations are exact and the constant coco_pi is the number pi. *)
Definition real_arith : arith := {|
  num := R;
  lit := fun m e => IZR m / IZR (10 ^ e);
  of_nat := INR;
  add := Rplus; sub := Rminus; mul := Rmult; div := Rdiv; opp := Ropp; abs := Rabs;
  floor := fun x => IZR (Int_part x);
  FunModel.sqrt := R_sqrt.sqrt; FunModel.exp := Rtrigo_def.exp; FunModel.log := ln;
  FunModel.sin := Rtrigo_def.sin; FunModel.cos := Rtrigo_def.cos; FunModel.pow := real_pow;
  coco_pi := PI;
  FunModel.lt := fun x y => if Rlt_dec x y then true else false;
  FunModel.le := fun x y => if Rle_dec x y then true else false;
  nan := 0; isnan := fun _ => false; isinf := fun _ => false |}.

Definition real_problem := problem real_arith.
Definition real_draws := draws real_arith.

Fixpoint total (n : nat) (f : nat -> R) : R := match n with O => 0 | S k => total k f + f k end.

Definition coord (x : list R) (i : nat) : R := nth i x 0.
Definition cell (M : list (list R)) (i j : nat) : R := nth j (nth i M nil) 0.

(** The rows of the matrix are orthonormal. *)
Definition orthonormal (n : nat) (M : list (list R)) : Prop :=
  forall i j, (i < n)%nat -> (j < n)%nat ->
    total n (fun k => cell M i k * cell M j k) = if Nat.eqb i j then 1 else 0.

Definition within (bound : R) (x : list R) : Prop := Forall (fun v => - bound <= v <= bound) x.

(** What the random generators deliver: C39 shows the bounds of the uniform numbers, C40 those of the location of the
    optimum, C57 that the square matrices of the rotations are orthogonal (in exact arithmetic). *)
Definition plausible (n : nat) (d : real_draws) : Prop :=
  length (xopt _ d) = n /\ within 5 (xopt _ d) /\ orthonormal n (rot2 _ d) /\
  Forall (fun v => 0 <= v <= 1) (locations _ d).

(** The problem reports a point of its dimension inside its region of interest whose value is the reported value, and
    no point has a smaller one. *)
Definition optimum (n : nat) (p : real_problem) (value : R) : Prop :=
  length (best_parameter _ p) = n /\ within 5 (best_parameter _ p) /\
  evaluate _ p (best_parameter _ p) = value /\ best_value _ p = value /\
  forall x, length x = n -> value <= evaluate _ p x.

(** The same up to an error of [eps] in the reported value and in the value at the reported point. *)
Definition near_optimum (eps : R) (n : nat) (p : real_problem) (value : R) : Prop :=
  length (best_parameter _ p) = n /\ within 5 (best_parameter _ p) /\
  value <= evaluate _ p (best_parameter _ p) <= value + eps /\ value <= best_value _ p <= value + eps /\
  forall x, length x = n -> value <= evaluate _ p x.

(** Where the optimum lies. *)
Definition location (function n : nat) (boxed : bool) (d : real_draws) (x : list R) : Prop :=
  forall i, (i < n)%nat ->
  match function with
  | 4 => coord x i = if Nat.even i then Rabs (coord (xopt _ d) i) else coord (xopt _ d) i
  | 5 => coord x i = if Rlt_dec (coord (xopt _ d) i) 0 then -5 else 5
  | 8 => coord x i = 3 / 4 * coord (xopt _ d) i
  | 9 => coord x i = total n (fun k => cell (rot2 _ d) k i) / (2 * Rmax 1 (R_sqrt.sqrt (INR n) / 8))
  | 19 => coord x i = total n (fun k => cell (rot2 _ d) k i) / 2
  | 20 => coord x i = if Rlt_dec (coord (unif _ d) i) (1 / 2) then -2.10484373165 else 2.10484373165
  | 21 => coord x i = (if boxed then 1 else 0.8) * (10 * coord (locations _ d) i - 5)
  | 22 => coord x i = (if boxed then 1 else 0.8) * (9.8 * coord (locations _ d) i - 4.9)
  | 24 => coord x i = if Rlt_dec (coord (gauss _ d) i) 0 then -1.25 else 1.25
  | _ => coord x i = coord (xopt _ d) i
  end.
