(** What is claimed about the constrained suite, in exact real arithmetic. *)

From Coq Require Import ZArith List Bool Reals.
From Verif Require Import CBase FunModel FunSpec FunDocSpec ConsModel.
Import ListNotations.
Local Open Scope R_scope.

Definition real_streams := streams real_arith.
Definition real_constraint := constraint real_arith.
Definition real_inputs := inputs real_arith.
Definition real_constrained := constrained real_arith.

(** Values that the evaluation of a constraint takes as zero. *)
Definition dead_band : R := / 10 ^ 11.

Definition dot (n : nat) (x y : list R) : R := total n (fun i => coord x i * coord y i).

(** Uniform numbers lie in [0, 1) (C39). *)
Definition fair (s : real_streams) : Prop := forall seed k, 0 <= uniform _ s seed k < 1.

(** The seed of the constraints of a problem, before it is cut to 32 bits. *)
Definition seed_of (function instance number : nat) : Z :=
  Z.modulo (Z.of_nat function + 10000 * Z.of_nat instance + 50000 * Z.of_nat number) (2 ^ 32).

(** The normal vectors drawn for the constraints 1, ..., m are not zero. *)
Definition regular (s : real_streams) (function n instance m : nat) : Prop :=
  forall k, (1 <= k <= m)%nat -> exists i, (i < n)%nat /\ normal _ s (seed_of function instance k) (S i) <> 0.

(** No product of a drawn coordinate and a coordinate of the direction is positive but tiny. *)
Definition clear (s : real_streams) (function n instance m : nat) (direction : list R) : Prop :=
  forall k i, (1 <= k <= m)%nat -> (i < n)%nat ->
    let t := normal _ s (seed_of function instance k) (S i) * coord direction i in
    t <= 0 \/ R_sqrt.sqrt (INR n) / 10 ^ 13 < t.

(** Numbers of constraints: as many active ones as requested, and half as many inactive ones. *)
Definition inactive_number (v : variant) (active : nat) : nat :=
  match v with ActiveOnly => 0 | _ => Nat.div active 2 end.
Definition active_number (function n : nat) : nat :=
  nth (Nat.modulo (function - 1) 6) [1; 2; 6; 6 + n / 2; 6 + n; 6 + 3 * n]%nat 0%nat.

(** How many numbers of a list satisfy a condition. *)
Fixpoint how_many (P : R -> Prop) (dec : forall x, {P x} + {~ P x}) (l : list R) : nat :=
  match l with [] => 0 | x :: l => (if dec x then 1 else 0) + how_many P dec l end.
Definition zeros_in : list R -> nat := how_many (fun x => x = 0) (fun x => Req_EM_T x 0).
Definition negatives_in : list R -> nat := how_many (fun x => x < 0) (fun x => Rlt_dec x 0).

Definition origin (n : nat) : list R := repeat 0 n.
Definition feasible (values : list R) : Prop := Forall (fun v => v <= 0) values.

(** Weighted sum of constraint values, each raised by the most the dead band can take away in dimension n. *)
Fixpoint weighted_sum (n : nat) (w values : list R) : R :=
  match w, values with
  | a :: w, v :: values => a * (v + INR n * dead_band) + weighted_sum n w values
  | _, _ => 0
  end.

(** Multipliers: not negative, and zero for the constraints that do not hold with equality at the optimum. *)
Definition multipliers (w at_optimum : list R) : Prop :=
  length w = length at_optimum /\ Forall (fun a => 0 <= a) w /\
  forall k, (k < length w)%nat -> coord at_optimum k < 0 -> coord w k = 0.

Definition sum (w : list R) : R := fold_right Rplus 0 w.

(** Weighted sum of the gradients of constraints, coordinate i. *)
Fixpoint combined (w : list R) (cs : list real_constraint) (i : nat) : R :=
  match w, cs with
  | a :: w, c :: cs => a * coord (cgradient _ c) i + combined w cs i
  | _, _ => 0
  end.

(** The random numbers of one constraint, scaled; [scale1] and [scale2] are the two random factors. *)
Definition random_gradient (s : real_streams) (function n instance k : nat) (scale1 scale2 : R) (i : nat) : R :=
  scale1 * normal _ s (seed_of function instance k) (S i) * scale2 / R_sqrt.sqrt (INR n).

(** What the random generators deliver for one problem.  The location of the optimum lies in [-4, 4] (C40), the location
    of the unconstrained optimum is not the origin (its coordinates are never zero, or they are integers, not all of
    them zero, for the Rastrigin functions), the matrix is orthogonal (C57). *)
Definition multimodal (function : nat) : Prop := (43 <= function <= 54)%nat.
Definition sensible (function n : nat) (q : real_inputs) : Prop :=
  let o := xopt _ (drawn _ q) in
  length (location _ q) = n /\ within 4 (location _ q) /\
  length o = n /\ (exists i, (i < n)%nat /\ coord o i <> 0) /\
  (multimodal function -> forall i, (i < n)%nat -> exists z, coord o i = IZR z) /\
  orthonormal n (rot1 _ (drawn _ q)) /\
  0 <= length_draw _ q <= 1 /\ fair (stream _ q).

(** The results of brentinv are exact. *)
Definition exact_inverses (n : nat) (q : real_inputs) : Prop :=
  (forall y, osz (inverse_osz _ q y) = y) /\
  (forall y i, (i < n)%nat -> Tasy n 0.2 (fun _ => inverse_asy _ q i y) i = y).

(** The nine objective functions, and the direction towards which the constraints of a problem are turned. *)
Definition objective_of (function n : nat) (d : draws real_arith) : differentiable real_arith :=
  nth (Nat.div (function - 1) 6)
    [sphere_cons _ n d; ellipsoid_cons _ n d; linear_slope_cons _ n d; ellipsoid_rotated_cons _ n d; discus_cons _ n d;
     bent_cigar_cons _ n d; different_powers_cons _ n d; rastrigin_cons _ n d; rastrigin_rotated_cons _ n d]
    (sphere_cons _ n d).
Definition direction_of (function n : nat) (q : real_inputs) : res (list R) :=
  set_length _ (gradient _ (objective_of function n (drawn _ q)) (origin n)) (location _ q) n (length_draw _ q).

(** With one active constraint, or without disguise, nonzero normal vectors suffice for the construction; otherwise no
    coordinate of them may be tiny. *)
Definition usable (v : variant) (function n instance : nat) (q : real_inputs) : Prop :=
  let m := active_number function n in
  regular (stream _ q) function n instance m /\
  (v = NoDisguise \/ m = 1%nat \/ forall d, direction_of function n q = Ok d -> clear (stream _ q) function n instance m d).
