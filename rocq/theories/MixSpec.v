(** Specification of mixed-integer problems. *)
From Coq Require Import List Arith ZArith Reals.
From Flocq Require Import Core.
Import ListNotations.
From Verif Require Import CBase DblModel DblSpec ProbModel MixModel.
Open Scope R_scope.

(** A variable with the n values 0, ..., n - 1 for the interval [-4, 4] of the inner problem *)
Definition integer_variable (n : Z) (b : bounds) : Prop :=
  fin (inner_low b) /\ fin (inner_high b) /\ fin (outer_high b) /\
  val (inner_low b) = -4 /\ val (inner_high b) = 4 /\ outer_low b = dzero /\ val (outer_high b) = IZR (n - 1).

(** The value for x: the nearest one, half-way points are rounded up. *)
Definition nearest (n k : Z) (x : R) : Prop :=
  (0 <= k < n)%Z /\ (k = 0%Z \/ IZR k - 1/2 <= x) /\ (k = (n - 1)%Z \/ x < IZR k + 1/2).

(** The points of the inner interval: n points, as far from each other as from the ends *)
Definition grid (n k : Z) : R := -4 + 8 * IZR (k + 1) / IZR (n + 1).

(** The largest double below 1/2 *)
Definition below_half : R := 1/2 - bpow radix2 (-54).

(** Where x lies among the points: point k is at k *)
Definition position (n : Z) (x : R) : R := (x + 4) * IZR (n + 1) / 8 - 1.

(** The first variables are integer, with the numbers of values cs. *)
Definition integer_variables (cs : list Z) (bs : list bounds) : Prop :=
  forall i c, nth_error cs i = Some c -> (2 <= c <= 2 ^ 20)%Z /\ exists b, nth_error bs i = Some b /\ integer_variable c b.

(** The location of the optimum of the inner problem, at most 5 away from 0 *)
Definition inner_optimum {C} (inner : problem C) (best : list double) : Prop :=
  best_parameter (head inner) = Some best /\ number_of_variables (head inner) = length best /\
  Forall (fun v => fin v /\ Rabs (val v) <= 5) best.

(** Points with the same integers and the same continuous coordinates *)
Definition same_point (cs : list Z) (x x' : list double) : Prop :=
  length x = length x' /\
  forall i a a', nth_error x i = Some a -> nth_error x' i = Some a' ->
    (forall c, nth_error cs i = Some c -> exists k, nearest c k (val a) /\ nearest c k (val a') /\ val a <> below_half /\ val a' <> below_half) /\
    (nth_error cs i = None -> a = a').

(** Evaluating P at x evaluates the inner problem at z. *)
Definition evaluates_at {C} (P : problem (discretize_class C)) (x z : list double) : Prop :=
  forall y R, y <> [] -> coco_evaluate_function (d_inner (body P)) z = Ok (y, R) ->
    exists Q, coco_evaluate_function P x = Ok (y, Q) /\ d_inner (body Q) = R.

(** The numbers of values of the integer variables of a problem with 5 m variables *)
Definition cardinalities (m : nat) : list Z := flat_map (fun c => repeat c m) [2; 4; 8; 16]%Z.

(** Multiples of 2^-51 *)
Definition fine (x : R) : Prop := exists z, x = IZR z * bpow radix2 (-51).
