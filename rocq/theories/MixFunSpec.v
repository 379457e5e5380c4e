(** The mixed-integer versions of the noiseless functions: which values the variables take, at which points of the
    continuous space they are placed, and what the reported optimum has to satisfy (T. Tusar, D. Brockhoff, N. Hansen:
    Mixed-integer benchmark problems for single- and bi-objective optimization, GECCO 2019). *)

From Coq Require Import ZArith NArith List Bool Reals.
From Verif Require Import FunModel FunSpec FunDocSpec LargeModel LargeSpec StackModel StackSpec.
Import ListNotations.
Local Open Scope R_scope.

(** A fifth of the variables each has 2, 4, 8 and 16 values, the last fifth is continuous (0). *)
Definition values (n i : nat) : nat :=
  let m := (n / 5)%nat in
  if (i <? m)%nat then 2 else if (i <? 2 * m)%nat then 4 else if (i <? 3 * m)%nat then 8 else if (i <? 4 * m)%nat then 16 else 0.

(** The value taken for a coordinate of an integer variable with the values 0, ..., c - 1 *)
Definition snap (c : nat) (v : R) : R := Rmax 0 (Rmin (INR c - 1) (nearest v)).

(** The c values are placed in [-4, 4] at equal distances, also to the borders. *)
Definition spacing (c : nat) : R := 8 / (INR c + 1).
Definition place (c : nat) (k : R) : R := -4 + spacing c * (k + 1).

(** The point of the continuous space for x, when the optimum o of the continuous function is put at the value b *)
Definition placed (n : nat) (o b x : point) : point :=
  fun i => match values n i with O => x i | c => o i + spacing c * (snap c (x i) - b i) end.

Definition factor (function : nat) : R :=
  match function with
  | 2 | 10 => 1 / 1000
  | 3 | 4 | 13 | 15 | 20 | 24 => 1 / 10
  | 6 | 8 | 9 | 11 => 1 / 100
  | 12 => 1 / 10000
  | 17 | 19 | 23 => 10
  | _ => 1
  end.

(** The continuous functions: of the bbob suite with less than 50 variables, else of the large-scale suite. *)
Definition optimal_value (n : nat) (d : real_draws) (e : real_large) : R := if (n <? 50)%nat then fopt _ d else lfopt _ e.
Definition continuous (function n : nat) (d : real_draws) (e : real_large) (x : point) : R :=
  if (n <? 50)%nat then documented n function false d x else large_documented n function e x.
Definition continuous_optimum (function n : nat) (d : real_draws) (e : real_large) (o : list R) : Prop :=
  length o = n /\ if (n <? 50)%nat then location function n false d o else large_location function n e o.

(** What the generators deliver, see C39, C40, C45 and C57. *)
Definition plausible_mixed (function n : nat) (d : real_draws) (e : real_large) : Prop :=
  if (n <? 50)%nat then plausible n d /\ within 4 (xopt _ d)
  else plausible_large n e /\ plausible_order function e /\ within 4 (lxopt _ e 0).

(** The reported value of the Schwefel function may be a tenth of 3e-15 too large. *)
Definition tolerance (function : nat) : R := if (function =? 20)%nat then 3 / 10 ^ 16 else 0.

(** The problem reports a point whose integer variables have one of their values and the others are in [-5, 5], whose value
    is the reported one, and no point has a smaller one. *)
Definition mixed_point (n : nat) (b : list R) : Prop :=
  length b = n /\
  forall i, (i < n)%nat ->
    match values n i with O => -5 <= coord b i <= 5 | c => exists k, (k < c)%nat /\ coord b i = INR k end.
Definition mixed_optimum (eps : R) (n : nat) (p : real_problem) (value : R) : Prop :=
  mixed_point n (best_parameter _ p) /\
  value <= evaluate _ p (best_parameter _ p) <= value + eps /\ value <= best_value _ p <= value + eps /\
  forall x, length x = n -> value <= evaluate _ p x.

(** The region of interest; [half] is the bound of the continuous variables. *)
Definition mixed_region (half : R) (n : nat) (low high : list R) : Prop :=
  length low = n /\ length high = n /\
  forall i, (i < n)%nat ->
    match values n i with
    | O => coord low i = - half /\ coord high i = half
    | c => coord low i = 0 /\ coord high i = INR c - 1
    end.

(** An objective of a bi-objective problem is the mixed-integer version of a function, with the optimum at b. *)
Definition bi_mixed (n : nat) (p : real_bi) (f : nat) (d : real_draws) (e : real_large) (side : list R -> R) (b : list R) : Prop :=
  mixed_point n b /\
  exists o, continuous_optimum f n d e o /\
    forall x, length x = n -> side (bi_evaluate _ p x) =
      factor f * (continuous f n d e (placed n (coord o) (coord b) (coord x)) + optimal_value n d e).
