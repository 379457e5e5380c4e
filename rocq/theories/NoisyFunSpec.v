(** The noisy functions as published (N. Hansen, S. Finck, R. Ros, A. Auger: Real-parameter black-box optimization
    benchmarking 2009: noisy functions definitions). *)

From Coq Require Import ZArith List Bool Reals.
From Verif Require Import FunModel FunSpec FunDocSpec NoisyFunModel.
Import ListNotations.
Local Open Scope R_scope.

Definition real_samples := samples real_arith.
Definition real_noisy := noisy real_arith.

(** The functions come in threes: with Gaussian, uniform and Cauchy noise.  [kind] is the number of the three. *)
Definition kind (function : nat) : nat := ((function - 101) / 3)%nat.

Section Dimension.
Variable D : nat.

Definition ellipsoid_1e4 (z : point) : R := total D (fun i => Rpower 10 (4 * share D i) * z i ^ 2).

(** The functions without noise, without penalty and without the optimal value. *)
Definition noise_free (function : nat) (d : real_draws) (x : point) : R :=
  let o := coord (xopt _ d) in
  let R1 := apply D (rot1 _ d) in
  let R2 := apply D (rot2 _ d) in
  match kind function with
  | 0 | 2 => squares D (minus x o)
  | 1 | 3 => rosenbrock D (fun i => spread D * (x i - 3 / 4 * o i) + 1)
  | 4 => let z_hat := Lambda D 10 (R2 (minus x o)) in
         let z := R1 (step z_hat) in
         0.1 * Rmax (Rabs (z_hat 0%nat) / 10 ^ 4) (total D (fun i => Rpower 10 (2 * share D i) * z i ^ 2))
  | 5 => ellipsoid_1e4 (Tosz (R1 (minus x o)))
  | 6 => let z := R1 (minus x o) in R_sqrt.sqrt (total D (fun i => power (Rabs (z i)) (2 + 4 * share D i)))
  | 7 => schaffers D (Lambda D 10 (R2 (Tasy D 0.5 (R1 (minus x o)))))
  | 8 => let z := fun i => spread D * R2 x i + 1/2 in
         1 / INR (D - 1) * total (D - 1) (fun i =>
           let s := 100 * (z i ^ 2 - z (S i)) ^ 2 + (z i - 1) ^ 2 in s / 4000 - Rtrigo_def.cos s) + 1
  | 9 => let height := fun i => match i with O => 10 | S k => 1.1 + 8 * INR k / 99 end in
         let alpha := fun i => match i with O => 1000 | S k => Rpower 1000 (2 * INR (nth k (condition_order _ d) 0%nat) / 99) end in
         let C := fun i j => Rpower (alpha i) (share D (nth j (nth i (scale_order _ d) nil) 0%nat) / 2) / Rpower (alpha i) (1/4) in
         let y := fun i j => (match i with O => 0.8 | S _ => 1 end) * (10 * coord (locations _ d) (i * D + j) - 5) in
         osz (10 - greatest 100 (fun i =>
           height i * Rtrigo_def.exp (- (1 / (2 * INR D)) * total D (fun j => C i j * R2 (minus x (y i)) j ^ 2)))) ^ 2
  | _ => 0
  end.

(** Where the optimum is. *)
Definition noisy_location (function : nat) (d : real_draws) (x : list R) : Prop :=
  forall i, (i < D)%nat ->
  match kind function with
  | 1 | 3 => coord x i = 3 / 4 * coord (xopt _ d) i
  | 8 => coord x i = total D (fun k => cell (rot2 _ d) k i) / 2
  | 9 => coord x i = 0.8 * (10 * coord (locations _ d) i - 5)
  | _ => coord x i = coord (xopt _ d) i
  end.

(** The noise of a function value f >= 0: severe from function 107 on, before that moderate. *)
Definition disturbed (function : nat) (s : real_samples) (f : R) : R :=
  let severe := Nat.leb 107 function in
  match ((function - 101) mod 3)%nat with
  | O => let beta := if severe then 1 else 0.01 in f * Rtrigo_def.exp (beta * gaussian1 _ s)
  | 1%nat =>
    let alpha := (if severe then 1 else 0.01) * (0.49 + 1 / INR D) in
    let beta := if severe then 1 else 0.01 in
    f * power (uniform1 _ s) beta * Rmax 1 (Rpower (10 ^ 9 / (f + / 10 ^ 99)) (alpha * uniform2 _ s))
  | _ =>
    let alpha := if severe then 1 else 0.01 in
    let p := if severe then 0.2 else 0.05 in
    f + alpha * Rmax 0 (1000 + if Rlt_dec (uniform1 _ s) p then gaussian1 _ s / Rabs (gaussian2 _ s + / 10 ^ 199) else 0)
  end.

(** The published value: values below 1e-8 are left alone, the others are disturbed and get 1.01e-8 on top, so that
    reaching a target of 1e-8 does not depend on the noise. *)
Definition published (function : nat) (s : real_samples) (f : R) : R :=
  if Rlt_dec f (/ 10 ^ 8) then f else disturbed function s f + 1.01 / 10 ^ 8.
End Dimension.

(** The noise-free values of a problem have their optimum at the reported point. *)
Definition noisy_optimum (n : nat) (q : real_noisy) (value : R) : Prop :=
  optimum n (inner _ q) value /\ forall s x, snd (noisy_evaluate _ q s x) = evaluate _ (inner _ q) x.
