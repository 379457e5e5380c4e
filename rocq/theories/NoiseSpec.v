(** Specification of noisy problems. *)
From Coq Require Import List Arith NArith ZArith Reals Bool.
From Flocq Require Import Core.
Import ListNotations.
From Verif Require Import CBase DblModel DblSpec ProbModel ProbSpec RandModel OptimumSpec NoiseModel.
Open Scope R_scope.

(** The domain [-5, 5] of one variable *)
Definition domain (b : double * double) : Prop := fin (fst b) /\ fin (snd b) /\ val (fst b) = -5 /\ val (snd b) = 5.

(** How far a coordinate is outside the domain *)
Definition distance (v : double) : R := Rmax 0 (Rabs (val v) - 5).
Definition sum_of_squares (x : list double) : R := fold_right (fun v s => distance v * distance v + s) 0 x.

(** The seed of the k-th draw after a reset, k = 1, 2, ... *)
Definition seed_of (k : N) : Z := ((29 + Z.of_N k) mod 10 ^ 9 + 1)%Z.

(** The numbers of uniform and of Gaussian samples that one evaluation needs *)
Definition needs (k : noise) : N * N :=
  match k with Gaussian _ => (0, 1) | Uniform _ _ => (2, 0) | Cauchy _ _ => (1, 2) end%N.

(** The numbers of samples drawn since the last reset: only evaluations of regular points count. *)
Fixpoint drawn (ks : list noise) (es : list event) (n : N * N) : N * N :=
  match es with
  | [] => n
  | Reset :: es' => drawn ks es' (0, 0)%N
  | Eval i x :: es' =>
    match nth_error ks i with
    | Some k => drawn ks es' (if regularb x then (fst n + fst (needs k), snd n + snd (needs k))%N else n)
    | None => drawn ks es' n
    end
  end.

Section Libm.
Variable log cos exp : double -> double.
Variable pow : double -> double -> double.

(** The k-th uniform and the k-th Gaussian sample *)
Definition uniform_sample (k : N) (u : double) : Prop := bbob2009_unif 1 (seed_of k) = Ok [u].
Definition gaussian_sample (k : N) (g : double) : Prop := bbob2009_gauss log cos 1 (seed_of k) = Ok [g].

(** A number that is not positive (or a NaN) is replaced by 0; one that is not above 1 by 1. *)
Definition at_least_0 (c : double) : double := if dlt dzero c then c else dzero.
Definition at_least_1 (c : double) : double := if dlt (dint 1) c then c else dint 1.

(** The documented noise models, for the samples that follow the first u uniform and g Gaussian ones: f is the noise-free
    value, a + b * c etc. are evaluated in binary64. *)
Notation "a + b" := (dadd a b). Notation "a - b" := (dsub a b). Notation "a * b" := (dmul a b). Notation "a / b" := (ddiv a b).
Definition noisy_value (k : noise) (u g : N) (fopt f penalty v : double) : Prop :=
  match k with
  | Gaussian beta => exists N, gaussian_sample (g + 1) N /\ v = ((f - fopt) * exp (beta * N) + ddec 101 2 * ddec 1 8) + fopt + penalty
  | Uniform alpha beta => exists U1 U2, uniform_sample (u + 1) U1 /\ uniform_sample (u + 2) U2 /\
      v = ((f - fopt) * (pow U1 beta * at_least_1 (pow (dint 1000000000 / ((f - fopt) + tiny)) (alpha * U2))) + ddec 101 2 * ddec 1 8) + fopt + penalty
  | Cauchy alpha p => exists U N1 N2, uniform_sample (u + 1) U /\ gaussian_sample (g + 1) N1 /\ gaussian_sample (g + 2) N2 /\
      v = f + at_least_0 (alpha * (if dlt U p then dint 1000 + N1 / dabs (N2 + tiny199) else dint 1000)) + ddec 101 2 * ddec 1 8 + penalty
  end.

(** What is needed of the C library: results in the right range, where the noise models use them *)
Definition sane_libm : Prop :=
  libm_ok log cos /\
  (forall v, fin v -> Rabs (val v) <= 100 -> fin (exp v) /\ 0 < val (exp v)) /\
  (forall a b, fin a -> fin b -> 0 <= val a <= IZR (10 ^ 110) -> 0 <= val b <= 1 ->
     fin (pow a b) /\ 0 <= val (pow a b) <= IZR (10 ^ 111) /\ (0 < val a -> 0 < val (pow a b))).

End Libm.

(** Problems of class C whose only value is never below fopt, as long as the data satisfies I *)
Definition never_below (C : class) (I : data C -> Prop) (fopt : double) : Prop :=
  forall h d x y d', I d -> evaluate_function C h d x = Ok (y, d') ->
    I d' /\ exists f, y = [f] /\ fin f /\ val fopt <= val f.

(** The parameters of the noise are in the range of those of the suite. *)
Definition moderate (k : noise) : Prop :=
  match k with
  | Gaussian beta => fin beta /\ 0 <= val beta <= 1
  | Uniform alpha beta => fin alpha /\ fin beta /\ 0 <= val alpha <= 1 /\ 0 <= val beta <= 1
  | Cauchy alpha p => fin alpha /\ fin p /\ 0 < val alpha /\ 0 < val p < 1
  end.

(** A new noisy problem over [-5, 5]^n without constraints: the best value is fopt, the data of the inner problem satisfies I. *)
Definition new_problem {log cos exp pow C} (I : data C -> Prop) (fopt : double) (P : problem (noise_class log cos exp pow C)) : Prop :=
  I (body (n_inner (body P))) /\ best_value (head P) = Some [fopt] /\ best_value (head (n_inner (body P))) = Some [fopt] /\
  fin fopt /\ Rabs (val fopt) <= 1000 /\ moderate (n_noise (body P)) /\ Forall domain (n_roi (body P)) /\
  length (n_roi (body P)) = number_of_variables (head P) /\ number_of_constraints (head P) = 0%nat /\
  final_target_delta (head P) = ddec 1 8 /\ fresh (head P).

(** The noise of the problems of a process; problems without constraints; evaluations of existing problems with vectors of
    the right size *)
Definition kinds {log cos exp pow C} (st : process log cos exp pow C) : list noise := map (fun P : problem (noise_class log cos exp pow C) => n_noise (body P)) (p_problems st).
Definition simple {log cos exp pow C} (st : process log cos exp pow C) : Prop :=
  Forall (fun P => number_of_constraints (head P) = 0%nat) (p_problems st).
Definition fits {log cos exp pow C} (st : process log cos exp pow C) (es : list event) : Prop :=
  Forall (fun e => match e with
                   | Eval i x => exists P, nth_error (p_problems st) i = Some P /\ length x = number_of_variables (head P)
                   | Reset => True
                   end) es.

(** More than the precision 1e-8 above fopt *)
Definition above (fopt v : double) : Prop := num v /\ val fopt + 1005 / 100000000000 <= val v.

(** The three variants of a function *)
Inductive variant := WithGaussian | WithUniform | WithCauchy.
Definition variant_of (k : noise) : variant :=
  match k with Gaussian _ => WithGaussian | Uniform _ _ => WithUniform | Cauchy _ _ => WithCauchy end.

(** The noise of function 101, ..., 130 of the suite: the variant is the function number modulo 3, functions up to 106 have
    moderate noise. *)
Definition close (v : double) (r : R) : Prop := fin v /\ Rabs (val v - r) <= / IZR (10 ^ 15).
Definition suite_variant (function : N) : variant :=
  match ((function - 101) mod 3)%N with 0%N => WithGaussian | 1%N => WithUniform | _ => WithCauchy end.
Definition suite_parameters (function : N) (dimension : Z) (k : noise) : Prop :=
  let s := if (function <=? 106)%N then / 100 else 1 in
  match k with
  | Gaussian beta => close beta s
  | Uniform alpha beta => close alpha (s * (49 / 100 + / IZR dimension)) /\ close beta s
  | Cauchy alpha p => close alpha s /\ close p (if (function <=? 106)%N then / 20 else / 5)
  end.
