(** C70: the noisy suite in exact arithmetic. *)

From Coq Require Import ZArith List Bool Reals Lra Lia.
From Verif Require Import FunModel FunSpec FunProofs FunOptima FunOptima2 FunProps FunDocSpec FunDocProofs NoisyFunModel NoisyFunSpec NoisyFunProofs.
Import ListNotations.
Local Open Scope R_scope.
Local Notation RA := real_arith.

(** The suite has exactly the functions 101 to 130. *)
Theorem C70_delivered : forall function n (d : real_draws),
  (exists q, get_noisy_problem real_arith function n d = Some q) <-> (101 <= function <= 130)%nat.
Proof.
  intros f n d. split.
  - intros (q & E). apply (noisy_inv f n d q E).
  - intros F. destruct (proj2 (inner_delivered f n d) F) as (p & EP). destruct (proj2 (model_delivered f n) F) as (k & EK).
    unfold get_noisy_problem. rewrite EP, EK. eexists. reflexivity.
Qed.

(** The noise-free value, which the logger uses, is the optimal value plus the published formula. *)
Theorem C70_noise_free : forall function n (d : real_draws) q (s : real_samples) x,
  (2 <= n)%nat -> length x = n -> get_noisy_problem real_arith function n d = Some q ->
  snd (noisy_evaluate _ q s x) = noise_free n function d (coord x) + fopt _ d.
Proof.
  intros f n d q s x N L E. destruct (noisy_inv f n d q E) as (_ & EP & _).
  transitivity (evaluate _ (inner _ q) x).
  - unfold noisy_evaluate. destruct (model _ q); reflexivity.
  - exact (computes_list n _ _ x (inner_documented f n d _ N EP) L).
Qed.

(** The reported point lies in [-5, 5]^n, where it is published to be, its noise-free value is the reported best value, and
    no point has a smaller one; for the functions 125 to 127 with at most 64 variables. *)
Theorem C70_optimum : forall function n (d : real_draws) q,
  (2 <= n)%nat -> plausible n d -> ((125 <= function <= 127)%nat -> (n <= 64)%nat) ->
  get_noisy_problem real_arith function n d = Some q ->
  noisy_optimum n q (fopt _ d) /\ noisy_location n function d (best_parameter _ (inner _ q)).
Proof.
  intros f n d q N P H E. destruct (noisy_inv f n d q E) as (_ & EP & _). destruct (inner_optimum f n d _ N P H EP) as (O & L).
  split; [|exact L]. split; [exact O|]. intros s x. unfold noisy_evaluate. destruct (model _ q); reflexivity.
Qed.

(** With more than 64 variables the reported point of these three is not optimal. *)
Theorem C70_griewank_refuted : forall function n (d : real_draws) q (s : real_samples),
  (125 <= function <= 127)%nat -> (64 < n)%nat -> plausible n d -> get_noisy_problem real_arith function n d = Some q ->
  best_value _ (inner _ q) < snd (noisy_evaluate _ q s (best_parameter _ (inner _ q))).
Proof.
  intros f n d q s F N P E. destruct (noisy_inv f n d q E) as (_ & EP & _).
  assert (EI : inner _ q = griewank_rosenbrock_bbob RA n (lit RA 1 0) d).
  { assert (f = 125 \/ f = 126 \/ f = 127)%nat as [-> | [-> | ->]] by lia; cbn [noisy_inner] in EP; congruence. }
  assert (ES : snd (noisy_evaluate _ q s (best_parameter _ (inner _ q))) = evaluate _ (inner _ q) (best_parameter _ (inner _ q)))
    by (unfold noisy_evaluate; destruct (model _ q); reflexivity).
  rewrite ES, EI. destruct (griewank_large n (lit RA 1 0) d N ltac:(lits; lra) ltac:(apply P)) as (-> & G). exact G.
Qed.

(** What the algorithm sees: the noise model applied to the distance f to the optimal value, 1.01e-8, and 100 times the
    squared distance to the region of interest on top. *)
Theorem C70_noisy : forall function n (d : real_draws) q (s : real_samples) x,
  (2 <= n)%nat -> plausible n d -> ((125 <= function <= 127)%nat -> (n <= 64)%nat) -> length x = n -> 0 <= uniform1 _ s ->
  get_noisy_problem real_arith function n d = Some q ->
  fst (noisy_evaluate _ q s x) =
  fopt _ d + disturbed n function s (noise_free n function d (coord x)) + 1.01 / 10 ^ 8 + 100 * fpen n (coord x).
Proof.
  intros f n d q s x N P H L U E. destruct (noisy_inv f n d q E) as (_ & EP & EK). destruct (inner_optimum f n d _ N P H EP) as ((_ & _ & _ & BV & LB) & _).
  pose proof (inner_documented f n d _ N EP) as C. pose proof (computes_list n _ _ x C L) as EV. unfold value in EV.
  assert (V : 0 <= noise_free n f d (coord x)) by (specialize (LB x L); rewrite EV in LB; lra).
  destruct q as [p k]. cbn [inner model] in *. rewrite (noise_value f n k s _ (fopt _ d) N EK V U p x EV BV). cbn [fst].
  assert (X : x = vec n (coord x)). { rewrite <- (list_vec x n L) at 1. apply vec_ext. intros i I. rewrite coord_at. reflexivity. }
  f_equal. rewrite X at 1. exact (boundary n p _ (coord x) C).
Qed.

Lemma nonneg_free function n d q x : (2 <= n)%nat -> plausible n d -> ((125 <= function <= 127)%nat -> (n <= 64)%nat) -> length x = n ->
  get_noisy_problem RA function n d = Some q -> 0 <= noise_free n function d (coord x).
Proof.
  intros N P H L E. destruct (noisy_inv _ _ _ _ E) as (_ & EP & _). destruct (inner_optimum function n d _ N P H EP) as ((_ & _ & _ & _ & LB) & _).
  pose proof (computes_list n _ _ x (inner_documented function n d _ N EP) L) as EV. unfold value in EV. specialize (LB x L). rewrite EV in LB. lra.
Qed.

Lemma fpen_nonneg n z : 0 <= fpen n z.
Proof. unfold fpen. apply (FunDocAll.total_sq_nonneg n (fun i => Rmax 0 (Rabs (z i) - 5))). Qed.

Lemma power_nonneg x y : 0 <= power x y.
Proof. unfold power. destruct (Req_EM_T x 0); [lra|]. apply Rlt_le, exp_pos. Qed.

Lemma disturbed_nonneg n f s v : 0 <= v -> 0 <= disturbed n f s v.
Proof.
  intros V. unfold disturbed. cbv zeta. destruct ((f - 101) mod 3)%nat as [|[|m]].
  - apply Rmult_le_pos; [exact V|apply Rlt_le, exp_pos].
  - apply Rmult_le_pos; [apply Rmult_le_pos; [exact V|apply power_nonneg]|]. apply Rle_trans with 1; [lra|apply Rmax_l].
  - apply Rplus_le_le_0_compat; [exact V|]. apply Rmult_le_pos; [destruct (Nat.leb 107 f); lra|apply Rmax_l].
Qed.

(** No noise gives a value below the optimal value plus 1.01e-8, so a difference of 1e-8 to the optimal value is never
    seen; the published noise returns the optimal value itself there. *)
Theorem C70_above : forall function n (d : real_draws) q (s : real_samples) x,
  (2 <= n)%nat -> plausible n d -> ((125 <= function <= 127)%nat -> (n <= 64)%nat) -> length x = n -> 0 <= uniform1 _ s ->
  get_noisy_problem real_arith function n d = Some q ->
  fopt _ d + 1.01 / 10 ^ 8 <= fst (noisy_evaluate _ q s x).
Proof.
  intros f n d q s x N P H L U E. rewrite (C70_noisy f n d q s x N P H L U E).
  pose proof (disturbed_nonneg n f s _ (nonneg_free f n d q x N P H L E)). pose proof (fpen_nonneg n (coord x)). lra.
Qed.

Lemma free_at_best function n d q : (2 <= n)%nat -> plausible n d -> ((125 <= function <= 127)%nat -> (n <= 64)%nat) ->
  get_noisy_problem RA function n d = Some q -> let b := best_parameter _ (inner _ q) in
  length b = n /\ noise_free n function d (coord b) = 0 /\ fpen n (coord b) = 0.
Proof.
  intros N P H E b. destruct (noisy_inv _ _ _ _ E) as (_ & EP & _). destruct (inner_optimum function n d _ N P H EP) as ((L & W & EB & _ & _) & _). fold b in L, W, EB.
  split; [exact L|]. split.
  - pose proof (computes_list n _ _ b (inner_documented function n d _ N EP) L) as EV. unfold value in EV. rewrite EV in EB. lra.
  - rewrite <- (excess_fpen n (coord b)). apply excess_zero. intros i I. rewrite vec_at by exact I.
    pose proof (within_at n 5 b i L W I) as B. rewrite coord_at in B. lits. lra.
Qed.

Theorem C70_small_refuted : forall function n (d : real_draws) q (s : real_samples),
  (2 <= n)%nat -> plausible n d -> ((125 <= function <= 127)%nat -> (n <= 64)%nat) -> 0 <= uniform1 _ s ->
  get_noisy_problem real_arith function n d = Some q ->
  exists x, length x = n /\
    fopt _ d + published n function s (noise_free n function d (coord x)) + 100 * fpen n (coord x) = fopt _ d /\
    fopt _ d + 1.01 / 10 ^ 8 <= fst (noisy_evaluate _ q s x).
Proof.
  intros f n d q s N P H U E. exists (best_parameter _ (inner _ q)). destruct (free_at_best f n d q N P H E) as (L & F & B).
  split; [exact L|]. split; [|exact (C70_above f n d q s _ N P H L U E)].
  rewrite F, B. unfold published. destruct (Rlt_dec 0 (/ 10 ^ 8)) as [_|C]; [lra|]. exfalso. apply C. apply Rinv_0_lt_compat, pow_lt. lra.
Qed.

(** From a difference of 1e-8 on the values are the published ones. *)
Theorem C70_published : forall function n (d : real_draws) q (s : real_samples) x,
  (2 <= n)%nat -> plausible n d -> ((125 <= function <= 127)%nat -> (n <= 64)%nat) -> length x = n -> 0 <= uniform1 _ s ->
  get_noisy_problem real_arith function n d = Some q -> / 10 ^ 8 <= noise_free n function d (coord x) ->
  fst (noisy_evaluate _ q s x) =
  fopt _ d + published n function s (noise_free n function d (coord x)) + 100 * fpen n (coord x).
Proof.
  intros f n d q s x N P H L U E G. rewrite (C70_noisy f n d q s x N P H L U E). unfold published. destruct (Rlt_dec _ _) as [C|_]; lra.
Qed.

(** At the optimum the multiplicative noise (all but the functions 103, 106, ..., 130) vanishes: every evaluation there gives the
    same value. *)
Theorem C70_at_optimum : forall function n (d : real_draws) q (s : real_samples),
  (2 <= n)%nat -> plausible n d -> ((125 <= function <= 127)%nat -> (n <= 64)%nat) -> 0 <= uniform1 _ s ->
  get_noisy_problem real_arith function n d = Some q -> (function mod 3 <> 1)%nat ->
  fst (noisy_evaluate _ q s (best_parameter _ (inner _ q))) = fopt _ d + 1.01 / 10 ^ 8.
Proof.
  intros f n d q s N P H U E M. destruct (free_at_best f n d q N P H E) as (L & F & B). rewrite (C70_noisy f n d q s _ N P H L U E), F, B.
  assert (D : ((f - 101) mod 3 = 0 \/ (f - 101) mod 3 = 1)%nat).
  { destruct (noisy_inv f n d q E) as (R & _). pose proof (Nat.mod_upper_bound (f - 101) 3 ltac:(lia)).
    assert (f mod 3 = ((f - 101) mod 3 + 2) mod 3)%nat as X.
    { replace f with ((f - 101) + 2 + 33 * 3)%nat at 1 by lia. rewrite Nat.mod_add by lia. rewrite (Nat.add_mod (f - 101) 2 3) by lia. reflexivity. }
    destruct ((f - 101) mod 3)%nat as [|[|[|m]]]; [left; reflexivity|right; reflexivity| |lia]. rewrite X in M. exfalso. apply M. reflexivity. }
  unfold disturbed. cbv zeta. destruct D as [-> | ->]; lra.
Qed.

(** ** Examples: the sphere with severe Gaussian noise and with moderate Cauchy noise *)

Example samples1 : real_samples := {| uniform1 := 1/100 : num real_arith; uniform2 := 1/2; gaussian1 := 0; gaussian2 := 1 |}.

Example C70_gaussian : exists q, get_noisy_problem real_arith 107 2 draws2 = Some q /\
  fst (noisy_evaluate _ q samples1 [0; 0]) = 12 + 1.01 / 10 ^ 8 /\ snd (noisy_evaluate _ q samples1 [0; 0]) = 12 /\
  fst (noisy_evaluate _ q samples1 (best_parameter _ (inner _ q))) = 7 + 1.01 / 10 ^ 8.
Proof.
  destruct (proj2 (C70_delivered 107 2 draws2) ltac:(lia)) as (q & E). exists q. split; [exact E|].
  assert (U : 0 <= uniform1 _ samples1) by (cbn [samples1 uniform1]; change (0 <= 1/100); lra).
  assert (V : noise_free 2 107 draws2 (coord [0; 0]) = 5).
  { unfold noise_free. change (kind 107) with 2%nat. cbv iota zeta. unfold squares, minus, coord, draws2. cbn [total xopt nth]. ring. }
  assert (Q : fpen 2 (coord [0; 0]) = 0).
  { unfold fpen, coord. cbn [total nth]. rewrite Rabs_R0. rewrite Rmax_left by lra. ring. }
  split; [|split].
  - rewrite (C70_noisy 107 2 draws2 q samples1 [0; 0] ltac:(lia) C49_plausible ltac:(lia) eq_refl U E), V, Q.
    unfold disturbed. change ((107 - 101) mod 3)%nat with 0%nat. change (107 <=? 107)%nat with true. cbv iota zeta.
    cbn [samples1 gaussian1 draws2 fopt]. change (7 + 5 * Rtrigo_def.exp (1 * 0) + 1.01 / 10 ^ 8 + 100 * 0 = 12 + 1.01 / 10 ^ 8).
    rewrite Rmult_0_r, exp_0. lra.
  - rewrite (C70_noise_free 107 2 draws2 q samples1 [0; 0] ltac:(lia) eq_refl E), V. cbn [draws2 fopt]. change (5 + 7 = 12). lra.
  - apply (C70_at_optimum 107 2 draws2 q samples1 ltac:(lia) C49_plausible ltac:(lia) U E). discriminate.
Qed.

Example C70_cauchy : exists q, get_noisy_problem real_arith 103 2 draws2 = Some q /\
  fst (noisy_evaluate _ q samples1 [6; 0]) = 7 + (29 + 10) + 1.01 / 10 ^ 8 + 100.
Proof.
  destruct (proj2 (C70_delivered 103 2 draws2) ltac:(lia)) as (q & E). exists q. split; [exact E|].
  assert (U : 0 <= uniform1 _ samples1) by (cbn [samples1 uniform1]; change (0 <= 1/100); lra).
  rewrite (C70_noisy 103 2 draws2 q samples1 [6; 0] ltac:(lia) C49_plausible ltac:(lia) eq_refl U E).
  assert (V : noise_free 2 103 draws2 (coord [6; 0]) = 29).
  { unfold noise_free. change (kind 103) with 0%nat. cbv iota zeta. unfold squares, minus, coord, draws2. cbn [total xopt nth]. ring. }
  assert (Q : fpen 2 (coord [6; 0]) = 1).
  { unfold fpen, coord. cbn [total nth]. rewrite Rabs_R0, (Rabs_pos_eq 6) by lra. rewrite Rmax_right, Rmax_left by lra. ring. }
  rewrite V, Q. unfold disturbed. change ((103 - 101) mod 3)%nat with 2%nat. change (107 <=? 103)%nat with false. cbv iota zeta.
  cbn [samples1 gaussian1 uniform1 draws2 fopt]. destruct (Rlt_dec (1/100) 0.05) as [_|C]; [|exfalso; apply C; lra].
  change (7 + (29 + 0.01 * Rmax 0 (1000 + 0 / Rabs (1 + / 10 ^ 199))) + 1.01 / 10 ^ 8 + 100 * 1 = 7 + (29 + 10) + 1.01 / 10 ^ 8 + 100).
  unfold Rdiv at 1. rewrite Rmult_0_l, Rplus_0_r, Rmax_right by lra. lra.
Qed.

Print Assumptions C70_delivered.
Print Assumptions C70_noise_free.
Print Assumptions C70_optimum.
Print Assumptions C70_griewank_refuted.
Print Assumptions C70_noisy.
Print Assumptions C70_above.
Print Assumptions C70_small_refuted.
Print Assumptions C70_published.
Print Assumptions C70_at_optimum.
