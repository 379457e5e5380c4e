(** The reported optimum of the Schwefel function is one up to 3e-15. *)

From Coq Require Import ZArith List Bool Reals Lra Lia.
From Verif Require Import FunModel FunSpec FunProofs FunOptima FunOptima2 FunOptima3 FunSchwefel.
Import ListNotations.
Local Open Scope R_scope.

Lemma schwefel_total n x : schwefel_raw RA n x =
  1/100 * (total n (fun i => excess1 x.[i]) + top - total n (fun i => x.[i] * Rtrigo_def.sin (R_sqrt.sqrt (Rabs x.[i]))) / INR n).
Proof.
  unfold schwefel_raw, excess. cbv zeta. rewrite zero0. lits.
  rewrite (loop_ext n _ (fun i p => p + excess1 x.[i])).
  - rewrite !loop_total. unfold top. rewrite !Rplus_0_l. reflexivity.
  - intros i t I. unfold excess1. change (FunModel.lt RA ?a ?b) with (if Rlt_dec a b then true else false).
    replace (500/1) with 500 by field. destruct (Rlt_dec 0 (Rabs x.[i] - 500)); [reflexivity|ring].
Qed.

Lemma div_total n f : (1 <= n)%nat -> total n f / INR n = total n (fun i => f i / INR n).
Proof.
  intros N. rewrite (total_ext n (fun i => f i / INR n) (fun i => / INR n * f i)).
  - rewrite total_scale. unfold Rdiv. apply Rmult_comm.
  - intros i I. unfold Rdiv. apply Rmult_comm.
Qed.

Lemma schwefel_nonneg n x : (2 <= n)%nat -> 0 <= schwefel_raw RA n x.
Proof.
  intros N. rewrite schwefel_total. apply Rmult_le_pos; [lra|]. pose proof (INR_ge2 n N).
  assert (total n (fun i => x.[i] * Rtrigo_def.sin (R_sqrt.sqrt (Rabs x.[i]))) <= total n (fun i => top + excess1 x.[i])).
  { apply total_le. intros i I. apply term_le. }
  rewrite total_plus, total_const in H0.
  assert (E : 0 <= total n (fun i => excess1 x.[i])).
  { rewrite <- (Rmult_0_r (INR n)), <- total_const. apply total_le. intros; apply excess1_nonneg. }
  assert (total n (fun i => x.[i] * Rtrigo_def.sin (R_sqrt.sqrt (Rabs x.[i]))) / INR n <= top + total n (fun i => excess1 x.[i])); [|lra].
  apply (Rmult_le_reg_r (INR n)); [lra|]. unfold Rdiv. rewrite Rmult_assoc, Rinv_l by lra. nra.
Qed.

Lemma schwefel_near n x : (2 <= n)%nat ->
  (forall i, (i < n)%nat -> 42096874621/100000000 <= at_ RA x i <= 42096874637/100000000) ->
  schwefel_raw RA n x <= 3/1000000000000000.
Proof.
  intros N B. rewrite schwefel_total. pose proof (INR_ge2 n N).
  rewrite (total_ext n (fun i => excess1 x.[i]) (fun _ => 0)).
  2:{ intros i I. specialize (B i I). unfold excess1. rewrite (Rabs_pos_eq x.[i]) by (cbn in *; lra).
      destruct (Rlt_dec _ _); [cbn in *; lra|reflexivity]. }
  rewrite total_const, Rmult_0_r.
  assert (total n (fun _ => top - 23/100000000000000) <= total n (fun i => x.[i] * Rtrigo_def.sin (R_sqrt.sqrt (Rabs x.[i])))).
  { apply total_le. intros i I. apply term_ge. apply B. exact I. }
  rewrite total_const in H0.
  assert (top - 23/100000000000000 <= total n (fun i => x.[i] * Rtrigo_def.sin (R_sqrt.sqrt (Rabs x.[i]))) / INR n); [|lra].
  apply (Rmult_le_reg_r (INR n)); [lra|]. unfold Rdiv at 2. rewrite Rmult_assoc, Rinv_l by lra. lra.
Qed.

(** ** The chain of transformations *)

Section Chain.
Variables (n : nat) (d : real_draws).
Hypothesis N : (2 <= n)%nat.

Definition half : R := 42096874637 / 20000000000.
Let c2 : R := 42096874637 / 10000000000.
Let x := schwefel_xopt RA n (unif _ d).

Lemma xopt_abs i : (i < n)%nat -> Rabs (at_ RA x i) = half.
Proof.
  intros I. unfold x, schwefel_xopt. rewrite vec_at by exact I.
  change (FunModel.lt RA ?a ?b) with (if Rlt_dec a b then true else false). lits. unfold half.
  destruct (Rlt_dec _ _); [rewrite Rabs_left by lra; lra|rewrite Rabs_pos_eq by lra; lra].
Qed.

Let tmp1 := vec n (fun i => mul RA (lit RA (-2) 0) (abs RA (at_ RA x i))).
Let tmp2 := vec n (fun i => mul RA (lit RA 2 0) (abs RA (at_ RA x i))).
Lemma tmp1_at i : (i < n)%nat -> at_ RA tmp1 i = - c2.
Proof. intros I. unfold tmp1. rewrite vec_at by exact I. change (abs RA) with Rabs. rewrite xopt_abs by exact I. lits. unfold half, c2. lra. Qed.
Lemma tmp2_at i : (i < n)%nat -> at_ RA tmp2 i = c2.
Proof. intros I. unfold tmp2. rewrite vec_at by exact I. change (abs RA) with Rabs. rewrite xopt_abs by exact I. lits. unfold half, c2. lra. Qed.

Let q0 := allocate RA n (schwefel_raw RA n) (lit RA 42096874633 8).
Let q1 := vars_scale RA q0 (lit RA 100 0).
Let q2 := vars_shift RA q1 tmp1.
Let q3 := vars_conditioning RA q2 (lit RA 10 0).
Let q4 := vars_shift RA q3 tmp2.
Let q5 := vars_z_hat RA q4 x.
Let q6 := vars_scale RA q5 (lit RA 2 0).
Let q7 := vars_x_hat RA q6 (unif _ d).

Lemma chain : schwefel_bbob RA n d = obj_shift RA q7 (fopt _ d).
Proof. reflexivity. Qed.

Lemma dim_scale p c : dimension _ (vars_scale RA p c) = dimension _ p.
Proof. unfold vars_scale. cbv zeta. destruct (_ || _); reflexivity. Qed.
Lemma value_scale p c : best_value _ (vars_scale RA p c) = best_value _ p.
Proof. unfold vars_scale. cbv zeta. destruct (_ || _); reflexivity. Qed.
Lemma evaluate_scale p c y : evaluate _ (vars_scale RA p c) y = evaluate _ p (vec (dimension _ p) (fun i => c * y.[i])).
Proof. unfold vars_scale. cbv zeta. destruct (_ || _); cbn [with_best_parameter evaluate with_evaluate]; rewrite no_nan; reflexivity. Qed.

Let D1 : dimension _ q1 = n. Proof. unfold q1. rewrite dim_scale. reflexivity. Qed.
Let D2 : dimension _ q2 = n. Proof. exact D1. Qed.
Let D3 : dimension _ q3 = n. Proof. exact D1. Qed.
Let D4 : dimension _ q4 = n. Proof. exact D1. Qed.
Let D5 : dimension _ q5 = n. Proof. exact D1. Qed.
Let D6 : dimension _ q6 = n. Proof. unfold q6. rewrite dim_scale. exact D5. Qed.

Lemma b4 i : (i < n)%nat -> at_ RA (best_parameter _ q4) i = 42096874633 / 10000000000.
Proof.
  intros I. unfold q4. rewrite (shift_best n q3 tmp2 i D3 I), tmp2_at by exact I.
  change (best_parameter RA q3) with (best_parameter RA q2). unfold q2. rewrite (shift_best n q1 tmp1 i D1 I), tmp1_at by exact I.
  unfold q1. rewrite (scale_best n q0) by (try reflexivity; try exact I; lits; lra).
  unfold q0. cbn [allocate best_parameter]. rewrite repeat_at by exact I. lits. lra.
Qed.

Lemma b6 i : (i < n)%nat -> at_ RA (best_parameter _ q6) i = 42096874633 / 20000000000.
Proof.
  intros I. unfold q6. rewrite (scale_best n q5 _ i) by (try exact I; try exact D5; lits; lra).
  change (best_parameter RA q5) with (best_parameter RA q4). rewrite b4 by exact I. lits. lra.
Qed.

Lemma b6_length : length (best_parameter _ q6) = n.
Proof.
  unfold q6, vars_scale. cbv zeta.
  replace (FunModel.lt RA (lit RA 2 0) (zero RA) || FunModel.lt RA (zero RA) (lit RA 2 0)) with true.
  - cbn [with_best_parameter best_parameter]. rewrite vec_length. exact D5.
  - symmetry. apply orb_true_iff. right. apply lt_true. rewrite zero0. lits. lra.
Qed.

Lemma b6_not_zero : not_zero RA (best_parameter _ q6) = true.
Proof.
  unfold not_zero. rewrite no_nan. cbn [orb]. apply negb_true_iff.
  destruct (forallb _ _) eqn:F; [|reflexivity]. exfalso. rewrite forallb_forall in F.
  specialize (F (at_ RA (best_parameter RA q6) 0)). unfold almost_equal in F. rewrite lt_true in F.
  specialize (F ltac:(unfold at_; apply nth_In; rewrite b6_length; lia)).
  rewrite b6 in F by lia. rewrite zero0 in F. lits. rewrite Rabs_pos_eq in F; lra.
Qed.

Lemma q7_best i : (i < n)%nat -> at_ RA (best_parameter _ q7) i =
  if Rlt_dec (at_ RA (unif _ d) i) (5/10) then - (42096874633 / 20000000000) else 42096874633 / 20000000000.
Proof.
  intros I. unfold q7, vars_x_hat. cbv zeta. rewrite b6_not_zero. cbn [with_best_parameter best_parameter].
  rewrite D6, vec_at by exact I. rewrite b6 by exact I.
  change (FunModel.lt RA ?a ?b) with (if Rlt_dec a b then true else false). lits. destruct (Rlt_dec _ _); lra.
Qed.

Lemma q7_length : length (best_parameter _ q7) = n.
Proof. unfold q7, vars_x_hat. cbv zeta. rewrite b6_not_zero. cbn [with_best_parameter best_parameter]. rewrite vec_length. exact D6. Qed.

Lemma q7_value : best_value _ q7 = schwefel_raw RA n (repeat (lit RA 42096874633 8) n).
Proof.
  unfold q7, vars_x_hat. cbv zeta. rewrite b6_not_zero. cbn [with_best_parameter best_value with_evaluate].
  unfold q6. rewrite value_scale. change (best_value RA q5) with (best_value RA q1). unfold q1. rewrite value_scale.
  unfold q0. cbn [allocate best_value]. rewrite no_nan. reflexivity.
Qed.

(** The argument of the raw function. *)
Definition inner (y : list R) (i : nat) : R :=
  let v := fun k => 2 * (if Rlt_dec (at_ RA (unif _ d) k) (5/10) then - at_ RA y k else at_ RA y k) in
  let z := match i with O => v 0%nat | S k => v i + 25/100 * (v k - c2) end in
  100 * (real_pow 10 (5/10 * INR i / (INR n - 1)) * (z - c2) + c2).

Lemma q7_evaluate y : evaluate _ q7 y = schwefel_raw RA n (vec n (inner y)).
Proof.
  unfold q7, vars_x_hat. cbv zeta. rewrite b6_not_zero. cbn [with_best_parameter evaluate with_evaluate]. rewrite no_nan.
  rewrite D6. unfold q6. rewrite evaluate_scale, D5. unfold q5, vars_z_hat. cbv zeta. cbn [with_evaluate evaluate]. rewrite no_nan, D4.
  unfold q4, vars_shift at 1. cbv zeta. cbn [with_best_parameter with_evaluate evaluate]. rewrite no_nan, D3.
  unfold q3, vars_conditioning. cbv zeta. cbn [with_evaluate evaluate]. rewrite no_nan, D2.
  unfold q2, vars_shift. cbv zeta. cbn [with_best_parameter with_evaluate evaluate]. rewrite no_nan, D1.
  unfold q1. rewrite evaluate_scale. unfold q0. cbn [allocate evaluate dimension]. rewrite no_nan. f_equal.
  apply vec_ext. intros i I. rewrite !vec_at by exact I. rewrite tmp1_at, tmp2_at by exact I. unfold inner. cbv zeta.
  assert (V : forall k, (k < n)%nat ->
    at_ RA (vec n (fun i => lit RA 2 0 * at_ RA (vec n (fun i => if FunModel.lt RA (at_ RA (unif RA d) i) (lit RA 5 1) then opp RA (at_ RA y i) else at_ RA y i)) i)) k =
    2 * (if Rlt_dec (at_ RA (unif RA d) k) (5/10) then - at_ RA y k else at_ RA y k)).
  { intros k K. rewrite !vec_at by exact K. change (FunModel.lt RA ?a ?b) with (if Rlt_dec a b then true else false). lits.
    destruct (Rlt_dec _ _); lra. }
  assert (P1 : div RA (mul RA (lit RA 5 1) (of_nat RA i)) (sub RA (of_nat RA n) (lit RA 1 0)) = 5/10 * INR i / (INR n - 1)).
  { lits. replace (1/1) with 1 by field. reflexivity. }
  rewrite P1. replace (lit RA 10 0) with 10 by (lits; field).
  destruct i as [|k].
  - rewrite V by lia. lits. replace (100/1) with 100 by field. f_equal. unfold Rminus. rewrite Ropp_involutive. reflexivity.
  - rewrite V, V by lia. change (abs RA) with Rabs. rewrite xopt_abs by lia. lits.
    replace (2/1 * half) with c2 by (unfold half, c2; field). replace (100/1) with 100 by field.
    unfold Rminus. rewrite Ropp_involutive. reflexivity.
Qed.

Lemma cond_bound i : (i < n)%nat -> 1 <= real_pow 10 (5/10 * INR i / (INR n - 1)) <= 317/100.
Proof.
  intros I. pose proof (INR_ge2 n N). pose proof (pos_INR i).
  assert (INR i <= INR n - 1). { assert (INR i + 1 <= INR n); [|lra]. rewrite <- S_INR. apply le_INR. lia. }
  assert (E : 0 <= 5/10 * INR i / (INR n - 1) <= /2).
  { split.
    - apply Rmult_le_pos; [lra|]. apply Rlt_le, Rinv_0_lt_compat. lra.
    - apply (Rmult_le_reg_r (INR n - 1)); [lra|]. unfold Rdiv at 1. rewrite Rmult_assoc, Rinv_l by lra. lra. }
  split; [apply pow_ge1; lra|]. rewrite pow_pos by lra.
  apply Rle_trans with (Rpower 10 (/2)); [apply Rle_Rpower; lra|]. rewrite Rpower_sqrt by lra.
  rewrite <- (sqrt_square (317/100)) by lra. apply sqrt_le_1_alt. lra.
Qed.

Lemma inner_best i : (i < n)%nat -> 42096874621/100000000 <= inner (best_parameter _ q7) i <= 42096874637/100000000.
Proof.
  intros I. unfold inner. cbv zeta. pose proof (cond_bound i I) as B. set (w := real_pow _ _) in *.
  assert (V : forall k, (k < n)%nat -> 2 * (if Rlt_dec (at_ RA (unif RA d) k) (5/10) then - at_ RA (best_parameter RA q7) k else at_ RA (best_parameter RA q7) k) = 42096874633 / 10000000000).
  { intros k K. rewrite q7_best by exact K. destruct (Rlt_dec _ _); lra. }
  destruct i as [|k].
  - rewrite V by lia. unfold c2. nra.
  - rewrite !V by lia. unfold c2. nra.
Qed.

Lemma schwefel_near_optimum : near_optimum (3 / 1000000000000000) n (schwefel_bbob RA n d) (fopt _ d).
Proof.
  rewrite chain. unfold near_optimum. cbn [obj_shift with_best_value best_parameter best_value evaluate with_evaluate].
  change (add RA) with Rplus. rewrite no_nan, q7_value, q7_evaluate.
  assert (B1 : schwefel_raw RA n (repeat (lit RA 42096874633 8) n) <= 3 / 1000000000000000).
  { apply schwefel_near; [exact N|]. intros i I. rewrite repeat_at by exact I. lits. lra. }
  pose proof (schwefel_nonneg n (repeat (lit RA 42096874633 8) n) N) as B0.
  assert (B3 : schwefel_raw RA n (vec n (inner (best_parameter RA q7))) <= 3 / 1000000000000000).
  { apply schwefel_near; [exact N|]. intros i I. rewrite vec_at by exact I. apply inner_best. exact I. }
  pose proof (schwefel_nonneg n (vec n (inner (best_parameter RA q7))) N) as B2.
  split; [exact q7_length|]. split; [|split; [|split]].
  - apply (within_intro n); [exact q7_length|]. intros i I. rewrite q7_best by exact I. destruct (Rlt_dec _ _); lra.
  - cbn in *. lra.
  - cbn in *. lra.
  - intros y Y. rewrite no_nan, q7_evaluate. pose proof (schwefel_nonneg n (vec n (inner y)) N). cbn in *. lra.
Qed.

Lemma schwefel_location boxed : location 20 n boxed d (best_parameter _ (schwefel_bbob RA n d)).
Proof.
  intros i I. rewrite !coord_at. rewrite chain. cbn [obj_shift with_best_value best_parameter with_evaluate]. rewrite q7_best by exact I.
  replace (5/10) with (1/2) by field. destruct (Rlt_dec _ _); lra.
Qed.

End Chain.
