(** C49: the reported optimum of the 24 noiseless functions, in exact arithmetic. *)

From Coq Require Import ZArith List Bool Reals Lra Lia.
From Verif Require Import FunModel FunSpec FunProofs FunOptima FunOptima2 FunOptima3 FunOptima4.
Import ListNotations.
Local Open Scope R_scope.

(** A problem is delivered for the functions 1 to 24 and for no other. *)
Theorem C49_delivered : forall function n boxed (d : real_draws),
  (exists p, get_bbob_problem real_arith function n boxed d = Some p) <-> (1 <= function <= 24)%nat.
Proof.
  intros f n boxed d. do 25 (destruct f as [|f]; [cbn [get_bbob_problem]; split; [intros (p & E); try discriminate E; lia|intros H; try lia; eexists; reflexivity]|]).
  cbn [get_bbob_problem]. split; [intros (p & E); discriminate E|lia].
Qed.

(** The reported point lies in the region of interest, has the reported value, and no point has a smaller one.  For the
    19th function this holds for at most 64 variables; the 20th is dealt with below. *)
Theorem C49_optimum : forall function n boxed (d : real_draws) p,
  (2 <= n)%nat -> plausible n d -> function <> 20%nat -> (function = 19%nat -> (n <= 64)%nat) ->
  get_bbob_problem real_arith function n boxed d = Some p ->
  optimum n p (fopt _ d) /\ location function n boxed d (best_parameter _ p).
Proof. exact all_optima. Qed.

(** The Schwefel function: both the reported value and the value at the reported point may exceed the value of the
    optimum by at most 3e-15. *)
Theorem C49_schwefel : forall n boxed (d : real_draws) p,
  (2 <= n)%nat -> get_bbob_problem real_arith 20 n boxed d = Some p ->
  near_optimum (3 / 10 ^ 15) n p (fopt _ d) /\ location 20 n boxed d (best_parameter _ p).
Proof.
  intros n boxed d p N E. assert (E2 : p = schwefel_bbob real_arith n d) by (cbn [get_bbob_problem] in E; congruence).
  rewrite E2. replace (3 / 10 ^ 15) with (3 / 1000000000000000) by field.
  split; [apply schwefel_near_optimum; exact N|apply schwefel_location; exact N].
Qed.

(** With more than 64 variables the point reported for the 19th function is not optimal: its value exceeds the
    reported one. *)
Theorem C49_griewank_refuted : forall n boxed (d : real_draws) p,
  (64 < n)%nat -> plausible n d -> get_bbob_problem real_arith 19 n boxed d = Some p ->
  best_value _ p = fopt _ d /\ fopt _ d < evaluate _ p (best_parameter _ p).
Proof.
  intros n boxed d p N P E.
  assert (E2 : p = griewank_rosenbrock_bbob real_arith n (lit real_arith 10 0) d) by (cbn [get_bbob_problem] in E; congruence).
  rewrite E2. apply griewank_large; [exact N|lits; lra|apply P].
Qed.

(** ** Examples *)

Example draws2 : real_draws := {|
  xopt := [1; -2] : list (num real_arith); fopt := 7; rot1 := [[1; 2]; [3; 4]]; rot2 := [[3/5; -4/5]; [4/5; 3/5]];
  unif := [1/4; 3/4]; gauss := [1; -1]; condition_order := []; scale_order := []; locations := [1/4; 1] |}.

Example C49_plausible : plausible 2 draws2.
Proof.
  unfold plausible, draws2, within, orthonormal. cbn [xopt rot2 locations]. repeat split; try (repeat constructor; lra).
  intros i j I J. destruct i as [|[|i]]; [..|lia]; destruct j as [|[|j]]; try lia; cbn; field.
Qed.

(** The sphere at the origin has the value 7 + 1 + 4, above the optimum 7 at (1, -2). *)
Example C49_sphere : exists p, get_bbob_problem real_arith 1 2 false draws2 = Some p /\
  optimum 2 p 7 /\ best_parameter _ p = [0 / 1 + 1; 0 / 1 + -2] /\ evaluate _ p [0; 0] = 12.
Proof.
  eexists. split; [reflexivity|]. split; [|split].
  - apply (C49_optimum 1 2 false draws2 (sphere_bbob real_arith 2 false draws2)); [lia|apply C49_plausible|discriminate|discriminate|reflexivity].
  - reflexivity.
  - cbn -[IZR]. lra.
Qed.

(** The rotated Rosenbrock function: the optimum is half the sums of the columns, (0.7, -0.1). *)
Example C49_rosenbrock : exists p, get_bbob_problem real_arith 9 2 false draws2 = Some p /\
  optimum 2 p 7 /\ coord (best_parameter _ p) 0 = 7/10.
Proof.
  eexists. split; [reflexivity|].
  destruct (C49_optimum 9 2 false draws2 _ ltac:(lia) C49_plausible ltac:(discriminate) ltac:(discriminate) eq_refl) as (H1 & H2).
  split; [exact H1|]. rewrite (H2 0%nat ltac:(lia)). cbn [total draws2 rot2 cell nth]. rewrite <- factor_Rmax, factor_small by lia.
  unfold cell. cbn [nth]. field.
Qed.

Example C49_schwefel_location : exists p, get_bbob_problem real_arith 20 2 false draws2 = Some p /\
  near_optimum (3 / 10 ^ 15) 2 p 7 /\ coord (best_parameter _ p) 0 = -2.10484373165 /\ coord (best_parameter _ p) 1 = 2.10484373165.
Proof.
  eexists. split; [reflexivity|].
  destruct (C49_schwefel 2 false draws2 _ ltac:(lia) eq_refl) as (H1 & H2). split; [exact H1|].
  rewrite (H2 0%nat ltac:(lia)), (H2 1%nat ltac:(lia)). cbn [draws2 unif]. unfold coord. cbn [nth].
  destruct (Rlt_dec (1/4) (1/2)); [|lra]. destruct (Rlt_dec (3/4) (1/2)); [lra|]. split; reflexivity.
Qed.

(** The identity is orthonormal in every dimension. *)
Definition identity (n : nat) : list (list R) := vec n (fun i => vec n (fun j => if Nat.eqb i j then 1 else 0)).
Lemma identity_cell n i j : (i < n)%nat -> (j < n)%nat -> cell (identity n) i j = if Nat.eqb i j then 1 else 0.
Proof. intros I J. unfold cell, identity. rewrite vec_nth by exact I. rewrite vec_nth by exact J. reflexivity. Qed.
Example C49_plausible_all : forall n, plausible n {|
  xopt := repeat 1 n : list (num real_arith); fopt := 7; rot1 := nil; rot2 := identity n; unif := nil; gauss := nil;
  condition_order := []; scale_order := []; locations := [] |}.
Proof.
  intros n. unfold plausible. cbn [xopt rot2 locations]. split; [apply repeat_length|]. split; [|split; [|constructor]].
  - apply Forall_forall. intros v V. apply repeat_spec in V. subst v. lra.
  - intros i j I J. rewrite (total_ext n _ (fun k => if Nat.eqb i k then (if Nat.eqb i j then 1 else 0) else 0)).
    + apply total_delta. exact I.
    + intros k K. rewrite !identity_cell by assumption. rewrite (Nat.eqb_sym i j).
      destruct (Nat.eqb_spec i k) as [->|]; [|ring]. destruct (Nat.eqb_spec j k); ring.
Qed.

Print Assumptions C49_delivered.
Print Assumptions C49_optimum.
Print Assumptions C49_schwefel.
Print Assumptions C49_griewank_refuted.
