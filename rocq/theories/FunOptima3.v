(** The optimum of every function but the Schwefel function. *)

From Coq Require Import ZArith List Bool Reals Lra Lia.
From Verif Require Import FunModel FunSpec FunProofs FunOptima FunOptima2.
Import ListNotations.
Local Open Scope R_scope.

Section Constructors.
Variables (n : nat) (d : real_draws).
Hypothesis N : (2 <= n)%nat.
Hypothesis P : plausible n d.

Let x := xopt _ d.
Let xb : forall i, (i < n)%nat -> -5 <= at_ RA x i <= 5.
Proof. intros i I. apply (within_at n 5); [apply P|apply P|exact I]. Qed.

Lemma alloc0 raw : raw (repeat 0 n) = 0 -> (forall y, length y = n -> 0 <= raw y) ->
  st n (allocate RA n raw (zero RA)) 0 (fun _ => 0).
Proof. intros Z H. rewrite zero0. apply st_alloc; assumption. Qed.

Ltac close := intros; lra.

Lemma st1 large : st n (sphere_bbob RA n large d) (fopt _ d) (at_ RA x).
Proof.
  eapply st_ext; [apply st_obj_shift, (st_norm n large); [exact N|apply st_shift, alloc0]| |].
  - apply sphere_zero; exact N.
  - intros; apply sphere_nonneg.
  - apply Rplus_0_l.
  - intros; apply Rplus_0_l.
Qed.

Lemma st2 large : st n (ellipsoid_bbob RA n large d) (fopt _ d) (at_ RA x).
Proof.
  eapply st_ext; [apply st_obj_shift, (st_norm n large); [exact N|apply st_shift, st_oscillate, alloc0]| |].
  - apply ellipsoid_zero; exact N.
  - intros; apply ellipsoid_nonneg. lits. lra.
  - apply Rplus_0_l.
  - intros; apply Rplus_0_l.
Qed.

Lemma st3 large : st n (rastrigin_bbob RA n large d) (fopt _ d) (at_ RA x).
Proof.
  eapply st_ext; [apply st_obj_shift, (st_norm n large); [exact N|apply st_shift, st_oscillate, st_asymmetric, st_conditioning, alloc0]| |].
  - apply rastrigin_zero; exact N.
  - intros; apply rastrigin_nonneg.
  - apply Rplus_0_l.
  - intros; apply Rplus_0_l.
Qed.

Lemma bueche_at i : (i < n)%nat -> at_ RA (bueche_xopt RA n x) i = if Nat.even i then Rabs (at_ RA x i) else at_ RA x i.
Proof. intros I. unfold bueche_xopt. rewrite vec_at by exact I. reflexivity. Qed.

Lemma st4 large : st n (bueche_rastrigin_bbob RA n large d) (fopt _ d) (fun i => if Nat.even i then Rabs (at_ RA x i) else at_ RA x i).
Proof.
  apply st_penalize; [lits; lra| |].
  - intros i I. specialize (xb i I). destruct (Nat.even i); [|exact xb]. unfold Rabs. destruct (Rcase_abs _); lra.
  - eapply st_ext; [apply st_obj_shift, (st_norm n large); [exact N|apply st_shift, st_oscillate, st_brs, alloc0]| |].
    + apply bueche_zero; exact N.
    + intros; apply bueche_nonneg.
    + apply Rplus_0_l.
    + intros i I. cbv beta. rewrite Rplus_0_l. apply bueche_at. exact I.
Qed.

Lemma slope_at i : (i < n)%nat -> at_ RA (linear_slope_best RA n x) i = if Rlt_dec (at_ RA x i) 0 then -5 else 5.
Proof.
  intros I. unfold linear_slope_best. rewrite vec_at by exact I. rewrite zero0.
  change (FunModel.lt RA ?a ?b) with (if Rlt_dec a b then true else false). destruct (Rlt_dec _ _); lits; lra.
Qed.

Lemma st5 large : st n (linear_slope_bbob RA n large d) (fopt _ d) (fun i => if Rlt_dec (at_ RA x i) 0 then -5 else 5).
Proof.
  assert (F : forall i, (i < n)%nat -> at_ RA (linear_slope_best RA n x) i = 5 \/ at_ RA (linear_slope_best RA n x) i = -5).
  { intros i I. rewrite slope_at by exact I. destruct (Rlt_dec _ _); [right|left]; reflexivity. }
  eapply st_ext; [apply st_obj_shift, (st_norm n large); [exact N|]| |].
  - apply (st_given n (linear_slope_raw RA n (linear_slope_best RA n x)) (linear_slope_best RA n x)).
    + apply vec_length.
    + apply slope_zero. exact F.
    + intros y Y. apply slope_nonneg. exact F.
  - apply Rplus_0_l.
  - exact slope_at.
Qed.

Lemma st6 : st n (attractive_sector_bbob RA n d) (fopt _ d) (at_ RA x).
Proof.
  eapply st_ext; [apply st_shift, st_affine, st_obj_shift, st_obj_power; [lits; lra|]; apply st_obj_oscillate, alloc0| |].
  - apply attractive_zero; exact N.
  - intros; apply attractive_nonneg.
  - apply Rplus_0_l.
  - intros; apply Rplus_0_l.
Qed.

Lemma st7 : st n (step_ellipsoid_bbob RA n (lit RA 1 0) d) (fopt _ d) (at_ RA x).
Proof.
  unfold step_ellipsoid_bbob. apply st_direct; try reflexivity.
  - apply P.
  - split; reflexivity.
  - cbn [with_best_value with_best_parameter evaluate best_parameter allocate]. rewrite no_nan. apply step_best; [exact N|]. exact xb.
  - intros y Y. cbn [with_best_value with_best_parameter evaluate allocate]. rewrite no_nan. apply step_nonneg. lits. lra.
Qed.

Lemma st8 large block : st n (rosenbrock_bbob RA n large block d) (fopt _ d) (fun i => 3/4 * at_ RA x i).
Proof.
  destruct (factor_ge block) as (F & _).
  eapply st_ext; [apply st_obj_shift, (st_norm n large); [exact N|apply st_shift, st_scale; [cbn in *; lra|]; apply st_shift, st_alloc]| |].
  - rewrite lit1. apply rosenbrock_one; exact N.
  - intros; apply rosenbrock_nonneg.
  - apply Rplus_0_l.
  - intros i I. cbv beta. rewrite repeat_at, vec_at by exact I. fold x. rewrite !lit1.
    replace (1 + -1) with 0 by ring. lits. unfold Rdiv at 1. rewrite Rmult_0_l. field.
Qed.

Lemma st9 : st n (rosenbrock_rotated_bbob RA n d) (fopt _ d) (fun j => column n (rot2 _ d) j / (2 * rosenbrock_factor RA n)).
Proof. apply rosenbrock_rotated_st; [exact N|apply P]. Qed.

Lemma st10 : st n (ellipsoid_rotated_bbob RA n (lit RA 1000000 0) d) (fopt _ d) (at_ RA x).
Proof.
  eapply st_ext; [apply st_obj_shift, st_shift, st_affine, st_oscillate, alloc0| |].
  - apply ellipsoid_zero; exact N.
  - intros; apply ellipsoid_nonneg. lits. lra.
  - apply Rplus_0_l.
  - intros; apply Rplus_0_l.
Qed.

Lemma st11 : st n (discus_bbob RA n d) (fopt _ d) (at_ RA x).
Proof.
  eapply st_ext; [apply st_obj_shift, st_shift, st_affine, st_oscillate, alloc0| |].
  - apply discus_zero; exact N.
  - intros; apply discus_nonneg.
  - apply Rplus_0_l.
  - intros; apply Rplus_0_l.
Qed.

Lemma st12 : st n (bent_cigar_bbob RA n d) (fopt _ d) (at_ RA x).
Proof.
  eapply st_ext; [apply st_shift, st_affine, st_asymmetric, st_affine, st_obj_shift, alloc0| |].
  - apply cigar_zero; exact N.
  - intros; apply cigar_nonneg.
  - apply Rplus_0_l.
  - intros; apply Rplus_0_l.
Qed.

Lemma st13 : st n (sharp_ridge_bbob RA n d) (fopt _ d) (at_ RA x).
Proof.
  eapply st_ext; [apply st_shift, st_affine, st_obj_shift, alloc0| |].
  - apply ridge_zero; exact N.
  - intros; apply ridge_nonneg.
  - apply Rplus_0_l.
  - intros; apply Rplus_0_l.
Qed.

Lemma st14 : st n (different_powers_bbob RA n d) (fopt _ d) (at_ RA x).
Proof.
  eapply st_ext; [apply st_shift, st_affine, st_obj_shift, alloc0| |].
  - apply powers_zero; exact N.
  - intros; apply powers_nonneg.
  - apply Rplus_0_l.
  - intros; apply Rplus_0_l.
Qed.

Lemma st15 : st n (rastrigin_rotated_bbob RA n d) (fopt _ d) (at_ RA x).
Proof.
  eapply st_ext; [apply st_shift, st_affine, st_oscillate, st_asymmetric, st_affine, st_obj_shift, alloc0| |].
  - apply rastrigin_zero; exact N.
  - intros; apply rastrigin_nonneg.
  - apply Rplus_0_l.
  - intros; apply Rplus_0_l.
Qed.

Lemma st16 : st n (weierstrass_bbob RA n d) (fopt _ d) (at_ RA x).
Proof.
  apply st_penalize; [|exact xb|].
  - lits. pose proof (INR_ge2 n N). apply Rlt_le, Rdiv_lt_0_compat; lra.
  - eapply st_ext; [apply st_shift, st_affine, st_oscillate, st_affine, st_obj_shift, alloc0| |].
    + apply weierstrass_zero; exact N.
    + intros; apply weierstrass_nonneg; exact N.
    + apply Rplus_0_l.
    + intros; apply Rplus_0_l.
Qed.

Lemma st17 c s : 0 <= s -> st n (schaffers_bbob RA n c s d) (fopt _ d) (at_ RA x).
Proof.
  intros S. apply st_penalize; [exact S|exact xb|].
  eapply st_ext; [apply st_shift, st_affine, st_asymmetric, st_affine, st_obj_shift, alloc0| |].
  - apply schaffers_zero; exact N.
  - intros; apply schaffers_nonneg; exact N.
  - apply Rplus_0_l.
  - intros; apply Rplus_0_l.
Qed.

Lemma st19 : (n <= 64)%nat -> st n (griewank_rosenbrock_bbob RA n (lit RA 10 0) d) (fopt _ d) (fun j => column n (rot2 _ d) j / 2).
Proof. intros H. apply griewank_st; [lia|lits; lra|apply P]. Qed.

Lemma st21 np boxed fc b c : (3 <= np)%nat -> 0 < fc -> 0 <= b <= 10 -> c = b / 2 ->
  st n (gallagher_bbob RA n np boxed fc b c (lit RA 1 0) d) (fopt _ d)
    (fun i => (if boxed then 1 else 8/10) * (b * at_ RA (locations _ d) i - c)) /\
  (forall i, (i < n)%nat -> -5 <= (if boxed then 1 else 8/10) * (b * at_ RA (locations _ d) i - c) <= 5).
Proof.
  intros NP FC B C. pose proof (gallagher_best n np boxed fc b c (lit RA 1 0) d N NP FC B C (proj2 (proj2 (proj2 P)))) as G.
  unfold gallagher_bbob. destruct (gallagher_data RA n np boxed fc b c d) as (k & best). destruct G as (G1 & G2 & G3). split.
  - eapply st_ext; [apply st_obj_shift, (st_given n (gallagher_raw RA n (lit RA 1 0) (rot2 RA d) k) best)| |].
    + exact G2.
    + exact G1.
    + intros; apply gallagher_nonneg. lits. lra.
    + apply Rplus_0_l.
    + intros i I. apply G3. exact I.
  - intros i I. destruct (G3 i I) as (E & H). rewrite E in H. exact H.
Qed.

Lemma st23 : st n (katsuura_bbob RA n d) (fopt _ d) (at_ RA x).
Proof.
  apply st_penalize; [lits; lra|exact xb|].
  eapply st_ext; [apply st_shift, st_affine, st_obj_shift, alloc0| |].
  - apply katsuura_zero; exact N.
  - intros; apply katsuura_nonneg; exact N.
  - apply Rplus_0_l.
  - intros; apply Rplus_0_l.
Qed.

Lemma st24 : st n (lunacek_bbob RA n d) (fopt _ d) (fun i => if Rlt_dec (at_ RA (gauss _ d) i) 0 then -125/100 else 125/100).
Proof.
  eapply st_ext; [apply st_obj_shift, (st_given n (lunacek_raw RA n (lunacek_xopt RA n (gauss RA d)) (rot1 RA d) (rot2 RA d)) (lunacek_xopt RA n (gauss RA d)))| |].
  - apply vec_length.
  - apply lunacek_best; exact N.
  - intros; apply lunacek_nonneg; exact N.
  - apply Rplus_0_l.
  - intros i I. apply lunacek_xopt_at. exact I.
Qed.

End Constructors.

Lemma coord_at x i : coord x i = at_ RA x i.
Proof. unfold coord, at_. rewrite zero0. reflexivity. Qed.

(** ** All of them *)

Lemma all_optima function n boxed d p :
  (2 <= n)%nat -> plausible n d -> function <> 20%nat -> (function = 19%nat -> (n <= 64)%nat) ->
  get_bbob_problem RA function n boxed d = Some p ->
  optimum n p (fopt _ d) /\ location function n boxed d (best_parameter _ p).
Proof.
  intros N P F20 F19 E. pose proof P as (L & W & O & U).
  assert (X : forall i, (i < n)%nat -> -5 <= at_ RA (xopt RA d) i <= 5).
  { intros i I. apply (within_at n 5); assumption. }
  assert (Q : forall q b, st n q (fopt RA d) b -> p = q -> (forall i, (i < n)%nat -> -5 <= b i <= 5) ->
    optimum n p (fopt RA d) /\ forall i, (i < n)%nat -> coord (best_parameter RA p) i = b i).
  { intros q b S -> B. split; [apply (st_optimum n q _ b S B)|]. intros i I. rewrite coord_at. apply S. exact I. }
  assert (QX : forall q, st n q (fopt RA d) (at_ RA (xopt RA d)) -> p = q ->
    optimum n p (fopt RA d) /\ forall i, (i < n)%nat -> coord (best_parameter RA p) i = coord (xopt RA d) i).
  { intros q S Eq. destruct (Q q _ S Eq X) as (H1 & H2). split; [exact H1|]. intros i I. rewrite H2 by exact I. symmetry. apply coord_at. }
  unfold location.
  assert (E' : Some p = get_bbob_problem RA function n boxed d) by (symmetry; exact E).
  destruct function as [|[|[|[|[|[|[|[|[|[|[|[|[|[|[|[|[|[|[|[|[|[|[|[|[|f]]]]]]]]]]]]]]]]]]]]]]]]]; cbn [get_bbob_problem] in E';
    try discriminate E'; try (contradiction (F20 eq_refl)).
  all: match type of E' with Some ?a = Some ?q => assert (E2 : a = q) by congruence; clear E E' end.
  - apply (QX _ (st1 n d N false) E2).
  - apply (QX _ (st2 n d N false) E2).
  - apply (QX _ (st3 n d N false) E2).
  - destruct (Q _ _ (st4 n d N P false) E2) as (H1 & H2).
    + intros i I. specialize (X i I). destruct (Nat.even i); [|exact X]. unfold Rabs. destruct (Rcase_abs _); lra.
    + split; [exact H1|]. intros i I. rewrite !coord_at, <- H2, coord_at by exact I. reflexivity.
  - destruct (Q _ _ (st5 n d N false) E2) as (H1 & H2).
    + intros i I. destruct (Rlt_dec _ _); lra.
    + split; [exact H1|]. intros i I. rewrite coord_at, <- coord_at, H2, <- coord_at by exact I. reflexivity.
  - apply (QX _ (st6 n d N) E2).
  - apply (QX _ (st7 n d N P) E2).
  - destruct (Q _ _ (st8 n d N false n) E2) as (H1 & H2).
    + intros i I. specialize (X i I). lra.
    + split; [exact H1|]. intros i I. rewrite (H2 i I), (coord_at (xopt RA d)). reflexivity.
  - destruct (Q _ _ (st9 n d N P) E2) as (H1 & H2).
    + intros i I. destruct (factor_ge n). apply rotated_within; assumption.
    + split; [exact H1|]. intros i I. rewrite (H2 i I), factor_Rmax. reflexivity.
  - apply (QX _ (st10 n d N) E2).
  - apply (QX _ (st11 n d N) E2).
  - apply (QX _ (st12 n d N) E2).
  - apply (QX _ (st13 n d N) E2).
  - apply (QX _ (st14 n d N) E2).
  - apply (QX _ (st15 n d N) E2).
  - apply (QX _ (st16 n d N P) E2).
  - apply (QX _ (st17 n d N P (lit RA 10 0) (lit RA 10 0) ltac:(lits; lra)) E2).
  - apply (QX _ (st17 n d N P (lit RA 1000 0) (lit RA 10 0) ltac:(lits; lra)) E2).
  - destruct (Q _ _ (st19 n d N P (F19 eq_refl)) E2) as (H1 & H2).
    + intros i I. pose proof (rotated_within n (rot2 RA d) 1 i O I ltac:(lra)) as B. rewrite Rmult_1_r in B. apply B.
      rewrite <- (factor_small n (F19 eq_refl)). apply factor_ge.
    + split; [exact H1|]. exact H2.
  - destruct (st21 n d N P 101 boxed (FunModel.sqrt RA (lit RA 1000 0)) (lit RA 10 0) (lit RA 5 0)) as (S & B); [lia|lits; apply sqrt_lt_R0; lra|lits; lra|lits; lra|].
    destruct (Q _ _ S E2 B) as (H1 & H2). split; [exact H1|]. intros i I. rewrite H2, coord_at by exact I. destruct boxed; lits; lra.
  - destruct (st21 n d N P 21 boxed (lit RA 1000 0) (lit RA 98 1) (lit RA 49 1)) as (S & B); [lia|lits; lra|lits; lra|lits; lra|].
    destruct (Q _ _ S E2 B) as (H1 & H2). split; [exact H1|]. intros i I. rewrite H2, coord_at by exact I. destruct boxed; lits; lra.
  - apply (QX _ (st23 n d N P) E2).
  - destruct (Q _ _ (st24 n d N) E2) as (H1 & H2).
    + intros i I. destruct (Rlt_dec _ _); lra.
    + split; [exact H1|]. intros i I. rewrite H2 by exact I. rewrite (coord_at (gauss RA d)). destruct (Rlt_dec _ _); lra.
Qed.
