(** C61: the optimum reported by the problems of the large-scale suite.  C62: they compute the published functions. *)

From Coq Require Import ZArith List Bool Reals Lra Lia Permutation.
From Verif Require Import FunModel FunSpec FunProofs FunOptima FunOptima2 FunDocSpec FunDocProofs LargeModel LargeSpec LargeProofs LargeDoc LargeOptima.
Import ListNotations.
Local Open Scope R_scope.

Theorem C61_delivered : forall function n (d : real_large),
  (exists p, get_largescale_problem real_arith function n d = Some p) <-> (1 <= function <= 24)%nat.
Proof.
  intros f n d. do 25 (destruct f as [|f]; [cbn [get_largescale_problem]; split; [intros (p & E); try discriminate E; lia|intros H; try lia; eexists; reflexivity]|]).
  cbn [get_largescale_problem]. split; [intros (p & E); discriminate E|lia].
Qed.

(** The reported point lies in the region of interest, has the reported value, and no point has a smaller one, in every
    dimension. *)
Theorem C61_optimum : forall function n (d : real_large) p,
  (2 <= n)%nat -> plausible_large n d -> plausible_order function d -> function <> 20%nat ->
  get_largescale_problem real_arith function n d = Some p ->
  optimum n p (lfopt _ d) /\ large_location function n d (best_parameter _ p).
Proof. exact all_large_optima. Qed.

(** The Schwefel function: up to 3e-15. *)
Theorem C61_schwefel : forall n (d : real_large) p,
  (2 <= n)%nat -> get_largescale_problem real_arith 20 n d = Some p ->
  near_optimum (3 / 10 ^ 15) n p (lfopt _ d) /\ large_location 20 n d (best_parameter _ p).
Proof.
  intros n d p N E. replace (3 / 10 ^ 15) with (3 / 1000000000000000) by field. apply large_schwefel; assumption.
Qed.

Theorem C62_definition : forall function n (d : real_large) p x,
  (2 <= n)%nat -> plausible_large n d -> plausible_order function d -> length x = n ->
  get_largescale_problem real_arith function n d = Some p ->
  evaluate _ p x = large_documented n function d (coord x) + lfopt _ d.
Proof.
  intros f n d p x N P O L E. apply (computes_list n p (fun z => large_documented n f d z + lfopt _ d) x); [|exact L].
  apply all_large_documented; assumption.
Qed.

(** Three variables in blocks of two and one: a rotation by 3/5, -4/5, and a permutation that swaps the first two. *)
Definition large3 : real_large := {|
  lxopt := fun _ => [1; -2; 3] : list (num real_arith); lfopt := 7; sizes := [2; 1]%nat;
  block := fun _ => [[3/5; -4/5]; [4/5; 3/5]; [1]]; perm := fun _ => [1; 0; 2]%nat;
  lunif := [1/4; 3/4; 1/2]; lgauss := [-1; 1; 2]; alpha_order := seq 0 100; lambda_order := fun _ => [2; 0; 1]%nat |}.

Example C61_plausible : plausible_large 3 large3 /\ plausible_order 21 large3.
Proof.
  unfold plausible_large, plausible_order, permutation, within. cbn [large3 lxopt perm lambda_order sizes block lunif alpha_order].
  split; [|apply Permutation_refl].
  assert (R2 : orthonormal 2 [[3/5; -4/5]; [4/5; 3/5]; [1]]).
  { intros i j I J. destruct i as [|[|i]]; [..|lia]; destruct j as [|[|j]]; try lia; cbn; field. }
  assert (R1 : orthonormal 1 [[1]]).
  { intros i j I J. destruct i; [|lia]; destruct j; [|lia]; cbn; field. }
  repeat split; try (repeat constructor; lra); try (repeat constructor; lia); try (cbn; exact I); try assumption; try (intros; apply perm_swap).
  intros _. cbn [seq]. apply Permutation_trans with [0; 2; 1]%nat; [apply perm_swap|apply perm_skip, perm_swap].
Qed.

(** The columns of the blocks sum to 7/5, -1/5 and 1; their halves are reported in the order of the permutation. *)
Example C61_griewank : exists p, get_largescale_problem real_arith 19 3 large3 = Some p /\
  optimum 3 p 7 /\ coord (best_parameter _ p) 0 = -1/10 /\ coord (best_parameter _ p) 1 = 7/10 /\ coord (best_parameter _ p) 2 = 1/2.
Proof.
  eexists. split; [reflexivity|].
  destruct (C61_optimum 19 3 large3 _ ltac:(lia) (proj1 C61_plausible) I ltac:(discriminate) eq_refl) as (H1 & H2).
  split; [exact H1|]. pose proof (H2 0%nat ltac:(lia)) as E0. pose proof (H2 1%nat ltac:(lia)) as E1. pose proof (H2 2%nat ltac:(lia)) as E2.
  cbn [large3 perm nth sizes block columns Nat.ltb Nat.leb skipn Nat.sub] in E0, E1, E2. unfold cell in *. cbn [total nth] in *.
  rewrite E0, E1, E2. repeat split; field.
Qed.
Example C61_gallagher : exists p, get_largescale_problem real_arith 21 3 large3 = Some p /\
  optimum 3 p 7 /\ coord (best_parameter _ p) 0 = -2.
Proof.
  eexists. split; [reflexivity|].
  destruct (C61_optimum 21 3 large3 _ ltac:(lia) (proj1 C61_plausible) (proj2 C61_plausible) ltac:(discriminate) eq_refl) as (H1 & H2).
  split; [exact H1|]. rewrite (H2 0%nat ltac:(lia)). unfold coord. cbn [large3 lunif nth]. lra.
Qed.
Example C61_schwefel_location : exists p, get_largescale_problem real_arith 20 3 large3 = Some p /\
  near_optimum (3 / 10 ^ 15) 3 p 7 /\ coord (best_parameter _ p) 0 = -2.10484373165.
Proof.
  eexists. split; [reflexivity|]. destruct (C61_schwefel 3 large3 _ ltac:(lia) eq_refl) as (H1 & H2). split; [exact H1|].
  rewrite (H2 0%nat ltac:(lia)). unfold coord. cbn [large3 lunif nth]. destruct (Rlt_dec (1/4) (1/2)); lra.
Qed.

(** The discus at the origin: (-1, 2, -3) is permuted to (2, -1, -3), rotated to (2, 1, -3) and permuted to (1, 2, -3). *)
Example C62_discus : exists p, get_largescale_problem real_arith 11 3 large3 = Some p /\
  evaluate _ p [0; 0; 0] = 10 ^ 6 * osz 1 ^ 2 + osz 2 ^ 2 + osz (-3) ^ 2 + 7.
Proof.
  eexists. split; [reflexivity|]. rewrite (C62_definition 11 3 large3 _ [0; 0; 0] ltac:(lia) (proj1 C61_plausible) I eq_refl eq_refl).
  unfold large_documented. cbv zeta. unfold first_squares, other_squares. change (axes 3) with 1%nat.
  assert (G : gamma 3 = 1). { unfold gamma. apply Rmin_left. cbn [INR]. lra. }
  rewrite G. cbn [total Nat.sub Nat.add]. unfold Tosz, turn, permuted, minus, coord. cbn [large3 perm nth sizes block blockwise Nat.ltb Nat.leb skipn Nat.sub lxopt lfopt].
  unfold cell. cbn [total nth Nat.add].
  replace (0 + 4 / 5 * (0 - -2) + 3 / 5 * (0 - 1)) with 1 by field. replace (0 + 3 / 5 * (0 - -2) + -4 / 5 * (0 - 1)) with 2 by field.
  replace (0 + 1 * (0 - 3)) with (-3) by field.
  change (1 * (10 ^ 6 * (0 + osz 1 ^ 2) + (0 + osz 2 ^ 2 + osz (-3) ^ 2)) + 7 = 10 ^ 6 * osz 1 ^ 2 + osz 2 ^ 2 + osz (-3) ^ 2 + 7). ring.
Qed.

(** Function 7 is not the published one: near the optimum, where all rounded coordinates vanish, its value is D times
    the published one. *)
Definition large2 : real_large := {|
  lxopt := fun _ => [0; 0] : list (num real_arith); lfopt := 7; sizes := [2]%nat;
  block := fun _ => [[1; 0]; [0; 1]]; perm := fun _ => [0; 1]%nat;
  lunif := []; lgauss := []; alpha_order := []; lambda_order := fun _ => [0; 1]%nat |}.

Theorem C62_step_refuted : exists (d : real_large) p x,
  plausible_large 2 d /\ get_largescale_problem real_arith 7 2 d = Some p /\ length x = 2%nat /\
  step_published 2 d (coord x) <> 0 /\
  evaluate _ p x - lfopt _ d = 2 * step_published 2 d (coord x).
Proof.
  assert (P : plausible_large 2 large2).
  { unfold plausible_large, permutation, within. cbn [large2 lxopt perm lambda_order sizes block lunif].
    assert (R2 : orthonormal 2 [[1; 0]; [0; 1]]).
    { intros i j I J. destruct i as [|[|i]]; [..|lia]; destruct j as [|[|j]]; try lia; cbn; field. }
    repeat split; try (repeat constructor; lra); try (repeat constructor; lia); try (cbn; exact I); try assumption; try (intros; apply Permutation_refl). }
  exists large2. eexists. exists [4/100; 0]. split; [exact P|]. split; [reflexivity|]. split; [reflexivity|].
  rewrite (C62_definition 7 2 large2 _ [4/100; 0] ltac:(lia) P I eq_refl eq_refl).
  unfold large_documented, step_published. cbv zeta. set (z_hat := Lambda 2 10 _).
  assert (E0 : z_hat 0%nat = 4/100).
  { unfold z_hat, Lambda, share, turn, permuted, minus, coord. cbn [large2 perm nth sizes block blockwise Nat.ltb Nat.leb skipn Nat.sub lxopt total INR]. unfold cell. cbn [nth].
    replace (0 / 1 / 2) with 0 by field. rewrite Rpower_O by lra. field. }
  assert (E1 : z_hat 1%nat = 0).
  { unfold z_hat, Lambda, turn, permuted, minus, coord. cbn [large2 perm nth sizes block blockwise Nat.ltb Nat.leb skipn Nat.sub lxopt total]. unfold cell. cbn [nth]. ring. }
  assert (NE : forall v, 0 <= v < 1/2 -> nearest v = 0).
  { intros v V. unfold nearest. assert (F : Int_part (v + 1/2) = 0%Z); [|rewrite F; reflexivity].
    unfold Int_part. rewrite <- (up_tech (v + 1/2) 0); [reflexivity|lra|change (0 + 1)%Z with 1%Z; lra]. }
  assert (S0 : step z_hat 0%nat = 0).
  { unfold step. rewrite E0, (Rabs_pos_eq (4/100)) by lra. destruct (Rlt_dec 0.5 (4/100)); [lra|]. rewrite NE by lra. field. }
  assert (S1 : step z_hat 1%nat = 0).
  { unfold step. rewrite E1, Rabs_R0. destruct (Rlt_dec 0.5 0); [lra|]. rewrite NE by lra. field. }
  assert (T : forall i, (i < 2)%nat -> turn large2 5 1 4 (step z_hat) i = 0).
  { intros i I. unfold turn, permuted. destruct i as [|[|i]]; [..|lia];
      cbn [large2 perm nth sizes block blockwise Nat.ltb Nat.leb skipn Nat.sub total]; rewrite S0, S1; ring. }
  rewrite (total_ext 2 _ (fun _ => 0)) by (intros i I; rewrite T by exact I; ring).
  rewrite total_const, Rmult_0_r, E0, (Rabs_pos_eq (4/100)) by lra.
  assert (G : gamma 2 = 1). { unfold gamma. apply Rmin_left. cbn [INR]. lra. }
  rewrite G. cbn [INR].
  assert (F : fpen 2 (coord [4/100; 0]) = 0).
  { unfold fpen, coord. cbn [total nth]. rewrite Rabs_R0, (Rabs_pos_eq (4/100)), !Rmax_left by lra. ring. }
  rewrite F, !Rmax_left by lra. cbn [large2 lfopt]. split; lra.
Qed.

Print Assumptions C61_delivered.
Print Assumptions C61_optimum.
Print Assumptions C61_schwefel.
Print Assumptions C62_definition.
Print Assumptions C62_step_refuted.
