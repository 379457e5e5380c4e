(** The optima of the large-scale functions. *)

From Coq Require Import ZArith List Bool Reals Lra Lia Permutation.
From Verif Require Import FunModel FunSpec FunProofs FunOptima FunOptima2 FunOptima3 FunOptima4 FunDocSpec FunDocProofs FunDocProofs2 FunDocAll
  LargeModel LargeSpec LargeProofs LargeDoc.
Import ListNotations.
Local Open Scope R_scope.

(** ** Columns of the blocks *)

Lemma columns_bound sizes : forall B j, blocks_orthonormal sizes B -> Forall (fun s => (1 <= s <= 40)%nat) sizes -> Rabs (columns sizes B j) <= 8.
Proof.
  induction sizes as [|s t IH]; intros B j O S; cbn [columns].
  - rewrite Rabs_R0. lra.
  - destruct O as (O & OT). inversion S as [|? ? S1 S2]; subst. destruct (Nat.ltb_spec j s) as [J|J].
    + apply Rle_trans with (R_sqrt.sqrt (INR s)); [exact (column_bound s B O j J)|].
      rewrite <- (sqrt_square 8) by lra. apply sqrt_le_1_alt. rewrite <- INR64. apply le_INR. lia.
    + apply IH; assumption.
Qed.

Lemma blockwise_columns sizes : forall B i, blocks_orthonormal sizes B -> (i < list_sum sizes)%nat ->
  blockwise sizes B (fun j => columns sizes B j / 2) i = 1/2.
Proof.
  induction sizes as [|s t IH]; intros B i O I; [cbn in I; lia|]. change (list_sum (s :: t)) with (s + list_sum t)%nat in I.
  destruct O as (O & OT). cbn [blockwise]. destruct (Nat.ltb_spec i s) as [J|J].
  - rewrite (total_ext s _ (fun j => 1/2 * (column s B j * cell B i j))).
    + rewrite total_scale, (row_column s B O) by exact J. lra.
    + intros j K. cbn [columns]. destruct (Nat.ltb_spec j s); [|lia]. fold (column s B j). field.
  - rewrite <- (IH (skipn s B) (i - s)%nat) by (assumption || lia). apply (blockwise_ext (list_sum t)); [reflexivity|lia|].
    intros j K. cbn [columns]. destruct (Nat.ltb_spec (s + j) s); [lia|]. replace (s + j - s)%nat with j by lia. reflexivity.
Qed.

Lemma skipn_twice {T} a b (l : list T) : skipn b (skipn a l) = skipn (a + b) l.
Proof. revert l. induction a as [|a IH]; intros l; [reflexivity|]. destruct l as [|x l]; [apply skipn_nil|]. apply IH. Qed.

Lemma block_columns_gen B sizes : forall start acc,
  let r := snd (fold_left (fun (s : nat * list R) size =>
    let start := fst s in
    (Nat.add start size,
     snd s ++ vec size (fun j => div RA (loop size (fun i tmp => add RA tmp (entry RA B (Nat.add start i) j)) (zero RA)) (mul RA (lit RA 2 0) 1))))
    sizes (start, acc)) in
  length r = (length acc + list_sum sizes)%nat /\
  (forall j, (j < length acc)%nat -> at_ RA r j = at_ RA acc j) /\
  forall j, (j < list_sum sizes)%nat -> at_ RA r (length acc + j) = columns sizes (skipn start B) j / 2.
Proof.
  induction sizes as [|s t IH]; intros start acc; cbv zeta.
  - cbn [fold_left snd]. split; [cbn; lia|]. split; [reflexivity|]. cbn. lia.
  - cbn [fold_left fst snd].
    match goal with |- context [acc ++ ?v] => set (w := v) end.
    assert (LW : length w = s) by apply (@vec_length R).
    destruct (IH (start + s)%nat (acc ++ w)) as (H1 & H2 & H3). cbv zeta in H1, H2, H3.
    assert (LA : length (acc ++ w) = (length acc + s)%nat) by (rewrite app_length; f_equal; exact LW).
    rewrite LA in H1. rewrite LA in H2. rewrite LA in H3. change (list_sum (s :: t)) with (s + list_sum t)%nat. split; [rewrite H1; lia|]. split.
    + intros j J. rewrite H2 by lia. unfold at_. apply app_nth1. exact J.
    + intros j J. cbn [columns]. destruct (Nat.ltb_spec j s) as [K|K].
      * rewrite H2 by lia. unfold at_. rewrite app_nth2 by (change (num RA) with R; lia). replace (length acc + j - length acc)%nat with j by lia.
        change (at_ RA w j = total s (fun i => cell (skipn start B) i j) / 2). unfold w. rewrite vec_at by exact K. rewrite zero0. lits.
        rewrite loop_total, Rplus_0_l. replace (2/1 * 1) with 2 by field. f_equal. apply total_ext. intros i I. rewrite cell_skipn, cell_eq. reflexivity.
      * replace (length acc + j)%nat with (length acc + s + (j - s))%nat by lia. rewrite H3 by lia. rewrite skipn_twice. reflexivity.
Qed.

Lemma block_columns_at sizes B j : (j < list_sum sizes)%nat -> at_ RA (block_columns RA sizes B 1) j = columns sizes B j / 2.
Proof. intros J. destruct (block_columns_gen B sizes 0 nil) as (_ & _ & H). cbv zeta in H. exact (H j J). Qed.

Lemma evaluate_block p sizes B x : evaluate _ (vars_blockrotation RA B sizes p) x = evaluate _ p (block_apply RA (dimension _ p) sizes B x).
Proof. unfold vars_blockrotation. cbv zeta. destruct (not_zero _ _); reflexivity. Qed.

Lemma bv_best p x : best_value RA (with_best_parameter RA p x) = best_value RA p. Proof. reflexivity. Qed.
Lemma bv_set p v : best_value RA (with_best_value RA p v) = v. Proof. reflexivity. Qed.
Lemma bv_value_shift p v : best_value RA (value_shift RA v p) = best_value RA p + v. Proof. reflexivity. Qed.
Lemma bv_penalize p v : best_value RA (penalize RA v p) = best_value RA p. Proof. reflexivity. Qed.
Lemma bv_norm p : best_value RA (norm_by_dim RA p) = best_value RA p. Proof. reflexivity. Qed.
Lemma bv_shift p o : best_value RA (shift RA o p) = best_value RA p. Proof. reflexivity. Qed.
Lemma bv_conditioning p a : best_value RA (conditioning RA a p) = best_value RA p. Proof. reflexivity. Qed.
Lemma bv_permute p k d : best_value RA (permute RA k d p) = best_value RA p. Proof. reflexivity. Qed.
Lemma bv_rotate p k d : best_value RA (rotate RA k d p) = best_value RA p. Proof. apply blockrotation_copies. Qed.
Lemma bv_x_hat inner s : best_value RA (vars_x_hat_generic RA s inner) = best_value RA (inner nil). Proof. reflexivity. Qed.

Section Optima.
Variable n : nat.
Hypothesis N : (2 <= n)%nat.
Variable d : real_large.
Hypothesis P : plausible_large n d.

Lemma large_within k i : (i < n)%nat -> -5 <= at_ RA (lxopt _ d k) i <= 5.
Proof using P. intros I. destruct (proj1 P k) as (L & W). apply (within_at n 5); assumption. Qed.

Lemma st_shift0 p v o : st n p v (fun _ => 0) -> st n (shift RA o p) v (at_ RA o).
Proof using. clear N P. intros S. eapply st_ext; [apply st_shift; exact S|reflexivity|]. intros i I. apply Rplus_0_l. Qed.
Lemma st_value_shift0 p v b : st n p 0 b -> st n (value_shift RA v p) v b.
Proof using. clear N P. intros S. eapply st_ext; [apply st_obj_shift; exact S| |reflexivity]. apply Rplus_0_l. Qed.

Ltac opt := repeat match goal with
  | |- st n (value_shift RA _ _) _ _ => apply st_value_shift0
  | |- st n (norm_by_dim RA _) _ _ => apply (st_norm n true); [exact N|]
  | |- st n (value_oscillated RA _) _ _ => apply st_obj_oscillate
  | |- st n (value_power RA _ _) _ _ => apply st_obj_power; [lits; lra|]
  | |- st n (penalize RA _ _) _ (at_ RA _) => apply st_penalize; [|exact (large_within _)|]
  | |- st n (shift RA (lxopt _ _ _) _) _ _ => apply st_shift0
  | |- st n (conditioning RA _ _) _ _ => apply st_conditioning
  | |- st n (asymmetric RA _ _) _ _ => apply st_asymmetric
  | |- st n (oscillated RA _) _ _ => apply st_oscillate
  | |- st n (permute RA _ _ _) _ _ => apply st_permutation
  | |- st n (rotate RA _ _ _) _ _ => apply st_blockrotation; [exact (sizes_pos n N d P)|exact (sizes_sum n N d P)|]
  | |- st n (allocate RA n _ _) _ _ => apply (alloc0 n)
  | |- st n (allocate_plain RA n _ _) _ _ => rewrite zero0; apply (st_alloc_plain n)
  end.

Lemma total_sq_zero m (f : nat -> R) : (forall i, f i = 0) -> total m (fun i => f i ^ 2) = 0.
Proof using. clear. intros F. induction m as [|m IH]; [reflexivity|]. cbn [total]. rewrite IH, F. ring. Qed.
Lemma as_vec x : length x = n -> x = vec n (at_ RA x).
Proof using. clear. intros L. symmetry. apply list_vec. exact L. Qed.
Lemma zero_raw (raw : list R -> R) : raw (vec n (fun _ => 0)) = 0 -> raw (repeat 0 n) = 0.
Proof using. clear. rewrite vec_repeat. exact (fun H => H). Qed.

Lemma first_nonneg z : 0 <= first_squares n z. Proof using. apply total_sq_nonneg. Qed.
Lemma other_nonneg z : 0 <= other_squares n z. Proof using. apply total_sq_nonneg. Qed.
Lemma first_zero : first_squares n (fun _ => 0) = 0. Proof using. apply total_sq_zero. reflexivity. Qed.
Lemma other_zero : other_squares n (fun _ => 0) = 0. Proof using. apply total_sq_zero. reflexivity. Qed.

Notation reaches p b := (st n p (lfopt _ d) b).
Notation xo := (at_ RA (lxopt _ d 0)).

Lemma o4 : reaches (bueche_rastrigin_bbob RA n true (plain_draws RA d)) (fun i => if Nat.even i then Rabs (xo i) else xo i).
Proof using N P.
  unfold bueche_rastrigin_bbob. apply st_penalize; [lits; lra| |].
  - intros i I. pose proof (large_within 0 i I) as X. destruct (Nat.even i); [|exact X]. unfold Rabs. destruct (Rcase_abs _); lra.
  - eapply st_ext; [apply st_obj_shift, (st_norm n true); [exact N|apply st_shift, st_oscillate, st_brs, (alloc0 n)]| |].
    + apply bueche_zero; exact N.
    + intros; apply bueche_nonneg.
    + apply Rplus_0_l.
    + intros i I. cbv beta. rewrite Rplus_0_l. apply (bueche_at n (plain_draws RA d)). exact I.
Qed.
Lemma o6 : reaches (attractive_sector_large RA n d) xo.
Proof using N P. unfold attractive_sector_large. opt; [apply attractive_zero; exact N|intros; apply attractive_nonneg]. Qed.

Lemma step_sum_nonneg z : 0 <= total n (fun i => Rpower 10 (2 * share n i) * z i ^ 2).
Proof using.
  clear. induction n as [|m IH] at 1; [cbn; lra|]. cbn [total]. apply Rplus_le_le_0_compat; [exact IH|].
  apply Rmult_le_pos; [left; apply exp_pos|apply pow2_ge_0].
Qed.
Lemma o7 : reaches (step_ellipsoid_large RA n d) xo.
Proof using N P.
  unfold step_ellipsoid_large. opt; [lits; lra|]. apply st_round_step; [exact N| |].
  - opt.
    + apply zero_raw. rewrite step_large_doc by exact N. rewrite (total_ext n _ (fun _ => 0)) by (intros; ring). rewrite total_const, Rmult_0_r.
      replace (0 / 10 ^ 4) with 0 by field. rewrite Rmax_left by lra. ring.
    + intros x X. rewrite (as_vec x X), step_large_doc by exact N. apply Rmult_le_pos; [lra|].
      apply Rle_trans with (2 := Rmax_r _ _). apply step_sum_nonneg.
  - intros c x X C. unfold permute, rotate, vars_permutation. cbn [with_plain_evaluate evaluate]. rewrite evaluate_block. cbn [with_plain_evaluate evaluate dimension].
    match goal with |- 0 <= evaluate RA (allocate_plain RA n ?f ?b) ?y => change (0 <= f y); rewrite (as_vec y) by apply vec_length end.
    rewrite step_large_doc by exact N. apply Rmult_le_pos; [lra|]. apply Rle_trans with (2 := Rmax_r _ _). apply step_sum_nonneg.
Qed.
Lemma o9 : reaches (rosenbrock_rotated_large RA n d) (fun i => 3/4 * xo i).
Proof using N P.
  unfold rosenbrock_rotated_large. cbv zeta. rewrite (factor_small _ (block_size_small n)). opt.
  eapply st_ext; [unfold shift at 1; eapply st_shift| |].
  - do 3 (first [apply st_permutation|apply st_blockrotation; [exact (sizes_pos n N d P)|exact (sizes_sum n N d P)|]]).
    eapply st_ext; [apply st_scale; [lra|]; apply st_shift, st_alloc| |].
    + rewrite lit1. apply rosenbrock_one; exact N.
    + intros; apply rosenbrock_nonneg.
    + reflexivity.
    + intros i I. cbv beta. rewrite repeat_at by exact I. lits. field.
  - reflexivity.
  - intros i I. cbv beta. rewrite vec_at by exact I. lits. lra.
Qed.
Lemma o10 : reaches (ellipsoid_rotated_large RA n d) xo.
Proof using N P. unfold ellipsoid_rotated_large. opt; [apply ellipsoid_zero; exact N|intros; apply ellipsoid_nonneg; lits; lra]. Qed.
Lemma o11 : reaches (discus_large RA n d) xo.
Proof using N P.
  unfold discus_large. opt.
  - apply zero_raw. rewrite discus_large_doc, first_zero, other_zero by exact N. ring.
  - intros x X. rewrite (as_vec x X), discus_large_doc by exact N. pose proof (first_nonneg (at_ RA x)). pose proof (other_nonneg (at_ RA x)). cbn [num RA real_arith] in *. lra.
Qed.
Lemma o12 : reaches (bent_cigar_large RA n d) (at_ RA (lxopt _ d 1)).
Proof using N P.
  unfold bent_cigar_large. opt.
  - apply zero_raw. rewrite cigar_large_doc, first_zero, other_zero by exact N. ring.
  - intros x X. rewrite (as_vec x X), cigar_large_doc by exact N. pose proof (first_nonneg (at_ RA x)). pose proof (other_nonneg (at_ RA x)). cbn [num RA real_arith] in *. lra.
Qed.
Lemma o13 : reaches (sharp_ridge_large RA n d) xo.
Proof using N P.
  unfold sharp_ridge_large. opt.
  - apply zero_raw. rewrite ridge_large_doc, first_zero, other_zero, sqrt_0 by exact N. ring.
  - intros x X. rewrite (as_vec x X), ridge_large_doc by exact N. pose proof (first_nonneg (at_ RA x)). pose proof (sqrt_pos (other_squares n (at_ RA x))). cbn [num RA real_arith] in *. lra.
Qed.
Lemma o14 : reaches (different_powers_large RA n d) xo.
Proof using N P. unfold different_powers_large. opt; [apply powers_zero; exact N|intros; apply powers_nonneg]. Qed.
Lemma o15 : reaches (rastrigin_rotated_large RA n d) xo.
Proof using N P. unfold rastrigin_rotated_large. opt; [apply rastrigin_zero; exact N|intros; apply rastrigin_nonneg]. Qed.
Lemma o16 : reaches (weierstrass_large RA n d) xo.
Proof using N P.
  unfold weierstrass_large. opt.
  - lits. pose proof (INR_ge2 n N). apply Rlt_le, Rdiv_lt_0_compat; lra.
  - apply weierstrass_zero; exact N.
  - intros; apply weierstrass_nonneg; exact N.
Qed.
Lemma o17 c s : 0 <= s -> reaches (schaffers_large RA n c s d) xo.
Proof using N P. intros S. unfold schaffers_large. opt; [exact S|apply schaffers_zero; exact N|intros; apply schaffers_nonneg; exact N]. Qed.
Lemma o23 : reaches (katsuura_large RA n d) xo.
Proof using N P. unfold katsuura_large. opt; [lits; lra|apply katsuura_zero; exact N|intros; apply katsuura_nonneg; exact N]. Qed.


(** *** Griewank-Rosenbrock *)

Lemma griewank_value z : (forall i, (i < n)%nat -> z i = 1) -> griewank_rosenbrock n z = 0.
Proof using N. clear P d. intros Z. rewrite <- griewank_doc by exact N. apply griewank_at; [exact N|]. intros i I. rewrite vec_at by exact I. apply Z. exact I. Qed.
Lemma griewank_value_nonneg z : 0 <= griewank_rosenbrock n z.
Proof using N. clear P d. rewrite <- griewank_doc by exact N. apply griewank_nonneg; [exact N|]. lits. lra. Qed.

Definition best19 : list R := best_parameter RA (griewank_rosenbrock_large RA n (lit RA 10 0) d).

Lemma best19_at j : (j < n)%nat -> at_ RA best19 (nth j (perm _ d 2) 0%nat) = columns (sizes _ d) (block _ d 0) j / 2.
Proof using N P.
  intros J. unfold best19, griewank_rosenbrock_large. cbv zeta. cbn [with_best_parameter best_parameter]. rewrite (factor_small _ (block_size_small n)).
  rewrite (scatter_at n (perm RA d 2) _ _ j (perm_ok n N d P 2)).
  - apply block_columns_at. rewrite (sizes_sum n N d P). exact J.
  - cbn [value_shift obj_shift with_best_value best_parameter with_evaluate permute vars_permutation with_plain_evaluate].
    unfold value_shift, permute, rotate, obj_shift, vars_permutation, vars_blockrotation. cbv zeta. destruct (not_zero _ _); cbn [with_best_value with_evaluate with_plain_evaluate with_best_parameter best_parameter dimension].
    + rewrite repeat_length. unfold scale, vars_scale. cbv zeta. destruct (_ || _); reflexivity.
    + unfold scale, vars_scale. cbv zeta. destruct (_ || _); [apply vec_length|]. apply vec_length.
  - exact J.
Qed.
Lemma best19_length : length best19 = n.
Proof using N P.
  unfold best19, griewank_rosenbrock_large. cbv zeta. cbn [with_best_parameter best_parameter]. rewrite scatter_length.
  unfold value_shift, permute, rotate, obj_shift, vars_permutation, vars_blockrotation. cbv zeta. destruct (not_zero _ _); cbn [with_best_value with_evaluate with_plain_evaluate with_best_parameter best_parameter dimension].
  - rewrite repeat_length. unfold scale, vars_scale. cbv zeta. destruct (_ || _); reflexivity.
  - unfold scale, vars_scale. cbv zeta. destruct (_ || _); [apply vec_length|]. apply vec_length.
Qed.
Lemma best19_within i : (i < n)%nat -> -5 <= at_ RA best19 i <= 5.
Proof using N P.
  intros I. destruct (permutation_onto n (perm _ d 2) i (perm_ok n N d P 2) I) as (j & J & <-). rewrite best19_at by exact J.
  assert (B : Rabs (columns (sizes _ d) (block _ d 0) j) <= 8) by (apply columns_bound; apply P).
  unfold Rabs in B. destruct (Rcase_abs _); lra.
Qed.

Lemma o19 : reaches (griewank_rosenbrock_large RA n (lit RA 10 0) d) (at_ RA best19).
Proof using N P.
  pose proof (large19 n N d P) as C.
  assert (E : forall x, length x = n -> evaluate RA (griewank_rosenbrock_large RA n (lit RA 10 0) d) x =
    griewank_rosenbrock n (fun i => turn d 3 0 2 (at_ RA x) i + 1/2) + lfopt _ d).
  { intros x X. rewrite (as_vec x X) at 1. apply (proj2 (proj2 C)). }
  apply st_direct.
  - apply C.
  - exact best19_length.
  - apply C.
  - unfold griewank_rosenbrock_large. cbv zeta. cbn [with_best_parameter best_value].
    unfold value_shift, permute, rotate, obj_shift, vars_permutation. cbv zeta. cbn [with_best_value best_value with_plain_evaluate].
    rewrite (proj1 (proj2 (proj2 (blockrotation_copies _ _ _)))). cbn [with_plain_evaluate best_value]. unfold scale, vars_scale. cbv zeta.
    assert (Z : best_value RA (allocate RA n (griewank_rosenbrock_raw RA n (lit RA 10 0)) (lit RA 1 0)) = 0).
    { cbn [allocate best_value]. rewrite no_nan. apply griewank_at; [exact N|]. intros i I. rewrite repeat_at by exact I. apply lit1. }
    destruct (_ || _); cbn [with_best_parameter best_value with_evaluate shift vars_shift]; unfold shift, vars_shift; cbv zeta; cbn [with_best_parameter best_value with_evaluate];
      rewrite Z; apply Rplus_0_l.
  - fold best19. rewrite E by exact best19_length. rewrite griewank_value; [apply Rplus_0_l|].
    intros i I. unfold turn, permuted. pose proof (permutation_lt n _ i (perm_ok n N d P 3) I) as J. set (j := nth i (perm RA d 3) 0%nat) in *.
    rewrite (blockwise_ext n _ _ _ (fun j => columns (sizes _ d) (block _ d 0) j / 2)).
    + rewrite blockwise_columns; [lra|apply P|]. rewrite (sizes_sum n N d P). exact J.
    + apply sizes_sum; assumption.
    + exact J.
    + intros k K. apply best19_at. exact K.
  - intros x X. rewrite E by exact X. pose proof (griewank_value_nonneg (fun i => turn d 3 0 2 (at_ RA x) i + 1/2)). cbn [num RA real_arith] in *. lra.
  - intros i I. reflexivity.
Qed.

(** *** Gallagher *)

Lemma weight_bound m i : (2 <= m)%nat -> (i <= m)%nat -> 0 <= weight m i <= 10.
Proof using.
  clear. intros M I. destruct i as [|k]; cbn [weight]; [lra|].
  assert (1 <= INR (m - 1)) by (change 1 with (INR 1); apply le_INR; lia). pose proof (pos_INR k).
  assert (INR k <= INR (m - 1)) by (apply le_INR; lia).
  assert (0 <= 8 * INR k / INR (m - 1) <= 8).
  { split.
    - apply Rmult_le_pos; [lra|]. apply Rlt_le, Rinv_0_lt_compat. lra.
    - apply (Rmult_le_reg_r (INR (m - 1))); [lra|]. unfold Rdiv. rewrite Rmult_assoc, Rinv_l by lra. lra. }
  lra.
Qed.
Lemma greatest_le m f c : (forall i, (i <= m)%nat -> f i <= c) -> greatest m f <= c.
Proof using. clear. induction m as [|m IH]; intros H; cbn [greatest]; [apply H; lia|]. apply Rmax_lub; [apply IH; intros; apply H; lia|apply H; lia]. Qed.
Lemma greatest_ge m f : f 0%nat <= greatest m f.
Proof using. clear. induction m as [|m IH]; cbn [greatest]; [lra|]. apply Rle_trans with (1 := IH). apply Rmax_l. Qed.

Lemma core_nonneg m peak x : (2 <= m)%nat -> (forall i, (i <= m)%nat -> 0 <= peak i x) -> 0 <= gallagher_core RA n (S m) peak x.
Proof using N.
  intros M H. rewrite core_doc by assumption.
  assert (G : greatest m (fun i => weight m i * Rtrigo_def.exp (- (1 / (2 * INR n)) * peak i x)) <= 10).
  { apply greatest_le. intros i I. destruct (weight_bound m i M I) as (W0 & W1). pose proof (INR_ge2 n N). specialize (H i I).
    assert (Rtrigo_def.exp (- (1 / (2 * INR n)) * peak i x) <= 1).
    { assert (- (1 / (2 * INR n)) * peak i x <= 0).
      { assert (0 <= 1 / (2 * INR n) * peak i x); [|lra]. apply Rmult_le_pos; [|exact H]. apply Rlt_le, Rdiv_lt_0_compat; lra. }
      destruct (Req_dec (- (1 / (2 * INR n)) * peak i x) 0) as [->|]; [rewrite exp_0; lra|]. left. rewrite <- exp_0 at 2. apply exp_increasing. lra. }
    pose proof (exp_pos (- (1 / (2 * INR n)) * peak i x)). nra. }
  lra.
Qed.
Lemma core_zero m peak x : (2 <= m)%nat -> (forall i, (i <= m)%nat -> 0 <= peak i x) -> peak 0%nat x = 0 -> gallagher_core RA n (S m) peak x = 0.
Proof using N.
  intros M H Z. pose proof (core_nonneg m peak x M H) as G. rewrite core_doc in * by assumption.
  pose proof (greatest_ge m (fun i => weight m i * Rtrigo_def.exp (- (1 / (2 * INR n)) * peak i x))) as K. cbv beta in K.
  rewrite Z, Rmult_0_r, exp_0 in K. cbn [weight] in K. lra.
Qed.

Lemma peak_sum_nonneg a y z Q : 0 < a -> 0 <= total n (fun j => Rpower a (share n (nth j Q 0%nat) / 2) / Rpower a (1/4) * blockwise (sizes RA d) (block RA d 0) (minus z y) j ^ 2).
Proof using.
  clear. intros A. set (f := fun j : nat => _).
  assert (F : forall j, 0 <= f j).
  { intros j. apply Rmult_le_pos; [|apply pow2_ge_0]. apply Rlt_le, Rdiv_lt_0_compat; apply exp_pos. }
  clearbody f. induction n as [|m IH]; [cbn; lra|]. cbn [total]. specialize (F m). lra.
Qed.

Lemma o21 m alpha0 b c : (2 <= m)%nat -> 0 < alpha0 -> permutation m (alpha_order _ d) -> 0 <= b <= 10 -> c = b / 2 ->
  st n (gallagher_large RA n (S m) alpha0 b c d) (lfopt _ d) (fun i => 0.8 * (b * coord (lunif _ d) i - c)) /\
  (forall i, (i < n)%nat -> -5 <= 0.8 * (b * coord (lunif _ d) i - c) <= 5).
Proof using N P.
  intros M A O B C.
  assert (W : forall i, -5 <= 0.8 * (b * coord (lunif _ d) i - c) <= 5).
  { intros i. assert (0 <= coord (lunif _ d) i <= 1).
    { unfold coord. destruct (@nth_in_or_default R i (lunif RA d) 0) as [I| ->]; [|lra]. destruct P as (_ & _ & _ & _ & _ & _ & U). rewrite Forall_forall in U. apply (U _ I). }
    nra. }
  split; [|intros; apply W].
  unfold gallagher_large. cbv zeta. apply st_value_shift0. apply st_penalize; [lits; lra|intros; apply W|]. apply st_obj_power; [lits; lra|]. apply st_obj_oscillate.
  set (peak := fun i => evaluate RA (gallagher_peak RA n (model_alphas d m alpha0 i) (lambda_order RA d i) (block_apply RA n (sizes RA d) (block RA d 0) (model_peak n d b c i)))).
  assert (PN : forall x i, length x = n -> (i <= m)%nat -> 0 <= peak i (block_apply RA n (sizes RA d) (block RA d 0) x)).
  { intros x i X I. rewrite (as_vec x X), block_apply_vec by (apply (sizes_pos n N d P) || apply (sizes_sum n N d P)).
    unfold peak. rewrite (sub_doc n N d P) by assumption. apply peak_sum_nonneg. destruct i; [exact A|apply exp_pos]. }
  assert (Z0 : gallagher_core RA n (S m) peak (block_apply RA n (sizes RA d) (block RA d 0) (model_peak n d b c 0)) = 0).
  { apply core_zero; [exact M| |].
    - intros i I. apply PN; [apply vec_length|exact I].
    - unfold peak. rewrite (model_peak_eq n d b c 0) at 2. rewrite block_apply_vec by (apply (sizes_pos n N d P) || apply (sizes_sum n N d P)).
      rewrite (sub_doc n N d P) by (assumption || lia). rewrite (total_ext n _ (fun _ => 0)); [rewrite total_const; ring|].
      intros j J. rewrite blockwise_zero; [ring|]. intros k. unfold minus. ring. }
  apply st_direct; cbn [with_best_parameter dimension best_parameter best_value evaluate].
  - apply blockrotation_copies.
  - apply vec_length.
  - unfold box. cbn [with_best_parameter smallest largest]. unfold rotate. rewrite !(proj1 (blockrotation_copies _ _ _)), !(proj1 (proj2 (blockrotation_copies _ _ _))). split; reflexivity.
  - unfold rotate. rewrite !(proj1 (proj2 (proj2 (blockrotation_copies _ _ _)))). exact Z0.
  - unfold rotate. rewrite evaluate_block. exact Z0.
  - intros x X. unfold rotate. rewrite evaluate_block. cbn [with_best_value allocate_plain evaluate dimension].
    apply core_nonneg; [exact M|]. intros i I. apply (PN x i X I).
  - intros i I. rewrite vec_at by exact I. rewrite Nat.mul_0_l, Nat.add_0_r, coord_at. lits. lra.
Qed.

(** *** Lunacek *)

Lemma fpen_nonneg z : 0 <= fpen n z. Proof using. unfold fpen. apply total_sq_nonneg. Qed.
Lemma fpen_inside z : (forall i, (i < n)%nat -> -5 <= z i <= 5) -> fpen n z = 0.
Proof using.
  clear. intros Z. unfold fpen. rewrite (total_ext n _ (fun _ => 0)); [rewrite total_const; ring|].
  intros i I. specialize (Z i I). rewrite Rmax_left; [ring|]. unfold Rabs. destruct (Rcase_abs _); lra.
Qed.

Lemma cos_total z : total n (fun i => Rtrigo_def.cos (2 * PI * z i)) <= INR n.
Proof using.
  clear. replace (INR n) with (INR n * 1) by ring. rewrite <- total_const. apply total_le. intros i I. apply COS_bound.
Qed.

Lemma lunacek_value_nonneg z : 0 <= large_documented n 24 d z.
Proof using N.
  unfold large_documented. cbv zeta. apply Rplus_le_le_0_compat; [|apply Rmult_le_pos; [lra|apply fpen_nonneg]].
  apply Rmult_le_pos; [apply gamma_nonneg; exact N|].
  match goal with |- context [fun i => Rtrigo_def.cos (2 * PI * ?t i)] => pose proof (cos_total t) end.
  apply Rplus_le_le_0_compat; [|lra]. apply Rmin_glb; [apply total_sq_nonneg|].
  apply Rplus_le_le_0_compat; [apply pos_INR|]. apply Rmult_le_pos; [|apply total_sq_nonneg].
  rewrite <- lunacek_constant by exact N. pose proof (lunacek_s n N) as S. lits. exact S.
Qed.
Lemma lunacek_value_zero z : (forall i, (i < n)%nat -> z i = if Rlt_dec (coord (lgauss _ d) i) 0 then -1.25 else 1.25) -> large_documented n 24 d z = 0.
Proof using N P.
  intros Z. unfold large_documented. cbv zeta. rewrite fpen_inside.
  2:{ intros i I. rewrite Z by exact I. destruct (Rlt_dec _ 0); lra. }
  set (s := fun i => if Rlt_dec (coord (lgauss _ d) i) 0 then -1 else 1).
  assert (E : forall i, (i < n)%nat -> 2 * s i * z i - 2.5 = 0).
  { intros i I. unfold s. rewrite Z by exact I. destruct (Rlt_dec _ 0); lra. }
  assert (T : forall z', (forall i, (i < n)%nat -> z' i = 0) -> forall a b e i, (i < n)%nat -> turn d a b e z' i = 0).
  { intros z' Z' a b e i I. unfold turn, permuted. rewrite (blockwise_ext n _ _ _ (fun _ => 0)).
    - apply blockwise_zero. reflexivity.
    - apply sizes_sum; assumption.
    - apply permutation_lt; [apply perm_ok; assumption|exact I].
    - intros j J. apply Z'. apply permutation_lt; [apply perm_ok; assumption|exact J]. }
  rewrite (total_ext n (fun i => Rtrigo_def.cos _) (fun _ => 1)).
  2:{ intros i I. rewrite T; [rewrite Rmult_0_r; apply cos_0| |exact I]. intros j J. unfold Lambda. rewrite T; [ring|exact E|exact J]. }
  match goal with |- context [Rmin (total n ?f) _] => rewrite (total_ext n f (fun _ => 0)) end.
  2:{ intros i I. specialize (E i I). unfold s in E. rewrite E. ring. }
  rewrite !total_const. rewrite Rmin_left.
  - ring.
  - rewrite Rmult_0_r. apply Rplus_le_le_0_compat; [apply pos_INR|]. apply Rmult_le_pos; [|apply total_sq_nonneg].
    rewrite <- lunacek_constant by exact N. pose proof (lunacek_s n N) as S. lits. exact S.
Qed.

Definition best24 (i : nat) : R := if Rlt_dec (coord (lgauss _ d) i) 0 then -1.25 else 1.25.
Lemma o24 : reaches (lunacek_large RA n d) best24.
Proof using N P.
  pose proof (large24 n N d P) as C.
  assert (E : forall x, length x = n -> evaluate RA (lunacek_large RA n d) x = large_documented n 24 d (at_ RA x) + lfopt _ d).
  { intros x X. rewrite (as_vec x X) at 1. apply (proj2 (proj2 C)). }
  assert (L : length (best_parameter RA (lunacek_large RA n d)) = n) by apply vec_length.
  assert (F : forall i, (i < n)%nat -> at_ RA (best_parameter RA (lunacek_large RA n d)) i = best24 i).
  { intros i I. unfold lunacek_large. cbv zeta. cbn [with_best_parameter best_parameter]. rewrite vec_at by exact I. rewrite vec_at by exact I.
    rewrite lt_dec, zero0, coord_at. unfold best24. lits. destruct (Rlt_dec _ 0); lra. }
  apply st_direct; try assumption.
  - apply C.
  - apply C.
  - unfold lunacek_large. cbv zeta. rewrite bv_best, bv_value_shift, bv_penalize, bv_norm, bv_x_hat, bv_shift.
    rewrite bv_permute, bv_rotate, bv_permute, bv_conditioning, bv_permute, bv_rotate, bv_permute, bv_set, zero0. apply Rplus_0_l.
  - rewrite E by exact L. rewrite lunacek_value_zero; [apply Rplus_0_l|]. exact F.
  - intros x X. rewrite E by exact X. pose proof (lunacek_value_nonneg (at_ RA x)). cbn [num RA real_arith] in *. lra.
Qed.

End Optima.

(** ** All of them *)

Lemma all_large_optima function n d p : (2 <= n)%nat -> plausible_large n d -> plausible_order function d -> function <> 20%nat ->
  get_largescale_problem RA function n d = Some p ->
  optimum n p (lfopt _ d) /\ large_location function n d (best_parameter _ p).
Proof.
  intros N P O F20 E.
  assert (X := large_within n d P).
  assert (Q : forall q b, st n q (lfopt RA d) b -> p = q -> (forall i, (i < n)%nat -> -5 <= b i <= 5) ->
    optimum n p (lfopt RA d) /\ forall i, (i < n)%nat -> coord (best_parameter RA p) i = b i).
  { intros q b S -> B. split; [apply (st_optimum n q _ b S B)|]. intros i I. rewrite FunOptima3.coord_at. apply S. exact I. }
  assert (QX : forall k q, st n q (lfopt RA d) (at_ RA (lxopt RA d k)) -> p = q ->
    optimum n p (lfopt RA d) /\ forall i, (i < n)%nat -> coord (best_parameter RA p) i = coord (lxopt RA d k) i).
  { intros k q S Eq. destruct (Q q _ S Eq (X k)) as (H1 & H2). split; [exact H1|]. intros i I. rewrite H2 by exact I. symmetry. apply FunOptima3.coord_at. }
  unfold large_location.
  assert (E' : Some p = get_largescale_problem RA function n d) by (symmetry; exact E).
  destruct function as [|[|[|[|[|[|[|[|[|[|[|[|[|[|[|[|[|[|[|[|[|[|[|[|[|f]]]]]]]]]]]]]]]]]]]]]]]]]; cbn [get_largescale_problem] in E';
    try discriminate E'; try (contradiction (F20 eq_refl)).
  all: match type of E' with Some ?a = Some ?q => assert (E2 : a = q) by congruence; clear E E' end.
  - apply (QX 0%nat _ (st1 n (plain_draws RA d) N true) E2).
  - apply (QX 0%nat _ (st2 n (plain_draws RA d) N true) E2).
  - apply (QX 0%nat _ (st3 n (plain_draws RA d) N true) E2).
  - destruct (Q _ _ (o4 n N d P) E2) as (H1 & H2).
    + intros i I. specialize (X 0%nat i I). destruct (Nat.even i); [|exact X]. unfold Rabs. destruct (Rcase_abs _); lra.
    + split; [exact H1|]. intros i I. rewrite !FunOptima3.coord_at, <- H2, FunOptima3.coord_at by exact I. reflexivity.
  - destruct (Q _ _ (st5 n (plain_draws RA d) N true) E2) as (H1 & H2).
    + intros i I. destruct (Rlt_dec _ _); lra.
    + split; [exact H1|]. intros i I. rewrite H2 by exact I. rewrite (FunOptima3.coord_at (lxopt RA d 0)). reflexivity.
  - apply (QX 0%nat _ (o6 n N d P) E2).
  - apply (QX 0%nat _ (o7 n N d P) E2).
  - destruct (Q _ _ (st8 n (plain_draws RA d) N true (block_size n)) E2) as (H1 & H2).
    + intros i I. specialize (X 0%nat i I). cbn [plain_draws xopt]. lra.
    + split; [exact H1|]. intros i I. rewrite (H2 i I), (FunOptima3.coord_at (lxopt RA d 0)). reflexivity.
  - destruct (Q _ _ (o9 n N d P) E2) as (H1 & H2).
    + intros i I. specialize (X 0%nat i I). lra.
    + split; [exact H1|]. intros i I. rewrite (H2 i I), (FunOptima3.coord_at (lxopt RA d 0)). reflexivity.
  - apply (QX 0%nat _ (o10 n N d P) E2).
  - apply (QX 0%nat _ (o11 n N d P) E2).
  - apply (QX 1%nat _ (o12 n N d P) E2).
  - apply (QX 0%nat _ (o13 n N d P) E2).
  - apply (QX 0%nat _ (o14 n N d P) E2).
  - apply (QX 0%nat _ (o15 n N d P) E2).
  - apply (QX 0%nat _ (o16 n N d P) E2).
  - apply (QX 0%nat _ (o17 n N d P (lit RA 10 0) (lit RA 10 0) ltac:(lits; lra)) E2).
  - apply (QX 0%nat _ (o17 n N d P (lit RA 1000 0) (lit RA 10 0) ltac:(lits; lra)) E2).
  - destruct (Q _ _ (o19 n N d P) E2 (best19_within n N d P)) as (H1 & H2). split; [exact H1|]. intros i I.
    rewrite H2 by (apply permutation_lt; [apply P|exact I]). apply (best19_at n N d P i I).
  - destruct (o21 n N d P 100 (lit RA 1000 0) (lit RA 10 0) (lit RA 5 0)) as (S & B); [lia|lits; lra|exact O|lits; lra|lits; lra|].
    destruct (Q _ _ S E2 B) as (H1 & H2). split; [exact H1|]. intros i I. rewrite H2 by exact I. lits. lra.
  - destruct (o21 n N d P 20 (mul RA (lit RA 1000 0) (lit RA 1000 0)) (lit RA 98 1) (lit RA 49 1)) as (S & B); [lia|lits; lra|exact O|lits; lra|lits; lra|].
    destruct (Q _ _ S E2 B) as (H1 & H2). split; [exact H1|]. intros i I. rewrite H2 by exact I. lits. lra.
  - apply (QX 0%nat _ (o23 n N d P) E2).
  - destruct (Q _ _ (o24 n N d P) E2) as (H1 & H2).
    + intros i I. unfold best24. destruct (Rlt_dec _ _); lra.
    + split; [exact H1|]. exact H2.
Qed.

Lemma large_schwefel n d p : (2 <= n)%nat -> get_largescale_problem RA 20 n d = Some p ->
  near_optimum (3 / 1000000000000000) n p (lfopt _ d) /\ large_location 20 n d (best_parameter _ p).
Proof.
  intros N E. cbn [get_largescale_problem] in E. assert (E2 : p = schwefel_large RA n d) by congruence. rewrite schwefel_same in E2. subst p. split.
  - exact (schwefel_near_optimum n (plain_draws RA d) N).
  - exact (schwefel_location n (plain_draws RA d) N false).
Qed.
