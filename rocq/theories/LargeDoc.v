(** The constructed large-scale problems compute the published functions. *)

From Coq Require Import ZArith List Bool Reals Lra Lia Permutation FunctionalExtensionality.
From Verif Require Import FunModel FunSpec FunProofs FunOptima FunOptima2 FunDocSpec FunDocProofs FunDocProofs2 FunDocAll LargeModel LargeSpec LargeProofs.
Import ListNotations.
Local Open Scope R_scope.

Section Dimension.
Variable n : nat.
Hypothesis N : (2 <= n)%nat.
Variable d : real_large.
Hypothesis P : plausible_large n d.
Notation o := (coord (lxopt _ d 0)).

Lemma sizes_pos : Forall (fun s => (1 <= s)%nat) (sizes _ d).
Proof using N P. destruct P as (_ & _ & _ & S & _). eapply Forall_impl; [|exact S]. cbv beta. intros; lia. Qed.
Lemma sizes_sum : list_sum (sizes _ d) = n.
Proof using N P. apply P. Qed.
Lemma perm_ok k : permutation n (perm _ d k).
Proof using N P. apply P. Qed.

Ltac chain := repeat (match goal with
  | |- computes n (value_shift RA _ _) _ => eapply computes_add
  | |- computes n (penalize RA _ _) _ => eapply computes_pen
  | |- computes n (norm_by_dim RA _) _ => eapply computes_norm
  | |- computes n (value_oscillated RA _) _ => eapply computes_obj_osz
  | |- computes n (value_power RA _ _) _ => eapply computes_obj_pow
  | |- computes n (shift RA (lxopt _ _ _) _) _ => eapply (computes_shift n); [|intros; reflexivity]
  | |- computes n (scale RA _ _) _ => eapply (computes_scale n)
  | |- computes n (conditioning RA _ _) _ => eapply (computes_lambda n N); [lits; lra|]
  | |- computes n (asymmetric RA _ _) _ => eapply (computes_asy n N)
  | |- computes n (oscillated RA _) _ => eapply (computes_osz n)
  | |- computes n (permute RA _ _ _) _ => eapply (computes_permutation n); [apply perm_ok|]
  | |- computes n (rotate RA _ _ _) _ => eapply (computes_block n); [exact sizes_pos|exact sizes_sum|]
  | |- computes n (allocate RA n _ _) _ => eapply (computes_alloc n); intros
  | |- computes n (allocate_plain RA n _ _) _ => eapply (computes_alloc_plain n); intros
  end).

Ltac nums := lits; replace (10/1) with 10 in * by field; replace (100/1) with 100 in * by field; replace (2/10) with 0.2 in * by lra;
  replace (5/10) with 0.5 in * by lra; replace (1000/1) with 1000 in * by field.

Notation claims_as p F := (computes n p (fun z => F z + lfopt _ d)).
Notation claims p f := (computes n p (fun z => large_documented n f d z + lfopt _ d)).

Lemma large10 : claims (ellipsoid_rotated_large RA n d) 10.
Proof using N P. unfold ellipsoid_rotated_large. eapply computes_ext; [chain; apply ellipsoid_doc; exact N|]. reflexivity. Qed.
Lemma large11 : claims (discus_large RA n d) 11.
Proof using N P. unfold discus_large. eapply computes_ext; [chain; apply discus_large_doc; exact N|]. reflexivity. Qed.
Lemma large12 : claims (bent_cigar_large RA n d) 12.
Proof using N P.
  unfold bent_cigar_large. eapply computes_ext; [chain; apply cigar_large_doc; exact N|]. intros z. cbv beta. nums. reflexivity.
Qed.
Lemma large13 : claims (sharp_ridge_large RA n d) 13.
Proof using N P.
  unfold sharp_ridge_large. eapply computes_ext; [chain; apply ridge_large_doc; exact N|]. intros z. cbv beta. nums. reflexivity.
Qed.
Lemma large14 : claims (different_powers_large RA n d) 14.
Proof using N P. unfold different_powers_large. eapply computes_ext; [chain; apply powers_doc; exact N|]. reflexivity. Qed.
Lemma large15 : claims (rastrigin_rotated_large RA n d) 15.
Proof using N P.
  unfold rastrigin_rotated_large. eapply computes_ext; [chain; apply rastrigin_doc; exact N|]. intros z. cbv beta. nums. reflexivity.
Qed.
Lemma large16 : claims (weierstrass_large RA n d) 16.
Proof using N P.
  unfold weierstrass_large. eapply computes_ext; [chain; apply weierstrass_doc; exact N|]. intros z. cbv beta. nums.
  replace (1/1) with 1 by field. reflexivity.
Qed.
Lemma large17 : claims (schaffers_large RA n (lit RA 10 0) (lit RA 10 0) d) 17.
Proof using N P.
  unfold schaffers_large. eapply computes_ext; [chain; apply schaffers_doc; exact N|]. intros z. cbv beta. nums. reflexivity.
Qed.
Lemma large18 : claims (schaffers_large RA n (lit RA 1000 0) (lit RA 10 0) d) 18.
Proof using N P.
  unfold schaffers_large. eapply computes_ext; [chain; apply schaffers_doc; exact N|]. intros z. cbv beta. nums. reflexivity.
Qed.
Lemma large23 : claims (katsuura_large RA n d) 23.
Proof using N P.
  unfold katsuura_large. eapply computes_ext; [chain; apply katsuura_doc; exact N|]. intros z. cbv beta. nums.
  unfold large_documented. replace (1/1) with 1 by field. rewrite Rmult_1_l. reflexivity.
Qed.

Ltac chain_to_plain := unfold value_shift, penalize, norm_by_dim, value_oscillated, value_power, shift, scale, conditioning, asymmetric, oscillated in *.
Ltac chain_bbob := repeat (match goal with
  | |- computes n (obj_shift RA _ _) _ => eapply computes_add
  | |- computes n (obj_penalize RA _ _) _ => eapply computes_pen
  | |- computes n (obj_norm_by_dim RA _) _ => eapply computes_norm
  | |- computes n (vars_shift RA _ _) _ => eapply (computes_shift n); [|intros; reflexivity]
  | |- computes n (vars_scale RA _ _) _ => eapply (computes_scale n)
  | |- computes n (vars_conditioning RA _ _) _ => eapply (computes_lambda n N); [lits; lra|]
  | |- computes n (vars_asymmetric RA _ _) _ => eapply (computes_asy n N)
  | |- computes n (vars_oscillate RA _) _ => eapply (computes_osz n)
  | |- computes n (allocate RA n _ _) _ => eapply (computes_alloc n); intros
  end).

Lemma large1 : claims (sphere_bbob RA n true (plain_draws RA d)) 1.
Proof using N. unfold sphere_bbob, norm_if. eapply computes_ext; [chain_bbob; apply sphere_doc; exact N|]. reflexivity. Qed.
Lemma large2 : claims (ellipsoid_bbob RA n true (plain_draws RA d)) 2.
Proof using N. unfold ellipsoid_bbob, norm_if. eapply computes_ext; [chain_bbob; apply ellipsoid_doc; exact N|]. reflexivity. Qed.
Lemma large3 : claims (rastrigin_bbob RA n true (plain_draws RA d)) 3.
Proof using N. unfold rastrigin_bbob, norm_if. eapply computes_ext; [chain_bbob; apply rastrigin_doc; exact N|]. intros z. cbv beta. nums. reflexivity. Qed.
Lemma large4 : claims (bueche_rastrigin_bbob RA n true (plain_draws RA d)) 4.
Proof using N.
  assert (X : forall i, (i < n)%nat -> coord (bueche_xopt RA n (lxopt _ d 0)) i = if Nat.even i then Rabs (o i) else o i).
  { intros i I. rewrite <- coord_at. unfold bueche_xopt. rewrite vec_at by exact I. rewrite coord_at. reflexivity. }
  unfold bueche_rastrigin_bbob, norm_if. eapply computes_ext.
  - apply computes_pen, computes_add, computes_norm. eapply computes_shift; [|exact X]. apply computes_osz, computes_brs; [exact N|].
    apply computes_alloc. apply bueche_doc. exact N.
  - intros z. cbv beta. unfold large_documented. cbn [plain_draws fopt]. nums. change (lfopt real_arith d) with (lfopt RA d). lra.
Qed.
Lemma large5 : claims (linear_slope_bbob RA n true (plain_draws RA d)) 5.
Proof using N.
  assert (X : forall i, (i < n)%nat -> at_ RA (linear_slope_best RA n (lxopt _ d 0)) i = (if Rlt_dec (o i) 0 then -5 else 5) /\
    ((if Rlt_dec (o i) 0 then -5 else 5) = 5 \/ (if Rlt_dec (o i) 0 then -5 else 5) = -5)).
  { intros i I. unfold linear_slope_best. rewrite vec_at by exact I. rewrite lt_dec, zero0, coord_at. lits. destruct (Rlt_dec (o i) 0); split; lra. }
  unfold linear_slope_bbob, norm_if, linear_slope_allocate. cbv zeta.
  apply (computes_add n _ (fun z => gamma n * slope n (fun i => if Rlt_dec (o i) 0 then -5 else 5) z)). apply computes_norm.
  apply computes_value. apply computes_best. apply computes_alloc. intros z. apply slope_doc; [exact N|exact X].
Qed.
Lemma gamma_nonneg : 0 <= gamma n.
Proof using N.
  unfold gamma. pose proof (INR_ge2 n N). apply Rmin_glb; [lra|]. apply Rmult_le_pos; [lra|]. apply Rlt_le, Rinv_0_lt_compat. lra.
Qed.
Lemma large6 : claims (attractive_sector_large RA n d) 6.
Proof using N P.
  unfold attractive_sector_large. eapply computes_ext; [chain; apply (sector_doc n N (lxopt _ d 0))|].
  intros z. cbv beta. f_equal. unfold large_documented. cbv zeta. unfold sector. rewrite pow_power.
  - nums. replace (9/10) with 0.9 by lra. reflexivity.
  - apply osz_nonneg. apply Rmult_le_pos; [exact gamma_nonneg|apply total_sq_nonneg].
  - lits. lra.
Qed.
Lemma large7 : claims (step_ellipsoid_large RA n d) 7.
Proof using N P.
  unfold step_ellipsoid_large. eapply computes_ext.
  - chain. apply computes_round_step; [exact N|]. intros c. chain. apply step_large_doc. exact N.
  - intros z. cbv beta. nums. unfold large_documented. cbv zeta. f_equal. replace (1/1) with 1 by field. rewrite Rmult_1_l. f_equal. f_equal. f_equal. f_equal.
    rewrite Rmult_comm. reflexivity.
Qed.

Lemma block_size_small : (block_size n <= 64)%nat.
Proof using. clear N P d. unfold block_size. lia. Qed.
Lemma three_quarters i : (i < n)%nat -> coord (vec n (fun i => mul RA (at_ RA (lxopt _ d 0) i) (lit RA 75 2))) i = 3/4 * o i.
Proof using. intros I. rewrite <- coord_at. rewrite vec_at by exact I. rewrite coord_at. lits. lra. Qed.
Lemma minus_one i : (i < n)%nat -> coord (repeat (lit RA (-1) 0) n) i = -1.
Proof using.
  intros I. rewrite <- coord_at. change (repeat (lit RA (-1) 0) n) with (repeat (lit RA (-1) 0 : R) n). rewrite repeat_at by exact I. lits. lra.
Qed.
Lemma large8 : claims (rosenbrock_bbob RA n true (block_size n) (plain_draws RA d)) 8.
Proof using N.
  unfold rosenbrock_bbob, norm_if. cbv zeta. rewrite (factor_small _ block_size_small). eapply computes_ext.
  - apply computes_add, computes_norm. eapply computes_shift; [|exact three_quarters]. apply computes_scale. eapply computes_shift; [|exact minus_one].
    apply computes_alloc. apply rosenbrock_doc. exact N.
  - intros z. cbv beta. f_equal. unfold large_documented. f_equal. unfold rosenbrock, minus. apply total_ext. intros i I. ring.
Qed.
Lemma large9 : claims (rosenbrock_rotated_large RA n d) 9.
Proof using N P.
  unfold rosenbrock_rotated_large. cbv zeta. rewrite (factor_small _ block_size_small). eapply computes_ext.
  - apply computes_add, computes_norm. eapply computes_shift; [|exact three_quarters]. chain. eapply computes_shift; [|exact minus_one].
    apply computes_alloc. apply rosenbrock_doc. exact N.
  - intros z. cbv beta. f_equal. unfold large_documented. f_equal. unfold rosenbrock, minus. apply total_ext. intros i I. fold (turn d 3 0 2 (fun i => z i - 3/4 * o i)).
    change (permuted (perm RA d 3) (blockwise (sizes RA d) (block RA d 0) (permuted (perm RA d 2) (fun i0 => z i0 - 3 / 4 * o i0)))) with (turn d 3 0 2 (fun i0 => z i0 - 3 / 4 * o i0)).
    ring.
Qed.
Lemma large19 : claims (griewank_rosenbrock_large RA n (lit RA 10 0) d) 19.
Proof using N P.
  assert (Y : forall i, (i < n)%nat -> coord (repeat (opp RA (lit RA 5 1)) n) i = - (1/2)).
  { intros i I. rewrite <- coord_at. change (repeat (opp RA (lit RA 5 1)) n) with (repeat (opp RA (lit RA 5 1) : R) n). rewrite repeat_at by exact I. lits. lra. }
  unfold griewank_rosenbrock_large. cbv zeta. apply computes_best. rewrite (factor_small _ block_size_small). eapply computes_ext.
  - apply computes_add. chain. eapply computes_shift; [|exact Y]. apply computes_alloc. apply griewank_doc. exact N.
  - intros z. cbv beta. f_equal. unfold large_documented. unfold griewank_rosenbrock, minus. cbv zeta. f_equal. f_equal. apply total_ext. intros i I.
    change (permuted (perm RA d 3) (blockwise (sizes RA d) (block RA d 0) (permuted (perm RA d 2) z))) with (turn d 3 0 2 z).
    replace (1 * turn d 3 0 2 z i - - (1/2)) with (turn d 3 0 2 z i + 1/2) by ring.
    replace (1 * turn d 3 0 2 z (S i) - - (1/2)) with (turn d 3 0 2 z (S i) + 1/2) by ring. reflexivity.
Qed.

(** The generalised Schwefel function is the Schwefel function. *)
Lemma allocate_no_nan raw b : allocate_plain RA n raw b = allocate RA n raw b.
Proof using.
  unfold allocate_plain, allocate. rewrite no_nan. f_equal. apply functional_extensionality. intros x. rewrite no_nan. reflexivity.
Qed.
Lemma schwefel_same : schwefel_large RA n d = schwefel_bbob RA n (plain_draws RA d).
Proof using.
  clear N P. unfold schwefel_large, schwefel_bbob. cbv zeta. rewrite allocate_no_nan. cbn [plain_draws unif fopt].
  assert (E : schwefel_generalized_raw RA n = schwefel_raw RA n).
  { apply functional_extensionality. intros x. unfold schwefel_generalized_raw, schwefel_raw. cbv zeta. f_equal. f_equal. f_equal.
    lits. field. }
  rewrite E.
  assert (X : schwefel_generalized_xopt RA n (lunif RA d) = schwefel_xopt RA n (lunif RA d)).
  { unfold schwefel_generalized_xopt, schwefel_xopt. apply vec_ext. intros i I. cbv zeta. rewrite !lt_dec, zero0. lits.
    destruct (Rlt_dec (at_ RA (lunif RA d) i - 5/10) 0), (Rlt_dec (at_ RA (lunif RA d) i) (5/10)); lra. }
  rewrite X. reflexivity.
Qed.
Lemma large20 : claims (schwefel_large RA n d) 20.
Proof using N. rewrite schwefel_same. apply (doc20 n N (plain_draws RA d) false). Qed.

(** *** Gallagher *)

Lemma total_list m f : total m f = fold_right Rplus 0 (map f (seq 0 m)).
Proof using.
  clear N P d n. induction m as [|m IH]; [reflexivity|]. rewrite seq_S, map_app, fold_right_app. cbn [total map fold_right]. rewrite IH.
  clear IH. generalize (seq 0 m). intros l. rewrite Nat.add_0_l. induction l as [|a l IH]; cbn [map fold_right]; [lra|]. rewrite <- IH. lra.
Qed.
Lemma total_permutation f Q : permutation n Q -> total n f = total n (fun j => f (nth j Q 0%nat)).
Proof using.
  clear N P d. intros H. rewrite !total_list.
  rewrite <- (map_map (fun j => nth j Q 0%nat) f).
  assert (E : map (fun j => nth j Q 0%nat) (seq 0 n) = Q).
  { pose proof (Permutation_length H) as L. rewrite seq_length in L. rewrite <- L. clear.
    induction Q as [|a Q IH]; [reflexivity|]. cbn [length seq map]. f_equal. rewrite <- seq_shift, map_map. exact IH. }
  rewrite E. pose proof (Permutation_map f (Permutation_sym H)) as M. induction M; cbn [fold_right]; lra.
Qed.

Lemma computes_inverse_permutation p F Q : computes n p F ->
  computes n (vars_inverse_permutation RA Q p) (fun z => F (coord (scatter RA n Q (vec n z) (zeros RA n)))).
Proof using.
  clear N P d. intros C. unfold vars_inverse_permutation. cbv zeta. apply (computes_plain n p F); [exact C|]. intros z. rewrite (proj1 C).
  rewrite <- (proj2 (proj2 C)). f_equal. symmetry. etransitivity; [|apply list_vec].
  - apply vec_ext. intros i I. symmetry. apply coord_at.
  - rewrite scatter_length. apply repeat_length.
Qed.

Lemma eighth alpha : 0 < alpha -> R_sqrt.sqrt (R_sqrt.sqrt (R_sqrt.sqrt alpha)) = Rpower alpha (1/8).
Proof using.
  clear. intros A. rewrite <- (Rpower_sqrt alpha) by exact A. rewrite <- (Rpower_sqrt (Rpower alpha (/ 2))) by apply exp_pos.
  rewrite <- (Rpower_sqrt (Rpower (Rpower alpha (/ 2)) (/ 2))) by apply exp_pos. rewrite !Rpower_mult. f_equal. lra.
Qed.

Lemma peak_doc alpha Q y u z : 0 < alpha -> permutation n Q -> (forall i, (i < n)%nat -> coord y i = u i) ->
  evaluate RA (gallagher_peak RA n alpha Q y) (vec n z) =
  total n (fun j => Rpower alpha (share n (nth j Q 0%nat) / 2) / Rpower alpha (1/4) * (z j - u j) ^ 2).
Proof using N.
  clear P d. intros A H Y. unfold gallagher_peak, shift, conditioning, scale.
  assert (A2 : 0 < R_sqrt.sqrt alpha) by (apply sqrt_lt_R0; exact A).
  rewrite (proj2 (proj2 (computes_shift n _ _ y u (computes_inverse_permutation _ _ Q (computes_lambda n N _ _ (FunModel.sqrt RA alpha) A2
    (computes_scale n _ _ (div RA (lit RA 1 0) (FunModel.sqrt RA (FunModel.sqrt RA (FunModel.sqrt RA alpha)))) (computes_alloc n _ (zero RA) _ (sphere_doc n N))))) Y))).
  cbv beta. unfold squares. rewrite (total_permutation _ Q H). apply total_ext. intros j J. unfold Lambda. rewrite <- coord_at.
  rewrite (scatter_at n Q _ _ j H) by (apply repeat_length || exact J). rewrite vec_at by exact J. unfold minus.
  lits. rewrite eighth by exact A. replace (R_sqrt.sqrt alpha) with (Rpower alpha (1/2)) by (rewrite <- Rpower_sqrt by exact A; f_equal; lra).
  rewrite Rpower_mult. set (t := share n (nth j Q 0%nat)).
  replace (Rpower alpha (1/4)) with (Rpower alpha (1/8) ^ 2).
  2:{ cbn [Rpow_def.pow]. rewrite Rmult_1_r, <- Rpower_plus. f_equal. lra. }
  replace (Rpower alpha (t / 2)) with (Rpower alpha (1/2 * (t / 2)) ^ 2).
  2:{ cbn [Rpow_def.pow]. rewrite Rmult_1_r, <- Rpower_plus. f_equal. lra. }
  pose proof (exp_pos (1/8 * ln alpha)). fold (Rpower alpha (1/8)) in *. field. lra.
Qed.

Lemma greatest_ext m f g : (forall i, (i <= m)%nat -> f i = g i) -> greatest m f = greatest m g.
Proof using. clear. induction m as [|m IH]; intros H; cbn [greatest]; [apply H; lia|]. rewrite IH by (intros; apply H; lia). rewrite H by lia. reflexivity. Qed.
Lemma core_greatest m f : (0 < m)%nat ->
  loop m (fun i (maxf : option R) => match maxf with None => Some (f i) | Some v => if FunModel.lt RA v (f i) then Some (f i) else Some v end) None
  = Some (greatest (m - 1) f).
Proof using.
  clear. induction m as [|m IH]; intros M; [lia|]. cbn [loop]. destruct m as [|m].
  - reflexivity.
  - rewrite IH by lia. replace (S (S m) - 1)%nat with (S m) by lia. cbn [greatest]. replace (S m - 1)%nat with m by lia.
    rewrite lt_dec. unfold Rmax. destruct (Rlt_dec (greatest m f) (f (S m))), (Rle_dec (greatest m f) (f (S m))); try reflexivity; f_equal; lra.
Qed.

Definition weight (m i : nat) : R := match i with O => 10 | S k => 1.1 + 8 * INR k / INR (m - 1) end.

Lemma core_doc m (peak : nat -> list R -> R) x : (2 <= m)%nat ->
  gallagher_core RA n (S m) peak x = 10 - greatest m (fun i => weight m i * Rtrigo_def.exp (- (1 / (2 * INR n)) * peak i x)).
Proof using N.
  clear P d. intros M. unfold gallagher_core. cbv zeta. rewrite (loop_ext (S m) _ (fun i (maxf : option R) =>
    match maxf with None => Some (weight m i * Rtrigo_def.exp (- (1 / (2 * INR n)) * peak i x))
    | Some v => if FunModel.lt RA v (weight m i * Rtrigo_def.exp (- (1 / (2 * INR n)) * peak i x)) then Some (weight m i * Rtrigo_def.exp (- (1 / (2 * INR n)) * peak i x)) else Some v end)).
  - match goal with |- context [loop (S m) ?f ?s] => replace (loop (S m) f s) with (Some (greatest (S m - 1) (fun i => weight m i * Rtrigo_def.exp (- (1 / (2 * INR n)) * peak i x)))) end.
    2:{ symmetry. apply (core_greatest (S m) (fun i => weight m i * Rtrigo_def.exp (- (1 / (2 * INR n)) * peak i x))). lia. }
    replace (S m - 1)%nat with m by lia. lits. f_equal. lra.
  - intros i t I.
    assert (E : mul RA (match i with O => lit RA 10 0 | S _ => add RA (lit RA 11 1) (div RA (mul RA (lit RA 8 0) (sub RA (add RA (of_nat RA i) (lit RA 1 0)) (lit RA 2 0))) (sub RA (of_nat RA (S m)) (lit RA 2 0))) end)
      (FunModel.exp RA (mul RA (div RA (opp RA (lit RA 1 0)) (mul RA (lit RA 2 0) (of_nat RA n))) (peak i x))) =
      weight m i * Rtrigo_def.exp (- (1 / (2 * INR n)) * peak i x)).
    { pose proof (INR_ge2 n N). change (mul RA) with Rmult. f_equal.
      - unfold weight. destruct i as [|k]; [lits; lra|].
        assert (EK : INR (S k) = INR k + 1) by (rewrite S_INR; reflexivity). assert (EM : INR (S m) - 2 = INR (m - 1)).
        { rewrite S_INR, minus_INR by lia. cbn. lra. }
        change (of_nat RA) with INR. lits. rewrite EK. replace (INR (S m) - 2/1) with (INR (m - 1)) by lra.
        assert (1 <= INR (m - 1)) by (change 1 with (INR 1); apply le_INR; lia). replace 1.1 with (11/10) by lra. field. lra.
      - change (FunModel.exp RA) with Rtrigo_def.exp. f_equal. lits. f_equal. field. lra. }
    destruct i as [|k]; rewrite E; reflexivity.
Qed.

Definition alphas (m : nat) (alpha0 : R) (i : nat) : R :=
  match i with O => alpha0 | S k => Rpower 1000 (2 * INR (nth k (alpha_order _ d) 0%nat) / INR (m - 1)) end.
Definition model_alphas (m : nat) (alpha0 : R) (i : nat) : R :=
  match i with O => alpha0 | S k => at_ RA (vec (S m - 1) (fun i => FunModel.pow RA (lit RA 1000 0)
     (div RA (mul RA (lit RA 2 0) (of_nat RA i)) (of_nat RA (S m - 2))))) (nth k (alpha_order RA d) 0%nat) end.
Lemma alphas_eq m alpha0 i : (2 <= m)%nat -> permutation m (alpha_order _ d) -> (i <= m)%nat -> model_alphas m alpha0 i = alphas m alpha0 i.
Proof using.
  clear N P. intros M O K. assert (M1 : 1 <= INR (m - 1)) by (change 1 with (INR 1); apply le_INR; lia).
  destruct i as [|k]; [reflexivity|]. pose proof (permutation_lt m _ k O ltac:(lia)). unfold model_alphas, alphas. rewrite vec_at by lia. lits. rewrite pow_pos by lra.
  replace (1000/1) with 1000 by field. f_equal. replace (S m - 2)%nat with (m - 1)%nat by lia. field. lra.
Qed.
Definition peak_at (b c : R) (i j : nat) : R := let v := b * coord (lunif _ d) (i * n + j) - c in match i with O => 0.8 * v | S _ => v end.
Definition model_peak (b c : R) (peak : nat) : list R :=
  vec n (fun i => let v := sub RA (mul RA b (at_ RA (lunif RA d) (i + peak * n))) c in match peak with O => mul RA v (lit RA 8 1) | S _ => v end).
Lemma model_peak_eq b c i : model_peak b c i = vec n (peak_at b c i).
Proof using.
  unfold model_peak. apply vec_ext. intros j J. unfold peak_at. rewrite coord_at, (Nat.add_comm j). destruct i; lits; [lra|reflexivity].
Qed.
Lemma sub_doc m alpha0 b c i z : (2 <= m)%nat -> 0 < alpha0 -> permutation m (alpha_order _ d) -> (i <= m)%nat ->
  evaluate RA (gallagher_peak RA n (model_alphas m alpha0 i) (lambda_order RA d i) (block_apply RA n (sizes RA d) (block RA d 0) (model_peak b c i)))
       (vec n (blockwise (sizes RA d) (block RA d 0) z)) =
  total n (fun j => Rpower (alphas m alpha0 i) (share n (nth j (lambda_order RA d i) 0%nat) / 2) / Rpower (alphas m alpha0 i) (1/4)
    * blockwise (sizes RA d) (block RA d 0) (minus z (peak_at b c i)) j ^ 2).
Proof using N P.
  intros M A O I. rewrite alphas_eq by assumption. rewrite model_peak_eq, block_apply_vec by (exact sizes_pos || exact sizes_sum).
  rewrite (peak_doc _ _ _ (blockwise (sizes RA d) (block RA d 0) (peak_at b c i))).
  - apply total_ext. intros j J. rewrite blockwise_minus. reflexivity.
  - destruct i as [|k]; [exact A|apply exp_pos].
  - apply P.
  - intros j J. rewrite <- coord_at. apply vec_at. exact J.
Qed.

Lemma large_gallagher m alpha0 (b c : R) : (2 <= m)%nat -> 0 < alpha0 ->
  permutation m (alpha_order _ d) ->
  claims_as (gallagher_large RA n (S m) alpha0 b c d) (fun z =>
    gallagher_block n m d (weight m)
      (fun i j =>
         let alpha := match i with O => alpha0 | S k => Rpower 1000 (2 * INR (nth k (alpha_order _ d) 0%nat) / INR (m - 1)) end in
         Rpower alpha (share n (nth j (lambda_order _ d i) 0%nat) / 2) / Rpower alpha (1/4))
      (fun i j => let v := b * coord (lunif _ d) (i * n + j) - c in match i with O => 0.8 * v | S _ => v end) z).
Proof using N P.
  intros M A O. unfold gallagher_large. cbv zeta.
  eapply computes_ext.
  - apply computes_add, computes_pen, computes_obj_pow, computes_obj_osz, computes_best. apply (computes_block n); [exact sizes_pos|exact sizes_sum|].
    apply computes_value. apply (computes_alloc_plain n). intros z. apply core_doc. exact M.
  - intros z. cbv beta. f_equal. unfold gallagher_block. f_equal; [|lits; lra].
    rewrite (greatest_ext m _ (fun i => weight m i * Rtrigo_def.exp (- (1 / (2 * INR n)) *
      total n (fun j => Rpower (alphas m alpha0 i) (share n (nth j (lambda_order RA d i) 0%nat) / 2) / Rpower (alphas m alpha0 i) (1/4) *
        blockwise (sizes RA d) (block RA d 0) (minus z (peak_at b c i)) j ^ 2)))).
    2:{ intros i I. f_equal. f_equal. f_equal. apply (sub_doc m alpha0 b c i z M A O I). }
    replace (lit RA 2 0) with 2 by (lits; lra). rewrite pow_2. cbn [Rpow_def.pow]. rewrite Rmult_1_r. reflexivity.
Qed.

Lemma large21 : permutation 100 (alpha_order _ d) -> claims (gallagher_large RA n 101 (lit RA 1000 0) (lit RA 10 0) (lit RA 5 0) d) 21.
Proof using N P.
  intros O. eapply computes_ext; [apply (large_gallagher 100); [lia|lits; lra|exact O]|].
  intros z. cbv beta. apply Rplus_eq_compat_r. nums. replace (5/1) with 5 by field. unfold large_documented. cbv zeta.
  unfold weight. change (100 - 1)%nat with 99%nat. rewrite nat99. reflexivity.
Qed.
Lemma large22 : permutation 20 (alpha_order _ d) -> claims (gallagher_large RA n 21 (mul RA (lit RA 1000 0) (lit RA 1000 0)) (lit RA 98 1) (lit RA 49 1) d) 22.
Proof using N P.
  intros O. eapply computes_ext; [apply (large_gallagher 20); [lia|lits; lra|exact O]|].
  intros z. cbv beta. apply Rplus_eq_compat_r. nums. replace (98/10) with 9.8 by lra. replace (49/10) with 4.9 by lra. replace (1000 * 1000) with (1000 ^ 2) by ring. unfold large_documented. cbv zeta.
  unfold weight. change (20 - 1)%nat with 19%nat. rewrite nat19. reflexivity.
Qed.

(** *** Lunacek *)

Lemma const_at (v : R) i : (i < n)%nat -> coord (repeat v n) i = v.
Proof using. clear N. intros I. rewrite <- coord_at. apply repeat_at. exact I. Qed.

Lemma sub0_doc (mu : R) u : evaluate RA (shift RA (repeat mu n) (allocate RA n (sphere_raw RA n) (zero RA))) (vec n u) = total n (fun i => (u i - mu) ^ 2).
Proof using N.
  unfold shift. rewrite (proj2 (proj2 (computes_shift n _ _ (repeat mu n) (fun _ => mu) (computes_alloc n _ (zero RA) _ (sphere_doc n N)) (const_at mu)))).
  reflexivity.
Qed.
Lemma sub1_doc (mu c v : R) u : evaluate RA (value_shift RA v (obj_scale RA c (shift RA (repeat mu n) (allocate RA n (sphere_raw RA n) (zero RA))))) (vec n u)
  = total n (fun i => (u i - mu) ^ 2) * c + v.
Proof using N.
  unfold shift, value_shift. rewrite (proj2 (proj2 (computes_add n _ _ v (computes_obj_scale n _ _ c
    (computes_shift n _ _ (repeat mu n) (fun _ => mu) (computes_alloc n _ (zero RA) _ (sphere_doc n N)) (const_at mu)))))).
  reflexivity.
Qed.

Lemma lunacek_constant : sub RA (lit RA 1 0) (div RA (lit RA 5 1) (sub RA (FunModel.sqrt RA (of_nat RA (n + 20))) (lit RA 41 1))) = 1 - 1 / (2 * R_sqrt.sqrt (INR n + 20) - 8.2).
Proof using N.
  lits. assert (E : INR (n + 20) = INR n + 20) by (rewrite plus_INR; f_equal; rewrite INR_IZR_INZ; reflexivity). rewrite E.
  assert (22 <= INR n + 20) by (pose proof (INR_ge2 n N); lra).
  assert (4.2 < R_sqrt.sqrt (INR n + 20)).
  { rewrite <- (sqrt_square 4.2) by lra. apply sqrt_lt_1; lra. }
  replace (1/1) with 1 by field. f_equal. replace 8.2 with (82/10) by lra. field. split; lra.
Qed.

Lemma large24 : claims (lunacek_large RA n d) 24.
Proof using N P.
  unfold lunacek_large. cbv zeta. apply computes_best. rewrite lunacek_constant.
  set (s := fun i => if Rlt_dec (coord (lgauss _ d) i) 0 then -1 else 1).
  assert (S : forall i, (i < n)%nat -> coord (vec n (fun i => if FunModel.lt RA (at_ RA (lgauss RA d) i) (zero RA) then lit RA (-1) 0 else lit RA 1 0)) i = s i).
  { intros i I. rewrite <- coord_at. rewrite vec_at by exact I. rewrite lt_dec, zero0, coord_at. unfold s. destruct (Rlt_dec _ 0); lits; lra. }
  replace (lit RA 25 1) with 2.5 by (lits; lra).
  eapply computes_ext.
  - chain. eapply computes_x_hat; [exact S|]. intros u. eapply computes_shift; [|exact (const_at 2.5)].
    chain. apply computes_value. apply (computes_alloc_plain n). intros z. apply lunacek_large_doc. exact N.
  - intros z. cbv beta. rewrite sub0_doc, sub1_doc. unfold large_documented. cbv zeta. fold (s 0%nat).
    apply Rplus_eq_compat_r. nums. replace (10000/1) with (10 ^ 4) by field. apply Rplus_eq_compat_r. f_equal. f_equal.
    f_equal. replace (1/1) with 1 by field. rewrite Rmult_1_l. replace (2.5 * 2.5 - 1) with (2.5 ^ 2 - 1) by ring. rewrite Rmult_comm, Rplus_comm. reflexivity.
Qed.

Lemma all_large_documented f p : plausible_order f d -> get_largescale_problem RA f n d = Some p -> claims p f.
Proof using N P.
  intros O E. assert (K : forall q, Some q = Some p -> q = p) by congruence.
  destruct f as [|f]; [discriminate E|].
  destruct f as [|f]; [cbn [get_largescale_problem] in E; apply K in E; rewrite <- E; exact large1|].
  destruct f as [|f]; [cbn [get_largescale_problem] in E; apply K in E; rewrite <- E; exact large2|].
  destruct f as [|f]; [cbn [get_largescale_problem] in E; apply K in E; rewrite <- E; exact large3|].
  destruct f as [|f]; [cbn [get_largescale_problem] in E; apply K in E; rewrite <- E; exact large4|].
  destruct f as [|f]; [cbn [get_largescale_problem] in E; apply K in E; rewrite <- E; exact large5|].
  destruct f as [|f]; [cbn [get_largescale_problem] in E; apply K in E; rewrite <- E; exact large6|].
  destruct f as [|f]; [cbn [get_largescale_problem] in E; apply K in E; rewrite <- E; exact large7|].
  destruct f as [|f]; [cbn [get_largescale_problem] in E; apply K in E; rewrite <- E; exact large8|].
  destruct f as [|f]; [cbn [get_largescale_problem] in E; apply K in E; rewrite <- E; exact large9|].
  destruct f as [|f]; [cbn [get_largescale_problem] in E; apply K in E; rewrite <- E; exact large10|].
  destruct f as [|f]; [cbn [get_largescale_problem] in E; apply K in E; rewrite <- E; exact large11|].
  destruct f as [|f]; [cbn [get_largescale_problem] in E; apply K in E; rewrite <- E; exact large12|].
  destruct f as [|f]; [cbn [get_largescale_problem] in E; apply K in E; rewrite <- E; exact large13|].
  destruct f as [|f]; [cbn [get_largescale_problem] in E; apply K in E; rewrite <- E; exact large14|].
  destruct f as [|f]; [cbn [get_largescale_problem] in E; apply K in E; rewrite <- E; exact large15|].
  destruct f as [|f]; [cbn [get_largescale_problem] in E; apply K in E; rewrite <- E; exact large16|].
  destruct f as [|f]; [cbn [get_largescale_problem] in E; apply K in E; rewrite <- E; exact large17|].
  destruct f as [|f]; [cbn [get_largescale_problem] in E; apply K in E; rewrite <- E; exact large18|].
  destruct f as [|f]; [cbn [get_largescale_problem] in E; apply K in E; rewrite <- E; exact large19|].
  destruct f as [|f]; [cbn [get_largescale_problem] in E; apply K in E; rewrite <- E; exact large20|].
  destruct f as [|f]; [cbn [get_largescale_problem] in E; apply K in E; rewrite <- E; exact (large21 O)|].
  destruct f as [|f]; [cbn [get_largescale_problem] in E; apply K in E; rewrite <- E; exact (large22 O)|].
  destruct f as [|f]; [cbn [get_largescale_problem] in E; apply K in E; rewrite <- E; exact large23|].
  destruct f as [|f]; [cbn [get_largescale_problem] in E; apply K in E; rewrite <- E; exact large24|].
  discriminate E.
Qed.

End Dimension.
