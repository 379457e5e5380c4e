(** The constructed problems compute the published functions: all 24 constructors. *)

From Coq Require Import ZArith List Bool Reals Lra Lia.
From Verif Require Import FunModel FunSpec FunProofs FunOptima FunOptima2 FunDocSpec FunDocProofs FunDocProofs2.
Import ListNotations.
Local Open Scope R_scope.

Section Dimension.
Variable n : nat.
Hypothesis N : (2 <= n)%nat.
Variable d : real_draws.
Notation o := (coord (xopt _ d)).
Ltac done E := eapply computes_ext; [exact E|]; intros z; unfold documented; cbv zeta; try reflexivity.

Lemma doc1 boxed : computes n (sphere_bbob RA n false d) (fun z => documented n 1 boxed d z + fopt _ d).
Proof using N.
  done (computes_add n _ _ (fopt _ d) (computes_shift n _ _ (xopt _ d) o (computes_alloc n _ (zero RA) _ (sphere_doc n N)) ltac:(reflexivity))).
Qed.

Lemma doc2 boxed : computes n (ellipsoid_bbob RA n false d) (fun z => documented n 2 boxed d z + fopt _ d).
Proof using N.
  done (computes_add n _ _ (fopt _ d) (computes_shift n _ _ (xopt _ d) o (computes_osz n _ _ (computes_alloc n _ (zero RA) _ (ellipsoid_doc n N))) ltac:(reflexivity))).
Qed.

Lemma ten : 10 / 1 = 10. Proof. field. Qed.

Lemma doc3 boxed : computes n (rastrigin_bbob RA n false d) (fun z => documented n 3 boxed d z + fopt _ d).
Proof using N.
  unfold rastrigin_bbob, norm_if. lits. rewrite ten. replace (2/10) with 0.2 by lra.
  done (computes_add n _ _ (fopt _ d) (computes_shift n _ _ (xopt _ d) o (computes_osz n _ _ (computes_asy n N _ _ 0.2
    (computes_lambda n N _ _ 10 ltac:(lra) (computes_alloc n _ (zero RA) _ (rastrigin_doc n N))))) ltac:(reflexivity))).
Qed.

Lemma doc4 boxed : computes n (bueche_rastrigin_bbob RA n false d) (fun z => documented n 4 boxed d z + fopt _ d).
Proof using N.
  assert (X : forall i, (i < n)%nat -> coord (bueche_xopt RA n (xopt _ d)) i = if Nat.even i then Rabs (o i) else o i).
  { intros i I. rewrite <- coord_at. unfold bueche_xopt. rewrite vec_at by exact I. rewrite coord_at. reflexivity. }
  done (computes_pen n _ _ (lit RA 100 0) (computes_add n _ _ (fopt _ d) (computes_shift n _ _ (bueche_xopt RA n (xopt _ d)) _ (computes_osz n _ _ (computes_brs n N _ _
    (computes_alloc n _ (zero RA) _ (bueche_doc n N)))) X))).
  cbv beta. lits. replace (100/1) with 100 by field. lra.
Qed.

Lemma doc5 boxed : computes n (linear_slope_bbob RA n false d) (fun z => documented n 5 boxed d z + fopt _ d).
Proof using N.
  assert (X : forall i, (i < n)%nat -> at_ RA (linear_slope_best RA n (xopt _ d)) i = (if Rlt_dec (o i) 0 then -5 else 5) /\
    ((if Rlt_dec (o i) 0 then -5 else 5) = 5 \/ (if Rlt_dec (o i) 0 then -5 else 5) = -5)).
  { intros i I. unfold linear_slope_best. rewrite vec_at by exact I. rewrite lt_dec, zero0, coord_at. lits. destruct (Rlt_dec (o i) 0); split; lra. }
  unfold linear_slope_bbob, norm_if, linear_slope_allocate. cbv zeta. apply computes_add. apply computes_value. apply computes_best.
  apply computes_alloc. intros z. apply slope_doc; [exact N|exact X].
Qed.

Lemma cond10 k : real_pow (FunModel.sqrt RA (lit RA 10 0)) (share n k) = Rpower 10 (share n k / 2).
Proof. lits. rewrite ten. apply sqrt_sq_base. lra. Qed.
Lemma cond100 k : real_pow (FunModel.sqrt RA (lit RA 100 0)) (share n k) = Rpower 100 (share n k / 2).
Proof. lits. replace (100/1) with 100 by field. apply sqrt_sq_base. lra. Qed.
Lemma cond_100 k : real_pow (div RA (lit RA 1 0) (FunModel.sqrt RA (lit RA 100 0))) (share n k) = Rpower (1/100) (share n k / 2).
Proof.
  lits. rewrite <- sqrt_sq_base by lra. f_equal. rewrite sqrt_100. replace (1/100) with (1/10 * (1/10)) by field.
  rewrite sqrt_square by lra. field.
Qed.

Lemma total_sq_nonneg m (f : nat -> R) : 0 <= total m (fun i => f i ^ 2).
Proof. induction m as [|m IH]; [cbn; lra|]. cbn [total]. pose proof (pow2_ge_0 (f m)). lra. Qed.

Lemma osz_nonneg y : 0 <= y -> 0 <= osz y.
Proof. rewrite <- osz_eq. apply oscillate_nonneg. Qed.

Lemma doc6 boxed : computes n (attractive_sector_bbob RA n d) (fun z => documented n 6 boxed d z + fopt _ d).
Proof using N.
  done (computes_shift n _ _ (xopt _ d) o (computes_conditioned n N _ _ _ _ (rot1 _ d) (rot2 _ d) (computes_add n _ _ (fopt _ d) (computes_obj_pow n _ _ (lit RA 9 1) (computes_obj_osz n _ _
    (computes_alloc n _ (zero RA) _ (sector_doc n N (xopt _ d)))))) cond10) ltac:(reflexivity)).
  cbv beta. f_equal. unfold sector. rewrite pow_power.
  - lits. replace (9/10) with 0.9 by lra. reflexivity.
  - apply osz_nonneg. apply total_sq_nonneg.
  - lits. lra.
Qed.

Lemma doc7 boxed : computes n (step_ellipsoid_bbob RA n (lit RA 1 0) d) (fun z => documented n 7 boxed d z + fopt _ d).
Proof using N.
  done (computes_value n _ _ (fopt _ d) (computes_best n _ _ (xopt _ d) (computes_alloc n _ (zero RA) _ (step_doc n N (xopt _ d) (fopt _ d) (rot1 _ d) (rot2 _ d))))).
Qed.

Lemma doc8 boxed : computes n (rosenbrock_bbob RA n false n d) (fun z => documented n 8 boxed d z + fopt _ d).
Proof using N.
  assert (X : forall i, (i < n)%nat -> coord (vec n (fun i => mul RA (at_ RA (xopt _ d) i) (lit RA 75 2))) i = 3/4 * o i).
  { intros i I. rewrite <- coord_at. rewrite vec_at by exact I. rewrite coord_at. lits. lra. }
  assert (Y : forall i, (i < n)%nat -> coord (repeat (lit RA (-1) 0) n) i = -1).
  { intros i I. rewrite <- coord_at. change (repeat (lit RA (-1) 0) n) with (repeat (lit RA (-1) 0 : R) n). rewrite repeat_at by exact I. lits. lra. }
  done (computes_add n _ _ (fopt _ d) (computes_shift n _ _ _ _ (computes_scale n _ _ (rosenbrock_factor RA n) (computes_shift n _ _ _ (fun _ => -1)
    (computes_alloc n _ (lit RA 1 0) _ (rosenbrock_doc n N)) Y)) X)).
  cbv beta. rewrite factor_Rmax. f_equal. unfold rosenbrock, minus, spread. apply total_ext. intros i I. ring.
Qed.

Lemma doc9 boxed : computes n (rosenbrock_rotated_bbob RA n d) (fun z => documented n 9 boxed d z + fopt _ d).
Proof using N.
  unfold rosenbrock_rotated_bbob. cbv zeta. apply computes_best.
  assert (K : forall z i, (i < n)%nat -> at_ RA (repeat (lit RA 5 1) n) i + total n (fun j => z j * entry RA (vec n (fun i => vec n (fun j => mul RA (rosenbrock_factor RA n) (entry RA (rot2 _ d) i j)))) i j)
     = spread n * apply n (rot2 _ d) z i + 1/2).
  { intros z i I. change (repeat (lit RA 5 1) n) with (repeat (lit RA 5 1 : R) n). rewrite repeat_at by exact I. unfold apply, spread. rewrite <- total_scale.
    rewrite (total_ext n (fun j => z j * _) (fun j => Rmax 1 (R_sqrt.sqrt (INR n) / 8) * (cell (rot2 _ d) i j * z j))).
    - lits. lra.
    - intros j J. rewrite (entry_vec n (fun i j => mul RA (rosenbrock_factor RA n) (entry RA (rot2 _ d) i j))) by assumption. rewrite factor_Rmax, cell_eq. lits. ring. }
  done (computes_add n _ _ (fopt _ d) (computes_affine_gen n _ _ _ _ _ (computes_best n _ _ (zeros RA n) (computes_alloc n _ (lit RA 1 0) _ (rosenbrock_doc n N))) K)).
Qed.

Lemma doc10 boxed : computes n (ellipsoid_rotated_bbob RA n (lit RA 1000000 0) d) (fun z => documented n 10 boxed d z + fopt _ d).
Proof using N.
  done (computes_add n _ _ (fopt _ d) (computes_shift n _ _ (xopt _ d) o (computes_affine n _ _ (rot1 _ d) (computes_osz n _ _ (computes_alloc n _ (zero RA) _ (ellipsoid_doc n N)))) ltac:(reflexivity))).
Qed.
Lemma doc11 boxed : computes n (discus_bbob RA n d) (fun z => documented n 11 boxed d z + fopt _ d).
Proof using N.
  done (computes_add n _ _ (fopt _ d) (computes_shift n _ _ (xopt _ d) o (computes_affine n _ _ (rot1 _ d) (computes_osz n _ _ (computes_alloc n _ (zero RA) _ (discus_doc n N)))) ltac:(reflexivity))).
Qed.
Lemma doc12 boxed : computes n (bent_cigar_bbob RA n d) (fun z => documented n 12 boxed d z + fopt _ d).
Proof using N.
  unfold bent_cigar_bbob. lits. replace (5/10) with 0.5 by lra.
  done (computes_shift n _ _ (xopt _ d) o (computes_affine n _ _ (rot1 _ d) (computes_asy n N _ _ 0.5 (computes_affine n _ _ (rot1 _ d) (computes_add n _ _ (fopt _ d) (computes_alloc n _ (zero RA) _ (cigar_doc n N)))))) ltac:(reflexivity)).
Qed.
Lemma doc13 boxed : computes n (sharp_ridge_bbob RA n d) (fun z => documented n 13 boxed d z + fopt _ d).
Proof using N.
  done (computes_shift n _ _ (xopt _ d) o (computes_conditioned n N _ _ _ _ (rot1 _ d) (rot2 _ d) (computes_add n _ _ (fopt _ d) (computes_alloc n _ (zero RA) _ (ridge_doc n N))) cond10) ltac:(reflexivity)).
Qed.
Lemma doc14 boxed : computes n (different_powers_bbob RA n d) (fun z => documented n 14 boxed d z + fopt _ d).
Proof using N.
  done (computes_shift n _ _ (xopt _ d) o (computes_affine n _ _ (rot1 _ d) (computes_add n _ _ (fopt _ d) (computes_alloc n _ (zero RA) _ (powers_doc n N)))) ltac:(reflexivity)).
Qed.
Lemma doc15 boxed : computes n (rastrigin_rotated_bbob RA n d) (fun z => documented n 15 boxed d z + fopt _ d).
Proof using N.
  unfold rastrigin_rotated_bbob. replace (lit RA 2 1) with 0.2 by (lits; lra).
  done (computes_shift n _ _ (xopt _ d) o (computes_affine n _ _ (rot1 _ d) (computes_osz n _ _ (computes_asy n N _ _ 0.2 (computes_conditioned n N _ _ _ _ (rot1 _ d) (rot2 _ d)
    (computes_add n _ _ (fopt _ d) (computes_alloc n _ (zero RA) _ (rastrigin_doc n N))) cond10)))) ltac:(reflexivity)).
Qed.
Lemma doc16 boxed : computes n (weierstrass_bbob RA n d) (fun z => documented n 16 boxed d z + fopt _ d).
Proof using N.
  done (computes_pen n _ _ (div RA (lit RA 10 0) (of_nat RA n)) (computes_shift n _ _ (xopt _ d) o (computes_affine n _ _ (rot1 _ d) (computes_osz n _ _ (computes_conditioned n N _ _ _ _ (rot1 _ d) (rot2 _ d)
    (computes_add n _ _ (fopt _ d) (computes_alloc n _ (zero RA) _ (weierstrass_doc n N))) cond_100))) ltac:(reflexivity))).
  cbv beta. lits. rewrite ten. ring.
Qed.

Lemma doc_schaffers c alpha : lit RA c 0 = alpha -> 0 < alpha ->
  computes n (schaffers_bbob RA n (lit RA c 0) (lit RA 10 0) d)
  (fun z => schaffers n (Lambda n alpha (apply n (rot2 _ d) (Tasy n 0.5 (apply n (rot1 _ d) (minus z o))))) + 10 * fpen n z + fopt _ d).
Proof using N.
  intros E A. unfold schaffers_bbob. cbv zeta. rewrite E. replace (lit RA 5 1) with 0.5 by (lits; lra). replace (lit RA 10 0) with 10 by (lits; lra).
  assert (K : forall z i, (i < n)%nat -> at_ RA (zeros RA n) i + total n (fun j => z j * entry RA (vec n (fun i => vec n (fun j =>
      mul RA (entry RA (rot2 _ d) i j) (FunModel.pow RA (FunModel.sqrt RA alpha) (div RA (mul RA (lit RA 1 0) (of_nat RA i)) (sub RA (of_nat RA n) (lit RA 1 0))))))) i j)
     = Lambda n alpha (apply n (rot2 _ d) z) i).
  { intros z i I. rewrite zeros_at, Rplus_0_l. unfold Lambda, apply. rewrite <- total_scale. apply total_ext. intros j J.
    rewrite (entry_vec n (fun i j => mul RA (entry RA (rot2 _ d) i j) (FunModel.pow RA (FunModel.sqrt RA alpha) (div RA (mul RA (lit RA 1 0) (of_nat RA i)) (sub RA (of_nat RA n) (lit RA 1 0)))))) by assumption.
    rewrite cell_eq. lits. rewrite sqrt_sq_base by exact A. replace (1/1) with 1 by field. rewrite (INR_n1 n N), Rmult_1_l. fold (share n i). ring. }
  eapply computes_ext; [exact (computes_pen n _ _ 10 (computes_shift n _ _ (xopt _ d) o (computes_affine n _ _ (rot1 _ d) (computes_asy n N _ _ 0.5
    (computes_affine_gen n _ _ _ _ _ (computes_add n _ _ (fopt _ d) (computes_alloc n _ (zero RA) _ (schaffers_doc n N))) K))) ltac:(reflexivity)))|].
  intros z. cbv beta. rewrite Rplus_assoc, (Rplus_comm (fopt _ d)), <- Rplus_assoc. reflexivity.
Qed.

Lemma doc17 boxed : computes n (schaffers_bbob RA n (lit RA 10 0) (lit RA 10 0) d) (fun z => documented n 17 boxed d z + fopt _ d).
Proof using N. apply doc_schaffers; lits; lra. Qed.
Lemma doc18 boxed : computes n (schaffers_bbob RA n (lit RA 1000 0) (lit RA 10 0) d) (fun z => documented n 18 boxed d z + fopt _ d).
Proof using N. apply doc_schaffers; lits; lra. Qed.

Lemma doc19 boxed : computes n (griewank_rosenbrock_bbob RA n (lit RA 10 0) d) (fun z => documented n 19 boxed d z + fopt _ d).
Proof using N.
  unfold griewank_rosenbrock_bbob. cbv zeta. apply computes_best.
  assert (K : forall z i, (i < n)%nat -> at_ RA (zeros RA n) i + total n (fun j => z j * entry RA (vec n (fun i => vec n (fun j => mul RA (entry RA (rot2 _ d) i j) (rosenbrock_factor RA n)))) i j)
     = spread n * apply n (rot2 _ d) z i).
  { intros z i I. rewrite zeros_at, Rplus_0_l. unfold apply, spread. rewrite <- total_scale. apply total_ext. intros j J.
    rewrite (entry_vec n (fun i j => mul RA (entry RA (rot2 _ d) i j) (rosenbrock_factor RA n))) by assumption. rewrite factor_Rmax, cell_eq. lits. ring. }
  assert (Y : forall i, (i < n)%nat -> coord (repeat (opp RA (lit RA 5 1)) n) i = - (1/2)).
  { intros i I. rewrite <- coord_at. change (repeat (opp RA (lit RA 5 1)) n) with (repeat (opp RA (lit RA 5 1) : R) n). rewrite repeat_at by exact I. lits. lra. }
  done (computes_affine_gen n _ _ _ (zeros RA n) _ (computes_best n _ _ (zeros RA n) (computes_shift n _ _ _ (fun _ => - (1/2)) (computes_add n _ _ (fopt _ d)
     (computes_alloc n _ (lit RA 1 0) _ (griewank_doc n N))) Y)) K).
  cbv beta. f_equal. unfold griewank_rosenbrock, minus. cbv zeta. f_equal. f_equal. apply total_ext. intros i I.
  replace (spread n * apply n (rot2 _ d) z i - - (1/2)) with (spread n * apply n (rot2 _ d) z i + 1/2) by ring.
  replace (spread n * apply n (rot2 _ d) z (S i) - - (1/2)) with (spread n * apply n (rot2 _ d) z (S i) + 1/2) by ring. reflexivity.
Qed.

Definition signs (u : list R) : point := fun i => if Rlt_dec (coord u i) (1/2) then -1 else 1.

Lemma computes_x_hat p F u : computes n p F -> computes n (vars_x_hat RA p u) (fun z => F (fun i => signs u i * z i)).
Proof.
  intros C. unfold vars_x_hat. rewrite (proj1 C). cbv zeta.
  match goal with |- context [with_evaluate RA p ?f] => assert (K : computes n (with_evaluate RA p f) (fun z => F (fun i => signs u i * z i))) end.
  { match goal with |- computes n (with_evaluate RA p (fun x => evaluate RA p (vec n (fun i => @?g x i)))) _ => apply (computes_vars n p F g (fun z i => signs u i * z i)); [exact C|] end.
    intros z i I. cbv beta. rewrite vec_at by exact I. rewrite lt_dec, coord_at. unfold signs. lits. replace (5/10) with (1/2) by field.
    destruct (Rlt_dec (coord u i) (1/2)); lra. }
  destruct (not_zero _ _); [apply computes_best|]; exact K.
Qed.

Lemma computes_z_hat p F (x : list R) c : (forall i, (i < n)%nat -> Rabs (coord x i) = c) -> computes n p F ->
  computes n (vars_z_hat RA p x) (fun z => F (fun i => match i with O => z 0%nat | S k => z i + 0.25 * (z k - 2 * c) end)).
Proof.
  intros X C. unfold vars_z_hat. rewrite (proj1 C).
  match goal with |- computes n (with_evaluate RA p (fun x => evaluate RA p (vec n (fun i => @?g x i)))) _ =>
    apply (computes_vars n p F g (fun z i => match i with O => z 0%nat | S k => z i + 0.25 * (z k - 2 * c) end)); [exact C|] end.
  intros z i I. cbv beta. destruct i as [|k]; [apply vec_at; exact I|]. rewrite !vec_at by lia. rewrite coord_at. lits. rewrite X by lia. lra.
Qed.

Definition schwefel_value (z : point) : R :=
  - (total n (fun i => z i * Rtrigo_def.sin (R_sqrt.sqrt (Rabs (z i))))) / (100 * INR n) + 4.189828872724339 + 100 * fpen n (fun i => z i / 100).
Lemma schwefel_value_ext z w : (forall i, (i < n)%nat -> z i = w i) -> schwefel_value z = schwefel_value w.
Proof.
  intros E. unfold schwefel_value. f_equal; [f_equal; f_equal; f_equal|f_equal; unfold fpen]; apply total_ext; intros i I; rewrite E by exact I; reflexivity.
Qed.
Lemma doc20 boxed : computes n (schwefel_bbob RA n d) (fun z => documented n 20 boxed d z + fopt _ d).
Proof using N.
  unfold schwefel_bbob. cbv zeta.
  assert (X : forall i, (i < n)%nat -> Rabs (coord (schwefel_xopt RA n (unif _ d)) i) = 4.2096874637 / 2).
  { intros i I. rewrite <- coord_at. unfold schwefel_xopt. rewrite vec_at by exact I. rewrite lt_dec. lits.
    destruct (Rlt_dec _ _); [rewrite Rabs_left by lra|rewrite Rabs_pos_eq by lra]; lra. }
  assert (X1 : forall i, (i < n)%nat -> coord (vec n (fun i => mul RA (lit RA (-2) 0) (abs RA (at_ RA (schwefel_xopt RA n (unif _ d)) i)))) i = - 4.2096874637).
  { intros i I. rewrite <- coord_at. rewrite vec_at by exact I. rewrite coord_at. lits. rewrite X by exact I. lra. }
  assert (X2 : forall i, (i < n)%nat -> coord (vec n (fun i => mul RA (lit RA 2 0) (abs RA (at_ RA (schwefel_xopt RA n (unif _ d)) i)))) i = 4.2096874637).
  { intros i I. rewrite <- coord_at. rewrite vec_at by exact I. rewrite coord_at. lits. rewrite X by exact I. lra. }
  replace (lit RA 10 0) with 10 by (lits; lra).
  eapply computes_ext; [exact (computes_add n _ _ (fopt _ d) (computes_x_hat _ _ (unif _ d) (computes_scale n _ _ (lit RA 2 0) (computes_z_hat _ _ _ _ X
    (computes_shift n _ _ _ (fun _ => 4.2096874637) (computes_lambda n N _ _ 10 ltac:(lra) (computes_shift n _ _ _ (fun _ => - 4.2096874637) (computes_scale n _ _ (lit RA 100 0)
    (computes_alloc n _ (lit RA 42096874633 8) _ (schwefel_raw_doc n N))) X1)) X2)))))|].
  intros z. cbv beta. f_equal. unfold documented. cbv zeta. unfold schwefel. cbv zeta.
  apply schwefel_value_ext. intros i I. unfold minus, Lambda, signs. lits. replace (10/1) with 10 in * by field. destruct i as [|k]; lra.
Qed.

(** *** Gallagher *)

Lemma half_base base alpha k : 0 < alpha -> base = R_sqrt.sqrt alpha ->
  real_pow base (INR k / INR (n - 1) - 5/10) = Rpower alpha (share n k / 2) / Rpower alpha (1/4).
Proof.
  intros A ->. rewrite sqrt_sq_base by exact A. change (Rpower alpha (share n k / 2) / Rpower alpha (1/4)) with (Rpower alpha (share n k / 2) * / Rpower alpha (1/4)).
  rewrite <- Rpower_Ropp, <- Rpower_plus. f_equal. unfold share. lra.
Qed.

Lemma alpha_base (e : R) : Rpower 1000 e = R_sqrt.sqrt (Rpower 1000 (2 * e)).
Proof. rewrite <- Rpower_sqrt by apply exp_pos. rewrite Rpower_mult. f_equal. lra. Qed.

Lemma doc_gallagher np boxed (first alpha0 b c : R) : (2 <= np)%nat -> 0 < alpha0 -> first = R_sqrt.sqrt alpha0 ->
  computes n (gallagher_bbob RA n (S np) boxed first b c (lit RA 1 0) d) (fun z =>
    gallagher n np (rot2 _ d)
      (fun i => match i with O => 10 | S k => 1.1 + 8 * INR k / INR (np - 1) end)
      (fun i j =>
         let alpha := match i with O => alpha0 | S k => Rpower 1000 (2 * INR (nth k (condition_order _ d) 0%nat) / INR (np - 1)) end in
         Rpower alpha (share n (nth j (nth i (scale_order _ d) nil) 0%nat) / 2) / Rpower alpha (1/4))
      (fun i j => let v := b * coord (locations _ d) (i * n + j) - c in
         match i with O => (if boxed then 1 else 0.8) * v | S _ => v end) z + fopt _ d).
Proof using N.
  intros NP A F. unfold gallagher_bbob. destruct (gallagher_data RA n (S np) boxed first b c d) as [k best] eqn:G. cbv zeta.
  apply computes_add. apply computes_value. apply computes_best. apply computes_alloc. intros z.
  assert (P : 1 <= INR (np - 1)) by (change 1 with (INR 1); apply le_INR; lia).
  unfold gallagher_data in G. cbv zeta in G. apply pair_equal_spec in G. destruct G as (<- & _). clear best.
  apply gallagher_doc; [exact N|reflexivity| |]; cbn [peak_values arr_scales x_local].
  - intros i I. rewrite vec_at by lia. destruct i as [|m].
    + lits. lra.
    + replace (S np - 2)%nat with (np - 1)%nat by lia. split.
      * assert (0 <= 8 * INR m / INR (np - 1)).
        { apply Rmult_le_pos; [pose proof (pos_INR m); lra|]. apply Rlt_le, Rinv_0_lt_compat. lra. }
        lra.
      * lits. replace 1.1 with (11/10) by lra. field. lra.
  - intros i j I J. split.
    + unfold entry. change (num RA) with R. rewrite (@vec_nth (list R)) by lia. rewrite (@vec_nth R) by exact J. rewrite vec_at by lia.
      destruct i as [|m].
      * lits. apply half_base; [exact A|exact F].
      * lits. apply half_base; [apply exp_pos|]. rewrite pow_pos by lra. replace (1000/1) with 1000 by field. replace (S np - 2)%nat with (np - 1)%nat by lia.
        rewrite alpha_base. f_equal. f_equal. field. lra.
    + unfold entry. change (num RA) with R. rewrite (@vec_nth (list R)) by exact J. rewrite (@vec_nth R) by lia. unfold apply.
      rewrite (loop_ext n _ (fun k r => r + cell (rot2 _ d) j k * (b * coord (locations _ d) (i * n + k) - c))).
      2:{ intros k r K. rewrite coord_at. change (nth k (nth j (rot2 _ d) nil) (zero RA)) with (entry RA (rot2 _ d) j k). rewrite cell_eq. reflexivity. }
      rewrite loop_total, zero0, Rplus_0_l. destruct i as [|m]; [|reflexivity].
      cbv zeta. change (mul RA) with Rmult. rewrite total_mult_r. apply total_ext. intros k K. destruct boxed; lits; lra.
Qed.

Lemma nat99 : INR 99 = 99. Proof. rewrite INR_IZR_INZ. reflexivity. Qed.
Lemma nat19 : INR 19 = 19. Proof. rewrite INR_IZR_INZ. reflexivity. Qed.

Lemma gallagher_ext m M w w' C C' y y' z : (forall i, w i = w' i) -> (forall i j, C i j = C' i j) -> (forall i j, y i j = y' i j) ->
  gallagher n m M w C y z = gallagher n m M w' C' y' z.
Proof.
  intros W HC Y. unfold gallagher. f_equal. f_equal. f_equal. f_equal.
  assert (E : forall i, w i * Rtrigo_def.exp (- (1 / (2 * INR n)) * total n (fun j => C i j * apply n M (minus z (y i)) j ^ 2)) =
                        w' i * Rtrigo_def.exp (- (1 / (2 * INR n)) * total n (fun j => C' i j * apply n M (minus z (y' i)) j ^ 2))).
  { intros i. rewrite W. f_equal. f_equal. f_equal. apply total_ext. intros j J. rewrite HC. f_equal. f_equal. unfold apply, minus. apply total_ext. intros. rewrite Y. reflexivity. }
  induction m as [|m IH]; cbn [greatest]; [apply E|]. rewrite IH, E. reflexivity.
Qed.

Lemma doc21 boxed : computes n (gallagher_bbob RA n 101 boxed (FunModel.sqrt RA (lit RA 1000 0)) (lit RA 10 0) (lit RA 5 0) (lit RA 1 0) d)
  (fun z => documented n 21 boxed d z + fopt _ d).
Proof using N.
  eapply computes_ext; [apply (doc_gallagher 100 boxed _ 1000); [lia|lra|lits; f_equal; lra]|].
  intros z. cbv beta. apply Rplus_eq_compat_r. unfold documented. cbv zeta. change (100 - 1)%nat with 99%nat. rewrite nat99. apply gallagher_ext.
  - reflexivity.
  - reflexivity.
  - intros i j. lits. destruct i; replace (10/1) with 10 by field; replace (5/1) with 5 by field; reflexivity.
Qed.
Lemma doc22 boxed : computes n (gallagher_bbob RA n 21 boxed (lit RA 1000 0) (lit RA 98 1) (lit RA 49 1) (lit RA 1 0) d)
  (fun z => documented n 22 boxed d z + fopt _ d).
Proof using N.
  eapply computes_ext; [apply (doc_gallagher 20 boxed _ (1000 ^ 2)); [lia|lra|]|].
  - lits. replace (1000 ^ 2) with (1000 * 1000) by ring. rewrite sqrt_square by lra. lra.
  - intros z. cbv beta. apply Rplus_eq_compat_r. unfold documented. cbv zeta. change (20 - 1)%nat with 19%nat. rewrite nat19. apply gallagher_ext.
    + reflexivity.
    + reflexivity.
    + intros i j. lits. destruct i; replace (98/10) with 9.8 by lra; replace (49/10) with 4.9 by lra; reflexivity.
Qed.

Lemma doc23 boxed : computes n (katsuura_bbob RA n d) (fun z => documented n 23 boxed d z + fopt _ d).
Proof using N.
  done (computes_pen n _ _ (lit RA 1 0) (computes_shift n _ _ (xopt _ d) o (computes_conditioned n N _ _ _ _ (rot1 _ d) (rot2 _ d)
    (computes_add n _ _ (fopt _ d) (computes_alloc n _ (zero RA) _ (katsuura_doc n N))) cond100) ltac:(reflexivity))).
  cbv beta. lits. rewrite Rplus_assoc, (Rplus_comm (fopt _ d)), <- Rplus_assoc. replace (1/1) with 1 by field. rewrite Rmult_1_l. reflexivity.
Qed.
Lemma doc24 boxed : computes n (lunacek_bbob RA n d) (fun z => documented n 24 boxed d z + fopt _ d).
Proof using N.
  unfold lunacek_bbob. cbv zeta. apply computes_add. apply computes_value. apply computes_best. apply computes_alloc. intros z.
  apply lunacek_doc. exact N.
Qed.

Lemma all_documented f boxed p : get_bbob_problem RA f n boxed d = Some p -> computes n p (fun z => documented n f boxed d z + fopt _ d).
Proof using N.
  intros E.
  destruct f as [|f]; [discriminate E|].
  assert (K : forall q, Some q = Some p -> q = p) by congruence.
  destruct f as [|f]; [cbn [get_bbob_problem] in E; apply K in E; rewrite <- E; exact (doc1 boxed)|].
  destruct f as [|f]; [cbn [get_bbob_problem] in E; apply K in E; rewrite <- E; exact (doc2 boxed)|].
  destruct f as [|f]; [cbn [get_bbob_problem] in E; apply K in E; rewrite <- E; exact (doc3 boxed)|].
  destruct f as [|f]; [cbn [get_bbob_problem] in E; apply K in E; rewrite <- E; exact (doc4 boxed)|].
  destruct f as [|f]; [cbn [get_bbob_problem] in E; apply K in E; rewrite <- E; exact (doc5 boxed)|].
  destruct f as [|f]; [cbn [get_bbob_problem] in E; apply K in E; rewrite <- E; exact (doc6 boxed)|].
  destruct f as [|f]; [cbn [get_bbob_problem] in E; apply K in E; rewrite <- E; exact (doc7 boxed)|].
  destruct f as [|f]; [cbn [get_bbob_problem] in E; apply K in E; rewrite <- E; exact (doc8 boxed)|].
  destruct f as [|f]; [cbn [get_bbob_problem] in E; apply K in E; rewrite <- E; exact (doc9 boxed)|].
  destruct f as [|f]; [cbn [get_bbob_problem] in E; apply K in E; rewrite <- E; exact (doc10 boxed)|].
  destruct f as [|f]; [cbn [get_bbob_problem] in E; apply K in E; rewrite <- E; exact (doc11 boxed)|].
  destruct f as [|f]; [cbn [get_bbob_problem] in E; apply K in E; rewrite <- E; exact (doc12 boxed)|].
  destruct f as [|f]; [cbn [get_bbob_problem] in E; apply K in E; rewrite <- E; exact (doc13 boxed)|].
  destruct f as [|f]; [cbn [get_bbob_problem] in E; apply K in E; rewrite <- E; exact (doc14 boxed)|].
  destruct f as [|f]; [cbn [get_bbob_problem] in E; apply K in E; rewrite <- E; exact (doc15 boxed)|].
  destruct f as [|f]; [cbn [get_bbob_problem] in E; apply K in E; rewrite <- E; exact (doc16 boxed)|].
  destruct f as [|f]; [cbn [get_bbob_problem] in E; apply K in E; rewrite <- E; exact (doc17 boxed)|].
  destruct f as [|f]; [cbn [get_bbob_problem] in E; apply K in E; rewrite <- E; exact (doc18 boxed)|].
  destruct f as [|f]; [cbn [get_bbob_problem] in E; apply K in E; rewrite <- E; exact (doc19 boxed)|].
  destruct f as [|f]; [cbn [get_bbob_problem] in E; apply K in E; rewrite <- E; exact (doc20 boxed)|].
  destruct f as [|f]; [cbn [get_bbob_problem] in E; apply K in E; rewrite <- E; exact (doc21 boxed)|].
  destruct f as [|f]; [cbn [get_bbob_problem] in E; apply K in E; rewrite <- E; exact (doc22 boxed)|].
  destruct f as [|f]; [cbn [get_bbob_problem] in E; apply K in E; rewrite <- E; exact (doc23 boxed)|].
  destruct f as [|f]; [cbn [get_bbob_problem] in E; apply K in E; rewrite <- E; exact (doc24 boxed)|].
  discriminate E.
Qed.

End Dimension.
