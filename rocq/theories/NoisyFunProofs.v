(** Lemmas on the noisy functions. *)

From Coq Require Import ZArith List Bool Reals Lra Lia.
From Verif Require Import FunModel FunSpec FunProofs FunOptima FunOptima2 FunOptima3 FunDocSpec FunDocProofs FunDocProofs2 FunDocAll NoisyFunModel NoisyFunSpec.
Import ListNotations.
Local Open Scope R_scope.
Local Notation RA := real_arith.

(** ** Values without noise *)

Section Values.
Variable n : nat.
Hypothesis N : (2 <= n)%nat.
Variable d : real_draws.
Notation o := (coord (xopt _ d)).

Lemma step_penalty v c d1 d2 o' x : step_ellipsoid_raw RA n o' v c d1 d2 x =
  step_ellipsoid_raw RA n o' v (lit RA 1 0) d1 d2 x + (c - 1) * excess RA n (lit RA 5 0) x.
Proof. unfold step_ellipsoid_raw. cbv zeta. lits. field. Qed.

Lemma gallagher_penalty c M k x : gallagher_raw RA n c M k x =
  gallagher_raw RA n (lit RA 1 0) M k x + (c - 1) * excess RA n (lit RA 5 0) x.
Proof. unfold gallagher_raw. cbv zeta. lits. field. Qed.

Lemma griewank_scale x : griewank_rosenbrock_raw RA n (lit RA 1 0) x = griewank_rosenbrock_raw RA n (lit RA 10 0) x / 10.
Proof. rewrite !griewank_total by exact N. lits. field. pose proof (INR_n1_pos n N). lra. Qed.

Lemma ellipsoid4_doc z : ellipsoid_raw RA n (lit RA 10000 0) (vec n z) = ellipsoid_1e4 n z.
Proof.
  unfold ellipsoid_raw, ellipsoid_1e4. rewrite (total_first n N), share_0, Rmult_0_r, Rpower_O by lra.
  rewrite (loop_ext (n - 1) _ (fun i s => s + Rpower 10 (4 * share n (S i)) * z (S i) ^ 2)).
  - rewrite loop_total. rewrite !vec_at by lia. lits. ring.
  - intros i t I. cbv zeta. rewrite !vec_at by lia. lits. rewrite pow_pos by lra.
    replace (Rpower (10000 / 1) (1 / 1 * INR (S i) / (INR n - 1 / 1))) with (Rpower 10 (4 * share n (S i))); [ring|].
    replace (10000 / 1) with (Rpower 10 4).
    + rewrite Rpower_mult. f_equal. unfold share. replace (1/1) with 1 by field. rewrite <- (INR_n1 n N). field.
      pose proof (INR_n1_pos n N). rewrite <- (INR_n1 n N) in *. lra.
    + replace 4 with (INR 4) by (cbn; lra). rewrite Rpower_pow by lra. lra.
Qed.

Lemma change_penalty q a b F : computes n (obj_penalize RA q a) F ->
  computes n (obj_penalize RA q b) (fun z => F z + (b - a) * fpen n z).
Proof.
  intros (D & B & E). change (dimension RA q = n) in D. change (box n q) in B.
  assert (C : computes n q (fun z => evaluate _ q (vec n z))) by (split; [exact D|split; [exact B|reflexivity]]).
  eapply computes_ext; [exact (computes_pen n q _ b C)|]. intros z. cbv beta. rewrite <- E.
  destruct (computes_pen n q _ a C) as (_ & _ & E'). rewrite E'. ring.
Qed.

Definition value (function : nat) (z : point) : R := noise_free n function d z + fopt _ d.

Lemma doc_sphere : computes n (sphere_bbob RA n false d) (value 101).
Proof. exact (doc1 n N d false). Qed.

Lemma doc_rosenbrock : computes n (rosenbrock_bbob RA n false n d) (value 104).
Proof. exact (doc8 n N d false). Qed.

Lemma doc_step : computes n (step_ellipsoid_bbob RA n (lit RA 0 0) d) (value 113).
Proof.
  unfold step_ellipsoid_bbob. apply computes_value, computes_best, computes_alloc. intros z.
  rewrite step_penalty, step_doc, excess_fpen by exact N. rewrite lit0. unfold value, noise_free. change (kind 113) with 4%nat. cbv iota zeta. change (@eq (num RA)) with (@eq R). ring.
Qed.

Lemma doc_ellipsoid : computes n (ellipsoid_rotated_bbob RA n (lit RA 10000 0) d) (value 116).
Proof.
  eapply computes_ext; [exact (computes_add n _ _ (fopt _ d) (computes_shift n _ _ (xopt _ d) o (computes_affine n _ _ (rot1 _ d) (computes_osz n _ _ (computes_alloc n _ (zero RA) _ ellipsoid4_doc))) ltac:(reflexivity)))|].
  reflexivity.
Qed.

Lemma doc_powers : computes n (different_powers_bbob RA n d) (value 119).
Proof. exact (doc14 n N d false). Qed.

Lemma doc_schaffers0 : computes n (schaffers_bbob RA n (lit RA 10 0) (lit RA 0 0) d) (value 122).
Proof.
  unfold schaffers_bbob. cbv zeta. eapply computes_ext.
  - apply change_penalty with (a := lit RA 10 0). exact (doc17 n N d false).
  - intros z. cbv beta. rewrite lit0, lit1. unfold documented, value, noise_free. change (kind 122) with 7%nat. cbv iota zeta. ring.
Qed.

Lemma doc_griewank : computes n (griewank_rosenbrock_bbob RA n (lit RA 1 0) d) (value 125).
Proof.
  unfold griewank_rosenbrock_bbob. cbv zeta. apply computes_best.
  assert (K : forall z i, (i < n)%nat -> at_ RA (zeros RA n) i + total n (fun j => z j * entry RA (vec n (fun i => vec n (fun j => mul RA (entry RA (rot2 _ d) i j) (rosenbrock_factor RA n)))) i j)
     = spread n * apply n (rot2 _ d) z i).
  { intros z i I. rewrite zeros_at, Rplus_0_l. unfold apply, spread. rewrite <- total_scale. apply total_ext. intros j J.
    rewrite (entry_vec n (fun i j => mul RA (entry RA (rot2 _ d) i j) (rosenbrock_factor RA n))) by assumption. rewrite factor_Rmax, cell_eq. lits. ring. }
  assert (Y : forall i, (i < n)%nat -> coord (repeat (opp RA (lit RA 5 1)) n) i = - (1/2)).
  { intros i I. rewrite <- coord_at. change (repeat (opp RA (lit RA 5 1)) n) with (repeat (opp RA (lit RA 5 1) : R) n). rewrite repeat_at by exact I. lits. lra. }
  assert (G : forall z, griewank_rosenbrock_raw RA n (lit RA 1 0) (vec n z) = griewank_rosenbrock n z / 10)
    by (intros z; rewrite griewank_scale, griewank_doc by exact N; reflexivity).
  eapply computes_ext; [exact (computes_affine_gen n _ _ _ (zeros RA n) _ (computes_best n _ _ (zeros RA n) (computes_shift n _ _ _ (fun _ => - (1/2)) (computes_add n _ _ (fopt _ d)
     (computes_alloc n _ (lit RA 1 0) _ G)) Y)) K)|].
  intros z. cbv beta. unfold value, noise_free. change (kind 125) with 8%nat. cbv iota zeta. f_equal. unfold griewank_rosenbrock, minus. cbv zeta.
  rewrite (total_ext (n - 1) _ (fun i => (100 * ((spread n * apply n (rot2 _ d) z i + 1 / 2) ^ 2 - (spread n * apply n (rot2 _ d) z (S i) + 1 / 2)) ^ 2 +
    (spread n * apply n (rot2 _ d) z i + 1 / 2 - 1) ^ 2) / 4000 - Rtrigo_def.cos (100 * ((spread n * apply n (rot2 _ d) z i + 1 / 2) ^ 2 - (spread n * apply n (rot2 _ d) z (S i) + 1 / 2)) ^ 2 +
    (spread n * apply n (rot2 _ d) z i + 1 / 2 - 1) ^ 2))).
  - field. pose proof (INR_n1_pos n N). lra.
  - intros i I.
    replace (spread n * apply n (rot2 _ d) z i - - (1/2)) with (spread n * apply n (rot2 _ d) z i + 1/2) by ring.
    replace (spread n * apply n (rot2 _ d) z (S i) - - (1/2)) with (spread n * apply n (rot2 _ d) z (S i) + 1/2) by ring. reflexivity.
Qed.

Lemma greatest_ext m (f g : nat -> R) : (forall i, f i = g i) -> greatest m f = greatest m g.
Proof. intros E. induction m as [|m IH]; cbn [greatest]; [apply E|]. rewrite IH, E. reflexivity. Qed.

Lemma doc_gallagher0 : computes n (gallagher_bbob RA n 101 false (FunModel.sqrt RA (lit RA 1000 0)) (lit RA 10 0) (lit RA 5 0) (lit RA 0 0) d) (value 128).
Proof.
  pose proof (doc21 n N d false) as G. unfold gallagher_bbob in *. destruct (gallagher_data RA n 101 false _ _ _ d) as [k best]. cbv zeta in *.
  destruct G as (_ & _ & G). apply computes_ext with (F := fun z => gallagher_raw RA n (lit RA 0 0) (rot2 _ d) k (vec n z) + fopt _ d).
  - apply computes_add, computes_value, computes_best, computes_alloc. reflexivity.
  - intros z. cbv beta. specialize (G z). unfold obj_shift in G. cbn [with_best_value evaluate] in G. rewrite evaluate_with in G. cbn [with_best_parameter evaluate allocate] in G. rewrite no_nan in G.
    rewrite gallagher_penalty, excess_fpen. change (add RA) with Rplus in G.
    apply Rplus_eq_reg_r with (r := fpen n z). transitivity (documented n 21 false d z + fopt _ d); [rewrite <- G; replace (lit RA 0 0) with 0 by (symmetry; exact lit0); change (@eq (num RA)) with (@eq R); change (num RA) with R; ring|].
    unfold documented, value, noise_free, gallagher. change (kind 128) with 9%nat. cbv iota zeta.
    match goal with |- osz ?a ^ 2 + ?f + ?v = osz ?b ^ 2 + ?v + ?f => assert (E : a = b); [|rewrite E; ring] end.
    f_equal. apply greatest_ext. intros i. f_equal. f_equal. f_equal. apply total_ext. intros j J. f_equal. f_equal. unfold apply, minus. apply total_ext. intros c C.
    destruct i; [reflexivity|]. rewrite Rmult_1_l. reflexivity.
Qed.
End Values.

Lemma value_kind n d f g z : kind f = kind g -> value n d f z = value n d g z.
Proof. intros K. unfold value, noise_free. rewrite K. reflexivity. Qed.

Ltac functions f :=
  let IN := fresh in
  assert (IN : In f (seq 101 30)) by (apply in_seq; lia); cbn [seq In] in IN;
  repeat (destruct IN as [<- | IN]); [..|contradiction].

Lemma inner_delivered f n (d : real_draws) : (exists p, noisy_inner RA f n d = Some p) <-> (101 <= f <= 130)%nat.
Proof.
  split.
  - intros (p & E). do 131 (destruct f as [|f]; [try discriminate E; lia|]). discriminate E.
  - intros H. functions f; eexists; reflexivity.
Qed.

Lemma model_delivered f n : (exists k, noisy_model RA f n = Some k) <-> (101 <= f <= 130)%nat.
Proof.
  split.
  - intros (p & E). do 131 (destruct f as [|f]; [try discriminate E; lia|]). discriminate E.
  - intros H. functions f; eexists; reflexivity.
Qed.

Lemma noisy_inv f n d q : get_noisy_problem RA f n d = Some q ->
  (101 <= f <= 130)%nat /\ noisy_inner RA f n d = Some (inner _ q) /\ noisy_model RA f n = Some (model _ q).
Proof.
  unfold get_noisy_problem. intros E. split.
  - apply (inner_delivered f n d). destruct (noisy_inner RA f n d) as [p|]; [exists p; reflexivity|discriminate].
  - destruct (noisy_inner RA f n d) as [p|]; [|discriminate]. destruct (noisy_model RA f n) as [k|]; [|discriminate].
    assert (q = {| inner := p; model := k |}) as -> by congruence. split; reflexivity.
Qed.

Lemma inner_documented f n d p : (2 <= n)%nat -> noisy_inner RA f n d = Some p -> computes n p (value n d f).
Proof.
  intros N E. assert (F : (101 <= f <= 130)%nat) by (apply (inner_delivered f n d); exists p; exact E).
  assert (K : forall q, Some q = Some p -> q = p) by congruence.
  functions f; cbn [noisy_inner] in E; apply K in E; rewrite <- E.
  all: first [exact (doc_sphere n N d)|exact (doc_rosenbrock n N d)|exact (doc_step n N d)|exact (doc_ellipsoid n N d)|exact (doc_powers n N d)
    |exact (doc_schaffers0 n N d)|exact (doc_griewank n N d)|exact (doc_gallagher0 n N d)].
Qed.

(** ** Optima *)

Section Optima.
Variables (n : nat) (d : real_draws).
Hypothesis N : (2 <= n)%nat.
Hypothesis P : plausible n d.
Notation x := (xopt RA d).

Lemma xopt_bounds : forall i, (i < n)%nat -> -5 <= at_ RA x i <= 5.
Proof. intros i I. apply (within_at n); [apply P|apply P|exact I]. Qed.

Lemma st_step : st n (step_ellipsoid_bbob RA n (lit RA 0 0) d) (fopt _ d) (at_ RA x).
Proof.
  unfold step_ellipsoid_bbob. apply st_direct; try reflexivity.
  - apply P.
  - split; reflexivity.
  - cbn [with_best_value with_best_parameter evaluate best_parameter allocate]. rewrite no_nan. apply step_best; [exact N|]. exact xopt_bounds.
  - intros y Y. cbn [with_best_value with_best_parameter evaluate allocate]. rewrite no_nan. apply step_nonneg. lits. lra.
Qed.

Lemma st_ellipsoid : st n (ellipsoid_rotated_bbob RA n (lit RA 10000 0) d) (fopt _ d) (at_ RA x).
Proof.
  eapply st_ext; [apply st_obj_shift, st_shift, st_affine, st_oscillate, alloc0| |].
  - apply ellipsoid_zero; exact N.
  - intros; apply ellipsoid_nonneg. lits. lra.
  - apply Rplus_0_l.
  - intros; apply Rplus_0_l.
Qed.

Lemma st_gallagher : st n (gallagher_bbob RA n 101 false (FunModel.sqrt RA (lit RA 1000 0)) (lit RA 10 0) (lit RA 5 0) (lit RA 0 0) d) (fopt _ d)
    (fun i => 8/10 * (10 * at_ RA (locations _ d) i - 5)) /\
  (forall i, (i < n)%nat -> -5 <= 8/10 * (10 * at_ RA (locations _ d) i - 5) <= 5).
Proof.
  assert (S : 0 < FunModel.sqrt RA (lit RA 1000 0)) by (lits; apply sqrt_lt_R0; lra).
  pose proof (gallagher_best n 101 false (FunModel.sqrt RA (lit RA 1000 0)) (lit RA 10 0) (lit RA 5 0) (lit RA 0 0) d N ltac:(lia) S
    ltac:(lits; lra) ltac:(lits; lra) (proj2 (proj2 (proj2 P)))) as G.
  unfold gallagher_bbob. destruct (gallagher_data RA n 101 false _ _ _ d) as (k & best). destruct G as (G1 & G2 & G3).
  assert (G4 : forall i, (i < n)%nat -> at_ RA best i = 8/10 * (10 * at_ RA (locations _ d) i - 5) /\ -5 <= at_ RA best i <= 5).
  { intros i I. destruct (G3 i I) as (E & H). split; [|exact H]. rewrite E, !lit1. reflexivity. }
  split.
  - eapply st_ext; [apply st_obj_shift, (st_given n (gallagher_raw RA n (lit RA 0 0) (rot2 RA d) k) best)| |].
    + exact G2.
    + exact G1.
    + intros; apply gallagher_nonneg. lits. lra.
    + apply Rplus_0_l.
    + intros i I. apply G4. exact I.
  - intros i I. destruct (G4 i I) as (E & H). rewrite E in H. exact H.
Qed.
End Optima.

Lemma inner_optimum f n d p : (2 <= n)%nat -> plausible n d -> ((125 <= f <= 127)%nat -> (n <= 64)%nat) -> noisy_inner RA f n d = Some p ->
  optimum n p (fopt _ d) /\ noisy_location n f d (best_parameter _ p).
Proof.
  intros N P H E. assert (F : (101 <= f <= 130)%nat) by (apply (inner_delivered f n d); exists p; exact E).
  assert (K : forall q, Some q = Some p -> q = p) by congruence. pose proof (xopt_bounds n d P) as B.
  assert (J : forall b, st n p (fopt _ d) b -> (forall i, (i < n)%nat -> -5 <= b i <= 5) ->
    optimum n p (fopt _ d) /\ forall i, (i < n)%nat -> coord (best_parameter _ p) i = b i).
  { intros b S W. split; [exact (st_optimum n p _ b S W)|]. intros i I. rewrite FunOptima3.coord_at. apply S. exact I. }
  assert (J1 : st n p (fopt _ d) (at_ RA (xopt _ d)) -> optimum n p (fopt _ d) /\ forall i, (i < n)%nat -> coord (best_parameter _ p) i = coord (xopt _ d) i).
  { intros S. destruct (J _ S B) as (O & L). split; [exact O|]. intros i I. rewrite L by exact I. symmetry. apply FunOptima3.coord_at. }
  assert (J8 : st n p (fopt _ d) (fun i => 3/4 * at_ RA (xopt _ d) i) -> optimum n p (fopt _ d) /\ forall i, (i < n)%nat -> coord (best_parameter _ p) i = 3/4 * coord (xopt _ d) i).
  { intros S. destruct (J _ S) as (O & L); [intros i I; specialize (B i I); lra|]. split; [exact O|]. intros i I. rewrite L by exact I. rewrite FunOptima3.coord_at. reflexivity. }
  functions f; cbn [noisy_inner] in E; apply K in E; unfold noisy_location;
    match goal with |- context [kind ?m] => let v := eval vm_compute in (kind m) in change (kind m) with v end; cbv iota.
  all: lazymatch type of E with
  | sphere_bbob _ _ _ _ = _ => apply J1; rewrite <- E; apply st1; assumption
  | rosenbrock_bbob _ _ _ _ _ = _ => apply J8; rewrite <- E; apply st8; assumption
  | step_ellipsoid_bbob _ _ _ _ = _ => apply J1; rewrite <- E; apply st_step; assumption
  | ellipsoid_rotated_bbob _ _ _ _ = _ => apply J1; rewrite <- E; apply st_ellipsoid; assumption
  | different_powers_bbob _ _ _ = _ => apply J1; rewrite <- E; apply st14; assumption
  | schaffers_bbob _ _ _ _ _ = _ => apply J1; rewrite <- E; apply st17; try assumption; rewrite lit0; lra
  | griewank_rosenbrock_bbob _ _ _ _ = _ =>
    destruct (J (fun j => column n (rot2 _ d) j / 2)) as (O & L);
    [rewrite <- E; apply griewank_st; [split; [exact N|apply H; lia]|lits; lra|apply P]
    |intros i I; pose proof (rotated_within n (rot2 _ d) 1 i ltac:(apply P) I ltac:(lra)) as W; rewrite Rmult_1_r in W; apply W;
     apply Rmult_le_reg_r with 8; [lra|]; unfold Rdiv; rewrite Rmult_assoc, Rinv_l, Rmult_1_r, Rmult_1_l by lra; rewrite <- (sqrt_square 8) by lra; apply sqrt_le_1_alt;
     rewrite <- INR64; apply le_INR; apply H; lia
    |split; [exact O|]; intros i I; rewrite L by exact I; reflexivity]
  | gallagher_bbob _ _ _ _ _ _ _ _ _ = _ =>
    destruct (st_gallagher n d N P) as (S & W); destruct (J (fun i => 8/10 * (10 * at_ RA (locations _ d) i - 5))) as (O & L);
    [rewrite <- E; exact S|exact W|]; split; [exact O|]; intros i I; rewrite L by exact I; rewrite FunOptima3.coord_at; lra
  end.
Qed.

(** ** Noise *)

Lemma boundary n p F z : computes n p F -> boundary_handling RA p (vec n z) = 100 * fpen n z.
Proof.
  intros (D & (B1 & B2) & _). unfold boundary_handling. cbv zeta. rewrite D, B1, B2, lit1. rewrite <- excess_fpen. unfold excess.
  change (mul RA) with Rmult. f_equal. apply loop_ext. intros i t I. cbv zeta.
  change (repeat (lit RA (-5) 0) n) with (repeat (lit RA (-5) 0 : R) n). change (repeat (lit RA 5 0) n) with (repeat (lit RA 5 0 : R) n).
  rewrite !(repeat_at _ n i I), !vec_at by exact I. rewrite !lt_dec, zero0. lits. unfold Rabs.
  destruct (Rlt_dec (5 / 1) (z i)); destruct (Rlt_dec (z i) (-5 / 1)); destruct (Rcase_abs (z i)); destruct (Rlt_dec 0 _); nra.
Qed.

Lemma lit101 : mul RA (lit RA 101 2) (lit RA 1 8) = 1.01 / 10 ^ 8.
Proof. change (IZR 101 / 100 * (1 / 100000000) = 1.01 / 10 ^ 8). lra. Qed.

Lemma lit_eps e k : (0 <= e)%Z -> e = Z.of_nat k -> lit RA 1 e = / 10 ^ k.
Proof.
  intros E ->. change (1 / IZR (10 ^ Z.of_nat k) = / 10 ^ k). rewrite <- pow_IZR. unfold Rdiv. ring.
Qed.

Lemma gauss_value b (s : real_samples) (p : real_problem) x (v w : R) : evaluate _ p x = v + w -> best_value _ p = w ->
  noisy_evaluate RA {| inner := p; model := Gaussian RA b |} s x =
  (w + v * Rtrigo_def.exp (b * gaussian1 _ s) + 1.01 / 10 ^ 8 + boundary_handling RA p x, v + w).
Proof.
  intros E B. unfold noisy_evaluate. cbn [inner model]. cbv zeta. rewrite E, B, lit101. f_equal.
  change (add RA) with Rplus. change (sub RA) with Rminus. change (mul RA) with Rmult. change (FunModel.exp RA) with Rtrigo_def.exp. change (num RA) with R. ring.
Qed.

Lemma uniform_value a b (s : real_samples) (p : real_problem) x (v w : R) : 0 <= v -> 0 <= uniform1 _ s -> b <> 0 -> evaluate _ p x = v + w -> best_value _ p = w ->
  noisy_evaluate RA {| inner := p; model := Uniform RA a b |} s x =
  (w + v * power (uniform1 _ s) b * Rmax 1 (Rpower (10 ^ 9 / (v + / 10 ^ 99)) (a * uniform2 _ s)) + 1.01 / 10 ^ 8 + boundary_handling RA p x, v + w).
Proof.
  intros V U N0 E B. unfold noisy_evaluate. cbn [inner model]. cbv zeta. rewrite E, B, lit101, (lit_eps 99 99), !lit1 by (reflexivity || lia). f_equal.
  change (add RA) with Rplus. change (sub RA) with Rminus. change (mul RA) with Rmult. change (div RA) with Rdiv. change (FunModel.pow RA) with real_pow. change (num RA) with R.
  replace (v + w - w) with v by ring. rewrite pow_power by assumption.
  assert (X : 0 < / 10 ^ 99) by (apply Rinv_0_lt_compat, pow_lt; lra).
  rewrite pow_pos by (apply Rdiv_lt_0_compat; lra).
  replace 1000000000 with (10 ^ 9) by ring. rewrite lt_dec. unfold Rmax.
  set (r := Rpower _ _). destruct (Rlt_dec 1 r); destruct (Rle_dec 1 r); try lra; try ring. replace r with 1 by lra. ring.
Qed.

Lemma cauchy_value a p0 (s : real_samples) (p : real_problem) x (v w : R) : 0 <= a -> evaluate _ p x = v + w -> best_value _ p = w ->
  noisy_evaluate RA {| inner := p; model := Cauchy RA a p0 |} s x =
  (w + (v + a * Rmax 0 (1000 + if Rlt_dec (uniform1 _ s) p0 then gaussian1 _ s / Rabs (gaussian2 _ s + / 10 ^ 199) else 0)) + 1.01 / 10 ^ 8 + boundary_handling RA p x, v + w).
Proof.
  intros A E B. unfold noisy_evaluate. cbn [inner model]. cbv zeta. rewrite E, lit101, (lit_eps 199 199), !lit1 by (reflexivity || lia). f_equal.
  change (add RA) with Rplus. change (sub RA) with Rminus. change (mul RA) with Rmult. change (div RA) with Rdiv. change (abs RA) with Rabs. change (num RA) with R.
  rewrite !lt_dec, zero0. set (r := gaussian1 _ s / _).
  assert (K : forall c, (if (if Rlt_dec 0 (a * c) then true else false) then a * c else 0) = a * Rmax 0 c).
  { intros c. unfold Rmax. destruct (Rlt_dec 0 (a * c)); destruct (Rle_dec 0 c); nra. }
  rewrite K. destruct (Rlt_dec (uniform1 _ s) p0); [ring|]. rewrite (Rplus_0_r 1000). ring.
Qed.

Lemma noise_value f n k (s : real_samples) (v w : R) : (2 <= n)%nat -> noisy_model RA f n = Some k -> 0 <= v -> 0 <= uniform1 _ s ->
  forall (p : real_problem) x, evaluate _ p x = v + w -> best_value _ p = w ->
  noisy_evaluate RA {| inner := p; model := k |} s x =
  (w + disturbed n f s v + 1.01 / 10 ^ 8 + boundary_handling RA p x, v + w).
Proof.
  intros N E V U p x EV BV. assert (F : (101 <= f <= 130)%nat) by (apply (model_delivered f n); exists k; exact E).
  assert (K : forall q, Some q = Some k -> q = k) by congruence.
  assert (L1 : lit RA 1 2 = 0.01) by (lits; lra). assert (L2 : lit RA 49 2 = 0.49) by (lits; lra).
  assert (L3 : lit RA 5 2 = 0.05) by (lits; lra). assert (L4 : lit RA 2 1 = 0.2) by (lits; lra).
  functions f; cbn [noisy_model] in E; apply K in E; rewrite <- E; unfold disturbed;
    match goal with |- context [Nat.modulo ?a 3] => let v := eval vm_compute in (Nat.modulo a 3) in change (Nat.modulo a 3) with v end;
    match goal with |- context [Nat.leb 107 ?a] => let v := eval vm_compute in (Nat.leb 107 a) in change (Nat.leb 107 a) with v end; cbv iota zeta;
    first [rewrite (gauss_value _ s p x v w EV BV)|rewrite (uniform_value _ _ s p x v w V U) by (try assumption; rewrite ?L1, ?lit1; lra)|rewrite (cauchy_value _ _ s p x v w) by (try assumption; rewrite ?L1, ?lit1; lra)];
    rewrite ?L1, ?L2, ?L3, ?L4, ?lit1; try reflexivity; rewrite ?Rmult_1_l; reflexivity.
Qed.
