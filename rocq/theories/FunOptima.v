(** The optimum of each of the benchmark functions in exact arithmetic. *)

From Coq Require Import ZArith List Bool Reals Lra Lia.
From Verif Require Import FunModel FunSpec FunProofs.
Import ListNotations.
Local Open Scope R_scope.

Section State.
Variable n : nat.

(** The optimum is at [b] with value [v]. *)
Definition st (p : real_problem) (v : R) (b : nat -> R) : Prop :=
  good n p /\ box n p /\ best_value _ p = v /\ forall i, (i < n)%nat -> (best_parameter _ p).[i] = b i.

Lemma st_zero p v b : st p v b -> (forall i, (i < n)%nat -> b i = 0) -> at_zero n p.
Proof.
  intros ((D & B & _) & _ & _ & F) Z. unfold at_zero. rewrite <- (vec_repeat 0 n), <- (list_vec _ n B).
  apply vec_ext. intros i I. rewrite F, Z by exact I. reflexivity.
Qed.

Lemma st_ext p v b v' b' : st p v b -> v = v' -> (forall i, (i < n)%nat -> b i = b' i) -> st p v' b'.
Proof.
  intros (G & B & V & F) <- E. repeat split; try apply G; try apply B; try assumption.
  intros i I. rewrite F, E by exact I. reflexivity.
Qed.

Lemma st_alloc raw b : raw (repeat b n) = 0 -> (forall x, length x = n -> 0 <= raw x) ->
  st (allocate RA n raw b) 0 (fun _ => b).
Proof.
  intros Z H. split; [|split; [|split]].
  - apply allocate_good. intros x X. rewrite Z. apply H. exact X.
  - split; reflexivity.
  - cbn. rewrite no_nan. exact Z.
  - intros i I. cbn [allocate best_parameter]. apply repeat_at. exact I.
Qed.

Lemma st_shift p v b o : st p v b -> st (vars_shift RA p o) v (fun i => b i + at_ RA o i).
Proof.
  intros (G & B & V & F). split; [|split; [|split]].
  - apply shift_good. exact G.
  - exact B.
  - exact V.
  - intros i I. rewrite (shift_best n) by (try apply G; exact I). rewrite F by exact I. reflexivity.
Qed.

Lemma st_scale p v b c : c <> 0 -> st p v b -> st (vars_scale RA p c) v (fun i => b i / c).
Proof.
  intros C (G & B & V & F). split; [|split; [|split]].
  - apply scale_good; assumption.
  - unfold vars_scale. destruct (_ || _); exact B.
  - unfold vars_scale. destruct (_ || _); exact V.
  - intros i I. rewrite (scale_best n) by (try apply G; assumption). rewrite F by exact I. reflexivity.
Qed.

Lemma st_fix p v q : st p v (fun _ => 0) -> (good n p -> at_zero n p -> good n q /\ at_zero n q) ->
  smallest _ q = smallest _ p -> largest _ q = largest _ p -> best_value _ q = best_value _ p -> st q v (fun _ => 0).
Proof.
  intros H Q S L V. pose proof (st_zero _ _ _ H (fun _ _ => eq_refl)) as Z. destruct H as (G & (B1 & B2) & W & F).
  destruct (Q G Z) as (Q1 & Q2). split; [exact Q1|]. split; [split; congruence|]. split; [congruence|].
  intros i I. apply at_zero_at with (n := n). exact Q2.
Qed.

Lemma affine_copies p M b : smallest _ (vars_affine RA p M b) = smallest _ p /\ largest _ (vars_affine RA p M b) = largest _ p /\
  best_value _ (vars_affine RA p M b) = best_value _ p /\ dimension _ (vars_affine RA p M b) = dimension _ p.
Proof. unfold vars_affine. cbv zeta. destruct (_ || _); [destruct (is_orthogonal _ _ _)|]; repeat split. Qed.

Lemma st_affine p v M : st p v (fun _ => 0) -> st (vars_affine RA p M (zeros RA n)) v (fun _ => 0).
Proof. intros H. apply (st_fix p v); [exact H|apply affine_good|apply affine_copies..]. Qed.

Lemma st_conditioning p v a : st p v (fun _ => 0) -> st (vars_conditioning RA p a) v (fun _ => 0).
Proof. intros H. apply (st_fix p v); [exact H|apply conditioning_good|reflexivity..]. Qed.

Lemma st_asymmetric p v a : st p v (fun _ => 0) -> st (vars_asymmetric RA p a) v (fun _ => 0).
Proof. intros H. apply (st_fix p v); [exact H|apply asymmetric_good|reflexivity..]. Qed.

Lemma st_oscillate p v : st p v (fun _ => 0) -> st (vars_oscillate RA p) v (fun _ => 0).
Proof. intros H. apply (st_fix p v); [exact H|apply oscillate_good|reflexivity..]. Qed.

Lemma st_brs p v : st p v (fun _ => 0) -> st (vars_brs RA p) v (fun _ => 0).
Proof. intros H. apply (st_fix p v); [exact H|apply brs_good|reflexivity..]. Qed.

Lemma st_obj_shift p v b o : st p v b -> st (obj_shift RA p o) (v + o) b.
Proof.
  intros (G & B & V & F). split; [|split; [|split]].
  - apply obj_shift_good. exact G.
  - exact B.
  - cbn. rewrite V. reflexivity.
  - exact F.
Qed.

Lemma st_norm large p b : (2 <= n)%nat -> st p 0 b -> st (norm_if RA large p) 0 b.
Proof.
  intros N (G & B & V & F). destruct large; [|repeat split; try apply G; try apply B; assumption].
  split; [|split; [|split]]; [|exact B|exact V|exact F]. apply norm_good; assumption.
Qed.

Lemma st_obj_oscillate p b : st p 0 b -> st (obj_oscillate RA p) 0 b.
Proof.
  intros (G & B & V & F). destruct (obj_oscillate_good n p G V) as (H1 & H2).
  split; [exact H1|]. split; [exact B|]. split; [exact H2|exact F].
Qed.

Lemma st_obj_power p e b : e <> 0 -> st p 0 b -> st (obj_power RA p e) 0 b.
Proof.
  intros E (G & B & V & F). destruct (obj_power_good n p e E G V) as (H1 & H2).
  split; [exact H1|]. split; [exact B|]. split; [exact H2|exact F].
Qed.

Lemma st_within p v b c : st p v b -> (forall i, (i < n)%nat -> - c <= b i <= c) -> within c (best_parameter _ p).
Proof.
  intros ((D & L & _) & _ & _ & F) H. apply (within_intro n); [exact L|]. intros i I. rewrite F by exact I. apply H. exact I.
Qed.

Lemma st_penalize p v b c : 0 <= c -> (forall i, (i < n)%nat -> -5 <= b i <= 5) -> st p v b -> st (obj_penalize RA p c) v b.
Proof.
  intros C W S. pose proof (st_within p v b 5 S W) as W'. destruct S as (G & B & V & F).
  split; [|split; [exact B|split; [exact V|exact F]]]. apply penalize_good; assumption.
Qed.

Lemma st_optimum p v b : st p v b -> (forall i, (i < n)%nat -> -5 <= b i <= 5) -> optimum n p v.
Proof.
  intros S W. pose proof (st_within p v b 5 S W). apply optimum_intro; [apply S..|assumption].
Qed.

(** The problem with a given best parameter, whose value is computed there. *)
Lemma st_given raw b : length b = n -> raw b = 0 -> (forall x, length x = n -> 0 <= raw x) ->
  let q := with_best_parameter RA (allocate RA n raw (zero RA)) b in
  st (with_best_value RA q (evaluate _ q b)) 0 (at_ RA b).
Proof.
  intros L Z H q. split; [|split; [|split]].
  - unfold good, q. cbn [with_best_value with_best_parameter dimension best_parameter best_value evaluate allocate].
    rewrite no_nan, Z. repeat split; [exact L|]. intros x X. rewrite no_nan. apply H. exact X.
  - split; reflexivity.
  - cbn. rewrite no_nan. exact Z.
  - reflexivity.
Qed.

End State.

(** ** Squares and small facts *)

Lemma sq_pos (x : R) : 0 <= x * x. Proof. apply Rle_0_sqr. Qed.
Lemma cos_le (x : R) : Rtrigo_def.cos x <= 1. Proof. apply COS_bound. Qed.
Lemma cos_ge (x : R) : -1 <= Rtrigo_def.cos x. Proof. apply COS_bound. Qed.

Lemma INR_ge2 n : (2 <= n)%nat -> 2 <= INR n.
Proof. intros H. change 2 with (INR 2). apply le_INR. exact H. Qed.

(** ** Raw functions at zero *)

Section Raw.
Variable n : nat.
Hypothesis N : (2 <= n)%nat.

Ltac zat := rewrite ?repeat_at by lia.

Lemma sphere_nonneg x : 0 <= sphere_raw RA n x.
Proof. apply loop_nonneg; [rewrite zero0; lra|]. intros i s I H. apply Rplus_le_le_0_compat; [exact H|apply sq_pos]. Qed.
Lemma sphere_zero : sphere_raw RA n (repeat 0 n) = 0.
Proof. apply loop_zero; [apply zero0|]. intros i I. zat. lits. ring. Qed.

Lemma weighted (c x : R) : 0 <= c -> 0 <= c * x * x.
Proof. intros H. rewrite Rmult_assoc. apply Rmult_le_pos; [exact H|apply sq_pos]. Qed.

Lemma ellipsoid_nonneg c x : 0 <= c -> 0 <= ellipsoid_raw RA n c x.
Proof.
  intros C. apply loop_nonneg; [apply sq_pos|]. intros i s I H. cbv zeta. apply Rplus_le_le_0_compat; [exact H|].
  apply weighted. apply pow_nonneg. exact C.
Qed.
Lemma ellipsoid_zero c : ellipsoid_raw RA n c (repeat 0 n) = 0.
Proof. apply loop_zero; [zat; lits; ring|]. intros i I. cbv zeta. zat. lits. ring. Qed.

Lemma cos_sum_le (z : nat -> R) (f : nat -> R) m a b :
  let s := loop m (fun i (s : R * R) => (fst s + Rtrigo_def.cos (z i), snd s + f i * f i)) (a, b) in
  fst s <= a + INR m /\ (0 <= b -> 0 <= snd s).
Proof.
  induction m as [|m IH]; cbv zeta in *; cbn [loop fst snd].
  - cbn. lra.
  - destruct IH as (H1 & H2). rewrite S_INR. pose proof (cos_le (z m)). pose proof (sq_pos (f m)).
    split; [lra|]. intros B. specialize (H2 B). lra.
Qed.

Lemma cos_sum_zero (f g : nat -> R) m a b : (forall i, (i < m)%nat -> f i = 0 /\ g i = 0) ->
  loop m (fun i (s : R * R) => (fst s + Rtrigo_def.cos (f i), snd s + g i * g i)) (a, b) = (a + INR m, b).
Proof.
  induction m as [|m IH]; intros H; cbn [loop fst snd].
  - cbn. rewrite Rplus_0_r. reflexivity.
  - rewrite IH by (intros; apply H; lia). cbn [fst snd]. destruct (H m ltac:(lia)) as (-> & ->).
    rewrite cos_0, S_INR. f_equal; ring.
Qed.

Lemma rastrigin_nonneg x : 0 <= rastrigin_raw RA n x.
Proof.
  unfold rastrigin_raw. cbv zeta. cbn [isinf RA]. lits.
  destruct (cos_sum_le (fun i => two_pi RA * x.[i]) (fun i => x.[i]) n (0/1) (0/1)) as (H1 & H2). cbv zeta in *.
  specialize (H2 ltac:(lra)). cbn beta iota. change (isinf RA ?a) with false. cbv iota. lra.
Qed.
Lemma rastrigin_zero : rastrigin_raw RA n (repeat 0 n) = 0.
Proof.
  unfold rastrigin_raw. cbv zeta. change (isinf RA ?a) with false. cbv iota. lits.
  rewrite (cos_sum_zero (fun i => two_pi RA * at_ RA (repeat 0 n) i) (fun i => at_ RA (repeat 0 n) i)).
  - cbn [fst snd]. lra.
  - intros i I. zat. split; ring.
Qed.

Lemma bueche_nonneg x : 0 <= bueche_rastrigin_raw RA n x.
Proof.
  unfold bueche_rastrigin_raw. cbv zeta. lits.
  destruct (cos_sum_le (fun i => 2/1 * PI * x.[i]) (fun i => x.[i]) n (0/1) (0/1)) as (H1 & H2). cbv zeta in *.
  specialize (H2 ltac:(lra)). lra.
Qed.
Lemma bueche_zero : bueche_rastrigin_raw RA n (repeat 0 n) = 0.
Proof.
  unfold bueche_rastrigin_raw. cbv zeta. lits.
  rewrite (cos_sum_zero (fun i => 2/1 * PI * at_ RA (repeat 0 n) i) (fun i => at_ RA (repeat 0 n) i)).
  - cbn [fst snd]. lra.
  - intros i I. zat. split; ring.
Qed.

Lemma attractive_nonneg o x : 0 <= attractive_sector_raw RA n o x.
Proof.
  apply loop_nonneg; [rewrite zero0; lra|]. intros i s I H.
  destruct (FunModel.lt RA _ _); apply Rplus_le_le_0_compat; try exact H; [|apply sq_pos]. apply weighted. lits. lra.
Qed.
Lemma attractive_zero o : attractive_sector_raw RA n o (repeat 0 n) = 0.
Proof. apply loop_zero; [apply zero0|]. intros i I. zat. destruct (FunModel.lt RA _ _); lits; ring. Qed.

Lemma excess_nonneg c x : 0 <= excess RA n c x.
Proof.
  apply loop_nonneg; [rewrite zero0; lra|]. intros i s I H. cbv zeta.
  destruct (FunModel.lt RA _ _); [|exact H]. apply Rplus_le_le_0_compat; [exact H|apply sq_pos].
Qed.
Lemma excess_zero c x : (forall i, (i < n)%nat -> - c <= at_ RA x i <= c) -> excess RA n c x = 0.
Proof.
  intros H. apply loop_zero; [apply zero0|]. intros i I. cbv zeta.
  replace (FunModel.lt RA (zero RA) _) with false; [reflexivity|]. symmetry. apply lt_false. rewrite zero0. lits.
  specialize (H i I). assert (Rabs x.[i] <= c); [|lra]. apply Rabs_le. exact H.
Qed.

Lemma rosenbrock_nonneg x : 0 <= rosenbrock_raw RA n x.
Proof.
  unfold rosenbrock_raw. cbv zeta.
  assert (H : (fun s : R * R => 0 <= fst s /\ 0 <= snd s)
    (loop (n - 1) (fun i (s : R * R) =>
      (fst s + (x.[i] * x.[i] - x.[S i]) * (x.[i] * x.[i] - x.[S i]), snd s + (x.[i] - lit RA 1 0) * (x.[i] - lit RA 1 0))) (0/1, 0/1))).
  { apply loop_ind; [cbn; lra|]. intros i s I (H1 & H2). cbn [fst snd].
    split; (apply Rplus_le_le_0_compat; [assumption|apply sq_pos]). }
  cbv beta in H. lits. lra.
Qed.
Lemma rosenbrock_one : rosenbrock_raw RA n (repeat 1 n) = 0.
Proof.
  unfold rosenbrock_raw. cbv zeta.
  match goal with |- context [loop ?m ?f ?a] => assert (H : (fun s : R * R => fst s = 0 /\ snd s = 0) (loop m f a)) end.
  { apply (loop_ind (fun s : R * R => fst s = 0 /\ snd s = 0)); [cbn; lra|]. intros i s I (H1 & H2). zat. cbn [fst snd] in *.
    lits. rewrite H1, H2. split; field. }
  cbv beta in H. destruct H as (H1 & H2). lits. rewrite H1, H2. field.
Qed.

Lemma discus_nonneg x : 0 <= discus_raw RA n x.
Proof.
  apply loop_nonneg; [apply weighted; lits; lra|]. intros i s I H. apply Rplus_le_le_0_compat; [exact H|apply sq_pos].
Qed.
Lemma discus_zero : discus_raw RA n (repeat 0 n) = 0.
Proof. apply loop_zero; [zat; lits; ring|]. intros i I. zat. lits. ring. Qed.

Lemma cigar_nonneg x : 0 <= bent_cigar_raw RA n x.
Proof.
  apply loop_nonneg; [apply sq_pos|]. intros i s I H. apply Rplus_le_le_0_compat; [exact H|apply weighted; lits; lra].
Qed.
Lemma cigar_zero : bent_cigar_raw RA n (repeat 0 n) = 0.
Proof. apply loop_zero; [zat; lits; ring|]. intros i I. zat. lits. ring. Qed.

Lemma ridge_nonneg x : 0 <= sharp_ridge_raw RA n x.
Proof.
  unfold sharp_ridge_raw. cbv zeta. lits. pose proof (sq_pos x.[0]).
  match goal with |- context [R_sqrt.sqrt ?a] => pose proof (sqrt_pos a) end. lra.
Qed.
Lemma ridge_zero : sharp_ridge_raw RA n (repeat 0 n) = 0.
Proof.
  unfold sharp_ridge_raw. cbv zeta. rewrite loop_zero; [|apply zero0|intros i I; zat; lits; ring]. zat. lits.
  replace (0 / (1 / 1)) with 0 by field. rewrite sqrt_0. field.
Qed.

Lemma powers_nonneg x : 0 <= different_powers_raw RA n x.
Proof. apply sqrt_pos. Qed.
Lemma powers_zero : different_powers_raw RA n (repeat 0 n) = 0.
Proof.
  unfold different_powers_raw. rewrite loop_zero; [apply sqrt_0|apply zero0|]. intros i I. cbv zeta. zat. lits.
  rewrite Rabs_R0, pow_zero; [ring|]. pose proof (INR_ge2 n N). pose proof (pos_INR i).
  assert (0 <= 4 / 1 * INR i / (INR n - 1 / 1)).
  { apply Rmult_le_pos; [lra|]. apply Rlt_le, Rinv_0_lt_compat. lra. }
  lra.
Qed.

Lemma schaffers_nonneg x : 0 <= schaffers_raw RA n x.
Proof.
  unfold schaffers_raw. cbv zeta.
  match goal with |- context [loop ?m ?f ?a] =>
    assert (H : (fun s : R + R => match s with inl r => 0 <= r | inr _ => False end) (loop m f a)) end.
  { apply (loop_ind (fun s : R + R => match s with inl r => 0 <= r | inr _ => False end)).
    - rewrite zero0. lra.
    - intros i s I H. destruct s as [r|r]; [|contradiction]. change (isinf RA ?a) with false. cbn [andb]. lits.
      apply Rplus_le_le_0_compat; [exact H|]. apply Rmult_le_pos.
      + apply pow_nonneg. pose proof (sq_pos x.[i]). pose proof (sq_pos x.[S i]). lra.
      + replace (2/1) with 2 by field. rewrite pow_2.
        match goal with |- context [?a * ?a] => pose proof (sq_pos a) end. lra. }
  match goal with |- context [loop ?m ?f ?s] => destruct (loop m f s) as [r|r] end; [|contradiction].
  apply pow_nonneg. lits. cbv beta iota in H. apply Rmult_le_pos; [exact H|]. pose proof (INR_ge2 n N).
  apply Rlt_le, Rinv_0_lt_compat. lra.
Qed.
Lemma schaffers_zero : schaffers_raw RA n (repeat 0 n) = 0.
Proof.
  unfold schaffers_raw. cbv zeta.
  match goal with |- context [loop ?m ?f ?s] => assert (H : loop m f s = inl 0) end.
  { apply (loop_ind (fun s : R + R => s = inl 0)).
    - rewrite zero0. reflexivity.
    - intros i s I ->. zat. change (isinf RA ?a) with false. cbn [andb]. lits. f_equal.
      replace (0 * 0 + 0 * 0) with 0 by ring. rewrite (pow_zero (25/100)) by lra. ring. }
  rewrite H. lits. replace (0 / (INR n - 1/1)) with 0.
  - apply pow_zero. lra.
  - pose proof (INR_ge2 n N). field. lra.
Qed.

(** *** Weierstrass *)

Lemma odd_pi k : Nat.odd k = true -> Rtrigo_def.cos (INR k * PI) = -1.
Proof.
  intros H. apply Nat.odd_spec in H. destruct H as (m & ->). rewrite plus_INR, mult_INR. cbn [INR].
  replace ((1 + 1) * INR m * PI) with (2 * INR m * PI) by ring.
  replace (((1 + 1) * INR m + 1) * PI) with (PI + 2 * INR m * PI) by ring.
  rewrite cos_period. apply cos_PI.
Qed.

Lemma real_pow_INR x k : 0 < x -> real_pow x (INR k) = x ^ k.
Proof. intros H. rewrite pow_pos by exact H. apply Rpower_pow. exact H. Qed.

Lemma bk_pow j : weierstrass_bk RA j = 3 ^ j.
Proof. unfold weierstrass_bk. lits. rewrite real_pow_INR by lra. replace (3/1) with 3 by field. reflexivity. Qed.
Lemma ak_pow j : weierstrass_ak RA j = (1/2) ^ j.
Proof. unfold weierstrass_ak. lits. rewrite real_pow_INR by lra. replace (5/10) with (1/2) by field. reflexivity. Qed.

Lemma pow3_nat j : 3 ^ j = INR (Nat.pow 3 j).
Proof. rewrite pow_INR. f_equal. cbn. lra. Qed.

Lemma cos_bk j : Rtrigo_def.cos (2 * PI * 3 ^ j * (1/2)) = -1.
Proof.
  replace (2 * PI * 3 ^ j * (1/2)) with (INR (Nat.pow 3 j) * PI) by (rewrite pow3_nat; field).
  apply odd_pi. induction j as [|j IH]; [reflexivity|]. rewrite Nat.pow_succ_r', Nat.odd_mul, IH. reflexivity.
Qed.

Lemma f0_total : weierstrass_f0 RA = - total 12 (fun j => (1/2) ^ j).
Proof.
  unfold weierstrass_f0. rewrite zero0. lits.
  rewrite (loop_ext 12 _ (fun j f0 => f0 + -1 * (1/2) ^ j)).
  - rewrite loop_total, total_scale. change (fun j : nat => (1/2) ^ j) with (Rpow_def.pow (1/2)). ring.
  - intros j t J. rewrite ak_pow, bk_pow. replace (2/1) with 2 by field. replace (5/10) with (1/2) by field.
    rewrite cos_bk. ring.
Qed.

Lemma weier_row x r : loop 12 (fun j r => r + Rtrigo_def.cos (2 * PI * x * 3 ^ j) * (1/2) ^ j) r =
  r + total 12 (fun j => Rtrigo_def.cos (2 * PI * x * 3 ^ j) * (1/2) ^ j).
Proof. apply loop_total. Qed.

Lemma weier_total x : weierstrass_raw RA n x =
  10 * real_pow (total n (fun i => total 12 (fun j => Rtrigo_def.cos (2 * PI * (x.[i] + 1/2) * 3 ^ j) * (1/2) ^ j)) / INR n
    - weierstrass_f0 RA) 3.
Proof.
  unfold weierstrass_raw. cbv zeta. rewrite zero0. lits. replace (10/1) with 10 by field. replace (3/1) with 3 by field.
  f_equal. f_equal. f_equal. f_equal.
  rewrite (loop_ext n _ (fun i r => r + total 12 (fun j => Rtrigo_def.cos (2 * PI * (x.[i] + 1/2) * 3 ^ j) * (1/2) ^ j))).
  - rewrite loop_total. ring.
  - intros i r I. rewrite <- weier_row. apply loop_ext. intros j t J. rewrite ak_pow, bk_pow.
    replace (2/1) with 2 by field. replace (5/10) with (1/2) by field. reflexivity.
Qed.

Lemma weierstrass_nonneg x : 0 <= weierstrass_raw RA n x.
Proof.
  rewrite weier_total. apply Rmult_le_pos; [lra|]. apply pow_nonneg. rewrite f0_total.
  set (h := total 12 (fun j => (1/2) ^ j)).
  assert (H : INR n * - h <= total n (fun i => total 12 (fun j => Rtrigo_def.cos (2 * PI * (x.[i] + 1/2) * 3 ^ j) * (1/2) ^ j))).
  { rewrite <- total_const. apply total_le. intros i I. unfold h.
    replace (- total 12 (fun j => (1/2) ^ j)) with (total 12 (fun j => -1 * (1/2) ^ j)) by (rewrite total_scale; change (fun j : nat => (1/2) ^ j) with (Rpow_def.pow (1/2)); ring).
    apply total_le. intros j J. pose proof (cos_ge (2 * PI * (x.[i] + 1/2) * 3 ^ j)).
    assert (0 < (1/2) ^ j) by (apply pow_lt; lra). nra. }
  pose proof (INR_ge2 n N).
  assert (- h <= total n (fun i => total 12 (fun j => Rtrigo_def.cos (2 * PI * (x.[i] + 1/2) * 3 ^ j) * (1/2) ^ j)) / INR n); [|lra].
  apply (Rmult_le_reg_r (INR n)); [lra|]. unfold Rdiv. rewrite Rmult_assoc, Rinv_l by lra. lra.
Qed.
Lemma weierstrass_zero : weierstrass_raw RA n (repeat 0 n) = 0.
Proof.
  rewrite weier_total, f0_total.
  rewrite (total_ext n _ (fun _ => - total 12 (fun j => (1/2) ^ j))).
  - rewrite total_const. pose proof (INR_ge2 n N).
    replace (INR n * - total 12 (fun j => (1/2) ^ j) / INR n - - total 12 (fun j => (1/2) ^ j)) with 0 by (field; lra).
    rewrite pow_zero; lra.
  - intros i I. zat. replace (- total 12 (fun j => (1/2) ^ j)) with (total 12 (fun j => -1 * (1/2) ^ j)) by (rewrite total_scale; change (fun j : nat => (1/2) ^ j) with (Rpow_def.pow (1/2)); ring).
    apply total_ext. intros j J. replace (2 * PI * (0 + 1/2) * 3 ^ j) with (2 * PI * 3 ^ j * (1/2)) by ring. rewrite cos_bk. ring.
Qed.

(** *** Griewank-Rosenbrock *)

Lemma cos_tmp t : 0 <= t -> -1 <= t / 4000 - Rtrigo_def.cos t.
Proof. intros H. pose proof (cos_le t). lra. Qed.

Lemma griewank_total c x : griewank_rosenbrock_raw RA n c x =
  c + c * total (n - 1) (fun i => let t := 100 * (x.[i] * x.[i] - x.[S i]) * (x.[i] * x.[i] - x.[S i]) + (1 - x.[i]) * (1 - x.[i]) in
    t / 4000 - Rtrigo_def.cos t) / INR (n - 1).
Proof.
  unfold griewank_rosenbrock_raw. cbv zeta. rewrite zero0. lits. replace (100/1) with 100 by field. replace (1/1) with 1 by field.
  replace (4000/1) with 4000 by field. rewrite loop_total, Rplus_0_l. reflexivity.
Qed.

Lemma INR_pred : 1 <= INR (n - 1).
Proof. change 1 with (INR 1). apply le_INR. lia. Qed.

Lemma griewank_nonneg c x : 0 <= c -> 0 <= griewank_rosenbrock_raw RA n c x.
Proof.
  intros C. rewrite griewank_total. cbv zeta. pose proof INR_pred as I1.
  match goal with |- context [total ?m ?f] => assert (H : INR (n - 1) * -1 <= total m f) end.
  { rewrite <- total_const. apply total_le. intros i I. apply cos_tmp.
    pose proof (sq_pos (1 - x.[i])). rewrite Rmult_assoc. pose proof (sq_pos (x.[i] * x.[i] - x.[S i])). lra. }
  match goal with |- context [total ?m ?f] => set (t := total m f) in * end.
  assert (-1 <= t / INR (n - 1)).
  { apply (Rmult_le_reg_r (INR (n - 1))); [lra|]. unfold Rdiv. rewrite Rmult_assoc, Rinv_l by lra. lra. }
  replace (c + c * t / INR (n - 1)) with (c * (1 + t / INR (n - 1))) by (field; lra).
  apply Rmult_le_pos; lra.
Qed.
Lemma griewank_at c x : (forall i, (i < n)%nat -> at_ RA x i = 1) -> griewank_rosenbrock_raw RA n c x = 0.
Proof.
  intros F. rewrite griewank_total. cbv zeta. rewrite (total_ext (n - 1) _ (fun _ => -1)).
  - rewrite total_const. pose proof INR_pred. lits. field. lra.
  - intros i I. rewrite !F by lia.
    replace (100 * (1 * 1 - 1) * (1 * 1 - 1) + (1 - 1) * (1 - 1)) with 0 by ring. rewrite cos_0. field.
Qed.

(** *** Katsuura *)

Lemma floor_zero : Int_part (0 + 5/10) = 0%Z.
Proof. unfold Int_part. rewrite <- (up_tech (0 + 5/10) 0); [reflexivity|lra|change (0 + 1)%Z with 1%Z; lra]. Qed.

Lemma double_round_zero : double_round RA 0 = 0.
Proof. unfold double_round. lits. change (floor RA ?v) with (IZR (Int_part v)). rewrite floor_zero. reflexivity. Qed.

Lemma katsuura_result_ge1 x : 1 <= loop n (fun i r =>
    let tmp := loop 32 (fun j t => let tmp2 := FunModel.pow RA (lit RA 2 0) (of_nat RA (S j)) in
                 add RA t (div RA (abs RA (sub RA (mul RA tmp2 x.[i]) (double_round RA (mul RA tmp2 x.[i])))) tmp2)) (zero RA) in
    let tmp := add RA (lit RA 1 0) (mul RA (add RA (of_nat RA i) (lit RA 1 0)) tmp) in
    mul RA r (FunModel.pow RA tmp (div RA (lit RA 10 0) (FunModel.pow RA (of_nat RA n) (lit RA 12 1))))) (lit RA 1 0).
Proof.
  apply (loop_ind (fun r => 1 <= r)); [lits; lra|]. intros i r I H. cbv zeta.
  match goal with |- context [loop 32 ?f ?s] => assert (L : 0 <= loop 32 f s) end.
  { apply loop_nonneg; [rewrite zero0; lra|]. intros j t J T. lits. apply Rplus_le_le_0_compat; [exact T|].
    apply Rmult_le_pos; [apply Rabs_pos|]. apply Rlt_le, Rinv_0_lt_compat. apply pow_gt0. lra. }
  match goal with |- context [loop 32 ?f ?s] => set (t := loop 32 f s) in * end. lits.
  match goal with |- 1 <= _ * ?q => assert (1 <= q) end; [|nra].
  pose proof (pos_INR i). apply pow_ge1.
  - assert (0 <= (INR i + 1 / 1) * t) by (apply Rmult_le_pos; lra). lra.
  - apply Rmult_le_pos; [lra|]. apply Rlt_le, Rinv_0_lt_compat, pow_gt0. pose proof (INR_ge2 n N). lra.
Qed.

Lemma katsuura_nonneg x : 0 <= katsuura_raw RA n x.
Proof.
  unfold katsuura_raw. cbv zeta. pose proof (katsuura_result_ge1 x) as H. cbv zeta in H.
  match type of H with 1 <= ?r => set (t := r) in * end. lits. pose proof (INR_ge2 n N).
  apply Rmult_le_pos; [|lra]. unfold Rdiv. apply Rmult_le_pos; [apply Rmult_le_pos; [lra|]|];
    apply Rlt_le, Rinv_0_lt_compat; lra.
Qed.
Lemma katsuura_zero : katsuura_raw RA n (repeat 0 n) = 0.
Proof.
  unfold katsuura_raw. cbv zeta.
  match goal with |- context [loop n ?f ?s] => assert (H : loop n f s = 1) end.
  { apply (loop_ind (fun r => r = 1)); [lits; lra|]. intros i r I ->. rewrite loop_zero.
    - lits. rewrite Rmult_0_r, Rplus_0_r. replace (1/1) with 1 by field. rewrite pow_one. ring.
    - apply zero0.
    - intros j J. zat. change (mul RA ?a 0) with (a * 0). rewrite Rmult_0_r. rewrite double_round_zero. lits.
      rewrite Rminus_0_r, Rabs_R0. field. apply Rgt_not_eq, pow_gt0. lra. }
  rewrite H. lits. ring_simplify. pose proof (INR_ge2 n N). field. lra.
Qed.

(** *** Linear slope *)

Lemma slope_base : 0 < R_sqrt.sqrt (100/1).
Proof. apply sqrt_lt_R0. lra. Qed.

Lemma slope_nonneg best x : (forall i, (i < n)%nat -> at_ RA best i = 5 \/ at_ RA best i = -5) ->
  0 <= linear_slope_raw RA n best x.
Proof.
  intros F. apply loop_nonneg; [rewrite zero0; lra|]. intros i s I H. cbv zeta. lits.
  pose proof (pow_gt0 _ (INR i / (INR n - 1/1)) slope_base) as P.
  set (p := real_pow _ _) in *. destruct (F i I) as [E|E]; rewrite E.
  - replace (FunModel.lt RA (0/1) 5) with true by (symmetry; apply lt_true; lra). rewrite (Rabs_pos_eq p) by lra.
    destruct (FunModel.lt RA _ _) eqn:Q; [apply lt_true in Q; cbn in Q; nra|nra].
  - replace (FunModel.lt RA (0/1) (-5)) with false by (symmetry; apply lt_false; lra). rewrite Rabs_Ropp, (Rabs_pos_eq p) by lra.
    destruct (FunModel.lt RA _ _) eqn:Q; [apply lt_true in Q; cbn in Q; nra|nra].
Qed.

Lemma slope_zero best : (forall i, (i < n)%nat -> at_ RA best i = 5 \/ at_ RA best i = -5) ->
  linear_slope_raw RA n best best = 0.
Proof.
  intros F. apply loop_zero; [apply zero0|]. intros i I. cbv zeta. lits.
  pose proof (pow_gt0 _ (INR i / (INR n - 1/1)) slope_base) as P.
  set (p := real_pow _ _) in *. destruct (F i I) as [E|E]; rewrite E.
  - replace (FunModel.lt RA (0/1) 5) with true by (symmetry; apply lt_true; lra). rewrite (Rabs_pos_eq p) by lra.
    replace (FunModel.lt RA (5 * 5) (25/1)) with false by (symmetry; apply lt_false; lra). lra.
  - replace (FunModel.lt RA (0/1) (-5)) with false by (symmetry; apply lt_false; lra). rewrite Rabs_Ropp, (Rabs_pos_eq p) by lra.
    replace (FunModel.lt RA (-5 * -5) (25/1)) with false by (symmetry; apply lt_false; lra). lra.
Qed.

(** *** Step ellipsoid *)

Lemma double_max_ge a b : b <= double_max RA a b.
Proof. unfold double_max. destruct (FunModel.le RA b a) eqn:E; [apply le_true in E; exact E|right; reflexivity]. Qed.
Lemma double_max_l a b : a <= double_max RA a b.
Proof.
  unfold double_max. destruct (FunModel.le RA b a) eqn:E; [right; reflexivity|].
  destruct (Rle_dec a b) as [H|H]; [exact H|]. assert (b <= a) by lra. apply le_true in H0. congruence.
Qed.

Lemma step_nonneg o v c r1 r2 x : 0 <= c -> v <= step_ellipsoid_raw RA n o v c r1 r2 x.
Proof.
  intros C. unfold step_ellipsoid_raw. cbv zeta.
  match goal with |- context [double_max RA ?a ?b] => pose proof (double_max_l a b) as H; set (m := double_max RA a b) in * end.
  pose proof (excess_nonneg (lit RA 5 0) x) as P. set (e := excess _ _ _ _) in *.
  match type of H with mul RA (abs RA ?a) _ <= _ => pose proof (Rabs_pos a) end. lits.
  assert (0 <= e * c) by (apply Rmult_le_pos; assumption). lra.
Qed.

Lemma step_best o v c r1 r2 : (forall i, (i < n)%nat -> -5 <= at_ RA o i <= 5) ->
  step_ellipsoid_raw RA n o v c r1 r2 o = v.
Proof.
  intros W. unfold step_ellipsoid_raw. cbv zeta.
  rewrite excess_zero by (lits; intros; replace (5/1) with 5 by field; apply W; assumption).
  set (y := vec n (fun i => loop n (fun j r => add RA r (mul RA (mul RA
    (FunModel.sqrt RA (FunModel.pow RA (div RA (lit RA 100 0) (lit RA 10 0)) (div RA (of_nat RA i) (of_nat RA (n - 1)))))
    (entry RA r2 i j)) (sub RA (at_ RA o j) (at_ RA o j)))) (zero RA))).
  assert (Y : forall i, (i < n)%nat -> at_ RA y i = 0).
  { intros i I. unfold y. rewrite vec_at by exact I. apply loop_zero; [apply zero0|]. intros j J. lits. ring. }
  set (y' := vec n (fun i => if FunModel.lt RA (lit RA 5 1) (abs RA (at_ RA y i)) then double_round RA (at_ RA y i)
    else div RA (double_round RA (mul RA (lit RA 10 0) (at_ RA y i))) (lit RA 10 0))).
  assert (Y' : forall i, (i < n)%nat -> at_ RA y' i = 0).
  { intros i I. unfold y'. rewrite vec_at by exact I. rewrite Y by exact I.
    replace (FunModel.lt RA (lit RA 5 1) (abs RA 0)) with false.
    2:{ symmetry. apply lt_false. lits. rewrite Rabs_R0. lra. }
    change (mul RA ?a 0) with (a * 0). rewrite Rmult_0_r. rewrite double_round_zero. lits. field. }
  set (z := vec n (fun i => loop n (fun j r => add RA r (mul RA (entry RA r1 i j) (at_ RA y' j))) (zero RA))).
  assert (Z : forall i, (i < n)%nat -> at_ RA z i = 0).
  { intros i I. unfold z. rewrite vec_at by exact I. apply loop_zero; [apply zero0|]. intros j J. rewrite Y' by exact J. lits. ring. }
  rewrite (loop_zero n _ (zero RA)).
  - rewrite Y by lia. lits. rewrite Rabs_R0.
    replace (double_max RA (0 * (1/10000)) 0) with 0; [ring|].
    unfold double_max. destruct (FunModel.le RA _ _); ring.
  - apply zero0.
  - intros i I. rewrite Z by exact I. lits. ring.
Qed.

End Raw.
