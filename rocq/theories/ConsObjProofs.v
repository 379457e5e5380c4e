(** The objective functions of the constrained suite: supporting planes and gradients. *)

From Coq Require Import ZArith List Bool Reals Lra Lia.
From Verif Require Import CBase FunModel FunSpec FunProofs FunOptima FunDocSpec FunDocProofs ConsModel ConsSpec ConsProofs.
Import ListNotations.
Local Open Scope R_scope.

(** ** Inequalities *)

Lemma exp_ge x : 1 + x <= Rtrigo_def.exp x.
Proof. destruct (Req_dec x 0) as [->|H]; [rewrite exp_0; lra|]. apply Rlt_le, exp_ineq1, H. Qed.

(** Weighted means of w and 1. *)
Lemma mean w b : 0 < w -> 0 < b <= 1 -> b * ln w <= ln (b * w + (1 - b)).
Proof.
  intros W B. set (X := b * w + (1 - b)). assert (XP : 0 < X) by (unfold X; nra).
  assert (E1 : w / X = Rtrigo_def.exp (ln w - ln X)).
  { unfold Rminus. rewrite exp_plus, exp_Ropp, !exp_ln by assumption. reflexivity. }
  assert (E2 : 1 / X = Rtrigo_def.exp (- ln X)).
  { rewrite exp_Ropp, exp_ln by assumption. field. lra. }
  pose proof (exp_ge (ln w - ln X)) as H1. pose proof (exp_ge (- ln X)) as H2. rewrite <- E1 in H1. rewrite <- E2 in H2.
  assert (E3 : b * (w / X) + (1 - b) * (1 / X) = 1) by (unfold X in *; field; lra).
  nra.
Qed.

Lemma bernoulli x a : 0 <= x -> 1 <= a -> 1 + a * (x - 1) <= power x a.
Proof.
  intros X A. unfold power. destruct (Req_EM_T x 0) as [->|N]; [lra|]. assert (XP : 0 < x) by lra.
  destruct (Rle_lt_dec (1 + a * (x - 1)) 0) as [L|L].
  - apply Rle_trans with 0; [exact L|]. apply Rlt_le, Rpower_gt0.
  - set (w := 1 + a * (x - 1)) in *.
    pose proof (mean w (/ a) L) as H.
    assert (B : 0 < / a <= 1). { split; [apply Rinv_0_lt_compat; lra|]. rewrite <- Rinv_1. apply Rinv_le_contravar; lra. }
    specialize (H B). replace (/ a * w + (1 - / a)) with x in H by (unfold w; field; lra).
    assert (H2 : ln w <= a * ln x).
    { apply Rmult_le_compat_l with (r := a) in H; [|lra]. replace (a * (/ a * ln w)) with (ln w) in H by (field; lra). exact H. }
    unfold Rpower. rewrite <- (exp_ln w L). destruct H2 as [H2|H2]; [left; apply exp_increasing; exact H2|right; rewrite H2; reflexivity].
Qed.

Lemma power_pos x a : 0 < x -> power x a = Rpower x a.
Proof. intros H. unfold power. destruct (Req_EM_T x 0); [lra|reflexivity]. Qed.
Lemma power_nonneg x a : 0 <= power x a.
Proof. unfold power. destruct (Req_EM_T x 0); [lra|apply Rlt_le, Rpower_gt0]. Qed.
Lemma power_zero a : power 0 a = 0.
Proof. unfold power. destruct (Req_EM_T 0 0); [reflexivity|lra]. Qed.
Lemma power_gt0 x a : 0 < x -> 0 < power x a.
Proof. intros H. rewrite power_pos by exact H. apply Rpower_gt0. Qed.
Lemma power_mult x a b : power x (a + b) = power x a * power x b.
Proof. unfold power. destruct (Req_EM_T x 0); [ring|apply Rpower_plus]. Qed.
Lemma power_quot x y a : 0 < y -> 0 <= x -> power (x / y) a * power y a = power x a.
Proof.
  intros Y X. destruct (Req_dec x 0) as [->|N].
  - unfold Rdiv. rewrite Rmult_0_l, !power_zero. ring.
  - assert (XP : 0 < x) by lra. assert (Q : 0 < x / y) by (apply Rmult_lt_0_compat; [lra|apply Rinv_0_lt_compat; lra]).
    rewrite !power_pos by assumption. rewrite Rpower_mult_distr by assumption. f_equal. field. lra.
Qed.
Lemma power_1 x : 0 <= x -> power x 1 = x.
Proof. intros H. destruct (Req_dec x 0) as [->|N]; [apply power_zero|]. rewrite power_pos by lra. apply Rpower_1. lra. Qed.

(** The tangent of |t|^a. *)
Lemma power_tangent a s t : 1 <= a ->
  power (Rabs s) a + a * power (Rabs s) (a - 1) * FunDocSpec.sign s * (t - s) <= power (Rabs t) a.
Proof.
  intros A. destruct (Req_dec s 0) as [->|N].
  - rewrite Rabs_R0, power_zero. unfold FunDocSpec.sign. destruct (Rlt_dec 0 0); [lra|]. rewrite Rmult_0_r, Rmult_0_l, Rplus_0_l. apply power_nonneg.
  - assert (P : 0 < Rabs s) by (apply Rabs_pos_lt, N). pose proof (Rabs_pos t) as T.
    assert (Q : 0 <= Rabs t / Rabs s) by (apply Rmult_le_pos; [exact T|apply Rlt_le, Rinv_0_lt_compat, P]).
    pose proof (bernoulli (Rabs t / Rabs s) a Q A) as B.
    apply Rmult_le_compat_r with (r := power (Rabs s) a) in B; [|apply power_nonneg]. rewrite power_quot in B by assumption.
    eapply Rle_trans; [|exact B].
    assert (E : power (Rabs s) a = power (Rabs s) (a - 1) * Rabs s).
    { rewrite <- (power_1 (Rabs s)) at 3 by lra. rewrite <- power_mult. f_equal. ring. }
    rewrite E at 2.
    replace ((1 + a * (Rabs t / Rabs s - 1)) * (power (Rabs s) (a - 1) * Rabs s))
      with (power (Rabs s) (a - 1) * Rabs s + a * power (Rabs s) (a - 1) * (Rabs t - Rabs s)) by (field; lra).
    rewrite E. apply Rplus_le_compat_l. rewrite Rmult_assoc. apply Rmult_le_compat_l.
    + apply Rmult_le_pos; [lra|apply power_nonneg].
    + unfold FunDocSpec.sign, Rabs. destruct (Rlt_dec 0 s); destruct (Rcase_abs s); destruct (Rcase_abs t); try lra;
        destruct (Rlt_dec s 0); lra.
Qed.

Lemma cauchy n (u v : nat -> R) :
  total n (fun i => u i * v i) <= R_sqrt.sqrt (total n (fun i => u i * u i)) * R_sqrt.sqrt (total n (fun i => v i * v i)).
Proof.
  set (U := total n (fun i => u i * u i)). set (V := total n (fun i => v i * v i)). set (P := total n (fun i => u i * v i)).
  assert (UP : 0 <= U) by (apply total_nonneg; intros; apply sq_pos).
  assert (VP : 0 <= V) by (apply total_nonneg; intros; apply sq_pos).
  assert (Q : forall t, 0 <= V * t * t - 2 * P * t + U).
  { intros t. replace (V * t * t - 2 * P * t + U) with (total n (fun i => (t * v i - u i) * (t * v i - u i))).
    - apply total_nonneg. intros. apply sq_pos.
    - unfold U, V, P. rewrite (total_ext n _ (fun i => t * t * (v i * v i) + (-2 * t * (u i * v i) + u i * u i))) by (intros; ring).
      rewrite !total_plus, !total_scale. ring. }
  rewrite <- sqrt_mult by assumption. destruct (Rle_lt_dec P 0) as [N|N].
  - apply Rle_trans with 0; [exact N|apply sqrt_pos].
  - rewrite <- (sqrt_square P) by lra. apply sqrt_le_1; [nra|nra|].
    destruct (Req_dec V 0) as [Z|Z].
    + exfalso. specialize (Q ((U + 1) / (2 * P))). rewrite Z in Q.
      replace (0 * ((U + 1) / (2 * P)) * ((U + 1) / (2 * P)) - 2 * P * ((U + 1) / (2 * P)) + U) with (-1) in Q by (field; lra). lra.
    + specialize (Q (P / V)). replace (V * (P / V) * (P / V) - 2 * P * (P / V) + U) with (U - P * P / V) in Q by (field; exact Z).
      assert (VV : 0 < V) by lra. apply Rmult_le_compat_r with (r := V) in Q; [|lra].
      replace ((U - P * P / V) * V) with (U * V - P * P) in Q by (field; lra). lra.
Qed.

(** ** Orthonormal rows make orthonormal columns *)

Lemma total_zero n f : (forall i, (i < n)%nat -> 0 <= f i) -> total n f = 0 -> forall i, (i < n)%nat -> f i = 0.
Proof. intros H Z i I. pose proof (total_term n f i I H). specialize (H i I). lra. Qed.

Lemma total_pick n f j : (j < n)%nat -> total n (fun i => (if Nat.eqb i j then 1 else 0) * f i) = f j.
Proof.
  intros J. induction n as [|n IH]; [lia|]. cbn [total]. destruct (Nat.eqb n j) eqn:E.
  - apply Nat.eqb_eq in E. subst j. rewrite (total_ext n _ (fun _ => 0)).
    + rewrite total_const. ring.
    + intros i I. replace (Nat.eqb i n) with false by (symmetry; apply Nat.eqb_neq; lia). ring.
  - apply Nat.eqb_neq in E. rewrite IH by lia. ring.
Qed.

Lemma columns n M : orthonormal n M -> forall j k, (j < n)%nat -> (k < n)%nat ->
  total n (fun i => cell M i j * cell M i k) = if Nat.eqb j k then 1 else 0.
Proof.
  intros O.
  set (r := fun j k => (if Nat.eqb j k then 1 else 0) - total n (fun i => cell M i j * cell M i k)).
  assert (B : forall j, (j < n)%nat -> total n (fun k => r j k * r j k) = 1 - total n (fun i => cell M i j * cell M i j)).
  { intros j J.
    assert (E : forall k, (k < n)%nat -> r j k * r j k = (if Nat.eqb k j then 1 else 0) * (1 - 2 * total n (fun i => cell M i j * cell M i k))
        + total n (fun a => total n (fun b => cell M a j * cell M b j * (cell M a k * cell M b k)))).
    { intros k K. unfold r. rewrite (Nat.eqb_sym k j).
      assert (X : total n (fun a => total n (fun b => cell M a j * cell M b j * (cell M a k * cell M b k)))
                = total n (fun i => cell M i j * cell M i k) * total n (fun i => cell M i j * cell M i k)).
      { rewrite total_mult_r. apply total_ext. intros a Ha. rewrite <- total_scale. apply total_ext. intros b Hb. ring. }
      rewrite X. destruct (Nat.eqb j k); ring. }
    rewrite (total_ext n _ _ E), total_plus, total_pick by exact J.
    rewrite total_swap.
    replace (total n (fun a => total n (fun k => total n (fun b => cell M a j * cell M b j * (cell M a k * cell M b k)))))
      with (total n (fun a => cell M a j * cell M a j)).
    - ring.
    - apply total_ext. intros a Ha. symmetry. rewrite total_swap. rewrite (total_ext n _ (fun b => (if Nat.eqb b a then 1 else 0) * (cell M a j * cell M b j))).
      + apply total_pick. exact Ha.
      + intros b Hb. rewrite total_scale. rewrite O by assumption. rewrite (Nat.eqb_sym b a). ring. }
  assert (Z : total n (fun j => total n (fun k => r j k * r j k)) = 0).
  { rewrite (total_ext n _ (fun j => 1 - total n (fun i => cell M i j * cell M i j))) by (intros; apply B; assumption).
    rewrite total_minus, total_const, total_swap. rewrite (total_ext n (fun i => total n _) (fun _ => 1)).
    - rewrite total_const. ring.
    - intros i I. rewrite (O i i I I), Nat.eqb_refl. reflexivity. }
  intros j k J K.
  assert (Zj : total n (fun k => r j k * r j k) = 0).
  { apply (total_zero n (fun j => total n (fun k => r j k * r j k))); [|exact Z|exact J]. intros. apply total_nonneg. intros. apply sq_pos. }
  assert (Zk : r j k * r j k = 0).
  { apply (total_zero n (fun k => r j k * r j k)); [|exact Zj|exact K]. intros. apply sq_pos. }
  apply Rmult_integral in Zk. unfold r in Zk. lra.
Qed.

Lemma cos_int z : Rtrigo_def.cos (2 * PI * IZR z) = 1.
Proof.
  assert (P : forall k, Rtrigo_def.cos (2 * PI * INR k) = 1).
  { intros k. replace (2 * PI * INR k) with (0 + 2 * INR k * PI) by ring. rewrite cos_period. apply cos_0. }
  destruct (Z.le_ge_cases 0 z) as [H|H].
  - rewrite <- (Z2Nat.id z) by exact H. rewrite <- INR_IZR_INZ. apply P.
  - replace (2 * PI * IZR z) with (- (2 * PI * IZR (- z))) by (rewrite opp_IZR; ring). rewrite cos_neg, <- (Z2Nat.id (- z)) by lia.
    rewrite <- INR_IZR_INZ. apply P.
Qed.
Lemma sin_int z : Rtrigo_def.sin (2 * PI * IZR z) = 0.
Proof.
  pose proof (sin2_cos2 (2 * PI * IZR z)) as H. rewrite cos_int in H. unfold Rsqr in H.
  assert (E : Rtrigo_def.sin (2 * PI * IZR z) * Rtrigo_def.sin (2 * PI * IZR z) = 0) by lra. apply Rmult_integral in E. lra.
Qed.

Section Objective.
Variable n : nat.

(** [g] points along the gradient of a supporting plane of F at y0. *)
Definition supports (F : point -> R) (g : point) (y0 : point) : Prop :=
  exists k, 0 < k /\ forall y, F y0 + k * total n (fun i => g i * (y i - y0 i)) <= F y.
Definition not_zero (g : point) : Prop := exists i, (i < n)%nat /\ g i <> 0.

Lemma supports_add F v g y0 : supports F g y0 -> supports (fun y => F y + v) g y0.
Proof. intros (k & K & H). exists k. split; [exact K|]. intros y. specialize (H y). lra. Qed.
Lemma supports_shift F o g y0 : supports F g (minus y0 o) -> supports (fun y => F (minus y o)) g y0.
Proof.
  intros (k & K & H). exists k. split; [exact K|]. intros y. specialize (H (minus y o)).
  rewrite (total_ext n _ (fun i => g i * (minus y o i - minus y0 o i))) by (intros; unfold minus; ring). exact H.
Qed.
Lemma supports_affine F M g y0 : supports F g (apply n M y0) ->
  supports (fun y => F (apply n M y)) (fun j => total n (fun i => g i * cell M i j)) y0.
Proof.
  intros (k & K & H). exists k. split; [exact K|]. intros y. specialize (H (apply n M y)).
  rewrite (total_ext n _ (fun j => total n (fun i => g i * (cell M i j * (y j - y0 j))))).
  - rewrite total_swap. rewrite (total_ext n _ (fun i => g i * (apply n M y i - apply n M y0 i))); [exact H|].
    intros i I. rewrite total_scale. f_equal. unfold apply. rewrite <- total_minus. apply total_ext. intros. ring.
  - intros j J. rewrite total_mult_r. apply total_ext. intros. ring.
Qed.

Lemma not_zero_transposed M g : orthonormal n M -> not_zero g -> not_zero (fun j => total n (fun i => g i * cell M i j)).
Proof.
  intros O (i & I & H).
  destruct (Req_dec (total n (fun j => total n (fun i => g i * cell M i j) * total n (fun i => g i * cell M i j))) 0) as [Z|Z].
  - exfalso. apply H.
    assert (A : forall j, (j < n)%nat -> total n (fun i => g i * cell M i j) = 0).
    { intros j J. pose proof (total_zero n _ (fun j _ => sq_pos _) Z j J) as E. cbv beta in E. apply Rmult_integral in E. lra. }
    rewrite <- (total_pick n g i I).
    rewrite (total_ext n _ (fun k => total n (fun j => cell M i j * (g k * cell M k j)))).
    + rewrite total_swap. rewrite (total_ext n _ (fun _ => 0)); [rewrite total_const; ring|].
      intros j J. rewrite total_scale, A by exact J. ring.
    + intros k K. rewrite Nat.eqb_sym, <- (O i k I K), total_mult_r. apply total_ext. intros. ring.
  - destruct (Classical_Prop.classic (not_zero (fun j => total n (fun i => g i * cell M i j)))) as [Y|Y]; [exact Y|].
    exfalso. apply Z. rewrite (total_ext n _ (fun _ => 0)); [rewrite total_const; ring|]. intros j J.
    destruct (Req_dec (total n (fun i => g i * cell M i j)) 0) as [E|E]; [rewrite E; ring|]. exfalso. apply Y. exists j. split; assumption.
Qed.

Lemma not_zero_apply M y : orthonormal n M -> not_zero y -> not_zero (apply n M y).
Proof.
  intros O H. set (Mt := vec n (fun j => vec n (fun i => cell M i j)) : list (list R)).
  assert (C : forall i j, (i < n)%nat -> (j < n)%nat -> cell Mt j i = cell M i j).
  { intros i j I J. unfold cell, Mt. rewrite (vec_nth n _ []) by exact J. rewrite (vec_nth n _ 0) by exact I. reflexivity. }
  assert (Ot : orthonormal n Mt).
  { intros i j I J. rewrite <- (columns n M O i j I J). apply total_ext. intros k K. rewrite !C by assumption. reflexivity. }
  destruct (not_zero_transposed Mt y Ot H) as (j & J & N). exists j. split; [exact J|].
  unfold apply. rewrite (total_ext n _ (fun i => y i * cell Mt i j)); [exact N|]. intros i I. rewrite C by assumption. ring.
Qed.

(** ** Convex functions *)

Lemma quadratic_supports (a : nat -> R) y0 : (forall i, (i < n)%nat -> 0 <= a i) ->
  supports (fun y => total n (fun i => a i * y i ^ 2)) (fun i => 2 * a i * y0 i) y0.
Proof.
  intros A. exists 1. split; [lra|]. intros y. rewrite Rmult_1_l, <- total_plus. apply total_le. intros i I.
  specialize (A i I). pose proof (sq_pos (y i - y0 i)). nra.
Qed.

Lemma powers_supports (a : nat -> R) y0 : (forall i, (i < n)%nat -> 1 <= a i) -> not_zero y0 ->
  supports (fun y => R_sqrt.sqrt (total n (fun i => power (Rabs (y i)) (2 * a i))))
    (fun i => a i / total n (fun i => power (Rabs (y0 i)) (2 * a i)) * (power (Rabs (y0 i)) (2 * a i - 1) * FunDocSpec.sign (y0 i))) y0.
Proof.
  intros A (j & J & N). set (S := total n (fun i => power (Rabs (y0 i)) (2 * a i))).
  assert (SP : 0 < S).
  { apply Rlt_le_trans with (power (Rabs (y0 j)) (2 * a j)); [apply power_gt0, Rabs_pos_lt, N|].
    apply (total_term n (fun i => power (Rabs (y0 i)) (2 * a i))); [exact J|]. intros. apply power_nonneg. }
  pose proof (sqrt_lt_R0 S SP) as RP. exists (R_sqrt.sqrt S). split; [exact RP|]. intros y.
  set (u := fun i => power (Rabs (y i)) (a i)). set (v := fun i => power (Rabs (y0 i)) (a i)).
  assert (U : total n (fun i => power (Rabs (y i)) (2 * a i)) = total n (fun i => u i * u i)).
  { apply total_ext. intros. unfold u. rewrite <- power_mult. f_equal. ring. }
  assert (V : S = total n (fun i => v i * v i)).
  { apply total_ext. intros. unfold v. rewrite <- power_mult. f_equal. ring. }
  pose proof (cauchy n u v) as C. rewrite <- V, <- U in C. fold S.
  apply Rmult_le_reg_r with (R_sqrt.sqrt S); [exact RP|]. eapply Rle_trans; [|exact C].
  rewrite Rmult_plus_distr_r, sqrt_sqrt by lra. rewrite Rmult_assoc, (Rmult_comm (total n _) (R_sqrt.sqrt S)), <- Rmult_assoc, sqrt_sqrt by lra.
  rewrite V at 1. rewrite <- total_scale, <- total_plus. apply total_le. intros i I.
  replace (S * (a i / S * (power (Rabs (y0 i)) (2 * a i - 1) * FunDocSpec.sign (y0 i)) * (y i - y0 i)))
    with (v i * (a i * power (Rabs (y0 i)) (a i - 1) * FunDocSpec.sign (y0 i) * (y i - y0 i))).
  - pose proof (power_tangent (a i) (y0 i) (y i) (A i I)) as T. fold (u i) in T. fold (v i) in T.
    assert (0 <= v i) by apply power_nonneg. nra.
  - replace (power (Rabs (y0 i)) (2 * a i - 1)) with (v i * power (Rabs (y0 i)) (a i - 1)); [field; lra|].
    unfold v. rewrite <- power_mult. f_equal. ring.
Qed.

Lemma rastrigin_supports y0 : (forall i, (i < n)%nat -> exists z, y0 i = IZR z) ->
  supports (rastrigin n) (fun i => 2 * y0 i) y0.
Proof.
  intros Z. exists 1. split; [lra|]. intros y. rewrite Rmult_1_l. unfold rastrigin, squares.
  assert (E : total n (fun i => Rtrigo_def.cos (2 * PI * y0 i)) = INR n).
  { rewrite (total_ext n _ (fun _ => 1)); [rewrite total_const; ring|]. intros i I. destruct (Z i I) as (z & ->). apply cos_int. }
  assert (L : total n (fun i => Rtrigo_def.cos (2 * PI * y i)) <= INR n).
  { rewrite <- (Rmult_1_r (INR n)), <- total_const. apply total_le. intros. apply COS_bound. }
  rewrite E.
  assert (Q : total n (fun i => y0 i ^ 2) + total n (fun i => 2 * y0 i * (y i - y0 i)) <= total n (fun i => y i ^ 2)).
  { rewrite <- total_plus. apply total_le. intros i I. pose proof (sq_pos (y i - y0 i)). nra. }
  lra.
Qed.

End Objective.

Section Types.
Variable n : nat.
Hypothesis N : (2 <= n)%nat.
Notation differentiable := (differentiable RA).

Definition differentiates (p : differentiable) (F : point -> R) (G : point -> point) : Prop :=
  computes n (function_of _ p) F /\ forall z i, (i < n)%nat -> (gradient _ p (vec n z)).[i] = G z i.

Lemma differentiates_shift p F G o : differentiates p F G ->
  differentiates (d_shift RA p o) (fun z => F (minus z (coord o))) (fun z => G (minus z (coord o))).
Proof.
  intros (C & H). split.
  - unfold d_shift. cbn [function_of]. apply computes_shift; [exact C|reflexivity].
  - intros z i I. unfold d_shift. cbn [gradient]. rewrite (proj1 C). rewrite <- H by exact I. f_equal. f_equal. apply vec_ext.
    intros j J. rewrite vec_at by exact J. rewrite coord_at. reflexivity.
Qed.

Lemma differentiates_affine p F G M : differentiates p F G ->
  differentiates (d_affine RA p M (zeros RA n)) (fun z => F (apply n M z))
    (fun z j => total n (fun i => G (apply n M z) i * cell M i j)).
Proof.
  intros (C & H). split.
  - unfold d_affine. cbn [function_of]. apply computes_affine. exact C.
  - intros z j J. unfold d_affine. cbn [gradient]. rewrite (proj1 C). rewrite vec_at by exact J.
    rewrite (loop_ext n _ (fun i g => g + G (apply n M z) i * cell M i j)).
    + rewrite loop_total, zero0. apply Rplus_0_l.
    + intros i g I. change (add RA) with Rplus. change (mul RA) with Rmult. rewrite cell_eq. f_equal. f_equal. rewrite <- H by exact I. f_equal. f_equal.
      apply vec_ext. intros k K. rewrite loop_total, zeros_at, Rplus_0_l. unfold apply. apply total_ext. intros l Hl.
      rewrite vec_at by exact Hl. rewrite cell_eq. rring.
Qed.

Lemma differentiates_add p F G v : differentiates p F G -> differentiates (d_obj_shift RA p v) (fun z => F z + v) G.
Proof. intros (C & H). split; [apply computes_add; exact C|exact H]. Qed.

Lemma differentiates_alloc raw g F G : (forall z, raw (vec n z) = F z) -> (forall z i, (i < n)%nat -> at_ RA (g (vec n z)) i = G z i) ->
  differentiates (d_alloc RA n raw g) F G.
Proof. intros A B. split; [apply computes_alloc; exact A|exact B]. Qed.

(** A weighted sum of squares. *)
Definition squares_with (a : nat -> R) (z : point) : R := total n (fun i => a i * z i ^ 2).
Definition slopes_with (a : nat -> R) (z : point) : point := fun i => 2 * a i * z i.
Definition discus_weights (i : nat) : R := match i with O => 10 ^ 6 | S _ => 1 end.
Definition cigar_weights (i : nat) : R := match i with O => 1 | S _ => 10 ^ 6 end.
Definition ellipsoid_weights (i : nat) : R := Rpower 10 (6 * share n i).

Lemma sphere_d : differentiates (d_alloc RA n (sphere_raw RA n) (sphere_gradient RA n)) (squares_with (fun _ => 1)) (slopes_with (fun _ => 1)).
Proof.
  apply differentiates_alloc.
  - intros z. rewrite (sphere_doc n N). unfold squares, squares_with. apply total_ext. intros. rring.
  - intros z i I. unfold sphere_gradient, slopes_with. rewrite !vec_at by exact I. lits. rfield.
Qed.

Lemma weight_eq i : real_pow (lit RA 1000000 0) (div RA (mul RA (lit RA 1 0) (of_nat RA i)) (sub RA (of_nat RA n) (lit RA 1 0))) = ellipsoid_weights i.
Proof.
  unfold ellipsoid_weights. lits. rewrite pow_pos by rlra. replace (1000000 / 1) with (Rpower 10 6).
  - rewrite Rpower_mult. f_equal. unfold share. replace (1/1) with 1 by rfield. rewrite <- (INR_n1 n N). rfield.
    pose proof (INR_n1_pos n N) as P. rewrite <- (INR_n1 n N) in P. rlra.
  - replace 6 with (INR 6) by (cbn; rlra). rewrite Rpower_pow by rlra. rlra.
Qed.

Lemma ellipsoid_d : differentiates (d_alloc RA n (ellipsoid_raw RA n (lit RA 1000000 0)) (ellipsoid_gradient RA n (lit RA 1000000 0)))
  (squares_with ellipsoid_weights) (slopes_with ellipsoid_weights).
Proof.
  apply differentiates_alloc.
  - intros z. rewrite (ellipsoid_doc n N). reflexivity.
  - intros z i I. unfold ellipsoid_gradient, slopes_with. cbv zeta. rewrite !vec_at by exact I.
    change (FunModel.pow RA) with real_pow. rewrite weight_eq. lits. rfield.
Qed.

Lemma discus_d : differentiates (d_alloc RA n (discus_raw RA n) (discus_gradient RA n)) (squares_with discus_weights) (slopes_with discus_weights).
Proof.
  apply differentiates_alloc.
  - intros z. rewrite (discus_doc n N). unfold squares_with. rewrite (total_first n N). unfold later_squares. cbn [discus_weights].
    f_equal. apply total_ext. intros. rring.
  - intros z i I. unfold discus_gradient, slopes_with. rewrite vec_at by exact I. destruct i; rewrite vec_at by lia; cbn [discus_weights]; lits; rfield.
Qed.
Lemma cigar_d : differentiates (d_alloc RA n (bent_cigar_raw RA n) (bent_cigar_gradient RA n)) (squares_with cigar_weights) (slopes_with cigar_weights).
Proof.
  apply differentiates_alloc.
  - intros z. rewrite (cigar_doc n N). unfold squares_with. rewrite (total_first n N). unfold later_squares. cbn [cigar_weights].
    rewrite total_scale. rring.
  - intros z i I. unfold bent_cigar_gradient, slopes_with. rewrite vec_at by exact I. destruct i; rewrite vec_at by lia; cbn [cigar_weights]; lits; rfield.
Qed.

Definition half_power (i : nat) : R := 1 + 2 * share n i.
Definition powers (z : point) : R := R_sqrt.sqrt (total n (fun i => power (Rabs (z i)) (2 * half_power i))).
Definition powers_slopes (z : point) : point := fun i =>
  half_power i / total n (fun i => power (Rabs (z i)) (2 * half_power i)) * (power (Rabs (z i)) (2 * half_power i - 1) * FunDocSpec.sign (z i)).
Lemma half_power_ge1 i : 1 <= half_power i.
Proof. unfold half_power. pose proof (share_nonneg n N i). rlra. Qed.

Lemma powers_d : differentiates (d_alloc RA n (different_powers_raw RA n) (different_powers_gradient RA n)) powers powers_slopes.
Proof.
  assert (AUX : forall i, add RA (lit RA 2 0) (div RA (mul RA (lit RA 4 0) (of_nat RA i)) (sub RA (of_nat RA n) (lit RA 1 0))) = 2 * half_power i).
  { intros i. unfold half_power, share. lits. replace (1/1) with 1 by rfield. rewrite <- (INR_n1 n N).
    pose proof (INR_n1_pos n N) as P. rewrite <- (INR_n1 n N) in P. rfield. rlra. }
  apply differentiates_alloc.
  - intros z. rewrite (powers_doc n N). unfold powers. f_equal. apply total_ext. intros i I. f_equal. unfold half_power. rring.
  - intros z i I. unfold different_powers_gradient, powers_slopes. cbv zeta. rewrite vec_at by exact I.
    rewrite (loop_ext n _ (fun i s => s + power (Rabs (z i)) (2 * half_power i))).
    + rewrite loop_total, zero0, Rplus_0_l. rewrite AUX, vec_at by exact I. pose proof (half_power_ge1 i).
      change (abs RA) with Rabs. change (FunModel.pow RA) with real_pow.
      replace (sub RA (2 * half_power i) (lit RA 1 0)) with (2 * half_power i - 1) by (lits; rfield).
      rewrite pow_power by (try apply Rabs_pos; rlra).
      replace (ConsModel.sign RA (z i)) with (FunDocSpec.sign (z i)).
      * lits. replace (5 / 10 * (2 * half_power i)) with (half_power i) by rfield. reflexivity.
      * unfold ConsModel.sign, FunDocSpec.sign. rewrite !lt_dec, zero0. lits. destruct (Rlt_dec 0 (z i)); [rfield|].
        destruct (Rlt_dec (z i) 0); [rfield|reflexivity].
    + intros j t J. rewrite AUX, vec_at by exact J. pose proof (half_power_ge1 j). change (FunModel.pow RA) with real_pow. change (abs RA) with Rabs.
      rewrite pow_power by (try apply Rabs_pos; rlra). reflexivity.
Qed.

Lemma rastrigin_d : differentiates (d_alloc RA n (rastrigin_raw RA n) (rastrigin_gradient RA n)) (rastrigin n)
  (fun z i => 2 * (10 * PI * Rtrigo_def.sin (2 * PI * z i) + z i)).
Proof.
  apply differentiates_alloc.
  - intros z. apply (rastrigin_doc n N).
  - intros z i I. unfold rastrigin_gradient, two_pi. rewrite !vec_at by exact I. lits. replace (2/1) with 2 by rfield. replace (10/1) with 10 by rfield. reflexivity.
Qed.

(** What is needed of an objective function: a supporting plane at y0 whose direction is the computed gradient. *)
Definition shaped (p : differentiable) (y0 : point) : Prop :=
  exists F g, computes n (function_of _ p) F /\ (forall i, (i < n)%nat -> (gradient _ p (zeros RA n)).[i] = g i) /\
    supports n F g y0 /\ not_zero n g.

Definition zero_point : point := fun _ => 0.
Lemma zeros_vec : zeros RA n = vec n zero_point.
Proof. rewrite zeros_repeat. symmetry. apply (vec_repeat 0 n). Qed.

Lemma shaped_from p F G : differentiates p F G -> supports n F (G zero_point) zero_point -> not_zero n (G zero_point) -> shaped p zero_point.
Proof.
  intros (C & H) S Z. exists F, (G zero_point). split; [exact C|]. split; [|split; assumption].
  intros i I. rewrite zeros_vec. apply H, I.
Qed.

Lemma weights_not_zero a y : (forall i, (i < n)%nat -> 0 < a i) -> not_zero n y -> not_zero n (slopes_with a y).
Proof. intros A (i & I & H). exists i. split; [exact I|]. unfold slopes_with. specialize (A i I). apply Rmult_integral_contrapositive_currified; [rlra|exact H]. Qed.

Lemma minus_not_zero o : not_zero n (coord o) -> not_zero n (minus zero_point (coord o)).
Proof. intros (i & I & H). exists i. split; [exact I|]. unfold minus, zero_point. rlra. Qed.

Lemma discus_pos i : 0 < discus_weights i. Proof. destruct i; cbn; rlra. Qed.
Lemma cigar_pos i : 0 < cigar_weights i. Proof. destruct i; cbn; rlra. Qed.
Lemma ellipsoid_pos i : 0 < ellipsoid_weights i. Proof. apply Rpower_gt0. Qed.

(** Weighted squares of a rotated or merely translated argument. *)
Lemma squares_shaped p a d (v : R) : differentiates p (squares_with a) (slopes_with a) -> (forall i, 0 < a i) -> not_zero n (coord (xopt RA d)) ->
  shaped (d_obj_shift RA (d_shift RA p (xopt RA d)) v) zero_point.
Proof.
  intros D A O. eapply shaped_from; [apply differentiates_add, differentiates_shift; exact D| |].
  - apply supports_add. apply (supports_shift n (squares_with a)). apply quadratic_supports. intros. apply Rlt_le, A.
  - apply weights_not_zero; [intros; apply A|]. apply minus_not_zero, O.
Qed.
Lemma rotated_shaped p a d (v : R) : differentiates p (squares_with a) (slopes_with a) -> (forall i, 0 < a i) -> not_zero n (coord (xopt RA d)) ->
  orthonormal n (rot1 RA d) ->
  shaped (d_obj_shift RA (d_shift RA (d_affine RA p (rot1 RA d) (zeros RA n)) (xopt RA d)) v) zero_point.
Proof.
  intros D A O M. eapply shaped_from; [apply differentiates_add, differentiates_shift, differentiates_affine; exact D| |].
  - apply supports_add. apply (supports_shift n (fun z => squares_with a (apply n (rot1 RA d) z))).
    apply supports_affine. apply quadratic_supports. intros. apply Rlt_le, A.
  - apply not_zero_transposed; [exact M|]. apply weights_not_zero; [intros; apply A|]. apply not_zero_apply; [exact M|]. apply minus_not_zero, O.
Qed.
Lemma rotated_shaped' p a d (v : R) : differentiates p (squares_with a) (slopes_with a) -> (forall i, 0 < a i) -> not_zero n (coord (xopt RA d)) ->
  orthonormal n (rot1 RA d) ->
  shaped (d_shift RA (d_affine RA (d_obj_shift RA p v) (rot1 RA d) (zeros RA n)) (xopt RA d)) zero_point.
Proof.
  intros D A O M. eapply shaped_from; [apply differentiates_shift, differentiates_affine, differentiates_add; exact D| |].
  - apply (supports_shift n (fun z => squares_with a (apply n (rot1 RA d) z) + v)).
    apply (supports_affine n (fun z => squares_with a z + v)). apply supports_add. apply quadratic_supports. intros. apply Rlt_le, A.
  - apply not_zero_transposed; [exact M|]. apply weights_not_zero; [intros; apply A|]. apply not_zero_apply; [exact M|]. apply minus_not_zero, O.
Qed.

Lemma powers_shaped d : not_zero n (coord (xopt RA d)) -> orthonormal n (rot1 RA d) -> shaped (different_powers_cons RA n d) zero_point.
Proof.
  intros O M. unfold different_powers_cons. cbv zeta. set (xo := vec n _).
  assert (X : not_zero n (coord xo)).
  { destruct O as (i & I & H). exists i. split; [exact I|]. rewrite <- coord_at. unfold xo. rewrite vec_at by exact I.
    rewrite (loop_total n (fun i => (xopt RA d).[i] * (xopt RA d).[i])), zero0, Rplus_0_l. lits.
    assert (P : 0 < total n (fun i => (xopt RA d).[i] * (xopt RA d).[i])).
    { apply Rlt_le_trans with ((xopt RA d).[i] * (xopt RA d).[i]).
      - rewrite coord_at. rnra.
      - apply (total_term n (fun i => (xopt RA d).[i] * (xopt RA d).[i])); [exact I|]. intros. apply sq_pos. }
    apply sqrt_lt_R0 in P. rewrite coord_at. apply Rmult_integral_contrapositive_currified; [exact H|].
    apply Rmult_integral_contrapositive_currified; [rlra|]. apply Rinv_neq_0_compat. rlra. }
  set (y0 := apply n (rot1 RA d) (minus zero_point (coord xo))).
  assert (Y : not_zero n y0) by (apply not_zero_apply; [exact M|apply minus_not_zero, X]).
  eapply shaped_from; [apply differentiates_shift, differentiates_affine, differentiates_add; exact powers_d| |].
  - apply (supports_shift n (fun z => powers (apply n (rot1 RA d) z) + fopt RA d)).
    apply (supports_affine n (fun z => powers z + fopt RA d)). apply supports_add. fold y0. apply (powers_supports n half_power); [|exact Y].
    intros. apply half_power_ge1.
  - apply not_zero_transposed; [exact M|]. fold y0. destruct Y as (i & I & H). exists i. split; [exact I|]. unfold powers_slopes.
    set (S := total n _).
    assert (SP : 0 < S).
    { apply Rlt_le_trans with (power (Rabs (y0 i)) (2 * half_power i)); [apply power_gt0, Rabs_pos_lt, H|].
      apply (total_term n (fun i => power (Rabs (y0 i)) (2 * half_power i))); [exact I|]. intros. apply power_nonneg. }
    pose proof (half_power_ge1 i). pose proof (power_gt0 (Rabs (y0 i)) (2 * half_power i - 1) (Rabs_pos_lt _ H)).
    apply Rmult_integral_contrapositive_currified.
    + apply Rmult_integral_contrapositive_currified; [rlra|]. apply Rinv_neq_0_compat. rlra.
    + apply Rmult_integral_contrapositive_currified; [rlra|]. unfold FunDocSpec.sign. destruct (Rlt_dec 0 (y0 i)); [rlra|]. destruct (Rlt_dec (y0 i) 0); rlra.
Qed.

Lemma rastrigin_slopes y : (forall i, (i < n)%nat -> exists z, y i = IZR z) -> forall i, (i < n)%nat ->
  2 * (10 * PI * Rtrigo_def.sin (2 * PI * y i) + y i) = 2 * y i.
Proof. intros H i I. destruct (H i I) as (z & ->). rewrite sin_int. rring. Qed.

Lemma supports_ext F g g' y0 : supports n F g y0 -> (forall i, (i < n)%nat -> g i = g' i) -> supports n F g' y0.
Proof.
  intros (k & K & H) E. exists k. split; [exact K|]. intros y. specialize (H y).
  rewrite (total_ext n _ (fun i => g i * (y i - y0 i))); [exact H|]. intros i I. rewrite E by exact I. reflexivity.
Qed.
Lemma not_zero_ext g g' : not_zero n g -> (forall i, (i < n)%nat -> g i = g' i) -> not_zero n g'.
Proof. intros (i & I & H) E. exists i. split; [exact I|]. rewrite <- E by exact I. exact H. Qed.

Lemma rastrigin_at (y : point) : (forall i, (i < n)%nat -> exists z, y i = IZR z) -> not_zero n y ->
  supports n (rastrigin n) (fun i => 2 * (10 * PI * Rtrigo_def.sin (2 * PI * y i) + y i)) y /\
  not_zero n (fun i => 2 * (10 * PI * Rtrigo_def.sin (2 * PI * y i) + y i)).
Proof.
  intros Z H. split.
  - apply supports_ext with (fun i => 2 * y i); [apply rastrigin_supports, Z|]. intros i I. symmetry. apply rastrigin_slopes; assumption.
  - apply not_zero_ext with (fun i => 2 * y i); [|intros i I; symmetry; apply rastrigin_slopes; assumption].
    destruct H as (i & I & H). exists i. split; [exact I|rlra].
Qed.

Lemma rastrigin_shaped d : not_zero n (coord (xopt RA d)) -> (forall i, (i < n)%nat -> exists z, coord (xopt RA d) i = IZR z) ->
  shaped (rastrigin_cons RA n d) zero_point.
Proof.
  intros O Z. unfold rastrigin_cons. set (y := minus zero_point (coord (xopt RA d))).
  destruct (rastrigin_at y) as [A B].
  - intros i I. destruct (Z i I) as (z & E). exists (- z)%Z. unfold y, minus, zero_point. rewrite E, opp_IZR. rring.
  - apply minus_not_zero, O.
  - eapply shaped_from; [apply differentiates_add, differentiates_shift; exact rastrigin_d| |exact B].
    apply supports_add. apply (supports_shift n (rastrigin n)). exact A.
Qed.

Lemma rastrigin_rotated_shaped d : not_zero n (coord (xopt RA d)) -> (forall i, (i < n)%nat -> exists z, coord (xopt RA d) i = IZR z) ->
  orthonormal n (rot1 RA d) -> shaped (rastrigin_rotated_cons RA n d) zero_point.
Proof.
  intros O Z M. unfold rastrigin_rotated_cons. set (y := minus (apply n (rot1 RA d) zero_point) (coord (xopt RA d))).
  assert (Y : forall i, y i = - coord (xopt RA d) i).
  { intros i. unfold y, minus, apply, zero_point. rewrite (total_ext n _ (fun _ => 0)) by (intros; rring). rewrite total_const. rring. }
  destruct (rastrigin_at y) as [A B].
  - intros i I. destruct (Z i I) as (z & E). exists (- z)%Z. rewrite Y, E, opp_IZR. reflexivity.
  - destruct O as (i & I & H). exists i. split; [exact I|]. rewrite Y. rlra.
  - eapply shaped_from; [apply differentiates_add, differentiates_affine, differentiates_shift; exact rastrigin_d| |].
    + apply supports_add. apply (supports_affine n (fun z => rastrigin n (minus z (coord (xopt RA d))))).
      apply (supports_shift n (rastrigin n)). exact A.
    + apply not_zero_transposed; [exact M|exact B].
Qed.

End Types.

(** ** The linear slope *)

Lemma slope_shaped n d (xo : list R) : (2 <= n)%nat -> length xo = n -> within 4 xo -> shaped n (linear_slope_cons RA n d) (coord xo).
Proof.
  intros N L W. unfold linear_slope_cons. cbv zeta.
  set (best := vec n (fun i => if FunModel.lt RA (xopt RA d).[i] (zero RA) then lit RA (-5) 0 else lit RA 5 0)).
  set (c := fun i => if Rlt_dec (coord (xopt RA d) i) 0 then -5 else 5).
  assert (B : forall i, (i < n)%nat -> at_ RA best i = c i /\ (c i = 5 \/ c i = -5)).
  { intros i I. unfold best, c. rewrite vec_at by exact I. rewrite lt_dec, coord_at, zero0. lits.
    destruct (Rlt_dec (coord (xopt RA d) i) 0); split; try lra; auto. }
  set (g := fun i => - (FunDocSpec.sign (c i) * Rpower 10 (share n i))).
  exists (fun z => slope n c z + fopt RA d), g. cbn [function_of gradient]. split; [|split; [|split]].
  - unfold linear_slope_bbob. apply computes_add. unfold norm_if, linear_slope_allocate. cbv zeta.
    apply computes_value, computes_best, computes_alloc. intros z. apply (slope_doc n N). exact B.
  - intros i I. unfold slope_gradient. cbv zeta. rewrite vec_at by exact I. destruct (B i I) as [E K]. rewrite lt_dec, E, zero0.
    unfold g. lits. rewrite sqrt_100, pow_pos by lra.
    replace (INR i / (INR n - 1 / 1)) with (share n i) by (unfold share; rewrite <- (INR_n1 n N); f_equal; lra).
    unfold FunDocSpec.sign. destruct (Rlt_dec 0 (c i)); [ring|]. destruct (Rlt_dec (c i) 0); [ring|lra].
  - apply supports_add. exists 1. split; [lra|]. intros y. rewrite Rmult_1_l. unfold slope. rewrite <- total_plus. apply total_le.
    intros i I. destruct (B i I) as [_ K].
    assert (X : -4 <= coord xo i <= 4). { unfold coord. unfold within in W. rewrite Forall_forall in W. apply W, nth_In. lia. }
    unfold g. pose proof (Rpower_gt0 10 (share n i)) as P. set (t := Rpower 10 (share n i)) in *. cbv zeta.
    unfold FunDocSpec.sign. destruct K as [-> | ->].
    + destruct (Rlt_dec 0 5); [|lra]. destruct (Rlt_dec (5 * coord xo i) 25); [|lra]. destruct (Rlt_dec (5 * y i) 25); nra.
    + destruct (Rlt_dec 0 (-5)); [lra|]. destruct (Rlt_dec (-5) 0); [|lra].
      destruct (Rlt_dec (-5 * coord xo i) 25); [|lra]. destruct (Rlt_dec (-5 * y i) 25); nra.
  - exists 0%nat. split; [lia|]. unfold g. pose proof (Rpower_gt0 10 (share n 0)) as P. destruct (B 0%nat ltac:(lia)) as [_ K].
    unfold FunDocSpec.sign. destruct K as [-> | ->].
    + destruct (Rlt_dec 0 5); lra.
    + destruct (Rlt_dec 0 (-5)); [lra|]. destruct (Rlt_dec (-5) 0); lra.
Qed.

(** ** The length of the feasible direction *)

Lemma set_length_ok n (g xo : list R) (r : R) : length xo = n -> within 4 xo -> 0 <= r <= 1 -> not_zero n (coord g) ->
  exists direction k, set_length RA g xo n r = Ok direction /\ 0 < k /\
    forall i, (i < n)%nat -> direction.[i] = k * coord g i /\ -5 <= direction.[i] + coord xo i <= 5.
Proof.
  intros L W R0 Z. unfold set_length. cbv zeta.
  set (f := fun i (m : num RA * num RA) => _).
  assert (X : forall i, (i < n)%nat -> -4 <= coord xo i <= 4).
  { intros i I. unfold coord. unfold within in W. rewrite Forall_forall in W. apply W, nth_In. lia. }
  assert (Q : forall k, (k <= n)%nat -> fst (loop k f (zero RA, zero RA)) <= 4 /\ 0 <= snd (loop k f (zero RA, zero RA)) /\
    forall i, (i < k)%nat -> coord g i / (5 - coord xo i) <= snd (loop k f (zero RA, zero RA)) /\
                             coord g i / (-5 - coord xo i) <= snd (loop k f (zero RA, zero RA))).
  { induction k as [|k IH]; intros K.
    - cbn [loop fst snd]. rewrite zero0. repeat split; try rlra; intros; lia.
    - destruct IH as (A & B & C); [lia|]. cbn [loop]. set (m := loop k f (zero RA, zero RA)) in *.
      clearbody m. unfold f. clear f. cbv beta zeta. cbn [fst snd]. rewrite !max_Rmax, !coord_at. lits. specialize (X k ltac:(lia)).
      set (v1 := coord g k / (5 / 1 - coord xo k)). set (v2 := coord g k / (-5 / 1 - coord xo k)).
      assert (E : Rmax (Rmax (snd m) v1) v2 >= snd m /\ Rmax (Rmax (snd m) v1) v2 >= v1 /\ Rmax (Rmax (snd m) v1) v2 >= v2).
      { unfold Rmax. destruct (Rle_dec (snd m) v1); destruct (Rle_dec _ v2); lra. }
      split; [|split].
      + apply Rmax_lub; [exact A|]. apply Rabs_le. exact X.
      + lra.
      + intros i I. destruct (Nat.eq_dec i k) as [->|D].
        * split; [apply Rle_trans with v1|apply Rle_trans with v2]; try lra; right; unfold v1, v2; f_equal; lra.
        * destruct (C i ltac:(lia)) as [C1 C2]. split; lra. }
  destruct (Q n (le_n n)) as (A & B & C). set (m := loop n f (zero RA, zero RA)) in *.
  replace (FunModel.lt RA (lit RA 5 0) (fst m)) with false by (symmetry; apply lt_false; lits; lra).
  set (nom := add RA _ _).
  assert (NM : 0 < nom <= 1) by (unfold nom; lits; lra).
  assert (P : 0 < snd m).
  { destruct Z as (i & I & H). specialize (X i I). destruct (C i I) as [C1 C2]. destruct (Rlt_dec 0 (coord g i)) as [G|G].
    - apply Rlt_le_trans with (coord g i / (5 - coord xo i)); [|exact C1]. apply Rmult_lt_0_compat; [exact G|apply Rinv_0_lt_compat; lra].
    - apply Rlt_le_trans with (coord g i / (-5 - coord xo i)); [|exact C2].
      replace (coord g i / (-5 - coord xo i)) with (- coord g i / (5 + coord xo i)) by (field; lra).
      apply Rmult_lt_0_compat; [lra|apply Rinv_0_lt_compat; lra]. }
  exists (vector_scale RA n g nom (snd m)), (nom / snd m). split; [reflexivity|].
  split; [apply Rmult_lt_0_compat; [lra|apply Rinv_0_lt_compat; exact P]|]. intros i I. rewrite scale_at by exact I.
  destruct (Req_EM_T (snd m) 0); [lra|]. rewrite coord_at. split; [rring|]. specialize (X i I). destruct (C i I) as [C1 C2].
  assert (H1 : coord g i <= snd m * (5 - coord xo i)).
  { apply Rmult_le_reg_r with (/ (5 - coord xo i)); [apply Rinv_0_lt_compat; lra|]. rewrite Rmult_assoc, Rinv_r, Rmult_1_r by lra. exact C1. }
  assert (H2 : - coord g i <= snd m * (5 + coord xo i)).
  { apply Rmult_le_reg_r with (/ (5 + coord xo i)); [apply Rinv_0_lt_compat; lra|]. rewrite Rmult_assoc, Rinv_r, Rmult_1_r by lra.
    replace (- coord g i * / (5 + coord xo i)) with (coord g i / (-5 - coord xo i)) by (field; lra). exact C2. }
  assert (H3 : coord g i / snd m <= 5 - coord xo i).
  { apply Rmult_le_reg_r with (snd m); [exact P|]. unfold Rdiv. rewrite Rmult_assoc, Rinv_l by lra. lra. }
  assert (H4 : - (coord g i / snd m) <= 5 + coord xo i).
  { apply Rmult_le_reg_r with (snd m); [exact P|]. unfold Rdiv. rewrite <- Ropp_mult_distr_l, Rmult_assoc, Rinv_l by lra. lra. }
  replace (coord g i * (nom / snd m)) with (nom * (coord g i / snd m)) by (unfold Rdiv; ring). set (q := coord g i / snd m) in *. reals. nra.
Qed.
