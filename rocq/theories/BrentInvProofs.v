(** brentinv in exact arithmetic, and the two functions it inverts. *)

From Coq Require Import ZArith List Bool Reals Lra Lia Psatz.
From Verif Require Import FunModel FunSpec FunProofs FunDocSpec FunDocProofs ConsSuiteProofs ConsExistProofs BrentModel BrentSpec BrentProofs.
Import ListNotations.
Local Open Scope R_scope.
Local Notation RA := real_arith.

Lemma half_eq x : half RA x = x / 2.
Proof. unfold half. lits. lra. Qed.
Lemma double_eq x : double RA x = 2 * x.
Proof. unfold double. lits. lra. Qed.

Lemma while_above_some f y move fuel : forall x0 x, while_above RA f y fuel move x0 = Some x ->
  f x <= y /\ (x = x0 \/ exists x', x = move x' /\ y < f x').
Proof.
  induction fuel as [|fuel IH]; cbn [while_above]; [discriminate|]. intros x0 x E.
  destruct (FunModel.lt RA y (f x0)) eqn:L.
  - apply lt_true in L. destruct (IH (move x0) x E) as (A & B). split; [exact A|]. right. destruct B as [B|B]; [|exact B].
    exists x0. split; [exact B|exact L].
  - apply lt_false in L. assert (x = x0) by congruence. subst. split; [exact L|left; reflexivity].
Qed.

Lemma while_below_some f y move fuel : forall x0 x, while_below RA f y fuel move x0 = Some x ->
  y <= f x /\ (x = x0 \/ exists x', x = move x' /\ f x' < y).
Proof.
  induction fuel as [|fuel IH]; cbn [while_below]; [discriminate|]. intros x0 x E.
  destruct (FunModel.lt RA (f x0) y) eqn:L.
  - apply lt_true in L. destruct (IH (move x0) x E) as (A & B). split; [exact A|]. right. destruct B as [B|B]; [|exact B].
    exists x0. split; [exact B|exact L].
  - apply lt_false in L. assert (x = x0) by congruence. subst. split; [exact L|left; reflexivity].
Qed.

Lemma iter_succ_r {S} k (g : S -> S) : forall x, Nat.iter k g (g x) = Nat.iter (Datatypes.S k) g x.
Proof. induction k as [|k IH]; intros x; [reflexivity|]. cbn [Nat.iter nat_rect]. change (g (Nat.iter k g (g x)) = g (Nat.iter (Datatypes.S k) g x)). rewrite IH. reflexivity. Qed.
Lemma iter_succ {S} k (g : S -> S) x : Nat.iter (Datatypes.S k) g x = g (Nat.iter k g x).
Proof. reflexivity. Qed.

Lemma while_above_ends f y move k : forall x0, f (Nat.iter k move x0) <= y -> while_above RA f y (S k) move x0 <> None.
Proof.
  induction k as [|k IH]; intros x0 H.
  - cbn [while_above]. cbn [Nat.iter] in H. destruct (FunModel.lt RA y (f x0)) eqn:L; [|discriminate].
    apply lt_true in L. change (Nat.iter 0 move x0) with x0 in H. lra.
  - change (while_above RA f y (S (S k)) move x0) with (if FunModel.lt RA y (f x0) then while_above RA f y (S k) move (move x0) else Some x0).
    destruct (FunModel.lt RA y (f x0)); [|discriminate]. apply IH. rewrite iter_succ_r. exact H.
Qed.

Lemma while_below_ends f y move k : forall x0, y <= f (Nat.iter k move x0) -> while_below RA f y (S k) move x0 <> None.
Proof.
  induction k as [|k IH]; intros x0 H.
  - cbn [while_below]. destruct (FunModel.lt RA (f x0) y) eqn:L; [|discriminate].
    apply lt_true in L. change (Nat.iter 0 move x0) with x0 in H. lra.
  - change (while_below RA f y (S (S k)) move x0) with (if FunModel.lt RA (f x0) y then while_below RA f y (S k) move (move x0) else Some x0).
    destruct (FunModel.lt RA (f x0) y); [|discriminate]. apply IH. rewrite iter_succ_r. exact H.
Qed.

Lemma half_iter k : forall x, Nat.iter k (half RA) x = x * (1/2) ^ k.
Proof.
  induction k as [|k IH]; intros x.
  - change (Nat.iter 0 (half RA) x) with x. cbn [Nat.iter Init.Nat.pow pow]. lra.
  - rewrite iter_succ, IH, half_eq, <- tech_pow_Rmult. lra.
Qed.
Lemma double_iter k : forall x, Nat.iter k (double RA) x = x * 2 ^ k.
Proof.
  induction k as [|k IH]; intros x.
  - change (Nat.iter 0 (double RA) x) with x. cbn [pow]. lra.
  - rewrite iter_succ, IH, double_eq, <- tech_pow_Rmult. change (num RA) with R in *. change (@eq (num RA)) with (@eq R). ring.
Qed.

Lemma shrinks a b : 0 < a -> 0 < b -> exists k, a * (1/2) ^ k <= b.
Proof.
  intros P Q. destruct (pow_lt_1_zero (1/2) ltac:(rewrite Rabs_right; lra) (b / a) ltac:(apply Rdiv_lt_0_compat; assumption)) as (k & H).
  exists k. specialize (H k (le_n k)). rewrite Rabs_right in H by (apply Rle_ge, pow_le; lra).
  apply Rmult_lt_compat_l with (r := a) in H; [|exact P]. replace (a * (b / a)) with b in H by (field; lra). lra.
Qed.
Lemma grows a b : 0 < a -> 0 < b -> exists k, b <= a * 2 ^ k.
Proof.
  intros P Q. destruct (shrinks b a Q P) as (k & H). exists k.
  replace b with (b * (1/2) ^ k * 2 ^ k).
  - apply Rmult_le_compat_r; [apply pow_le; lra|exact H].
  - rewrite Rmult_assoc, <- Rpow_mult_distr. replace (1/2*2) with 1 by lra. rewrite pow1. ring.
Qed.

Section Invert.
Variable f : R -> R.
Hypothesis I : invertible f.

Lemma f_lt a b : f a < f b -> a < b.
Proof using I. destruct I as (F & _). intros H. destruct (Rtotal_order a b) as [L|[->|L]]; [exact L|lra|]. pose proof (F _ _ L). lra. Qed.
Lemma f_le a b : f a <= f b -> a <= b.
Proof using I. destruct I as (F & _). intros H. destruct (Rle_dec a b) as [L|L]; [exact L|]. pose proof (F b a ltac:(lra)). lra. Qed.
Lemma f_mono a b : a <= b -> f a <= f b.
Proof using I. destruct I as (F & _). intros [L| ->]; [|lra]. pose proof (F _ _ L). lra. Qed.
Lemma f_pos x : 0 < f x <-> 0 < x.
Proof using I.
  pose proof I as (F & Z & _). split; intros H.
  - apply f_lt. rewrite Z. exact H.
  - rewrite <- Z. apply F, H.
Qed.
Lemma f_neg x : f x < 0 <-> x < 0.
Proof using I.
  pose proof I as (F & Z & _). split; intros H.
  - apply f_lt. rewrite Z. exact H.
  - rewrite <- Z. apply F, H.
Qed.

Definition bracketed (y x r : R) : Prop :=
  0 <= r * y /\ Rmin (Rabs y) (Rabs x / 2) <= Rabs r <= Rmax (Rabs y) (2 * Rabs x).

Lemma lit_tol r : lit RA 1 14 + lit RA 1 10 * Rabs r = tolerance r.
Proof.
  unfold tolerance. change (lit RA 1 14) with (IZR 1 / IZR (10 ^ 14)). change (lit RA 1 10) with (IZR 1 / IZR (10 ^ 10)).
  rewrite !pow_IZR. change (Z.of_nat 14) with 14%Z. change (Z.of_nat 10) with 10%Z. lra.
Qed.

Lemma positive_tolerance : 0 < lit RA 1 14 /\ 0 <= lit RA 1 10.
Proof.
  change (lit RA 1 14) with (IZR 1 / IZR (10 ^ 14)). change (lit RA 1 10) with (IZR 1 / IZR (10 ^ 10)). split; [|apply Rlt_le]; apply Rdiv_lt_0_compat; try lra; apply IZR_lt; reflexivity.
Qed.

Lemma brentinv_some fuel y x r good : f x = y -> brentinv RA fuel f y = Some (r, good) ->
  bracketed y x r /\ (good = true -> Rabs (r - x) < tolerance r).
Proof using I.
  intros Ex E. pose proof I as (F & Z & _). destruct positive_tolerance as (T1 & T2).
  assert (Inv : forall xa xb, f xa <= y <= f xb -> brentq RA f y (lit RA 1 14) (lit RA 1 10) xa xb 200 = Some (r, good) ->
     xa <= r <= xb /\ (good = true -> Rabs (r - x) < tolerance r)).
  { intros xa xb AB E'. destruct (brentq_result f y _ _ xa xb 200 F T1 T2 AB) as (r' & good' & E2 & B & C). rewrite E2 in E'.
    assert (r' = r) by congruence. assert (good' = good) by congruence. subst. split; [exact B|]. intros G. specialize (C G x eq_refl). rewrite lit_tol in C. exact C. }
  unfold brentinv in E. cbv zeta in E. rewrite zero0 in E. change (num RA) with R in *.
  destruct (FunModel.lt RA y (f y)) eqn:L; [apply lt_true in L|apply lt_false in L].
  - destruct (while_above RA f y fuel _ y) as [m|] eqn:W; [|discriminate]. apply while_above_some in W as (W1 & W2).
    destruct (Inv m y ltac:(split; [exact W1|lra]) E) as (B & C). split; [|exact C].
    destruct W2 as [->|(x' & Em & W2)]; [lra|]. assert (XX : x < x') by (apply f_lt; lra).
    destruct (FunModel.lt RA 0 y) eqn:Y; [apply lt_true in Y|apply lt_false in Y].
    + rewrite half_eq in Em. assert (0 < x) by (apply f_pos; lra). unfold bracketed. rewrite !Rabs_right by lra.
      split; [nra|]. split; [eapply Rle_trans; [apply Rmin_r|lra]|eapply Rle_trans; [|apply Rmax_l]; lra].
    + rewrite double_eq in Em. destruct (Req_dec y 0) as [->|N]; [lra|]. assert (x < 0) by (apply f_neg; lra). unfold bracketed. rewrite !Rabs_left by lra.
      split; [nra|]. split; [eapply Rle_trans; [apply Rmin_l|lra]|eapply Rle_trans; [|apply Rmax_r]; lra].
  - destruct (while_below RA f y fuel _ y) as [m|] eqn:W; [|discriminate]. apply while_below_some in W as (W1 & W2).
    destruct (Inv y m ltac:(split; [exact L|exact W1]) E) as (B & C). split; [|exact C].
    destruct W2 as [->|(x' & Em & W2)].
    + assert (r = y) by lra. subst r. unfold bracketed. split; [nra|]. split; [apply Rmin_l|apply Rmax_l].
    + assert (XX : x' < x) by (apply f_lt; lra). destruct (FunModel.lt RA 0 y) eqn:Y; [apply lt_true in Y|apply lt_false in Y].
      * rewrite double_eq in Em. assert (0 < x) by (apply f_pos; lra). unfold bracketed. rewrite !Rabs_right by lra.
        split; [nra|]. split; [eapply Rle_trans; [apply Rmin_l|lra]|eapply Rle_trans; [|apply Rmax_r]; lra].
      * rewrite half_eq in Em. assert (x <= 0) by (apply f_le; rewrite Z; lra). unfold bracketed. rewrite !Rabs_left1 by lra.
        split; [nra|]. split; [eapply Rle_trans; [apply Rmin_r|lra]|eapply Rle_trans; [|apply Rmax_l]; lra].
Qed.

Lemma brentinv_ends y : exists fuel r good, brentinv RA fuel f y = Some (r, good).
Proof using I.
  pose proof I as (F & Z & On). destruct (On y) as (x & Ex). destruct positive_tolerance as (T1 & T2).
  assert (Inv : forall xa xb, f xa <= y <= f xb -> exists r good, brentq RA f y (lit RA 1 14) (lit RA 1 10) xa xb 200 = Some (r, good)).
  { intros xa xb AB. destruct (brentq_result f y _ _ xa xb 200 F T1 T2 AB) as (r & g & E & _). exists r, g. exact E. }
  unfold brentinv. cbv zeta. rewrite zero0. change (num RA) with R in *.
  destruct (FunModel.lt RA y (f y)) eqn:L; [apply lt_true in L|apply lt_false in L].
  - assert (K : exists k, f (Nat.iter k (if FunModel.lt RA 0 y then half RA else double RA) y) <= y).
    { assert (XY : x < y) by (apply f_lt; lra). destruct (FunModel.lt RA 0 y) eqn:Y; [apply lt_true in Y|apply lt_false in Y].
      - assert (0 < x) by (apply f_pos; lra). destruct (shrinks y x Y H) as (k & K). exists k. rewrite half_iter. rewrite <- Ex at 2. apply f_mono, K.
      - destruct (Req_dec y 0) as [->|N]; [lra|]. assert (x < 0) by (apply f_neg; lra). destruct (grows (- y) (- x) ltac:(lra) ltac:(lra)) as (k & K).
        exists k. rewrite double_iter. rewrite <- Ex at 2. apply f_mono. lra. }
    destruct K as (k & K). exists (S k). pose proof (while_above_ends f y _ k y K) as W.
    destruct (while_above RA f y (S k) _ y) as [m|] eqn:E; [|contradiction]. apply while_above_some in E as (W1 & _). apply Inv. lra.
  - assert (K : exists k, y <= f (Nat.iter k (if FunModel.lt RA 0 y then double RA else half RA) y)).
    { assert (XY : y <= x) by (apply f_le; lra). destruct (FunModel.lt RA 0 y) eqn:Y; [apply lt_true in Y|apply lt_false in Y].
      - destruct (grows y x Y ltac:(lra)) as (k & K). exists k. rewrite double_iter. rewrite <- Ex at 1. apply f_mono, K.
      - destruct (Req_dec y 0) as [->|N]; [exists 0%nat; change (0 <= f 0); lra|]. assert (x < 0) by (apply f_neg; lra).
        destruct (shrinks (- y) (- x) ltac:(lra) ltac:(lra)) as (k & K). exists k. rewrite half_iter. rewrite <- Ex at 1. apply f_mono. lra. }
    destruct K as (k & K). exists (S k). pose proof (while_below_ends f y _ k y K) as W.
    destruct (while_below RA f y (S k) _ y) as [m|] eqn:E; [|contradiction]. apply while_below_some in E as (W1 & _). apply Inv. lra.
Qed.
End Invert.

(** ** The oscillation *)

Lemma abs_inv a b : Rabs a <= b -> - b <= a <= b.
Proof. unfold Rabs. destruct (Rcase_abs a); lra. Qed.

Lemma sin_abs u : Rabs (Rtrigo_def.sin u) <= Rabs u.
Proof.
  assert (P : forall v, 0 <= v -> Rtrigo_def.sin v <= v).
  { intros v [H|<-]; [apply Rlt_le, sin_lt_x, H|rewrite sin_0; lra]. }
  assert (Q : forall v, 0 <= v -> - v <= Rtrigo_def.sin v).
  { intros v H. destruct (Rle_dec v PI) as [L|L].
    - pose proof (sin_ge_0 v H L). lra.
    - pose proof (SIN_bound v). pose proof PI_RGT_0. pose proof PI2_1. unfold PI2 in *. lra. }
  destruct (Rle_dec 0 u) as [H|H].
  - rewrite (Rabs_pos_eq u) by exact H. apply Rabs_le. split; [apply Q, H|apply P, H].
  - rewrite <- (Rabs_Ropp u), <- (Rabs_Ropp (Rtrigo_def.sin u)), <- sin_neg. rewrite (Rabs_pos_eq (- u)) by lra. apply Rabs_le. split; [apply Q|apply P]; lra.
Qed.

Lemma sin_diff a b : Rabs (Rtrigo_def.sin a - Rtrigo_def.sin b) <= Rabs (a - b).
Proof.
  rewrite form4. rewrite !Rabs_mult. rewrite (Rabs_right 2) by lra.
  pose proof (sin_abs ((a - b) / 2)) as S. assert (C : Rabs (Rtrigo_def.cos ((a + b) / 2)) <= 1) by (apply Rabs_le; apply COS_bound).
  unfold Rdiv in S at 2. rewrite Rabs_mult, (Rabs_right (/ 2)) in S by lra.
  pose proof (Rabs_pos (Rtrigo_def.cos ((a + b) / 2))). pose proof (Rabs_pos (Rtrigo_def.sin ((a - b) / 2))). nra.
Qed.

Definition wave (c1 c2 t : R) : R := t + 0.049 * (Rtrigo_def.sin (c1 * t) + Rtrigo_def.sin (c2 * t)).

Lemma wave_steep c1 c2 t t' : 0 <= c1 -> 0 <= c2 -> c1 + c2 <= 17.9 -> t <= t' -> 0.122 * (t' - t) <= wave c1 c2 t' - wave c1 c2 t.
Proof.
  intros P Q S T. unfold wave. pose proof (sin_diff (c1 * t') (c1 * t)) as A. pose proof (sin_diff (c2 * t') (c2 * t)) as B.
  rewrite (Rabs_pos_eq (c1 * t' - c1 * t)) in A by nra. rewrite (Rabs_pos_eq (c2 * t' - c2 * t)) in B by nra.
  apply abs_inv in A, B. nra.
Qed.

Lemma wave_near c1 c2 t : - 0.098 <= wave c1 c2 t - t <= 0.098.
Proof. unfold wave. pose proof (SIN_bound (c1 * t)). pose proof (SIN_bound (c2 * t)). lra. Qed.

Lemma osz_pos x : 0 < x -> osz x = Rtrigo_def.exp (wave 10 7.9 (ln x)).
Proof. intros P. unfold osz, wave, FunDocSpec.sign. cbv zeta. destruct (Rlt_dec 0 x); [|contradiction]. rewrite Rabs_right by lra. ring. Qed.
Lemma osz_neg x : x < 0 -> osz x = - Rtrigo_def.exp (wave 5.5 3.1 (ln (- x))).
Proof.
  intros P. unfold osz, wave, FunDocSpec.sign. cbv zeta. destruct (Rlt_dec 0 x); [lra|]. destruct (Rlt_dec x 0); [|contradiction]. rewrite Rabs_left by lra. ring.
Qed.

Lemma exp_convex p l : 0 <= p <= 1 -> p * (1 - Rtrigo_def.exp (- l)) <= 1 - Rtrigo_def.exp (- (p * l)).
Proof.
  intros P. set (m := - (p * l)). pose proof (exp_pos m) as EM.
  assert (T : forall x, Rtrigo_def.exp m * (1 + (x - m)) <= Rtrigo_def.exp x).
  { intros x. replace (Rtrigo_def.exp x) with (Rtrigo_def.exp m * Rtrigo_def.exp (x - m)) by (rewrite <- exp_plus; f_equal; ring).
    apply Rmult_le_compat_l; [lra|]. destruct (Req_dec (x - m) 0) as [->|N]; [rewrite exp_0; lra|]. apply Rlt_le, exp_ineq1, N. }
  pose proof (T (- l)) as A. pose proof (T 0) as B. rewrite exp_0 in B.
  assert (H : Rtrigo_def.exp m * (p * (1 + (- l - m)) + (1 - p) * (1 + (0 - m))) <= p * Rtrigo_def.exp (- l) + (1 - p)) by nra.
  replace (p * (1 + (- l - m)) + (1 - p) * (1 + (0 - m))) with 1 in H by (unfold m; ring). lra.
Qed.

(** exp (wave (ln u)) grows at least at rate 0.11. *)
Lemma wave_rate c1 c2 u u' : 0 <= c1 -> 0 <= c2 -> c1 + c2 <= 17.9 -> 0 < u <= u' ->
  0.11 * (u' - u) <= Rtrigo_def.exp (wave c1 c2 (ln u')) - Rtrigo_def.exp (wave c1 c2 (ln u)).
Proof.
  intros P Q S (U & UU). assert (U' : 0 < u') by lra.
  assert (LL : ln u <= ln u') by (destruct UU as [H| ->]; [left; apply ln_increasing; assumption|right; reflexivity]).
  pose proof (wave_steep c1 c2 (ln u) (ln u') P Q S LL) as W. pose proof (wave_near c1 c2 (ln u')) as Nr.
  set (a' := Rtrigo_def.exp (wave c1 c2 (ln u'))). set (l := ln u' - ln u) in *.
  assert (A : Rtrigo_def.exp (wave c1 c2 (ln u)) <= a' * Rtrigo_def.exp (- (0.122 * l))).
  { unfold a'. rewrite <- exp_plus. assert (H : wave c1 c2 (ln u) <= wave c1 c2 (ln u') + - (0.122 * l)) by lra.
    destruct H as [H| ->]; [left; apply exp_increasing, H|right; reflexivity]. }
  assert (B : Rtrigo_def.exp (- l) = u / u').
  { unfold l. replace (- (ln u' - ln u)) with (ln u + - ln u') by ring. rewrite exp_plus, exp_Ropp, !exp_ln by assumption. reflexivity. }
  assert (C : 0.902 * u' <= a').
  { unfold a'. replace (wave c1 c2 (ln u')) with (ln u' + (wave c1 c2 (ln u') - ln u')) by ring. rewrite exp_plus, exp_ln by exact U'.
    assert (E : 0.902 <= Rtrigo_def.exp (wave c1 c2 (ln u') - ln u')).
    { set (z := wave c1 c2 (ln u') - ln u') in *. destruct (Req_dec z 0) as [->|N]; [rewrite exp_0; lra|]. pose proof (exp_ineq1 z N). lra. }
    nra. }
  pose proof (exp_convex 0.122 l ltac:(lra)) as D. rewrite B in D.
  assert (E : a' * (0.122 * (1 - u / u')) <= a' - Rtrigo_def.exp (wave c1 c2 (ln u))).
  { assert (0 < a') by apply exp_pos. nra. }
  assert (0 <= 1 - u / u').
  { assert (u / u' <= 1); [|lra]. apply Rmult_le_reg_r with u'; [exact U'|]. unfold Rdiv. rewrite Rmult_assoc, Rinv_l by lra. lra. }
  assert (G : 0.902 * u' * (0.122 * (1 - u / u')) <= a' * (0.122 * (1 - u / u'))) by (apply Rmult_le_compat_r; [nra|exact C]).
  replace (0.902 * u' * (0.122 * (1 - u / u'))) with (0.902 * 0.122 * (u' - u)) in G by (field; lra). nra.
Qed.

(** Two numbers of the same sign. *)
Lemma osz_rate u u' : u <= u' -> 0 < u \/ u' < 0 -> 0.11 * (u' - u) <= osz u' - osz u.
Proof.
  intros L [H|H].
  - rewrite (osz_pos u), (osz_pos u') by lra. apply wave_rate; lra.
  - rewrite (osz_neg u), (osz_neg u') by lra. pose proof (wave_rate 5.5 3.1 (- u') (- u) ltac:(lra) ltac:(lra) ltac:(lra) ltac:(lra)). lra.
Qed.

Lemma osz_increasing : increasing osz.
Proof.
  intros a b L. destruct (Rlt_dec 0 a) as [A|A]; [pose proof (osz_rate a b ltac:(lra) (or_introl A)); lra|].
  destruct (Rlt_dec b 0) as [B|B]; [pose proof (osz_rate a b ltac:(lra) (or_intror B)); lra|].
  assert (H1 : osz a <= 0). { destruct (Req_dec a 0) as [->|N]; [rewrite Tosz_zero; lra|]. rewrite osz_neg by lra. pose proof (exp_pos (wave 5.5 3.1 (ln (- a)))). lra. }
  assert (H2 : 0 <= osz b). { destruct (Req_dec b 0) as [->|N]; [rewrite Tosz_zero; lra|]. rewrite osz_pos by lra. apply Rlt_le, exp_pos. }
  destruct (Req_dec a 0) as [->|N].
  - rewrite Tosz_zero. rewrite osz_pos by lra. apply exp_pos.
  - rewrite (osz_neg a) by lra. pose proof (exp_pos (wave 5.5 3.1 (ln (- a)))). lra.
Qed.

Lemma osz_invertible : invertible osz.
Proof. split; [exact osz_increasing|]. split; [exact Tosz_zero|]. intros y. destruct (osz_onto y) as (x & E). exists x. exact E. Qed.

Lemma osz_lower x : 0.902 * Rabs x <= Rabs (osz x).
Proof.
  assert (E : forall c1 c2 u, 0 < u -> 0.902 * u <= Rtrigo_def.exp (wave c1 c2 (ln u))).
  { intros c1 c2 u U. replace (wave c1 c2 (ln u)) with (ln u + (wave c1 c2 (ln u) - ln u)) by ring. rewrite exp_plus, exp_ln by exact U.
    pose proof (wave_near c1 c2 (ln u)). set (z := wave c1 c2 (ln u) - ln u) in *. 
    assert (0.902 <= Rtrigo_def.exp z); [|nra]. destruct (Req_dec z 0) as [->|N]; [rewrite exp_0; lra|]. pose proof (exp_ineq1 z N). lra. }
  destruct (Rtotal_order x 0) as [H|[->|H]].
  - rewrite osz_neg, Rabs_Ropp by exact H. rewrite (Rabs_left x) by exact H. rewrite Rabs_right by (apply Rle_ge, Rlt_le, exp_pos). apply E. lra.
  - rewrite Tosz_zero, Rabs_R0. lra.
  - rewrite osz_pos by exact H. rewrite (Rabs_right x) by lra. rewrite Rabs_right by (apply Rle_ge, Rlt_le, exp_pos). apply E. lra.
Qed.

(** ** The asymmetric map *)

Lemma asy_pos n i x : 0 < x -> asy n i x = Rtrigo_def.exp ((1 + 0.2 * share n i * R_sqrt.sqrt x) * ln x).
Proof. intros P. unfold asy, Tasy. destruct (Rlt_dec 0 x); [reflexivity|contradiction]. Qed.
Lemma asy_neg n i x : x <= 0 -> asy n i x = x.
Proof. intros P. unfold asy, Tasy. destruct (Rlt_dec 0 x); [lra|reflexivity]. Qed.

Lemma sqrt_exp t : R_sqrt.sqrt (Rtrigo_def.exp t) = Rtrigo_def.exp (t / 2).
Proof. apply sqrt_lem_1; try (apply Rlt_le, exp_pos). rewrite <- exp_plus. f_equal. lra. Qed.

(** t + b * exp(t/2) * t is increasing. *)
Lemma tilt b t t' : 0 <= b <= 0.2 -> t < t' -> (1 + b * Rtrigo_def.exp (t / 2)) * t < (1 + b * Rtrigo_def.exp (t' / 2)) * t'.
Proof.
  intros B T. pose proof (exp_pos (t / 2)) as E1. pose proof (exp_pos (t' / 2)) as E2.
  assert (EE : Rtrigo_def.exp (t / 2) < Rtrigo_def.exp (t' / 2)) by (apply exp_increasing; lra).
  destruct (Rle_dec 0 t) as [H|H].
  - assert (0 <= b * Rtrigo_def.exp (t / 2)) by nra. assert (b * Rtrigo_def.exp (t / 2) <= b * Rtrigo_def.exp (t' / 2)) by nra. nra.
  - destruct (Rle_dec 0 t') as [H'|H'].
    + assert (0 <= b * Rtrigo_def.exp (t / 2)) by nra. assert (0 <= b * Rtrigo_def.exp (t' / 2)) by nra. nra.
    + set (e := Rtrigo_def.exp (t / 2)) in *. set (e' := Rtrigo_def.exp (t' / 2)) in *.
      (* (-t') * (e' - e) <= 2 * (t' - t) *)
      assert (D : e' - e <= e' * ((t' - t) / 2)).
      { assert (Rtrigo_def.exp (- ((t' - t) / 2)) >= 1 - (t' - t) / 2).
        { pose proof (exp_ineq1 (- ((t' - t) / 2)) ltac:(lra)). lra. }
        assert (e = e' * Rtrigo_def.exp (- ((t' - t) / 2))) as -> by (unfold e, e'; rewrite <- exp_plus; f_equal; lra). nra. }
      assert (K : - t' * e' < 2).
      { assert (R1 : 1 + - t' / 2 < Rtrigo_def.exp (- t' / 2)) by (apply exp_ineq1; lra).
        assert (R2 : Rtrigo_def.exp (- t' / 2) * e' = 1) by (unfold e'; rewrite <- exp_plus; replace (- t' / 2 + t' / 2) with 0 by lra; apply exp_0). nra. }
      assert (M : - t' * (e' - e) <= t' - t) by nra.
      assert (Q : b * (- t' * e' - - t * e) <= 0.2 * (t' - t)).
      { assert (- t' * e' - - t * e <= t' - t) by nra. destruct (Rle_dec 0 (- t' * e' - - t * e)); nra. }
      nra.
Qed.

Lemma asy_increasing n i : 0 <= share n i <= 1 -> increasing (asy n i).
Proof.
  intros S a b L. destruct (Rlt_dec 0 a) as [A|A].
  - rewrite (asy_pos n i a A), (asy_pos n i b) by lra. apply exp_increasing.
    pose proof (tilt (0.2 * share n i) (ln a) (ln b) ltac:(lra) ltac:(apply ln_increasing; lra)) as T.
    rewrite <- !sqrt_exp, !exp_ln in T by lra. exact T.
  - rewrite (asy_neg n i a) by lra. destruct (Rlt_dec 0 b) as [B|B]; [|rewrite asy_neg by lra; exact L].
    rewrite asy_pos by exact B. pose proof (exp_pos ((1 + 0.2 * share n i * R_sqrt.sqrt b) * ln b)). lra.
Qed.

Lemma asy_invertible n i : (2 <= n)%nat -> (i < n)%nat -> invertible (asy n i).
Proof.
  intros N J. assert (S : 0 <= share n i <= 1) by (apply (share_le n N (repeat 0 n) (repeat_length 0 n) i J)).
  split; [exact (asy_increasing n i S)|]. split; [apply asy_neg; lra|].
  intros y. destruct (asy_onto n i y ltac:(lra)) as (x & E). exists x. exact E.
Qed.

(** ** What the code inverts *)

Lemma tosz_eq x : tosz_uv RA x = osz x.
Proof.
  rewrite <- osz_eq. unfold tosz_uv, oscillate. cbv zeta. rewrite zero0. destruct (FunModel.lt RA 0 x) eqn:A; [reflexivity|].
  destruct (FunModel.lt RA x 0) eqn:B; [reflexivity|]. apply lt_false in A, B. change (num RA) with R in *. lra.
Qed.

Lemma tasy_eq n i x : (2 <= n)%nat -> tasy_uv RA (0.2 : num RA) n i x = asy n i x.
Proof.
  intros N. unfold tasy_uv, asy, Tasy. rewrite zero0. destruct (FunModel.lt RA 0 x) eqn:A; [apply lt_true in A|apply lt_false in A].
  - destruct (Rlt_dec 0 x); [|contradiction]. change (FunModel.pow RA) with real_pow. rewrite pow_pos by exact A. f_equal.
    unfold share. rewrite <- INR_n1 by exact N. pose proof (INR_n1_pos n N). rewrite <- INR_n1 in H by exact N. lits. field. lra.
  - destruct (Rlt_dec 0 x); [lra|reflexivity].
Qed.

Lemma invertible_ext f g : (forall x, f x = g x) -> invertible g -> invertible f.
Proof.
  intros E (A & B & C). split; [intros a b L; rewrite !E; apply A, L|]. split; [rewrite E; exact B|].
  intros y. destruct (C y) as (x & X). exists x. rewrite E. exact X.
Qed.

Lemma tosz_invertible : invertible (tosz_uv RA).
Proof. exact (invertible_ext _ _ tosz_eq osz_invertible). Qed.
Lemma tasy_invertible n i : (2 <= n)%nat -> (i < n)%nat -> invertible (tasy_uv RA (0.2 : num RA) n i).
Proof. intros N J. exact (invertible_ext _ _ (fun x => tasy_eq n i x N) (asy_invertible n i N J)). Qed.
