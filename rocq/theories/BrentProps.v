(** C71: the numerical inversion behind the initial solutions of the constrained suite. *)

From Coq Require Import ZArith List Bool Reals Lra Lia Psatz ConstructiveEpsilon.
From Verif Require Import CBase FunModel FunSpec FunProofs FunDocSpec FunDocProofs ConsModel ConsSpec ConsSuiteProofs ConsExistProofs ConsProps
  BrentModel BrentSpec BrentProofs BrentInvProofs.
Import ListNotations.
Local Open Scope R_scope.
Local Notation RA := real_arith.

(** Brent's method for an increasing function: the result stays in the interval; unless the iterations are used up, it is
    within the tolerance of the solution. *)
Theorem C71_brentq : forall f y xtol rtol xa xb iter,
  increasing f -> 0 < xtol -> 0 <= rtol -> f xa <= y <= f xb ->
  exists r good, brentq real_arith f y xtol rtol xa xb iter = Some (r, good) /\ xa <= r <= xb /\
    (good = true -> forall x, f x = y -> Rabs (r - x) < xtol + rtol * Rabs r).
Proof. exact brentq_result. Qed.

(** The search for an interval ends, and the result has the sign of the solution x, is not more than twice as large as the
    larger of x and y, and is within the tolerance of x unless the iterations are used up. *)
Theorem C71_terminates : forall f y, invertible f -> exists fuel r good, brentinv real_arith fuel f y = Some (r, good).
Proof. intros f y I. exact (brentinv_ends f I y). Qed.

Theorem C71_inverse : forall f fuel y x r good, invertible f -> f x = y -> brentinv real_arith fuel f y = Some (r, good) ->
  0 <= r * y /\ Rmin (Rabs y) (Rabs x / 2) <= Rabs r <= Rmax (Rabs y) (2 * Rabs x) /\
  (good = true -> Rabs (r - x) < tolerance r).
Proof.
  intros f fuel y x r good I E B. destruct (brentinv_some f I fuel y x r good E B) as ((A1 & A2) & A3). split; [exact A1|]. split; [exact A2|exact A3].
Qed.

(** The two functions of the code are the published ones and can be inverted. *)
Theorem C71_functions :
  (forall x, tosz_uv real_arith x = osz x) /\ invertible (tosz_uv real_arith) /\
  forall n i, (2 <= n)%nat -> (i < n)%nat ->
    (forall x, tasy_uv real_arith (0.2 : num real_arith) n i x = asy n i x) /\ invertible (tasy_uv real_arith (0.2 : num real_arith) n i).
Proof.
  split; [exact tosz_eq|]. split; [exact tosz_invertible|]. intros n i N J. split; [intros x; apply tasy_eq, N|apply tasy_invertible; assumption].
Qed.

(** Non-positive numbers are their own images and preimages under the asymmetric map: no error there. *)
Theorem C71_exact : forall n i y fuel, (2 <= n)%nat -> (i < n)%nat -> y <= 0 ->
  brentinv real_arith (S fuel) (tasy_uv real_arith (0.2 : num real_arith) n i) y = Some (y, true).
Proof.
  intros n i y fuel N J Y. set (f := tasy_uv _ _ _ _). assert (E : f y = y) by (unfold f; rewrite tasy_eq by exact N; apply asy_neg, Y).
  unfold brentinv. cbv zeta. cbn [while_below while_above]. rewrite E.
  assert (L : FunModel.lt RA y y = false) by (apply lt_false; lra). rewrite L.
  unfold brentq. cbv zeta. change (num RA) with R in *. rewrite E. change (sub RA y y) with (y - y). rewrite Rminus_diag_eq by reflexivity. rewrite zero0.
  assert (L2 : FunModel.lt RA 0 (mul RA 0 0) = false) by (apply lt_false; change (0 * 0 <= 0); lra). rewrite L2.
  assert (Q : equal RA 0 0 = true) by (apply equal_true; reflexivity). rewrite Q. reflexivity.
Qed.

(** ** Initial solutions *)

Section Initial.
Variables (n : nat) (q : real_inputs) (good_osz : R -> bool) (good_asy : nat -> R -> bool).
Hypothesis N : (2 <= n)%nat.
Hypothesis Q : computed_inverses n q good_osz good_asy.

Lemma osz_of y x : osz x = y -> bracketed y x (inverse_osz _ q y) /\ (good_osz y = true -> Rabs (inverse_osz _ q y - x) < tolerance (inverse_osz _ q y)).
Proof using Q.
  intros E. destruct (proj1 Q y) as (fuel & B). apply (brentinv_some _ tosz_invertible fuel y x _ _ ltac:(rewrite tosz_eq; exact E) B).
Qed.
Lemma asy_of i y x : (i < n)%nat -> asy n i x = y -> bracketed y x (inverse_asy _ q i y) /\
  (good_asy i y = true -> Rabs (inverse_asy _ q i y - x) < tolerance (inverse_asy _ q i y)).
Proof using Q N.
  intros J E. destruct (proj2 Q i y J) as (fuel & B). apply (brentinv_some _ (tasy_invertible n i N J) fuel y x _ _ ltac:(rewrite tasy_eq by exact N; exact E) B).
Qed.

Lemma osz_inverse_small y : Rabs y <= 0.45 -> Rabs (inverse_osz _ q y) < 1.
Proof using Q.
  intros Y. destruct (osz_onto y) as (x & E). destruct (osz_of y x E) as ((_ & _ & B) & _).
  pose proof (osz_lower x) as L. rewrite E in L. eapply Rle_lt_trans; [exact B|]. apply Rmax_lub_lt; lra.
Qed.

Lemma asy_inverse_small i y : (i < n)%nat -> Rabs y <= 9 / 2 ^ 8 -> Rabs (inverse_asy _ q i y) <= 0.45.
Proof using Q N.
  intros J Y. assert (S : 0 <= share n i <= 1) by (apply (share_le n N (repeat 0 n) (repeat_length 0 n) i J)).
  destruct (asy_onto n i y ltac:(lra)) as (x & E). destruct (asy_of i y x J E) as ((_ & _ & B) & _).
  eapply Rle_trans; [exact B|]. apply Rmax_lub; [lra|]. fold (asy n i x) in E.
  destruct (Rlt_dec 0 x) as [P|P]; [|rewrite asy_neg in E by lra; subst; lra].
  assert (X1 : x < 1).
  { destruct (Rlt_dec x 1) as [H|H]; [exact H|]. exfalso. rewrite asy_pos in E by exact P. fold (Rpower x (1 + 0.2 * share n i * R_sqrt.sqrt x)) in E.
    pose proof (sqrt_pos x). pose proof (Rpower_large x (1 + 0.2 * share n i * R_sqrt.sqrt x) ltac:(lra) ltac:(nra)) as K. rewrite E in K. rewrite Rabs_right in Y by lra. lra. }
  assert (SQ : 0 <= R_sqrt.sqrt x <= 1) by (split; [apply sqrt_pos|rewrite <- sqrt_1; apply sqrt_le_1; lra]).
  pose proof (Rpower_small x (1 + 0.2 * share n i * R_sqrt.sqrt x) ltac:(lra) ltac:(nra)) as K. rewrite asy_pos in E by exact P. unfold Rpower in K. rewrite E in K.
  rewrite (Rabs_right x) by lra. rewrite Rabs_right in Y by nra. nra.
Qed.

Lemma asy_inverse_bounded i y : (i < n)%nat -> Rabs y <= 9 -> Rabs (inverse_asy _ q i y) <= 18.
Proof using Q N.
  intros J Y. assert (S : 0 <= share n i <= 1) by (apply (share_le n N (repeat 0 n) (repeat_length 0 n) i J)).
  destruct (asy_onto n i y ltac:(lra)) as (x & E). destruct (asy_of i y x J E) as ((_ & _ & B) & _).
  eapply Rle_trans; [exact B|]. apply Rmax_lub; [lra|]. fold (asy n i x) in E.
  destruct (Rlt_dec 1 x) as [P|P].
  - rewrite asy_pos in E by lra. fold (Rpower x (1 + 0.2 * share n i * R_sqrt.sqrt x)) in E.
    pose proof (sqrt_pos x). assert (K : Rpower x 1 <= Rpower x (1 + 0.2 * share n i * R_sqrt.sqrt x)) by (apply Rle_Rpower; [lra|nra]).
    rewrite E, Rpower_1 in K by lra. rewrite Rabs_right in Y by lra. rewrite Rabs_right by lra. lra.
  - destruct (Rlt_dec 0 x) as [P2|P2]; [rewrite Rabs_right by lra; lra|]. rewrite asy_neg in E by lra. subst. lra.
Qed.

Lemma small_tol x : 0 <= tolerance x.
Proof. unfold tolerance. pose proof (Rabs_pos x). assert (0 < / 10 ^ 14) by (apply Rinv_0_lt_compat, pow_lt; lra). assert (0 < / 10 ^ 10) by (apply Rinv_0_lt_compat, pow_lt; lra). nra. Qed.

(** The inverse of the composition of both maps. *)
Lemma composed_near i y a x : (i < n)%nat -> asy n i a = y -> osz x = a -> good_asy i y = true -> good_osz (inverse_asy _ q i y) = true ->
  let r := inverse_osz _ q (inverse_asy _ q i y) in Rabs (r - x) <= 20 * tolerance r.
Proof using Q N.
  intros J Ea Ex G1 G2 r. destruct (asy_of i y a J Ea) as (B1 & T1). specialize (T1 G1). set (b := inverse_asy RA q i y) in *.
  destruct (osz_onto b) as (u & Eu). destruct (osz_of b u Eu) as (B2 & T2). specialize (T2 G2). fold r in T2, B2.
  pose proof (asy_invertible n i N J) as IA.
  (* a, b and y have the same sign, so x and u do *)
  assert (SG : Rabs (u - x) <= 9.1 * Rabs (b - a)).
  { assert (S : 0 < y /\ 0 < a /\ 0 < b \/ y < 0 /\ a < 0 /\ b < 0 \/ a = 0 /\ b = 0).
    { destruct B1 as (C1 & C2 & C3). destruct (Rtotal_order y 0) as [H|[H|H]].
      - assert (A0 : a < 0) by (apply (f_neg _ IA); lra). right. left. split; [exact H|]. split; [exact A0|].
        assert (0 < Rabs b) by (eapply Rlt_le_trans; [|exact C2]; apply Rmin_glb_lt; [rewrite Rabs_left; lra|rewrite Rabs_left; lra]).
        destruct (Rtotal_order b 0) as [K|[K|K]]; [exact K| |nra]. rewrite K, Rabs_R0 in *. lra.
      - right. right. assert (A0 : a = 0).
        { destruct (Rtotal_order a 0) as [K|[K|K]]; [|exact K|]; [apply (f_neg _ IA) in K|apply (f_pos _ IA) in K]; lra. }
        split; [exact A0|]. rewrite A0, H, !Rabs_R0, Rmult_0_r, Rmax_left in C3 by lra. destruct (Req_dec b 0) as [K|K]; [exact K|]. apply Rabs_pos_lt in K. lra.
      - assert (A0 : 0 < a) by (apply (f_pos _ IA); lra). left. split; [exact H|]. split; [exact A0|].
        assert (0 < Rabs b) by (eapply Rlt_le_trans; [|exact C2]; apply Rmin_glb_lt; [rewrite Rabs_right; lra|rewrite Rabs_right; lra]).
        destruct (Rtotal_order b 0) as [K|[K|K]]; [nra| |exact K]. rewrite K, Rabs_R0 in *. lra. }
    assert (K : forall v w, v <= w -> 0 < v \/ w < 0 -> Rabs (v - w) <= 9.1 * Rabs (osz v - osz w)).
    { intros v w VW H. pose proof (osz_rate v w VW H). rewrite (Rabs_left1 (v - w)) by lra. rewrite Rabs_left1 by lra. lra. }
    destruct S as [(S1 & S2 & S3)|[(S1 & S2 & S3)|(S1 & S2)]].
    - assert (0 < u) by (apply (f_pos _ osz_invertible); rewrite Eu; exact S3). assert (0 < x) by (apply (f_pos _ osz_invertible); rewrite Ex; exact S2).
      destruct (Rle_dec u x) as [UX|UX].
      + rewrite <- Eu, <- Ex. apply K; [exact UX|left; assumption].
      + rewrite (Rabs_minus_sym u x), (Rabs_minus_sym b a). rewrite <- Eu, <- Ex. apply K; [lra|left; assumption].
    - assert (u < 0) by (apply (f_neg _ osz_invertible); rewrite Eu; exact S3). assert (x < 0) by (apply (f_neg _ osz_invertible); rewrite Ex; exact S2).
      destruct (Rle_dec u x) as [UX|UX].
      + rewrite <- Eu, <- Ex. apply K; [exact UX|right; assumption].
      + rewrite (Rabs_minus_sym u x), (Rabs_minus_sym b a). rewrite <- Eu, <- Ex. apply K; [lra|right; assumption].
    - assert (u = x) as -> by (apply (G_inj osz 0 osz_increasing); rewrite Eu, Ex, S1, S2; reflexivity). rewrite S1, S2, !Rminus_diag_eq by reflexivity. rewrite Rabs_R0. lra. }
  (* sizes *)
  assert (BU : Rabs b <= 2 * Rabs u) by (rewrite <- Eu; apply osz_bound).
  assert (UR : Rabs u <= Rabs r + tolerance r).
  { replace u with (r - (r - u)) by ring. eapply Rle_trans; [apply Rabs_triang|]. rewrite Rabs_Ropp. lra. }
  assert (RX : Rabs (r - x) <= Rabs (r - u) + Rabs (u - x)).
  { replace (r - x) with ((r - u) + (u - x)) by ring. apply Rabs_triang. }
  assert (TB : tolerance b <= 2.01 * tolerance r).
  { pose proof (small_tol r) as TP. unfold tolerance at 1. unfold tolerance in UR, TP |- *. pose proof (Rabs_pos r).
    assert (E10 : 0 < / 10 ^ 10 <= 0.001) by (split; [apply Rinv_0_lt_compat, pow_lt; lra|]; apply Rmult_le_reg_l with (10 ^ 10); [apply pow_lt; lra|rewrite Rinv_r by (apply pow_nonzero; lra); lra]).
    assert (E14 : 0 < / 10 ^ 14) by (apply Rinv_0_lt_compat, pow_lt; lra). set (e := / 10 ^ 10) in *. set (g := / 10 ^ 14) in *.
    assert (Rabs b <= 2 * (Rabs r + (g + e * Rabs r))) by lra. assert (e * Rabs b <= e * (2 * (Rabs r + (g + e * Rabs r)))) by nra.
    assert (e * (g + e * Rabs r) <= 0.001 * (g + e * Rabs r)) by nra. nra. }
  pose proof (small_tol r). lra.
Qed.
End Initial.

(** With the inverses that the code computes, the initial solution lies in the region of interest after at most nine rounds; unless
    an inversion of a number up to 18 uses up its iterations, it is within 20 tolerances of a feasible point in each coordinate. *)
Theorem C71_initial : forall v fuel function n instance q p good_osz good_asy,
  (2 <= n)%nat -> (1 <= function <= 54)%nat -> sensible function n q -> computed_inverses n q good_osz good_asy ->
  (9 <= fuel)%nat -> get_cons_bbob_problem real_arith v fuel function n instance q = Ok p ->
  exists x, initial _ p = Some x /\ length x = n /\ within 5 x /\
    ((forall y, Rabs y <= 18 -> good_osz y = true) -> (forall i y, (i < n)%nat -> Rabs y <= 9 -> good_asy i y = true) ->
     exists x', length x' = n /\ feasible (constraints _ p x') /\
       forall i, (i < n)%nat -> Rabs (coord x i - coord x' i) <= 20 * tolerance (coord x i - coord (location _ q) i)).
Proof.
  intros v fuel function n instance q p go ga N Fu S Q L E. pose proof (get_sound v fuel function n instance q N Fu S) as G. rewrite E in G.
  destruct G as (_ & _ & T & inv & (d & D & I & Fe & En) & K). set (xo := location RA q) in *.
  assert (SM : forall i y, (i < n)%nat -> Rabs y <= 9 / 2 ^ 8 -> Rabs (inv i y) < 1).
  { intros i y J Y. destruct K as [(_ & ->)|[(_ & ->)|[(_ & ->)|(_ & ->)]]].
    - lra.
    - apply (osz_inverse_small n q go ga Q). lra.
    - pose proof (asy_inverse_small n q go ga N Q i y J Y). lra.
    - apply (osz_inverse_small n q go ga Q). exact (asy_inverse_small n q go ga N Q i y J Y). }
  specialize (En L SM). destruct (initial _ p) as [x|] eqn:Ix; [|contradiction]. exists x. split; [reflexivity|].
  destruct (I x eq_refl) as (Lx & W & t & Ht & X). split; [exact Lx|]. split; [exact W|]. intros Go Ga.
  assert (H : forall i, (i < n)%nat -> exists z, T i z = t * at_ RA d i /\ Rabs (inv i (at_ RA d i * t) - z) <= 20 * tolerance (inv i (at_ RA d i * t))).
  { intros i J. set (y := at_ RA d i * t).
    assert (Y9 : Rabs y <= 9).
    { unfold y. rewrite Rabs_mult, (Rabs_right t) by lra. assert (Rabs (at_ RA d i) <= 9) by (apply Rabs_le; specialize (D i J); exact D).
      pose proof (Rabs_pos (at_ RA d i)). change (num RA) with R in *. nra. }
    replace (t * at_ RA d i) with y by (unfold y; change (num RA) with R in *; ring).
    assert (Sh : 0 <= share n i) by (apply share_nonneg; exact N).
    assert (TP : forall r, tolerance r <= 20 * tolerance r) by (intros r; pose proof (small_tol r); lra).
    destruct K as [(-> & ->)|[(-> & ->)|[(-> & ->)|(-> & ->)]]].
    - exists y. split; [reflexivity|]. rewrite Rminus_diag_eq by reflexivity. rewrite Rabs_R0. pose proof (small_tol y). lra.
    - destruct (osz_onto y) as (z & Ez). exists z. split; [exact Ez|]. destruct (osz_of n q go ga Q y z Ez) as (_ & B). specialize (B (Go y ltac:(lra))). eapply Rle_trans; [apply Rlt_le, B|apply TP].
    - destruct (asy_onto n i y Sh) as (z & Ez). exists z. split; [exact Ez|]. destruct (asy_of n q go ga N Q i y z J Ez) as (_ & B). specialize (B (Ga i y J Y9)). eapply Rle_trans; [apply Rlt_le, B|apply TP].
    - destruct (asy_onto n i y Sh) as (a & Ea). destruct (osz_onto a) as (z & Ez). exists z. split; [rewrite Ez; exact Ea|].
      apply (composed_near n q go ga N Q i y a z J Ea Ez (Ga i y J Y9)). apply Go. apply (asy_inverse_bounded n q go ga N Q i y J Y9). }
  assert (C : exists x', length x' = n /\ forall i, (i < n)%nat -> T i (coord x' i - coord xo i) = t * at_ RA d i /\ Rabs (inv i (at_ RA d i * t) - (coord x' i - coord xo i)) <= 20 * tolerance (inv i (at_ RA d i * t))).
  { assert (M : forall m, (m <= n)%nat -> exists x', length x' = m /\ forall i, (i < m)%nat -> T i (coord x' i - coord xo i) = t * at_ RA d i /\ Rabs (inv i (at_ RA d i * t) - (coord x' i - coord xo i)) <= 20 * tolerance (inv i (at_ RA d i * t))).
    { induction m as [|m IH]; intros LM; [exists []; split; [reflexivity|intros; lia]|]. destruct IH as (x' & L' & A); [lia|].
      destruct (H m ltac:(lia)) as (z & Z1 & Z2). exists (x' ++ [z + coord xo m]). split; [rewrite app_length, L'; cbn; lia|]. intros i J.
      destruct (Nat.eq_dec i m) as [->|NE].
      - assert (EC : coord (x' ++ [z + coord xo m]) m = z + coord xo m) by (unfold coord at 1; rewrite app_nth2 by lia; rewrite L', Nat.sub_diag; reflexivity).
        rewrite EC. replace (z + coord xo m - coord xo m) with z by ring. split; assumption.
      - assert (EC : coord (x' ++ [z + coord xo m]) i = coord x' i) by (unfold coord at 1; rewrite app_nth1 by lia; reflexivity).
        rewrite EC. apply A. lia. }
    apply (M n). lia. }
  destruct C as (x' & L' & A). exists x'. split; [exact L'|]. split.
  - apply (Fe x' t L' Ht). intros i J. apply A, J.
  - intros i J. destruct (A i J) as (_ & B). rewrite (X i J). fold xo. replace (coord xo i + inv i (at_ RA d i * t) - coord xo i) with (inv i (at_ RA d i * t)) by ring.
    replace (coord xo i + inv i (at_ RA d i * t) - coord x' i) with (inv i (at_ RA d i * t) - (coord x' i - coord xo i)) by ring. exact B.
Qed.

(** What the code computes exists for all values. *)
Lemma found_of f y : invertible f -> { p : R * bool | exists fuel, brentinv RA fuel f y = Some p }.
Proof.
  intros I. destruct (constructive_indefinite_ground_description_nat (fun k => brentinv RA k f y <> None)) as (k & K).
  - intros k. destruct (brentinv RA k f y); [left; discriminate|right; intros H; apply H; reflexivity].
  - destruct (brentinv_ends f I y) as (k & r & g & E). exists k. rewrite E. discriminate.
  - destruct (brentinv RA k f y) as [p|] eqn:E; [exists p, k; exact E|contradiction].
Qed.
Theorem C71_computed : forall n (q : real_inputs), (2 <= n)%nat -> exists inverse_osz inverse_asy good_osz good_asy,
  computed_inverses n {| location := location _ q; drawn := drawn _ q; length_draw := length_draw _ q; stream := stream _ q;
                         inverse_osz := inverse_osz; inverse_asy := inverse_asy |} good_osz good_asy.
Proof.
  intros n q N. set (h := fun i y => match Compare_dec.lt_dec i n with left J => proj1_sig (found_of _ y (tasy_invertible n i N J)) | right _ => (y, true) end).
  exists (fun y => fst (proj1_sig (found_of _ y tosz_invertible))), (fun i y => fst (h i y)),
    (fun y => snd (proj1_sig (found_of _ y tosz_invertible))), (fun i y => snd (h i y)).
  split.
  - intros y. cbn [ConsModel.inverse_osz]. destruct (found_of _ y tosz_invertible) as ((r & g) & E). exact E.
  - intros i y J. cbn [ConsModel.inverse_asy]. unfold h. destruct (Compare_dec.lt_dec i n) as [J'|]; [|contradiction]. destruct (found_of _ y _) as ((r & g) & E). exact E.
Qed.

(** ** Examples *)

(** The first problem with the asymmetric and the oscillating map. *)
Example C71_initial_ex : exists q p x, get_cons_bbob_problem real_arith Standard 9 43 2 1 q = Ok p /\ initial _ p = Some x /\ within 5 x.
Proof.
  destruct (C71_computed 2 plain_inputs ltac:(lia)) as (io & ia & go & ga & Q). eexists _. set (q := Build_inputs _ _ _ _ _ _ _) in Q.
  destruct (C46_suite_created Standard 9 43 2 1 q ltac:(lia) ltac:(lia) (plain_sensible 43) ltac:(apply plain_usable; [reflexivity|lia])) as (p & E).
  destruct (C71_initial Standard 9 43 2 1 q p go ga ltac:(lia) ltac:(lia) (plain_sensible 43) Q (le_n 9) E) as (x & A & _ & B & _).
  exists p, x. split; [exact E|]. split; [exact A|exact B].
Qed.

(** Brent's method for f(x) = 2x and y = 3 in [1, 2]: a step of bisection hits the solution. *)
Definition twice : R -> R := fun x => 2 * x.
Example C71_brentq_ex : brentq real_arith twice 3 (1/100 : num real_arith) (1/100 : num real_arith) 1 2 200 = Some (3/2, true).
Proof.
  assert (T : forall a b, a < b -> FunModel.lt RA a b = true) by (intros; apply lt_true; assumption).
  assert (U : forall a b, b <= a -> FunModel.lt RA a b = false) by (intros; apply lt_false; assumption).
  assert (V : forall a b, a <> b -> equal RA a b = false) by (intros; apply equal_false; assumption).
  assert (W : forall a b, a = b -> equal RA a b = true) by (intros; apply equal_true; assumption).
  unfold brentq. cbv zeta. rewrite zero0. change (sub RA (twice 1) 3) with (2 * 1 - 3). change (sub RA (twice 2) 3) with (2 * 2 - 3).
  rewrite U by (change (mul RA) with Rmult; lra). rewrite (V (2 * 1 - 3) 0), (V (2 * 2 - 3) 0) by lra.
  set (s := Build_state RA _ _ _ _ _ _ _ _).
  assert (E1 : swap RA (rebracket RA s) = {| xpre := 1 : num RA; xcur := 2; xblk := 1; fpre := 2 * 1 - 3; fcur := 2 * 2 - 3; fblk := 2 * 1 - 3; spre := sub RA 2 1; scur := sub RA 2 1 |}).
  { unfold rebracket, s. cbn [fpre fcur xpre xcur]. rewrite zero0, !V by lra. cbn [negb andb].
    unfold signbit. rewrite zero0, (T (2 * 1 - 3)), (U (2 * 2 - 3)) by lra. cbn [Bool.eqb negb]. unfold swap. cbn [fblk fcur]. change (abs RA) with Rabs.
    rewrite U by (rewrite (Rabs_left (2 * 1 - 3)), Rabs_right by lra; lra). reflexivity. }
  change (rounds RA twice 3 (1/100) (1/100) 200 s) with
    (let t := swap RA (rebracket RA s) in if equal RA (fcur RA t) (zero RA) || FunModel.lt RA (abs RA (sbis RA t)) (delta RA (1/100) (1/100) t) then (xcur RA t, true)
     else rounds RA twice 3 (1/100) (1/100) 199 (advance RA twice 3 (1/100) (1/100) t)).
  cbv zeta. rewrite E1. cbn [fcur xcur]. rewrite zero0, V by lra. cbn [orb].
  set (t := Build_state RA _ _ _ _ _ _ _ _).
  assert (ES : sbis RA t = -1/2) by (unfold sbis, t; cbn [xblk xcur]; lits; lra).
  assert (ED : delta RA (1/100) (1/100) t = 3/200) by (unfold delta, t; cbn [xcur]; change (abs RA) with Rabs; rewrite (Rabs_right 2) by lra; lits; lra).
  assert (EC : choose RA (1/100) (1/100) t = (sbis RA t, sbis RA t)).
  { unfold choose. change (fcur RA t) with (2 * 2 - 3). change (fpre RA t) with (2 * 1 - 3). change (abs RA) with Rabs.
    rewrite (U (Rabs (2 * 2 - 3)) (Rabs (2 * 1 - 3))) by (rewrite (Rabs_right (2 * 2 - 3)), (Rabs_left (2 * 1 - 3)) by lra; lra). rewrite andb_false_r. reflexivity. }
  assert (HA : Rabs (-1/2) = 1/2) by (rewrite Rabs_left; lra).
  change (abs RA) with Rabs. rewrite ES, ED. rewrite U by (rewrite HA; lra).
  assert (EA : advance RA twice 3 (1/100) (1/100) t = {| xpre := 2 : num RA; xcur := 3/2; xblk := 1; fpre := 2 * 2 - 3; fcur := 0; fblk := 2 * 1 - 3; spre := -1/2; scur := -1/2 |}).
  { unfold advance. rewrite EC, ED, ES. cbv zeta. change (abs RA) with Rabs. rewrite T by (rewrite HA; lra). unfold t. cbn [xcur xblk fcur fblk].
    change (add RA 2 (-1/2)) with (2 + -1/2). change (sub RA (twice (2 + -1/2)) 3) with (2 * (2 + -1/2) - 3).
    replace (2 * (2 + -1/2) - 3) with 0 by lra. replace (2 + -1/2) with (3/2) by lra. reflexivity. }
  rewrite EA. set (u := Build_state RA _ _ _ _ _ _ _ _).
  assert (E2 : swap RA (rebracket RA u) = u).
  { unfold rebracket, u. cbn [fpre fcur]. rewrite zero0, (W 0 0) by lra. rewrite andb_false_r. cbn [negb andb]. unfold swap. cbn [fblk fcur].
    change (abs RA) with Rabs. rewrite U by (rewrite Rabs_R0; apply Rabs_pos). reflexivity. }
  change (rounds RA twice 3 (1/100) (1/100) 199 u) with
    (let t := swap RA (rebracket RA u) in if equal RA (fcur RA t) (zero RA) || FunModel.lt RA (abs RA (sbis RA t)) (delta RA (1/100) (1/100) t) then (xcur RA t, true)
     else rounds RA twice 3 (1/100) (1/100) 198 (advance RA twice 3 (1/100) (1/100) t)).
  cbv zeta. rewrite E2. unfold u. cbn [fcur xcur]. rewrite zero0, W by lra. reflexivity.
Qed.

Print Assumptions C71_brentq.
Print Assumptions C71_terminates.
Print Assumptions C71_inverse.
Print Assumptions C71_functions.
Print Assumptions C71_exact.
Print Assumptions C71_initial.
Print Assumptions C71_computed.
