(** The oscillation and the asymmetric map have exact inverses; a random stream for which the construction fails. *)

From Coq Require Import ZArith List Bool Reals Lra Lia Psatz.
From Verif Require Import CBase FunModel FunSpec FunProofs FunDocSpec FunDocProofs ConsModel ConsSpec ConsProofs ConsBuildProofs ConsObjProofs ConsSuiteProofs.
Import ListNotations.
Local Open Scope R_scope.

Lemma solve_continuous (f : R -> R) a b y : continuity f -> a <= b -> f a <= y <= f b -> { t | f t = y }.
Proof.
  intros C AB H. destruct (IVT_cor (fun t => f t - y) a b) as (t & _ & E).
  - apply continuity_minus; [exact C|]. apply continuity_const. intros x z. reflexivity.
  - exact AB.
  - nra.
  - exists t. lra.
Defined.

Lemma osz_onto y : { x | osz x = y }.
Proof.
  destruct (Req_EM_T y 0) as [->|NZ].
  { exists 0. unfold osz, FunDocSpec.sign. destruct (Rlt_dec 0 0); [lra|]. cbv zeta. ring. }
  set (c1 := if Rlt_dec 0 y then 10 else 5.5). set (c2 := if Rlt_dec 0 y then 7.9 else 3.1).
  set (f := fun t => t + 0.049 * (Rtrigo_def.sin (c1 * t) + Rtrigo_def.sin (c2 * t))).
  assert (C : continuity f).
  { apply derivable_continuous. unfold f. reg. }
  assert (B : forall t, t - 0.098 <= f t <= t + 0.098).
  { intros t. unfold f. pose proof (SIN_bound (c1 * t)). pose proof (SIN_bound (c2 * t)). lra. }
  destruct (solve_continuous f (ln (Rabs y) - 1) (ln (Rabs y) + 1) (ln (Rabs y)) C) as (t & E).
  - lra.
  - pose proof (B (ln (Rabs y) - 1)). pose proof (B (ln (Rabs y) + 1)). lra.
  - exists (FunDocSpec.sign y * Rtrigo_def.exp t).
    assert (P : 0 < Rabs y) by (apply Rabs_pos_lt, NZ). pose proof (exp_pos t) as ET.
    unfold osz. cbv zeta.
    assert (A : Rabs (FunDocSpec.sign y * Rtrigo_def.exp t) = Rtrigo_def.exp t).
    { rewrite Rabs_mult, (Rabs_right (Rtrigo_def.exp t)) by lra. unfold FunDocSpec.sign.
      destruct (Rlt_dec 0 y); [rewrite Rabs_R1; ring|]. destruct (Rlt_dec y 0); [rewrite Rabs_left by lra; ring|lra]. }
    rewrite A, ln_exp. unfold f, c1, c2 in E. unfold FunDocSpec.sign in *.
    destruct (Rlt_dec 0 y) as [Y|Y].
    + destruct (Rlt_dec 0 (1 * Rtrigo_def.exp t)); [|lra]. rewrite E, exp_ln by exact P. rewrite Rabs_right by lra. ring.
    + destruct (Rlt_dec y 0) as [Y2|]; [|lra]. destruct (Rlt_dec 0 (-1 * Rtrigo_def.exp t)); [lra|].
      destruct (Rlt_dec (-1 * Rtrigo_def.exp t) 0); [|lra]. rewrite E, exp_ln by exact P. rewrite Rabs_left by lra. ring.
Defined.

Lemma asy_onto n i y : 0 <= share n i -> { x | Tasy n 0.2 (fun _ => x) i = y }.
Proof.
  intros S. destruct (Rlt_dec 0 y) as [P|P].
  2:{ exists y. unfold Tasy. destruct (Rlt_dec 0 y); [contradiction|reflexivity]. }
  set (f := fun t => (1 + 0.2 * share n i * Rtrigo_def.exp (t / 2)) * t).
  assert (C : continuity f).
  { apply derivable_continuous. unfold f, Rdiv. reg. }
  assert (A : forall t, 0 <= 0.2 * share n i * Rtrigo_def.exp (t / 2)).
  { intros t. pose proof (exp_pos (t / 2)). apply Rmult_le_pos; lra. }
  assert (F0 : f 0 = 0) by (unfold f; ring).
  assert (Q : { t | f t = ln y }).
  { destruct (Rle_dec 0 (ln y)) as [L|L].
    - apply (solve_continuous f 0 (ln y)); [exact C|exact L|]. split; [lra|]. unfold f. pose proof (A (ln y)). nra.
    - apply (solve_continuous f (ln y) 0); [exact C|lra|]. split; [|lra]. unfold f. pose proof (A (ln y)). nra. }
  destruct Q as (t & E). exists (Rtrigo_def.exp t). unfold Tasy. pose proof (exp_pos t) as ET.
  destruct (Rlt_dec 0 (Rtrigo_def.exp t)); [|contradiction]. unfold Rpower. rewrite ln_exp.
  replace (R_sqrt.sqrt (Rtrigo_def.exp t)) with (Rtrigo_def.exp (t / 2)).
  - fold (f t). rewrite E. apply exp_ln, P.
  - symmetry. apply sqrt_lem_1; try (apply Rlt_le, exp_pos). rewrite <- exp_plus. f_equal. lra.
Defined.

Definition inverse_osz_of (y : R) : R := proj1_sig (osz_onto y).
Definition inverse_asy_of (n i : nat) (y : R) : R :=
  match Rle_dec 0 (share n i) with left H => proj1_sig (asy_onto n i y H) | right _ => y end.

Lemma exact_inverses_of n (q : real_inputs) : (2 <= n)%nat -> inverse_osz _ q = inverse_osz_of -> inverse_asy _ q = inverse_asy_of n ->
  exact_inverses n q.
Proof.
  intros N H1 H2. split; intros y; [|intros i I]; [rewrite H1; exact (proj2_sig (osz_onto y))|].
  rewrite H2. unfold inverse_asy_of. destruct (Rle_dec 0 (share n i)) as [S|S].
  - exact (proj2_sig (asy_onto n i y S)).
  - exfalso. apply S. apply share_nonneg. exact N.
Qed.

(** ** A stream for which the construction ends in coco_error *)

Definition bad_streams : real_streams := Build_streams RA (fun _ _ => 1 / 2) (fun _ k => if Nat.eqb k 1 then / 10 ^ 17 else - / (2 * 10 ^ 17)).

Lemma bad_fair : fair bad_streams.
Proof. intros seed k. cbn [uniform bad_streams]. lra. Qed.

Lemma tiny_pos : 0 < / 10 ^ 17.
Proof. apply Rinv_0_lt_compat, pow_lt. lra. Qed.

Lemma bad_regular function n instance m : (1 <= n)%nat -> regular bad_streams function n instance m.
Proof. intros N k K. exists 0%nat. split; [lia|]. cbn [normal bad_streams Nat.eqb]. pose proof tiny_pos. lra. Qed.

Notation d11 := ([1; 1] : list (num RA)).

(** What is drawn for constraint 2 is kept as it is. *)
Lemma bad_single shift : 0 <= shift -> exists K c, 0 < K /\
  linear_single RA bad_streams 1 2 0 2 (scale1 bad_streams 1 0) None shift d11 = Ok c /\ cshift _ c = shift /\
  (shift = 0 -> (cgradient _ c).[0] = 2 * K /\ (cgradient _ c).[1] = - K).
Proof.
  intros S. unfold linear_single. cbv zeta.
  change (FunModel.pow RA (lit RA 100 0) (uniform RA bad_streams (cons_seed 1 0 2) 0)) with (scale2 bad_streams 1 0 2).
  pose proof (S1 bad_streams 1 0 bad_fair) as B1. pose proof (S2 bad_streams 1 0 bad_fair 2) as B2.
  assert (U1 : scale1 bad_streams 1 0 <= 1000).
  { unfold scale1. cbn [uniform bad_streams]. lits. rewrite pow_pos by lra. 
    assert (Rpower (10/1) (1/2) <= 10); [|lra]. rewrite <- (Rpower_1 10) at 2 by lra. replace (10/1) with 10 by lra. apply Rle_Rpower; lra. }
  assert (U2 : scale2 bad_streams 1 0 2 <= 100).
  { unfold scale2. cbn [uniform bad_streams]. lits. rewrite pow_pos by lra.
    rewrite <- (Rpower_1 100) at 2 by lra. replace (100/1) with 100 by lra. apply Rle_Rpower; lra. }
  assert (Q : 1 < R_sqrt.sqrt (INR 2)). { rewrite <- sqrt_1 at 1. apply sqrt_lt_1; cbn; lra. }
  set (a := scale1 bad_streams 1 0) in *. set (b := scale2 bad_streams 1 0 2) in *. clearbody a b.
  set (K := a * b / R_sqrt.sqrt (INR 2) * / (2 * 10 ^ 17)).
  pose proof tiny_pos as TP.
  assert (KQ : 0 < a * b / R_sqrt.sqrt (INR 2) <= 100000).
  { split; [apply Rmult_lt_0_compat; [nra|apply Rinv_0_lt_compat; lra]|].
    apply Rle_trans with (100000 / R_sqrt.sqrt (INR 2)).
    - apply Rmult_le_compat_r; [apply Rlt_le, Rinv_0_lt_compat; lra|nra].
    - apply Rmult_le_reg_r with (R_sqrt.sqrt (INR 2)); [lra|]. unfold Rdiv. rewrite Rmult_assoc, Rinv_l by lra. lra. }
  assert (KP : 0 < K <= 100000 * / (2 * 10 ^ 17)).
  { unfold K. rewrite Rinv_mult. split; [apply Rmult_lt_0_compat; lra|]. apply Rmult_le_compat_r; lra. }
  set (g := vec 2 _).
  assert (G0 : (g : list (num RA)).[0] = 2 * K).
  { unfold g. rewrite vec_at by lia. cbn [normal bad_streams Nat.eqb]. lits. unfold K. field. repeat split; try lra. }
  assert (G1 : (g : list (num RA)).[1] = - K).
  { unfold g. rewrite vec_at by lia. cbn [normal bad_streams Nat.eqb]. lits. unfold K. field. repeat split; try lra. }
  rewrite transform_ok; [|exists 0%nat; split; [lia|rewrite G0; rlra]|exact S]. cbn [bind].
  set (c := Build_constraint RA _ _ _).
  exists K, (guarantee_feasible RA 2 c d11). split; [apply KP|]. split; [reflexivity|]. split.
  - unfold guarantee_feasible. destruct (FunModel.lt RA _ _); reflexivity.
  - intros Z. unfold guarantee_feasible. 
    assert (E : single_evaluate RA 2 c d11 = - K).
    { rewrite single_parts. cbn [total]. unfold term, c. cbn [cgradient cshift cnorm]. rewrite Z, G0, G1.
      change ((d11).[0]) with 1. change ((d11).[1]) with 1. unfold Rdiv. rewrite !Rmult_0_l. reals.
      replace (2 * K * (1 - 0)) with (2 * K) by ring. replace (- K * (1 - 0)) with (- K) by ring.
      rewrite (part_neg (- K)) by lra.
      replace (part (2 * K)) with 0; [ring|]. unfold part. destruct (Rlt_dec band (2 * K)) as [X|X].
      - exfalso. unfold band, dead_band in X. assert (2 * (100000 * / (2 * 10 ^ 17)) <= / 10 ^ 11) by lra. lra.
      - destruct (Rlt_dec (2 * K) 0); [lra|reflexivity]. }
    rewrite lt_dec, E, zero0. destruct (Rlt_dec 0 (- K)); [rlra|]. unfold c. cbn [cgradient]. split; assumption.
Qed.

Lemma bad_fails : cons_allocate RA Standard bad_streams 1 2 0 2 d11 = Err.
Proof.
  unfold cons_allocate. cbv zeta. change (2 / 2)%nat with 1%nat. change (2 + 1)%nat with 3%nat. change (3 - 1)%nat with 2%nat.
  change (Nat.eqb (0 mod 2) 0) with true. change (Nat.ltb 1 2 && true) with true. cbv iota.
  change (mul RA (lit RA 100 0) (FunModel.pow RA (lit RA 10 0) (uniform RA bad_streams (cons_seed 1 0 0) 0))) with (scale1 bad_streams 1 0).
  assert (D : exists i, (i < 2)%nat /\ (d11).[i] <> 0) by (exists 0%nat; split; [lia|change ((d11).[0]) with 1; rlra]).
  pose proof (special_made bad_streams 1 2 0 2 d11 bad_fair ltac:(lia) D 1 True) as P.
  destruct (linear_single RA bad_streams 1 2 0 1 (scale1 bad_streams 1 0) (Some _) (zero RA) d11) as [c1| |]; cbn [sound] in P; [|tauto|tauto].
  destruct P as (_ & Z1 & k & KP & G1). cbn [bind].
  destruct (bad_single 0 (Rle_refl 0)) as (K2 & c2 & KP2 & E2 & Z2 & G2). specialize (G2 eq_refl).
  set (shift := add RA (lit RA 1 2) (mul RA (lit RA 2 0) (1/2 : num RA))).
  assert (SP : 0 < shift) by (unfold shift; lits; lra).
  destruct (bad_single shift (Rlt_le _ _ SP)) as (K3 & c3 & KP3 & E3 & Z3 & _).
  unfold record_constraint at 1. rewrite Z1, shift_zero. cbn [active_made inactive_left calls1 calls2 combination first made length app].
  cbn [add_constraints]. unfold add_constraint at 1. cbv zeta. cbn [active_made inactive_left calls1 calls2 combination first made].
  change (Nat.ltb 1 2) with true. cbv iota. cbn [uniform bad_streams].
  match goal with |- context [true && ?b] => replace b with true end.
  2:{ rewrite lt_dec. lits. destruct (Rlt_dec _ _) as [H|H]; [reflexivity|]. exfalso. apply H. cbn [INR].
      assert (0 < 1 / 100000000000000000000000) by (apply Rmult_lt_0_compat; [lra|apply Rinv_0_lt_compat; lra]). lra. }
  cbn [andb]. change (Nat.eqb ((1 + 0) mod 2) 0) with false. cbv iota. rewrite zero0. change (0 : num RA) with (IZR 0). rewrite E2. cbn [bind].
  unfold record_constraint at 1. rewrite Z2, shift_zero. cbn [active_made inactive_left calls1 calls2 combination first made length app counted].
  unfold add_constraint at 1. cbv zeta. cbn [active_made inactive_left calls1 calls2 combination first made].
  change (Nat.ltb 2 2) with false. cbn [andb Nat.eqb]. cbv iota. change (Nat.leb 2 2) with true. cbv iota. cbn [uniform bad_streams].
  fold shift. rewrite E3. cbn [bind].
  unfold record_constraint at 1. rewrite Z3. replace (nonzero RA shift) with true by (symmetry; apply nonzero_true; rlra).
  cbn [active_made inactive_left calls1 calls2 combination first made length app counted].
  unfold disguise. cbn [first made nth_error combination calls2]. cbv zeta. rewrite product_prod, lt_dec, zero0.
  destruct (Rlt_dec _ 0) as [H|H]; [reflexivity|]. exfalso. apply H. unfold prod. cbn [total].
  rewrite !combination_at by lia. rewrite !zeros_at. rewrite (G1 0%nat), (G1 1%nat) by lia.
  destruct G2 as [G20 G21]. rewrite G20, G21. change ((d11).[0]) with 1. change ((d11).[1]) with 1. reals. nra.
Qed.

(** ** The sphere: points better than the optimum *)

Lemma sphere_value v fuel function n instance (q : real_inputs) p : (2 <= n)%nat -> (1 <= function <= 6)%nat ->
  get_cons_bbob_problem RA v fuel function n instance q = Ok p ->
  forall x, length x = n -> evaluate _ (objective _ p) x =
    10 * (total n (fun i => (coord x i - coord (location _ q) i - coord (xopt _ (drawn _ q)) i) ^ 2) + fopt _ (drawn _ q)).
Proof.
  intros N Fu E x L. unfold get_cons_bbob_problem in E. cbv zeta in E.
  assert (T : obj_function_type function = 1%nat).
  { unfold obj_function_type. symmetry. apply Nat.div_unique with (function - 1)%nat; lia. }
  rewrite T in E. unfold start in E.
  destruct (set_length RA _ _ n _) as [d| |]; cbn [bind] in E; try discriminate E.
  destruct (cons_allocate RA v _ function n instance _ d) as [cs| |]; cbn [bind] in E; try discriminate E.
  assert (Ep : p = c_scale RA (c_shift RA (stack RA n (function_of RA (sphere_cons RA n (drawn RA q))) cs d) (location RA q) false) (lit RA 10 0)) by congruence.
  clear E. subst p.
  assert (C : computes n (function_of RA (sphere_cons RA n (drawn RA q)))
     (fun z => squares_with n (fun _ => 1) (minus z (coord (xopt _ (drawn _ q)))) + fopt _ (drawn _ q))).
  { unfold sphere_cons. cbn [d_obj_shift d_shift function_of]. apply (computes_add n _ (fun z => squares_with n (fun _ => 1) (minus z (coord (xopt _ (drawn _ q)))))).
    apply (computes_shift n _ (squares_with n (fun _ => 1))); [apply (sphere_d n N)|reflexivity]. }
  destruct (fits_stack n _ _ cs d C) as [F1 _].
  destruct (fits_scale n cs _ _ _ (lit RA 10 0) (fits_shift n (location RA q) cs _ _ _ F1)) as (F2 & _).
  rewrite (computes_list n _ _ _ F2) by exact L. unfold squares_with, minus. lits.
  rewrite (total_ext n _ (fun i => (coord x i - coord (location RA q) i - coord (xopt RA (drawn RA q)) i) ^ 2)) by (intros; rring). rfield.
Qed.

Lemma sphere_better v fuel function n instance (q : real_inputs) p : (2 <= n)%nat -> (1 <= function <= 6)%nat -> sensible function n q ->
  get_cons_bbob_problem RA v fuel function n instance q = Ok p ->
  exists x, length x = n /\ feasible (constraints _ p x) /\ evaluate _ (objective _ p) x < best_value _ (objective _ p).
Proof.
  intros N Fu S E. pose proof (get_sound v fuel function n instance q N ltac:(lia) S) as G. rewrite E in G. cbn [sound] in G. destruct G as [G _].
  pose proof (sphere_value v fuel function n instance q p N Fu E) as V.
  destruct S as (L & _ & Lo & (i0 & I0 & NZ) & _).
  set (xo := location RA q) in *. set (o := xopt RA (drawn RA q)) in *.
  destruct (s_near _ _ _ _ _ G) as (delta & D & Near).
  set (B := total n (fun i => Rabs (coord o i))).
  assert (B0 : 0 <= B) by (apply total_nonneg; intros; apply Rabs_pos).
  set (e := Rmin 1 (delta / (1 + B))).
  assert (EP : 0 < e). { apply Rmin_pos; [lra|]. apply Rmult_lt_0_compat; [exact D|apply Rinv_0_lt_compat; lra]. }
  assert (E1 : e <= 1) by apply Rmin_l.
  set (x := vec n (fun i => coord xo i + e * coord o i)).
  assert (Lx : length x = n) by apply vec_length.
  assert (Xi : forall i, (i < n)%nat -> coord x i = coord xo i + e * coord o i).
  { intros i I. rewrite <- (coord_at x). unfold x. rewrite vec_at by exact I. reflexivity. }
  exists x. split; [exact Lx|]. split.
  - apply Near; [exact Lx|]. intros i I. rewrite Xi by exact I. replace (coord xo i + e * coord o i - coord xo i) with (e * coord o i) by ring.
    rewrite Rabs_mult, (Rabs_right e) by lra. assert (Rabs (coord o i) <= B).
    { apply (total_term n (fun i => Rabs (coord o i))); [exact I|]. intros; apply Rabs_pos. }
    apply Rle_trans with (delta / (1 + B) * (1 + B)).
    + apply Rmult_le_compat; try lra; [apply Rabs_pos|apply Rmin_r].
    + right. field. lra.
  - rewrite (s_value _ _ _ _ _ G), !V by assumption.
    apply Rmult_lt_compat_l; [lra|]. apply Rplus_lt_compat_r.
    rewrite (total_ext n _ (fun i => (1 - e) ^ 2 * coord o i ^ 2)) by (intros i I; rewrite Xi by exact I; ring).
    rewrite (total_ext n (fun i => (coord xo i - coord xo i - coord o i) ^ 2) (fun i => coord o i ^ 2)) by (intros; ring).
    rewrite total_scale. assert (P : 0 < total n (fun i => coord o i ^ 2)).
    { apply Rlt_le_trans with (coord o i0 ^ 2); [nra|]. apply (total_term n (fun i => coord o i ^ 2)); [exact I0|]. intros; nra. }
    assert (Q : (1 - e) ^ 2 < 1) by (clearbody e; nra).
    apply (Rmult_lt_compat_r _ _ _ P) in Q. rewrite Rmult_1_l in Q. exact Q.
Qed.
