(** C68: the problems of the mixed-integer suite, in exact arithmetic.  C69: those of the bi-objective mixed-integer suite. *)

From Coq Require Import ZArith NArith List Bool Reals Lra Lia Permutation.
From Verif Require Import CBase FunModel FunSpec FunProofs FunOptima FunProps FunDocSpec FunDocProofs FunDocProps LargeModel LargeSpec LargeProofs LargeProps PairModel PairSpec PairProps StackModel StackSpec StackProofs MixFunModel MixFunSpec MixFunProofs.
Import ListNotations.
Local Open Scope R_scope.
Local Notation RA := real_arith.

(** A problem is delivered for the functions 1 to 24 and the multiples of five. *)
Theorem C68_delivered : forall function n (d : real_draws) (e : real_large),
  (exists p, get_mixint_problem real_arith function n d e = Ok p) <-> (1 <= function <= 24)%nat /\ (n mod 5 = 0)%nat.
Proof.
  intros f n d e. rewrite <- (mixed_delivered f n d e). unfold get_mixint_problem. destruct (overwritten_problem RA f n d e) as [q| |]; cbn [bind].
  - split; intros _; [exists q; reflexivity|eexists; reflexivity].
  - split; intros (p & E); discriminate.
  - split; intros (p & E); discriminate.
Qed.

Lemma mixint_inv f n (d : real_draws) (e : real_large) p : get_mixint_problem RA f n d e = Ok p ->
  exists q, overwritten_problem RA f n d e = Ok q /\ p = mixed RA 5 f n q.
Proof. unfold get_mixint_problem. destruct (overwritten_problem RA f n d e) as [q| |]; cbn [bind]; intros E; try discriminate. exists q. split; [reflexivity|congruence]. Qed.

(** The value at x is the factor times the value of the continuous function at the point where x is placed: the integer
    variables are rounded and limited to their values, which are equally spaced and such that the optimum of the
    continuous function is at the reported value, the one placed closest to it (up to 2e-7 of the spacing). *)
Theorem C68_definition : forall function n d e p,
  (5 <= n)%nat -> plausible_mixed function n d e -> get_mixint_problem real_arith function n d e = Ok p ->
  exists o, continuous_optimum function n d e o /\
    (forall i, (i < n)%nat -> values n i = 0%nat -> coord (best_parameter _ p) i = coord o i) /\
    (forall i k, (i < n)%nat -> (k < values n i)%nat ->
       Rabs (coord o i - place (values n i) (coord (best_parameter _ p) i)) <=
       Rabs (coord o i - place (values n i) (INR k)) + 2 / 10 ^ 7 * spacing (values n i)) /\
    forall x, length x = n ->
      evaluate _ p x =
      factor function *
        (continuous function n d e (placed n (coord o) (coord (best_parameter _ p)) (coord x)) + optimal_value n d e).
Proof.
  intros f n d e p N P E. destruct (mixint_inv f n d e p E) as (q & EQ & ->).
  destruct (mixed_facts 5 f n d e q N P EQ) as (o & CO & BE & EV & _). exists o. split; [exact CO|]. split; [|split; [|exact EV]].
  - intros i I V. rewrite BE by exact I. unfold best_of. rewrite V. reflexivity.
  - intros i k I K. rewrite BE by exact I. unfold best_of. destruct (values n i) as [|c] eqn:V; [lia|].
    apply closest; [exact (values_ge2 n i c V)|exact K].
Qed.

(** When a coordinate of the optimum is in [-4, 4], so are the places of all values of the variable. *)
Theorem C68_inside : forall function n d e p,
  (5 <= n)%nat -> plausible_mixed function n d e -> get_mixint_problem real_arith function n d e = Ok p ->
  exists o, continuous_optimum function n d e o /\
    forall x i, (i < n)%nat -> values n i <> 0%nat -> -4 <= coord o i <= 4 ->
      -4 <= placed n (coord o) (coord (best_parameter _ p)) (coord x) i <= 4.
Proof.
  intros f n d e p N P E. destruct (mixint_inv f n d e p E) as (q & EQ & ->).
  destruct (mixed_facts 5 f n d e q N P EQ) as (o & CO & BE & _). exists o. split; [exact CO|].
  intros x i I V O. unfold placed. rewrite BE by exact I. unfold best_of. destruct (values n i) as [|c] eqn:VE; [contradiction|].
  destruct (snap_value (S c) (coord x i) ltac:(lia)) as (k & K & ->). apply inside; [exact (values_ge2 n i c VE)|exact O|exact K].
Qed.

(** The reported point is in the domain and has the reported value, the factor times the optimal value of the continuous
    function, and no point has a smaller one (for function 20 up to 3e-16). *)
Theorem C68_optimum : forall function n d e p,
  (5 <= n)%nat -> plausible_mixed function n d e -> get_mixint_problem real_arith function n d e = Ok p ->
  mixed_optimum (tolerance function) n p (factor function * optimal_value n d e) /\
  mixed_region 5 n (smallest _ p) (largest _ p).
Proof.
  intros f n d e p N P E. destruct (mixint_inv f n d e p E) as (q & EQ & ->).
  destruct (mixed_facts 5 f n d e q N P EQ) as (o & _ & _ & _ & OPT & REG). split; assumption.
Qed.

(** Only the rounded and limited coordinates of the integer variables matter. *)
Theorem C68_rounding : forall function n d e p x y,
  (5 <= n)%nat -> plausible_mixed function n d e -> get_mixint_problem real_arith function n d e = Ok p ->
  length x = n -> length y = n ->
  (forall i, (i < n)%nat -> match values n i with
                            | O => coord x i = coord y i
                            | c => snap c (coord x i) = snap c (coord y i)
                            end) ->
  evaluate _ p x = evaluate _ p y.
Proof.
  intros f n d e p x y N P E X Y H. destruct (C68_definition f n d e p N P E) as (o & _ & _ & _ & EV). rewrite (EV x X), (EV y Y).
  assert (PE : placed n (coord o) (coord (best_parameter _ p)) (coord x) = placed n (coord o) (coord (best_parameter _ p)) (coord y)); [|rewrite PE; reflexivity].
  apply FunctionalExtensionality.functional_extensionality. intros i. unfold placed. destruct (Nat.lt_ge_cases i n) as [I|I].
  - specialize (H i I). destruct (values n i); [exact H|rewrite H; reflexivity].
  - assert (Ci : coord x i = coord y i) by (unfold coord; rewrite !nth_overflow by lia; reflexivity). rewrite Ci. reflexivity.
Qed.

(** ** The bi-objective suite *)

Section Biobj.
Variables (draws_of : N -> N -> N -> real_draws) (large_draws_of : N -> N -> N -> real_large).

Lemma biobj_mixint_inv function n instance dims p : get_biobj_mixint_problem RA draws_of large_draws_of function n instance dims = Ok p ->
  (n mod 5 = 0)%N /\ exists f1 f2 i1 i2 q1 q2,
    base_functions function = Ok (f1, f2) /\ base_instances (check_inst_consistency RA draws_of) instance dims = Ok (i1, i2) /\
    overwritten_problem RA (N.to_nat f1) (N.to_nat n) (draws_of n f1 i1) (large_draws_of n f1 i1) = Ok q1 /\
    overwritten_problem RA (N.to_nat f2) (N.to_nat n) (draws_of n f2 i2) (large_draws_of n f2 i2) = Ok q2 /\
    let p1 := mixed RA 100 (N.to_nat f1) (N.to_nat n) q1 in
    let p2 := mixed RA 100 (N.to_nat f2) (N.to_nat n) q2 in
    p = stacked_allocate RA p1 p2 (outer_smallest RA 100 (N.to_nat n)) (outer_largest RA 100 (N.to_nat n)).
Proof.
  unfold get_biobj_mixint_problem. destruct (N.eqb_spec (n mod 5) 0) as [M|M]; cbn [negb]; [|discriminate]. intros E. split; [exact M|].
  destruct (base_functions function) as [(f1, f2)| |] eqn:EF; cbn [bind] in E; try discriminate.
  destruct (base_instances _ instance dims) as [(i1, i2)| |] eqn:EI; cbn [bind] in E; try discriminate. cbv zeta in E.
  destruct (overwritten_problem RA (N.to_nat f1) _ _ _) as [q1| |] eqn:E1; cbn [bind] in E; try discriminate.
  destruct (overwritten_problem RA (N.to_nat f2) _ _ _) as [q2| |] eqn:E2; cbn [bind] in E; try discriminate.
  exists f1, f2, i1, i2, q1, q2. repeat split; try assumption. congruence.
Qed.

(** The objectives with their optima b1 and b2, the region of interest, the ideal point, and the nadir point: it consists of the values of each
    objective at the optimum of the other, no point is below the ideal point, and every efficient point lies in the box
    between the two (for pairs with function 20 up to 3e-16). *)
Theorem C69_points : forall function n instance dims p f1 f2 i1 i2,
  (5 <= n)%N -> get_biobj_mixint_problem RA draws_of large_draws_of function n instance dims = Ok p ->
  base_functions function = Ok (f1, f2) ->
  base_instances (check_inst_consistency RA draws_of) instance dims = Ok (i1, i2) ->
  let d1 := draws_of n f1 i1 in let e1 := large_draws_of n f1 i1 in
  let d2 := draws_of n f2 i2 in let e2 := large_draws_of n f2 i2 in
  let m := N.to_nat n in let g1 := N.to_nat f1 in let g2 := N.to_nat f2 in
  plausible_mixed g1 m d1 e1 -> plausible_mixed g2 m d2 e2 ->
  let v1 := factor g1 * optimal_value m d1 e1 in
  let v2 := factor g2 * optimal_value m d2 e2 in
  mixed_region 100 m (bi_smallest _ p) (bi_largest _ p) /\
  (exists b1 b2,
    bi_mixed m p g1 d1 e1 first b1 /\ bi_mixed m p g2 d2 e2 second b2 /\
    v1 <= first (bi_evaluate _ p b1) <= v1 + tolerance g1 /\ second (bi_evaluate _ p b1) = second (nadir_value _ p) /\
    v2 <= second (bi_evaluate _ p b2) <= v2 + tolerance g2 /\ first (bi_evaluate _ p b2) = first (nadir_value _ p)) /\
  v1 <= first (ideal_value _ p) <= v1 + tolerance g1 /\
  v2 <= second (ideal_value _ p) <= v2 + tolerance g2 /\
  (forall x, length x = m -> v1 <= first (bi_evaluate _ p x) /\ v2 <= second (bi_evaluate _ p x)) /\
  (forall x, efficient m p x ->
     (first (bi_evaluate _ p x) <= first (nadir_value _ p) \/ second (bi_evaluate _ p x) < v2 + tolerance g2) /\
     (second (bi_evaluate _ p x) <= second (nadir_value _ p) \/ first (bi_evaluate _ p x) < v1 + tolerance g1)).
Proof.
  intros f n i ds p f1 f2 i1 i2 N E EF EI d1 e1 d2 e2 m g1 g2 P1 P2 v1 v2.
  destruct (biobj_mixint_inv f n i ds p E) as (M & h1 & h2 & j1 & j2 & q1 & q2 & EF' & EI' & E1 & E2 & EP).
  assert (h1 = f1) by congruence. assert (h2 = f2) by congruence. assert (j1 = i1) by congruence. assert (j2 = i2) by congruence. subst h1 h2 j1 j2.
  fold m g1 g2 in E1, E2, EP. fold d1 e1 in E1. fold d2 e2 in E2. cbv zeta in EP.
  set (p1 := mixed RA 100 g1 m q1) in *. set (p2 := mixed RA 100 g2 m q2) in *.
  destruct (mixed_facts 100 g1 m d1 e1 q1 ltac:(unfold m; lia) P1 E1) as (o1 & CO1 & BE1 & EV1 & (A1 & A2 & A3 & A4) & REG).
  destruct (mixed_facts 100 g2 m d2 e2 q2 ltac:(unfold m; lia) P2 E2) as (o2 & CO2 & BE2 & EV2 & (B1 & B2 & B3 & B4) & _).
  fold p1 in EV1, A1, A2, A3, A4, REG. fold p2 in EV2, B1, B2, B3, B4. fold v1 in A2, A3, A4. fold v2 in B2, B3, B4.
  assert (M' : (m mod 5 = 0)%nat) by (unfold m; rewrite <- (Nat2N.id (N.to_nat n mod 5)), Nat2N.inj_mod, N2Nat.id; change (N.of_nat 5) with 5%N; rewrite M; reflexivity).
  rewrite EP. cbn [bi_smallest bi_largest bi_evaluate ideal_value nadir_value stacked_allocate]. unfold first, second. cbn [nth].
  split.
  { assert (L : length (outer_smallest RA 100 m) = m /\ length (outer_largest RA 100 m) = m) by (split; apply vec_length).
    split; [apply L|]. split; [apply L|]. intros k K. rewrite <- !coord_at, outer_low, outer_high by (try exact K; try exact M'; unfold m; lia). destruct (values m k); cbn [Nat.eqb]; split; reflexivity. }
  split.
  { exists (best_parameter _ p1), (best_parameter _ p2). split; [split; [exact A1|exists o1; split; [exact CO1|intros x X; cbn [bi_evaluate nth]; apply EV1; exact X]]|].
    split; [split; [exact B1|exists o2; split; [exact CO2|intros x X; cbn [bi_evaluate nth]; apply EV2; exact X]]|].
    split; [exact A2|]. split; [reflexivity|]. split; [exact B2|reflexivity]. }
  split; [exact A3|]. split; [exact B3|]. split; [intros x X; split; [apply A4; exact X|apply B4; exact X]|].
  intros x (X & NX). unfold dominates, first, second in NX. cbn [bi_evaluate stacked_allocate nth] in NX. split.
  - destruct (Rle_lt_dec (evaluate _ p1 x) (evaluate _ p1 (best_parameter _ p2))) as [L|L]; [left; exact L|right].
    destruct (Rlt_le_dec (evaluate _ p2 x) (v2 + tolerance g2)) as [L2|L2]; [exact L2|exfalso].
    apply (NX (best_parameter _ p2) (proj1 B1)). repeat split; [apply Rlt_le; exact L|apply Rle_trans with (v2 + tolerance g2); [apply B2|exact L2]|left; exact L].
  - destruct (Rle_lt_dec (evaluate _ p2 x) (evaluate _ p2 (best_parameter _ p1))) as [L|L]; [left; exact L|right].
    destruct (Rlt_le_dec (evaluate _ p1 x) (v1 + tolerance g1)) as [L2|L2]; [exact L2|exfalso].
    apply (NX (best_parameter _ p1) (proj1 A1)). repeat split; [apply Rle_trans with (v1 + tolerance g1); [apply A2|exact L2]|apply Rlt_le; exact L|right; exact L].
Qed.
End Biobj.

(** ** Examples *)

Lemma nearest_eq v z : IZR z - 1/2 <= v < IZR z + 1/2 -> nearest v = IZR z.
Proof. intros H. unfold nearest. f_equal. unfold Int_part. rewrite <- (up_tech (v + 1/2) z); [lia|lra|rewrite plus_IZR; lra]. Qed.
Lemma snap_eq c v k : (k < c)%nat -> IZR (Z.of_nat k) - 1/2 <= v < IZR (Z.of_nat k) + 1/2 -> snap c v = INR k.
Proof. intros K H. rewrite <- (snap_self c k K). unfold snap. rewrite (nearest_eq v (Z.of_nat k) H), (INR_IZR_INZ k), nearest_IZR. reflexivity. Qed.
Lemma snap_low c v : (1 <= c)%nat -> v < -1/2 -> snap c v = 0.
Proof.
  intros C H. unfold snap. destruct (nearest_bounds v) as (z & -> & B). assert (IZR z < 0) by lra.
  assert (1 <= INR c) by (change 1 with (INR 1); apply le_INR; exact C). rewrite Rmin_right, Rmax_left by lra. reflexivity.
Qed.

(** Five variables with 2, 4, 8, 16 values and a continuous one *)
Definition draws5 (x : list R) (v : R) : real_draws := {|
  xopt := x : list (num real_arith); fopt := v; rot1 := identity 5; rot2 := identity 5;
  unif := []; gauss := []; condition_order := []; scale_order := []; locations := [] |}.

Lemma identity_orthonormal n : orthonormal n (identity n).
Proof. exact (proj1 (proj2 (proj2 (C49_plausible_all n)))). Qed.

Lemma draws5_plausible f x v e : length x = 5%nat -> within 4 x -> plausible_mixed f 5 (draws5 x v) e.
Proof.
  intros L W. unfold plausible_mixed. cbn [Nat.ltb Nat.leb]. split; [|exact W]. unfold plausible. cbn [draws5 xopt rot2 locations].
  split; [exact L|]. split; [|split; [apply identity_orthonormal|constructor]].
  unfold within in *. eapply Forall_impl; [|exact W]. cbv beta. intros; lra.
Qed.

Lemma sphere5 half x v (e : real_large) : length x = 5%nat -> within 4 x ->
  exists q, overwritten_problem RA 1 5 (draws5 x v) e = Ok q /\
    (forall i, (i < 5)%nat -> coord (best_parameter _ (mixed RA half 1 5 q)) i = best_of 5 x i) /\
    forall y, length y = 5%nat ->
      evaluate _ (mixed RA half 1 5 q) y = total 5 (fun i => (placed 5 (coord x) (best_of 5 x) (coord y) i - coord x i) ^ 2) + v.
Proof.
  intros L W. eexists. split; [reflexivity|].
  destruct (mixed_facts half 1 5 (draws5 x v) e _ ltac:(lia) (draws5_plausible 1 x v e L W) eq_refl) as (o & (OL & CO) & BE & EV & _).
  assert (OX : forall i, (i < 5)%nat -> coord o i = coord x i) by (intros i I; exact (CO i I)).
  assert (B : forall i, (i < 5)%nat -> best_of 5 o i = best_of 5 x i) by (intros i I; unfold best_of; rewrite OX by exact I; reflexivity).
  split; [intros i I; rewrite BE by exact I; apply B; exact I|].
  intros y Y. rewrite (EV y Y). unfold factor, continuous, optimal_value. cbn [Nat.ltb Nat.leb documented]. unfold squares, minus. cbn [draws5 fopt xopt].
  rewrite Rmult_1_l. apply Rplus_eq_compat_r. apply total_ext. intros i I. f_equal. f_equal. unfold placed. rewrite BE, B, OX by exact I. reflexivity.
Qed.

Lemma best5 x i k : (i < 4)%nat -> (k < 2 * 2 ^ i)%nat ->
  IZR (Z.of_nat k) - 1/2 <= (coord x i + 4) / spacing (2 * 2 ^ i) - 1 + 1 / 10 ^ 7 < IZR (Z.of_nat k) + 1/2 -> best_of 5 x i = INR k.
Proof.
  intros I K H. unfold best_of. replace (values 5 i) with (2 * 2 ^ i)%nat by (do 4 (destruct i as [|i]; [reflexivity|]); lia).
  destruct (2 * 2 ^ i)%nat as [|c] eqn:E; [lia|]. assert (2 <= S c)%nat by (rewrite <- E; pose proof (Nat.pow_nonzero 2 i ltac:(lia)); lia).
  rewrite outer_xopt_snap by assumption. apply snap_eq; [exact K|]. exact H.
Qed.

(** The sphere with optimum (1, -2, 3, -3, 1/2): the values of the integer variables are 1, 0, 7 and 1.  With the first
    variable at 0 the point is 8/3 away.  Coordinates are rounded and limited. *)
Example C68_sphere : exists p, get_mixint_problem RA 1 5 (draws5 [1; -2; 3; -3; 1/2] 7) large3 = Ok p /\
  best_parameter _ p = [1; 0; 7; 1; 1/2] /\ mixed_optimum 0 5 p 7 /\
  evaluate _ p [1; 0; 7; 1; 1/2] = 7 /\ evaluate _ p [2/5; -3; 12; 4/3; 1/2] = (8/3) ^ 2 + 7.
Proof.
  set (x := [1; -2; 3; -3; 1/2]). assert (W : within 4 x) by (repeat constructor; lra).
  destruct (sphere5 5 x 7 large3 eq_refl W) as (q & E & BE & EV). exists (mixed RA 5 1 5 q).
  assert (G : get_mixint_problem RA 1 5 (draws5 x 7) large3 = Ok (mixed RA 5 1 5 q)) by (unfold get_mixint_problem; rewrite E; reflexivity).
  destruct (C68_optimum 1 5 (draws5 x 7) large3 _ ltac:(lia) (draws5_plausible 1 x 7 large3 eq_refl W) G) as (OPT & _).
  split; [exact G|]. set (p := mixed RA 5 1 5 q) in *.
  assert (S2 : spacing 2 = 8/3) by (unfold spacing; cbn [INR]; field). assert (S4 : spacing 4 = 8/5) by (unfold spacing; cbn [INR]; field).
  assert (S8 : spacing 8 = 8/9) by (unfold spacing; cbn [INR]; field). assert (S16 : spacing 16 = 8/17) by (unfold spacing; cbn [INR]; field).
  assert (T : 1 / 10 ^ 7 = 1 / 10000000) by field.
  assert (X0 : best_of 5 x 0 = 1) by (apply (best5 x 0 1); [lia|cbn; lia|]; change (2 * 2 ^ 0)%nat with 2%nat; rewrite S2, T; unfold coord, x; cbn [nth Z.of_nat Pos.of_succ_nat]; lra).
  assert (X1 : best_of 5 x 1 = 0) by (apply (best5 x 1 0); [lia|cbn; lia|]; change (2 * 2 ^ 1)%nat with 4%nat; rewrite S4, T; unfold coord, x; cbn [nth Z.of_nat]; lra).
  assert (X2 : best_of 5 x 2 = 7) by (rewrite (best5 x 2 7); [cbn [INR]; lra|lia|cbn; lia|]; change (2 * 2 ^ 2)%nat with 8%nat; rewrite S8, T; unfold coord, x; cbn [nth Z.of_nat Pos.of_succ_nat Pos.succ]; lra).
  assert (X3 : best_of 5 x 3 = 1) by (apply (best5 x 3 1); [lia|cbn; lia|]; change (2 * 2 ^ 3)%nat with 16%nat; rewrite S16, T; unfold coord, x; cbn [nth Z.of_nat Pos.of_succ_nat]; lra).
  assert (X4 : best_of 5 x 4 = 1/2) by reflexivity.
  assert (BP : best_parameter _ p = [1; 0; 7; 1; 1/2]).
  { destruct OPT as ((L & _) & _). pose proof (BE 0%nat ltac:(lia)) as B0. pose proof (BE 1%nat ltac:(lia)) as B1. pose proof (BE 2%nat ltac:(lia)) as B2. pose proof (BE 3%nat ltac:(lia)) as B3. pose proof (BE 4%nat ltac:(lia)) as B4.
    destruct (best_parameter _ p) as [|a [|b [|c [|d [|e [|g l]]]]]]; try discriminate L. unfold coord in B0, B1, B2, B3, B4. cbn [nth] in B0, B1, B2, B3, B4.
    rewrite B0, B1, B2, B3, B4, X0, X1, X2, X3, X4. reflexivity. }
  split; [exact BP|]. split.
  { replace 7 with (factor 1 * optimal_value 5 (draws5 x 7) large3) by (unfold optimal_value, factor; cbn [Nat.ltb Nat.leb draws5 fopt]; lra). exact OPT. }
  assert (EQ : forall a b c d e, evaluate _ p [a; b; c; d; e] = (8/3 * (snap 2 a - 1)) ^ 2 + (8/5 * snap 4 b) ^ 2 + (8/9 * (snap 8 c - 7)) ^ 2 + (8/17 * (snap 16 d - 1)) ^ 2 + (e - 1/2) ^ 2 + 7).
  { intros a b c d e. rewrite EV by reflexivity. cbn [total]. unfold placed. change (values 5 0) with 2%nat. change (values 5 1) with 4%nat. change (values 5 2) with 8%nat. change (values 5 3) with 16%nat. change (values 5 4) with 0%nat.
    cbv iota. rewrite X0, X1, X2, X3, S2, S4, S8, S16. unfold coord, x. cbn [nth]. change (@eq (num RA)) with (@eq R). ring. }
  assert (I7 : INR 7 = 7) by (cbn [INR]; lra).
  split; rewrite EQ.
  - rewrite (snap_eq 2 1 1), (snap_eq 4 0 0), (snap_eq 8 7 7), (snap_eq 16 1 1), I7 by (try lia; cbn; lra). cbn [INR]. lra.
  - rewrite (snap_eq 2 (2/5) 0), (snap_low 4 (-3)), (snap_eq 16 (4/3) 1) by (try lia; try (cbn; lra); lra).
    assert (SN : snap 8 12 = 7). { unfold snap. assert (E12 : nearest 12 = 12) by exact (nearest_IZR 12). rewrite E12. assert (E8 : INR 8 = 8) by (cbn [INR]; lra). rewrite E8, Rmin_left, Rmax_right by lra. lra. }
    rewrite SN. cbn [INR]. lra.
Qed.

(** Fifty variables, hence a function of the large-scale suite *)
Definition large50 : real_large := {|
  lxopt := fun _ => repeat 1 50 : list (num real_arith); lfopt := 7; sizes := repeat 1%nat 50;
  block := fun _ => repeat [1] 50; perm := fun _ => seq 0 50;
  lunif := repeat (1/4) 50; lgauss := []; alpha_order := seq 0 100; lambda_order := fun _ => seq 0 50 |}.
Lemma ones_orthonormal k : blocks_orthonormal (repeat 1%nat k) (repeat [1] k).
Proof.
  induction k as [|k IH]; [exact I|]. cbn [repeat blocks_orthonormal]. split; [|exact IH].
  intros i j I J. destruct i; [|lia]. destruct j; [|lia]. cbn. field.
Qed.
Lemma large50_plausible f d : f <> 22%nat -> plausible_mixed f 50 d large50.
Proof.
  intros F. unfold plausible_mixed. cbn [Nat.ltb Nat.leb]. split; [|split].
  - unfold plausible_large, permutation. cbn [large50 lxopt perm lambda_order sizes block lunif].
    split; [intros _; split; [reflexivity|apply Forall_forall; intros v V; apply repeat_spec in V; subst v; lra]|].
    split; [intros _; apply Permutation_refl|]. split; [intros _; apply Permutation_refl|].
    split; [apply Forall_forall; intros v V; apply repeat_spec in V; subst v; lia|]. split; [reflexivity|].
    split; [intros _; apply ones_orthonormal|]. apply Forall_forall; intros v V; apply repeat_spec in V; subst v; lra.
  - unfold plausible_order. do 21 (destruct f as [|f]; [exact I|]). destruct f as [|f]; [apply Permutation_refl|]. destruct f as [|f]; [lia|exact I].
  - cbn [large50 lxopt]. apply Forall_forall; intros v V; apply repeat_spec in V; subst v; lra.
Qed.
Example C68_large : exists p, get_mixint_problem RA 12 50 draws2 large50 = Ok p /\ mixed_optimum 0 50 p (7 / 10000).
Proof.
  destruct (proj2 (C68_delivered 12 50 draws2 large50) ltac:(split; [lia|reflexivity])) as (p & E). exists p. split; [exact E|].
  destruct (C68_optimum 12 50 draws2 large50 p ltac:(lia) (large50_plausible 12 draws2 ltac:(discriminate)) E) as (O & _).
  replace (7 / 10000) with (factor 12 * optimal_value 50 draws2 large50) by (unfold optimal_value, factor; cbn [Nat.ltb Nat.leb large50 lfopt]; lra). exact O.
Qed.

(** The instances are chosen such that the ideal and the nadir point of the continuous problems are not too close.  This
    does not carry over: the optima (1/2, ...) and (3/2, ...) of the two spheres are put at the same integer, so that the two
    points of the mixed-integer problem coincide. *)
Definition near_draws (n f i : N) : real_draws := if N.even i then draws5 [1/2; 0; 0; 0; 0] 7 else draws5 [3/2; 0; 0; 0; 0] 9.

Lemma same_best half x v y w (e : real_large) q1 q2 : length x = 5%nat -> within 4 x -> length y = 5%nat -> within 4 y ->
  (forall i, (i < 5)%nat -> best_of 5 x i = best_of 5 y i) ->
  overwritten_problem RA 1 5 (draws5 x v) e = Ok q1 -> overwritten_problem RA 1 5 (draws5 y w) e = Ok q2 ->
  best_parameter _ (mixed RA half 1 5 q1) = best_parameter _ (mixed RA half 1 5 q2) /\
  evaluate _ (mixed RA half 1 5 q1) (best_parameter _ (mixed RA half 1 5 q1)) = best_value _ (mixed RA half 1 5 q1) /\
  evaluate _ (mixed RA half 1 5 q2) (best_parameter _ (mixed RA half 1 5 q2)) = best_value _ (mixed RA half 1 5 q2).
Proof.
  intros LX WX LY WY B E1 E2.
  destruct (mixed_facts half 1 5 (draws5 x v) e q1 ltac:(lia) (draws5_plausible 1 x v e LX WX) E1) as (o1 & (OL1 & CO1) & BE1 & _ & ((L1 & _) & A1 & A2 & _) & _).
  destruct (mixed_facts half 1 5 (draws5 y w) e q2 ltac:(lia) (draws5_plausible 1 y w e LY WY) E2) as (o2 & (OL2 & CO2) & BE2 & _ & ((L2 & _) & B1 & B2 & _) & _).
  unfold tolerance in A1, A2, B1, B2. cbn [Nat.eqb] in A1, A2, B1, B2. split; [|split; [change (@eq (num RA)) with (@eq R); lra|change (@eq (num RA)) with (@eq R); lra]].
  rewrite <- (list_vec (best_parameter _ (mixed RA half 1 5 q1)) 5 L1), <- (list_vec (best_parameter _ (mixed RA half 1 5 q2)) 5 L2).
  apply vec_ext. intros i I. rewrite !coord_at, BE1, BE2 by exact I.
  replace (best_of 5 o1 i) with (best_of 5 x i) by (unfold best_of; rewrite (CO1 i I); reflexivity).
  replace (best_of 5 o2 i) with (best_of 5 y i) by (unfold best_of; rewrite (CO2 i I); reflexivity). apply B. exact I.
Qed.

Lemma near_check : check_inst_consistency RA near_draws 5 1 31 1 34 = false.
Proof.
  unfold check_inst_consistency, get_bbob.
  change (N.to_nat 1) with 1%nat. change (N.to_nat 5) with 5%nat.
  change (near_draws 5 1 31) with (draws5 [3/2; 0; 0; 0; 0] 9). change (near_draws 5 1 34) with (draws5 [1/2; 0; 0; 0; 0] 7).
  set (x := [3/2; 0; 0; 0; 0]). set (y := [1/2; 0; 0; 0; 0]).
  destruct (get_bbob_problem RA 1 5 false (draws5 x 9)) as [p1|] eqn:E1; [|discriminate E1].
  destruct (get_bbob_problem RA 1 5 false (draws5 y 7)) as [p2|] eqn:E2; [|discriminate E2].
  assert (PL : forall z v, length z = 5%nat -> within 4 z -> plausible 5 (draws5 z v)).
  { intros z v L W. exact (proj1 (draws5_plausible 1 z v large3 L W)). }
  assert (WX : within 4 x) by (repeat constructor; lra). assert (WY : within 4 y) by (repeat constructor; lra).
  destruct (C49_optimum 1 5 false _ p1 ltac:(lia) (PL x 9 eq_refl WX) ltac:(discriminate) ltac:(discriminate) E1) as ((A1 & _ & A3 & A4 & _) & A6).
  destruct (C49_optimum 1 5 false _ p2 ltac:(lia) (PL y 7 eq_refl WY) ltac:(discriminate) ltac:(discriminate) E2) as ((B1 & _ & B3 & B4 & _) & B6).
  assert (CA : forall i, (i < 5)%nat -> coord (best_parameter _ p1) i = coord x i) by (intros i I; exact (A6 i I)).
  assert (CB : forall i, (i < 5)%nat -> coord (best_parameter _ p2) i = coord y i) by (intros i I; exact (B6 i I)).
  assert (V1 : evaluate _ p1 (best_parameter _ p2) = 10).
  { rewrite (C59_definition 1 5 false (draws5 x 9) p1 _ ltac:(lia) B1 E1). cbn [documented]. unfold squares, minus. cbn [total draws5 xopt fopt].
    rewrite !CB by lia. unfold coord, x, y. cbn [nth]. change (@eq (num RA)) with (@eq R). lra. }
  assert (V2 : evaluate _ p2 (best_parameter _ p1) = 8).
  { rewrite (C59_definition 1 5 false (draws5 y 7) p2 _ ltac:(lia) A1 E2). cbn [documented]. unfold squares, minus. cbn [total draws5 xopt fopt].
    rewrite !CA by lia. unfold coord, x, y. cbn [nth]. change (@eq (num RA)) with (@eq R). lra. }
  cbv zeta. rewrite !norm_distance. cbn [stacked_allocate bi_dimension ideal_value nadir_value].
  assert (D1 : dimension _ p1 = 5%nat) by (exact (proj1 (FunDocAll.all_documented 5 ltac:(lia) _ 1 false p1 E1))).
  rewrite D1, V1, V2, A4, B4. rewrite !lt_dec.
  assert (S1 : 1 <= distance 5 (best_parameter _ p1) (best_parameter _ p2)).
  { unfold distance. rewrite <- sqrt_1 at 1. apply sqrt_le_1_alt. cbn [total]. rewrite !CA, !CB by lia. unfold coord, x, y. cbn [nth]. lra. }
  assert (S2 : 1 <= distance 2 [fopt _ (draws5 x 9); fopt _ (draws5 y 7)] [10; 8]).
  { unfold distance. rewrite <- sqrt_1 at 1. apply sqrt_le_1_alt. cbn [total draws5 fopt]. unfold coord. cbn [nth]. lra. }
  destruct (Rlt_dec _ (lit RA 1 4)) as [H|_]; [exfalso; revert H; lits; intros H; apply (Rlt_irrefl 1); eapply Rle_lt_trans; [exact S1|]; eapply Rlt_trans; [exact H|]; lra|].
  destruct (Rlt_dec _ (lit RA 1 1)) as [H|_]; [exfalso; revert H; lits; intros H; apply (Rlt_irrefl 1); eapply Rle_lt_trans; [exact S2|]; eapply Rlt_trans; [exact H|]; lra|].
  reflexivity.
Qed.

Theorem C69_apart_refuted : exists draws_of large_draws_of p i1 i2,
  base_functions 1 = Ok (1%N, 1%N) /\
  base_instances (check_inst_consistency RA draws_of) 15 [5%N] = Ok (i1, i2) /\
  plausible_mixed 1 5 (draws_of 5%N 1%N i1) (large_draws_of 5%N 1%N i1) /\
  plausible_mixed 1 5 (draws_of 5%N 1%N i2) (large_draws_of 5%N 1%N i2) /\
  check_inst_consistency RA draws_of 5 1 i1 1 i2 = false /\
  get_biobj_mixint_problem RA draws_of large_draws_of 1 5 15 [5%N] = Ok p /\
  ideal_value _ p = nadir_value _ p.
Proof.
  exists near_draws, (fun _ _ _ => large3).
  set (x := [3/2; 0; 0; 0; 0]). set (y := [1/2; 0; 0; 0; 0]).
  assert (WX : within 4 x) by (repeat constructor; lra). assert (WY : within 4 y) by (repeat constructor; lra).
  destruct (sphere5 100 x 9 large3 eq_refl WX) as (q1 & E1 & _). destruct (sphere5 100 y 7 large3 eq_refl WY) as (q2 & E2 & _).
  assert (EF : base_functions 1 = Ok (1%N, 1%N)) by (vm_compute; reflexivity).
  assert (EI : base_instances (check_inst_consistency RA near_draws) 15 [5%N] = Ok (31%N, 34%N)) by (apply C56_known; lia).
  eexists. exists 31%N, 34%N.
  split; [exact EF|]. split; [exact EI|].
  split; [apply (draws5_plausible 1 x 9); [reflexivity|exact WX]|]. split; [apply (draws5_plausible 1 y 7); [reflexivity|exact WY]|].
  split; [exact near_check|].
  assert (B : forall i, (i < 5)%nat -> best_of 5 x i = best_of 5 y i).
  { intros i I. destruct i as [|i]; [|unfold best_of; replace (coord x (S i)) with (coord y (S i)) by (do 4 (destruct i as [|i]; [reflexivity|]); lia); reflexivity].
    assert (S2 : spacing (2 * 2 ^ 0) = 8/3) by (unfold spacing; cbn; field). assert (T : 1 / 10 ^ 7 = 1 / 10000000) by field.
    transitivity (INR 1); [|symmetry]; apply best5; try lia; try (cbn; lia); rewrite S2, T; unfold coord, x, y; cbn [nth Z.of_nat Pos.of_succ_nat]; lra. }
  destruct (same_best 100 x 9 y 7 large3 q1 q2 eq_refl WX eq_refl WY B E1 E2) as (BB & V1 & V2).
  split.
  - unfold get_biobj_mixint_problem. change (N.eqb (N.modulo 5 5) 0) with true. cbn [negb]. rewrite EF. cbn [bind]. rewrite EI. cbn [bind]. cbv zeta.
    change (N.to_nat 1) with 1%nat. change (N.to_nat 5) with 5%nat. change (near_draws 5 1 31) with (draws5 x 9). change (near_draws 5 1 34) with (draws5 y 7).
    rewrite E1. cbn [bind]. rewrite E2. cbn [bind]. reflexivity.
  - cbn [stacked_allocate ideal_value nadir_value]. rewrite <- BB at 1. rewrite V1. rewrite BB, V2. reflexivity.
Qed.

Example C69_ideal : exists p, get_biobj_mixint_problem RA near_draws (fun _ _ _ => large3) 1 5 15 [5%N] = Ok p /\
  first (ideal_value _ p) = 9 /\ second (ideal_value _ p) = 7 /\
  forall x, length x = 5%nat -> 9 <= first (bi_evaluate _ p x) /\ 7 <= second (bi_evaluate _ p x).
Proof.
  set (x := [3/2; 0; 0; 0; 0]). set (y := [1/2; 0; 0; 0; 0]).
  assert (WX : within 4 x) by (repeat constructor; lra). assert (WY : within 4 y) by (repeat constructor; lra).
  destruct (sphere5 100 x 9 large3 eq_refl WX) as (q1 & E1 & _). destruct (sphere5 100 y 7 large3 eq_refl WY) as (q2 & E2 & _).
  assert (EF : base_functions 1 = Ok (1%N, 1%N)) by (vm_compute; reflexivity).
  assert (EI : base_instances (check_inst_consistency RA near_draws) 15 [5%N] = Ok (31%N, 34%N)) by (apply C56_known; lia).
  assert (X : exists p, get_biobj_mixint_problem RA near_draws (fun _ _ _ => large3) 1 5 15 [5%N] = Ok p).
  { unfold get_biobj_mixint_problem. change (N.eqb (N.modulo 5 5) 0) with true. cbn [negb]. rewrite EF. cbn [bind]. rewrite EI. cbn [bind]. cbv zeta.
    change (N.to_nat 1) with 1%nat. change (N.to_nat 5) with 5%nat. change (near_draws 5 1 31) with (draws5 x 9). change (near_draws 5 1 34) with (draws5 y 7).
    rewrite E1. cbn [bind]. rewrite E2. cbn [bind]. eexists. reflexivity. }
  destruct X as (p & E). exists p. split; [exact E|].
  destruct (C69_points near_draws (fun _ _ _ => large3) 1 5 15 [5%N] p 1 1 31 34 ltac:(lia) E EF EI
    (draws5_plausible 1 x 9 large3 eq_refl WX) (draws5_plausible 1 y 7 large3 eq_refl WY)) as (_ & _ & I1 & I2 & LB & _).
  unfold tolerance, optimal_value in *. change (N.to_nat 1) with 1%nat in *. change (N.to_nat 5) with 5%nat in *. cbn [factor Nat.eqb Nat.ltb Nat.leb near_draws N.even draws5 fopt] in *.
  split; [lra|]. split; [lra|]. intros z Z. specialize (LB z Z). lra.
Qed.

Print Assumptions C68_delivered.
Print Assumptions C68_definition.
Print Assumptions C68_inside.
Print Assumptions C68_optimum.
Print Assumptions C68_rounding.
Print Assumptions C69_points.
Print Assumptions C69_apart_refuted.
