(** C63: objectives, ideal and nadir point of the bi-objective problems, in exact arithmetic. *)

From Coq Require Import ZArith NArith List Bool Reals Lra Lia.
From Verif Require Import CBase FunModel FunSpec FunProofs FunOptima FunProps FunDocSpec FunDocProofs FunDocAll FunDocProps PairModel PairSpec PairProps StackModel StackSpec StackProofs.
Import ListNotations.
Local Open Scope R_scope.

(** A bi-objective problem evaluates the two functions of its number, each with the draws of its instance, and has the
    region of interest [-100, 100]. *)
Theorem C63_objectives : forall draws_of function n instance dims p,
  (2 <= n)%N -> get_biobj_problem real_arith draws_of function n instance dims = Ok p ->
  exists f1 f2 i1 i2,
    base_functions function = Ok (f1, f2) /\
    base_instances (check_inst_consistency real_arith draws_of) instance dims = Ok (i1, i2) /\
    objectives (N.to_nat n) p f1 (draws_of n f1 i1) f2 (draws_of n f2 i2) /\
    bi_smallest _ p = repeat (-100) (N.to_nat n) /\ bi_largest _ p = repeat 100 (N.to_nat n).
Proof.
  intros dr f n i ds p N E. destruct (biobj_inv dr f n i ds p E) as (f1 & f2 & i1 & i2 & p1 & p2 & EF & EI & E1 & E2 & EV & _ & _ & S1 & S2).
  exists f1, f2, i1, i2. repeat split; try assumption. intros x X. rewrite EV.
  rewrite <- (C59_definition (N.to_nat f1) (N.to_nat n) false _ p1 x ltac:(lia) X E1), <- (C59_definition (N.to_nat f2) (N.to_nat n) false _ p2 x ltac:(lia) X E2).
  reflexivity.
Qed.

(** The ideal point consists of the two optimal values and no point is below it; the two optima are in [-5, 5]^n, have
    the ideal value in their objective and the nadir value in the other, and every efficient point lies in the box
    between the two points.  For pairs with function 20 all of this holds up to 3e-15. *)
Theorem C63_points : forall draws_of function n instance dims p f1 f2 i1 i2,
  (2 <= n <= 64)%N -> get_biobj_problem real_arith draws_of function n instance dims = Ok p ->
  base_functions function = Ok (f1, f2) ->
  base_instances (check_inst_consistency real_arith draws_of) instance dims = Ok (i1, i2) ->
  plausible (N.to_nat n) (draws_of n f1 i1) -> plausible (N.to_nat n) (draws_of n f2 i2) ->
  let v1 := fopt _ (draws_of n f1 i1) in
  let v2 := fopt _ (draws_of n f2 i2) in
  v1 <= first (ideal_value _ p) <= v1 + slack f1 /\
  v2 <= second (ideal_value _ p) <= v2 + slack f2 /\
  (forall x, length x = N.to_nat n -> v1 <= first (bi_evaluate _ p x) /\ v2 <= second (bi_evaluate _ p x)) /\
  (exists x1, length x1 = N.to_nat n /\ within 5 x1 /\ first (bi_evaluate _ p x1) <= v1 + slack f1 /\
     second (bi_evaluate _ p x1) = second (nadir_value _ p)) /\
  (exists x2, length x2 = N.to_nat n /\ within 5 x2 /\ first (bi_evaluate _ p x2) = first (nadir_value _ p) /\
     second (bi_evaluate _ p x2) <= v2 + slack f2) /\
  (forall x, efficient (N.to_nat n) p x ->
     (first (bi_evaluate _ p x) <= first (nadir_value _ p) \/ second (bi_evaluate _ p x) < v2 + slack f2) /\
     (second (bi_evaluate _ p x) <= second (nadir_value _ p) \/ first (bi_evaluate _ p x) < v1 + slack f1)).
Proof.
  intros dr f n i ds p f1 f2 i1 i2 N E EF EI P1 P2 v1 v2.
  destruct (biobj_inv dr f n i ds p E) as (g1 & g2 & j1 & j2 & p1 & p2 & EF' & EI' & E1 & E2 & EV & ID & NA & _ & _).
  assert (g1 = f1) by congruence. assert (g2 = f2) by congruence. assert (j1 = i1) by congruence. assert (j2 = i2) by congruence. subst g1 g2 j1 j2.
  destruct (objective (N.to_nat n) f1 _ p1 ltac:(lia) P1 ltac:(intros; lia) E1) as (A1 & A2 & A3 & A4 & A5).
  destruct (objective (N.to_nat n) f2 _ p2 ltac:(lia) P2 ltac:(intros; lia) E2) as (B1 & B2 & B3 & B4 & B5).
  fold v1 in A3, A4, A5. fold v2 in B3, B4, B5. rewrite EV, ID, NA. unfold first, second. cbn [nth].
  split; [exact A4|]. split; [exact B4|]. split; [intros x X; split; [apply A5; exact X|apply B5; exact X]|].
  split; [exists (best_parameter _ p1); repeat split; try assumption; lra|].
  split; [exists (best_parameter _ p2); repeat split; try assumption; lra|].
  intros x (X & M). unfold dominates, first, second in M. rewrite EV in M. cbn [nth] in M. split.
  - destruct (Rle_lt_dec (evaluate _ p1 x) (evaluate _ p1 (best_parameter _ p2))) as [L|L]; [left; exact L|right].
    destruct (Rlt_le_dec (evaluate _ p2 x) (v2 + slack f2)) as [L2|L2]; [exact L2|exfalso].
    apply (M (best_parameter _ p2) B1). repeat split; [lra|apply Rle_trans with (v2 + slack f2); [apply B3|exact L2]|left; exact L].
  - destruct (Rle_lt_dec (evaluate _ p2 x) (evaluate _ p2 (best_parameter _ p1))) as [L|L]; [left; exact L|right].
    destruct (Rlt_le_dec (evaluate _ p1 x) (v1 + slack f1)) as [L2|L2]; [exact L2|exfalso].
    apply (M (best_parameter _ p1) A1). repeat split; [apply Rle_trans with (v1 + slack f1); [apply A3|exact L2]|lra|right; exact L].
Qed.

(** Without function 20 the efficient points lie exactly in the box. *)
Theorem C63_box : forall draws_of function n instance dims p f1 f2 i1 i2 x,
  (2 <= n <= 64)%N -> get_biobj_problem real_arith draws_of function n instance dims = Ok p ->
  base_functions function = Ok (f1, f2) ->
  base_instances (check_inst_consistency real_arith draws_of) instance dims = Ok (i1, i2) ->
  plausible (N.to_nat n) (draws_of n f1 i1) -> plausible (N.to_nat n) (draws_of n f2 i2) ->
  f1 <> 20%N -> f2 <> 20%N -> efficient (N.to_nat n) p x ->
  first (ideal_value _ p) <= first (bi_evaluate _ p x) <= first (nadir_value _ p) /\
  second (ideal_value _ p) <= second (bi_evaluate _ p x) <= second (nadir_value _ p).
Proof.
  intros dr f n i ds p f1 f2 i1 i2 x N E EF EI P1 P2 F1 F2 X.
  destruct (C63_points dr f n i ds p f1 f2 i1 i2 N E EF EI P1 P2) as (A & B & C & _ & _ & D).
  specialize (D x X). specialize (C x (proj1 X)).
  assert (S1 : slack f1 = 0) by (unfold slack; destruct (N.eqb_spec f1 20); [contradiction|reflexivity]).
  assert (S2 : slack f2 = 0) by (unfold slack; destruct (N.eqb_spec f2 20); [contradiction|reflexivity]).
  rewrite S1, S2 in *. lra.
Qed.

(** The instances that are not in the published table are chosen so that the ideal and the nadir point are at least 0.1
    apart, and the two optima at least 1e-4. *)
Theorem C63_apart : forall draws_of function n instance dims p f1 f2 i1 i2,
  (function < 2 ^ 64)%N -> (instance < 2 ^ 62)%N -> instance = 0%N \/ (15 < instance)%N -> (2 <= n)%N -> In n dims ->
  get_biobj_problem real_arith draws_of function n instance dims = Ok p ->
  base_functions function = Ok (f1, f2) ->
  base_instances (check_inst_consistency real_arith draws_of) instance dims = Ok (i1, i2) ->
  1 / 10 <= distance 2 (ideal_value _ p) (nadir_value _ p) /\
  exists p1 p2,
    get_bbob_problem real_arith (N.to_nat f1) (N.to_nat n) false (draws_of n f1 i1) = Some p1 /\
    get_bbob_problem real_arith (N.to_nat f2) (N.to_nat n) false (draws_of n f2 i2) = Some p2 /\
    1 / 10 ^ 4 <= distance (N.to_nat n) (best_parameter _ p1) (best_parameter _ p2).
Proof.
  intros dr f n i ds p f1 f2 i1 i2 F I NI N IN E EF EI.
  destruct (biobj_inv dr f n i ds p E) as (g1 & g2 & j1 & j2 & p1 & p2 & EF' & EI' & E1 & E2 & EV & ID & NA & _ & _).
  assert (g1 = f1) by congruence. assert (g2 = f2) by congruence. assert (j1 = i1) by congruence. assert (j2 = i2) by congruence. subst g1 g2 j1 j2.
  destruct (base_range dr f f1 f2 F EF) as (R1 & R2 & R3).
  apply (C56_new _ ds i I NI) in EI. destruct EI as (_ & _ & AC & _). destruct (AC n IN ltac:(lia)) as (AC1 & AC2).
  assert (TC : check_inst_consistency real_arith dr n f1 i1 f2 i2 = false).
  { destruct (N.eq_dec f1 f2) as [<-|NE]; [apply AC2; auto|apply AC1; lia]. }
  unfold check_inst_consistency, get_bbob in TC. rewrite E1, E2 in TC. cbv zeta in TC.
  destruct (lt real_arith (mo_get_norm _ (best_parameter _ p1) _ _) _) eqn:L1; [discriminate|].
  cbn [stacked_allocate ideal_value nadir_value bi_dimension] in TC, L1. rewrite norm_distance in TC, L1.
  assert (D1 : dimension _ p1 = N.to_nat n).
  { exact (proj1 (all_documented (N.to_nat n) ltac:(lia) _ _ _ _ E1)). }
  rewrite D1 in L1. rewrite ID, NA. split; [|exists p1, p2; split; [exact E1|split; [exact E2|]]].
  - apply Rnot_lt_le. intros H. unfold lt in TC; cbn in TC. destruct (Rlt_dec _ (1 / 10)) as [X|X] in TC; [discriminate|]. apply X, H.
  - apply Rnot_lt_le. intros H. unfold lt in L1; cbn in L1. destruct (Rlt_dec _ _) as [X|X] in L1; [discriminate|]. apply X. lra.
Qed.

(** ** Examples: the double sphere (function 1) with optima (1, -2) and (1, 3) *)
Definition pair_draws (n f i : N) : real_draws := {|
  xopt := if N.even i then [1; -2] : list (num real_arith) else [1; 3] : list (num real_arith);
  fopt := if N.even i then 7 else 9; rot1 := []; rot2 := [[1; 0]; [0; 1]];
  unif := []; gauss := []; condition_order := []; scale_order := []; locations := [] |}.

Lemma pair_plausible n f i : plausible 2 (pair_draws n f i).
Proof.
  unfold plausible, pair_draws, within. cbn [xopt rot2 locations].
  assert (O : orthonormal 2 [[1; 0]; [0; 1]]).
  { intros k j K J. destruct k as [|[|k]]; [..|lia]; destruct j as [|[|j]]; try lia; cbn; field. }
  destruct (N.even i); repeat split; try exact O; repeat constructor; lra.
Qed.

(** Instance 15 consists of the instances 31 and 34. *)
Example C63_example : exists p, get_biobj_problem real_arith pair_draws 1 2 15 [2%N] = Ok p /\
  ideal_value _ p = [9; 7] /\ bi_evaluate _ p [1; 3] = [9; 32] /\ bi_evaluate _ p [1; -2] = [34; 7] /\
  nadir_value _ p = [34; 32] /\ bi_evaluate _ p [0; 0] = [19; 12] /\ ~ efficient 2 p [0; 0] /\ efficient 2 p [1; 3].
Proof.
  assert (EF : base_functions 1 = Ok (1%N, 1%N)) by (vm_compute; reflexivity).
  assert (EI : base_instances (check_inst_consistency real_arith pair_draws) 15 [2%N] = Ok (31%N, 34%N)) by (apply C56_known; lia).
  assert (X : exists p, get_biobj_problem real_arith pair_draws 1 2 15 [2%N] = Ok p).
  { unfold get_biobj_problem. rewrite EF. cbn [bind]. rewrite EI. cbn [bind]. unfold get_bbob. change (N.to_nat 1) with 1%nat. cbn [get_bbob_problem].
    eexists. reflexivity. }
  destruct X as (p & E). exists p. split; [exact E|].
  assert (EV : forall a b, bi_evaluate _ p [a; b] = [(a - 1) ^ 2 + (b - 3) ^ 2 + 9; (a - 1) ^ 2 + (b + 2) ^ 2 + 7]).
  { intros a b. destruct (C63_objectives pair_draws 1 2 15 [2%N] p ltac:(lia) E) as (f1 & f2 & i1 & i2 & EF' & EI' & O & _).
    assert (f1 = 1%N) by congruence. assert (f2 = 1%N) by congruence. assert (i1 = 31%N) by congruence. assert (i2 = 34%N) by congruence. subst.
    rewrite (O [a; b] eq_refl). change (N.to_nat 1) with 1%nat. change (N.to_nat 2) with 2%nat. cbn [documented]. unfold squares, minus, coord. cbn [total pair_draws xopt fopt N.even nth]. repeat (apply f_equal2; [ring|]). reflexivity. }
  destruct (biobj_inv _ _ _ _ _ _ E) as (f1 & f2 & i1 & i2 & p1 & p2 & EF' & EI' & E1 & E2 & EV' & ID & NA & _ & _).
  assert (f1 = 1%N) by congruence. assert (f2 = 1%N) by congruence. assert (i1 = 31%N) by congruence. assert (i2 = 34%N) by congruence. subst.
  destruct (C49_optimum 1 2 false (pair_draws 2 1 31) p1 ltac:(lia) (pair_plausible _ _ _) ltac:(discriminate) ltac:(discriminate) E1) as ((A1 & A2 & A3 & A4 & A5) & A6).
  destruct (C49_optimum 1 2 false (pair_draws 2 1 34) p2 ltac:(lia) (pair_plausible _ _ _) ltac:(discriminate) ltac:(discriminate) E2) as ((B1 & B2 & B3 & B4 & B5) & B6).
  assert (X1 : best_parameter _ p1 = [1; 3]).
  { pose proof (A6 0%nat ltac:(lia)) as C0. pose proof (A6 1%nat ltac:(lia)) as C1. destruct (best_parameter _ p1) as [|u [|v [|w l]]]; try discriminate A1.
    unfold coord in C0, C1. cbn in C0, C1. rewrite C0, C1. reflexivity. }
  assert (X2 : best_parameter _ p2 = [1; -2]).
  { pose proof (B6 0%nat ltac:(lia)) as C0. pose proof (B6 1%nat ltac:(lia)) as C1. destruct (best_parameter _ p2) as [|u [|v [|w l]]]; try discriminate B1.
    unfold coord in C0, C1. cbn in C0, C1. rewrite C0, C1. reflexivity. }
  assert (V13 : bi_evaluate _ p [1; 3] = [9; 32]) by (rewrite EV; repeat (apply f_equal2; [ring|]); reflexivity).
  assert (V12 : bi_evaluate _ p [1; -2] = [34; 7]) by (rewrite EV; repeat (apply f_equal2; [ring|]); reflexivity).
  split; [rewrite ID, A4, B4; reflexivity|]. split; [exact V13|]. split; [exact V12|].
  split. { rewrite NA, X1, X2. rewrite EV' in V13, V12. apply (f_equal (fun l => nth 1 l 0)) in V13. apply (f_equal (fun l => nth 0 l 0)) in V12. cbn [nth] in V13, V12. rewrite V13, V12. reflexivity. }
  split; [rewrite EV; repeat (apply f_equal2; [ring|]); reflexivity|]. split.
  - intros (_ & M). apply (M [1; 0] eq_refl). unfold dominates, first, second. rewrite !EV. cbn [nth]. lra.
  - split; [reflexivity|]. intros x X (D1 & D2 & D3). destruct x as [|a [|b [|c l]]]; try discriminate X.
    rewrite V13, EV in D1, D2, D3. unfold first, second in D1, D2, D3. cbn [nth] in D1, D2, D3.
    pose proof (pow2_ge_0 (a - 1)) as Q1. pose proof (pow2_ge_0 (b - 3)) as Q2.
    assert (Z : (b - 3) ^ 2 = 0) by lra. assert (b = 3) by nra. subst b. lra.
Qed.

Print Assumptions C63_objectives.
Print Assumptions C63_points.
Print Assumptions C63_box.
Print Assumptions C63_apart.
