(** C64: the boxed suite, C65: the toy suite, in exact arithmetic. *)

From Coq Require Import ZArith List Bool Reals Lra Lia.
From Verif Require Import FunModel FunSpec FunProofs FunOptima FunOptima2 FunProps FunDocSpec FunDocProofs FunDocAll FunDocProps BoxModel BoxSpec.
Import ListNotations.
Local Open Scope R_scope.

Lemma repeat_nth (v : R) n i : (i < n)%nat -> nth i (repeat v n) 0 = v.
Proof. revert i. induction n; intros [|i] I; cbn; try lia; [reflexivity|]. apply IHn. lia. Qed.

Lemma violated_spec n p x m : box n p -> (m <= n)%nat ->
  violated real_arith m p x = true <-> exists i, (i < m)%nat /\ ~ -5 <= coord x i <= 5.
Proof.
  intros (S1 & S2). induction m as [|m IH]; intros M; [split; [discriminate|intros (i & I & _); lia]|].
  cbn [violated]. rewrite !orb_true_iff, IH by lia. rewrite S1, S2. unfold at_.
  replace (lit real_arith (-5) 0) with (-5) by (lits; field). replace (lit real_arith 5 0) with 5 by (lits; field). rewrite zero0, !repeat_nth by lia.
  change (lt real_arith) with (fun a b => if Rlt_dec a b then true else false). cbv beta. change (nth m x 0) with (coord x m).
  destruct (Rlt_dec (coord x m) (-5)) as [A|A], (Rlt_dec 5 (coord x m)) as [B|B].
  1-3: split; [intros _; exists m; split; [lia|lra]|intros _; auto].
  split.
  - intros [[(i & I & H)|H]|H]; [exists i; split; [lia|exact H]|discriminate|discriminate].
  - intros (i & I & H). left. left. destruct (Nat.eq_dec i m) as [->|NE]; [lra|]. exists i. split; [lia|exact H].
Qed.

Theorem C64_delivered : forall function n (d : real_draws),
  (exists b, get_boxed_problem real_arith function n d = Some b) <-> (1 <= function <= 24)%nat.
Proof.
  intros f n d. rewrite <- (C49_delivered f n true d). unfold get_boxed_problem. destruct (get_bbob_problem real_arith f n true d) as [p|].
  - split; intros _; eexists; reflexivity.
  - split; intros (p & E); discriminate E.
Qed.

(** Outside of [-5, 5] the value is infinite. *)
Theorem C64_outside : forall function n (d : real_draws) p value x,
  (2 <= n)%nat -> get_boxed_problem real_arith function n d = Some (p, value) -> length x = n ->
  (value x = Infinite <-> ~ within 5 x).
Proof.
  intros f n d p value x N E X. unfold get_boxed_problem in E. destruct (get_bbob_problem real_arith f n true d) as [q|] eqn:EQ; [|discriminate].
  assert (q = p) by congruence. subst q. assert (V : value = enforce_box_evaluate real_arith p) by congruence. rewrite V.
  destruct (all_documented n N d f true p EQ) as (D & BX & _). unfold enforce_box_evaluate. rewrite no_nan, D.
  pose proof (violated_spec n p x n BX ltac:(lia)) as VS.
  assert (W : (exists i, (i < n)%nat /\ ~ -5 <= coord x i <= 5) <-> ~ within 5 x).
  { unfold within. rewrite Forall_forall. split.
    - intros (i & I & H) F. apply H, F. unfold coord. apply nth_In. exact (eq_ind_r (fun k => (i < k)%nat) I X).
    - intros H. apply Classical_Prop.NNPP. intros NE. apply H. intros v IV. destruct (In_nth x v 0 IV) as (i & I & <-).
      apply Classical_Prop.NNPP. intros C. apply NE. exists i. split; [exact (eq_ind _ (fun k => (i < k)%nat) I _ X)|exact C]. }
  rewrite <- W, <- VS. destruct (violated real_arith n p x) eqn:EV; [split; reflexivity|].
  split; intros H; [|discriminate H]. destruct (le real_arith _ _) in H; discriminate H.
Qed.

(** Inside, the value is the one of the published function, and the assertion that it is not below the best value holds. *)
Theorem C64_inside : forall function n (d : real_draws) p value x,
  (2 <= n)%nat -> plausible n d -> (function = 19%nat -> (n <= 64)%nat) ->
  get_boxed_problem real_arith function n d = Some (p, value) -> length x = n -> within 5 x ->
  value x = @Number real_arith (documented n function true d (coord x) + fopt _ d).
Proof.
  intros f n d p value x N P F E X W. pose proof (C64_outside f n d p value x N E X) as OUT.
  unfold get_boxed_problem in E. destruct (get_bbob_problem real_arith f n true d) as [q|] eqn:EQ; [|discriminate].
  assert (q = p) by congruence. subst q. assert (V : value = enforce_box_evaluate real_arith p) by congruence. rewrite V in *.
  assert (B : best_value _ p <= evaluate _ p x + 1 / 10000000000000).
  { destruct (Nat.eq_dec f 20) as [->|NE].
    - destruct (C49_schwefel n true d p N EQ) as ((_ & _ & _ & H & H2) & _). specialize (H2 x X). lra.
    - destruct (C49_optimum f n true d p N P NE F EQ) as ((_ & _ & _ & H & H2) & _). specialize (H2 x X). lra. }
  rewrite <- (C59_definition f n true d p x N X EQ). unfold enforce_box_evaluate in *. rewrite no_nan in *.
  destruct (violated real_arith (dimension _ p) p x).
  - exfalso. apply OUT; [reflexivity|exact W].
  - change (le real_arith) with (fun a b => if Rle_dec a b then true else false). cbv beta. destruct (Rle_dec _ _) as [Y|Y]; [reflexivity|].
    exfalso. apply Y. exact B.
Qed.

(** The reported point is inside and no value is below the optimal one. *)
Theorem C64_optimum : forall function n (d : real_draws) p value,
  (2 <= n)%nat -> plausible n d -> function <> 20%nat -> (function = 19%nat -> (n <= 64)%nat) ->
  get_boxed_problem real_arith function n d = Some (p, value) ->
  length (best_parameter _ p) = n /\ within 5 (best_parameter _ p) /\ best_value _ p = fopt _ d /\
  value (best_parameter _ p) = @Number real_arith (fopt _ d) /\
  forall x v, length x = n -> value x = @Number real_arith v -> fopt _ d <= v.
Proof.
  intros f n d p value N P F20 F E. pose proof E as E0.
  unfold get_boxed_problem in E. destruct (get_bbob_problem real_arith f n true d) as [q|] eqn:EQ; [|discriminate].
  assert (q = p) by congruence. subst q.
  destruct (C49_optimum f n true d p N P F20 F EQ) as ((H1 & H2 & H3 & H4 & H5) & _). repeat split; try assumption.
  - rewrite (C64_inside f n d p value _ N P F E0 H1 H2), <- (C59_definition f n true d p _ N H1 EQ), H3. reflexivity.
  - intros x v X VX.
    assert (W : within 5 x).
    { apply Classical_Prop.NNPP. intros NW. apply (C64_outside f n d p value x N E0 X) in NW. rewrite NW in VX. discriminate VX. }
    rewrite (C64_inside f n d p value x N P F E0 X W), <- (C59_definition f n true d p x N X EQ) in VX.
    assert (VE : v = evaluate _ p x) by congruence. rewrite VE. apply H5. exact X.
Qed.

Example C64_example : exists p value, get_boxed_problem real_arith 1 2 draws2 = Some (p, value) /\
  value [0; 0] = @Number real_arith 12 /\ value [0; 6] = Infinite /\ value [5; -5] = @Number real_arith 32 /\ value (best_parameter _ p) = @Number real_arith 7.
Proof.
  destruct (proj2 (C64_delivered 1 2 draws2) ltac:(lia)) as ((p, value) & E). exists p, value. split; [exact E|].
  assert (V : forall a b, -5 <= a <= 5 -> -5 <= b <= 5 -> value [a; b] = @Number real_arith ((a - 1) ^ 2 + (b + 2) ^ 2 + 7)).
  { intros a b A B. rewrite (C64_inside 1 2 draws2 p value [a; b] ltac:(lia) C49_plausible ltac:(discriminate) E eq_refl).
    - f_equal. cbn [documented]. unfold squares, minus, coord. cbn [total draws2 xopt fopt nth].
      change (0 + (a - 1) ^ 2 + (b - -2) ^ 2 + 7 = (a - 1) ^ 2 + (b + 2) ^ 2 + 7). ring.
    - constructor; [lra|]. constructor; [lra|]. constructor. }
  split; [rewrite V by lra; f_equal; change ((0 - 1) ^ 2 + (0 + 2) ^ 2 + 7 = 12); ring|].
  split; [apply (C64_outside 1 2 draws2 p value [0; 6] ltac:(lia) E eq_refl); intros W; inversion W as [|? ? _ W2]; inversion W2; lra|].
  split; [rewrite V by lra; f_equal; change ((5 - 1) ^ 2 + (-5 + 2) ^ 2 + 7 = 32); ring|].
  apply (C64_optimum 1 2 draws2 p value ltac:(lia) C49_plausible ltac:(discriminate) ltac:(discriminate) E).
Qed.

(** ** The toy suite *)
Theorem C65_delivered : forall function n,
  (exists p, get_toy_problem real_arith function n = Some p) <-> (1 <= function <= 6)%nat.
Proof.
  intros f n. do 7 (destruct f as [|f]; [cbn [get_toy_problem]; split; [intros (p & E); try discriminate E; lia|intros H; try lia; eexists; reflexivity]|]).
  cbn [get_toy_problem]. split; [intros (p & E); discriminate E|lia].
Qed.

Lemma toy_corner n i : (i < n)%nat -> (n <= 40)%nat -> at_ real_arith (linear_slope_best real_arith n (toy_xopt real_arith)) i = 5.
Proof.
  intros I N. unfold linear_slope_best. rewrite vec_at by exact I.
  assert (X : 0 <= at_ real_arith (toy_xopt real_arith) i).
  { unfold at_, toy_xopt. destruct i as [|i]; cbn [nth]; [lits; lra|]. rewrite zero0, repeat_nth by lia. lra. }
  rewrite lt_dec. rewrite zero0. destruct (Rlt_dec _ 0) as [L|L]; [exfalso; lra|lits; field].
Qed.

(** The toy functions in closed form; their optimum 0 is at the origin, at (5, ..., 5) and at (1, ..., 1). *)
Theorem C65_definition : forall function n p x,
  (2 <= n <= 40)%nat -> get_toy_problem real_arith function n = Some p -> length x = n ->
  evaluate _ p x = toy_documented n function (coord x).
Proof.
  intros f n p x N E X. apply (computes_list n p (toy_documented n f) x); [|exact X].
  destruct f as [|[|[|[|[|[|[|f]]]]]]]; cbn [get_toy_problem] in E; try discriminate E;
    match type of E with Some ?q = _ => assert (Q : p = q) by congruence end; rewrite Q.
  - apply computes_alloc. intros z. apply sphere_doc; lia.
  - apply computes_alloc. intros z. apply ellipsoid_doc. lia.
  - apply computes_alloc. intros z. apply rastrigin_doc; lia.
  - apply computes_alloc. intros z. apply bueche_doc; lia.
  - apply computes_value, computes_best, computes_alloc. intros z.
    apply (slope_doc n ltac:(lia) _ (fun _ => 5)). intros i I. split; [apply toy_corner; lia|left; reflexivity].
  - apply computes_alloc. intros z. apply rosenbrock_doc; lia.
Qed.

Theorem C65_optimum : forall function n p,
  (2 <= n <= 40)%nat -> get_toy_problem real_arith function n = Some p ->
  optimum n p 0 /\ forall i, (i < n)%nat -> coord (best_parameter _ p) i = toy_optimum function.
Proof.
  intros f n p N E.
  assert (K : forall b, st n p 0 b -> (forall i, (i < n)%nat -> b i = toy_optimum f) ->
    optimum n p 0 /\ forall i, (i < n)%nat -> coord (best_parameter _ p) i = toy_optimum f).
  { intros b S B. split.
    - apply (st_optimum n p 0 b S). intros i I. rewrite B by exact I. unfold toy_optimum. destruct f as [|[|[|[|[|[|[|f]]]]]]]; lra.
    - intros i I. rewrite <- (B i I), <- (proj2 (proj2 (proj2 S)) i I). symmetry. apply FunDocProofs.coord_at. }
  destruct f as [|[|[|[|[|[|[|f]]]]]]]; cbn [get_toy_problem] in E; try discriminate E;
    match type of E with Some ?q = _ => assert (Q : p = q) by congruence end; rewrite Q in *; clear Q E.
  1-4: apply (K (fun _ => 0)); [rewrite zero0; apply st_alloc|reflexivity].
  - apply sphere_zero; lia.
  - intros x X. apply sphere_nonneg; lia.
  - apply ellipsoid_zero. lia.
  - intros x X. apply ellipsoid_nonneg. lits. lra.
  - apply rastrigin_zero; lia.
  - intros x X. apply rastrigin_nonneg; lia.
  - apply bueche_zero; lia.
  - intros x X. apply bueche_nonneg; lia.
  - assert (F : forall i, (i < n)%nat -> at_ real_arith (linear_slope_best real_arith n (toy_xopt real_arith)) i = 5 \/ at_ real_arith (linear_slope_best real_arith n (toy_xopt real_arith)) i = -5).
    { intros i I. left. apply toy_corner; lia. }
    apply (K (at_ real_arith (linear_slope_best real_arith n (toy_xopt real_arith)))); [|intros i I; apply toy_corner; lia].
    apply (st_given n (linear_slope_raw real_arith n (linear_slope_best real_arith n (toy_xopt real_arith)))).
    + apply vec_length.
    + apply slope_zero; exact F.
    + intros y Y. apply slope_nonneg; exact F.
  - apply (K (fun _ => 1)); [|reflexivity]. replace (lit real_arith 1 0) with 1 by (lits; field). apply st_alloc.
    + apply rosenbrock_one; lia.
    + intros x X. apply rosenbrock_nonneg; lia.
Qed.

Example C65_example : exists p, get_toy_problem real_arith 6 3 = Some p /\ evaluate _ p [0; 1; 2] = 201 /\ optimum 3 p 0.
Proof.
  destruct (proj2 (C65_delivered 6 3) ltac:(lia)) as (p & E). exists p. split; [exact E|]. split; [|apply (C65_optimum 6 3 p ltac:(lia) E)].
  rewrite (C65_definition 6 3 p [0; 1; 2] ltac:(lia) E eq_refl). cbn [toy_documented]. unfold rosenbrock, coord. cbn [total Nat.sub nth].
  change (0 + (100 * (0 ^ 2 - 1) ^ 2 + (0 - 1) ^ 2) + (100 * (1 ^ 2 - 2) ^ 2 + (1 - 1) ^ 2) = 201). ring.
Qed.

Print Assumptions C64_delivered.
Print Assumptions C64_outside.
Print Assumptions C64_inside.
Print Assumptions C64_optimum.
Print Assumptions C65_delivered.
Print Assumptions C65_definition.
Print Assumptions C65_optimum.
