From Coq Require Import ZArith NArith List Bool Reals Lra Lia.
From Verif Require Import CBase FunModel FunSpec FunProofs FunOptima FunOptima2 FunOptima3 FunOptima4 FunProps FunDocSpec FunDocProofs FunDocProps PairModel PairSpec PairProps StackModel StackSpec.
Import ListNotations.
Local Open Scope R_scope.

Lemma slack_pos f : 0 <= slack f.
Proof. unfold slack. destruct (N.eqb f 20); lra. Qed.

(** The optimum of one objective up to the slack *)
Lemma objective n (f : N) (d : real_draws) p : (2 <= n)%nat -> plausible n d -> (f = 19%N -> (n <= 64)%nat) ->
  get_bbob_problem real_arith (N.to_nat f) n false d = Some p -> near_optimum (slack f) n p (fopt _ d).
Proof.
  intros N P F E. unfold slack. destruct (N.eqb_spec f 20) as [->|NE].
  - apply (C49_schwefel n false d p N E).
  - destruct (C49_optimum (N.to_nat f) n false d p N P ltac:(lia) ltac:(intros; apply F; lia) E) as ((H1 & H2 & H3 & H4 & H5) & _).
    unfold near_optimum. repeat split; try assumption; lra.
Qed.

Lemma norm_distance n x y : mo_get_norm real_arith x y n = distance n x y.
Proof.
  unfold mo_get_norm, distance. change (FunModel.sqrt real_arith) with R_sqrt.sqrt. f_equal. rewrite zero0.
  transitivity (0 + total n (fun i => (coord x i - coord y i) ^ 2)); [|apply Rplus_0_l]. rewrite <- loop_total. apply loop_ext. intros i t I.
  change (add real_arith) with Rplus. change (sub real_arith) with Rminus. change (pow real_arith) with real_pow.
  replace (lit real_arith 2 0) with 2 by (lits; field). rewrite pow_2, !FunDocProofs.coord_at. apply Rplus_eq_compat_l. ring.
Qed.

Section Problem.
Variable draws_of : N -> N -> N -> real_draws.

Lemma biobj_inv function n instance dims p : get_biobj_problem real_arith draws_of function n instance dims = Ok p ->
  exists f1 f2 i1 i2 p1 p2,
    base_functions function = Ok (f1, f2) /\ base_instances (check_inst_consistency real_arith draws_of) instance dims = Ok (i1, i2) /\
    get_bbob_problem real_arith (N.to_nat f1) (N.to_nat n) false (draws_of n f1 i1) = Some p1 /\
    get_bbob_problem real_arith (N.to_nat f2) (N.to_nat n) false (draws_of n f2 i2) = Some p2 /\
    bi_evaluate _ p = (fun x => [evaluate _ p1 x; evaluate _ p2 x]) /\
    ideal_value _ p = [best_value _ p1; best_value _ p2] /\
    nadir_value _ p = [evaluate _ p1 (best_parameter _ p2); evaluate _ p2 (best_parameter _ p1)] /\
    bi_smallest _ p = repeat (-100) (N.to_nat n) /\ bi_largest _ p = repeat 100 (N.to_nat n).
Proof.
  unfold get_biobj_problem. intros E. destruct (base_functions function) as [(f1, f2)| |] eqn:EF; cbn [bind] in E; try discriminate.
  destruct (base_instances _ instance dims) as [(i1, i2)| |] eqn:EI; cbn [bind] in E; try discriminate.
  destruct (get_bbob real_arith draws_of n f1 i1) as [p1|] eqn:E1; [|discriminate].
  destruct (get_bbob real_arith draws_of n f2 i2) as [p2|] eqn:E2; [|discriminate].
  exists f1, f2, i1, i2, p1, p2. assert (X : p = stacked_allocate real_arith p1 p2 (repeat (lit real_arith (-100) 0) (N.to_nat n)) (repeat (lit real_arith 100 0) (N.to_nat n))) by congruence.
  rewrite X. repeat split; try assumption; cbn [bi_smallest bi_largest stacked_allocate]; f_equal; lits; field.
Qed.

(** The two functions are among the 24, in order. *)
Lemma base_range function f1 f2 : (function < 2 ^ 64)%N -> base_functions function = Ok (f1, f2) ->
  (1 <= f1 <= f2)%N /\ (f2 <= 24)%N /\ (f1 = f2 -> selected f1).
Proof.
  intros B E. destruct (C44_pairs function) as (H1 & H2 & H3).
  destruct (N.ltb_spec function 1) as [L|L].
  { rewrite H3 in E by lia. discriminate. }
  destruct (N.ltb_spec 92 function) as [G|G].
  { rewrite H3 in E by lia. discriminate. }
  destruct (N.leb_spec function 55) as [S|S].
  - destruct (H1 ltac:(lia)) as (i & j & ((IJ & J) & _) & E2). rewrite E2 in E.
    assert (X1 : f1 = nth i selected_functions 0%N) by congruence. assert (X2 : f2 = nth j selected_functions 0%N) by congruence.
    rewrite X1, X2. clear -IJ J. unfold selected.
    do 10 (destruct j as [|j]; [do 11 (destruct i as [|i]; [cbn; repeat split; try lia; intros _; tauto|]); lia|]). lia.
  - destruct (H2 ltac:(lia)) as (a & b & E2 & ((X1 & X2) & X3 & _)). rewrite E2 in E.
    assert (f1 = a) by congruence. assert (f2 = b) by congruence. subst. repeat split; try lia.
Qed.
End Problem.
