(** C59: evaluating one of the 24 noiseless functions gives the value of its published definition, in exact arithmetic. *)

From Coq Require Import ZArith List Bool Reals Lra Lia.
From Verif Require Import FunModel FunSpec FunProofs FunOptima FunOptima2 FunProps FunDocSpec FunDocProofs FunDocProofs2 FunDocAll.
Import ListNotations.
Local Open Scope R_scope.

Theorem C59_definition : forall function n boxed (d : real_draws) p x,
  (2 <= n)%nat -> length x = n -> get_bbob_problem real_arith function n boxed d = Some p ->
  evaluate _ p x = documented n function boxed d (coord x) + fopt _ d.
Proof.
  intros f n boxed d p x N L E. apply (computes_list n p (fun z => documented n f boxed d z + fopt _ d) x); [|exact L].
  apply all_documented; assumption.
Qed.

(** Consequently a value depends on the location of the optimum, the optimal value and the rotations only: shifting the
    optimal value shifts all values. *)
Theorem C59_shift : forall function n boxed (d : real_draws) v p q x,
  (2 <= n)%nat -> length x = n -> get_bbob_problem real_arith function n boxed d = Some p ->
  let d' := {| xopt := xopt _ d; fopt := v; rot1 := rot1 _ d; rot2 := rot2 _ d; unif := unif _ d; gauss := gauss _ d;
               condition_order := condition_order _ d; scale_order := scale_order _ d; locations := locations _ d |} in
  get_bbob_problem real_arith function n boxed d' = Some q ->
  evaluate _ q x - v = evaluate _ p x - fopt _ d.
Proof.
  intros f n boxed d v p q x N L P d' Q. rewrite (C59_definition _ _ _ _ _ _ N L P), (C59_definition _ _ _ _ _ _ N L Q).
  assert (E : documented n f boxed d' (coord x) = documented n f boxed d (coord x)) by reflexivity. rewrite E. cbn [d' fopt]. lra.
Qed.

(** The linear slope at the origin: 5 (1 + 10) above the optimal value 7. *)
Example C59_slope : exists p, get_bbob_problem real_arith 5 2 false draws2 = Some p /\ evaluate _ p [0; 0] = 62.
Proof.
  eexists. split; [reflexivity|]. rewrite (C59_definition 5 2 false draws2 _ [0; 0] ltac:(lia) eq_refl eq_refl).
  unfold documented, slope, share, coord, draws2, sign. cbn [xopt fopt total nth INR Nat.sub].
  destruct (Rlt_dec 1 0); [lra|]. destruct (Rlt_dec (-2) 0); [|lra]. destruct (Rlt_dec 0 5); [|lra].
  destruct (Rlt_dec 0 (-5)); [lra|]. destruct (Rlt_dec (-5) 0); [|lra]. destruct (Rlt_dec (5 * 0) 25); [|lra]. destruct (Rlt_dec (-5 * 0) 25); [|lra].
  replace (0 / 1) with 0 by field. replace (1 / 1) with 1 by field. rewrite Rpower_O, Rpower_1 by lra. rewrite (Rabs_pos_eq (1 * 1)) by lra. rewrite (Rabs_left (-1 * 10)) by lra. lra.
Qed.

(** The Rosenbrock function at the origin: z = (1/4, 5/2). *)
Example C59_rosenbrock : exists p, get_bbob_problem real_arith 8 2 false draws2 = Some p /\
  evaluate _ p [0; 0] = 100 * ((1/4) ^ 2 - 5/2) ^ 2 + (3/4) ^ 2 + 7.
Proof.
  eexists. split; [reflexivity|]. rewrite (C59_definition 8 2 false draws2 _ [0; 0] ltac:(lia) eq_refl eq_refl).
  unfold documented, rosenbrock, spread, coord, draws2. cbn [xopt fopt total nth Nat.sub].
  rewrite Rmax_left; [lra|]. assert (R_sqrt.sqrt (INR 2) <= 2); [|lra].
  rewrite <- (sqrt_square 2) by lra. apply sqrt_le_1; cbn [INR]; lra.
Qed.

(** The discus with a rotation by 3/5, -4/5 around the optimum (1, -2): its first coordinate after the rotation of
    (0, 0) - (1, -2) is oscillated. *)
Example C59_discus : let d := {|
    xopt := [1; -2] : list (num real_arith); fopt := 7; rot1 := [[3/5; -4/5]; [4/5; 3/5]]; rot2 := nil; unif := nil;
    gauss := nil; condition_order := nil; scale_order := nil; locations := nil |} in
  exists p, get_bbob_problem real_arith 11 2 false d = Some p /\
  evaluate _ p [0; 0] = 10 ^ 6 * osz (- (11/5)) ^ 2 + osz (2/5) ^ 2 + 7.
Proof.
  cbv zeta. eexists. split; [reflexivity|]. match goal with |- evaluate _ (discus_bbob _ _ ?d) _ = _ =>
    rewrite (C59_definition 11 2 false d _ [0; 0] ltac:(lia) eq_refl eq_refl) end.
  unfold documented, later_squares, Tosz, apply, minus, coord, cell. cbn [xopt fopt rot1 total nth Nat.sub].
  replace (0 + 3 / 5 * (0 - 1) + -4 / 5 * (0 - -2)) with (- (11/5)) by field.
  replace (0 + 4 / 5 * (0 - 1) + 3 / 5 * (0 - -2)) with (2/5) by field. lra.
Qed.

Print Assumptions C59_definition.
Print Assumptions C59_shift.
