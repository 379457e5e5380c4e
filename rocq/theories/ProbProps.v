(** Evaluation counting (C20), best observed value (C21), final target (C22). *)
From Coq Require Import List Arith NArith ZArith Reals Bool Lia Lra.
From Flocq Require Import Core BinarySingleNaN.
Import ListNotations.
From Verif Require Import CBase DblModel DblSpec DblProofs ProbModel ProbSpec ProbProofs.
Open Scope nat_scope.

(** ** C20 *)

(** The counters grow by the numbers of calls with a regular argument, for every kind of problem. *)
Theorem C20_counting : forall (C : class) (p : problem C) cs ys q,
  sized (number_of_variables (head p)) cs -> session p cs = Ok (ys, q) ->
  evaluations (head q) = (evaluations (head p) + N.of_nat (counted_evaluations cs))%N /\
  evaluations_constraints (head q) = (evaluations_constraints (head p) + N.of_nat (counted_constraints cs))%N /\
  length ys = length cs.
Proof. intros C p cs ys q S H. exact (proj2 (session_counts cs p ys q S H)). Qed.

(** Arguments with infinite or NaN entries: the answer, and nothing changes. *)
Theorem C20_irregular : forall (C : class) (p : problem C) x, length x = number_of_variables (head p) ->
  (has_inf x -> coco_evaluate_function p x = Ok (repeat dinf (number_of_objectives (head p)), p)) /\
  (has_nan_only x -> coco_evaluate_function p x = Ok (repeat dnan (number_of_objectives (head p)), p)) /\
  (evaluate_constraint C <> None ->
   (has_inf x -> coco_evaluate_constraint p x = Ok (repeat dinf (number_of_constraints (head p)), p)) /\
   (has_nan_only x -> coco_evaluate_constraint p x = Ok (repeat dnan (number_of_constraints (head p)), p))) /\
  (regular x \/ has_inf x \/ has_nan_only x).
Proof.
  intros C p x L. split; [apply eval_inf; exact L|]. split; [apply eval_nan; exact L|]. split.
  - intros N. destruct (evaluate_constraint C) as [f|] eqn:F; [|exfalso; apply N; reflexivity].
    split; intros H; [exact (cons_inf f p x true F L H)|exact (cons_nan f p x true F L H)].
  - destruct (classify x) as [[H _]|[[H _]|[H _]]]; auto.
Qed.

(** A session succeeds if the functions of the problem do. *)
Theorem C20_total : forall (C : class) (no : nat) (I : data C -> Prop) (p : problem C) cs,
  never_fails C (number_of_variables (head p)) no (number_of_constraints (head p)) I ->
  0 < number_of_variables (head p) -> 0 < no -> I (body p) -> sized (number_of_variables (head p)) cs ->
  (number_of_constraints (head p) = 0 -> forall x, ~ In (Constrain x) cs) ->
  exists ys q, session p cs = Ok (ys, q).
Proof. intros C no I p cs NF Pn Po B S NC. eapply session_total; eauto. Qed.

(** A transformed problem and its inner problem count in step. *)
Theorem C20_layers : forall (C : class) (p : problem (transformed C)) cs ys q,
  number_of_variables (head (body p)) = number_of_variables (head p) ->
  sized (number_of_variables (head p)) cs -> session p cs = Ok (ys, q) ->
  evaluations (head (body q)) = (evaluations (head (body p)) + N.of_nat (counted_evaluations cs))%N /\
  evaluations_constraints (head (body q)) =
    (evaluations_constraints (head (body p)) + N.of_nat (counted_constraints cs))%N.
Proof. intros C p cs ys q V S H. exact (transformed_counts C cs p ys q V S H). Qed.

(** The two parts of a stacked problem: a part counts evaluations if it has objectives and constraint
    evaluations if it has constraints.  The feasibility checks do not count. *)
Theorem C20_stacked : forall (C1 C2 : class) (p : problem (stacked C1 C2)) cs ys q,
  number_of_variables (head (fst (body p))) = number_of_variables (head p) ->
  number_of_variables (head (snd (body p))) = number_of_variables (head p) ->
  sized (number_of_variables (head p)) cs -> session p cs = Ok (ys, q) ->
  let follows h h' :=
    evaluations h' = (evaluations h + if (0 <? number_of_objectives h)%nat then N.of_nat (counted_evaluations cs) else 0)%N /\
    evaluations_constraints h' =
      (evaluations_constraints h + if (0 <? number_of_constraints h)%nat then N.of_nat (counted_constraints cs) else 0)%N in
  follows (head (fst (body p))) (head (fst (body q))) /\ follows (head (snd (body p))) (head (snd (body q))).
Proof.
  intros C1 C2 p cs ys q V1 V2 S H. cbv zeta.
  destruct (stacked_session C1 C2 cs p ys q (conj V1 V2) S H) as [[_ A] [_ B]].
  split; [exact A|exact B].
Qed.

(** ** C21 *)

(** The best observed value is the smallest first objective of the counted feasible evaluations and
    the recorded number is that of the first evaluation that attains it. *)
Theorem C21_best_observed : forall (C : class) (I : data C -> Prop) g (p : problem C) cs ys q,
  constraints_are C (number_of_variables (head p)) I g -> I (body p) ->
  sized (number_of_variables (head p)) cs -> num (best_observed_fvalue (head p)) ->
  session p cs = Ok (ys, q) ->
  is_best (feasible (number_of_constraints (head p)) g) (best_observed_fvalue (head p))
    (best_observed_evaluation (head p)) (evaluations (head p)) (observed cs ys)
    (best_observed_fvalue (head q)) (best_observed_evaluation (head q)).
Proof. intros C I g p cs ys q CA B S N H. eapply session_best; eauto. Qed.

Theorem C21_never_increases : forall (C : class) (I : data C -> Prop) g (p : problem C) cs ys q,
  constraints_are C (number_of_variables (head p)) I g -> I (body p) ->
  sized (number_of_variables (head p)) cs -> num (best_observed_fvalue (head p)) ->
  session p cs = Ok (ys, q) ->
  num (best_observed_fvalue (head q)) /\
  (val (best_observed_fvalue (head q)) <= val (best_observed_fvalue (head p)))%R.
Proof.
  intros C I g p cs ys q CA B S N H. eapply is_best_le; [exact N|]. eapply session_best; eauto.
Qed.

(** The assumption on the constraints passes from a problem to the transformed problem around it. *)
Theorem C21_layers : forall (C : class) n (I : data C -> Prop) g, constraints_are C n I g ->
  constraints_are (transformed C) n (fun q => number_of_variables (head q) = n /\ I (body q)) g.
Proof. intros C n I g CA. exact (transformed_constraints C n I g CA). Qed.

(** ** C22 *)

(** On a problem that starts without evaluations, the final target is hit exactly when a counted
    feasible evaluation reached it (for a target below the largest double). *)
Theorem C22_final_target : forall (C : class) (I : data C -> Prop) g (p : problem C) cs ys q v0 vt,
  constraints_are C (number_of_variables (head p)) I g -> I (body p) ->
  sized (number_of_variables (head p)) cs -> fresh (head p) ->
  number_of_objectives (head p) = 1 -> best_value (head p) = Some (v0 :: vt) ->
  fin v0 -> fin (final_target_delta (head p)) ->
  (clamp (rnd (val v0 + val (final_target_delta (head p)))) < val DBL_MAX)%R ->
  session p cs = Ok (ys, q) ->
  exists b, coco_problem_final_target_hit (head q) = Ok b /\
    (b = true <-> exists x y, In (x, y) (observed cs ys) /\
                    feasible (number_of_constraints (head p)) g x /\
                    reaches v0 (final_target_delta (head p)) y).
Proof.
  intros C I g p cs ys q v0 vt CA B S [Fe [Fv Fk]] O Bv F0 Fd T H.
  destruct (session_counts cs p ys q S H) as [St [Ev [_ L]]].
  pose proof (session_best _ _ _ cs p ys q CA eq_refl S B (eq_ind_r num max_num Fv) H) as Best.
  assert (O' : number_of_objectives (head q) = 1) by (rewrite St; exact O).
  assert (Bv' : best_value (head q) = Some (v0 :: vt)) by (rewrite St; exact Bv).
  assert (D' : final_target_delta (head q) = final_target_delta (head p)) by (rewrite St; reflexivity).
  rewrite (final_hit_spec _ _ _ O' Bv'), D'. eexists. split; [reflexivity|].
  destruct (dadd_val v0 (final_target_delta (head p)) F0 Fd) as [Nt Vt].
  set (t := dadd v0 (final_target_delta (head p))) in *.
  assert (Dl : dle DBL_MAX t = false).
  { apply (proj2 (dle_false DBL_MAX t max_num Nt)). rewrite Vt. exact T. }
  rewrite Fv in Best.
  pose proof (is_best_dle _ _ _ _ _ _ _ t max_num Dl Best) as Q.
  assert (R : forall y, dle y t = true <-> reaches v0 (final_target_delta (head p)) y).
  { intros y. unfold reaches. rewrite <- Vt. split.
    - intros K. destruct (dle_num _ _ K) as [Ny _]. split; [exact Ny|]. exact (proj1 (dle_val y t Ny Nt) K).
    - intros [Ny K]. exact (proj2 (dle_val y t Ny Nt) K). }
  rewrite andb_true_iff, Q, negb_true_iff, N.ltb_ge. split.
  - intros [_ [x [y [Hi [Ho Hd]]]]]. exists x, y. split; [exact Hi|]. split; [exact Ho|]. apply R. exact Hd.
  - intros [x [y [Hi [Ho Hd]]]]. split.
    + rewrite Ev, Fe. pose proof (observed_length cs ys L).
      destruct (observed cs ys); [contradiction|]. cbn [length] in *. lia.
    + exists x, y. split; [exact Hi|]. split; [exact Ho|]. apply R. exact Hd.
Qed.

Theorem C22_monotone : forall (C : class) (I : data C -> Prop) g (p : problem C) cs ys q,
  constraints_are C (number_of_variables (head p)) I g -> I (body p) ->
  sized (number_of_variables (head p)) cs -> num (best_observed_fvalue (head p)) ->
  session p cs = Ok (ys, q) ->
  coco_problem_final_target_hit (head p) = Ok true -> coco_problem_final_target_hit (head q) = Ok true.
Proof.
  intros C I g p cs ys q CA B S N H T.
  destruct (session_counts cs p ys q S H) as [St [Ev [_ L]]].
  destruct (C21_never_increases C I g p cs ys q CA B S N H) as [Nq Le].
  unfold coco_problem_final_target_hit in *.
  assert (O' : number_of_objectives (head q) = number_of_objectives (head p)) by (rewrite St; reflexivity).
  assert (Bv' : best_value (head q) = best_value (head p)) by (rewrite St; reflexivity).
  assert (D' : final_target_delta (head q) = final_target_delta (head p)) by (rewrite St; reflexivity).
  rewrite O', Bv', D'.
  destruct (number_of_objectives (head p) =? 1); cbn [negb orb] in *; [|discriminate T].
  destruct (N.ltb_spec (evaluations (head p)) 1) as [Z|Z]; [discriminate T|].
  destruct (N.ltb_spec (evaluations (head q)) 1) as [Z'|Z']; [lia|].
  destruct (best_value (head p)) as [v|]; [|discriminate T].
  apply bind_Ok in T as [v0 [M T]]. rewrite M. cbn [bind].
  assert (K : dle (best_observed_fvalue (head p)) (dadd v0 (final_target_delta (head p))) = true) by congruence.
  destruct (dle_num _ _ K) as [_ Nt]. pose proof (proj1 (dle_val _ _ N Nt) K) as K'.
  rewrite (proj2 (dle_val _ _ Nq Nt)); [reflexivity|lra].
Qed.

(** Never for several objectives or before the first evaluation. *)
Theorem C22_never : forall h, number_of_objectives h <> 1 \/ evaluations h = 0%N ->
  coco_problem_final_target_hit h = Ok false.
Proof.
  intros h [H|H]; unfold coco_problem_final_target_hit.
  - destruct (Nat.eqb_spec (number_of_objectives h) 1); [contradiction|reflexivity].
  - rewrite H. rewrite orb_true_r. reflexivity.
Qed.

(** A best value beyond all doubles: hit by any evaluation, here one that returns NaN. *)
Definition nan_class : class :=
  {| data := unit; evaluate_function := fun _ d _ => Ok ([dnan], d); evaluate_constraint := None;
     recommend_solution := None; last_noise_free := fun _ => None |}.
Theorem C22_infinite_best_refuted : exists (p : problem nan_class) x q,
  fresh (head p) /\ coco_evaluate_function p x = Ok ([dnan], q) /\
  coco_problem_final_target_hit (head q) = Ok true.
Proof.
  exists (Build_problem nan_class (coco_problem_allocate 1 1 0 0 (Some [dinf]) None) tt), [dzero]. eexists.
  split; [split; [reflexivity|split; reflexivity]|]. split; reflexivity.
Qed.

(** ** Examples *)

(** f(x) = x0 * x0, with the constraint 1 - x0 <= 0. *)
Definition square : class :=
  {| data := nat;
     evaluate_function := fun _ d x => do v <- mget x 0; Ok ([dmul v v], S d);
     evaluate_constraint := Some (fun _ d x _ => do v <- mget x 0; Ok ([dsub (dint 1) v], d));
     recommend_solution := None; last_noise_free := fun _ => None |}.
Definition square_problem (nc : nat) : problem square :=
  Build_problem square (coco_problem_allocate 1 1 nc 0 (Some [dint 1]) (Some [dint 1])) 0.
Definition constraint_of (x : list double) : list double := [dsub (dint 1) (hd dnan x)].

Example square_constraints : constraints_are square 1 (fun _ => True) constraint_of.
Proof.
  split; [|split]; auto.
  intros f F h d x u vs d' _ _ H. cbn [square evaluate_constraint] in F. apply Some_inj in F. subst f.
  cbv beta in H. split; [exact Logic.I|]. intros L _. apply bind_Ok in H as [v [M H]].
  destruct x as [|w x]; [discriminate M|]. cbn in M. assert (w = v) by congruence. subst w.
  unfold constraint_of. cbn [hd]. congruence.
Qed.

Example square_never_fails : never_fails square 1 1 1 (fun _ => True).
Proof.
  split; [|split].
  - intros h d x _ _ L _. destruct x as [|v x]; [discriminate L|].
    exists [dmul v v], (S d). split; [reflexivity|]. split; [exact Logic.I|reflexivity].
  - intros f F. discriminate F.
  - right. eexists. split; [reflexivity|]. intros h d x u _ _ L. destruct x as [|v x]; [discriminate L|].
    exists [dsub (dint 1) v], d. split; [reflexivity|]. split; [exact Logic.I|reflexivity].
Qed.

(** 3, NaN, 1/2 (not feasible), -inf, 2, 2: four counted evaluations, the best one is number 3. *)
Definition some_calls : list call :=
  [Evaluate [dint 3]; Evaluate [dnan]; Constrain [dint 7]; Evaluate [ddec 5 1]; Evaluate [dopp dinf];
   Evaluate [dint 2]; Evaluate [dint 2]].

Definition summary {C} (r : res (list (list double) * problem C)) : option (N * N * N * bool * bool) :=
  match r with
  | Ok (ys, q) =>
    match coco_problem_final_target_hit (head q) with
    | Ok b => Some (evaluations (head q), evaluations_constraints (head q), best_observed_evaluation (head q),
                    deq (best_observed_fvalue (head q)) (dint 4), b)
    | _ => None
    end
  | _ => None
  end.

Example C20_example : summary (session (square_problem 1) some_calls) = Some (4, 1, 3, true, false)%N.
Proof. vm_compute. reflexivity. Qed.
Example C22_example :
  summary (session (square_problem 1) (some_calls ++ [Evaluate [dint 1]; Evaluate [dint 5]]))
  = Some (6, 1, 5, false, true)%N.
Proof. vm_compute. reflexivity. Qed.
Example C20_example_sized : sized 1 some_calls.
Proof. unfold some_calls, sized. repeat constructor. Qed.
Example C20_example_layers :
  match session (coco_problem_transformed_allocate (coco_problem_transformed_allocate (square_problem 1))) some_calls with
  | Ok (_, q) => (evaluations (head (body q)), evaluations (head (body (body q))),
                  evaluations_constraints (head (body (body q))), body (body (body q))) = (4, 4, 1, 4%nat)%N
  | _ => False
  end.
Proof. vm_compute. reflexivity. Qed.

(** Without constraints the point 1/2 counts and reaches the target 1 + 1e-8. *)
Example C21_example_unconstrained :
  match session (square_problem 0) some_calls with
  | Ok (_, q) => (evaluations (head q), best_observed_evaluation (head q)) = (4, 2)%N
  | _ => False
  end.
Proof. vm_compute. reflexivity. Qed.

(** The hypotheses of C22_final_target hold for this problem. *)
Example C22_example_hypotheses :
  fresh (head (square_problem 1)) /\ fin (dint 1) /\ fin (final_target_delta (head (square_problem 1))) /\
  (clamp (rnd (val (dint 1) + val (final_target_delta (head (square_problem 1))))) < val DBL_MAX)%R.
Proof.
  split; [split; [reflexivity|split; reflexivity]|]. 
  assert (F1 : fin (dint 1)) by reflexivity.
  assert (F2 : fin (final_target_delta (head (square_problem 1)))) by (vm_compute; reflexivity).
  split; [exact F1|]. split; [exact F2|].
  destruct (dadd_val _ _ F1 F2) as [N V]. rewrite <- V.
  apply (proj1 (dlt_val _ _ N max_num)). vm_compute. reflexivity.
Qed.

Print Assumptions C20_counting.
Print Assumptions C20_irregular.
Print Assumptions C20_total.
Print Assumptions C20_layers.
Print Assumptions C20_stacked.
Print Assumptions C21_best_observed.
Print Assumptions C21_never_increases.
Print Assumptions C21_layers.
Print Assumptions C22_final_target.
Print Assumptions C22_monotone.
Print Assumptions C22_never.
Print Assumptions C22_infinite_best_refuted.
