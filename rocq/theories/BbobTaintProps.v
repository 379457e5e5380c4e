(** C54: reading the best parameter of a problem makes it unusable for benchmarking with the bbob logger. *)
From Coq Require Import List Arith NArith ZArith Reals Bool Lia.
From Flocq Require Import Core BinarySingleNaN.
Import ListNotations.
From Verif Require Import CBase DblModel DblSpec DblProofs TrigModel ProbModel ProbSpec ProbProofs
  ProbProps BbobModel BbobSpec BbobProofs BbobFileProofs BbobProps.
Open Scope nat_scope.

Theorem C54_best_parameter : forall h x h', coco_problem_get_best_parameter h = (Some x, h') ->
  is_tainted h' = true /\ number_of_objectives h = 1.
Proof.
  intros h x h' H. unfold coco_problem_get_best_parameter in H. destruct (best_parameter h); [|discriminate H].
  destruct (Nat.eqb_spec (number_of_objectives h) 1); [|discriminate H].
  split; [|assumption].
  match type of H with (_, ?a) = _ => assert (Q : h' = a) by congruence end. rewrite Q. reflexivity.
Qed.

(** An evaluation is an error, provided that the feasibility test that comes first succeeds. *)
Theorem C54_error : forall log10 pow10 (C : class) (q : problem (logger_bbob_class log10 pow10 C)) x,
  is_tainted (head q) = true -> 0 < number_of_variables (head q) -> length x = number_of_variables (head q) ->
  regular x -> is_ok (feasibility (number_of_constraints (head q)) (inner (body q)) x) = true ->
  coco_evaluate_function q x = Err.
Proof.
  intros log10 pow10 C q x T P L R F. unfold coco_evaluate_function, coco_problem_get_dimension.
  destruct (Nat.eqb_spec (number_of_variables (head q)) 0) as [Z|_]; [lia|]. cbn [bind]. rewrite <- L.
  rewrite (first_inf_none x (regular_no_inf x R)). cbn [bind].
  rewrite contains_nan_spec, (regular_no_nan x R). cbn [bind].
  cbn [evaluate_function logger_bbob_class]. unfold logger_bbob_evaluate.
  destruct (feasibility (number_of_constraints (head q)) (inner (body q)) x) as [[b p0]| |]; [|discriminate F|discriminate F].
  cbn [bind]. rewrite T. reflexivity.
Qed.

(** No session with a tainted problem gets past an evaluation. *)
Theorem C54_session : forall log10 pow10 (C : class) acts (q q' : problem (logger_bbob_class log10 pow10 C)) ys,
  is_tainted (head q) = true -> sized (number_of_variables (head q)) (calls_of acts) ->
  observe log10 pow10 q acts = Ok (ys, q') -> evaluated acts = [].
Proof.
  intros log10 pow10 C. induction acts as [|a acts IH]; intros q q' ys T S H; [reflexivity|].
  cbn [observe] in H. apply bind_Ok in H as [[y q1] [A H]]. apply bind_Ok in H as [[ys' q2] [B _]].
  change (a :: acts) with ([a] ++ acts) in *. rewrite evaluated_app. rewrite calls_of_app in S.
  apply Forall_app in S as [S1 S2].
  assert (St : static (head q) (head q1)).
  { destruct a as [c|]; cbn [act] in A.
    - inversion S1 as [|? ? L _]; subst. exact (proj1 (perform_counts q c y q1 L A)).
    - apply Ok_pair_snd in A. subst q1. apply static_refl. }
  assert (E : counts_eval a = false).
  { destruct (counts_eval a) eqn:E; [exfalso|reflexivity]. destruct a as [[x|x|x]|]; try discriminate E.
    cbn [counts_eval] in E. apply regularb_spec in E. inversion S1 as [|? ? L _]; subst. cbn [argument] in L.
    cbn [act perform] in A. destruct (eval_regular q x y q1 L E A) as [d [Ed _]].
    cbn [evaluate_function logger_bbob_class] in Ed. unfold logger_bbob_evaluate in Ed.
    apply bind_Ok in Ed as [[b p0] [_ Ed]]. rewrite T in Ed. discriminate Ed. }
  rewrite (evaluated_one a E). cbn [app]. apply (IH q1 q2 ys'); [|rewrite St; exact S2|exact B].
  rewrite St. exact T.
Qed.

(** The same if the best parameter was read before the problem was observed; the observer then leaves
    no files. *)
Theorem C54_observed_later : forall log10 pow10 (C : class) (I : data C -> Prop) f g opt o (p : problem C) acts ys r,
  observable I f g opt p -> sized (number_of_variables (head p)) (calls_of acts) ->
  is_tainted (head p) = true -> experiment log10 pow10 o p acts = Ok (ys, r) ->
  evaluated acts = [] /\ r = None.
Proof.
  intros log10 pow10 C I f g opt o p acts ys r Ob S T H.
  assert (E : evaluated acts = []).
  { unfold experiment in H. apply bind_Ok in H as [q [L H]]. apply bind_Ok in H as [[ys' q'] [B _]].
    assert (Hq : head q = head p).
    { unfold logger_bbob in L. apply bind_Ok in L as [v [_ L]]. apply bind_Ok in L as [ev [_ L]].
      match type of L with Ok ?r0 = _ => assert (Q : q = r0) by congruence end. rewrite Q. reflexivity. }
    apply (C54_session log10 pow10 C acts q q' ys'); rewrite ?Hq; assumption. }
  split; [exact E|]. pose proof (C27_files log10 pow10 C I f g opt o p acts ys r Ob S H) as K. cbv zeta in K.
  destruct r as [[[total bg] F]|]; [|reflexivity]. destruct K as [K _]. contradiction.
Qed.

(** The square problem: reading its best parameter gives 1; evaluating it afterwards is an error,
    recommending and evaluating the constraints still works. *)
Example C54_example :
  match coco_problem_get_best_parameter (head (square_problem 1)) with
  | (Some [v], h) =>
    let p := Build_problem square h 0 in
    let run acts := match experiment (fun v => v) (fun v => v) (some_options false (ddec 1 5)) p acts with
                    | Ok _ => 0 | Err => 1 | UB => 2 end in
    (deq v (dint 1), run [Call (Constrain [dint 3]); Call (Evaluate [dnan])], run [Call (Evaluate [dint 3])])
      = (true, 0, 1)
  | _ => False
  end.
Proof. vm_compute. reflexivity. Qed.

Print Assumptions C54_best_parameter.
Print Assumptions C54_error.
Print Assumptions C54_session.
Print Assumptions C54_observed_later.
