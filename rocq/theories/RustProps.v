(** C89: programs in Rust. *)
From Coq Require Import String List Arith NArith Ascii Bool Lia.
Import ListNotations.
From Verif Require Import CBase StrModel IdModel HeapModel HeapSpec HeapProofs LoopModel LoopSpec RustModel RustSpec RustProofs.
Local Notation length := List.length.
Local Open Scope nat_scope.

(** A program that keeps the obligations of RustSpec.v never has undefined behaviour.  At every point each variable owns an object of its
    own that exists and that nothing else holds, and every object in memory belongs to a variable; *)
Theorem C89_safe : forall xs, all_careful r_init xs ->
  r_run r_init xs <> Some UB /\
  forall r, r_run r_init xs = Some (Ok r) ->
    (forall i a, look (r_problems r) i = Some a -> outermost (r_heap r) a) /\
    (forall i j a, look (r_problems r) i = Some a -> look (r_problems r) j = Some a -> i = j) /\
    (forall j b, look (r_observers r) j = Some b -> exists o, observer_exists (r_heap r) b o) /\
    (forall i j b, look (r_observers r) i = Some b -> look (r_observers r) j = Some b -> i = j) /\
    owned r.
Proof.
  intros xs C. destruct (r_run_fine xs r_init fine_init C) as [NU OK]. split; [exact NU|]. intros r E. destruct (OK r E) as (_ & V & OW).
  split; [exact (v_out _ _ _ V)|]. split; [exact (v_one _ _ _ V)|]. split; [exact (v_obs _ _ _ V)|]. split; [exact (v_obs_one _ _ _ V)|exact OW].
Qed.
(** so when all variables are out of scope nothing is left. *)
Theorem C89_no_leak : forall xs r, all_careful r_init xs -> r_run r_init xs = Some (Ok r) ->
  (forall i, look (r_problems r) i = None) -> (forall j, look (r_observers r) j = None) -> nothing_left (r_heap r).
Proof.
  intros xs r C E P O. destruct (C89_safe xs C) as [_ OK]. destruct (OK r E) as (_ & _ & _ & _ & W1 & W2).
  apply Forall_forall. intros c H. destruct c as [[p|o]|]; [| |reflexivity]; apply In_nth_error in H; destruct H as [a H].
  - destruct (W2 a p H) as (i & b & I & _). rewrite P in I. discriminate.
  - destruct (W1 a o H) as (j & J). rewrite O in J. discriminate.
Qed.
(** Deviation: each obligation is needed, the compiler accepts programs that break it.  Nothing ties the lifetime of the observer to the
    problem: evaluating after the observer was dropped uses freed memory (toy), or follows a null pointer (bbob). *)
Definition toy_name : cstr := str "Toy suite problem".
Definition bbob_name : cstr := str "BBOB suite problem f1 instance 1 in 2D".
Theorem C89_lifetime_refuted :
  r_run r_init [RObserver RToy; RNext toy_name 1 (Some 0); RDropObserver 0; REvaluate 0] = Some UB /\
  r_run r_init [RObserver RBbob; RNext bbob_name 1 (Some 0); RDropObserver 0; REvaluate 0] = Some UB.
Proof. split; reflexivity. Qed.
(** signal_restart accepts any problem. *)
Theorem C89_restart_refuted :
  r_run r_init [RObserver RBbob; RProblem bbob_name 1; RRestart 0 0] = Some UB /\
  r_run r_init [RObserver RBbob; RObserver RToy; RProblem bbob_name 1; RAdd 0 0; RAdd 0 1; RRestart 0 0] = Some UB.
Proof. split; reflexivity. Qed.
Lemma bbob_name_plain : plain_name bbob_name.
Proof. intros [] s H; cbn in H; discriminate H. Qed.
Definition example_program : list rop :=
  [RObserver RBbob; RObserver RToy; RNext bbob_name 1 (Some 0); RAdd 0 1; REvaluate 0; RRemove 0 1; RRestart 0 0; REvaluate 0;
   RDropProblem 0; RDropObserver 1; RDropObserver 0].
Lemma unused_dead : forall h b, (forall x, match nth_error h x with Some (Some (CProblem p)) => match p_logger p with Some l => lg_observer l <> Some b | None => True end | _ => True end) ->
  unused h b.
Proof. intros h b H w p l P L. specialize (H w). unfold problem_exists in P. rewrite P, L in H. exact H. Qed.
Example C89_example : all_careful r_init example_program /\
  exists r, r_run r_init example_program = Some (Ok r) /\ nothing_left (r_heap r) /\ length (r_heap r) = 5.
Proof.
  split; [|eexists; split; [reflexivity|]; split; [repeat constructor|reflexivity]].
  repeat (split; [try exact Logic.I|intros ? ?; match goal with H : r_step _ _ = Some (Ok _) |- _ => vm_compute in H; injection H as <- end]).
  all: try exact Logic.I.
  - split; [exact bbob_name_plain|right; cbn; lia].
  - intros a p b o A P B O. vm_compute in A, B. injection A as <-. injection B as <-. vm_compute in P, O. injection P as <-. injection O as <-. vm_compute. lia.
  - intros a p b o A P B O _. vm_compute in A, B. injection A as <-. injection B as <-. vm_compute in P, O. injection P as <-. injection O as <-. vm_compute. eexists. split; reflexivity.
  - intros b _. apply unused_dead. intros x. do 6 (destruct x as [|x]; [vm_compute; exact Logic.I|]). cbn. destruct x; exact Logic.I.
  - intros b _. apply unused_dead. intros x. do 6 (destruct x as [|x]; [vm_compute; exact Logic.I|]). cbn. destruct x; exact Logic.I.
Qed.

Print Assumptions C89_safe.
Print Assumptions C89_no_leak.
Print Assumptions C89_lifetime_refuted.
Print Assumptions C89_restart_refuted.
