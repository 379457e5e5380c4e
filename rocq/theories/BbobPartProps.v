(** C55: recommendations and restarts do not influence the performance data of the bbob logger. *)
From Coq Require Import List Arith NArith ZArith Reals Bool Lia Sorted Ascii String.
From Flocq Require Import Core BinarySingleNaN.
Import ListNotations.
From Verif Require Import CBase StrModel OptModel DblModel DblSpec DblProofs TrigModel ProbModel ProbSpec ProbProofs ProbProps
  BbobModel BbobSpec BbobProofs BbobFileProofs BbobRunProofs BbobTargetProofs BbobPartProofs BbobProps.
Open Scope nat_scope.
Local Notation length := List.length.

Lemma gaps_unique : forall m opt xs ks vs vs', gaps_are m opt xs ks vs -> gaps_are m opt xs ks vs' -> vs = vs'.
Proof.
  intros m opt xs ks vs vs'. apply Forall2_unique. intros k a b _ [x [E ->]] [x' [E' ->]]. congruence.
Qed.

(** Two experiments whose evaluations and constraint evaluations are the same, in the same order. *)
Theorem C55_evaluations_only : forall log10 pow10 (C : class) (I : data C -> Prop) f g opt o (p : problem C)
    acts acts' ys ys' total total' best_gap best_gap' F F',
  observable I f g opt p ->
  sized (number_of_variables (head p)) (calls_of acts) -> sized (number_of_variables (head p)) (calls_of acts') ->
  evaluations_only acts = evaluations_only acts' ->
  experiment log10 pow10 o p acts = Ok (ys, Some (total, best_gap, F)) ->
  experiment log10 pow10 o p acts' = Ok (ys', Some (total', best_gap', F')) ->
  total = total' /\ best_gap = best_gap' /\ dat F = dat F' /\ tdat F = tdat F'.
Proof.
  intros log10 pow10 C I f g opt o p acts acts' ys ys' total total' bg bg' F F' [HC [Hi [[rest Hb] [Ho H0]]]] S S' E H H'.
  pose proof (experiment_files log10 pow10 I f g o p opt rest HC Hi Hb Ho H0 acts ys _ S H) as K.
  pose proof (experiment_files log10 pow10 I f g o p opt rest HC Hi Hb Ho H0 acts' ys' _ S' H') as K'.
  cbv zeta in K, K'.
  assert (Pe : forall x, (fun a => match a with Call (Recommend _) => false | Restart => false | _ => true end) (Call (Evaluate x)) = true) by reflexivity.
  assert (Pc : forall x, (fun a => match a with Call (Recommend _) => false | Restart => false | _ => true end) (Call (Constrain x)) = true) by reflexivity.
  pose proof (same_evaluated _ Pe _ _ E) as Ev.
  destruct K as [_ [T [[b [v [B Bg]]] [[ks [vs [bs [t [K1 [K2 [K3 [K4 K5]]]]]]]] [[E0 [us [cs [u [L1 [L2 [L3 [_ L4]]]]]]]] _]]]]].
  destruct K' as [_ [T' [[b' [v' [B' Bg']]] [[ks' [vs' [bs' [t' [K1' [K2' [K3' [K4' K5']]]]]]]] [[E0' [us' [cs' [u' [L1' [L2' [L3' [_ L4']]]]]]]] _]]]]].
  rewrite Ev in *.
  destruct (first_best_unique _ _ _ _ _ _ (m_number p f g opt Ho) B B') as [Qv _].
  assert (ks = ks') by (apply increasing_ext; [exact K1|exact K1'|]; intros k; rewrite K2, K2'; tauto). subst ks'.
  assert (Vv : vs = vs') by exact (gaps_unique _ _ _ _ _ _ K3 K3'). rewrite Vv, K4' in K4.
  assert (Eb : bs = bs') by congruence. rewrite Eb in K5.
  assert (E0' = E0) by congruence. subst E0'.
  assert (Uu : us = us') by exact (totals_same _ _ _ Pe Pc E _ _ L2 L2'). rewrite Uu, L3' in L3.
  assert (Ec : cs = cs') by congruence. rewrite Ec in L4.
  split; [congruence|]. split; [congruence|]. split.
  - exact (file_same o p f g opt Ho _ _ _ Pe Pc E _ _ _ _ K5 K5').
  - exact (file_same o p f g opt Ho _ _ _ Pe Pc E _ _ _ _ L4 L4').
Qed.

(** With the same restarts the .rdat file is the same as well. *)
Theorem C55_without_recommendations : forall log10 pow10 (C : class) (I : data C -> Prop) f g opt o (p : problem C)
    acts acts' ys ys' total total' best_gap best_gap' F F',
  observable I f g opt p ->
  sized (number_of_variables (head p)) (calls_of acts) -> sized (number_of_variables (head p)) (calls_of acts') ->
  without_recommendations acts = without_recommendations acts' ->
  experiment log10 pow10 o p acts = Ok (ys, Some (total, best_gap, F)) ->
  experiment log10 pow10 o p acts' = Ok (ys', Some (total', best_gap', F')) ->
  total = total' /\ best_gap = best_gap' /\ dat F = dat F' /\ tdat F = tdat F' /\ rdat F = rdat F'.
Proof.
  intros log10 pow10 C I f g opt o p acts acts' ys ys' total total' bg bg' F F' Ob S S' E H H'.
  assert (E2 : evaluations_only acts = evaluations_only acts').
  { assert (Q : forall l, evaluations_only l = evaluations_only (without_recommendations l)).
    { induction l as [|[[x|x|x]|] l IH]; cbn; try (unfold evaluations_only, without_recommendations in IH; rewrite <- IH); reflexivity. }
    rewrite Q, E, <- Q. reflexivity. }
  destruct (C55_evaluations_only log10 pow10 C I f g opt o p acts acts' ys ys' total total' bg bg' F F' Ob S S' E2 H H') as [R1 [R2 [R3 R4]]].
  split; [exact R1|]. split; [exact R2|]. split; [exact R3|]. split; [exact R4|]. clear R1 R2 R3 R4 E2.
  destruct Ob as [HC [Hi [[rest Hb] [Ho H0]]]].
  pose proof (experiment_files log10 pow10 I f g o p opt rest HC Hi Hb Ho H0 acts ys _ S H) as K.
  pose proof (experiment_files log10 pow10 I f g o p opt rest HC Hi Hb Ho H0 acts' ys' _ S' H') as K'.
  cbv zeta in K, K'.
  destruct K as [_ [_ [_ [_ [_ [ks [K1 [K2 K3]]]]]]]]. destruct K' as [_ [_ [_ [_ [_ [ks' [K1' [K2' K3']]]]]]]].
  assert (ks = ks').
  { apply increasing_ext; [exact K1|exact K1'|]. intros k. rewrite K2, K2'.
    pose proof (proj2 (restart_same acts) k) as A. pose proof (proj2 (restart_same acts') k) as A'. rewrite E in A. tauto. }
  subst ks'.
  assert (Pe : forall x, (fun a => match a with Call (Recommend _) => false | _ => true end) (Call (Evaluate x)) = true) by reflexivity.
  assert (Pc : forall x, (fun a => match a with Call (Recommend _) => false | _ => true end) (Call (Constrain x)) = true) by reflexivity.
  eapply Forall2_unique; [|exact K3|exact K3']. intros k a b _. exact (line_same o p f g opt Ho _ _ _ Pe Pc E k a b).
Qed.

(** Whether there are files at all does not depend on them either, if both experiments end. *)
Theorem C55_files_or_not : forall log10 pow10 (C : class) (I : data C -> Prop) f g opt o (p : problem C) acts acts' ys ys' r r',
  observable I f g opt p ->
  sized (number_of_variables (head p)) (calls_of acts) -> sized (number_of_variables (head p)) (calls_of acts') ->
  evaluations_only acts = evaluations_only acts' ->
  experiment log10 pow10 o p acts = Ok (ys, r) -> experiment log10 pow10 o p acts' = Ok (ys', r') ->
  (r = None <-> r' = None).
Proof.
  intros log10 pow10 C I f g opt o p acts acts' ys ys' r r' Ob S S' E H H'.
  assert (Pe : forall x, (fun a => match a with Call (Recommend _) => false | Restart => false | _ => true end) (Call (Evaluate x)) = true) by reflexivity.
  pose proof (same_evaluated _ Pe _ _ E) as Ev.
  pose proof (C27_files _ _ _ _ _ _ _ _ _ _ _ _ Ob S H) as K. pose proof (C27_files _ _ _ _ _ _ _ _ _ _ _ _ Ob S' H') as K'.
  cbv zeta in K, K'. rewrite Ev in *.
  destruct r as [[[? ?] ?]|], r' as [[[? ?] ?]|]; split; intros Q; try reflexivity; try discriminate Q.
  - destruct K as [K _]. contradiction.
  - destruct K' as [K' _]. contradiction.
Qed.

(** Example: five evaluations, and the same with recommendations and a restart in between. *)
Definition with_recommendations : list action :=
  flat_map (fun a => [a; Call (Recommend [dint 3]); Restart]) some_actions.
Example C55_example :
  is_ok (experiment (fun x => x) step_pow10 (some_options true (ddec 1 5)) (square_problem 1) some_actions) = true /\
  is_ok (experiment (fun x => x) step_pow10 (some_options true (ddec 1 5)) (square_problem 1) with_recommendations) = true /\
  sized 1 (calls_of some_actions) /\ sized 1 (calls_of with_recommendations) /\
  without_recommendations some_actions <> without_recommendations with_recommendations /\
  evaluations_only some_actions = evaluations_only with_recommendations.
Proof.
  split; [vm_compute; reflexivity|]. split; [vm_compute; reflexivity|].
  split; [repeat constructor|]. split; [repeat constructor|].
  split; [intros Q; apply (f_equal (@List.length action)) in Q; vm_compute in Q; discriminate Q|reflexivity].
Qed.

Print Assumptions C55_evaluations_only.
Print Assumptions C55_without_recommendations.
Print Assumptions C55_files_or_not.
