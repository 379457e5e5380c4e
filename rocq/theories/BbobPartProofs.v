(** The files of the bbob logger depend only on parts of the history. *)
From Coq Require Import List Arith NArith ZArith Reals Bool Lia Sorted.
From Flocq Require Import Core BinarySingleNaN.
Import ListNotations.
From Verif Require Import CBase DblModel DblSpec DblProofs TrigModel ProbModel ProbSpec ProbProofs
  BbobModel BbobSpec BbobProofs BbobFileProofs BbobRunProofs BbobTargetProofs.
Open Scope nat_scope.

Section Part.
Variable P : action -> bool.
Hypothesis Pe : forall x, P (Call (Evaluate x)) = true.
Hypothesis Pc : forall x, P (Call (Constrain x)) = true.

Lemma keeps_evaluated : forall acts, evaluated (filter P acts) = evaluated acts.
Proof.
  induction acts as [|a acts IH]; [reflexivity|].
  change (a :: acts) with ([a] ++ acts). rewrite filter_app, !evaluated_app, IH. f_equal.
  cbn [filter]. destruct (P a) eqn:E; [reflexivity|]. rewrite evaluated_one; [reflexivity|].
  destruct a as [[x|x|x]|]; try reflexivity. rewrite Pe in E. discriminate E.
Qed.

Lemma keeps_counted : forall acts, counted_evaluations (calls_of (filter P acts)) = counted_evaluations (calls_of acts).
Proof. intros acts. rewrite <- !evaluated_length, keeps_evaluated. reflexivity. Qed.

Lemma keeps_constraints : forall acts, counted_constraints (calls_of (filter P acts)) = counted_constraints (calls_of acts).
Proof.
  induction acts as [|a acts IH]; [reflexivity|].
  change (a :: acts) with ([a] ++ acts). rewrite filter_app, !calls_of_app, !counted_c_app, IH. f_equal.
  cbn [filter]. destruct (P a) eqn:E; [reflexivity|]. rewrite counted_c_one.
  destruct a as [[x|x|x]|]; try reflexivity. rewrite Pc in E. discriminate E.
Qed.

Lemma keeps_evaluation_at : forall acts k before x, evaluation_at acts k before x ->
  evaluation_at (filter P acts) k (filter P before) x.
Proof.
  intros acts k before x [after [-> [R E]]]. exists (filter P after). split; [|split; [exact R|]].
  - rewrite filter_app. cbn [filter]. rewrite Pe. reflexivity.
  - rewrite keeps_counted. exact E.
Qed.

Lemma same_evaluation : forall acts acts' k before x before' x', filter P acts = filter P acts' ->
  evaluation_at acts k before x -> evaluation_at acts' k before' x' ->
  x = x' /\ counted_constraints (calls_of before) = counted_constraints (calls_of before').
Proof.
  intros acts acts' k before x before' x' E A A'. apply keeps_evaluation_at in A, A'. rewrite E in A.
  destruct (evaluation_at_unique _ _ _ _ _ _ A A') as [B ->]. split; [reflexivity|].
  rewrite <- (keeps_constraints before), B, keeps_constraints. reflexivity.
Qed.

Lemma same_evaluated : forall acts acts', filter P acts = filter P acts' -> evaluated acts = evaluated acts'.
Proof. intros acts acts' E. rewrite <- (keeps_evaluated acts), E. apply keeps_evaluated. Qed.
End Part.

Lemma evaluation_exists : forall acts i, i < length (evaluated acts) -> exists before x, evaluation_at acts (S i) before x.
Proof.
  induction acts as [|a acts' IH] using rev_ind; intros i Hi; [cbn in Hi; lia|].
  rewrite evaluated_app, app_length in Hi.
  destruct (Nat.lt_ge_cases i (length (evaluated acts'))) as [L|L].
  - destruct (IH i L) as [before [x E]]. exists before, x. apply evaluation_at_extend. exact E.
  - destruct (counts_eval a) eqn:Ca.
    + destruct a as [[z|z|z]|]; try discriminate Ca. cbn [counts_eval] in Ca. apply regularb_spec in Ca.
      rewrite (evaluated_eval z Ca) in Hi. cbn [length] in Hi. exists acts', z.
      replace i with (length (evaluated acts')) by lia. apply evaluation_at_last. exact Ca.
    + rewrite (evaluated_one a Ca) in Hi. cbn [length] in Hi. lia.
Qed.

Lemma prints_unique : forall nint as_int i v p p', prints nint as_int i v p -> prints nint as_int i v p' -> p = p'.
Proof.
  intros nint as_int i v [z|w] [z'|w'] H H'; cbn in *.
  - f_equal. destruct H as [_ [_ H]], H' as [_ [_ H']]. congruence.
  - destruct H as [A [B _]], H' as [H' _]. exfalso. auto.
  - destruct H' as [A [B _]], H as [H _]. exfalso. auto.
  - f_equal. destruct H as [_ ->], H' as [_ ->]. reflexivity.
Qed.

Lemma prints_all_unique : forall nint as_int x ps ps', prints_all nint as_int x ps -> prints_all nint as_int x ps' -> ps = ps'.
Proof.
  intros nint as_int x ps ps' H H'. unfold prints_all in *. destruct (length x <? 22)%nat; [|congruence].
  destruct H as [L H], H' as [L' H'].
  assert (E : forall i, nth_error ps i = nth_error ps' i).
  { intros i. destruct (nth_error x i) as [v|] eqn:Ex.
    - assert (i < length x) by (apply nth_error_Some; congruence).
      destruct (nth_error ps i) as [a|] eqn:Ea; [|apply nth_error_None in Ea; lia].
      destruct (nth_error ps' i) as [b|] eqn:Eb; [|apply nth_error_None in Eb; lia].
      f_equal. exact (prints_unique _ _ _ _ _ _ (H i v a Ex Ea) (H' i v b Ex Eb)).
    - apply nth_error_None in Ex. rewrite (proj2 (nth_error_None ps i)) by lia.
      symmetry. apply nth_error_None. lia. }
  clear - E. revert ps' E. induction ps as [|a ps IH]; intros [|b ps'] E; try reflexivity.
  - discriminate (E 0).
  - discriminate (E 0).
  - pose proof (E 0) as E0. cbn in E0. f_equal; [congruence|]. apply IH. intros i. exact (E (S i)).
Qed.

Lemma line_ext : forall l l', f_evaluations l = f_evaluations l' -> g_evaluations l = g_evaluations l' ->
  gap l = gap l' -> measured l = measured l' -> fifth l = fifth l' -> coordinates l = coordinates l' -> l = l'.
Proof. intros [] []. cbn. intros. congruence. Qed.

(** Increasing lists with the same members. *)
Lemma increasing_ext : forall ks ks', increasing ks -> increasing ks' -> (forall k, In k ks <-> In k ks') -> ks = ks'.
Proof.
  unfold increasing. induction ks as [|k ks IH]; intros [|k' ks'] S S' E.
  - reflexivity.
  - destruct (proj2 (E k') (or_introl eq_refl)).
  - destruct (proj1 (E k) (or_introl eq_refl)).
  - inversion S as [|? ? S1 S2]; inversion S' as [|? ? S1' S2']; subst.
    pose proof (proj1 (Forall_forall _ _) S2) as F. pose proof (proj1 (Forall_forall _ _) S2') as F'.
    assert (k = k').
    { destruct (proj1 (E k) (or_introl eq_refl)) as [->|H]; [reflexivity|].
      destruct (proj2 (E k') (or_introl eq_refl)) as [->|H']; [reflexivity|].
      apply F' in H. apply F in H'. lia. }
    subst k'. f_equal. apply IH; auto. intros j. split; intros H.
    + destruct (proj1 (E j) (or_intror H)) as [<-|K]; [|exact K]. apply F in H. lia.
    + destruct (proj2 (E j) (or_intror H)) as [<-|K]; [|exact K]. apply F' in H. lia.
Qed.

Lemma Forall2_unique : forall A B (R R' : A -> B -> Prop) ks l l',
  (forall k a b, In k ks -> R k a -> R' k b -> a = b) -> Forall2 R ks l -> Forall2 R' ks l' -> l = l'.
Proof.
  intros A B R R' ks l l' U H. revert l'. induction H as [|k a ks l H1 H2 IH]; intros l' H'.
  - inversion H'. reflexivity.
  - inversion H' as [|? b ? l2 H3 H4]; subst. f_equal; [apply (U k); auto; left; reflexivity|].
    apply IH; [|exact H4]. intros j c d Hj. apply U. right. exact Hj.
Qed.

Section Same.
Context {C : class}.
Variables (o : observer_options) (p : problem C) (f : list double -> double) (g : list double -> list double) (opt : double).
Hypothesis Ho : fin opt.
Variables (P : action -> bool) (acts acts' : list action).
Hypothesis Pe : forall x, P (Call (Evaluate x)) = true.
Hypothesis Pc : forall x, P (Call (Constrain x)) = true.
Hypothesis E : filter P acts = filter P acts'.

Lemma m_number : forall x, num (performance p f g opt x).
Proof. intros x. apply merit_num. exact Ho. Qed.

Lemma line_same : forall k l l', line_at o p f g opt acts k l -> line_at o p f g opt acts' k l' -> l = l'.
Proof.
  intros k l l' [b [x [c [v (A & B & F1 & F2 & F3 & F4 & F5 & F6)]]]] [b' [x' [c' [v' (A' & B' & G1 & G2 & G3 & G4 & G5 & G6)]]]].
  destruct (same_evaluation P Pe Pc _ _ _ _ _ _ _ E A A') as [-> Cc].
  rewrite (same_evaluated P Pe _ _ E) in B.
  destruct (first_best_unique _ _ _ _ _ _ m_number B B') as [-> ->].
  apply line_ext; try congruence. eapply prints_all_unique; eauto.
Qed.

Lemma end_same : forall l l', line_end o p f g opt acts l -> line_end o p f g opt acts' l' -> l = l'.
Proof.
  intros l l' [b [x [c [v (A & B & F1 & F2 & F3 & F4 & F5 & F6)]]]] [b' [x' [c' [v' (A' & B' & G1 & G2 & G3 & G4 & G5 & G6)]]]].
  rewrite (same_evaluated P Pe _ _ E) in *.
  destruct (same_evaluation P Pe Pc _ _ _ _ _ _ _ E A A') as [-> Cc].
  destruct (first_best_unique _ _ _ _ _ _ m_number B B') as [-> ->].
  apply line_ext; try congruence. eapply prints_all_unique; eauto.
Qed.

Lemma file_same : forall total ks file file',
  file_is (line_at o p f g opt acts) (line_end o p f g opt acts) total ks file ->
  file_is (line_at o p f g opt acts') (line_end o p f g opt acts') total ks file' -> file = file'.
Proof.
  intros total ks file file' [ls [F H]] [ls' [F' H']].
  assert (ls = ls') by (eapply Forall2_unique; [|exact F|exact F']; intros k a b _; apply line_same). subst ls'.
  destruct H as [[I ->]|[N [c [Hc ->]]]], H' as [[I' ->]|[N' [c' [Hc' ->]]]]; try contradiction; [reflexivity|].
  f_equal. f_equal. exact (end_same _ _ Hc Hc').
Qed.

Lemma totals_same : forall vs vs', totals_are acts vs -> totals_are acts' vs' -> vs = vs'.
Proof.
  intros vs vs' [L T] [L' T'].
  assert (LE : length (evaluated acts) = length (evaluated acts')) by (rewrite (same_evaluated P Pe _ _ E); reflexivity).
  apply nth_ext with (d := 0%N) (d' := 0%N); [congruence|]. intros i Hi.
  assert (Hi' : i < length vs') by congruence.
  destruct (evaluation_exists acts i ltac:(congruence)) as [b [x A]].
  destruct (evaluation_exists acts' i ltac:(congruence)) as [b' [x' A']].
  destruct (same_evaluation P Pe Pc _ _ _ _ _ _ _ E A A') as [-> Cc].
  rewrite (T (S i) b x' (nth i vs 0%N) A), (T' (S i) b' x' (nth i vs' 0%N) A'), Cc; [reflexivity| |];
    rewrite Nat.sub_succ, Nat.sub_0_r; apply nth_error_nth'; assumption.
Qed.
End Same.

(** Restarts. *)
Lemma restart_same : forall acts,
  (pending (without_recommendations acts) <-> pending acts) /\
  (forall k, restart_before (without_recommendations acts) k <-> restart_before acts k).
Proof.
  assert (Pe : forall x, (fun a => match a with Call (Recommend _) => false | _ => true end) (Call (Evaluate x)) = true) by reflexivity.
  induction acts as [|a acts [IH1 IH2]] using rev_ind.
  - split; [tauto|]. intros k. tauto.
  - assert (Fa : without_recommendations (acts ++ [a]) = without_recommendations acts ++ without_recommendations [a]) by apply filter_app.
    rewrite Fa. destruct a as [[x|x|x]|].
    + change (without_recommendations [Call (Evaluate x)]) with [Call (Evaluate x)]. split.
      * destruct (regularb x) eqn:R.
        -- pose proof (pending_eval acts (Call (Evaluate x)) R). pose proof (pending_eval (without_recommendations acts) (Call (Evaluate x)) R). tauto.
        -- rewrite !pending_other; try exact R; try discriminate. exact IH1.
      * intros k. rewrite !restart_before_snoc, IH2, IH1. unfold without_recommendations. rewrite (keeps_evaluated _ Pe). tauto.
    + change (without_recommendations [Call (Constrain x)]) with [Call (Constrain x)]. split.
      * rewrite !pending_other; try reflexivity; try discriminate. exact IH1.
      * intros k. rewrite !restart_before_snoc, IH2. cbn [counts_eval]. intuition discriminate.
    + change (without_recommendations [Call (Recommend x)]) with (@nil action). rewrite app_nil_r. split.
      * rewrite pending_other; try reflexivity; try discriminate. exact IH1.
      * intros k. rewrite restart_before_snoc, IH2. cbn [counts_eval]. intuition discriminate.
    + change (without_recommendations [Restart]) with [Restart]. split.
      * rewrite !pending_restart. unfold without_recommendations. rewrite (keeps_counted _ Pe). tauto.
      * intros k. rewrite !restart_before_snoc, IH2. cbn [counts_eval]. intuition discriminate.
Qed.
