From Coq Require Import List Arith ZArith Bool Lia ZifyBool.
Import ListNotations.
From Verif Require Import MoModel MoSpec.
Open Scope Z_scope.

Lemma somewhere_nil_l : forall R b, ~ somewhere R [] b.
Proof. intros R b (i & x & y & H & _). destruct i; discriminate. Qed.

Lemma somewhere_cons : forall R x y a b, somewhere R (x :: a) (y :: b) <-> R x y \/ somewhere R a b.
Proof.
  intros. split.
  - intros (i & u & v & H1 & H2 & H3). destruct i as [|i]; simpl in *.
    + injection H1 as <-. injection H2 as <-. now left.
    + right. exists i, u, v. auto.
  - intros [H | (i & u & v & H)].
    + exists O, x, y. auto.
    + exists (S i), u, v. auto.
Qed.

Lemma flags_spec : forall p, 0 < p -> forall a b, length a = length b -> forall f1 f2 g1 g2,
  dominance_flags p a b f1 f2 = (g1, g2) ->
  (g1 = true <-> f1 = true \/ somewhere (clearly_less p) a b) /\
  (g2 = true <-> f2 = true \/ somewhere (clearly_less p) b a).
Proof.
  intros p Hp. induction a as [|x a IH]; intros [|y b] Hl f1 f2 g1 g2 H; try discriminate Hl.
  - simpl in H. injection H as <- <-. split; split; auto; intros [?|?]; auto;
      exfalso; eapply somewhere_nil_l; eauto.
  - simpl in Hl. injection Hl as Hl. rewrite !somewhere_cons.
    simpl in H. unfold almost_equal in H. unfold clearly_less at 1 3.
    destruct (Z.ltb_spec (Z.abs (x - y)) p).
    { destruct (IH _ Hl _ _ _ _ H) as [-> ->]. split; split; intuition lia. }
    destruct (Z.ltb_spec x y).
    { destruct (IH _ Hl _ _ _ _ H) as [-> ->]. split; split; intuition lia. }
    destruct (Z.ltb_spec y x); [|lia].
    destruct (IH _ Hl _ _ _ _ H) as [-> ->]. split; split; intuition lia.
Qed.

Lemma not_somewhere_indistinct : forall p, forall a b, length a = length b ->
  ~ somewhere (clearly_less p) a b -> ~ somewhere (clearly_less p) b a -> everywhere (indistinct p) a b.
Proof.
  intros p. unfold everywhere. induction a as [|x a IH]; intros [|y b] Hl H1 H2; try discriminate Hl; constructor.
  - rewrite somewhere_cons in H1, H2. unfold indistinct, clearly_less in *. lia.
  - rewrite somewhere_cons in H1, H2. apply IH; [now injection Hl| tauto | tauto].
Qed.

Lemma indistinct_not_somewhere : forall p a b, everywhere (indistinct p) a b ->
  ~ somewhere (clearly_less p) a b /\ ~ somewhere (clearly_less p) b a.
Proof.
  intros p a b H. induction H.
  - split; apply somewhere_nil_l.
  - rewrite !somewhere_cons. unfold indistinct, clearly_less in *. intuition lia.
Qed.

Theorem dominance_answers : forall p a b, 0 < p -> length a = length b ->
  answers p a b (mo_get_dominance p a b).
Proof.
  intros p a b Hp Hl. unfold mo_get_dominance, answers.
  destruct (dominance_flags p a b false false) as [g1 g2] eqn:E.
  apply flags_spec in E; auto. destruct E as [E1 E2].
  destruct g1, g2.
  - right. right. left. split; auto. intuition discriminate.
  - left. split; auto. intuition discriminate.
  - right. left. split; auto. intuition discriminate.
  - right. right. right. split; auto. apply not_somewhere_indistinct; auto; intuition discriminate.
Qed.

Lemma answers_unique : forall p a b r1 r2, answers p a b r1 -> answers p a b r2 -> r1 = r2.
Proof.
  intros p a b r1 r2 H1 H2. unfold answers in *.
  destruct H1 as [[-> H1]|[[-> H1]|[[-> H1]|[-> H1]]]];
  destruct H2 as [[-> H2]|[[-> H2]|[[-> H2]|[-> H2]]]]; auto; exfalso;
  try apply indistinct_not_somewhere in H1; try apply indistinct_not_somewhere in H2; tauto.
Qed.

Lemma everywhere_indistinct_sym : forall p a b, everywhere (indistinct p) a b -> everywhere (indistinct p) b a.
Proof. intros p a b H. induction H; constructor; auto. unfold indistinct in *; lia. Qed.

Theorem dominance_swap : forall p a b, 0 < p -> length a = length b ->
  mo_get_dominance p b a = swapped (mo_get_dominance p a b).
Proof.
  intros p a b Hp Hl. apply answers_unique with (p := p) (a := b) (b := a).
  - apply dominance_answers; auto.
  - pose proof (dominance_answers p a b Hp Hl) as H. unfold answers in H.
    destruct H as [[-> H]|[[-> H]|[[-> H]|[-> H]]]]; unfold swapped; simpl; unfold answers.
    + right. left. auto.
    + left. auto.
    + right. right. left. tauto.
    + right. right. right. split; auto. now apply everywhere_indistinct_sym.
Qed.

Lemma separated_indistinct : forall p a b, 0 < p -> everywhere (separated p) a b ->
  (everywhere (indistinct p) a b <-> a = b).
Proof.
  intros p a b Hp H. induction H.
  - split; auto. constructor.
  - unfold everywhere in *. split.
    + intros H1. inversion H1; subst. f_equal; [|tauto]. unfold separated, indistinct, clearly_less in *. lia.
    + intros H1. injection H1 as -> ->. constructor; [unfold indistinct; lia | tauto].
Qed.

Lemma separated_pareto : forall p a b, 0 < p -> everywhere (separated p) a b ->
  (pareto a b <-> somewhere (clearly_less p) a b /\ ~ somewhere (clearly_less p) b a).
Proof.
  intros p a b Hp H. unfold pareto.
  assert (G : (everywhere Z.le a b <-> ~ somewhere (clearly_less p) b a) /\
              (somewhere Z.lt a b <-> somewhere (clearly_less p) a b)).
  { induction H.
    - split; split; intros; try constructor; try (exfalso; eapply somewhere_nil_l; eauto; fail); apply somewhere_nil_l.
    - destruct IHForall2 as [I1 I2]. rewrite !somewhere_cons. unfold everywhere in *. split; split.
      + intros H1. inversion H1; subst. unfold clearly_less at 1. intros [?|?]; [lia|tauto].
      + intros H1. constructor; [|tauto]. unfold separated, clearly_less in *. lia.
      + intros [?|?]; [left | right; tauto]. unfold separated, clearly_less in *. lia.
      + intros [?|?]; [left | right; tauto]. unfold separated, clearly_less in *. lia. }
  tauto.
Qed.

Theorem dominance_separated : forall p a b, 0 < p -> everywhere (separated p) a b ->
  (mo_get_dominance p a b = 1 <-> pareto a b) /\
  (mo_get_dominance p a b = -1 <-> pareto b a) /\
  (mo_get_dominance p a b = -2 <-> a = b) /\
  (mo_get_dominance p a b = 0 <-> a <> b /\ ~ pareto a b /\ ~ pareto b a).
Proof.
  intros p a b Hp H.
  assert (Hl : length a = length b) by (clear Hp; induction H; simpl; auto).
  assert (H' : everywhere (separated p) b a).
  { clear Hl. induction H; constructor; auto. unfold separated in *. intuition. }
  pose proof (separated_indistinct _ _ _ Hp H) as SI.
  pose proof (separated_pareto _ _ _ Hp H) as P1.
  pose proof (separated_pareto _ _ _ Hp H') as P2.
  pose proof (indistinct_not_somewhere p a b) as IN.
  pose proof (dominance_answers p a b Hp Hl) as [[-> D]|[[-> D]|[[-> D]|[-> D]]]];
  (split; [|split; [|split]]); split; intros; try discriminate; try tauto; try lia.
Qed.

Lemma pareto_trans : forall a b c, pareto a b -> pareto b c -> pareto a c.
Proof.
  intros a b c [H1 H2] [H3 _]. unfold pareto. split.
  - clear H2. revert c H3. induction H1; intros c H3; inversion H3; subst; constructor; [lia | auto].
    now apply IHForall2.
  - clear -H2 H3. revert b c H2 H3. induction a as [|x a IH]; intros b c H2 H3.
    + exfalso. eapply somewhere_nil_l; eauto.
    + destruct b as [|y b]. { destruct H2 as (i & u & v & _ & H & _). destruct i; discriminate. }
      inversion H3; subst. rewrite somewhere_cons in *. destruct H2; [left; lia | right; eauto].
Qed.

(** Bi-objective vectors. *)
Lemma dominance_pairs : forall p q,
  dominance p q =
  (let l0 := (mo_precision <=? fst q - fst p) in let g0 := (mo_precision <=? fst p - fst q) in
   let l1 := (mo_precision <=? snd q - snd p) in let g1 := (mo_precision <=? snd p - snd q) in
   if (l0 || l1) then (if g0 || g1 then 0 else 1) else (if g0 || g1 then -1 else -2)).
Proof.
  intros [p0 p1] [q0 q1]. unfold dominance, mo_get_dominance, vec, dominance_flags, almost_equal, mo_precision.
  cbn [fst snd].
  destruct (Z.ltb_spec (Z.abs (p0 - q0)) 2), (Z.ltb_spec (Z.abs (p1 - q1)) 2),
   (Z.ltb_spec p0 q0), (Z.ltb_spec q0 p0), (Z.ltb_spec p1 q1), (Z.ltb_spec q1 p1),
   (Z.leb_spec 2 (q0 - p0)), (Z.leb_spec 2 (p0 - q0)), (Z.leb_spec 2 (q1 - p1)), (Z.leb_spec 2 (p1 - q1));
   simpl; try reflexivity; lia.
Qed.
