(** Properties of sequences of mutually non-dominated points sorted by the second objective. *)
From Coq Require Import List Arith ZArith Bool Lia ZifyBool Sorted.
Import ListNotations.
From Verif Require Import CBase MoModel FrontSpec MoSpec MoProofs.
Open Scope Z_scope.

Definition on_grid (p : Z * Z) : Prop := (exists a, fst p = 10 * a) /\ (exists b, snd p = 10 * b).

Lemma normalize_spec : forall k, mo_normalize k = normalised k.
Proof.
  intros [a b]. unfold mo_normalize, normalised, almost_equal, mo_precision, mo_discretization, one, unit.
  cbn [fst snd]. cbv zeta.
  assert (E : forall c, (if c * 10 <? 0 then 0 else c * 10) = Z.max 0 (10 * c)).
  { intros c. destruct (Z.ltb_spec (c * 10) 0); lia. }
  rewrite !E. rewrite !Z.sub_0_r.
  assert (G : forall c, exists d, Z.max 0 (10 * c) = 10 * d /\ 0 <= d) by (intros c; exists (Z.max 0 c); lia).
  destruct (G a) as (x & -> & Hx). destruct (G b) as (y & -> & Hy). clear E G.
  destruct (Z.ltb_spec (Z.abs (10 * x)) 2); cbn [andb].
  - destruct (Z.eqb_spec (10 * x) 0); [|lia].
    destruct (Z.ltb_spec (10 * y) 20000000000000).
    + destruct (Z.ltb_spec (Z.abs 20000000000000) 2); [lia|]. cbn [andb]. f_equal; lia.
    + destruct (Z.ltb_spec (Z.abs (10 * y)) 2); [lia|]. cbn [andb]. f_equal; lia.
  - destruct (Z.eqb_spec (10 * x) 0); [lia|].
    destruct (Z.ltb_spec (Z.abs (10 * y)) 2); cbn [andb].
    + destruct (Z.eqb_spec (10 * y) 0); [|lia].
      destruct (Z.ltb_spec (10 * x) 20000000000000); f_equal; lia.
    + destruct (Z.eqb_spec (10 * y) 0); [lia|reflexivity].
Qed.

Lemma normalised_grid : forall k, on_grid (normalised k).
Proof.
  intros [a b]. unfold normalised, on_grid, unit. cbn [fst snd].
  destruct (Z.eqb_spec (Z.max 0 (10 * a)) 0); [|destruct (Z.eqb_spec (Z.max 0 (10 * b)) 0)]; cbn [fst snd].
  - split; [exists 0; lia |]. exists (Z.max 2000000000000 b). lia.
  - split; [|exists 0; lia]. exists (Z.max 2000000000000 a). lia.
  - split; [exists a | exists b]; lia.
Qed.

(** Normalised points do not reach beyond the extremes. *)
Definition proper (p : Z * Z) : Prop :=
  0 <= fst p /\ 0 <= snd p /\ (fst p = 0 -> unit <= snd p) /\ (snd p = 0 -> unit <= fst p).

Lemma normalised_proper : forall k, proper (normalised k).
Proof.
  intros [a b]. unfold normalised, proper, unit. cbn [fst snd].
  destruct (Z.eqb_spec (Z.max 0 (10 * a)) 0); [|destruct (Z.eqb_spec (Z.max 0 (10 * b)) 0)]; cbn [fst snd]; lia.
Qed.

Lemma grid_dominance : forall p q, on_grid p -> on_grid q ->
  (dominance p q =? 1) = dominates p q /\ (-1 <? dominance p q) = negb (weakly q p).
Proof.
  intros p q [[a Ha] [b Hb]] [[c Hc] [d Hd]]. rewrite dominance_pairs. unfold mo_precision, dominates, weakly.
  cbv zeta. rewrite Ha, Hb, Hc, Hd.
  repeat (match goal with |- context [?x <=? ?y] => destruct (Z.leb_spec x y) end); simpl; split; try reflexivity; lia.
Qed.

Lemma grid_compare : forall p q, on_grid p -> on_grid q ->
  (compare_last p q <? 0) = (snd p <? snd q) /\ (compare_last p q =? 0) = (snd p =? snd q).
Proof.
  intros p q [_ [b Hb]] [_ [d Hd]]. unfold compare_last, almost_equal, mo_precision. rewrite Hb, Hd.
  destruct (Z.ltb_spec (Z.abs (10 * b - 10 * d)) 2), (Z.ltb_spec (10 * b) (10 * d)), (Z.eqb_spec (10 * b) (10 * d));
    simpl; split; try reflexivity; lia.
Qed.

Lemma weakly_trans : forall p q r, weakly p q = true -> weakly q r = true -> weakly p r = true.
Proof. unfold weakly. intros p q r; lia. Qed.
Lemma weakly_refl : forall p, weakly p p = true.
Proof. unfold weakly. intros p; lia. Qed.
Lemma dominates_weakly : forall p q, dominates p q = true -> weakly p q = true.
Proof. unfold dominates. intros; lia. Qed.

Lemma last_opt_cases : forall A (l : list A),
  (last_opt l = None /\ l = []) \/ exists l0 n, last_opt l = Some n /\ l = l0 ++ [n].
Proof.
  intros A l. unfold last_opt. destruct (rev l) as [|n r] eqn:E.
  - left. split; auto. rewrite <- (rev_involutive l), E. reflexivity.
  - right. exists (rev r), n. split; auto. rewrite <- (rev_involutive l), E. reflexivity.
Qed.

Section Front.
Variable A : Type.
Variable pt : A -> Z * Z.

Definition step (a b : A) : Prop := snd (pt a) < snd (pt b) /\ fst (pt b) < fst (pt a).
Definition stair (l : list A) : Prop := StronglySorted step l.
Definition gridded (l : list A) : Prop := Forall (fun a => on_grid (pt a)) l.
Definition cmp_pt (a b : A) : Z := compare_last (pt a) (pt b).

Lemma step_trans : forall a b c, step a b -> step b c -> step a c.
Proof. unfold step. intros. lia. Qed.

Lemma stair_app : forall l1 l2, stair (l1 ++ l2) <->
  stair l1 /\ stair l2 /\ (forall a b, In a l1 -> In b l2 -> step a b).
Proof.
  unfold stair. induction l1 as [|x l1 IH]; intros l2; simpl.
  - split; [intros H; split; [constructor|split; auto; intros ? ? []] | tauto].
  - split.
    + intros H. inversion H; subst. apply IH in H2 as (H2 & H4 & H5).
      rewrite Forall_app in H3. destruct H3 as [H3 H6]. rewrite Forall_forall in H6.
      split; [constructor; auto|]. split; auto. intros a b [->|Ha] Hb; auto.
    + intros (H1 & H2 & H3). inversion H1; subst. constructor.
      * apply IH. split; auto. 
      * rewrite Forall_app. split; auto. rewrite Forall_forall. intros b Hb. apply H3; auto.
Qed.

Lemma stair_filter : forall f l, stair l -> stair (filter f l).
Proof.
  intros f l H. unfold stair in *. induction H; simpl; [constructor|].
  destruct (f a); auto. constructor; auto.
  rewrite Forall_forall in *. intros b Hb. apply filter_In in Hb. now apply H0.
Qed.

(** The elements not above / above a point, in the second objective. *)
Definition low (x : A) (l : list A) : list A := filter (fun e => snd (pt e) <=? snd (pt x)) l.
Definition high (x : A) (l : list A) : list A := filter (fun e => snd (pt x) <? snd (pt e)) l.

Lemma high_all : forall x l, Forall (fun e => snd (pt x) < snd (pt e)) l -> low x l = [] /\ high x l = l.
Proof.
  intros x l H. induction H; simpl; auto. destruct IHForall as [-> ->].
  destruct (Z.leb_spec (snd (pt x0)) (snd (pt x))), (Z.ltb_spec (snd (pt x)) (snd (pt x0))); auto; lia.
Qed.

Lemma split_right_spec : forall x l, on_grid (pt x) -> gridded l -> stair l ->
  split_right A cmp_pt x l = (low x l, high x l).
Proof.
  intros x l Hx Hg Hs. unfold stair in Hs. induction Hs as [|e l Hs IH Hf]; [reflexivity|].
  inversion Hg; subst. destruct (grid_compare (pt x) (pt e) Hx H1) as [Hc _].
  simpl. unfold cmp_pt at 1. rewrite Hc. destruct (Z.ltb_spec (snd (pt x)) (snd (pt e))).
  - assert (F : Forall (fun e => snd (pt x) < snd (pt e)) l).
    { rewrite Forall_forall in *. intros b Hb. specialize (Hf b Hb). unfold step in Hf. lia. }
    destruct (high_all x l F) as [-> ->].
    destruct (Z.leb_spec (snd (pt e)) (snd (pt x))); [lia|reflexivity].
  - rewrite IH by auto. destruct (Z.leb_spec (snd (pt e)) (snd (pt x))); [reflexivity | lia].
Qed.

Lemma low_high : forall x l, stair l -> l = low x l ++ high x l.
Proof.
  intros x l Hs. unfold stair in Hs. induction Hs as [|e l Hs IH Hf]; [reflexivity|]. simpl.
  destruct (Z.leb_spec (snd (pt e)) (snd (pt x))), (Z.ltb_spec (snd (pt x)) (snd (pt e))); try lia; simpl.
  - now rewrite <- IH.
  - assert (F : Forall (fun e => snd (pt x) < snd (pt e)) l).
    { rewrite Forall_forall in *. intros b Hb. specialize (Hf b Hb). unfold step in Hf. lia. }
    destruct (high_all x l F) as [-> ->]. reflexivity.
Qed.

Lemma search_spec : forall x l, on_grid (pt x) -> gridded l ->
  search A cmp_pt x l = find (fun e => snd (pt x) =? snd (pt e)) l.
Proof.
  intros x l Hx Hg. unfold search. induction Hg; simpl; auto.
  unfold cmp_pt at 1. destruct (grid_compare (pt x) (pt x0) Hx H) as [_ ->].
  destruct (snd (pt x) =? snd (pt x0)); auto.
Qed.

Lemma existsb_true_in : forall (f : A -> bool) l a, In a l -> f a = true -> existsb f l = true.
Proof. intros. apply existsb_exists. eauto. Qed.

(** The last element not above x decides whether x is weakly dominated. *)
Lemma weakly_by_last : forall x l, stair l ->
  match last_opt (low x l) with
  | None => existsb (fun e => weakly (pt e) (pt x)) l = false
  | Some n => existsb (fun e => weakly (pt e) (pt x)) l = weakly (pt n) (pt x)
  end.
Proof.
  intros x l Hs.
  destruct (last_opt_cases _ (low x l)) as [[-> E] | (l0 & n & -> & E)].
  - destruct (existsb _ l) eqn:X; auto. apply existsb_exists in X as (e & He & W).
    assert (In e (low x l)) by (unfold low; apply filter_In; split; auto; unfold weakly in W; lia).
    rewrite E in H. destruct H.
  - assert (Hn : In n l /\ (snd (pt n) <=? snd (pt x)) = true).
    { unfold low in E. apply (filter_In (fun e => snd (pt e) <=? snd (pt x))). rewrite E. apply in_or_app. right. now left. }
    destruct (weakly (pt n) (pt x)) eqn:W.
    + eapply existsb_true_in; [apply Hn | exact W].
    + destruct (existsb _ l) eqn:X; auto. apply existsb_exists in X as (e & He & We).
      assert (Hi : In e (low x l)) by (unfold low; apply filter_In; split; auto; unfold weakly in We; lia).
      assert (Hs' : stair (l0 ++ [n])) by (rewrite <- E; now apply stair_filter).
      rewrite E in Hi. apply in_app_or in Hi as [Hi|[<-|[]]]; [|congruence].
      apply stair_app in Hs' as (_ & _ & G). specialize (G e n Hi (or_introl eq_refl)).
      unfold step in G. unfold weakly in *. lia.
Qed.

Definition undominated (x : A) (l : list A) : list A := filter (fun e => negb (dominates (pt x) (pt e))) l.

(** Lower elements are dominated only at the end of the lower part. *)
Lemma low_undominated : forall x l, stair l -> existsb (fun e => weakly (pt e) (pt x)) l = false ->
  match last_opt (low x l) with
  | None => low x l = []
  | Some n => undominated x (low x l) = (if dominates (pt x) (pt n) then removelast (low x l) else low x l)
  end.
Proof.
  intros x l Hs Hw.
  destruct (last_opt_cases _ (low x l)) as [[-> E] | (l0 & n & -> & E)]; auto.
  assert (Hs' : stair (l0 ++ [n])) by (rewrite <- E; now apply stair_filter).
  assert (Hl : forall e, In e (l0 ++ [n]) -> snd (pt e) <= snd (pt x) /\ fst (pt x) < fst (pt e)).
  { intros e He. rewrite <- E in He. unfold low in He. apply filter_In in He as [He1 He2]. split; [lia|].
    destruct (Z.le_gt_cases (fst (pt e)) (fst (pt x))); [|lia].
    assert (W : weakly (pt e) (pt x) = true) by (unfold weakly; lia).
    rewrite (existsb_true_in _ _ e He1 W) in Hw. discriminate. }
  rewrite E. unfold undominated. rewrite filter_app, removelast_last.
  apply stair_app in Hs' as (_ & _ & G).
  assert (F : filter (fun e => negb (dominates (pt x) (pt e))) l0 = l0).
  { assert (Q : forall e, In e l0 -> negb (dominates (pt x) (pt e)) = true).
    { intros e He. specialize (G e n He (or_introl eq_refl)). unfold step in G.
      destruct (Hl n) as [? ?]; [apply in_or_app; right; now left|].
      unfold dominates, weakly. lia. }
    clear -Q. induction l0; simpl; auto. rewrite Q by now left. f_equal. apply IHl0. intros; apply Q. now right. }
  rewrite F. simpl. destruct (dominates (pt x) (pt n)); simpl; auto. now rewrite app_nil_r.
Qed.

(** The new sequence. *)
Definition updated (x : A) (l : list A) : list A :=
  undominated x (low x l) ++ x :: undominated x (high x l).

Lemma undominated_app : forall x l1 l2, undominated x (l1 ++ l2) = undominated x l1 ++ undominated x l2.
Proof. intros. apply filter_app. Qed.

Lemma updated_In : forall x l e, stair l -> (In e (updated x l) <-> e = x \/ (In e l /\ dominates (pt x) (pt e) = false)).
Proof.
  intros x l e Hs. unfold updated. rewrite in_app_iff. simpl. unfold undominated, low, high.
  rewrite !filter_In. split.
  - intros [[[H1 H2] H3]|[H|[[H1 H2] H3]]]; auto; right; split; auto; destruct (dominates _ _); auto; discriminate.
  - intros [->|[H1 H2]]; auto. rewrite H2.
    destruct (Z.leb_spec (snd (pt e)) (snd (pt x))); [left; auto|]. right. right. repeat split; auto. lia.
Qed.

Lemma updated_stair : forall x l, stair l -> existsb (fun e => weakly (pt e) (pt x)) l = false ->
  stair (updated x l).
Proof.
  intros x l Hs Hw. unfold updated.
  assert (S1 : stair (undominated x (low x l))) by (apply stair_filter, stair_filter, Hs).
  assert (S2 : stair (undominated x (high x l))) by (apply stair_filter, stair_filter, Hs).
  assert (E1 : forall e, In e (undominated x (low x l)) -> step e x).
  { intros e He. unfold undominated, low in He. rewrite !filter_In in He. destruct He as [[He1 He2] He3].
    assert (W : weakly (pt e) (pt x) = false).
    { destruct (weakly (pt e) (pt x)) eqn:W; auto. rewrite (existsb_true_in _ _ e He1 W) in Hw. discriminate. }
    unfold step. unfold dominates, weakly in *. lia. }
  assert (E2 : forall e, In e (undominated x (high x l)) -> step x e).
  { intros e He. unfold undominated, high in He. rewrite !filter_In in He. destruct He as [[He1 He2] He3].
    unfold step. unfold dominates, weakly in *. lia. }
  apply stair_app. split; auto. split.
  - constructor; auto. now apply Forall_forall.
  - intros a b Ha [<-|Hb]; auto. apply step_trans with x; auto.
Qed.

(** Removing dominated elements one by one from the front of the upper part. *)
Fixpoint drop_dominated (x : A) (l : list A) : list A :=
  match l with
  | [] => []
  | e :: l' => if dominates (pt x) (pt e) then drop_dominated x l' else l
  end.

Lemma drop_dominated_spec : forall x l, stair l -> (forall e, In e l -> snd (pt x) < snd (pt e)) ->
  drop_dominated x l = undominated x l.
Proof.
  intros x l Hs. unfold stair in Hs. induction Hs as [|e l Hs IH Hf]; intros Hh; [reflexivity|].
  simpl. destruct (dominates (pt x) (pt e)) eqn:D; simpl.
  - apply IH. intros; apply Hh. now right.
  - f_equal. unfold undominated.
    assert (Q : forall b, In b l -> negb (dominates (pt x) (pt b)) = true).
    { intros b Hb. rewrite Forall_forall in Hf. specialize (Hf b Hb). unfold step in Hf.
      specialize (Hh e (or_introl eq_refl)). unfold dominates, weakly in *. lia. }
    clear -Q. induction l; simpl; auto. rewrite Q by now left. f_equal. apply IHl. intros; apply Q. now right.
Qed.

(** Inserting into the pruned sequence always succeeds and gives [updated]. *)
Lemma insert_updated : forall x l, stair l -> gridded l -> on_grid (pt x) ->
  existsb (fun e => weakly (pt e) (pt x)) l = false ->
  insert A cmp_pt x (undominated x (low x l) ++ undominated x (high x l)) = Some (updated x l).
Proof.
  intros x l Hs Hg Hx Hw.
  pose proof (updated_stair x l Hs Hw) as Hu. unfold updated in Hu.
  assert (P : forall e, In e (undominated x (low x l)) -> snd (pt e) < snd (pt x)).
  { intros e He. apply stair_app in Hu as (_ & _ & G). specialize (G e x He (or_introl eq_refl)). unfold step in G. lia. }
  assert (Q : forall e, In e (undominated x (high x l)) -> snd (pt x) < snd (pt e)).
  { intros e He. unfold undominated, high in He. rewrite !filter_In in He. lia. }
  set (l1 := undominated x (low x l)) in *. set (l2 := undominated x (high x l)) in *.
  assert (G1 : gridded (l1 ++ l2)).
  { unfold gridded in *. rewrite Forall_forall in *. intros e He. apply Hg. apply in_app_or in He.
    unfold l1, l2, undominated, low, high in He. rewrite !filter_In in He. tauto. }
  assert (S1 : stair (l1 ++ l2)).
  { apply stair_app in Hu as (A1 & A2 & A3). unfold stair in A2. inversion A2; subst.
    apply stair_app. split; auto. split; auto. intros a b Ha Hb. apply A3; auto. now right. }
  unfold insert. rewrite search_spec by auto.
  destruct (find _ _) as [e|] eqn:F.
  { apply find_some in F as [F1 F2]. apply in_app_or in F1 as [F1|F1]; [specialize (P e F1)|specialize (Q e F1)]; lia. }
  rewrite split_right_spec by auto. unfold updated. fold l1 l2. f_equal.
  assert (L1 : low x (l1 ++ l2) = l1 /\ high x (l1 ++ l2) = l2).
  { unfold low, high. rewrite !filter_app.
    assert (forall l, (forall e, In e l -> snd (pt e) < snd (pt x)) -> filter (fun e => snd (pt e) <=? snd (pt x)) l = l /\ filter (fun e => snd (pt x) <? snd (pt e)) l = []) as Z1.
    { induction l0; simpl; intros HH; auto. destruct IHl0 as [-> ->]; auto. specialize (HH a (or_introl eq_refl)).
      destruct (Z.leb_spec (snd (pt a)) (snd (pt x))), (Z.ltb_spec (snd (pt x)) (snd (pt a))); auto; lia. }
    assert (forall l, (forall e, In e l -> snd (pt x) < snd (pt e)) -> filter (fun e => snd (pt e) <=? snd (pt x)) l = [] /\ filter (fun e => snd (pt x) <? snd (pt e)) l = l) as Z2.
    { induction l0; simpl; intros HH; auto. destruct IHl0 as [-> ->]; auto. specialize (HH a (or_introl eq_refl)).
      destruct (Z.leb_spec (snd (pt a)) (snd (pt x))), (Z.ltb_spec (snd (pt x)) (snd (pt a))); auto; lia. }
    destruct (Z1 l1 P) as [-> ->]. destruct (Z2 l2 Q) as [-> ->]. rewrite app_nil_r. auto. }
  destruct L1 as [-> ->]. reflexivity.
Qed.

End Front.
