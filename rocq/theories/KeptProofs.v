(** The kept solutions of a history. *)
From Coq Require Import List Arith ZArith Bool Lia ZifyBool Sorted.
Import ListNotations.
From Verif Require Import CBase FrontSpec FrontProofs AreaProofs.
Open Scope Z_scope.

Section Solutions.
Context {T : Type}.
Notation entry := ((Z * Z) * T)%type.

Definition ept (e : entry) : Z * Z := fst e.

Definition any_weakly (l : list entry) (e : entry) : bool := existsb (fun f : entry => weakly (fst f) (fst e)) l.

Lemma kept_after_snoc : forall h E e,
  kept_after E (h ++ [e]) =
  filter (fun f : entry => negb (dominates (fst e) (fst f))) (kept_after E h) ++
  (if any_weakly (E ++ h) e then [] else [e]).
Proof.
  induction h as [|f h IH]; intros E e; simpl.
  - rewrite orb_false_r, !app_nil_r. reflexivity.
  - rewrite IH. rewrite existsb_app. simpl. rewrite orb_false_r.
    rewrite <- app_assoc. simpl. rewrite filter_app, <- app_assoc. f_equal.
    match goal with |- context [existsb ?g E || _] => destruct (existsb g E); simpl; auto end.
    match goal with |- context [existsb ?g h || _] => destruct (existsb g h); simpl; auto end.
    destruct (dominates (fst e) (fst f)); reflexivity.
Qed.

Lemma kept_snoc : forall (h : list entry) e,
  kept (h ++ [e]) = filter (fun f : entry => negb (dominates (fst e) (fst f))) (kept h) ++
                    (if accepted h e then [e] else []).
Proof.
  intros. unfold kept. rewrite kept_after_snoc. simpl. unfold accepted, any_weakly.
  match goal with |- context [existsb ?g h] => destruct (existsb g h); reflexivity end.
Qed.

(** Facts about the kept solutions. *)
Record kept_facts (h : list entry) : Prop := {
  kf_sub : forall e, In e (kept h) -> In e h;
  kf_pairs : ForallOrdPairs (fun a b => weakly (fst a) (fst b) = false /\ weakly (fst b) (fst a) = false) (kept h);
  kf_cover : forall g, In g h -> exists f, In f (kept h) /\ weakly (fst f) (fst g) = true;
  kf_undom : forall f g, In f (kept h) -> In g h -> dominates (fst g) (fst f) = false }.

Lemma pairs_snoc : forall A (R : A -> A -> Prop) l x, ForallOrdPairs R l -> Forall (fun a => R a x) l ->
  ForallOrdPairs R (l ++ [x]).
Proof.
  intros A R l x H. induction H; intros F; simpl.
  - repeat constructor.
  - inversion F; subst. constructor; auto. apply Forall_app. auto.
Qed.

Lemma pairs_filter : forall A (R : A -> A -> Prop) f l, ForallOrdPairs R l -> ForallOrdPairs R (filter f l).
Proof.
  intros A R f l H. induction H; simpl; [constructor|]. destruct (f a); auto. constructor; auto.
  rewrite Forall_forall in *. intros b Hb. apply filter_In in Hb. now apply H.
Qed.

Lemma accepted_false : forall (h : list entry) e, accepted h e = false <-> exists f, In f h /\ weakly (fst f) (fst e) = true.
Proof.
  intros. unfold accepted. split.
  - intros H. apply negb_false_iff, existsb_exists in H. exact H.
  - intros H. apply negb_false_iff, existsb_exists. exact H.
Qed.

Lemma accepted_true : forall (h : list entry) e, accepted h e = true <-> forall f, In f h -> weakly (fst f) (fst e) = false.
Proof.
  intros. split.
  - intros H f Hf. destruct (weakly (fst f) (fst e)) eqn:W; auto.
    assert (accepted h e = false) by (apply accepted_false; eauto). congruence.
  - intros H. destruct (accepted h e) eqn:A; auto. apply accepted_false in A as (f & Hf & W).
    rewrite H in W; auto.
Qed.

Lemma filter_id : forall A (f : A -> bool) l, (forall x, In x l -> f x = true) -> filter f l = l.
Proof.
  induction l as [|x l IH]; intros H; simpl; auto. rewrite H by now left. f_equal. apply IH. intros; apply H; now right.
Qed.

Lemma dominates_trans_l : forall p q r, weakly p q = true -> dominates q r = true -> dominates p r = true.
Proof. unfold dominates, weakly. intros p q r; lia. Qed.
Lemma dominates_trans_r : forall p q r, dominates p q = true -> weakly q r = true -> dominates p r = true.
Proof. unfold dominates, weakly. intros p q r; lia. Qed.
Lemma dominates_not_weakly : forall p q, dominates p q = true -> weakly q p = true -> False.
Proof. unfold dominates. intros; lia. Qed.

Lemma kept_rejected : forall (h : list entry) e, kept_facts h -> accepted h e = false -> kept (h ++ [e]) = kept h.
Proof.
  intros h e K A. rewrite kept_snoc, A, app_nil_r. apply filter_id.
  intros f Hf. apply negb_true_iff. destruct (dominates (fst e) (fst f)) eqn:D; auto.
  apply accepted_false in A as (g & Hg & W).
  rewrite <- (kf_undom h K f g Hf Hg). symmetry. eapply dominates_trans_l; eauto.
Qed.

Lemma kept_facts_all : forall (h : list entry), kept_facts h.
Proof.
  intros h. induction h as [|e h K] using rev_ind.
  - constructor; simpl; try tauto. constructor.
  - destruct (accepted h e) eqn:A.
    + pose proof (kept_snoc h e) as E. rewrite A in E.
      pose proof (proj1 (accepted_true h e) A) as AT.
      constructor; rewrite E.
      * intros f Hf. apply in_app_or in Hf as [Hf|[<-|[]]]; [|apply in_or_app; right; now left].
        apply filter_In in Hf as [Hf _]. apply in_or_app. left. now apply (kf_sub h K).
      * apply pairs_snoc; [apply pairs_filter, (kf_pairs h K)|].
        rewrite Forall_forall. intros f Hf. apply filter_In in Hf as [Hf Hd].
        assert (W : weakly (fst f) (fst e) = false) by (apply AT, (kf_sub h K); auto).
        split; auto. apply negb_true_iff in Hd. unfold dominates in Hd. rewrite W in Hd. destruct (weakly (fst e) (fst f)); auto.
      * intros g Hg. apply in_app_or in Hg as [Hg|[<-|[]]].
        { destruct (kf_cover h K g Hg) as (f & Hf & W).
          destruct (dominates (fst e) (fst f)) eqn:D.
          - exists e. split; [apply in_or_app; right; now left|]. eapply weakly_trans; [apply dominates_weakly, D|exact W].
          - exists f. split; auto. apply in_or_app. left. apply filter_In. rewrite D. auto. }
        { exists e. split; [apply in_or_app; right; now left|]. apply weakly_refl. }
      * intros f g Hf Hg. apply in_app_or in Hg as [Hg|[<-|[]]]; apply in_app_or in Hf as [Hf|[<-|[]]].
        { apply filter_In in Hf as [Hf _]. now apply (kf_undom h K). }
        { specialize (AT g Hg). unfold dominates. rewrite AT. reflexivity. }
        { apply filter_In in Hf as [_ Hf]. now apply negb_true_iff in Hf. }
        { unfold dominates. destruct (weakly (fst e) (fst e)); reflexivity. }
    + pose proof (kept_rejected h e K A) as E. apply accepted_false in A as (w & Hw & W).
      constructor; rewrite E.
      * intros f Hf. apply in_or_app. left. now apply (kf_sub h K).
      * apply (kf_pairs h K).
      * intros g Hg. apply in_app_or in Hg as [Hg|[<-|[]]]; [now apply (kf_cover h K)|].
        destruct (kf_cover h K w Hw) as (f & Hf & Wf). exists f. split; auto. eapply weakly_trans; eauto.
      * intros f g Hf Hg. apply in_app_or in Hg as [Hg|[<-|[]]]; [now apply (kf_undom h K)|].
        destruct (dominates (fst e) (fst f)) eqn:D; auto.
        rewrite <- (kf_undom h K f w Hf Hw). symmetry. eapply dominates_trans_l; eauto.
Qed.

(** Sorting. *)
Lemma insert_entry_In : forall (e : entry) l f, In f (insert_entry e l) <-> f = e \/ In f l.
Proof.
  induction l as [|g l IH]; intros f; simpl.
  - intuition.
  - destruct (snd (fst e) <? snd (fst g)); simpl; [intuition|]. rewrite IH. intuition.
Qed.

Lemma sort_entries_In : forall (l : list entry) f, In f (sort_entries l) <-> In f l.
Proof. induction l as [|e l IH]; intros f; simpl; [tauto|]. rewrite insert_entry_In, IH. intuition. Qed.

Lemma insert_entry_stair : forall e l, stair _ ept l ->
  (forall f, In f l -> weakly (fst e) (fst f) = false /\ weakly (fst f) (fst e) = false) -> stair _ ept (insert_entry e l).
Proof.
  intros e l Hs. unfold stair in *. induction Hs as [|g l Hs IH Hf]; intros Hi; simpl.
  - repeat constructor.
  - destruct (Hi g (or_introl eq_refl)) as [I1 I2].
    destruct (Z.ltb_spec (snd (fst e)) (snd (fst g))).
    + assert (St : step _ ept e g) by (unfold step, ept; unfold weakly in *; lia).
      constructor; [constructor; auto|]. constructor; auto.
      rewrite Forall_forall in *. intros b Hb. eapply step_trans; eauto.
    + assert (St : step _ ept g e) by (unfold step, ept; unfold weakly in *; lia).
      constructor; [apply IH; intros; apply Hi; now right|].
      rewrite Forall_forall in *. intros b Hb. apply insert_entry_In in Hb as [->|Hb]; auto.
Qed.

Lemma front_stair : forall (h : list entry), stair _ ept (front h).
Proof.
  intros h. unfold front. pose proof (kf_pairs h (kept_facts_all h)) as H.
  induction H; simpl; [constructor|]. apply insert_entry_stair; auto.
  intros f Hf. rewrite sort_entries_In in Hf. rewrite Forall_forall in H. apply H, Hf.
Qed.

Lemma front_In : forall (h : list entry) e, In e (front h) <-> In e (kept h).
Proof. intros. apply sort_entries_In. Qed.

Lemma stair_unique : forall A (pt : A -> Z * Z) l1 l2, stair A pt l1 -> stair A pt l2 ->
  (forall e, In e l1 <-> In e l2) -> l1 = l2.
Proof.
  intros A pt. induction l1 as [|a l1 IH]; intros l2 H1 H2 E.
  - destruct l2 as [|b l2]; auto. destruct (proj2 (E b) (or_introl eq_refl)).
  - destruct l2 as [|b l2]; [destruct (proj1 (E a) (or_introl eq_refl))|].
    unfold stair in *. inversion H1; subst. inversion H2; subst. rewrite Forall_forall in *.
    assert (a = b).
    { destruct (proj1 (E a) (or_introl eq_refl)) as [->|Ha]; auto.
      destruct (proj2 (E b) (or_introl eq_refl)) as [->|Hb]; auto.
      specialize (H4 b Hb). specialize (H6 a Ha). unfold step in *. lia. }
    subst b. f_equal. apply IH; auto. intros e. split; intros He.
    + destruct (proj1 (E e) (or_intror He)) as [->|]; auto. specialize (H4 e He). unfold step in H4. lia.
    + destruct (proj2 (E e) (or_intror He)) as [->|]; auto. specialize (H6 e He). unfold step in H6. lia.
Qed.

Lemma front_rejected : forall (h : list entry) e, accepted h e = false -> front (h ++ [e]) = front h.
Proof. intros h e A. unfold front. rewrite kept_rejected; auto. apply kept_facts_all. Qed.

Lemma accepted_front : forall (h : list entry) e, accepted h e = negb (existsb (fun f => weakly (ept f) (ept e)) (front h)).
Proof.
  intros h e. destruct (accepted h e) eqn:A.
  - symmetry. apply negb_true_iff. destruct (existsb _ (front h)) eqn:X; auto.
    apply existsb_exists in X as (f & Hf & W). rewrite front_In in Hf. unfold ept in W.
    rewrite (proj1 (accepted_true h e) A f) in W; [discriminate|]. now apply (kf_sub h (kept_facts_all h)).
  - symmetry. apply negb_false_iff, existsb_exists. apply accepted_false in A as (g & Hg & W).
    destruct (kf_cover h (kept_facts_all h) g Hg) as (f & Hf & Wf). exists f. rewrite front_In. split; auto.
    unfold ept. eapply weakly_trans; eauto.
Qed.

Lemma front_accepted : forall (h : list entry) e, accepted h e = true -> front (h ++ [e]) = updated _ ept e (front h).
Proof.
  intros h e A. apply stair_unique with (pt := ept).
  - apply front_stair.
  - apply updated_stair; [apply front_stair|]. rewrite accepted_front in A. now apply negb_true_iff.
  - intros f. rewrite front_In, kept_snoc, A, updated_In by apply front_stair.
    rewrite in_app_iff, filter_In, front_In. simpl. unfold ept. rewrite negb_true_iff. intuition.
Qed.

(** The dominated area is that of the front. *)
Lemma covered_front : forall (h : list entry) c, covered (map fst h) c = covered (map fst (front h)) c.
Proof.
  intros h c. unfold covered. apply eq_true_iff_eq. rewrite !existsb_exists. split.
  - intros (p & Hp & W). apply in_map_iff in Hp as (g & <- & Hg).
    destruct (kf_cover h (kept_facts_all h) g Hg) as (f & Hf & Wf).
    exists (fst f). split; [apply in_map, front_In, Hf|]. eapply weakly_trans; eauto.
  - intros (p & Hp & W). apply in_map_iff in Hp as (g & <- & Hg). rewrite front_In in Hg.
    exists (fst g). split; auto. apply in_map. now apply (kf_sub h (kept_facts_all h)).
Qed.

Lemma stair_map : forall A (pt : A -> Z * Z) l, stair A pt l -> stair _ ptid (map pt l).
Proof.
  intros A pt l H. unfold stair in *. induction H; simpl; constructor; auto.
  rewrite Forall_forall in *. intros p Hp. apply in_map_iff in Hp as (a' & <- & Ha). apply H0. exact Ha.
Qed.

Lemma area_front : forall n (h : list entry), (forall p, In p (map fst (front h)) -> 0 <= fst p <= n /\ 0 <= snd p <= n) ->
  area n (map fst h) = stair_area n n (map fst (front h)).
Proof.
  intros n h H. rewrite <- stair_area_spec; auto.
  - apply area_ext. intros c _. apply covered_front.
  - apply (stair_map entry ept), front_stair.
Qed.

(** The specification itself. *)
Lemma kept_after_In : forall (h E : list entry) e, In e (kept_after E h) <->
  exists h1 h2, h = h1 ++ e :: h2 /\ (forall f, In f (E ++ h1) -> weakly (fst f) (fst e) = false) /\
                (forall f, In f h2 -> dominates (fst f) (fst e) = false).
Proof.
  assert (EF : forall (g : entry -> bool) l, existsb g l = false <-> forall f, In f l -> g f = false).
  { intros g l. split.
    - intros H f Hf. destruct (g f) eqn:G; auto. assert (existsb g l = true) by (apply existsb_exists; eauto). congruence.
    - intros H. destruct (existsb g l) eqn:X; auto. apply existsb_exists in X as (f & Hf & G). rewrite H in G; auto. }
  induction h as [|x h IH]; intros E e; simpl.
  - split; [tauto|]. intros (h1 & h2 & X & _). destruct h1; discriminate.
  - rewrite in_app_iff, IH. split.
    + intros [H|(h1 & h2 & -> & H1 & H2)].
      * destruct (existsb _ E) eqn:X1; [destruct H|]. destruct (existsb _ h) eqn:X2; [destruct H|].
        destruct H as [<-|[]]. exists [], h. rewrite app_nil_r. split; auto. split; now apply EF.
      * exists (x :: h1), h2. split; auto. rewrite <- app_assoc in H1. auto.
    + intros (h1 & h2 & X & H1 & H2). destruct h1 as [|y h1].
      * left. injection X as -> ->. rewrite app_nil_r in H1.
        apply EF in H1. apply EF in H2.
        match goal with |- context [existsb ?g E] => replace (existsb g E) with false by (symmetry; exact H1) end.
        match goal with |- context [existsb ?g h2] => replace (existsb g h2) with false by (symmetry; exact H2) end.
        simpl. now left.
      * right. injection X as -> ->. exists h1, h2. split; auto. rewrite <- app_assoc. auto.
Qed.

Theorem front_members : forall (h : list entry) e, In e (front h) <->
  exists h1 h2, h = h1 ++ e :: h2 /\ (forall f, In f h1 -> weakly (fst f) (fst e) = false) /\
                (forall f, In f h2 -> dominates (fst f) (fst e) = false).
Proof. intros. rewrite front_In. unfold kept. apply kept_after_In. Qed.

End Solutions.
