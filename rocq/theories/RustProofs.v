(** Proofs about Rust programs. *)
From Coq Require Import String List Arith NArith Ascii Bool Lia.
Import ListNotations.
From Verif Require Import CBase StrModel IdModel HeapModel HeapSpec HeapProofs LoopModel RustModel RustSpec.
Local Notation length := List.length.
Local Open Scope nat_scope.

Definition supports (h : heap) (l : logger) : Prop :=
  match lg_kind l with
  | KToy => exists b o, lg_observer l = Some b /\ observer_exists h b o
  | KRw => True
  | _ => lg_observer l <> None
  end.
Record sane (h : heap) : Prop := {
  s_good : good h;
  s_supported : forall w p l, problem_exists h w p -> p_logger p = Some l -> supports h l;
  s_names : forall x p, problem_exists h x p -> p_logger p = None -> plain_name (p_name p);
  s_observers : forall b o, observer_exists h b o -> exists e, o_name o = name_str e }.
Record vars (h : heap) (ps os : list (option addr)) : Prop := {
  v_out : forall i a, look ps i = Some a -> outermost h a;
  v_one : forall i j a, look ps i = Some a -> look ps j = Some a -> i = j;
  v_obs : forall i b, look os i = Some b -> exists o, observer_exists h b o;
  v_obs_one : forall i j b, look os i = Some b -> look os j = Some b -> i = j }.

Definition own (h : heap) (ps os : list (option addr)) : Prop :=
  (forall b o, observer_exists h b o -> exists j, look os j = Some b) /\
  (forall x p, problem_exists h x p -> exists i a, look ps i = Some a /\ inside h a x).

(** Variables *)
Lemma look_lt : forall l i a, look l i = Some a -> i < length l.
Proof. intros l i a H. unfold look in H. destruct (nth_error l i) eqn:E; [|discriminate]. apply nth_error_Some. congruence. Qed.
Lemma look_snoc : forall l v i, look (l ++ [v]) i = if i =? length l then v else look l i.
Proof. intros l v i. unfold look. rewrite nth_snoc. destruct (i =? length l); [|reflexivity]. destruct v; reflexivity. Qed.
Lemma look_upd : forall l v i j, i < length l -> look (upd l i v) j = if j =? i then v else look l j.
Proof. intros l v i j L. unfold look. rewrite nth_upd by exact L. destruct (j =? i); [|reflexivity]. destruct v; reflexivity. Qed.

(** A change that removes the problems in F and the observers in G *)
Record trans (F G : addr -> Prop) (h h' : heap) : Prop := {
  t_kept : forall x p, problem_exists h x p -> ~ F x -> exists p', problem_exists h' x p' /\ touched_problem p p';
  t_old : forall x p', problem_exists h' x p' -> ~ F x /\ exists p, problem_exists h x p /\ touched_problem p p';
  t_obs : forall b o, observer_exists h b o -> ~ G b -> exists o', observer_exists h' b o' /\ o_name o' = o_name o /\ o_kind o' = o_kind o;
  t_obs_old : forall b o', observer_exists h' b o' -> ~ G b /\ exists o, observer_exists h b o /\ o_name o' = o_name o }.

Lemma touched_some : forall p p' l', touched_problem p p' -> p_logger p' = Some l' ->
  exists l, p_logger p = Some l /\ lg_kind l' = lg_kind l /\ lg_inner l' = lg_inner l /\ lg_observer l' = lg_observer l.
Proof. intros p p' l' (_ & _ & T) E. rewrite E in T. destruct (p_logger p) as [l|]; [|destruct T]. exists l. cbn in T. tauto. Qed.
Lemma touched_none : forall p p', touched_problem p p' -> p_logger p' = None -> p_logger p = None.
Proof. intros p p' (_ & _ & T) E. rewrite E in T. destruct (p_logger p); [destruct T|reflexivity]. Qed.
Lemma trans_wraps : forall F G h h' w x l', trans F G h h' -> wraps h' w x l' -> ~ F w /\ exists l, wraps h w x l.
Proof.
  intros F G h h' w x l' T (p' & P1 & P2 & P3). destruct (t_old _ _ _ _ T w p' P1) as (N & p & Q1 & Q2). split; [exact N|].
  destruct (touched_some p p' l' Q2 P2) as (l & L1 & L2 & L3 & L4). exists l, p. split; [exact Q1|]. split; [exact L1|]. congruence.
Qed.
Lemma trans_outermost : forall F G h h' x, trans F G h h' -> outermost h x -> ~ F x -> outermost h' x.
Proof.
  intros F G h h' x T ((p & P) & O) N. split.
  - destruct (t_kept _ _ _ _ T x p P N) as (p' & P' & _). exists p'. exact P'.
  - intros w l' W. destruct (trans_wraps _ _ _ _ _ _ _ T W) as (_ & l & W'). exact (O w l W').
Qed.
Lemma trans_sane : forall F G h h', trans F G h h' -> sane h -> good h' -> (forall b, G b -> unused h b) -> sane h'.
Proof.
  intros F G h h' T S G' U. split; [exact G'| | |].
  - intros w p' l' P L. destruct (t_old _ _ _ _ T w p' P) as (N & p & Q1 & Q2). destruct (touched_some p p' l' Q2 L) as (l & L1 & L2 & L3 & L4).
    pose proof (s_supported h S w p l Q1 L1) as SU. unfold supports in *. rewrite L2, L4. destruct (lg_kind l); try exact SU.
    destruct SU as (b & o & B1 & B2). destruct (t_obs _ _ _ _ T b o B2) as (o' & O1 & _); [|exists b, o'; split; [exact B1|exact O1]].
    intros Gb. exact (U b Gb w p l Q1 L1 B1).
  - intros x p' P L. destruct (t_old _ _ _ _ T x p' P) as (N & p & Q1 & Q2). destruct Q2 as (E & Q3 & Q4). rewrite E. apply (s_names h S x p Q1).
    apply (touched_none p p'); [exact (conj E (conj Q3 Q4))|exact L].
  - intros b o' B. destruct (t_obs_old _ _ _ _ T b o' B) as (N & o & O1 & O2). rewrite O2. exact (s_observers h S b o O1).
Qed.
Lemma trans_vars_drop : forall F G h h' ps os, trans F G h h' -> vars h ps os ->
  (forall i a, look ps i = Some a -> ~ F a) -> (forall j b, look os j = Some b -> ~ G b) -> vars h' ps os.
Proof.
  intros F G h h' ps os T V NF NG. split; [| exact (v_one _ _ _ V)| |exact (v_obs_one _ _ _ V)].
  - intros i a H. apply (trans_outermost F G h h'); [exact T|exact (v_out _ _ _ V i a H)|exact (NF i a H)].
  - intros j b H. destruct (v_obs _ _ _ V j b H) as [o O]. destruct (t_obs _ _ _ _ T b o O (NG j b H)) as (o' & O' & _). exists o'. exact O'.
Qed.
Lemma vars_unset : forall h ps os i, i < length ps -> vars h ps os -> vars h (upd ps i None) os.
Proof.
  intros h ps os i L V. split; [| |exact (v_obs _ _ _ V)|exact (v_obs_one _ _ _ V)].
  - intros j a H. rewrite look_upd in H by exact L. destruct (j =? i); [discriminate|]. exact (v_out _ _ _ V j a H).
  - intros j k a H1 H2. rewrite look_upd in H1, H2 by exact L. destruct (j =? i), (k =? i); try discriminate. exact (v_one _ _ _ V j k a H1 H2).
Qed.

Lemma trans_inside : forall F G h h' a x, trans F G h h' -> inside h a x -> (forall w, inside h a w -> ~ F w) -> inside h' a x.
Proof.
  intros F G h h' a x T IN N. induction IN as [|w b l IN IH W]; [constructor|].
  destruct W as (p & P1 & P2 & P3). destruct (t_kept _ _ _ _ T w p P1 (N w IN)) as (p' & Q1 & Q2 & Q3 & Q4). rewrite P2 in Q4.
  destruct (p_logger p') as [l'|] eqn:L'; [|destruct Q4]. apply (inside_down h' a w b l' IH). exists p'. split; [exact Q1|]. split; [exact L'|]. cbn in Q4. intuition congruence.
Qed.
Lemma inside_both : forall h a c w, good h -> inside h a w -> inside h c w -> inside h a c \/ inside h c a.
Proof.
  intros h a c w G IN. revert c. induction IN as [|w b l IN IH W]; intros c IC; [right; exact IC|].
  inversion IC as [|w' b' l' IC' W']; subst; [left; apply (inside_down h a w _ l IN W)|].
  destruct W as (p & P1 & P2 & P3). destruct W' as (q & Q1 & Q2 & Q3).
  assert (w' = w) by (apply (g_inj _ _ G w' w q p l' l Q1 P1 Q2 P2); congruence). subst w'. exact (IH c IC').
Qed.
Lemma inside_outermost : forall h a c, inside h a c -> outermost h c -> c = a.
Proof. intros h a c IN O. destruct IN as [|w c l IN W]; [reflexivity|]. destruct O as [_ O]. contradiction (O w l W). Qed.
Lemma apart : forall h a c w, good h -> outermost h a -> outermost h c -> inside h a w -> inside h c w -> a = c.
Proof.
  intros h a c w G A C IA IC. destruct (inside_both h a c w G IA IC) as [K|K]; [symmetry; exact (inside_outermost h a c K C)|exact (inside_outermost h c a K A)].
Qed.
Lemma wraps_inside : forall h h' a x, (forall w b l, wraps h w b l -> wraps h' w b l) -> inside h a x -> inside h' a x.
Proof. intros h h' a x U IN. induction IN as [|w b l IN IH W]; [constructor|]. exact (inside_down h' a w b l IH (U w b l W)). Qed.
Lemma inside_trans : forall h a b x, inside h a b -> inside h b x -> inside h a x.
Proof. intros h a b x A B. induction B as [|w c l B IH W]; [exact A|]. exact (inside_down h a w c l IH W). Qed.

(** Instances of the change *)
Lemma released_trans : forall F h h', released F h h' -> trans F (fun _ => False) h h'.
Proof.
  intros F h h' (L & B & C & D & X & Y). split.
  - intros x p P N. exists p. split; [apply (C x p N); exact P|apply touched_problem_refl].
  - intros x p' P. assert (N : ~ F x) by (intros K; apply B in K; unfold problem_exists in P; congruence).
    split; [exact N|]. exists p'. split; [apply (C x p' N); exact P|apply touched_problem_refl].
  - intros b o O _. destruct (X b o O) as (o' & O1 & O2 & O3 & _). exists o'. auto.
  - intros b o' O. split; [intros []|]. destruct (Y b o' O) as [o O1]. exists o. split; [exact O1|].
    destruct (X b o O1) as (o2 & P1 & P2 & _). rewrite (observer_fun _ _ _ _ O P1). exact P2.
Qed.
Lemma touched_trans' : forall h h', touched h h' -> trans (fun _ => False) (fun _ => False) h h'.
Proof.
  intros h h' (A & B & N & C & D). split.
  - intros x p P _. exact (C x p P).
  - intros x p' P. split; [intros []|]. exact (D x p' P).
  - intros b o O _. exists o. split; [apply B; exact O|split; reflexivity].
  - intros b o' O. split; [intros []|]. exists o'. split; [apply B; exact O|reflexivity].
Qed.
Lemma drop_trans : forall h b o, good h -> observer_exists h b o -> unused h b ->
  coco_observer_free h (Some b) = Ok (upd h b None) /\ trans (fun _ => False) (eq b) h (upd h b None).
Proof.
  intros h b o G B U. assert (E : o_observed o = None).
  { destruct (o_observed o) as [w|] eqn:Ow; [|reflexivity]. destruct (g_forth _ _ G b o w B Ow) as (_ & p & l & P1 & P2 & P3 & P4).
    contradiction (U w p l P1 P2 P4). }
  assert (Lb : b < length h) by (eapply exists_lt; exact B).
  split; [unfold coco_observer_free; rewrite (observer_at_ok _ _ _ B); cbn [bind]; rewrite E; destruct (cyclic (o_kind o)); reflexivity|].
  split.
  - intros x p P _. exists p. split; [|apply touched_problem_refl]. unfold problem_exists in *. rewrite nth_upd by exact Lb.
    destruct (Nat.eqb_spec x b) as [->|]; [|exact P]. unfold observer_exists in B. congruence.
  - intros x p' P. split; [intros []|]. exists p'. split; [|apply touched_problem_refl]. unfold problem_exists in *. rewrite nth_upd in P by exact Lb.
    destruct (x =? b); [discriminate|exact P].
  - intros c q Q N. exists q. split; [|split; reflexivity]. unfold observer_exists in *. rewrite nth_upd by exact Lb.
    destruct (Nat.eqb_spec c b) as [->|]; [contradiction N; reflexivity|exact Q].
  - intros c q Q. unfold observer_exists in *. rewrite nth_upd in Q by exact Lb. destruct (Nat.eqb_spec c b) as [->|N]; [discriminate|].
    split; [intros K; apply N; symmetry; exact K|]. exists q. split; [exact Q|reflexivity].
Qed.

(** New objects *)
Lemma new_problem : forall h n m ps os, sane h -> vars h ps os -> plain_name n ->
  let h' := h ++ [Some (CProblem {| p_name := n; p_objectives := m; p_logger := None |})] in
  sane h' /\ vars h' (ps ++ [Some (length h)]) os /\ outermost h' (length h) /\ (own h ps os -> own h' (ps ++ [Some (length h)]) os).
Proof.
  intros h n m ps os S V N h'. destruct (step_good h (NewProblem n m) (s_good h S) Logic.I) as [_ SG].
  destruct (SG _ _ eq_refl) as [G' _]. fold h' in G'.
  set (P0 := {| p_name := n; p_objectives := m; p_logger := None |}) in *.
  assert (PX : forall x q, problem_exists h' x q -> problem_exists h x q \/ (x = length h /\ q = P0)).
  { intros x q H. unfold problem_exists, h' in *. rewrite nth_snoc in H. destruct (Nat.eqb_spec x (length h)); [right; split; [assumption|congruence]|left; exact H]. }
  assert (PU : forall x q, problem_exists h x q -> problem_exists h' x q).
  { intros x q K. unfold problem_exists, h' in *. rewrite nth_error_app1; [assumption|]. eapply exists_lt; eauto. }
  assert (OB : forall x q, observer_exists h' x q <-> observer_exists h x q).
  { intros x q. unfold observer_exists, h'. rewrite nth_snoc. destruct (Nat.eqb_spec x (length h)) as [->|]; [|tauto].
    assert (nth_error h (length h) = None) by (apply nth_error_None; lia). split; congruence. }
  assert (NEW : outermost h' (length h)).
  { split; [exists P0; unfold problem_exists, h'; rewrite nth_snoc, Nat.eqb_refl; reflexivity|].
    intros w l (q & Q1 & Q2 & Q3). destruct (PX w q Q1) as [K|[_ ->]]; [|discriminate Q2].
    destruct (g_inner _ _ (s_good h S) w q l K Q2 (fun f => f)) as (r & _ & R & _). apply exists_lt in R. lia. }
  split; [split; [exact G'| | |]|split; [|split; [exact NEW|]]].
  - intros w q l K L. destruct (PX w q K) as [K'|[_ ->]]; [|discriminate L]. pose proof (s_supported h S w q l K' L) as SU.
    unfold supports in *. destruct (lg_kind l); try exact SU. destruct SU as (b & o & B1 & B2). exists b, o. split; [exact B1|apply OB; exact B2].
  - intros x q K L. destruct (PX x q K) as [K'|[_ ->]]; [exact (s_names h S x q K' L)|exact N].
  - intros b o K. apply OB in K. exact (s_observers h S b o K).
  - split.
    + intros i a H. rewrite look_snoc in H. destruct (i =? length ps); [injection H as <-; exact NEW|].
      destruct (v_out _ _ _ V i a H) as ((q & Q) & O). split; [exists q; apply PU; exact Q|].
      intros w l (q' & Q1 & Q2 & Q3). destruct (PX w q' Q1) as [K|[_ ->]]; [|discriminate Q2]. apply (O w l). exists q'. auto.
    + intros i j a H1 H2. rewrite look_snoc in H1, H2.
      assert (FR : forall k, look ps k <> Some (length h)).
      { intros k K. destruct (v_out _ _ _ V k _ K) as ((q & Q) & _). apply exists_lt in Q. lia. }
      destruct (Nat.eqb_spec i (length ps)), (Nat.eqb_spec j (length ps)); [congruence| | |exact (v_one _ _ _ V i j a H1 H2)].
      * injection H1 as <-. contradiction (FR j H2).
      * injection H2 as <-. contradiction (FR i H1).
    + intros j b H. destruct (v_obs _ _ _ V j b H) as [o O]. exists o. apply OB. exact O.
    + exact (v_obs_one _ _ _ V).
  - intros [W1 W2]. split.
    + intros b o K. apply OB in K. exact (W1 b o K).
    + intros x q K. destruct (PX x q K) as [K'|[-> _]].
      * destruct (W2 x q K') as (i & a & I & IN). exists i, a. split.
        -- rewrite look_snoc. destruct (Nat.eqb_spec i (length ps)) as [->|]; [apply look_lt in I; lia|exact I].
        -- apply (wraps_inside h h'); [|exact IN]. intros w b l (r & R1 & R2 & R3). exists r. auto.
      * exists (length ps), (length h). split; [rewrite look_snoc, Nat.eqb_refl; reflexivity|constructor].
Qed.
Lemma plain_paren : forall e, ~ In open_paren (name_str e).
Proof. intros e H. destruct e; cbn in H; repeat (destruct H as [H|H]; [discriminate H|]); exact H. Qed.
Lemma new_observer : forall h e ps os, sane h -> vars h ps os ->
  let h' := h ++ [Some (CObserver {| o_name := name_str e; o_kind := name_kind e; o_observed := None |})] in
  sane h' /\ vars h' ps (os ++ [Some (length h)]) /\ (own h ps os -> own h' ps (os ++ [Some (length h)])).
Proof.
  intros h e ps os S V h'. destruct (step_good h (NewObserver (name_str e) (name_kind e)) (s_good h S) (plain_paren e)) as [_ SG].
  destruct (SG _ _ eq_refl) as [G' _]. fold h' in G'.
  set (O0 := {| o_name := name_str e; o_kind := name_kind e; o_observed := None |}) in *.
  assert (NONE : nth_error h (length h) = None) by (apply nth_error_None; lia).
  assert (PR : forall x q, problem_exists h' x q <-> problem_exists h x q).
  { intros x q. unfold problem_exists, h'. rewrite nth_snoc. destruct (Nat.eqb_spec x (length h)) as [->|]; [|tauto]. split; congruence. }
  assert (OU : forall x q, observer_exists h x q -> observer_exists h' x q).
  { intros x q K. unfold observer_exists, h' in *. rewrite nth_error_app1; [assumption|]. eapply exists_lt; eauto. }
  assert (OX : forall x q, observer_exists h' x q -> observer_exists h x q \/ (q = O0 /\ x = length h)).
  { intros x q K. unfold observer_exists, h' in *. rewrite nth_snoc in K. destruct (Nat.eqb_spec x (length h)); [right; split; [congruence|assumption]|now left]. }
  split; [split; [exact G'| | |]|split; [split|]].
  - intros w q l K L. apply PR in K. pose proof (s_supported h S w q l K L) as SU.
    unfold supports in *. destruct (lg_kind l); try exact SU. destruct SU as (b & o & B1 & B2). exists b, o. split; [exact B1|apply OU; exact B2].
  - intros x q K L. apply PR in K. exact (s_names h S x q K L).
  - intros b o K. destruct (OX b o K) as [K'|[-> _]]; [exact (s_observers h S b o K')|exists e; reflexivity].
  - intros i a H. destruct (v_out _ _ _ V i a H) as ((q & Q) & O). split; [exists q; apply PR; exact Q|].
    intros w l (q' & Q1 & Q2 & Q3). apply PR in Q1. apply (O w l). exists q'. auto.
  - exact (v_one _ _ _ V).
  - intros j b H. rewrite look_snoc in H. destruct (j =? length os).
    + injection H as <-. exists O0. unfold observer_exists, h'. rewrite nth_snoc, Nat.eqb_refl. reflexivity.
    + destruct (v_obs _ _ _ V j b H) as [o O]. exists o. apply OU. exact O.
  - intros i j b H1 H2. rewrite look_snoc in H1, H2.
    assert (FR : forall k, look os k <> Some (length h)).
    { intros k K. destruct (v_obs _ _ _ V k _ K) as (q & Q). apply exists_lt in Q. lia. }
    destruct (Nat.eqb_spec i (length os)), (Nat.eqb_spec j (length os)); [congruence| | |exact (v_obs_one _ _ _ V i j b H1 H2)].
    + injection H1 as <-. contradiction (FR j H2).
    + injection H2 as <-. contradiction (FR i H1).
  - intros [W1 W2]. split.
    + intros b o K. destruct (OX b o K) as [K'|[_ ->]].
      * destruct (W1 b o K') as [j J]. exists j. rewrite look_snoc. destruct (Nat.eqb_spec j (length os)) as [->|]; [apply look_lt in J; lia|exact J].
      * exists (length os). rewrite look_snoc, Nat.eqb_refl. reflexivity.
    + intros x q K. apply PR in K. destruct (W2 x q K) as (i & a & I & IN). exists i, a. split; [exact I|].
      apply (wraps_inside h h'); [|exact IN]. intros w b l (r & R1 & R2 & R3). exists r. split; [apply PR; exact R1|auto].
Qed.
(** Adding an observer *)
Lemma add_vars : forall h i a b p o ps os, sane h -> vars h ps os -> look ps i = Some a -> problem_exists h a p -> observer_exists h b o ->
  length (o_name o) + length (p_name p) + 2 <= 443 ->
  coco_problem_add_observer h (Some a) (Some b) = Err \/
  exists h', coco_problem_add_observer h (Some a) (Some b) = Ok (Some (length h), h') /\ sane h' /\ vars h' (upd ps i (Some (length h))) os /\
    (own h ps os -> own h' (upd ps i (Some (length h))) os).
Proof.
  intros h i a b p o ps os S V I P B L. pose proof (s_good h S) as G.
  destruct (add_cases h a b p o G P B L) as [(E & _)|(E & F1 & F2 & F3)]; [left; exact E|right].
  set (nm := o_name o ++ open_paren :: p_name p ++ [")"%char]) in *. exists (added h a b p o nm). split; [exact E|].
  assert (Lb : b < length h) by (eapply exists_lt; exact B). assert (La : a < length h) by (eapply exists_lt; exact P).
  pose proof (v_out _ _ _ V i a I) as OUT.
  destruct (added_good h a b p o nm G P B OUT F2 eq_refl) as [G' _].
  pose proof (fun x => added_look h a b p o nm x Lb) as LOOK.
  set (h' := added h a b p o nm) in *.
  set (W := {| p_name := nm; p_objectives := p_objectives p; p_logger := Some (new_logger (o_kind o) a b) |}) in *.
  assert (PX : forall x q, problem_exists h' x q -> (x = length h /\ q = W) \/ (x <> length h /\ problem_exists h x q)).
  { intros x q H. unfold problem_exists in *. rewrite LOOK in H. destruct (Nat.eqb_spec x (length h)); [left; split; [assumption|congruence]|].
    right. split; [assumption|]. destruct ((x =? b) && cyclic (o_kind o)); [discriminate|exact H]. }
  assert (PU : forall x q, problem_exists h x q -> problem_exists h' x q).
  { intros x q H. unfold problem_exists in *. rewrite LOOK. destruct (Nat.eqb_spec x (length h)) as [->|]; [apply exists_lt in H; lia|].
    destruct (Nat.eqb_spec x b) as [->|]; [unfold observer_exists in B; congruence|exact H]. }
  assert (OU : forall x q, observer_exists h x q -> exists q', observer_exists h' x q' /\ o_name q' = o_name q).
  { intros x q H. unfold observer_exists in *. rewrite LOOK. destruct (Nat.eqb_spec x (length h)) as [->|]; [apply exists_lt in H; lia|].
    destruct (Nat.eqb_spec x b) as [->|]; cbn [andb]; [|exists q; auto]. assert (q = o) by congruence. subst q.
    destruct (cyclic (o_kind o)); [exists (set_observed o (Some (length h))); auto|exists o; auto]. }
  assert (OX : forall x q', observer_exists h' x q' -> exists q, observer_exists h x q /\ o_name q' = o_name q).
  { intros x q' H. unfold observer_exists in *. rewrite LOOK in H. destruct (x =? length h); [discriminate|].
    destruct (Nat.eqb_spec x b) as [->|]; cbn [andb] in H; [|exists q'; auto]. exists o. split; [exact B|].
    destruct (cyclic (o_kind o)); [injection H as <-; reflexivity|congruence]. }
  assert (SUP : forall l, supports h l -> supports h' l).
  { intros l SU. unfold supports in *. destruct (lg_kind l); try exact SU. destruct SU as (c & q & C1 & C2). destruct (OU c q C2) as (q' & Q & _). exists c, q'. auto. }
  assert (NEW : outermost h' (length h)).
  { split; [exists W; unfold problem_exists; rewrite LOOK, Nat.eqb_refl; reflexivity|].
    intros w l (q & Q1 & Q2 & Q3). destruct (PX w q Q1) as [[_ ->]|[_ K]].
    - cbn [W p_logger] in Q2. injection Q2 as <-. cbn [new_logger lg_inner] in Q3. lia.
    - destruct (g_inner _ _ G w q l K Q2 (fun f => f)) as (r & _ & R & _). apply exists_lt in R. lia. }
  split; [split; [exact G'| | |]|split; [split|]].
  - intros w q l K Q. destruct (PX w q K) as [[_ ->]|[_ K']]; [|apply SUP; exact (s_supported h S w q l K' Q)].
    cbn [W p_logger] in Q. injection Q as <-. unfold supports, new_logger. cbn [lg_kind lg_observer].
    destruct (o_kind o); cbn [kept_observer]; try discriminate; [|exact Logic.I]. destruct (OU b o B) as (q' & Q & _). exists b, q'. auto.
  - intros x q K Q. destruct (PX x q K) as [[_ ->]|[_ K']]; [discriminate Q|exact (s_names h S x q K' Q)].
  - intros c q' K. destruct (OX c q' K) as (q & Q1 & Q2). rewrite Q2. exact (s_observers h S c q Q1).
  - intros j c H. rewrite look_upd in H by (eapply look_lt; exact I). destruct (Nat.eqb_spec j i) as [->|N]; [injection H as <-; exact NEW|].
    assert (CA : c <> a) by (intros ->; apply N; exact (v_one _ _ _ V j i a H I)).
    destruct (v_out _ _ _ V j c H) as ((q & Q) & O). split; [exists q; apply PU; exact Q|].
    intros w l (q' & Q1 & Q2 & Q3). destruct (PX w q' Q1) as [[_ ->]|[_ K]].
    + cbn [W p_logger] in Q2. injection Q2 as <-. cbn [new_logger lg_inner] in Q3. congruence.
    + apply (O w l). exists q'. auto.
  - intros j k c H1 H2. rewrite look_upd in H1, H2 by (eapply look_lt; exact I).
    assert (FR : forall m, look ps m <> Some (length h)).
    { intros m K. destruct (v_out _ _ _ V m _ K) as ((q & Q) & _). apply exists_lt in Q. lia. }
    destruct (Nat.eqb_spec j i), (Nat.eqb_spec k i); [congruence| | |exact (v_one _ _ _ V j k c H1 H2)].
    + injection H1 as <-. contradiction (FR k H2).
    + injection H2 as <-. contradiction (FR j H1).
  - intros j c H. destruct (v_obs _ _ _ V j c H) as [q Q]. destruct (OU c q Q) as (q' & Q' & _). exists q'. exact Q'.
  - exact (v_obs_one _ _ _ V).
  - intros [W1 W2].
    assert (UP : forall w c l, wraps h w c l -> wraps h' w c l) by (intros w c l (r & R1 & R2 & R3); exists r; auto).
    assert (DOWN : inside h' (length h) a).
    { apply (inside_down h' (length h) (length h) a (new_logger (o_kind o) a b)); [constructor|]. exists W.
      split; [unfold problem_exists; rewrite LOOK, Nat.eqb_refl; reflexivity|split; reflexivity]. }
    split.
    + intros c q' K. destruct (OX c q' K) as (q & Q & _). exact (W1 c q Q).
    + intros x q K. destruct (PX x q K) as [[-> _]|[_ K']].
      * exists i, (length h). split; [rewrite look_upd by (eapply look_lt; exact I); rewrite Nat.eqb_refl; reflexivity|constructor].
      * destruct (W2 x q K') as (j & c & J & IN). destruct (Nat.eq_dec j i) as [->|N].
        -- assert (c = a) by congruence. subst c. exists i, (length h).
           split; [rewrite look_upd by (eapply look_lt; exact I); rewrite Nat.eqb_refl; reflexivity|].
           apply (inside_trans h' _ a x DOWN). exact (wraps_inside h h' a x UP IN).
        -- exists j, c. split; [rewrite look_upd by (eapply look_lt; exact I); destruct (Nat.eqb_spec j i); [contradiction|exact J]|].
           exact (wraps_inside h h' c x UP IN).
Qed.
(** Removing an observer *)
Lemma remove_vars : forall h i a b p o ps os, sane h -> vars h ps os -> look ps i = Some a -> problem_exists h a p -> observer_exists h b o ->
  coco_problem_remove_observer h (Some a) (Some b) = Err \/
  exists w h', coco_problem_remove_observer h (Some a) (Some b) = Ok (Some w, h') /\ sane h' /\ vars h' (upd ps i (Some w)) os /\
    (own h ps os -> own h' (upd ps i (Some w)) os).
Proof.
  intros h i a b p o ps os S V I P B. pose proof (s_good h S) as G. pose proof (v_out _ _ _ V i a I) as OUT.
  destruct (p_logger p) as [l|] eqn:Hl.
  2:{ left. apply (remove_unobserved h a b p o P B Hl). intros s E. destruct (s_observers h S b o B) as [e Ee]. rewrite Ee in E.
      exact (s_names h S a p P Hl e s E). }
  destruct (remove_observed h a b p o l G P B OUT Hl) as (n & q & Q1 & _ & _ & [(_ & h' & E & G' & R)|(_ & E)]); [right|left; exact E].
  exists (lg_inner l), h'. split; [exact E|]. pose proof (released_trans _ _ _ R) as T.
  split; [apply (trans_sane _ _ h h' T S G'); intros c []|].
  pose proof (g_lt _ _ G a p l P Hl) as LT.
  assert (INNER : outermost h' (lg_inner l)).
  { split; [destruct (t_kept _ _ _ _ T (lg_inner l) q Q1) as (q' & Q' & _); [lia|exists q'; exact Q']|].
    intros w k W. destruct (trans_wraps _ _ _ _ _ _ _ T W) as (N & k' & (r & R1 & R2 & R3)). apply N.
    exact (g_inj _ _ G a w p r l k' P R1 Hl R2 (eq_sym R3)). }
  assert (FREE : forall j, look ps j <> Some (lg_inner l)).
  { intros j J. destruct (v_out _ _ _ V j _ J) as [_ O]. apply (O a l). exists p. auto. }
  split; [split|].
  - intros j c H. rewrite look_upd in H by (eapply look_lt; exact I). destruct (Nat.eqb_spec j i) as [->|N]; [injection H as <-; exact INNER|].
    apply (trans_outermost _ _ h h' c T (v_out _ _ _ V j c H)). intros ->. apply N. exact (v_one _ _ _ V j i c H I).
  - intros j k c H1 H2. rewrite look_upd in H1, H2 by (eapply look_lt; exact I).
    destruct (Nat.eqb_spec j i), (Nat.eqb_spec k i); [congruence| | |exact (v_one _ _ _ V j k c H1 H2)].
    + injection H1 as <-. contradiction (FREE k H2).
    + injection H2 as <-. contradiction (FREE j H1).
  - intros j c H. destruct (v_obs _ _ _ V j c H) as [r O]. destruct (t_obs _ _ _ _ T c r O (fun f => f)) as (r' & O' & _). exists r'. exact O'.
  - exact (v_obs_one _ _ _ V).
  - intros [W1 W2]. split.
    + intros c q' K. destruct (t_obs_old _ _ _ _ T c q' K) as (_ & r & O & _). exact (W1 c r O).
    + intros x q' K. destruct (t_old _ _ _ _ T x q' K) as (NX & r & O & _). destruct (W2 x r O) as (j & c & J & IN).
      destruct (Nat.eq_dec j i) as [->|N].
      * assert (c = a) by congruence. subst c. exists i, (lg_inner l).
        split; [rewrite look_upd by (eapply look_lt; exact I); rewrite Nat.eqb_refl; reflexivity|].
        apply (inside_split h a p l P Hl) in IN. destruct IN as [->|IN]; [contradiction NX; reflexivity|].
        apply (trans_inside _ _ h h' _ x T IN). intros w IW K1. subst w.
        assert (LE : a <= lg_inner l) by (apply (inside_le h (lg_inner l)); [exact (g_lt _ _ G)|exact IW]). lia.
      * exists j, c. split; [rewrite look_upd by (eapply look_lt; exact I); destruct (Nat.eqb_spec j i); [contradiction|exact J]|].
        apply (trans_inside _ _ h h' _ x T IN). intros w IW K1. subst w. apply N. apply (v_one _ _ _ V j i c J).
        rewrite <- (inside_outermost h c a IW OUT). exact I.
Qed.

(** Every step *)
Definition fine (r : rust) : Prop := sane (r_heap r) /\ vars (r_heap r) (r_problems r) (r_observers r) /\ own (r_heap r) (r_problems r) (r_observers r).
Lemma supports_ready : forall h l, supports h l -> ready h l.
Proof. intros h l S. unfold supports, ready in *. destruct (lg_kind l); auto. Qed.
Lemma r_step_fine : forall r x, fine r -> careful r x ->
  r_step r x <> Some UB /\ forall r', r_step r x = Some (Ok r') -> fine r'.
Proof.
  intros [h ps os] x (S & V & OWN) C. unfold fine in *. cbn [r_heap r_problems r_observers] in *. pose proof (s_good h S) as G.
  destruct x as [e|n m|n m oj|i j|i j|i|j i|i|j]; cbn [r_step careful r_heap r_problems r_observers] in *.
  - cbn [step bind]. split; [discriminate|]. intros r' E. injection E as <-. destruct (new_observer h e ps os S V) as (S' & V' & O'). auto.
  - cbn [step bind]. split; [discriminate|]. intros r' E. injection E as <-. destruct (new_problem h n m ps os S V C) as (S' & V' & _ & O'). auto.
  - destruct C as [N L]. destruct (new_problem h n m ps os S V N) as (S1 & V1 & OUT & OW). specialize (OW OWN).
    set (h1 := h ++ [Some (CProblem {| p_name := n; p_objectives := m; p_logger := None |})]) in *.
    destruct oj as [j|]; [destruct L as [L|L]; [discriminate L|]|].
    + destruct (look os j) as [b|] eqn:J; [|split; [discriminate|intros r' E; discriminate E]].
      unfold next_problem. cbn [step bind]. fold h1. destruct (v_obs _ _ _ V1 j b J) as [o O].
      assert (P : problem_exists h1 (length h) {| p_name := n; p_objectives := m; p_logger := None |}) by (unfold problem_exists, h1; rewrite nth_snoc, Nat.eqb_refl; reflexivity).
      assert (I : look (ps ++ [Some (length h)]) (length ps) = Some (length h)) by (rewrite look_snoc, Nat.eqb_refl; reflexivity).
      destruct (add_vars h1 (length ps) (length h) b _ o _ os S1 V1 I P O) as [E|(h' & E & S' & V' & O')].
      * destruct (s_observers h1 S1 b o O) as [e ->]. cbn [p_name]. destruct e; cbn; lia.
      * match type of E with ?lhs = _ => match goal with |- context [coco_problem_add_observer ?x ?y ?z] => change (coco_problem_add_observer x y z) with lhs end end; rewrite E. cbn [bind]. split; [discriminate|intros r' K; discriminate K].
      * match type of E with ?lhs = _ => match goal with |- context [coco_problem_add_observer ?x ?y ?z] => change (coco_problem_add_observer x y z) with lhs end end; rewrite E. cbn [bind]. split; [discriminate|]. intros r' K. injection K as <-. cbn [r_heap r_problems r_observers]. specialize (O' OW).
        rewrite upd_app_middle in V', O'. auto.
    + unfold next_problem. cbn [step bind]. split; [discriminate|]. intros r' K. injection K as <-. auto.
  - destruct (look ps i) as [a|] eqn:I; [|split; [discriminate|intros r' E; discriminate E]].
    destruct (look os j) as [b|] eqn:J; [|split; [discriminate|intros r' E; discriminate E]].
    destruct (v_out _ _ _ V i a I) as ((p & P) & _). destruct (v_obs _ _ _ V j b J) as [o O]. cbn [step].
    destruct (add_vars h i a b p o ps os S V I P O (C a p b o eq_refl P eq_refl O)) as [E|(h' & E & S' & V' & O')]; rewrite E; cbn [bind].
    + split; [discriminate|intros r' K; discriminate K].
    + split; [discriminate|]. intros r' K. injection K as <-. auto.
  - destruct (look ps i) as [a|] eqn:I; [|split; [discriminate|intros r' E; discriminate E]].
    destruct (look os j) as [b|] eqn:J; [|split; [discriminate|intros r' E; discriminate E]].
    destruct (v_out _ _ _ V i a I) as ((p & P) & _). destruct (v_obs _ _ _ V j b J) as [o O]. cbn [step].
    destruct (remove_vars h i a b p o ps os S V I P O) as [E|(w & h' & E & S' & V' & O')]; rewrite E; cbn [bind].
    + split; [discriminate|intros r' K; discriminate K].
    + split; [discriminate|]. intros r' K. injection K as <-. auto.
  - destruct (look ps i) as [a|] eqn:I; [|split; [discriminate|intros r' E; discriminate E]].
    destruct (v_out _ _ _ V i a I) as ((p & P) & OUT). cbn [step].
    destruct (evaluate_ok a h p (Datatypes.S (length h)) G P) as (h2 & E & T); [apply exists_lt in P; lia| |].
    { intros w b l _ (q & Q1 & Q2 & _). apply supports_ready. exact (s_supported h S w q l Q1 Q2). }
    rewrite E. cbn [bind]. split; [discriminate|]. intros r' K. injection K as <-. cbn [r_heap r_problems r_observers].
    pose proof (touched_trans' _ _ T) as T'. split; [|split].
    + apply (trans_sane _ _ h h2 T' S); [eapply touched_good; eauto|intros c []].
    + apply (trans_vars_drop _ _ h h2 ps os T' V); intros ? ? ? [].
    + destruct OWN as [W1 W2]. split.
      * intros c q' K. destruct (t_obs_old _ _ _ _ T' c q' K) as (_ & q & Q & _). exact (W1 c q Q).
      * intros x q' K. destruct (t_old _ _ _ _ T' x q' K) as (_ & q & Q & _). destruct (W2 x q Q) as (k & c & J & IN). exists k, c.
        split; [exact J|]. apply (trans_inside _ _ h h2 c x T' IN). intros w _ [].
  - destruct (look os j) as [b|] eqn:J; [|split; [discriminate|intros r' E; discriminate E]].
    destruct (look ps i) as [a|] eqn:I; [|split; [discriminate|intros r' E; discriminate E]].
    destruct (v_out _ _ _ V i a I) as ((p & P) & _). destruct (v_obs _ _ _ V j b J) as [o O]. cbn [step].
    assert (E : coco_observer_signal_restart h (Some b) (Some a) = Ok h).
    { unfold coco_observer_signal_restart. rewrite (observer_at_ok _ _ _ O). cbn [bind]. destruct (cyclic (o_kind o)) eqn:K; [|reflexivity].
      rewrite (problem_at_ok _ _ _ P). cbn [bind]. destruct (C a p b o eq_refl P eq_refl O K) as (l & L1 & L2). rewrite L1, L2.
      destruct (o_kind o); reflexivity. }
    rewrite E. cbn [bind]. split; [discriminate|]. intros r' K. injection K as <-. auto.
  - destruct (look ps i) as [a|] eqn:I; [|split; [discriminate|intros r' E; discriminate E]].
    pose proof (v_out _ _ _ V i a I) as OUT. destruct (proj1 OUT) as (p & P). cbn [step].
    destruct (free_problem_good h a p G P OUT) as (h2 & E & G2 & R). rewrite E. cbn [bind]. split; [discriminate|]. intros r' K. injection K as <-.
    cbn [r_heap r_problems r_observers]. pose proof (released_trans _ _ _ R) as T. split; [apply (trans_sane _ _ h h2 T S G2); intros c []|].
    split.
    2:{ destruct OWN as [W1 W2]. split.
        - intros c q' K. destruct (t_obs_old _ _ _ _ T c q' K) as (_ & q & Q & _). exact (W1 c q Q).
        - intros x q' K. destruct (t_old _ _ _ _ T x q' K) as (NX & q & Q & _). destruct (W2 x q Q) as (k & c & J & IN). exists k, c.
          assert (N : k <> i) by (intros ->; apply NX; congruence).
          split; [rewrite look_upd by (eapply look_lt; exact I); destruct (Nat.eqb_spec k i); [contradiction|exact J]|].
          apply (trans_inside _ _ h h2 c x T IN). intros w IW IA. apply N. apply (v_one _ _ _ V k i c J).
          rewrite <- (apart h a c w G OUT (v_out _ _ _ V k c J) IA IW). exact I. }
    apply (trans_vars_drop _ _ h h2 _ os T (vars_unset h ps os i (look_lt _ _ _ I) V)); [|intros ? ? ? []].
    intros j c H IN. rewrite look_upd in H by (eapply look_lt; exact I). destruct (Nat.eqb_spec j i) as [->|N]; [discriminate|].
    destruct IN as [|w c l IN W]; [apply N; exact (v_one _ _ _ V j i a H I)|]. destruct (v_out _ _ _ V j c H) as [_ O]. exact (O w l W).
  - destruct (look os j) as [b|] eqn:J; [|split; [discriminate|intros r' E; discriminate E]].
    destruct (v_obs _ _ _ V j b J) as [o O]. cbn [step].
    destruct (drop_trans h b o G O (C b eq_refl)) as [E T]. rewrite E. cbn [bind]. split; [discriminate|]. intros r' K. injection K as <-.
    cbn [r_heap r_problems r_observers].
    destruct (step_good h (FreeObserver (Some b)) G (ex_intro _ o O)) as [_ SG]. cbn [step] in SG. rewrite E in SG. cbn [bind] in SG. destruct (SG _ _ eq_refl) as [G2 _].
    split; [apply (trans_sane _ _ h _ T S G2); intros c <-; exact (C b eq_refl)|].
    split.
    2:{ destruct OWN as [W1 W2]. split.
        - intros c q' K. destruct (t_obs_old _ _ _ _ T c q' K) as (NB & q & Q & _). destruct (W1 c q Q) as [k K1]. exists k.
          rewrite look_upd by (eapply look_lt; exact J). destruct (Nat.eqb_spec k j) as [->|]; [congruence|exact K1].
        - intros x q' K. destruct (t_old _ _ _ _ T x q' K) as (_ & q & Q & _). destruct (W2 x q Q) as (k & c & K1 & IN). exists k, c.
          split; [exact K1|]. apply (trans_inside _ _ h _ c x T IN). intros w _ []. }
    split.
    + intros i a H. apply (trans_outermost _ _ h _ a T (v_out _ _ _ V i a H)). intros [].
    + exact (v_one _ _ _ V).
    + intros k c H. rewrite look_upd in H by (eapply look_lt; exact J). destruct (Nat.eqb_spec k j) as [->|N]; [discriminate|].
      destruct (v_obs _ _ _ V k c H) as [q Q]. destruct (t_obs _ _ _ _ T c q Q) as (q' & Q' & _); [|exists q'; exact Q'].
      intros <-. apply N. exact (v_obs_one _ _ _ V k j b H J).
    + intros k m c H1 H2. rewrite look_upd in H1, H2 by (eapply look_lt; exact J). destruct (k =? j), (m =? j); try discriminate. exact (v_obs_one _ _ _ V k m c H1 H2).
Qed.
Lemma fine_init : fine r_init.
Proof.
  split; [|split]; cbn.
  - split; [apply good_nil| | |]; intros; match goal with H : _ [] ?a _ |- _ => unfold problem_exists, observer_exists in H; destruct a; discriminate H end.
  - split; intros i; intros; unfold look in *; destruct i; discriminate.
  - split; intros [|x] q K; discriminate K.
Qed.
Lemma r_run_fine : forall xs r, fine r -> all_careful r xs -> r_run r xs <> Some UB /\ forall r', r_run r xs = Some (Ok r') -> fine r'.
Proof.
  intros xs. induction xs as [|x xs IH]; intros r F C.
  - split; [discriminate|]. intros r' E. injection E as <-. exact F.
  - destruct C as [C1 C2]. destruct (r_step_fine r x F C1) as [NU OK]. cbn [r_run]. destruct (r_step r x) as [[r1| |]|]; [|split; [discriminate|intros r' K; discriminate K]|congruence|split; [discriminate|intros r' K; discriminate K]].
    apply IH; [apply OK; reflexivity|apply C2; reflexivity].
Qed.
