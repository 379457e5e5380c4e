(** Correctness of building the problems of all suites. *)
From Coq Require Import List Arith Bool Lia Permutation.
From Verif Require Import CBase MemModel MemSuiteModel MemSpec MemProofs MemBuildProofs MemBuild2Proofs MemBuild3Proofs.
Import ListNotations.
Local Open Scope nat_scope.

(** The constructors of all functions pass the analysis. *)
Definition passes (c : option (list instr)) (lab : bool) : bool :=
  match c with
  | Some l => match check l [] None with Some b => Bool.eqb b lab | None => false end
  | None => false
  end.
Lemma bbob_passes : forall f, between 1 24 f -> passes (bbob_constructor f) true = true.
Proof.
  intros f B. assert (I : In f (seq 1 24)) by (apply in_seq; unfold between in B; lia).
  clear B. revert f I. apply forallb_forall. vm_compute. reflexivity.
Qed.
Lemma large_passes : forall f, between 1 24 f -> passes (large_constructor f) true = true.
Proof.
  intros f B. assert (I : In f (seq 1 24)) by (apply in_seq; unfold between in B; lia).
  clear B. revert f I. apply forallb_forall. vm_compute. reflexivity.
Qed.
Lemma noisy_passes : forall f, between 101 130 f -> passes (noisy_constructor f) true = true.
Proof.
  intros f B. assert (I : In f (seq 101 30)) by (apply in_seq; unfold between in B; lia).
  clear B. revert f I. apply forallb_forall. vm_compute. reflexivity.
Qed.
Lemma toy_passes : forall f, between 1 6 f -> passes (toy_constructor f) false = true.
Proof.
  intros f B. assert (I : In f (seq 1 6)) by (apply in_seq; unfold between in B; lia).
  clear B. revert f I. apply forallb_forall. vm_compute. reflexivity.
Qed.
Lemma cons_passes : forall f, between 1 9 f -> passes (cons_constructor f) true = true.
Proof.
  intros f B. assert (I : In f (seq 1 9)) by (apply in_seq; unfold between in B; lia).
  clear B. revert f I. apply forallb_forall. vm_compute. reflexivity.
Qed.

(** Stacking two problems. *)
Definition wide (S : list addr) (o : ptr) : Prop := exists a, o = Some a /\ 0 < cnt S a.
Lemma wide_touch : forall S o, wide S o -> o <> None /\ forall a, 0 < cnt (opt o) a -> 0 < cnt S a.
Proof.
  intros S o [a [-> P]]. split; [discriminate|]. intros b Q. cbn [opt] in Q. rewrite cnt_cons, cnt_nil in Q.
  assert (a = b) by (apply one_pos; lia). subst b. exact P.
Qed.
Lemma wide_field : forall p q B S o, In o (fields q) -> o <> None ->
  (forall a, 0 < cnt (hold p q B) a -> 0 < cnt S a) -> wide S o.
Proof.
  intros p q B S [a|] I N H; [|congruence]. exists a. split; [reflexivity|]. apply H.
  apply in_opts in I. rewrite cnt_hold. lia.
Qed.
Lemma wide_sub : forall S S' o, wide S o -> (forall a, 0 < cnt S a -> 0 < cnt S' a) -> wide S' o.
Proof. intros S S' o [a [E P]] H. exists a. auto. Qed.

Lemma wp_strconcat : forall o1 o2 h0 h S (Q : addr -> heap -> Prop), spans h0 h S -> wide S o1 -> wide S o2 ->
  (forall s h', spans h0 h' (s :: S) -> nth_error h' s = Some (Some Block) -> keeps S h h' -> Q s h') ->
  wp (strconcat o1 o2) Q h.
Proof.
  intros o1 o2 h0 h S Q H W1 W2 HQ. unfold strconcat.
  destruct (wide_touch _ _ W1) as [A1 A2]. destruct (wide_touch _ _ W2) as [B1 B2].
  apply wp_bind. eapply wp_touch'; [exact H|exact A1|exact A2|].
  apply wp_bind. eapply wp_touch'; [exact H|exact B1|exact B2|].
  eapply wp_alloc; [exact H|exact HQ].
Qed.
Lemma wp_wide_touch : forall o h0 h S (Q : unit -> heap -> Prop), spans h0 h S -> wide S o -> Q tt h -> wp (touch o) Q h.
Proof.
  intros o h0 h S Q H W HQ. destruct (wide_touch _ _ W) as [A1 A2].
  eapply wp_touch'; [exact H|exact A1|exact A2|exact HQ].
Qed.

Lemma wp_stacked_allocate : forall p1 q1 B1 p2 q2 B2 roi1 roi2 g h0 h T (Q : addr -> heap -> Prop),
  ownb g h p1 q1 B1 -> ownb g h p2 q2 B2 ->
  spans h0 h (hold p1 q1 B1 ++ hold p2 q2 B2 ++ T) ->
  variables q1 = variables q2 -> id q1 <> None -> id q2 <> None -> name q1 <> None -> name q2 <> None ->
  wide (hold p1 q1 B1 ++ hold p2 q2 B2 ++ T) roi1 -> wide (hold p1 q1 B1 ++ hold p2 q2 B2 ++ T) roi2 ->
  (constraints q1 + constraints q2 = 0 -> objectives q1 = 1 /\ objectives q2 = 1) ->
  (forall p q w h', ownb g h' p q (hold p1 q1 B1 ++ hold p2 q2 B2) ->
     spans h0 h' (hold p q (hold p1 q1 B1 ++ hold p2 q2 B2) ++ T) ->
     keeps (hold p1 q1 B1 ++ hold p2 q2 B2 ++ T) h h' ->
     variables q = variables q1 -> objectives q = objectives q1 + objectives q2 ->
     constraints q = constraints q1 + constraints q2 -> name q <> None -> id q <> None ->
     data q = Some w -> nth_error h' w = Some (Some (StackedCell (Some p1) (Some p2))) ->
     free_fn q = StackedFree ->  Q p h') ->
  wp (stacked_allocate p1 p2 roi1 roi2) Q h.
Proof.
  intros p1 q1 B1 p2 q2 B2 roi1 roi2 g h0 h T Q O1 O2 H EV I1 I2 M1 M2 W1 W2 NC HQ.
  unfold stacked_allocate. pose proof O1 as [N1 [[T1 [T2 [T3 [T4 T5]]]] _]]. pose proof O2 as [N2 [[U1 [U2 [U3 [U4 U5]]]] _]].
  set (S12 := hold p1 q1 B1 ++ hold p2 q2 B2 ++ T) in *.
  assert (X1 : forall o S, In o (fields q1) -> o <> None -> (forall a, 0 < cnt S12 a -> 0 < cnt S a) -> wide S o).
  { intros o S Io No HS. eapply wide_field; [exact Io|exact No|]. intros a P. apply HS. unfold S12.
    rewrite cnt_app. instantiate (1 := B1) in P. instantiate (1 := p1) in P. lia. }
  assert (X2 : forall o S, In o (fields q2) -> o <> None -> (forall a, 0 < cnt S12 a -> 0 < cnt S a) -> wide S o).
  { intros o S Io No HS. eapply wide_field; [exact Io|exact No|]. intros a P. apply HS. unfold S12.
    rewrite !cnt_app. instantiate (1 := B2) in P. instantiate (1 := p2) in P. lia. }
  apply wp_bind. eapply wp_problem_at; [exact N1|]. apply wp_bind. eapply wp_problem_at; [exact N2|].
  apply wp_bind. rewrite (proj2 (Nat.eqb_eq _ _) EV). apply wp_ret.
  apply wp_bind. eapply wp_coco_problem_allocate; [exact H|].
  intros p q h1 H1 Np Bp [C1 [C2 [C3 [C4 [C5 [C6 [C7 [C8 [C9 [C10 C11]]]]]]]]]] K1.
  apply wp_bind. eapply wp_alloc; [exact H1|]. intros sep h2 H2 N2' K2.
  apply wp_bind. eapply wp_strconcat; [exact H2|apply X1; [cbn; tauto|exact I1|lite]| |].
  { exists sep. split; [reflexivity|lite]. }
  intros s h3 H3 N3 K3.
  apply wp_bind. eapply wp_strconcat; [exact H3| |apply X2; [cbn; tauto|exact I2|lite]|].
  { exists s. split; [reflexivity|lite]. }
  intros pid h4 H4 N4 K4.
  apply wp_bind. eapply wp_free_block with (S' := pid :: sep :: hold p q [] ++ S12); [exact H4|lite|].
  intros h5 H5 K5.
  apply wp_bind. eapply wp_strconcat; [exact H5|apply X1; [cbn; tauto|exact M1|lite]| |].
  { exists sep. split; [reflexivity|lite]. }
  intros s' h6 H6 N6 K6.
  apply wp_bind. eapply wp_strconcat; [exact H6| |apply X2; [cbn; tauto|exact M2|lite]|].
  { exists s'. split; [reflexivity|lite]. }
  intros nm h7 H7 N7 K7.
  apply wp_bind. eapply wp_free_block with (S' := nm :: pid :: sep :: hold p q [] ++ S12); [exact H7|lite|].
  intros h8 H8 K8.
  apply wp_bind. eapply wp_free_block with (S' := nm :: pid :: hold p q [] ++ S12); [exact H8|lite|].
  intros h9 H9 K9.
  assert (KA : keeps (hold p q [] ++ S12) h1 h9).
  { eapply keeps_trans; [exact K2|]. eapply keeps_trans; [eapply keeps_sub; [exact K3|]; lite|].
    eapply keeps_trans; [eapply keeps_sub; [exact K4|]; lite|].
    eapply keeps_trans; [eapply keeps_sub; [exact K5|]; lite|].
    eapply keeps_trans; [eapply keeps_sub; [exact K6|]; lite|].
    eapply keeps_trans; [eapply keeps_sub; [exact K7|]; lite|].
    eapply keeps_trans; [eapply keeps_sub; [exact K8|]; lite|].
    eapply keeps_sub; [exact K9|]; lite. }
  apply wp_bind. eapply wp_wide_touch; [exact H9|eapply wide_sub; [exact W1|lite]|].
  apply wp_bind. eapply wp_wide_touch; [exact H9|eapply wide_sub; [exact W2|lite]|].
  apply wp_bind. eapply wp_problem_at; [rewrite KA by lite; exact Np|].
  pose proof C4 as [V1 [V2 [V3 [V4 V5]]]].
  assert (Xq : forall o S, In o (fields q) -> o <> None -> (forall a, 0 < cnt (hold p q []) a -> 0 < cnt S a) -> wide S o).
  { intros o S Io No HS. eapply wide_field; [exact Io|exact No|]. exact HS. }
  apply wp_bind. eapply wp_wide_touch; [exact H9|apply Xq; [cbn; tauto|exact V3|lite]|].
  apply wp_bind.
  assert (Y : forall Q' : ptr -> heap -> Prop,
    (forall i h10, spans h0 h10 (opt i ++ nm :: pid :: hold p q [] ++ S12) -> blocks h10 (opt i) ->
       keeps (nm :: pid :: hold p q [] ++ S12) h9 h10 -> Q' i h10) ->
    wp (if 0 <? constraints q1 + constraints q2
        then if 0 <? constraints q2 then strdup (initial q2) else ret None
        else touch (nadir q) ;;; touch (best_value q1) ;;; touch (best_value q2) ;;;
             touch (best_parameter q1) ;;; touch (best_parameter q2) ;;; ret None) Q' h9).
  { intros Q' HQ'. destruct (0 <? constraints q1 + constraints q2) eqn:E0.
    - destruct (0 <? constraints q2) eqn:E2.
      + eapply wp_strdup; [exact H9| |].
        * intros a P. assert (Z : 0 < cnt (hold p2 q2 B2) a) by (rewrite cnt_hold; ins).
          revert Z. unfold S12. lite.
        * intros o' h' A1 A2 A3 A4. apply HQ'; assumption.
      + apply wp_ret. apply HQ'; [exact H9|apply blocks_nil|apply keeps_refl].
    - apply Nat.ltb_ge in E0. destruct NC as [NC1 NC2]; [lia|].
      apply wp_bind. eapply wp_wide_touch; [exact H9|apply Xq; [cbn; tauto|apply V5; lia|lite]|].
      apply wp_bind. eapply wp_wide_touch; [exact H9|apply X1; [cbn; tauto|exact T3|lite]|].
      apply wp_bind. eapply wp_wide_touch; [exact H9|apply X2; [cbn; tauto|exact U3|lite]|].
      apply wp_bind. eapply wp_wide_touch; [exact H9|apply X1; [cbn; tauto|apply T4; lia|lite]|].
      apply wp_bind. eapply wp_wide_touch; [exact H9|apply X2; [cbn; tauto|apply U4; lia|lite]|].
      apply wp_ret. apply HQ'; [exact H9|apply blocks_nil|apply keeps_refl]. }
  apply Y. clear Y. intros i h10 H10 B10 K10.
  apply wp_bind. eapply wp_alloc; [exact H10|]. intros w h11 H11 N11 K11.
  apply wp_bind. eapply wp_set with (S' := w :: opt i ++ nm :: pid :: opts (fields q) ++ S12); [exact H11|lite|].
  intros h12 H12 N12 K12. apply wp_ret.
  set (q' := with_free (with_data (with_initial (with_texts q (Some nm) (Some pid) (type q)) i) (Some w)) StackedFree) in *.
  assert (KB : keeps (nm :: pid :: opts (fields q) ++ S12) h9 h12).
  { eapply keeps_trans; [eapply keeps_sub; [exact K10|]; lite|].
    eapply keeps_trans; [eapply keeps_sub; [exact K11|]; lite|]. eapply keeps_sub; [exact K12|]; lite. }
  assert (KS : keeps S12 h h12).
  { eapply keeps_trans; [exact K1|]. eapply keeps_trans; [eapply keeps_sub; [exact KA|]; lite|].
    eapply keeps_sub; [exact KB|]; lite. }
  eapply (HQ p q' w).
  - split; [exact N12|]. split; [exact C4|]. split.
    { assert (BB : blocks h12 ([nm] ++ [pid] ++ opt i ++ opts (plain q))).
      { apply blocks_app; [|apply blocks_app; [|apply blocks_app]].
        - apply blocks_one. rewrite KB, K9, K8 by lite. exact N7.
        - apply blocks_one. rewrite KB, K9, K8, K7, K6, K5 by lite. exact N4.
        - eapply blocks_keeps; [exact B10|]. eapply keeps_trans; [eapply keeps_sub; [exact K11|]; lite|].
          eapply keeps_sub; [exact K12|]; lite.
        - eapply blocks_keeps; [exact Bp|]. eapply keeps_trans; [eapply keeps_sub; [exact KA|]|].
          + intros a P. rewrite cnt_app, cnt_hold, opts_fields. lia.
          + eapply keeps_sub; [exact KB|]. intros a P. rewrite !cnt_cons, cnt_app, opts_fields. lia. }
      eapply blocks_sub; [exact BB|]. unfold q'. full. }
    split.
    + eapply body_stacked with (w := w).
      * reflexivity.
      * reflexivity.
      * rewrite K12 by lite. exact N11.
      * eapply own_keeps; [apply ownb_own; exact O1|]. eapply keeps_sub; [exact KS|]. unfold S12. lite.
      * eapply own_keeps; [apply ownb_own; exact O2|]. eapply keeps_sub; [exact KS|]. unfold S12. lite.
    + intros _ v Ev. unfold q' in Ev. cbn in Ev. congruence.
  - eapply spans_cnt; [exact H12|]. intro a. unfold q'. rewrite cnt_app, (cnt_hold p). unfold S12. repeat rewrite ?cnt_cons, ?cnt_app. rewrite (cnt_hold p q []).
    generalize (cnt (hold p1 q1 B1) a) (cnt (hold p2 q2 B2) a). intros n1 n2.
    unfold fields. prj. rewrite C5, C6, C8, C9.
    rewrite !opts_cons. repeat rewrite ?cnt_app. cbn [opt]. repeat rewrite ?cnt_cons, ?cnt_nil. lia.
  - exact KS.
  - exact C1.
  - exact C2.
  - exact C3.
  - discriminate.
  - discriminate.
  - reflexivity.
  - rewrite K12 by lite. exact N11.
  - reflexivity.
Qed.

(** A function that builds a problem with property P and loses nothing. *)
Definition yields (g : bool) (P : problem -> Prop) (m : M addr) : Prop :=
  forall h0 h T (Q : addr -> heap -> Prop), spans h0 h T ->
  (forall p q B h', ownb g h' p q B -> spans h0 h' (hold p q B ++ T) -> P q -> keeps T h h' ->
     Q p h') -> wp m Q h.
Lemma yields_weaken : forall g (P P' : problem -> Prop) m, yields g P m -> (forall q, P q -> P' q) -> yields g P' m.
Proof.
  intros g P P' m Y I h0 h T Q H HQ. eapply Y; [exact H|]. intros p q B h' O H' HP K. eapply HQ; eauto.
Qed.
Lemma yields_around : forall g P m, yields g P m -> yields g P (around m).
Proof.
  intros g P m BM h0 h T Q H HQ. eapply wp_around; [exact H|]. intros v h1 H1 K1.
  eapply BM; [exact H1|]. intros p q B h2 O2 H2 F2 K2. exists (hold p q B ++ T).
  split; [eapply spans_cnt; [exact H2|lite]|]. intros h3 H3 K3. eapply HQ; [|exact H3|exact F2|].
  - eapply ownb_keeps; [exact O2|]. last K3.
  - via K1. via K2. last K3.
Qed.

Section Formatting.
Variable null_ok : bool.

Lemma yields_transform : forall g (P : problem -> Prop) m t, yields g P m ->
  (forall q, P q -> (name q = None -> null_ok = true) /\ objectives q <= 1) ->
  yields g (fun q' => exists q, P q /\ like q q') (p <-- m ;; transform null_ok t p).
Proof.
  intros g P m t BM HP h0 h T Q H HQ. apply wp_bind. eapply BM; [exact H|].
  intros p q B h1 O1 H1 P1 K1. destruct (HP q P1) as [NN LO].
  eapply (wp_transform null_ok); [exact O1|exact H1|exact NN|].
  intros p' q' Sd lost h2 O2 H2 L2 BL LL K2. apply lost_none in LL; [|exact LO]. subst lost.
  eapply HQ; [exact O2|exact H2|exists q; auto|]. via K1. last K2.
Qed.

Lemma builds_construct : forall g lab c d, passes c lab = true -> builds g lab d (construct null_ok c d).
Proof.
  intros g lab [l|] d E; cbn in E; [|discriminate]. unfold construct.
  destruct (check l [] None) as [b|] eqn:C; [|discriminate]. apply eqb_prop in E. subst b.
  apply builds_run. exact C.
Qed.
Lemma builds_continuous : forall g large f d, between 1 24 f -> builds g true d (get_continuous null_ok large f d).
Proof.
  intros g large f d B. unfold get_continuous. apply builds_construct.
  destruct large; [apply large_passes|apply bbob_passes]; exact B.
Qed.

(** Fetching a problem: what it owns, what is lost. *)
Definition offers (m : M addr) (two : bool) (n : nat) : Prop :=
  forall h0 h T (Q : addr -> heap -> Prop), spans h0 h T ->
  (forall p q B lost h', ownb true h' p q B -> spans h0 h' (hold p q B ++ lost ++ T) ->
     shut h' lost lost -> length lost = n -> name q <> None ->
     objectives q = (if two then 2 else 1) -> keeps T h h' -> Q p h') -> wp m Q h.

Lemma yields_offers : forall P m, yields true P m ->
  (forall q, P q -> name q <> None /\ objectives q = 1) -> offers m false 0.
Proof.
  intros P m Y I h0 h T Q H HQ. eapply Y; [exact H|]. intros p q B h' O H' HP K.
  destruct (I q HP). eapply (HQ p q B []); try eassumption; [apply shut_nil|reflexivity].
Qed.
Lemma builds_offers : forall lab d m, builds true lab d m -> offers m false 0.
Proof.
  intros lab d m Bm. apply (yields_offers (fit d lab) m Bm). intros q [F1 [F2 [F3 [F4 F5]]]]. auto.
Qed.
Lemma builds_wrapped : forall lab d m t, builds true lab d m -> offers (p <-- m ;; transform null_ok t p) false 0.
Proof.
  intros lab d m t Bm.
  apply (yields_offers (fun q' => exists q, fit d lab q /\ like q q')).
  - apply (yields_transform true (fit d lab)); [exact Bm|]. intros q [F1 [F2 [F3 [F4 F5]]]].
    split; [congruence|lia].
  - intros q' [q [[F1 [F2 [F3 [F4 F5]]]] [L1 [L2 [L3 [L4 L5]]]]]]. split; [exact L4|congruence].
Qed.

Lemma offers_mixint : forall f d, between 1 24 f -> offers (get_mixint null_ok f d) false 0.
Proof.
  intros f d Bf h0 h T Q H HQ. unfold get_mixint.
  apply wp_bind. eapply wp_alloc; [exact H|]. intros s h1 H1 N1 K1.
  apply wp_bind. eapply wp_alloc; [exact H1|]. intros l h2 H2 N2 K2.
  apply wp_bind. eapply (builds_continuous true (50 <=? d) f d Bf); [exact H2|].
  intros p q B h3 O3 H3 [F1 [F2 [F3 [F4 F5]]]] K3.
  apply wp_bind. eapply wp_problem_at; [apply O3|].
  apply wp_bind. eapply (wp_transform null_ok); [exact O3|exact H3|congruence|].
  intros p1 q1 S1 lost1 h4 O4 H4 [L1 [L2 [L3 [L4 L5]]]] BL1 LL1 K4. apply lost_none in LL1; [|lia]. subst lost1.
  apply wp_bind. eapply (wp_transform null_ok); [exact O4|exact H4|congruence|].
  intros p2 q2 S2 lost2 h5 O5 H5 [M1 [M2 [M3 [M4 M5]]]] BL2 LL2 K5. apply lost_none in LL2; [|lia]. subst lost2.
  apply wp_bind. eapply (wp_set_id null_ok); [exact O5|exact H5|intros o []|]. intros t1 h6 O6 H6 K6.
  apply wp_bind. eapply (wp_set_name null_ok); [exact O6|exact H6| |].
  { intros o [<-|[]]. destruct (F5 eq_refl) as [Fi Ft]. destruct (id q) as [a|] eqn:Ei; [|congruence].
    assert (0 < cnt (opts (fields q)) a) by (apply in_opts; rewrite <- Ei; cbn; tauto). lite. }
  intros t2 h7 O7 H7 K7.
  match type of O7 with ownb _ _ _ ?qq ?BB => set (q7 := qq) in *; set (B7 := BB) in * end.
  apply wp_bind. eapply wp_free_block with (S' := hold p2 q7 B7 ++ l :: T); [exact H7|lite|]. intros h8 H8 K8.
  apply wp_bind. eapply wp_free_block with (S' := hold p2 q7 B7 ++ T); [exact H8|lite|]. intros h9 H9 K9.
  apply wp_ret. eapply (HQ p2 q7 B7 []); [|exact H9|apply shut_nil|reflexivity|discriminate| |].
  - eapply ownb_keeps; [exact O7|]. via K8. last K9.
  - unfold q7. prj. lia.
  - via K1. via K2. via K3. via K4. via K5. via K6. via K7. via K8. last K9.
Qed.

(** Linear constraints. *)
Definition linear (d : nat) (q : problem) : Prop :=
  variables q = d /\ objectives q = 0 /\ 0 < constraints q /\ name q <> None /\ id q <> None /\ type q <> None.

Lemma yields_linear_constraint : null_ok = true -> forall g given d, yields g (linear d) (linear_constraint null_ok given d).
Proof.
  intros NO g given d h0 h T Q H HQ. unfold linear_constraint.
  apply wp_bind. eapply wp_coco_problem_allocate; [exact H|].
  intros p q h1 H1 N1 B1 [C1 [C2 [C3 [C4 [C5 [C6 [C7 [C8 [C9 [C10 C11]]]]]]]]]] K1.
  assert (O1 : ownb g h1 p q []).
  { apply bare_ownb; [exact (conj N1 (conj C4 B1))| |congruence].
    apply body_none; [exact C11|]. rewrite C8. apply blocks_nil. }
  apply wp_bind. eapply (wp_set_id null_ok); [exact O1|exact H1|intros o []|]. intros s1 h2 O2 H2 K2.
  set (q2 := with_texts q (name q) (Some s1) (type q)) in *.
  apply wp_bind. eapply wp_alloc; [exact H2|]. intros rng h3 H3 N3 K3.
  apply wp_bind.
  assert (X : forall Q' : addr -> heap -> Prop,
    (forall p1 q1 B1 h4, ownb g h4 p1 q1 B1 -> spans h0 h4 (hold p1 q1 B1 ++ rng :: T) -> like q2 q1 ->
       keeps (rng :: T) h3 h4 -> Q' p1 h4) ->
    wp (if given then transform null_ok LinearConstraint p
        else around (transform null_ok LinearConstraint p)) Q' h3).
  { intros Q' HQ'.
    assert (X : forall h' T' (Q'' : addr -> heap -> Prop), ownb g h' p q2 [] -> spans h0 h' (hold p q2 [] ++ T') ->
      (forall p1 q1 B1 h4, ownb g h4 p1 q1 B1 -> spans h0 h4 (hold p1 q1 B1 ++ T') -> like q2 q1 ->
         keeps T' h' h4 -> Q'' p1 h4) -> wp (transform null_ok LinearConstraint p) Q'' h').
    { intros h' T' Q'' O' H' HQ''. eapply (wp_transform null_ok); [exact O'|exact H'|intro; exact NO|].
      intros p1 q1 Sd lost h4 O4 H4 L4 BL LL K4. apply lost_none in LL; [|unfold q2; prj; lia]. subst lost.
      eapply HQ''; [exact O4|exact H4|exact L4|]. last K4. }
    destruct given.
    - eapply (X h3 (rng :: T)); [eapply ownb_keeps; [exact O2|last K3]|eapply spans_cnt; [exact H3|lite]|exact HQ'].
    - eapply wp_around; [exact H3|]. intros v h4 H4 K4.
      eapply (X h4 (v :: rng :: T)).
      + eapply ownb_keeps; [exact O2|]. via K3. last K4.
      + eapply spans_cnt; [exact H4|lite].
      + intros p1 q1 B1' h5 O5 H5 L5 K5. exists (hold p1 q1 B1' ++ rng :: T). split; [eapply spans_cnt; [exact H5|lite]|].
        intros h6 H6 K6. eapply HQ'; [|exact H6|exact L5|].
        * eapply ownb_keeps; [exact O5|]. last K6.
        * via K4. via K5. last K6. }
  apply X. clear X. intros p1 q1 B1' h4 O4 H4 [L1 [L2 [L3 [L4 [L5 [L6 [L7 L8]]]]]]] K4.
  assert (E1 : initial q1 = None) by (apply L7; exact C9).
  apply wp_bind. eapply wp_alloc; [exact H4|]. intros s h5 H5 N5 K5.
  assert (O5 : ownb g h5 p1 q1 B1') by (eapply ownb_keeps; [exact O4|]; last K5).
  apply wp_bind. eapply wp_problem_at; [apply O5|].
  apply wp_bind. eapply wp_set with (S' := s :: opts (fields q1) ++ B1' ++ rng :: T); [exact H5|lite|].
  intros h6 H6 N6 K6. set (q6 := with_initial q1 (Some s)) in *.
  assert (O6 : ownb g h6 p1 q6 B1').
  { destruct O5 as [A1 [A2 [A3 [A4 A5]]]]. split; [exact N6|]. split; [exact A2|]. split.
    - assert (BB : blocks h6 ([s] ++ opts (plain q1))).
      { apply blocks_keeps with (h := h5); [apply blocks_app; [apply blocks_one; exact N5|exact A3]|].
        eapply keeps_sub; [exact K6|]. intros a P. full. }
      eapply blocks_sub; [exact BB|]. unfold q6. full.
    - split; [|exact A5]. eapply body_like; [eapply body_keeps; [exact A4|]|reflexivity..].
      eapply keeps_sub; [exact K6|]. intros a P. full. }
  assert (H6' : spans h0 h6 (hold p1 q6 B1' ++ rng :: T)).
  { eapply spans_cnt; [exact H6|]. intro a. rewrite cnt_app, !cnt_cons, cnt_app, !cnt_hold, cnt_cons.
    unfold q6, fields. prj. rewrite E1. full. }
  apply wp_bind. eapply (wp_set_id null_ok); [exact O6|exact H6'|intros o []|]. intros t1 h7 O7 H7 K7.
  apply wp_bind. eapply (wp_set_name null_ok); [exact O7|exact H7|intros o []|]. intros t2 h8 O8 H8 K8.
  apply wp_bind. eapply (wp_set_type null_ok); [exact O8|exact H8|intros o []|]. intros t3 h9 O9 H9 K9.
  match type of O9 with ownb _ _ _ ?qq ?BB => set (q9 := qq) in * end.
  apply wp_bind. eapply wp_free_block with (S' := hold p1 q9 B1' ++ T); [exact H9|lite|]. intros h10 H10 K10.
  apply wp_ret. eapply (HQ p1 q9 B1'); [|exact H10| |].
  - eapply ownb_keeps; [exact O9|]. last K10.
  - unfold linear, q9, q6. prj. unfold q2 in *. cbn in L1, L2, L3. repeat split; try discriminate; lia.
  - via K1. via K2. via K3. via K4. via K5. via K6. via K7. via K8. via K9. last K10.
Qed.

Lemma wp_stack_constraints : null_ok = true -> forall g d l pc qc Bc h0 h T (Q : addr -> heap -> Prop),
  ownb g h pc qc Bc -> spans h0 h (hold pc qc Bc ++ T) -> linear d qc ->
  (forall p q B h', ownb g h' p q B -> spans h0 h' (hold p q B ++ T) -> linear d q -> keeps T h h' -> Q p h') ->
  wp (stack_constraints null_ok l d pc) Q h.
Proof.
  intros NO g d l. induction l as [|given l IH]; intros pc qc Bc h0 h T Q O H [D1 [D2 [D3 [D4 [D5 D6]]]]] HQ; cbn [stack_constraints].
  - apply wp_ret. eapply HQ; [exact O|exact H| |apply keeps_refl]. repeat split; assumption.
  - apply wp_bind. eapply (yields_linear_constraint NO g); [exact H|].
    intros p2 q2 B2 h1 O1 H1 [E1 [E2 [E3 [E4 [E5 E6]]]]] K1.
    apply wp_bind. eapply wp_problem_at; [apply O1|].
    assert (W : forall o, In o (fields q2) -> o <> None -> wide (hold pc qc Bc ++ hold p2 q2 B2 ++ T) o).
    { intros o Io No. apply (wide_field p2 q2 B2); [exact Io|exact No|]. lite. }
    pose proof O1 as [_ [[T1 [T2 _]] _]].
    apply wp_bind. eapply (wp_stacked_allocate pc qc Bc p2 q2 B2) with (T := T);
      [eapply ownb_keeps; [exact O|last K1]|exact O1|eapply spans_cnt; [exact H1|lite]|congruence|exact D5|exact E5|exact D4|exact E4
      |apply W; [cbn; tauto|exact T1]|apply W; [cbn; tauto|exact T2]|lia|].
    intros p q w h2 O2 H2 K2 G1 G2 G3 G4 G5 G6 G7 G8.
    apply wp_bind. eapply wp_problem_at; [apply O2|].
    apply wp_bind. eapply (wp_set_name null_ok); [exact O2|exact H2| |].
    { intros o [<-|[]]. destruct (id q) as [a|] eqn:Ei; [|congruence]. rewrite opts_cons. cbn [opt]. lite. }
    intros t1 h3 O3 H3 K3.
    apply wp_bind. eapply (wp_set_id null_ok); [exact O3|exact H3|intros o []|]. intros t2 h4 O4 H4 K4.
    apply wp_bind. eapply wp_problem_at.
    { rewrite K4, K3, K2 by lite. apply O1. }
    apply wp_bind. eapply (wp_set_type null_ok); [exact O4|exact H4| |].
    { intros o Io. assert (o = type q2) as -> by (destruct Io as [<-|[<-|[]]]; reflexivity).
      destruct (type q2) as [a|] eqn:Ei; [|congruence].
      assert (0 < cnt (opts (fields q2)) a) by (apply in_opts; rewrite <- Ei; cbn; tauto). lite. }
    intros t3 h5 O5 H5 K5.
    eapply IH; [exact O5|exact H5| |].
    + unfold linear. prj. repeat split; try discriminate; try lia.
    + intros p' q' B' h6 O6 H6 L6 K6. eapply HQ; [exact O6|exact H6|exact L6|].
      via K1. via K2. via K3. via K4. via K5. last K6.
Qed.

Lemma yields_linear_constraints : null_ok = true -> forall g first l d, yields g (linear d) (linear_constraints null_ok first l d).
Proof.
  intros NO g first l d. unfold linear_constraints. do 4 apply yields_around.
  intros h0 h T Q H HQ. apply wp_bind. eapply (yields_linear_constraint NO g); [exact H|].
  intros p q B h1 O1 H1 L1 K1. eapply (wp_stack_constraints NO g); [exact O1|exact H1|exact L1|].
  intros p' q' B' h2 O2 H2 L2 K2. eapply HQ; [exact O2|exact H2|exact L2|]. via K1. last K2.
Qed.

Lemma offers_constrained : null_ok = true -> forall k first l d, between 1 9 k ->
  offers (get_constrained null_ok k first l d) false 0.
Proof.
  intros NO k first l d Bk.
  set (P := fun q => name q <> None /\ objectives q = 1).
  assert (X : yields true P (
      po <-- construct null_ok (cons_constructor k) d ;;
      pc <-- linear_constraints null_ok first l d ;;
      qo <-- problem_at po ;;
      ty <-- strdup (type qo) ;;
      qc <-- problem_at pc ;;
      p <-- stacked_allocate po pc (smallest qc) (largest qc) ;;
      p1 <-- transforms null_ok (cons_transformations k) p ;;
      p1 <-- around (around (around (ret p1))) ;;
      p2 <-- transform null_ok VarsShift p1 ;;
      qc <-- problem_at pc ;;
      set_type null_ok p2 [ty; type qc] ;;;
      free_ptr ty ;;;
      ret p2)).
  { intros h0 h T Q H HQ.
    apply wp_bind. eapply (builds_construct true true _ d (cons_passes k Bk)); [exact H|].
    intros po qo Bo h1 O1 H1 [F1 [F2 [F3 [F4 F5]]]] K1. destruct (F5 eq_refl) as [F6 F7].
    apply wp_bind. eapply (yields_linear_constraints NO true); [exact H1|].
    intros pc qc Bc h2 O2 H2 [D1 [D2 [D3 [D4 [D5 D6]]]]] K2.
    apply wp_bind. eapply wp_problem_at; [rewrite K2 by lite; apply O1|].
    apply wp_bind. eapply wp_strdup; [exact H2| |].
    { intros a P'. assert (0 < cnt (opts (fields qo)) a) by full. lite. }
    intros ty h3 H3 B3 K3 E3.
    assert (O3 : ownb true h3 pc qc Bc) by (eapply ownb_keeps; [exact O2|]; last K3).
    apply wp_bind. eapply wp_problem_at; [apply O3|].
    assert (W : forall o, In o (fields qc) -> o <> None -> wide (hold po qo Bo ++ hold pc qc Bc ++ opt ty ++ T) o).
    { intros o Io No. apply (wide_field pc qc Bc); [exact Io|exact No|]. lite. }
    pose proof O2 as [_ [[T1 [T2 _]] _]].
    apply wp_bind. eapply (wp_stacked_allocate po qo Bo pc qc Bc) with (T := opt ty ++ T);
      [eapply ownb_keeps; [exact O1|via K2; last K3]|exact O3|eapply spans_cnt; [exact H3|lite]
      |congruence|exact F6|exact D5|exact F4|exact D4
      |apply W; [cbn; tauto|exact T1]|apply W; [cbn; tauto|exact T2]|lia|].
    intros p q w h4 O4 H4 K4 G1 G2 G3 G4 G5 G6 G7 G8.
    apply wp_bind. eapply (wp_transforms null_ok); [exact O4|exact H4|congruence|lia|].
    intros p1 q1 B1 h5 O5 H5 [S1 [S2 [S3 [S4 [S5 [S6 S7]]]]]] I5 K5.
    apply wp_bind. eapply wp_around; [exact H5|]. intros v1 h6 H6 K6.
    eapply wp_around; [exact H6|]. intros v2 h7 H7 K7.
    eapply wp_around_ret; [exact H7|]. intros h8 H8 K8.
    exists (v1 :: hold p1 q1 B1 ++ opt ty ++ T). split; [exact H8|]. intros h9 H9 K9.
    exists (hold p1 q1 B1 ++ opt ty ++ T). split; [exact H9|]. intros h10 H10 K10.
    assert (K510 : keeps (hold p1 q1 B1 ++ opt ty ++ T) h5 h10).
    { via K6. via K7. via K8. via K9. last K10. }
    apply wp_bind. eapply (wp_transform null_ok); [eapply ownb_keeps; [exact O5|last K510]|exact H10| |].
    { intro Z. exfalso. apply S4; assumption. }
    intros p2 q2 Sd lost h11 O11 H11 [L1 [L2 [L3 [L4 L5]]]] BL LL K11. apply lost_none in LL; [|lia]. subst lost.
    assert (Ipc : forall a, 0 < cnt (hold pc qc Bc) a -> 0 < cnt (hold p1 q1 B1) a).
    { intros a P'. apply I5. lite. }
    assert (Kpc : keeps (hold pc qc Bc) h3 h11).
    { eapply keeps_trans; [eapply keeps_sub; [exact K4|]; lite|].
      eapply keeps_trans; [eapply keeps_sub; [exact K5|]; lite|].
      eapply keeps_trans; [eapply keeps_sub; [exact K510|]; intros a P'; specialize (Ipc a P'); lite|].
      eapply keeps_sub; [exact K11|]. intros a P'. specialize (Ipc a P'). lite. }
    apply wp_bind. eapply wp_problem_at; [rewrite Kpc by lite; apply O3|].
    apply wp_bind. eapply (wp_set_type null_ok); [exact O11|exact H11| |].
    { intros o [<-|[<-|[]]].
      - destruct ty as [a|]; [|exact NO]. cbn [opt]. lite.
      - destruct (type qc) as [a|] eqn:Ei; [|congruence].
        assert (0 < cnt (opts (fields qc)) a) by (apply in_opts; rewrite <- Ei; cbn; tauto).
        assert (Z : 0 < cnt (hold pc qc Bc) a) by lite. apply Ipc in Z. lite. }
    intros t h12 O12 H12 K12.
    match type of O12 with ownb _ _ _ ?qq ?BB => set (q12 := qq) in *; set (B12 := BB) in * end.
    apply wp_bind. eapply wp_free_ptr with (S' := hold p2 q12 B12 ++ T); [exact H12|lite|]. intros h13 H13 K13.
    apply wp_ret. eapply (HQ p2 q12 B12); [|exact H13| |].
    - eapply ownb_keeps; [exact O12|]. last K13.
    - unfold P, q12. prj. split; [exact L4|]. lia.
    - via K1. via K2. via K3. via K4. via K5. via K510. via K11. via K12. last K13. }
  apply yields_around in X.
  apply (fun Y => yields_transform true P _ ObjScale Y (fun q p => conj (fun Z => False_ind _ (proj1 p Z)) (Nat.eq_le_incl _ _ (proj2 p)))) in X.
  apply yields_around in X. apply yields_around in X.
  intros h0 h T Q H HQ. unfold get_constrained. apply wp_bind. eapply X; [exact H|].
  intros p q B h1 O1 H1 [q0 [[P1 P2] [L1 [L2 [L3 [L4 L5]]]]]] K1.
  apply wp_bind. eapply (wp_set_id null_ok); [exact O1|exact H1|intros o []|]. intros t1 h2 O2 H2 K2.
  apply wp_bind. eapply (wp_set_name null_ok); [exact O2|exact H2|intros o []|]. intros t2 h3 O3 H3 K3.
  apply wp_ret. eapply (HQ p _ B []); [exact O3|exact H3|apply shut_nil|reflexivity|discriminate| |].
  - prj. congruence.
  - via K1. via K2. last K3.
Qed.
End Formatting.
