(** Building the bi-objective problems: what is owned and what is lost. *)
From Coq Require Import List Arith Bool Lia.
From Verif Require Import CBase MemModel MemSuiteModel MemSpec MemProofs MemBuildProofs MemBuild2Proofs MemBuild3Proofs MemSuiteProofs.
Import ListNotations.
Local Open Scope nat_scope.

Section Formatting.
Variable null_ok : bool.

Lemma wp_check_consistency : forall c h0 h T (Q : unit -> heap -> Prop), valid_check c -> spans h0 h T ->
  (forall h', spans h0 h' T -> keeps T h h' -> Q tt h') -> wp (check_consistency null_ok c) Q h.
Proof.
  intros [[d f1] f2] h0 h T Q [V1 V2] H HQ. unfold check_consistency.
  apply wp_bind. eapply (builds_construct null_ok true true _ d (bbob_passes f1 V1)); [exact H|].
  intros p1 q1 B1 h1 O1 H1 [F1 [F2 [F3 [F4 F5]]]] K1. destruct (F5 eq_refl) as [F6 F7].
  apply wp_bind. eapply (builds_construct null_ok true true _ d (bbob_passes f2 V2)); [exact H1|].
  intros p2 q2 B2 h2 O2 H2 [G1 [G2 [G3 [G4 G5]]]] K2. destruct (G5 eq_refl) as [G6 G7].
  apply wp_bind. eapply wp_alloc; [exact H2|]. intros s h3 H3 N3 K3.
  apply wp_bind. eapply wp_alloc; [exact H3|]. intros l h4 H4 N4 K4.
  apply wp_bind. eapply (wp_stacked_allocate p1 q1 B1 p2 q2 B2) with (T := l :: s :: T) (g := true).
  - eapply ownb_keeps; [exact O1|]. via K2. via K3. last K4.
  - eapply ownb_keeps; [exact O2|]. via K3. last K4.
  - eapply spans_cnt; [exact H4|lite].
  - congruence.
  - exact F6.
  - exact G6.
  - exact F4.
  - exact G4.
  - exists s. split; [reflexivity|lite].
  - exists l. split; [reflexivity|lite].
  - lia.
  - intros p q w h5 O5 H5 K5 I1 I2 I3 I4 I5 I6 I7 I8.
    apply wp_bind. eapply wp_free_block with (S' := hold p q (hold p1 q1 B1 ++ hold p2 q2 B2) ++ l :: T); [exact H5|lite|].
    intros h6 H6 K6.
    apply wp_bind. eapply wp_free_block with (S' := hold p q (hold p1 q1 B1 ++ hold p2 q2 B2) ++ T); [exact H6|lite|].
    intros h7 H7 K7.
    eapply (wp_problem_free true); [apply ownb_own; eapply ownb_keeps; [exact O5|via K6; last K7]|exact H7|].
    intros h8 H8 K8. apply HQ; [exact H8|].
    via K1. via K2. via K3. via K4. via K5. via K6. via K7. last K8.
Qed.

Lemma wp_checks : forall l h0 h T (Q : unit -> heap -> Prop), Forall valid_check l -> spans h0 h T ->
  (forall h', spans h0 h' T -> keeps T h h' -> Q tt h') -> wp (each (check_consistency null_ok) l) Q h.
Proof.
  induction l as [|c l IH]; intros h0 h T Q V H HQ; cbn [each].
  - apply wp_ret. apply HQ; [exact H|apply keeps_refl].
  - inversion V as [|? ? V1 V2]; subst. apply wp_bind. eapply wp_check_consistency; [exact V1|exact H|].
    intros h1 H1 K1. eapply IH; [exact V2|exact H1|]. intros h2 H2 K2. apply HQ; [exact H2|]. via K1. last K2.
Qed.

Lemma wp_find_instance : forall i h0 h T (Q : unit -> heap -> Prop), valid_instance i -> spans h0 h T ->
  (forall lost h', spans h0 h' (lost ++ T) -> shut h' lost lost ->
     length lost = match i with Some (n, _) => 1 + n | None => 0 end -> keeps T h h' -> Q tt h') ->
  wp (find_instance null_ok i) Q h.
Proof.
  intros [[n l]|] h0 h T Q V H HQ; cbn [find_instance].
  - apply wp_bind. eapply wp_alloc; [exact H|]. intros s h1 H1 N1 K1.
    apply wp_bind. eapply wp_alloc; [exact H1|]. intros a h2 H2 N2 K2.
    apply wp_bind. eapply wp_times_block; [exact H2|]. intros rows h3 H3 L3 B3 K3.
    apply wp_bind. eapply wp_set with (S' := rows ++ s :: T); [exact H3|lite|]. intros h4 H4 N4 K4.
    apply wp_bind. eapply wp_set with (S' := rows ++ a :: T); [exact H4|lite|]. intros h5 H5 N5 K5.
    apply wp_bind. eapply wp_checks; [exact V|exact H5|]. intros h6 H6 K6.
    eapply wp_free_block with (S' := (a :: rows) ++ T); [exact H6|lite|]. intros h7 H7 K7.
    apply (HQ (a :: rows)); [exact H7| |cbn; lia|].
    + change (a :: rows) with ([a] ++ rows). apply shut_app.
      * eapply shut_one; [rewrite K7, K6, K5 by lite; exact N4|].
        intros b I. cbn [pointers] in I. apply in_opts in I. rewrite opts_map_some in I. lite.
      * apply shut_blocks. eapply blocks_keeps; [exact B3|]. via K4. via K5. via K6. last K7.
    + via K1. via K2. via K3. via K4. via K5. via K6. last K7.
  - apply wp_ret. apply (HQ []); [exact H|apply shut_nil|reflexivity|apply keeps_refl].
Qed.

Definition lost_for (i : option (nat * list (nat * nat * nat))) : nat :=
  match i with Some (n, _) => 1 + n | None => 0 end.

Lemma wp_get_biobj : forall large f1 f2 d i h0 h T (Q : addr -> heap -> Prop),
  between 1 24 f1 -> between 1 24 f2 -> valid_instance i -> spans h0 h T ->
  (forall p q w c1 q1 B1 c2 q2 B2 lost h', ownb true h' p q (hold c1 q1 B1 ++ hold c2 q2 B2) ->
     ownb true h' c1 q1 B1 -> ownb true h' c2 q2 B2 -> fit d true q1 -> fit d true q2 ->
     data q = Some w -> nth_error h' w = Some (Some (StackedCell (Some c1) (Some c2))) ->
     free_fn q = StackedFree ->
     spans h0 h' (hold p q (hold c1 q1 B1 ++ hold c2 q2 B2) ++ lost ++ T) -> shut h' lost lost ->
     length lost = lost_for i -> name q <> None -> objectives q = 2 -> keeps T h h' -> Q p h') ->
  wp (get_biobj null_ok large f1 f2 d i) Q h.
Proof.
  intros large f1 f2 d i h0 h T Q V1 V2 V3 H HQ. unfold get_biobj.
  apply wp_bind. eapply wp_alloc; [exact H|]. intros s h1 H1 N1 K1.
  apply wp_bind. eapply wp_alloc; [exact H1|]. intros l h2 H2 N2 K2.
  apply wp_bind. eapply wp_find_instance; [exact V3|exact H2|]. intros lost h3 H3 SH3 LL K3.
  apply wp_bind. eapply (builds_continuous null_ok true large f1 d V1); [exact H3|].
  intros c1 q1 B1 h4 O4 H4 F K4. pose proof F as [F1 [F2 [F3 [F4 F5]]]]. destruct (F5 eq_refl) as [F6 F7].
  apply wp_bind. eapply (builds_continuous null_ok true large f2 d V2); [exact H4|].
  intros c2 q2 B2 h5 O5 H5 G K5. pose proof G as [G1 [G2 [G3 [G4 G5]]]]. destruct (G5 eq_refl) as [G6 G7].
  assert (O4' : ownb true h5 c1 q1 B1) by (eapply ownb_keeps; [exact O4|last K5]).
  apply wp_bind. eapply (wp_stacked_allocate c1 q1 B1 c2 q2 B2) with (T := lost ++ l :: s :: T) (g := true).
  { exact O4'. } { exact O5. } { eapply spans_cnt; [exact H5|lite]. } { congruence. } { exact F6. } { exact G6. }
  { exact F4. } { exact G4. } { exists s. split; [reflexivity|lite]. } { exists l. split; [reflexivity|lite]. } { lia. }
  intros p q w h6 O6 H6 K6 I1 I2 I3 I4 I5 I6 I7 I8.
  set (B := hold c1 q1 B1 ++ hold c2 q2 B2) in *.
  apply wp_bind. eapply wp_problem_at; [apply O6|].
  apply wp_bind. eapply (wp_set_name null_ok); [exact O6|exact H6| |].
  { intros o [<-|[]]. destruct (id q) as [a|] eqn:Ei; [|congruence]. rewrite opts_cons. cbn [opt]. lite. }
  intros t1 h7 O7 H7 K7.
  apply wp_bind. eapply (wp_set_id null_ok); [exact O7|exact H7|intros o []|]. intros t2 h8 O8 H8 K8.
  cbn [data with_texts] in K8.
  assert (K68 : keeps (opt (data q) ++ B ++ lost ++ l :: s :: T) h6 h8) by (via K7; last K8).
  apply wp_bind. eapply wp_problem_at.
  { rewrite K68 by (unfold B; lite). rewrite K6 by lite. apply O4'. }
  apply wp_bind. eapply wp_problem_at.
  { rewrite K68 by (unfold B; lite). rewrite K6 by lite. apply O5. }
  apply wp_bind. eapply (wp_set_type null_ok); [exact O8|exact H8| |].
  { unfold B. intros o [<-|[<-|[]]].
    - destruct (type q1) as [a|] eqn:Ei; [|congruence].
      assert (0 < cnt (opts (fields q1)) a) by (apply in_opts; rewrite <- Ei; cbn; tauto). lite.
    - destruct (type q2) as [a|] eqn:Ei; [|congruence].
      assert (0 < cnt (opts (fields q2)) a) by (apply in_opts; rewrite <- Ei; cbn; tauto). lite. }
  intros t3 h9 O9 H9 K9. cbn [data with_texts] in K9.
  match type of O9 with ownb _ _ _ ?qq _ => set (q9 := qq) in * end.
  apply wp_bind. eapply wp_free_block with (S' := hold p q9 B ++ lost ++ l :: T); [exact H9|lite|]. intros h10 H10 K10.
  apply wp_bind. eapply wp_free_block with (S' := hold p q9 B ++ lost ++ T); [exact H10|lite|]. intros h11 H11 K11.
  assert (K910 : keeps (hold p q9 B ++ lost ++ T) h9 h11) by (via K10; last K11).
  assert (Iw : 0 < cnt (opts (fields q9)) w) by (apply in_opts; unfold q9; cbn; rewrite I6; tauto).
  assert (Iw' : 0 < cnt (opt (data q)) w) by (apply opt_cnt; exact I6).
  assert (K611 : keeps (B ++ lost ++ T) h6 h11) by (via K68; via K9; last K910).
  unfold B in *. clear B.
  apply wp_ret. eapply (HQ p q9 w c1 q1 B1 c2 q2 B2 lost).
  - eapply ownb_keeps; [exact O9|]. last K910.
  - eapply ownb_keeps; [exact O4'|]. via K6. last K611.
  - eapply ownb_keeps; [exact O5|]. via K6. last K611.
  - exact F.
  - exact G.
  - exact I6.
  - rewrite K910 by lite. rewrite K9 by lite. rewrite K68 by lite. exact I7.
  - exact I8.
  - exact H11.
  - eapply shut_keeps; [exact SH3|]. via K4. via K5. via K6. last K611.
  - exact LL.
  - discriminate.
  - unfold q9. prj. lia.
  - via K1. via K2. via K3. via K4. via K5. via K6. last K611.
Qed.

(** A duplicate taking over the data. *)
Definition stripped (q : problem) : problem := with_free (with_data q None) NoFree.
Lemma wp_take_over : forall c q B g h0 h T (Q : addr -> heap -> Prop), ownb g h c q B ->
  spans h0 h (hold c q B ++ T) -> objectives q <= 1 ->
  (forall p q' h', ownb g h' p q' B -> ownb false h' c (stripped q) [] ->
     spans h0 h' (hold p q' B ++ hold c (stripped q) [] ++ T) ->
     variables q' = variables q -> objectives q' = objectives q -> constraints q' = constraints q ->
     (name q' = None <-> name q = None) -> (id q' = None <-> id q = None) -> (type q' = None <-> type q = None) ->
     keeps (B ++ T) h h' -> Q p h') ->
  wp (take_over c) Q h.
Proof.
  intros c q B g h0 h T Q [A1 [A2 [A3 [A4 A5]]]] H LO HQ. unfold take_over.
  apply wp_bind. eapply wp_coco_problem_duplicate; [exact H|exact A1|exact A2| |].
  { intros a P. assert (0 < cnt (opts (fields q)) a) by (rewrite opts_fields; lia). lite. }
  intros p q0 lost h1 H1 N1 B1 BL LL [C1 [C2 [C3 [C4 [C5 [C6 [C7 [C8 [C9 [C10 C11]]]]]]]]]] K1.
  apply lost_none in LL; [|exact LO]. subst lost.
  apply wp_bind. eapply wp_problem_at; [rewrite K1 by lite; exact A1|].
  apply wp_bind. eapply wp_problem_at; [exact N1|].
  apply wp_bind. eapply wp_set with (S' := opts (fields q0) ++ hold c q B ++ T); [exact H1|lite|]. intros h2 H2 N2 K2.
  apply wp_bind. eapply wp_set with (S' := hold p q0 [] ++ opts (fields q) ++ B ++ T); [exact H2|lite|]. intros h3 H3 N3 K3.
  set (q' := with_data q0 (data q)) in *. fold (stripped q) in N3.
  assert (E0 : opts (plain q') = opts (plain q0)) by reflexivity.
  assert (E1 : opts (plain (stripped q)) = opts (plain q)) by reflexivity.
  assert (F0 : forall a, cnt (opts (fields q')) a = cnt (opts (fields q0)) a + cnt (opt (data q)) a).
  { intro a. rewrite !opts_fields, E0, C9. cbn [opt]. rewrite cnt_nil. unfold q'. cbn [data with_data]. lia. }
  assert (F1 : forall a, cnt (opts (fields q)) a = cnt (opts (fields (stripped q))) a + cnt (opt (data q)) a).
  { intro a. rewrite !opts_fields, E1. unfold stripped. cbn [data with_data with_free opt]. rewrite cnt_nil. lia. }
  assert (P0 : forall a, cnt (opts (plain q0)) a <= cnt (opts (fields q0)) a) by (intro a; rewrite opts_fields; lia).
  assert (P1 : forall a, cnt (opts (fields q)) a = cnt (opts (plain q)) a + cnt (opt (data q)) a) by (intro a; rewrite opts_fields; lia).
  apply wp_ret. eapply (HQ p q').
  - split; [rewrite K3 by lite; exact N2|]. split; [exact C4|]. split; [|split].
    + rewrite E0. eapply blocks_keeps; [exact B1|].
      eapply keeps_trans; [eapply keeps_sub; [exact K2|]|eapply keeps_sub; [exact K3|]];
        intros a P; specialize (P0 a); lite.
    + eapply body_like; [eapply body_keeps; [exact A4|]|exact C1|exact C2|reflexivity|exact C10|exact C11].
      eapply keeps_trans; [eapply keeps_sub; [exact K1|]|eapply keeps_trans; [eapply keeps_sub; [exact K2|]|eapply keeps_sub; [exact K3|]]];
        intros a P; specialize (P1 a); lite.
    + intros G v E. apply A5; [exact G|]. rewrite <- C10. exact E.
  - split; [exact N3|]. split; [exact A2|]. split; [|split].
    + rewrite E1. eapply blocks_keeps; [exact A3|].
      eapply keeps_trans; [eapply keeps_sub; [exact K1|]|eapply keeps_trans; [eapply keeps_sub; [exact K2|]|eapply keeps_sub; [exact K3|]]];
        intros a P; specialize (P1 a); lite.
    + apply body_none; [reflexivity|]. cbn. apply blocks_nil.
    + discriminate.
  - eapply spans_cnt; [exact H3|]. intro a. specialize (F0 a). specialize (F1 a). lite.
  - exact C1.
  - exact C2.
  - exact C3.
  - exact C5.
  - exact C6.
  - exact C7.
  - via K1. via K2. last K3.
Qed.

Lemma offers_biobj_mixint : forall f1 f2 d i, between 1 24 f1 -> between 1 24 f2 -> valid_instance i ->
  offers (get_biobj_mixint null_ok f1 f2 d i) true (lost_for i).
Proof.
  intros f1 f2 d i V1 V2 V3 h0 h T Q H HQ. unfold get_biobj_mixint.
  apply wp_bind. eapply wp_alloc; [exact H|]. intros s h1 H1 N1 K1.
  apply wp_bind. eapply wp_alloc; [exact H1|]. intros l h2 H2 N2 K2.
  apply wp_bind. eapply (wp_get_biobj (50 <=? d) f1 f2 d i); [exact V1|exact V2|exact V3|exact H2|].
  intros pc qc w c1 q1 B1 c2 q2 B2 lost h3 O3 O31 O32 [F1 [F2 [F3 [F4 F5]]]] [G1 [G2 [G3 [G4 G5]]]] D3 N3 FF H3 SH LL Nm Ob K3.
  destruct (F5 eq_refl) as [F6 F7]. destruct (G5 eq_refl) as [G6 G7].
  set (R := pc :: opts (fields qc)).
  apply wp_bind. eapply wp_problem_at; [apply O3|].
  apply wp_bind. eapply wp_deref; [exact D3|]. apply wp_bind. eapply wp_read; [exact N3|].
  apply wp_bind. eapply (wp_take_over c1 q1 B1) with (g := true) (T := R ++ hold c2 q2 B2 ++ lost ++ l :: s :: T);
    [exact O31|eapply spans_cnt; [exact H3|unfold R; lite]|lia|].
  intros p1 q1' h4 O4 O4c H4 A1 A2 A3 A4 A5 A6 K4.
  apply wp_bind. eapply (wp_take_over c2 q2 B2) with (g := true)
    (T := hold p1 q1' B1 ++ hold c1 (stripped q1) [] ++ R ++ lost ++ l :: s :: T);
    [eapply ownb_keeps; [exact O32|last K4]|eapply spans_cnt; [exact H4|unfold R; lite]|lia|].
  intros p2 q2' h5 O5 O5c H5 C1 C2 C3 C4 C5 C6 K5.
  set (U := hold p1 q1' B1 ++ hold p2 q2' B2 ++ lost ++ l :: s :: T).
  assert (K45 : keeps (R ++ lost ++ l :: s :: T) h3 h5) by (via K4; last K5).
  assert (Iw : 0 < cnt (opts (fields qc)) w) by (apply in_opts; cbn; rewrite D3; tauto).
  assert (PP : forall a, cnt (opts (fields qc)) a = cnt (opts (plain qc)) a + cnt (opt (data qc)) a) by (intro a; rewrite opts_fields; lia).
  assert (Opc : own false h5 pc qc (hold pc qc (hold c1 (stripped q1) [] ++ hold c2 (stripped q2) []))).
  { destruct O3 as [X1 [X2 [X3 [X4 X5]]]]. apply ownb_own. split; [|split; [exact X2|split; [|split; [|discriminate]]]].
    - rewrite K45 by (unfold R; lite). exact X1.
    - eapply blocks_keeps; [exact X3|]. eapply keeps_sub; [exact K45|]. unfold R. intros a P. specialize (PP a). lite.
    - eapply body_stacked; [exact FF|exact D3| |apply ownb_own; eapply ownb_keeps; [exact O4c|last K5]|apply ownb_own; exact O5c].
      rewrite K45 by (unfold R; lite). exact N3. }
  apply wp_bind. eapply (wp_problem_free false) with (T := U); [exact Opc|eapply spans_cnt; [exact H5|unfold U, R; lite]|].
  intros h6 H6 K6. unfold U in H6.
  assert (O6p2 : ownb true h6 p2 q2' B2) by (eapply ownb_keeps; [exact O5|eapply keeps_sub; [exact K6|unfold U; lite]]).
  assert (O6p1 : ownb true h6 p1 q1' B1).
  { eapply ownb_keeps; [exact O4|]. via K5. eapply keeps_sub; [exact K6|unfold U; lite]. }
  assert (K36 : keeps (lost ++ l :: s :: T) h3 h6) by (via K45; eapply keeps_sub; [exact K6|unfold U; lite]).
  clear Opc H5 O5 O4 K6 K45 K5 K4. 
  apply wp_bind. eapply (wp_transform null_ok) with (T := hold p2 q2' B2 ++ lost ++ l :: s :: T); [exact O6p1|exact H6| |].
  { intro Z. exfalso. apply F4. apply A4. exact Z. }
  intros m1 r1 S1 x1 h7 O7 H7 [L1 [L2 [L3 [L4 [L5 [L6 [L7 L8]]]]]]] BX LX K7. apply lost_none in LX; [|lia]. subst x1. clear BX.
  set (M1 := hold p1 q1' B1 ++ S1) in *.
  apply wp_bind. eapply (wp_transform null_ok) with (T := hold m1 r1 M1 ++ lost ++ l :: s :: T).
  { eapply ownb_keeps; [exact O6p2|]. last K7. } { eapply spans_cnt; [exact H7|lite]. }
  { intro Z. exfalso. apply G4. apply C4. exact Z. }
  intros m2 r2 S2 x2 h8 O8 H8 [L1' [L2' [L3' [L4' [L5' [L6' [L7' L8']]]]]]] BX LX K8. apply lost_none in LX; [|lia]. subst x2. clear BX.
  set (M2 := hold p2 q2' B2 ++ S2) in *.
  apply wp_bind. eapply (wp_transform null_ok) with (T := hold m2 r2 M2 ++ lost ++ l :: s :: T).
  { eapply ownb_keeps; [exact O7|]. last K8. } { eapply spans_cnt; [exact H8|lite]. } { congruence. }
  intros m3 r3 S3 x3 h9 O9 H9 [X1 [X2 [X3 [X4 [X5 [X6 [X7 X8]]]]]]] BX LX K9. apply lost_none in LX; [|lia]. subst x3. clear BX.
  set (M3 := hold m1 r1 M1 ++ S3) in *.
  apply wp_bind. eapply (wp_transform null_ok) with (T := hold m3 r3 M3 ++ lost ++ l :: s :: T).
  { eapply ownb_keeps; [exact O8|]. last K9. } { eapply spans_cnt; [exact H9|lite]. } { congruence. }
  intros m4 r4 S4 x4 h10 O10 H10 [Y1 [Y2 [Y3 [Y4 [Y5 [Y6 [Y7 Y8]]]]]]] BX LX K10. apply lost_none in LX; [|lia]. subst x4. clear BX.
  set (M4 := hold m2 r2 M2 ++ S4) in *.
  assert (O10' : ownb true h10 m3 r3 M3) by (eapply ownb_keeps; [exact O9|]; last K10).
  assert (I1 : id r3 <> None) by (intro Z; apply F6, A5, L5, X5; exact Z).
  assert (I2 : id r4 <> None) by (intro Z; apply G6, C5, L5', Y5; exact Z).
  apply wp_bind. eapply (wp_stacked_allocate m3 r3 M3 m4 r4 M4) with (T := lost ++ l :: s :: T) (g := true).
  { exact O10'. } { exact O10. } { eapply spans_cnt; [exact H10|lite]. } { congruence. } { exact I1. } { exact I2. }
  { exact X4. } { exact Y4. } { exists s. split; [reflexivity|lite]. } { exists l. split; [reflexivity|lite]. } { lia. }
  intros p q w' h11 O11 H11 K11 J1 J2 J3 J4 J5 J6 J7 J8.
  set (B := hold m3 r3 M3 ++ hold m4 r4 M4) in *.
  apply wp_bind. eapply wp_problem_at; [apply O11|].
  apply wp_bind. eapply (wp_set_name null_ok); [exact O11|exact H11| |].
  { intros o [<-|[]]. destruct (id q) as [a|] eqn:Ei; [|congruence]. rewrite opts_cons. cbn [opt]. lite. }
  intros t1 h12 O12 H12 K12.
  apply wp_bind. eapply (wp_set_id null_ok); [exact O12|exact H12|intros o []|]. intros t2 h13 O13 H13 K13.
  assert (KB : keeps (B ++ lost ++ l :: s :: T) h11 h13) by (via K12; last K13).
  assert (KP1 : keeps (hold p1 q1' B1) h6 h13).
  { assert (W : forall a, 0 < cnt (hold p1 q1' B1) a -> 0 < cnt (hold m1 r1 M1) a) by (unfold M1; intros a P; lite).
    assert (W' : forall a, 0 < cnt (hold p1 q1' B1) a -> 0 < cnt (hold m3 r3 M3) a) by (unfold M3; intros a P; specialize (W a P); lite).
    eapply keeps_trans; [eapply keeps_sub; [exact K7|]; intros a P; specialize (W a P); lite|].
    eapply keeps_trans; [eapply keeps_sub; [exact K8|]; intros a P; specialize (W a P); lite|].
    eapply keeps_trans; [eapply keeps_sub; [exact K9|]; intros a P; specialize (W a P); lite|].
    eapply keeps_trans; [eapply keeps_sub; [exact K10|]; intros a P; specialize (W' a P); lite|].
    eapply keeps_trans; [eapply keeps_sub; [exact K11|]; intros a P; specialize (W' a P); lite|].
    eapply keeps_sub; [exact KB|]. unfold B. intros a P. specialize (W' a P). lite. }
  assert (KP2 : keeps (hold p2 q2' B2) h6 h13).
  { assert (W : forall a, 0 < cnt (hold p2 q2' B2) a -> 0 < cnt (hold m2 r2 M2) a) by (unfold M2; intros a P; lite).
    assert (W' : forall a, 0 < cnt (hold p2 q2' B2) a -> 0 < cnt (hold m4 r4 M4) a) by (unfold M4; intros a P; specialize (W a P); lite).
    eapply keeps_trans; [eapply keeps_sub; [exact K7|]; intros a P; lite|].
    eapply keeps_trans; [eapply keeps_sub; [exact K8|]; intros a P; lite|].
    eapply keeps_trans; [eapply keeps_sub; [exact K9|]; intros a P; specialize (W a P); lite|].
    eapply keeps_trans; [eapply keeps_sub; [exact K10|]; intros a P; specialize (W a P); lite|].
    eapply keeps_trans; [eapply keeps_sub; [exact K11|]; intros a P; specialize (W' a P); lite|].
    eapply keeps_sub; [exact KB|]. unfold B. intros a P. specialize (W' a P). lite. }
  apply wp_bind. eapply wp_problem_at; [rewrite KP1 by lite; apply O6p1|].
  apply wp_bind. eapply wp_problem_at; [rewrite KP2 by lite; apply O6p2|].
  apply wp_bind. eapply (wp_set_type null_ok); [exact O13|exact H13| |].
  { unfold B, M3, M4, M1, M2. intros o [<-|[<-|[]]].
    - destruct (type q1') as [a|] eqn:Ei; [|exfalso; apply F7, A6; reflexivity].
      assert (0 < cnt (opts (fields q1')) a) by (apply in_opts; rewrite <- Ei; cbn; tauto). lite.
    - destruct (type q2') as [a|] eqn:Ei; [|exfalso; apply G7, C6; reflexivity].
      assert (0 < cnt (opts (fields q2')) a) by (apply in_opts; rewrite <- Ei; cbn; tauto). lite. }
  intros t3 h14 O14 H14 K14.
  match type of O14 with ownb _ _ _ ?qq _ => set (q9 := qq) in * end.
  apply wp_bind. eapply wp_free_block with (S' := hold p q9 B ++ lost ++ l :: T); [exact H14|lite|]. intros h15 H15 K15.
  apply wp_bind. eapply wp_free_block with (S' := hold p q9 B ++ lost ++ T); [exact H15|lite|]. intros h16 H16 K16.
  assert (KZ : keeps (lost ++ T) h3 h16).
  { via K36. via K7. via K8. via K9. via K10. via K11. via KB. via K14. via K15. last K16. }
  apply wp_ret. eapply (HQ p q9 B lost).
  - eapply ownb_keeps; [exact O14|]. via K15. last K16.
  - exact H16.
  - eapply shut_keeps; [exact SH|]. last KZ.
  - exact LL.
  - discriminate.
  - unfold q9. prj. lia.
  - via K1. via K2. via K3. last KZ.
Qed.

Lemma offers_biobj : forall f1 f2 d i, between 1 24 f1 -> between 1 24 f2 -> valid_instance i ->
  offers (get_biobj null_ok false f1 f2 d i) true (lost_for i).
Proof.
  intros f1 f2 d i V1 V2 V3 h0 h T Q H HQ.
  eapply (wp_get_biobj false f1 f2 d i); [exact V1|exact V2|exact V3|exact H|].
  intros p q w c1 q1 B1 c2 q2 B2 lost h' O O1 O2 F1 F2 D N FF H' SH LL Nm Ob K.
  eapply (HQ p q (hold c1 q1 B1 ++ hold c2 q2 B2) lost); assumption.
Qed.

Lemma offers_get_problem : forall r, valid r -> (prints_null r = true -> null_ok = true) ->
  offers (get_problem null_ok r) (two_objectives r) (lost_by_fetch r).
Proof.
  intros r V PN. destruct r as [f d|f d|f d|f d|f d|f d|k first l d|f1 f2 d i|f1 f2 d i]; cbn [get_problem two_objectives lost_by_fetch valid] in *.
  - eapply builds_offers. apply builds_construct. apply toy_passes. exact V.
  - eapply builds_offers. apply builds_continuous. exact V.
  - eapply builds_wrapped. apply builds_construct. apply bbob_passes. exact V.
  - eapply builds_offers. apply builds_continuous. exact V.
  - eapply builds_wrapped. apply builds_construct. apply noisy_passes. exact V.
  - apply offers_mixint. exact V.
  - apply offers_constrained; [apply PN; reflexivity|exact V].
  - replace (match i with Some (n, _) => 1 + n | None => 0 end) with (lost_for i) by reflexivity.
    apply offers_biobj; apply V.
  - replace (match i with Some (n, _) => 1 + n | None => 0 end) with (lost_for i) by reflexivity.
    apply offers_biobj_mixint; apply V.
Qed.
End Formatting.
