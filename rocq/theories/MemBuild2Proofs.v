(** Correctness of building problems, continued: copies, texts, transformations and stacks. *)
From Coq Require Import List Arith Bool Lia Permutation.
From Verif Require Import CBase MemModel MemSuiteModel MemSpec MemProofs MemBuildProofs.
Import ListNotations.
Local Open Scope nat_scope.

Ltac via K := eapply keeps_trans; [eapply keeps_sub; [exact K|]; ins|].
Ltac last K := eapply keeps_sub; [exact K|]; ins.
Ltac recount H := eapply spans_cnt; [exact H|]; ins.

Lemma opt_cnt : forall (o : ptr) a, o = Some a -> 0 < cnt (opt o) a.
Proof. intros o a ->. cbn [opt]. rewrite cnt_cons, one_eq. lia. Qed.

Lemma wp_touch' : forall o h0 h S (Q : unit -> heap -> Prop), spans h0 h S -> o <> None ->
  (forall a, 0 < cnt (opt o) a -> 0 < cnt S a) -> Q tt h -> wp (touch o) Q h.
Proof.
  intros [a|] h0 h S Q H N I HQ; [|congruence]. apply wp_touch; [|exact HQ].
  eapply spans_alive; [exact H|]. apply I. apply opt_cnt. reflexivity.
Qed.

Lemma wp_strdup : forall o h0 h T (Q : ptr -> heap -> Prop), spans h0 h T ->
  (forall a, 0 < cnt (opt o) a -> 0 < cnt T a) ->
  (forall o' h', spans h0 h' (opt o' ++ T) -> blocks h' (opt o') -> keeps T h h' ->
     (o' = None <-> o = None) -> Q o' h') ->
  wp (strdup o) Q h.
Proof.
  intros [a|] h0 h T Q H I HQ; cbn [strdup].
  - assert (L : 0 < alive h a).
    { eapply spans_alive; [exact H|]. apply I. apply opt_cnt. reflexivity. }
    destruct (alive_cell _ _ L) as [c E]. apply wp_bind. eapply wp_read; [exact E|].
    apply wp_bind. eapply wp_alloc; [exact H|]. intros b h1 H1 N1 K1. apply wp_ret.
    apply HQ; [exact H1|apply blocks_one; exact N1|exact K1|split; discriminate].
  - apply wp_ret. apply HQ; [exact H|apply blocks_nil|apply keeps_refl|tauto].
Qed.

(** A copy without its data. *)
Definition copy (qo q : problem) : Prop :=
  variables q = variables qo /\ objectives q = objectives qo /\ constraints q = constraints qo /\
  shape q /\ (name q = None <-> name qo = None) /\ (id q = None <-> id qo = None) /\
  (type q = None <-> type qo = None) /\ (initial q = None <-> initial qo = None) /\
  data q = None /\ versatile q = versatile qo /\ free_fn q = free_fn qo.

Definition lost_copies (n : nat) : nat := if 1 <? n then 1 else 0.

Lemma wp_coco_problem_duplicate : forall o qo h0 h T (Q : addr -> heap -> Prop), spans h0 h T ->
  nth_error h o = Some (Some (ProblemCell qo)) -> shape qo ->
  (forall a, 0 < cnt (opts (plain qo)) a -> 0 < cnt T a) ->
  (forall p q lost h', spans h0 h' (hold p q [] ++ lost ++ T) ->
     nth_error h' p = Some (Some (ProblemCell q)) -> blocks h' (opts (plain q)) -> blocks h' lost ->
     length lost = lost_copies (objectives qo) -> copy qo q -> keeps T h h' -> Q p h') ->
  wp (coco_problem_duplicate o) Q h.
Proof.
  intros o qo h0 h T Q H N [S1 [S2 [S3 [S4 S5]]]] I HQ. unfold coco_problem_duplicate.
  assert (I' : forall x a, In x (plain qo) -> 0 < cnt (opt x) a -> 0 < cnt T a).
  { intros x a Ix P. apply I. destruct x as [b|]; cbn [opt] in P; [|rewrite cnt_nil in P; lia].
    rewrite cnt_cons, cnt_nil in P. assert (b = a) by (apply one_pos; lia). subst b.
    apply in_opts. exact Ix. }
  apply wp_bind. eapply wp_problem_at; [exact N|].
  apply wp_bind. eapply wp_coco_problem_allocate; [exact H|].
  intros p q h1 H1 N1 B1 [Q1 [Q2 [Q3 [[R1 [R2 [R3 [R4 R5]]]] [Q5 [Q6 [Q7 [Q8 [Q9 [Q10 Q11]]]]]]]]]] K1.
  apply wp_bind. eapply wp_problem_at; [exact N1|].
  assert (TT : forall x, In x (plain qo) -> forall a, 0 < cnt (opt x) a -> 0 < cnt (hold p q [] ++ T) a).
  { intros x Ix a P. specialize (I' x a Ix P). inside. }
  apply wp_bind. eapply wp_touch'; [exact H1|exact S1|apply TT; cbn; tauto|].
  apply wp_bind. eapply wp_touch'; [exact H1|exact S2|apply TT; cbn; tauto|].
  apply wp_bind.
  assert (X : forall Q' : unit -> heap -> Prop, Q' tt h1 ->
    wp match best_parameter qo with
       | None => ret tt
       | Some _ => touch (best_parameter qo) ;;; touch (best_parameter q) end Q' h1).
  { intros Q' HQ'. destruct (best_parameter qo) as [b|] eqn:Eb; [|apply wp_ret; exact HQ'].
    apply wp_bind. eapply wp_touch'; [exact H1|discriminate|rewrite <- Eb; apply TT; cbn; tauto|].
    assert (objectives qo <= 1).
    { destruct (le_lt_dec (objectives qo) 1); [assumption|]. destruct (S5 l). discriminate. }
    eapply wp_touch'; [exact H1| | |exact HQ'].
    - apply R4. lia.
    - ins. }
  apply X. clear X. apply wp_bind. eapply wp_strdup; [exact H1|apply TT; cbn; tauto|].
  intros i h2 H2 B2 K2 E2. apply wp_bind.
  assert (X : forall Q' : unit -> heap -> Prop, Q' tt h2 ->
    wp match best_value qo with
       | None => ret tt
       | Some _ => touch (best_value qo) ;;; touch (best_value q) end Q' h2).
  { intros Q' HQ'. destruct (best_value qo) as [b|] eqn:Eb; [|apply wp_ret; exact HQ'].
    apply wp_bind. eapply wp_touch'; [exact H2|discriminate| |].
    - intros a P. rewrite <- Eb in P. assert (0 < cnt T a) by (eapply I'; [|exact P]; cbn; tauto). inside.
    - eapply wp_touch'; [exact H2|exact R3|ins|exact HQ']. }
  apply X. clear X. apply wp_bind.
  (* the nadir vector *)
  assert (X : forall Q' : ptr -> heap -> Prop,
    (forall na lost h3, spans h0 h3 (opt na ++ lost ++ opt i ++
        (p :: opts [smallest q; largest q; best_parameter q; best_value q; noise_free q]) ++ T) ->
       blocks h3 (opt na) -> blocks h3 lost -> length lost = lost_copies (objectives qo) ->
       (na = None <-> nadir q = None) ->
       keeps (opt i ++ (p :: opts [smallest q; largest q; best_parameter q; best_value q; noise_free q]) ++ T) h2 h3 ->
       Q' na h3) ->
    wp match nadir qo with
       | None => ret (nadir q)
       | Some _ => touch (nadir qo) ;;; a <-- alloc Block ;; ret (Some a) end Q' h2).
  { intros Q' HQ'.
    destruct (nadir qo) as [b|] eqn:Eb.
    - assert (OO : 1 < objectives qo).
      { destruct (le_lt_dec (objectives qo) 1) as [l|]; [|assumption]. destruct (S4 l). discriminate. }
      apply wp_bind. eapply wp_touch'; [exact H2|discriminate| |].
      + intros a P. rewrite <- Eb in P. assert (0 < cnt T a) by (eapply I'; [|exact P]; cbn; tauto). inside.
      + apply wp_bind. eapply wp_alloc; [exact H2|]. intros a h3 H3 N3 K3. apply wp_ret.
        assert (nadir q <> None) by (apply R5; lia).
        destruct (nadir q) as [n0|] eqn:En; [|congruence].
        apply (HQ' (Some a) [n0]).
        * eapply spans_cnt; [exact H3|]. intro y. unfold hold, fields.
          rewrite Q5, Q6, Q7, Q8, Q9, En. ins.
        * apply blocks_one. exact N3.
        * apply blocks_one. rewrite K3 by (unfold hold, fields; rewrite En; ins).
          rewrite K2 by (unfold hold, fields; rewrite En; ins).
          apply B1. unfold plain. rewrite En. ins.
        * unfold lost_copies. rewrite (proj2 (Nat.ltb_lt 1 (objectives qo)) OO). reflexivity.
        * split; discriminate.
        * last K3.
    - assert (OO : objectives qo <= 1).
      { destruct (le_lt_dec (objectives qo) 1) as [l|l]; [assumption|]. destruct (S5 l). congruence. }
      assert (En : nadir q = None) by (apply R4; lia). apply wp_ret. rewrite En.
      apply (HQ' None []).
      + eapply spans_cnt; [exact H2|]. intro y. unfold hold, fields.
        rewrite Q5, Q6, Q7, Q8, Q9, En. ins.
      + apply blocks_nil.
      + apply blocks_nil.
      + unfold lost_copies. rewrite (proj2 (Nat.ltb_ge 1 (objectives qo)) OO). reflexivity.
      + tauto.
      + apply keeps_refl. }
  apply X. clear X. intros na lost h3 H3 B3 B3' L3 E3 K3.
  apply wp_bind. eapply wp_strdup; [exact H3| |].
  { intros a P. assert (0 < cnt T a) by (eapply I'; [|exact P]; cbn; tauto). inside. }
  intros nm h4 H4 B4 K4 E4.
  apply wp_bind. eapply wp_strdup; [exact H4| |].
  { intros a P. assert (0 < cnt T a) by (eapply I'; [|exact P]; cbn; tauto). inside. }
  intros pid h5 H5 B5 K5 E5.
  apply wp_bind. eapply wp_strdup; [exact H5| |].
  { intros a P. assert (0 < cnt T a) by (eapply I'; [|exact P]; cbn; tauto). inside. }
  intros ty h6 H6 B6 K6 E6.
  apply wp_bind.
  eapply wp_set with (S' := opt ty ++ opt pid ++ opt nm ++ opt na ++ lost ++ opt i ++
     opts [smallest q; largest q; best_parameter q; best_value q; noise_free q] ++ T);
    [exact H6|ins|].
  intros h7 H7 N7 K7. apply wp_ret.
  eapply (HQ p _ lost); [|exact N7| | |exact L3| |].
  - recount H7.
  - assert (BB : blocks h7 (opt ty ++ opt pid ++ opt nm ++ opt na ++ opt i ++
      opts [smallest q; largest q; best_parameter q; best_value q; noise_free q])).
    { apply blocks_keeps with (h := h6); [|last K7].
      apply blocks_app; [exact B6|]. apply blocks_keeps with (h := h5); [|last K6].
      apply blocks_app; [exact B5|]. apply blocks_keeps with (h := h4); [|last K5].
      apply blocks_app; [exact B4|]. apply blocks_keeps with (h := h3); [|last K4].
      apply blocks_app; [exact B3|]. apply blocks_keeps with (h := h2); [|last K3].
      apply blocks_app; [exact B2|]. apply blocks_keeps with (h := h1); [|last K2].
      eapply blocks_sub; [exact B1|]. ins. }
    eapply blocks_sub; [exact BB|]. ins.
  - apply blocks_keeps with (h := h3); [exact B3'|]. via K4. via K5. via K6. last K7.
  - unfold copy, shape. cbn. rewrite Q1, Q2, Q3 in *.
    repeat split; try assumption; try tauto; try (apply R4; assumption); try (apply R5; assumption).
  - via K1. via K2. via K3. via K4. via K5. via K6. last K7.
Qed.

Lemma body_like : forall g h q q' B, body g h q B ->
  variables q' = variables q -> objectives q' = objectives q -> data q' = data q ->
  versatile q' = versatile q -> free_fn q' = free_fn q -> body g h q' B.
Proof.
  intros g h q q' B HB E1 E2 E3 E4 E5. destruct HB.
  - apply body_none; first [congruence | rewrite E3; assumption].
  - eapply body_trans; try eassumption; first [congruence | rewrite E3; assumption].
  - eapply body_stacked; try eassumption; first [congruence | rewrite E3; assumption].
  - eapply body_struct; try eassumption; first [congruence | rewrite E3; assumption].
  - eapply body_versatile; try eassumption; first [congruence | rewrite E3; assumption].
  - eapply body_gallagher_sub; try eassumption; first [congruence | rewrite E3; assumption].
  - apply (body_gallagher g h q' v l subs Ss a x sizes sm zm b c c' rows); try assumption; first [congruence | rewrite E3; assumption].
  - eapply body_lunacek; try eassumption; first [congruence | rewrite E3; assumption].
Qed.

Ltac layout := split; [apply perm_cnt; cbn [map fst length seq]; intro; repeat rewrite ?cnt_cons, ?cnt_nil; lia
  |cbn [In]; intros i k I; repeat (destruct I as [I|I]; [injection I as <- <-; reflexivity|]); destruct I].

Section Formatting.
Variable null_ok : bool.

Lemma wp_formats : forall args h0 h S (Q : unit -> heap -> Prop), spans h0 h S ->
  (forall o, In o args -> match o with Some a => 0 < cnt S a | None => null_ok = true end) ->
  Q tt h -> wp (each (format_arg null_ok) args) Q h.
Proof.
  induction args as [|o args IH]; intros h0 h S Q H I HQ; cbn [each].
  - apply wp_ret. exact HQ.
  - apply wp_bind.
    assert (X : forall Q' : unit -> heap -> Prop, Q' tt h -> wp (format_arg null_ok o) Q' h).
    { intros Q' HQ'. specialize (I o (or_introl eq_refl)). destruct o as [a|]; cbn [format_arg].
      - assert (L : 0 < alive h a) by (eapply spans_alive; eassumption).
        destruct (alive_cell _ _ L) as [c E]. apply wp_bind. eapply wp_read; [exact E|].
        apply wp_ret. exact HQ'.
      - rewrite I. apply wp_ret. exact HQ'. }
    apply X. eapply IH; [exact H| |exact HQ]. intros o' I'. apply I. right. exact I'.
Qed.
Lemma wp_vstrdupf : forall args h0 h S (Q : addr -> heap -> Prop), spans h0 h S ->
  (forall o, In o args -> match o with Some a => 0 < cnt S a | None => null_ok = true end) ->
  (forall s h', spans h0 h' (s :: S) -> nth_error h' s = Some (Some Block) -> keeps S h h' -> Q s h') ->
  wp (vstrdupf null_ok args) Q h.
Proof.
  intros args h0 h S Q H I HQ. unfold vstrdupf. apply wp_bind. eapply wp_formats; [exact H|exact I|].
  eapply wp_alloc; [exact H|exact HQ].
Qed.

(** Replacing one of the texts of a problem. *)
Lemma ownb_texts : forall g h h' p q B nm i t, ownb g h p q B ->
  nth_error h' p = Some (Some (ProblemCell (with_texts q nm i t))) ->
  blocks h' (opts (plain (with_texts q nm i t))) -> keeps (opt (data q) ++ B) h h' ->
  ownb g h' p (with_texts q nm i t) B.
Proof.
  intros g h h' p q B nm i t [A [B' [C [D E]]]] N HB K. split; [exact N|]. split; [exact B'|].
  split; [exact HB|]. split; [|exact E].
  eapply body_like; [eapply body_keeps; [exact D|exact K]|reflexivity..].
Qed.

Lemma wp_set_id : forall p q B args g h0 h T (Q : unit -> heap -> Prop),
  ownb g h p q B -> spans h0 h (hold p q B ++ T) ->
  (forall o, In o args -> match o with
     | Some a => 0 < cnt (opts [name q; type q] ++ B ++ T) a | None => null_ok = true end) ->
  (forall s h', ownb g h' p (with_texts q (name q) (Some s) (type q)) B ->
     spans h0 h' (hold p (with_texts q (name q) (Some s) (type q)) B ++ T) ->
     keeps (opt (data q) ++ B ++ T) h h' -> Q tt h') ->
  wp (set_id null_ok p args) Q h.
Proof.
  intros p q B args g h0 h T Q O H I HQ. unfold set_id.
  pose proof O as [N [_ [HB _]]].
  apply wp_bind. eapply wp_problem_at; [exact N|].
  set (R := opts [smallest q; largest q; best_parameter q; best_value q; nadir q; name q; type q;
                  data q; initial q; noise_free q] ++ B ++ T).
  apply wp_bind. eapply wp_free_ptr with (S' := p :: R); [exact H|unfold R; ins|].
  intros h1 H1 K1. apply wp_bind. eapply wp_vstrdupf; [exact H1| |].
  { intros o Io. specialize (I o Io). destruct o; [|exact I]. unfold R. ins. }
  intros s h2 H2 N2 K2. apply wp_bind.
  eapply wp_set with (S' := s :: R); [exact H2|unfold R; ins|].
  intros h3 H3 N3 K3. apply wp_bind. eapply wp_vstrdupf; [exact H3| |].
  { intros o [<-|[]]. inside. }
  intros c h4 H4 N4 K4. eapply wp_free_block with (S' := s :: p :: R); [exact H4|inside|].
  intros h5 H5 K5.
  assert (KR : keeps R h h5).
  { via K1. via K2. via K3. via K4. last K5. }
  assert (Ns : nth_error h5 s = Some (Some Block)).
  { rewrite K5, K4, K3 by ins. exact N2. }
  apply (HQ s).
  - eapply ownb_texts; [exact O| | |].
    + rewrite K5, K4 by ins. exact N3.
    + assert (BB : blocks h5 ([s] ++ opts [smallest q; largest q; best_parameter q; best_value q; nadir q;
         name q; type q; initial q; noise_free q])).
      { apply blocks_app; [apply blocks_one; exact Ns|].
        apply blocks_keeps with (h := h); [|eapply keeps_sub; [exact KR|]; unfold R; ins].
        eapply blocks_sub; [exact HB|]. ins. }
      eapply blocks_sub; [exact BB|]. ins.
    + eapply keeps_sub; [exact KR|]. unfold R. ins.
  - eapply spans_cnt; [exact H5|]. unfold R. ins.
  - eapply keeps_sub; [exact KR|]. unfold R. ins.
Qed.

Lemma wp_set_name : forall p q B args g h0 h T (Q : unit -> heap -> Prop),
  ownb g h p q B -> spans h0 h (hold p q B ++ T) ->
  (forall o, In o args -> match o with
     | Some a => 0 < cnt (opts [id q; type q] ++ B ++ T) a | None => null_ok = true end) ->
  (forall s h', ownb g h' p (with_texts q (Some s) (id q) (type q)) B ->
     spans h0 h' (hold p (with_texts q (Some s) (id q) (type q)) B ++ T) ->
     keeps (opt (data q) ++ B ++ T) h h' -> Q tt h') ->
  wp (set_name null_ok p args) Q h.
Proof.
  intros p q B args g h0 h T Q O H I HQ. unfold set_name.
  pose proof O as [N [_ [HB _]]].
  apply wp_bind. eapply wp_problem_at; [exact N|].
  set (R := opts [smallest q; largest q; best_parameter q; best_value q; nadir q; id q; type q;
                  data q; initial q; noise_free q] ++ B ++ T).
  apply wp_bind. eapply wp_free_ptr with (S' := p :: R); [exact H|unfold R; ins|].
  intros h1 H1 K1. apply wp_bind. eapply wp_vstrdupf; [exact H1| |].
  { intros o Io. specialize (I o Io). destruct o; [|exact I]. unfold R. ins. }
  intros s h2 H2 N2 K2.
  eapply wp_set with (S' := s :: R); [exact H2|unfold R; ins|].
  intros h3 H3 N3 K3.
  assert (KR : keeps R h h3).
  { via K1. via K2. last K3. }
  assert (Ns : nth_error h3 s = Some (Some Block)).
  { rewrite K3 by ins. exact N2. }
  apply (HQ s).
  - eapply ownb_texts; [exact O|exact N3| |].
    + assert (BB : blocks h3 ([s] ++ opts [smallest q; largest q; best_parameter q; best_value q; nadir q;
         id q; type q; initial q; noise_free q])).
      { apply blocks_app; [apply blocks_one; exact Ns|].
        apply blocks_keeps with (h := h); [|eapply keeps_sub; [exact KR|]; unfold R; ins].
        eapply blocks_sub; [exact HB|]. ins. }
      eapply blocks_sub; [exact BB|]. ins.
    + eapply keeps_sub; [exact KR|]. unfold R. ins.
  - eapply spans_cnt; [exact H3|]. unfold R. ins.
  - eapply keeps_sub; [exact KR|]. unfold R. ins.
Qed.

Lemma wp_set_type : forall p q B args g h0 h T (Q : unit -> heap -> Prop),
  ownb g h p q B -> spans h0 h (hold p q B ++ T) ->
  (forall o, In o args -> match o with
     | Some a => 0 < cnt (opts [name q; id q] ++ B ++ T) a | None => null_ok = true end) ->
  (forall s h', ownb g h' p (with_texts q (name q) (id q) (Some s)) B ->
     spans h0 h' (hold p (with_texts q (name q) (id q) (Some s)) B ++ T) ->
     keeps (opt (data q) ++ B ++ T) h h' -> Q tt h') ->
  wp (set_type null_ok p args) Q h.
Proof.
  intros p q B args g h0 h T Q O H I HQ. unfold set_type.
  pose proof O as [N [_ [HB _]]].
  apply wp_bind. eapply wp_problem_at; [exact N|].
  set (R := opts [smallest q; largest q; best_parameter q; best_value q; nadir q; name q; id q;
                  data q; initial q; noise_free q] ++ B ++ T).
  apply wp_bind. eapply wp_free_ptr with (S' := p :: R); [exact H|unfold R; ins|].
  intros h1 H1 K1. apply wp_bind. eapply wp_vstrdupf; [exact H1| |].
  { intros o Io. specialize (I o Io). destruct o; [|exact I]. unfold R. ins. }
  intros s h2 H2 N2 K2.
  eapply wp_set with (S' := s :: R); [exact H2|unfold R; ins|].
  intros h3 H3 N3 K3.
  assert (KR : keeps R h h3).
  { via K1. via K2. last K3. }
  assert (Ns : nth_error h3 s = Some (Some Block)).
  { rewrite K3 by ins. exact N2. }
  apply (HQ s).
  - eapply ownb_texts; [exact O|exact N3| |].
    + assert (BB : blocks h3 ([s] ++ opts [smallest q; largest q; best_parameter q; best_value q; nadir q;
         name q; id q; initial q; noise_free q])).
      { apply blocks_app; [apply blocks_one; exact Ns|].
        apply blocks_keeps with (h := h); [|eapply keeps_sub; [exact KR|]; unfold R; ins].
        eapply blocks_sub; [exact HB|]. ins. }
      eapply blocks_sub; [exact BB|]. ins.
    + eapply keeps_sub; [exact KR|]. unfold R. ins.
  - eapply spans_cnt; [exact H3|]. unfold R. ins.
  - eapply keeps_sub; [exact KR|]. unfold R. ins.
Qed.

(** What a transformed problem has in common with the one inside. *)
Definition like (q q' : problem) : Prop :=
  variables q' = variables q /\ objectives q' = objectives q /\ constraints q' = constraints q /\
  name q' <> None /\ (id q' = None <-> id q = None) /\ (type q' = None <-> type q = None) /\
  (initial q' = None <-> initial q = None) /\ free_fn q' = TransformedFree.

Lemma wp_transformed_allocate : forall inner q B d t Sd g h0 h T (Q : addr -> heap -> Prop),
  ownb g h inner q B -> tdata h d t Sd -> spans h0 h (hold inner q B ++ Sd ++ T) ->
  (name q = None -> null_ok = true) ->
  (forall p q' lost h', ownb g h' p q' (hold inner q B ++ Sd) ->
     spans h0 h' (hold p q' (hold inner q B ++ Sd) ++ lost ++ T) -> like q q' ->
     blocks h' lost -> length lost = lost_copies (objectives q) ->
     keeps (hold inner q B ++ T) h h' -> Q p h') ->
  wp (transformed_allocate null_ok inner d t) Q h.
Proof.
  intros inner q B d t Sd g h0 h T Q O HT H NN HQ. unfold transformed_allocate.
  pose proof O as [N [Sh [HB [HBd V]]]].
  apply wp_bind. eapply wp_problem_at; [exact N|].
  apply wp_bind. eapply wp_strdup; [exact H|ins|]. intros old h1 H1 B1 K1 E1.
  apply wp_bind. eapply wp_alloc; [exact H1|]. intros w h2 H2 N2 K2.
  apply wp_bind. eapply wp_coco_problem_duplicate with (qo := q); [exact H2| |exact Sh|ins|].
  { rewrite K2, K1 by ins. exact N. }
  intros c qc lost h3 H3 N3 B3 BL LL [C1 [C2 [C3 [C4 [C5 [C6 [C7 [C8 [C9 [C10 C11]]]]]]]]]] K3.
  apply wp_bind. eapply wp_problem_at; [exact N3|].
  apply wp_bind.
  eapply wp_set with (S' := opts (fields qc) ++ lost ++ w :: opt old ++ hold inner q B ++ Sd ++ T);
    [exact H3|ins|].
  intros h4 H4 N4 K4.
  set (q4 := with_data (with_free qc TransformedFree) (Some w)) in *.
  assert (K14 : keeps (hold inner q B ++ Sd ++ T) h h4).
  { via K1. via K2. via K3. last K4. }
  assert (O4 : ownb g h4 c q4 (hold inner q B ++ Sd)).
  { split; [exact N4|]. split; [exact C4|]. split.
    { apply blocks_keeps with (h := h3); [exact B3|]. unfold q4. last K4. }
    split.
    - eapply body_trans with (w := w) (i := inner) (x := d) (t := t) (qi := q).
      + reflexivity.
      + reflexivity.
      + rewrite K4, K3 by ins. exact N2.
      + eapply own_keeps; [apply ownb_own; exact O|]. last K14.
      + symmetry. exact C2.
      + eapply tdata_keeps; [exact HT|]. last K14.
    - intros G v Ev. cbn in Ev. rewrite C10 in Ev. specialize (V G v Ev). ins. }
  apply wp_bind.
  eapply wp_set_name with (T := lost ++ opt old ++ T); [exact O4| | |].
  { eapply spans_cnt; [exact H4|]. intro a. unfold q4, hold, fields.
    cbn [data with_data with_free smallest largest best_parameter best_value nadir name id type initial noise_free].
    rewrite C9. ins. }
  { intros o [<-|[]]. destruct old as [ao|].
    - ins.
    - apply NN. apply E1. reflexivity. }
  intros s h5 O5 H5 K5. apply wp_bind.
  eapply wp_free_ptr with (S' := hold c (with_texts q4 (Some s) (id q4) (type q4)) (hold inner q B ++ Sd) ++ lost ++ T);
    [exact H5|inside|].
  intros h6 H6 K6. apply wp_ret.
  eapply (HQ c _ lost); [|exact H6| | |exact LL|].
  - eapply ownb_keeps; [exact O5|]. last K6.
  - unfold like. cbn. repeat split; try assumption; try discriminate; tauto.
  - apply blocks_keeps with (h := h3); [exact BL|]. via K4. via K5. last K6.
  - via K14. via K5. last K6.
Qed.

(** The layouts and the free functions of the transformations fit together. *)
Lemma layouts_fit : forall t d ks, data_layout t d = Some ks ->
  match data_frees t d with Some fr => frees_ok fr ks | None => ks = [] end.
Proof.
  intros t d ks E. destruct t; cbn [data_layout] in E; try discriminate E; injection E as <-;
    cbn [data_frees]; try reflexivity; try layout.
  (* observers *)
  split.
  - rewrite map_map. cbn [fst]. rewrite map_id, repeat_length. apply Permutation_refl.
  - intros i o I. apply in_map_iff in I. destruct I as [j [E J]]. injection E as <- <-.
    apply in_seq in J. rewrite (nth_error_nth' _ None) by (rewrite repeat_length; lia).
    rewrite nth_repeat. reflexivity.
Qed.

Lemma wp_transform : forall t inner q B g h0 h T (Q : addr -> heap -> Prop),
  ownb g h inner q B -> spans h0 h (hold inner q B ++ T) -> (name q = None -> null_ok = true) ->
  (forall p q' Sd lost h', ownb g h' p q' (hold inner q B ++ Sd) ->
     spans h0 h' (hold p q' (hold inner q B ++ Sd) ++ lost ++ T) -> like q q' ->
     blocks h' lost -> length lost = lost_copies (objectives q) ->
     keeps (hold inner q B ++ T) h h' -> Q p h') ->
  wp (transform null_ok t inner) Q h.
Proof.
  intros t inner q B g h0 h T Q O H NN HQ. unfold transform.
  pose proof O as [N _]. apply wp_bind. eapply wp_problem_at; [exact N|].
  apply wp_bind. destruct (data_layout t (variables q)) as [ks|] eqn:El.
  - apply wp_bind. eapply wp_alloc_struct; [exact H|]. intros s l Ss h1 H1 N1 S1 K1. apply wp_ret.
    eapply wp_transformed_allocate with (T := T) (Sd := concat Ss ++ [s]);
      [eapply ownb_keeps; [exact O|last K1]| |recount H1|exact NN|].
    + econstructor; [exact N1|exact S1|]. apply layouts_fit. exact El.
    + intros p q' lost h2 O2 H2 L2 B2 LL K2. eapply HQ; try eassumption. via K1. last K2.
  - apply wp_ret. eapply wp_transformed_allocate with (T := T) (Sd := []);
      [exact O|constructor|recount H|exact NN|].
    intros p q' lost h2 O2 H2 L2 B2 LL K2. eapply HQ; eassumption.
Qed.
End Formatting.
