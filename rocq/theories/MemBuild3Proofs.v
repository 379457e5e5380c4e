(** Correctness of building problems, continued: raw problems and the constructors of the
    benchmark functions, which are checked by a small analysis that is proved sound. *)
From Coq Require Import List Arith Bool Lia Permutation.
From Verif Require Import CBase MemModel MemSuiteModel MemSpec MemProofs MemBuildProofs MemBuild2Proofs.
Import ListNotations.
Local Open Scope nat_scope.

Ltac prj := cbn [variables objectives constraints smallest largest best_parameter best_value nadir name id type
       data initial noise_free versatile free_fn with_free with_data with_versatile with_initial with_texts].

Lemma wp_around : forall A (m : M A) h0 h T (Q : A -> heap -> Prop), spans h0 h T ->
  (forall v h1, spans h0 h1 (v :: T) -> keeps T h h1 ->
     wp m (fun r h2 => exists S, spans h0 h2 (v :: S) /\
             forall h3, spans h0 h3 S -> keeps S h2 h3 -> Q r h3) h1) ->
  wp (around m) Q h.
Proof.
  intros A m h0 h T Q H HQ. unfold around. apply wp_bind. eapply wp_alloc; [exact H|].
  intros v h1 H1 N1 K1. apply wp_bind. eapply wp_mono; [apply (HQ v h1 H1 K1)|].
  intros r h2 [S [H2 X]]. apply wp_bind. eapply wp_free_block with (S' := S); [exact H2|inside|].
  intros h3 H3 K3. apply wp_ret. apply X; assumption.
Qed.

Lemma wp_around_ret : forall A (a : A) h0 h T (Q : A -> heap -> Prop), spans h0 h T ->
  (forall h', spans h0 h' T -> keeps T h h' -> Q a h') -> wp (around (ret a)) Q h.
Proof.
  intros A a h0 h T Q H HQ. eapply wp_around; [exact H|]. intros v h1 H1 K1. apply wp_ret.
  exists T. split; [exact H1|]. intros h3 H3 K3. apply HQ; [exact H3|]. via K1. last K3.
Qed.

(** A problem whose data are not yet in place. *)
Definition bare (h : heap) (p : addr) (q : problem) : Prop :=
  nth_error h p = Some (Some (ProblemCell q)) /\ shape q /\ blocks h (opts (plain q)).
Lemma bare_keeps : forall h h' p q, bare h p q -> keeps (hold p q []) h h' -> bare h' p q.
Proof.
  intros h h' p q [A [B C]] K. split; [rewrite K; [exact A|]; ins|]. split; [exact B|].
  eapply blocks_keeps; [exact C|]. last K.
Qed.

Definition scalar (d : nat) (f : free_function) (q : problem) : Prop :=
  variables q = d /\ objectives q = 1 /\ constraints q = 0 /\ name q <> None /\ 
  data q = None /\ initial q = None /\ versatile q = None /\ free_fn q = f.

Lemma wp_allocate_from_scalars : forall d f h0 h T (Q : addr -> heap -> Prop), spans h0 h T ->
  (forall p q h', spans h0 h' (hold p q [] ++ T) -> bare h' p q -> scalar d f q -> keeps T h h' -> Q p h') ->
  wp (allocate_from_scalars d f) Q h.
Proof.
  intros d f h0 h T Q H HQ. unfold allocate_from_scalars. apply wp_bind.
  eapply wp_coco_problem_allocate; [exact H|].
  intros p q h1 H1 N1 B1 [C1 [C2 [C3 [C4 [C5 [C6 [C7 [C8 [C9 [C10 C11]]]]]]]]]] K1.
  apply wp_bind. eapply wp_alloc; [exact H1|]. intros nm h2 H2 N2 K2.
  apply wp_bind. eapply wp_problem_at; [rewrite K2 by ins; exact N1|].
  apply wp_bind. eapply wp_set with (S' := nm :: opts (fields q) ++ T); [exact H2|ins|].
  intros h3 H3 N3 K3. apply wp_ret.
  eapply (HQ p (with_free (with_texts q (Some nm) (id q) (type q)) f)).
  - eapply spans_cnt; [exact H3|]. intro a. unfold hold, fields. prj. rewrite C5. ins.
  - split; [exact N3|]. split; [exact C4|].
    assert (BB : blocks h3 ([nm] ++ opts (plain q))).
    { apply blocks_keeps with (h := h2); [|last K3].
      apply blocks_app; [apply blocks_one; exact N2|].
      apply blocks_keeps with (h := h1); [exact B1|]. last K2. }
    eapply blocks_sub; [exact BB|]. ins.
  - unfold scalar. cbn. repeat split; try assumption; try discriminate.
  - via K1. via K2. last K3.
Qed.

Lemma wp_set_data : forall p q d h0 h T (Q : unit -> heap -> Prop),
  bare h p q -> data q = None -> spans h0 h (hold p q [] ++ d :: T) ->
  (forall h', spans h0 h' (hold p (with_data q (Some d)) [] ++ T) -> bare h' p (with_data q (Some d)) ->
     keeps (d :: T) h h' -> Q tt h') ->
  wp (set_data p d) Q h.
Proof.
  intros p q d h0 h T Q [N [Sh HB]] D H HQ. unfold set_data. apply wp_bind. eapply wp_problem_at; [exact N|].
  eapply wp_set with (S' := opts (fields q) ++ d :: T); [exact H|ins|]. intros h1 H1 N1 K1. apply HQ.
  - eapply spans_cnt; [exact H1|]. intro a. unfold hold, fields. prj. rewrite D. ins.
  - split; [exact N1|]. split; [exact Sh|]. eapply blocks_keeps; [exact HB|]. last K1.
  - last K1.
Qed.
Lemma wp_set_versatile : forall p q v h0 h T (Q : unit -> heap -> Prop),
  bare h p q -> spans h0 h (hold p q [] ++ T) ->
  (forall h', spans h0 h' (hold p (with_versatile q (Some v)) [] ++ T) -> bare h' p (with_versatile q (Some v)) ->
     keeps T h h' -> Q tt h') ->
  wp (set_versatile p v) Q h.
Proof.
  intros p q v h0 h T Q [N [Sh HB]] H HQ. unfold set_versatile. apply wp_bind. eapply wp_problem_at; [exact N|].
  eapply wp_set with (S' := opts (fields q) ++ T); [exact H|ins|]. intros h1 H1 N1 K1. apply HQ.
  - exact H1.
  - split; [exact N1|]. split; [exact Sh|]. eapply blocks_keeps; [exact HB|]. last K1.
  - last K1.
Qed.

(** Properties of a problem under construction: its dimension, one objective, a name; [lab]: also
    an id and a type. *)
Definition fit (d : nat) (lab : bool) (q : problem) : Prop :=
  variables q = d /\ objectives q = 1 /\ constraints q = 0 /\ name q <> None /\
  (lab = true -> id q <> None /\ type q <> None).

Section Formatting.
Variable null_ok : bool.

Lemma wp_bare_id : forall p q h0 h T (Q : unit -> heap -> Prop),
  bare h p q -> spans h0 h (hold p q [] ++ T) ->
  (forall s h', bare h' p (with_texts q (name q) (Some s) (type q)) ->
     spans h0 h' (hold p (with_texts q (name q) (Some s) (type q)) [] ++ T) ->
     keeps (opt (data q) ++ T) h h' -> Q tt h') ->
  wp (set_id null_ok p []) Q h.
Proof.
  intros p q h0 h T Q [N [Sh HB]] H HQ. unfold set_id.
  apply wp_bind. eapply wp_problem_at; [exact N|].
  set (R := opts [smallest q; largest q; best_parameter q; best_value q; nadir q; name q; type q;
                  data q; initial q; noise_free q] ++ T).
  apply wp_bind. eapply wp_free_ptr with (S' := p :: R); [exact H|unfold R; ins|].
  intros h1 H1 K1. apply wp_bind. eapply wp_vstrdupf; [exact H1|intros o []|].
  intros s h2 H2 N2 K2. apply wp_bind.
  eapply wp_set with (S' := s :: R); [exact H2|unfold R; ins|].
  intros h3 H3 N3 K3. apply wp_bind. eapply wp_vstrdupf; [exact H3| |].
  { intros o [<-|[]]. inside. }
  intros c h4 H4 N4 K4. eapply wp_free_block with (S' := s :: p :: R); [exact H4|inside|].
  intros h5 H5 K5.
  assert (KR : keeps R h h5).
  { via K1. via K2. via K3. via K4. last K5. }
  assert (Ns : nth_error h5 s = Some (Some Block)).
  { rewrite K5, K4, K3 by ins. exact N2. }
  apply (HQ s).
  - split; [rewrite K5, K4 by ins; exact N3|]. split; [exact Sh|].
    assert (BB : blocks h5 ([s] ++ opts [smallest q; largest q; best_parameter q; best_value q; nadir q;
       name q; type q; initial q; noise_free q])).
    { apply blocks_app; [apply blocks_one; exact Ns|].
      apply blocks_keeps with (h := h); [|eapply keeps_sub; [exact KR|]; unfold R; ins].
      eapply blocks_sub; [exact HB|]. ins. }
    eapply blocks_sub; [exact BB|]. ins.
  - eapply spans_cnt; [exact H5|]. unfold R. ins.
  - eapply keeps_sub; [exact KR|]. unfold R. ins.
Qed.

Lemma lost_none : forall (lost : list addr) n, n <= 1 -> length lost = lost_copies n -> lost = [].
Proof.
  intros lost n L E. unfold lost_copies in E. rewrite (proj2 (Nat.ltb_ge 1 n) L) in E.
  destruct lost; [reflexivity|discriminate].
Qed.

Definition same (q q' : problem) : Prop :=
  variables q' = variables q /\ objectives q' = objectives q /\ constraints q' = constraints q /\
  (name q <> None -> name q' <> None) /\ (id q' = None <-> id q = None) /\
  (type q' = None <-> type q = None) /\ (initial q' = None <-> initial q = None).

Lemma wp_transforms : forall ts p q B g h0 h T (Q : addr -> heap -> Prop),
  ownb g h p q B -> spans h0 h (hold p q B ++ T) -> (name q = None -> null_ok = true) ->
  objectives q <= 1 ->
  (forall p' q' B' h', ownb g h' p' q' B' -> spans h0 h' (hold p' q' B' ++ T) -> same q q' ->
     (forall a, 0 < cnt (hold p q B) a -> 0 < cnt (hold p' q' B') a) ->
     keeps (hold p q B ++ T) h h' -> Q p' h') ->
  wp (transforms null_ok ts p) Q h.
Proof.
  induction ts as [|t ts IH]; intros p q B g h0 h T Q O H NN LO HQ; cbn [transforms].
  - apply wp_ret. apply (HQ p q B); [exact O|exact H| |tauto|apply keeps_refl].
    unfold same. tauto.
  - apply wp_bind. eapply wp_transform; [exact O|exact H|exact NN|].
    intros p1 q1 Sd lost h1 O1 H1 [L1 [L2 [L3 [L4 [L5 [L6 [L7 L8]]]]]]] BL LL K1.
    apply lost_none in LL; [|exact LO]. subst lost.
    eapply IH; [exact O1|exact H1|intro Z; congruence|lia|].
    intros p2 q2 B2 h2 O2 H2 [S1 [S2 [S3 [S4 [S5 [S6 S7]]]]]] I2 K2.
    apply (HQ p2 q2 B2); [exact O2|exact H2| | |].
    + unfold same. repeat split; try congruence; try tauto.
    + intros a P. apply I2. revert P. ins.
    + via K1. last K2.
Qed.

Lemma fit_same : forall d lab q q', fit d lab q -> same q q' -> fit d lab q'.
Proof.
  intros d lab q q' [F1 [F2 [F3 [F4 F5]]]] [S1 [S2 [S3 [S4 [S5 [S6 S7]]]]]].
  unfold fit. repeat split; try congruence; try tauto.
Qed.
Lemma like_same : forall q q', like q q' -> same q q'.
Proof. intros q q' [L1 [L2 [L3 [L4 [L5 [L6 [L7 L8]]]]]]]. unfold same. tauto. Qed.

(** What a function that builds a problem of one objective guarantees. *)
Definition builds (g : bool) (lab : bool) (d : nat) (m : M addr) : Prop :=
  forall h0 h T (Q : addr -> heap -> Prop), spans h0 h T ->
  (forall p q B h', ownb g h' p q B -> spans h0 h' (hold p q B ++ T) -> fit d lab q -> keeps T h h' ->
     Q p h') -> wp m Q h.

Lemma builds_around : forall g lab d m, builds g lab d m -> builds g lab d (around m).
Proof.
  intros g lab d m BM h0 h T Q H HQ. eapply wp_around; [exact H|]. intros v h1 H1 K1.
  eapply BM; [exact H1|]. intros p q B h2 O2 H2 F2 K2. exists (hold p q B ++ T).
  split; [recount H2|]. intros h3 H3 K3. eapply HQ; [|exact H3|exact F2|].
  - eapply ownb_keeps; [exact O2|]. last K3.
  - via K1. via K2. last K3.
Qed.
Lemma builds_after : forall g lab d m, builds g lab d m ->
  builds g lab d (p <-- m ;; around (ret p)).
Proof.
  intros g lab d m BM h0 h T Q H HQ. apply wp_bind. eapply BM; [exact H|].
  intros p q B h1 O1 H1 F1 K1. eapply wp_around_ret; [exact H1|]. intros h2 H2 K2.
  eapply HQ; [|exact H2|exact F1|].
  - eapply ownb_keeps; [exact O1|]. last K2.
  - via K1. last K2.
Qed.
Lemma builds_transforms : forall g lab d m ts, builds g lab d m ->
  builds g lab d (p <-- m ;; transforms null_ok ts p).
Proof.
  intros g lab d m ts BM h0 h T Q H HQ. apply wp_bind. eapply BM; [exact H|].
  intros p q B h1 O1 H1 F1 K1. pose proof F1 as [F2 [F3 [F4 [F5 F6]]]].
  eapply wp_transforms; [exact O1|exact H1|intro; congruence|lia|].
  intros p' q' B' h2 O2 H2 S2 I2 K2. eapply HQ; [exact O2|exact H2|eapply fit_same; eassumption|].
  via K1. last K2.
Qed.

Lemma bare_ownb : forall g h p q B, bare h p q -> body g h q B ->
  (forall v, versatile q = Some v -> 0 < cnt B v) -> ownb g h p q B.
Proof. intros g h p q B [A [C D]] E V. exact (conj A (conj C (conj D (conj E (fun _ => V))))). Qed.

Lemma fit_scalar : forall d f q, scalar d f q -> fit d false q.
Proof.
  intros d f q [S1 [S2 [S3 [S4 _]]]]. unfold fit. repeat split; try assumption; discriminate.
Qed.
Lemma fit_false : forall d lab q, fit d lab q -> fit d false q.
Proof. intros d lab q [F1 [F2 [F3 [F4 _]]]]. unfold fit. repeat split; try assumption; discriminate. Qed.

Lemma builds_plain : forall g d, builds g false d (p <-- allocate_from_scalars d NoFree ;; set_id null_ok p [] ;;; ret p).
Proof.
  intros g d h0 h T Q H HQ. apply wp_bind. eapply wp_allocate_from_scalars; [exact H|].
  intros p q h1 H1 B1 [S1 [S2 [S3 [S4 [S5 [S6 [S7 S8]]]]]]] K1.
  apply wp_bind. eapply wp_bare_id; [exact B1|exact H1|]. intros s h2 B2 H2 K2. apply wp_ret.
  eapply (HQ p _ []); [|exact H2| |].
  - apply bare_ownb; [exact B2| |cbn; congruence]. apply body_none; [exact S8|].
    cbn. rewrite S5. apply blocks_nil.
  - unfold fit. cbn. repeat split; try assumption; discriminate.
  - via K1. last K2.
Qed.

Lemma builds_data : forall g d, builds g false d (p <-- allocate_from_scalars d NoFree ;; set_id null_ok p [] ;;;
    s <-- alloc Block ;; set_data p s ;;; ret p).
Proof.
  intros g d h0 h T Q H HQ. apply wp_bind. eapply wp_allocate_from_scalars; [exact H|].
  intros p q h1 H1 B1 [S1 [S2 [S3 [S4 [S5 [S6 [S7 S8]]]]]]] K1.
  apply wp_bind. eapply wp_bare_id; [exact B1|exact H1|]. intros s h2 B2 H2 K2.
  set (q2 := with_texts q (name q) (Some s) (type q)) in *.
  apply wp_bind. eapply wp_alloc; [exact H2|]. intros b h3 H3 N3 K3.
  apply wp_bind. eapply wp_set_data with (q := q2) (T := T);
    [eapply bare_keeps; [exact B2|last K3]|exact S5|recount H3|].
  intros h4 H4 B4 K4. apply wp_ret.
  eapply (HQ p _ []); [|exact H4| |].
  - apply bare_ownb; [exact B4| |cbn; congruence]. apply body_none; [exact S8|].
    cbn. apply blocks_one. rewrite K4 by ins. exact N3.
  - unfold fit. cbn. repeat split; try assumption; discriminate.
  - via K1. via K2. via K3. last K4.
Qed.

Lemma builds_versatile : forall g d, builds g false d (p <-- allocate_from_scalars d VersatileFree ;; set_id null_ok p [] ;;;
    v <-- alloc Block ;; set_versatile p v ;;; ret p).
Proof.
  intros g d h0 h T Q H HQ. apply wp_bind. eapply wp_allocate_from_scalars; [exact H|].
  intros p q h1 H1 B1 [S1 [S2 [S3 [S4 [S5 [S6 [S7 S8]]]]]]] K1.
  apply wp_bind. eapply wp_bare_id; [exact B1|exact H1|]. intros s h2 B2 H2 K2.
  set (q2 := with_texts q (name q) (Some s) (type q)) in *.
  apply wp_bind. eapply wp_alloc; [exact H2|]. intros b h3 H3 N3 K3.
  apply wp_bind. eapply wp_set_versatile with (q := q2) (T := b :: T);
    [eapply bare_keeps; [exact B2|last K3]|recount H3|].
  intros h4 H4 B4 K4. apply wp_ret.
  eapply (HQ p (with_versatile q2 (Some b)) [b]); [|recount H4| |].
  - apply bare_ownb; [exact B4| |].
    + apply body_versatile; [exact S8|reflexivity|cbn; rewrite S5; apply blocks_nil|].
      rewrite K4 by ins. exact N3.
    + prj. intros v E. injection E as <-. inside.
  - unfold fit. cbn. repeat split; try assumption; discriminate.
  - via K1. via K2. via K3. last K4.
Qed.

(** Raw problems with a data structure. *)
Lemma raw_fit : forall r f d, is_struct f = true ->
  match r, f with
  | RawAttractiveSector, AttractiveSectorFree => True
  | RawGallagher _, GallagherFree => True
  | RawLunacek, LunacekFree => True
  | RawStepEllipsoid, StepEllipsoidFree => True
  | _, _ => False
  end -> frees_ok (raw_frees f d (fst (raw_layout r d))) (snd (raw_layout r d)).
Proof.
  intros r f d _ E. destruct r; destruct f; try destruct E; cbn [raw_layout raw_frees fst snd]; layout.
Qed.

Lemma builds_struct : forall g r f d, is_struct f = true ->
  match r, f with
  | RawAttractiveSector, AttractiveSectorFree => True
  | RawGallagher _, GallagherFree => True
  | RawLunacek, LunacekFree => True
  | RawStepEllipsoid, StepEllipsoidFree => True
  | _, _ => False
  end -> builds g false d (raw_struct r f d).
Proof.
  intros g r f d Sf Rf h0 h T Q H HQ. unfold raw_struct. apply wp_bind.
  eapply wp_allocate_from_scalars; [exact H|].
  intros p q h1 H1 B1 [S1 [S2 [S3 [S4 [S5 [S6 [S7 S8]]]]]]] K1.
  apply wp_bind. eapply wp_alloc_struct; [exact H1|]. intros s l Ss h2 H2 N2 Sl K2.
  apply wp_bind. eapply wp_set_data with (q := q) (T := concat Ss ++ T);
    [eapply bare_keeps; [exact B1|last K2]|exact S5|recount H2|].
  intros h3 H3 B3 K3. apply wp_ret.
  eapply (HQ p (with_data q (Some s)) (concat Ss)); [|recount H3| |].
  - apply bare_ownb; [exact B3| |cbn; congruence].
    eapply body_struct with (d := s); [cbn; rewrite S8; exact Sf|reflexivity| | |].
    + rewrite K3 by ins. exact N2.
    + eapply slots_keeps; [exact Sl|]. last K3.
    + cbn [free_fn variables with_data]. rewrite S8, S1. apply raw_fit; assumption.
  - unfold fit. cbn. repeat split; try assumption; discriminate.
  - via K1. via K2. last K3.
Qed.

Lemma builds_set_id : forall g lab d m, builds g lab d m ->
  builds g lab d (p <-- m ;; set_id null_ok p [] ;;; ret p).
Proof.
  intros g lab d m BM h0 h T Q H HQ. apply wp_bind. eapply BM; [exact H|].
  intros p q B h1 O1 H1 F1 K1. apply wp_bind. eapply wp_set_id; [exact O1|exact H1|intros o []|].
  intros s h2 O2 H2 K2. apply wp_ret. eapply HQ; [exact O2|exact H2| |].
  - destruct F1 as [F1 [F2 [F3 [F4 F5]]]]. unfold fit. cbn. repeat split; try assumption.
    + discriminate.
    + apply F5. assumption.
  - via K1. last K2.
Qed.

Lemma bind_assoc : forall A B C (m : M A) (k : A -> M B) (k' : B -> M C) h,
  mbind (mbind m k) k' h = mbind m (fun a => mbind (k a) k') h.
Proof. intros A B C m k k' h. unfold mbind. destruct (m h) as [[a h']| |]; reflexivity. Qed.
Lemma wp_eq : forall A (m m' : M A) Q h, m h = m' h -> wp m Q h -> wp m' Q h.
Proof. intros A m m' Q h E [a [h' [W HQ]]]. exists a, h'. rewrite <- E. auto. Qed.

Lemma builds_gallagher_sub : forall g d, builds g false d (gallagher_sub null_ok d).
Proof.
  intros g d h0 h T Q H HQ. unfold gallagher_sub. apply wp_bind. eapply wp_allocate_from_scalars; [exact H|].
  intros p q h1 H1 B1 [S1 [S2 [S3 [S4 [S5 [S6 [S7 S8]]]]]]] K1.
  apply wp_bind. eapply wp_alloc; [exact H1|]. intros v h2 H2 N2 K2.
  apply wp_bind. eapply wp_set_versatile with (q := q) (T := v :: T);
    [eapply bare_keeps; [exact B1|last K2]|recount H2|].
  intros h3 H3 B3 K3.
  assert (O3 : ownb g h3 p (with_versatile q (Some v)) [v]).
  { apply bare_ownb; [exact B3| |].
    - apply body_gallagher_sub; [exact S8|reflexivity|cbn; rewrite S5; apply blocks_nil|].
      rewrite K3 by ins. exact N2.
    - prj. intros w E. injection E as <-. inside. }
  apply wp_bind. eapply wp_set_id with (T := T); [exact O3|recount H3|intros o []|].
  intros s h4 O4 H4 K4.
  set (q4 := with_texts (with_versatile q (Some v)) (name (with_versatile q (Some v))) (Some s)
               (type (with_versatile q (Some v)))) in *.
  assert (F4 : fit d false q4).
  { unfold fit. cbn. repeat split; try assumption; discriminate. }
  assert (G : forall h' (Q' : addr -> heap -> Prop) T', ownb g h' p q4 [v] -> spans h0 h' (hold p q4 [v] ++ T') ->
    (forall p' q' B' h'', ownb g h'' p' q' B' -> spans h0 h'' (hold p' q' B' ++ T') -> fit d false q' ->
        keeps T' h' h'' -> Q' p' h'') ->
    wp (transforms null_ok [VarsScale; VarsConditioning; VarsInversePermutation; VarsShift] p) Q' h').
  { intros h' Q' T' O' H' HQ'. destruct F4 as [F1 [F2 [F3 [F4 F5]]]].
    eapply wp_transforms; [exact O'|exact H'|intro; congruence|lia|].
    intros p' q' B' h'' O'' H'' S'' I'' K''. eapply HQ'; [exact O''|exact H''| |last K''].
    eapply fit_same; [|exact S'']. unfold fit. repeat split; try assumption; discriminate. }
  eapply wp_around; [exact H4|]. intros v1 h5 H5 K5.
  eapply wp_around; [exact H5|]. intros v2 h6 H6 K6.
  eapply (G h6 _ (v2 :: v1 :: T)).
  - eapply ownb_keeps; [exact O4|]. via K5. last K6.
  - recount H6.
  - intros p' q' B' h7 O7 H7 F7 K7. exists (v1 :: hold p' q' B' ++ T). split; [recount H7|].
    intros h8 H8 K8. exists (hold p' q' B' ++ T). split; [exact H8|]. intros h9 H9 K9.
    eapply HQ; [|exact H9|exact F7|].
    + eapply ownb_keeps; [exact O7|]. via K8. last K9.
    + via K1. via K2. via K3. via K4. via K5. via K6. via K7. via K8. last K9.
Qed.

Lemma wp_times_subs : forall g d n h0 h T (Q : list addr -> heap -> Prop), spans h0 h T ->
  (forall l Ss h', spans h0 h' (concat Ss ++ T) -> owns g h' l Ss -> length l = n -> keeps T h h' -> Q l h') ->
  wp (times n (gallagher_sub null_ok d)) Q h.
Proof.
  intros g d n. induction n as [|n IH]; intros h0 h T Q H HQ; cbn [times].
  - apply wp_ret. apply (HQ [] []); [exact H|constructor|reflexivity|apply keeps_refl].
  - apply wp_bind. eapply (builds_gallagher_sub g); [exact H|]. intros p q B h1 O1 H1 F1 K1.
    apply wp_bind. eapply IH; [exact H1|]. intros l Ss h2 H2 O2 L2 K2. apply wp_ret.
    apply (HQ (p :: l) (hold p q B :: Ss)).
    + cbn [concat]. recount H2.
    + econstructor; [|exact O2]. eapply own_keeps; [apply ownb_own; exact O1|]. last K2.
    + cbn. lia.
    + via K1. last K2.
Qed.

Lemma builds_gallagher_core : forall g peaks d, builds g false d (raw_allocate null_ok (RawGallagherCore peaks) d).
Proof.
  intros g peaks d h0 h T Q H HQ. cbn [raw_allocate]. apply wp_bind. eapply wp_allocate_from_scalars; [exact H|].
  intros p q h1 H1 B1 [S1 [S2 [S3 [S4 [S5 [S6 [S7 S8]]]]]]] K1.
  apply wp_bind. eapply wp_alloc; [exact H1|]. intros v h2 H2 N2 K2.
  apply wp_bind. eapply wp_set_versatile with (q := q) (T := v :: T);
    [eapply bare_keeps; [exact B1|last K2]|recount H2|].
  intros h3 H3 B3 K3. set (q3 := with_versatile q (Some v)) in *.
  apply wp_bind. eapply wp_alloc; [exact H3|]. intros a h4 H4 N4 K4.
  apply wp_bind. eapply (wp_times_subs g); [exact H4|]. intros subs Ss h5 H5 O5 L5 K5.
  apply wp_bind. eapply wp_set with (S' := concat Ss ++ hold p q3 [] ++ v :: T); [exact H5|ins|].
  intros h6 H6 N6 K6.
  apply wp_bind. eapply wp_alloc; [exact H6|]. intros x h7 H7 N7 K7.
  apply wp_bind. eapply wp_alloc; [exact H7|]. intros sm h8 H8 N8 K8.
  apply wp_bind. eapply wp_alloc; [exact H8|]. intros zm h9 H9 N9 K9.
  apply wp_bind. eapply wp_alloc; [exact H9|]. intros sizes h10 H10 N10 K10.
  apply wp_bind. eapply wp_alloc_matrix; [exact H10|]. intros b rows h11 H11 L11 N11 B11 K11.
  apply wp_bind.
  eapply wp_set with (S' := rows ++ b :: sizes :: zm :: sm :: x :: concat Ss ++ a :: hold p q3 [] ++ T);
    [exact H11|ins|].
  intros h12 H12 N12 K12.
  set (BB := concat Ss ++ [a; x; sizes; sm; zm] ++ (rows ++ [b]) ++ [v]).
  assert (KO : forall l, (forall y, 0 < cnt l y -> 0 < cnt (concat Ss ++ hold p q3 [] ++ T) y) -> keeps l h5 h12).
  { intros l I. eapply keeps_sub; [|exact I]. via K6. via K7. via K8. via K9. via K10. via K11. last K12. }
  assert (O12 : ownb g h12 p q3 BB).
  { apply bare_ownb.
    - eapply bare_keeps; [exact B3|]. via K4. via K5. apply KO. ins.
    - apply (body_gallagher g h12 q3 v peaks subs Ss a x sizes sm zm b 0 0 rows).
      + exact S8.
      + reflexivity.
      + cbn. rewrite S5. apply blocks_nil.
      + exact N12.
      + rewrite K12, K11, K10, K9, K8, K7 by ins. exact N6.
      + exact L5.
      + eapply owns_keeps; [exact O5|]. apply KO. ins.
      + change [x; sizes; sm; zm] with ([x] ++ [sizes] ++ [sm] ++ [zm]).
        apply blocks_app; [|apply blocks_app; [|apply blocks_app]]; apply blocks_one.
        * rewrite K12, K11, K10, K9, K8 by ins. exact N7.
        * rewrite K12, K11 by ins. exact N10.
        * rewrite K12, K11, K10, K9 by ins. exact N8.
        * rewrite K12, K11, K10 by ins. exact N9.
      + rewrite K12 by ins. exact N11.
      + rewrite L11. symmetry. exact S1.
      + eapply blocks_keeps; [exact B11|]. last K12.
    - unfold q3, BB. prj. intros w E. injection E as <-. ins. }
  apply wp_bind. eapply wp_set_id with (T := T); [exact O12| |intros o []|].
  { eapply spans_cnt; [exact H12|]. unfold BB. ins. }
  intros s h13 O13 H13 K13. apply wp_ret. eapply HQ; [exact O13|exact H13| |].
  - unfold fit. cbn. repeat split; try assumption; discriminate.
  - via K1. via K2. via K3. via K4. via K5. eapply keeps_trans; [apply KO; ins|]. last K13.
Qed.

Lemma builds_lunacek_sub : forall g d ts, builds g false d (lunacek_sub null_ok d ts).
Proof.
  intros g d ts h0 h T Q H HQ. unfold lunacek_sub.
  assert (W := builds_transforms g false d _ ts (builds_plain g d) h0 h T Q H HQ).
  destruct W as [p' [h' [E HQ']]]. exists p', h'. split; [|exact HQ'].
  rewrite <- E. unfold mbind. destruct (allocate_from_scalars d NoFree h) as [[p h1]| |]; cbn [bind fst snd]; try reflexivity.
  destruct (set_id null_ok p [] h1) as [[u h2]| |]; reflexivity.
Qed.

Lemma builds_lunacek_core : forall g d, builds g false d (raw_allocate null_ok RawLunacekCore d).
Proof.
  intros g d h0 h T Q H HQ. cbn [raw_allocate]. apply wp_bind. eapply wp_allocate_from_scalars; [exact H|].
  intros p q h1 H1 B1 [S1 [S2 [S3 [S4 [S5 [S6 [S7 S8]]]]]]] K1.
  apply wp_bind. eapply wp_alloc; [exact H1|]. intros v h2 H2 N2 K2.
  apply wp_bind. eapply wp_set_versatile with (q := q) (T := v :: T);
    [eapply bare_keeps; [exact B1|last K2]|recount H2|].
  intros h3 H3 B3 K3. set (q3 := with_versatile q (Some v)) in *.
  apply wp_bind. eapply wp_alloc; [exact H3|]. intros x h4 H4 N4 K4.
  apply wp_bind. eapply (builds_lunacek_sub g); [exact H4|]. intros s0 q0 B0 h5 O5 H5 F5 K5.
  apply wp_bind. eapply (builds_lunacek_sub g); [exact H5|]. intros s1 q1 B1' h6 O6 H6 F6 K6.
  apply wp_bind.
  eapply wp_set with (S' := hold s1 q1 B1' ++ hold s0 q0 B0 ++ x :: hold p q3 [] ++ T); [exact H6|ins|].
  intros h7 H7 N7 K7.
  set (BB := hold s0 q0 B0 ++ hold s1 q1 B1' ++ [x; v]).
  assert (O7 : ownb g h7 p q3 BB).
  { apply bare_ownb.
    - eapply bare_keeps; [exact B3|]. via K4. via K5. via K6. last K7.
    - eapply body_lunacek with (qa := q0) (qb := q1).
      + exact S8.
      + reflexivity.
      + cbn. rewrite S5. apply blocks_nil.
      + exact N7.
      + eapply own_keeps; [apply ownb_own; exact O5|]. via K6. last K7.
      + eapply own_keeps; [apply ownb_own; exact O6|]. last K7.
      + rewrite K7, K6, K5 by ins. exact N4.
    - unfold q3, BB. prj. intros w E. injection E as <-. ins. }
  apply wp_bind. eapply wp_set_id with (T := T); [exact O7| |intros o []|].
  { eapply spans_cnt; [exact H7|]. unfold BB. ins. }
  intros s h8 O8 H8 K8. apply wp_ret. eapply HQ; [exact O8|exact H8| |].
  - unfold fit. cbn. repeat split; try assumption; discriminate.
  - via K1. via K2. via K3. via K4. via K5. via K6. via K7. last K8.
Qed.

Lemma builds_raw : forall g r d, builds g false d (raw_allocate null_ok r d).
Proof.
  intros g r d. destruct r; try apply builds_gallagher_core; try apply builds_lunacek_core; cbn [raw_allocate].
  - apply builds_plain.
  - apply builds_data.
  - intros h0 h T Q H HQ.
    assert (W := builds_after g false d _ (builds_data g d) h0 h T Q H HQ).
    destruct W as [p' [h' [E HQ']]]. exists p', h'. split; [|exact HQ'].
    rewrite <- E. unfold mbind. destruct (allocate_from_scalars d NoFree h) as [[p h1]| |]; cbn [bind fst snd]; try reflexivity.
    destruct (set_id null_ok p [] h1) as [[u h2]| |]; cbn [bind fst snd]; try reflexivity.
    destruct (alloc Block h2) as [[a h3]| |]; cbn [bind fst snd]; try reflexivity.
    destruct (set_data p a h3) as [[u' h4]| |]; reflexivity.
  - apply builds_set_id. apply builds_struct; [reflexivity|exact I].
  - apply builds_around. apply builds_around. apply builds_after. apply builds_around.
    apply builds_struct; [reflexivity|exact I].
  - apply builds_after. apply builds_struct; [reflexivity|exact I].
  - apply builds_struct; [reflexivity|exact I].
  - apply builds_versatile.
Qed.

(** The analysis: kinds of the temporaries ([None]: freed) and whether the problem exists and is
    labelled. *)
Inductive kind := KVector | KMatrix | KProblem.
Fixpoint put {A} (l : list A) (k : nat) (x : A) : list A :=
  match l, k with
  | [], _ => []
  | _ :: l', 0 => x :: l'
  | y :: l', S k' => y :: put l' k' x
  end.
Fixpoint check (l : list instr) (ks : list (option kind)) (st : option bool) : option bool :=
  match l with
  | [] => if forallb (fun k => match k with None => true | Some _ => false end) ks then st else None
  | TempVector :: l' => check l' (ks ++ [Some KVector]) st
  | TempMatrix :: l' => check l' (ks ++ [Some KMatrix]) st
  | TempProblem :: l' => check l' (ks ++ [Some KProblem]) st
  | FreeVector k :: l' =>
    match nth_error ks k with Some (Some KVector) => check l' (put ks k None) st | _ => None end
  | FreeMatrix k :: l' =>
    match nth_error ks k with Some (Some KMatrix) => check l' (put ks k None) st | _ => None end
  | FreeProblem k :: l' =>
    match nth_error ks k with Some (Some KProblem) => check l' (put ks k None) st | _ => None end
  | Raw _ :: l' => match st with None => check l' ks (Some false) | Some _ => None end
  | Wrap _ :: l' => match st with Some b => check l' ks (Some b) | None => None end
  | Label :: l' => match st with Some _ => check l' ks (Some true) | None => None end
  end.

Inductive temp (g : bool) (d : nat) (h : heap) : addr -> option kind -> list addr -> Prop :=
| temp_freed : forall a, temp g d h a None []
| temp_vector : forall a, temp g d h a (Some KVector) [a]
| temp_matrix : forall a c rows, nth_error h a = Some (Some (Pointers c (map Some rows))) ->
    length rows = d -> temp g d h a (Some KMatrix) (rows ++ [a])
| temp_problem : forall a q S, own g h a q S -> temp g d h a (Some KProblem) S.
Inductive temps (g : bool) (d : nat) (h : heap) : list addr -> list (option kind) -> list (list addr) -> Prop :=
| temps_nil : temps g d h [] [] []
| temps_cons : forall a k S l ks Ss, temp g d h a k S -> temps g d h l ks Ss ->
    temps g d h (a :: l) (k :: ks) (S :: Ss).

Lemma temp_keeps : forall g d h h' a k S, temp g d h a k S -> keeps S h h' -> temp g d h' a k S.
Proof.
  intros g d h h' a k S HT K. destruct HT; try constructor.
  - econstructor; [|eassumption]. rewrite K; [eassumption|]. inside.
  - econstructor. eapply own_keeps; eassumption.
Qed.
Lemma temps_keeps : forall g d h h' l ks Ss, temps g d h l ks Ss -> keeps (concat Ss) h h' -> temps g d h' l ks Ss.
Proof.
  intros g d h h' l ks Ss HT. induction HT; intro K; constructor; cbn [concat] in K.
  - eapply temp_keeps; [eassumption|]. last K.
  - apply IHHT. last K.
Qed.
Lemma temps_snoc : forall g d h l ks Ss a k S, temps g d h l ks Ss -> temp g d h a k S ->
  temps g d h (l ++ [a]) (ks ++ [k]) (Ss ++ [S]).
Proof. intros g d h l ks Ss a k S HT Ht. induction HT; cbn; constructor; try assumption. constructor. Qed.
Lemma temps_nth : forall g d h l ks Ss i k, temps g d h l ks Ss -> nth_error ks i = Some k ->
  exists a S, nth_error l i = Some a /\ temp g d h a k S /\
    (forall y, cnt (concat Ss) y = cnt S y + cnt (concat (put Ss i [])) y).
Proof.
  intros g d h l ks Ss i k HT. revert i. induction HT as [|a k' S l ks Ss A B IH]; intros [|i] E; cbn in E; try discriminate.
  - injection E as <-. exists a, S. split; [reflexivity|]. split; [exact A|]. intro y. cbn [put concat]. inside.
  - destruct (IH i E) as [b [Sb [E1 [E2 E3]]]]. exists b, Sb. split; [exact E1|]. split; [exact E2|].
    intro y. cbn [put concat]. specialize (E3 y). inside.
Qed.
Lemma temps_put : forall g d h l ks Ss i, temps g d h l ks Ss -> temps g d h l (put ks i None) (put Ss i []).
Proof.
  intros g d h l ks Ss i HT. revert i. induction HT as [|a k' S l ks Ss A B IH]; intros [|i]; cbn [put];
    constructor; try assumption; try constructor. apply IH.
Qed.
Lemma temps_done : forall g d h l ks Ss, temps g d h l ks Ss ->
  forallb (fun k : option kind => match k with None => true | Some _ => false end) ks = true ->
  forall y, cnt (concat Ss) y = 0.
Proof.
  intros g d h l ks Ss HT. induction HT as [|a k' S l ks Ss A B IH]; intros F y; [reflexivity|].
  cbn in F. destruct k'; [discriminate|]. inversion A; subst. cbn [concat app]. apply IH. exact F.
Qed.

(** The problem under construction. *)
Definition state (g : bool) (d : nat) (h : heap) (p : ptr) (st : option bool) (S : list addr) : Prop :=
  match st with
  | None => p = None /\ S = []
  | Some lab => exists a q B, p = Some a /\ ownb g h a q B /\ fit d lab q /\ S = hold a q B
  end.
Lemma state_keeps : forall g d h h' p st S, state g d h p st S -> keeps S h h' -> state g d h' p st S.
Proof.
  intros g d h h' p st S X K. destruct st as [lab|]; [|exact X].
  destruct X as [a [q [B [E [O [F Es]]]]]]. exists a, q, B. subst S.
  split; [exact E|]. split; [|split; [exact F|reflexivity]]. eapply ownb_keeps; eassumption.
Qed.

Lemma run_ok : forall g d lab l ts ks Ss p st Sp h0 h T (Q : addr -> heap -> Prop),
  check l ks st = Some lab -> temps g d h ts ks Ss -> state g d h p st Sp ->
  spans h0 h (Sp ++ concat Ss ++ T) ->
  (forall p q B h', ownb g h' p q B -> spans h0 h' (hold p q B ++ T) -> fit d lab q -> keeps T h h' ->
     Q p h') ->
  wp (run null_ok l d ts p) Q h.
Proof.
  intros g d lab l. induction l as [|i l IH]; intros ts ks Ss p st Sp h0 h T Q C HT HS H HQ.
  - cbn [check run] in *. destruct (forallb _ ks) eqn:F; [|discriminate]. subst st.
    destruct HS as [a [q [B [-> [O [Fq ->]]]]]]. eapply wp_deref; [reflexivity|].
    eapply HQ; [exact O| |exact Fq|apply keeps_refl].
    pose proof (temps_done _ _ _ _ _ _ HT F) as Z.
    eapply spans_cnt; [exact H|]. intro y. specialize (Z y). inside.
  - destruct i; cbn [check run] in *.
    + apply wp_bind. eapply wp_alloc; [exact H|]. intros a h1 H1 N1 K1.
      eapply IH with (T := T); [exact C|apply temps_snoc; [eapply temps_keeps; [exact HT|last K1]|apply temp_vector]
        |eapply state_keeps; [exact HS|last K1]| |].
      * eapply spans_cnt; [exact H1|]. intro y. rewrite concat_app. cbn [concat]. ins.
      * intros p' q' B' h' O' H' F' K'. eapply HQ; try eassumption. via K1. last K'.
    + apply wp_bind. eapply wp_alloc_matrix; [exact H|]. intros a rows h1 H1 L1 N1 B1 K1.
      eapply IH with (T := T); [exact C|apply temps_snoc; [eapply temps_keeps; [exact HT|last K1]|eapply temp_matrix; [exact N1|exact L1]]
        |eapply state_keeps; [exact HS|last K1]| |].
      * eapply spans_cnt; [exact H1|]. intro y. rewrite concat_app. cbn [concat]. ins.
      * intros p' q' B' h' O' H' F' K'. eapply HQ; try eassumption. via K1. last K'.
    + apply wp_bind. eapply wp_allocate_from_scalars; [exact H|].
      intros a q h1 H1 B1 [S1 [S2 [S3 [S4 [S5 [S6 [S7 S8]]]]]]] K1.
      apply wp_bind. eapply (wp_transform null_ok) with (g := g) (B := []); [|exact H1|congruence|].
      { apply bare_ownb; [exact B1| |congruence]. apply body_none; [exact S8|]. rewrite S5. apply blocks_nil. }
      intros b qb Sd lost h2 O2 H2 L2 BL LL K2. apply lost_none in LL; [|lia]. subst lost.
      eapply IH with (T := T); [exact C|apply temps_snoc; [eapply temps_keeps; [exact HT|via K1; last K2]
          |eapply temp_problem; apply ownb_own; exact O2]
        |eapply state_keeps; [exact HS|via K1; last K2]| |].
      * eapply spans_cnt; [exact H2|]. intro y. rewrite concat_app. cbn [concat]. ins.
      * intros p' q' B' h' O' H' F' K'. eapply HQ; try eassumption. via K1. via K2. last K'.
    + destruct (nth_error ks k) as [[[| |]|]|] eqn:Ek; try discriminate.
      destruct (temps_nth _ _ _ _ _ _ _ _ HT Ek) as [a [S [En [Ht Hc]]]]. rewrite En.
      inversion Ht; subst.
      apply wp_bind. eapply wp_free_block with (S' := Sp ++ concat (put Ss k []) ++ T); [exact H| |].
      { intro y. specialize (Hc y). inside. }
      intros h1 H1 K1.
      eapply IH with (T := T); [exact C|eapply temps_keeps; [apply temps_put; exact HT|last K1]
        |eapply state_keeps; [exact HS|last K1]|exact H1|].
      intros p' q' B' h' O' H' F' K'. eapply HQ; try eassumption. via K1. last K'.
    + destruct (nth_error ks k) as [[[| |]|]|] eqn:Ek; try discriminate.
      destruct (temps_nth _ _ _ _ _ _ _ _ HT Ek) as [a [S [En [Ht Hc]]]]. rewrite En.
      inversion Ht; subst.
      apply wp_bind. eapply wp_free_matrix with (S' := Sp ++ concat (put Ss k []) ++ T); [exact H|eassumption|reflexivity| |].
      { intro y. specialize (Hc y). inside. }
      intros h1 H1 K1.
      eapply IH with (T := T); [exact C|eapply temps_keeps; [apply temps_put; exact HT|last K1]
        |eapply state_keeps; [exact HS|last K1]|exact H1|].
      intros p' q' B' h' O' H' F' K'. eapply HQ; try eassumption. via K1. last K'.
    + destruct (nth_error ks k) as [[[| |]|]|] eqn:Ek; try discriminate.
      destruct (temps_nth _ _ _ _ _ _ _ _ HT Ek) as [a [S [En [Ht Hc]]]]. rewrite En.
      inversion Ht; subst.
      apply wp_bind. eapply wp_problem_free with (T := Sp ++ concat (put Ss k []) ++ T); [eassumption| |].
      { eapply spans_cnt; [exact H|]. intro y. specialize (Hc y). inside. }
      intros h1 H1 K1.
      eapply IH with (T := T); [exact C|eapply temps_keeps; [apply temps_put; exact HT|last K1]
        |eapply state_keeps; [exact HS|last K1]|exact H1|].
      intros p' q' B' h' O' H' F' K'. eapply HQ; try eassumption. via K1. last K'.
    + destruct st; [discriminate|]. destruct HS as [-> ->].
      apply wp_bind. eapply (builds_raw g); [exact H|]. intros a q B h1 O1 H1 F1 K1.
      eapply IH with (T := T) (Sp := hold a q B); [exact C|eapply temps_keeps; [exact HT|last K1]| |recount H1|].
      * exists a, q, B. split; [reflexivity|]. split; [exact O1|]. split; [exact F1|reflexivity].
      * intros p' q' B' h' O' H' F' K'. eapply HQ; try eassumption. via K1. last K'.
    + destruct st as [b|]; [|discriminate]. destruct HS as [a [q [B [-> [O [F ->]]]]]].
      apply wp_bind. eapply wp_deref; [reflexivity|].
      pose proof F as [F1 [F2 [F3 [F4 F5]]]].
      apply wp_bind. eapply (wp_transform null_ok); [exact O|exact H|congruence|].
      intros a' q' Sd lost h1 O1 H1 L1 BL LL K1. apply lost_none in LL; [|lia]. subst lost.
      eapply IH with (T := T) (Sp := hold a' q' (hold a q B ++ Sd));
        [exact C|eapply temps_keeps; [exact HT|last K1]| |exact H1|].
      * exists a', q', (hold a q B ++ Sd). split; [reflexivity|]. split; [exact O1|].
        split; [|reflexivity]. eapply fit_same; [exact F|]. apply like_same. exact L1.
      * intros p' q'' B' h' O' H' F' K'. eapply HQ; try eassumption. via K1. last K'.
    + destruct st as [b|]; [|discriminate]. destruct HS as [a [q [B [-> [O [F ->]]]]]].
      apply wp_bind. eapply wp_deref; [reflexivity|].
      apply wp_bind. eapply wp_set_id; [exact O|exact H|intros o []|]. intros s1 h1 O1 H1 K1.
      apply wp_bind. eapply wp_set_name; [exact O1|exact H1|intros o []|]. intros s2 h2 O2 H2 K2.
      apply wp_bind. eapply wp_set_type; [exact O2|exact H2|intros o []|]. intros s3 h3 O3 H3 K3.
      eapply IH with (T := T); [exact C|eapply temps_keeps; [exact HT|via K1; via K2; last K3]| |exact H3|].
      * eexists a, _, B. split; [reflexivity|]. split; [exact O3|]. split; [|reflexivity].
        destruct F as [F1 [F2 [F3 [F4 F5]]]]. unfold fit. cbn. repeat split; try assumption; discriminate.
      * intros p' q' B' h' O' H' F' K'. eapply HQ; try eassumption. via K1. via K2. via K3. last K'.
Qed.

Lemma builds_run : forall g d lab l, check l [] None = Some lab -> builds g lab d (run null_ok l d [] None).
Proof.
  intros g d lab l C h0 h T Q H HQ.
  eapply run_ok with (g := g) (ks := []) (Ss := []) (st := None) (Sp := []);
    [exact C|constructor|split; reflexivity|exact H|exact HQ].
Qed.
End Formatting.
