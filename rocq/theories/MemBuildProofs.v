(** Correctness of building problems: what every allocating function owns afterwards. *)
From Coq Require Import List Arith Bool Lia Permutation.
From Verif Require Import CBase MemModel MemSuiteModel MemSpec MemProofs.
Import ListNotations.
Local Open Scope nat_scope.

(** The blocks of h beyond h0 that are in use are exactly those of S, those of h0 are as they
    were. *)
Definition spans (h0 h : heap) (S : list addr) : Prop :=
  length h0 <= length h /\
  (forall a, a < length h0 -> nth_error h a = nth_error h0 a /\ cnt S a = 0) /\
  (forall a, length h0 <= a -> cnt S a = alive h a).

Lemma alive_lt : forall h a, 0 < alive h a -> a < length h.
Proof. intros h a P. destruct (alive_cell _ _ P) as [c E]. apply nth_error_Some. congruence. Qed.
Lemma spans_room : forall h0 h S, spans h0 h S -> forall a, cnt S a <= alive h a.
Proof.
  intros h0 h S [A [B C]] a. destruct (lt_dec a (length h0)) as [H|H].
  - destruct (B a H). lia.
  - rewrite C by lia. lia.
Qed.
Lemma spans_alive : forall h0 h S a, spans h0 h S -> 0 < cnt S a -> 0 < alive h a.
Proof. intros h0 h S a H P. pose proof (spans_room _ _ _ H a). lia. Qed.
Lemma spans_one : forall h0 h S a, spans h0 h S -> cnt S a <= 1.
Proof. intros h0 h S a H. pose proof (spans_room _ _ _ H a). pose proof (alive_le h a). lia. Qed.
Lemma spans_cnt : forall h0 h S S', spans h0 h S -> (forall a, cnt S' a = cnt S a) -> spans h0 h S'.
Proof.
  intros h0 h S S' [A [B C]] E. split; [exact A|]. split; intros a H; rewrite E; auto.
Qed.
Lemma spans_start : forall h, spans h h [].
Proof.
  intro h. split; [lia|]. split; intros a H.
  - split; reflexivity.
  - rewrite cnt_nil. unfold alive. rewrite (proj2 (nth_error_None h a) H). reflexivity.
Qed.

Lemma wp_alloc : forall h0 h S c (Q : addr -> heap -> Prop), spans h0 h S ->
  (forall a h', spans h0 h' (a :: S) -> nth_error h' a = Some (Some c) -> keeps S h h' -> Q a h') ->
  wp (alloc c) Q h.
Proof.
  intros h0 h S c Q [A [B C]] HQ. exists (length h), (h ++ [Some c]). split; [reflexivity|].
  assert (N : forall a, a < length h -> nth_error (h ++ [Some c]) a = nth_error h a)
    by (intros a L; apply nth_error_app1; exact L).
  assert (E : nth_error (h ++ [Some c]) (length h) = Some (Some c))
    by (rewrite nth_error_app2 by lia; rewrite Nat.sub_diag; reflexivity).
  apply HQ.
  - split; [rewrite app_length; lia|]. split; intros a H.
    + rewrite N by lia. destruct (B a H). split; [assumption|]. rewrite cnt_cons, one_ne by lia. lia.
    + rewrite cnt_cons, C by exact H. destruct (lt_eq_lt_dec a (length h)) as [[L|L]|L].
      * rewrite one_ne by lia. unfold alive. rewrite N by exact L. reflexivity.
      * subst a. rewrite one_eq. unfold alive. rewrite E.
        rewrite (proj2 (nth_error_None h (length h))) by lia. reflexivity.
      * rewrite one_ne by lia. unfold alive.
        rewrite (proj2 (nth_error_None h a)) by lia.
        rewrite (proj2 (nth_error_None (h ++ [Some c]) a)) by (rewrite app_length; cbn; lia). reflexivity.
  - exact E.
  - intros a P. apply N. apply alive_lt. destruct (lt_dec a (length h0)) as [L|L].
    + destruct (B a L). lia.
    + rewrite <- C by lia. exact P.
Qed.

Lemma wp_set : forall h0 h S S' p c (Q : unit -> heap -> Prop), spans h0 h S ->
  (forall a, cnt S a = one p a + cnt S' a) ->
  (forall h', spans h0 h' S -> nth_error h' p = Some (Some c) -> keeps S' h h' -> Q tt h') ->
  wp (write p c) Q h.
Proof.
  intros h0 h S S' p c Q H E HQ.
  assert (P : 0 < cnt S p) by (rewrite E, one_eq; lia).
  apply wp_write; [eapply spans_alive; eassumption|].
  intros h' L N K. apply HQ; [|exact N|].
  - destruct H as [A [B C]]. split; [lia|]. split; intros a H.
    + destruct (B a H). split; [|assumption]. rewrite K; [assumption|]. intro; subst a. lia.
    + rewrite C by exact H. destruct (Nat.eq_dec a p) as [->|Np].
      * rewrite (cell_alive _ _ _ N). rewrite <- C by exact H.
        pose proof (spans_one h0 h S p (conj A (conj B C))). lia.
      * unfold alive. rewrite K by exact Np. reflexivity.
  - intros a P'. apply K. intro; subst a. pose proof (spans_one _ _ _ p H) as O. rewrite E, one_eq in O. lia.
Qed.

Lemma spans_killed : forall h0 h h' S S' D, spans h0 h S -> (forall a, cnt S a = cnt D a + cnt S' a) ->
  killed D h h' -> spans h0 h' S' /\ keeps S' h h'.
Proof.
  intros h0 h h' S S' D H E K. assert (O := fun a => spans_one _ _ _ a H). destruct H as [A [B C]].
  split.
  - split; [destruct K; lia|]. split; intros a L.
    + destruct (B a L) as [B1 B2]. rewrite E in B2. split; [|lia].
      rewrite (killed_nth _ _ _ _ K) by lia. exact B1.
    + specialize (C a L). rewrite E in C. specialize (O a). rewrite E in O.
      destruct (Nat.eq_dec (cnt D a) 0) as [Z|Z].
      * rewrite (killed_alive _ _ _ _ K Z). lia.
      * unfold alive. destruct K as [_ K]. rewrite (proj2 (K a)) by lia. lia.
  - intros a P. apply (killed_nth _ _ _ _ K). specialize (O a). rewrite E in O. lia.
Qed.

Lemma wp_free_block : forall h0 h S S' p (Q : unit -> heap -> Prop), spans h0 h S ->
  (forall a, cnt S a = one p a + cnt S' a) ->
  (forall h', spans h0 h' S' -> keeps S' h h' -> Q tt h') -> wp (free_block p) Q h.
Proof.
  intros h0 h S S' p Q H E HQ. apply free_block_killed.
  - eapply spans_alive; [exact H|]. rewrite E, one_eq. lia.
  - intros h' K. destruct (spans_killed h0 h h' S S' [p] H) as [A B]; [|exact K|auto].
    intro a. rewrite E. inside.
Qed.
Lemma wp_free_ptr : forall h0 h S S' o (Q : unit -> heap -> Prop), spans h0 h S ->
  (forall a, cnt S a = cnt (opt o) a + cnt S' a) ->
  (forall h', spans h0 h' S' -> keeps S' h h' -> Q tt h') -> wp (free_ptr o) Q h.
Proof.
  intros h0 h S S' o Q H E HQ. apply free_ptr_killed.
  - intro a. pose proof (spans_room _ _ _ H a) as R. rewrite E in R. lia.
  - intros h' K. destruct (spans_killed h0 h h' S S' (opt o) H) as [A B]; [exact E|exact K|auto].
Qed.
Lemma wp_free_matrix : forall h0 h S S' m c rows n (Q : unit -> heap -> Prop), spans h0 h S ->
  nth_error h m = Some (Some (Pointers c (map Some rows))) -> length rows = n ->
  (forall a, cnt S a = cnt (rows ++ [m]) a + cnt S' a) ->
  (forall h', spans h0 h' S' -> keeps S' h h' -> Q tt h') -> wp (free_matrix m n) Q h.
Proof.
  intros h0 h S S' m c rows n Q H N L E HQ. subst n. eapply free_matrix_killed; [exact N| |].
  - intro a. pose proof (spans_room _ _ _ H a) as R. rewrite E in R. lia.
  - intros h' K. destruct (spans_killed h0 h h' S S' (rows ++ [m]) H) as [A B]; [exact E|exact K|auto].
Qed.

Lemma spans_length : forall h0 h S, spans h0 h S -> length S <= length h.
Proof.
  intros h0 h S H. rewrite <- (seq_length (length h) 0). apply NoDup_incl_length.
  - apply (NoDup_count_occ Nat.eq_dec). intro a. apply (spans_one h0 h S a H).
  - intros a I. apply cnt_in in I. apply in_seq. split; [lia|]. cbn. apply alive_lt.
    eapply spans_alive; eassumption.
Qed.

Lemma wp_problem_free : forall g h0 h p q S T (Q : unit -> heap -> Prop), own g h p q S ->
  spans h0 h (S ++ T) -> (forall h', spans h0 h' T -> keeps T h h' -> Q tt h') ->
  wp (coco_problem_free p) Q h.
Proof.
  intros g h0 h p q S T Q O H HQ. unfold coco_problem_free.
  assert (W : wp (problem_free (2 * length h + 1) p) Q h).
  { eapply free_own; [exact O| | |].
    - pose proof (spans_length _ _ _ H) as L. rewrite app_length in L. lia.
    - intro a. pose proof (spans_room _ _ _ H a) as R. rewrite cnt_app in R. lia.
    - intros h' K. destruct (spans_killed h0 h h' (S ++ T) T S H) as [A B]; [|exact K|auto].
      intro a. apply cnt_app. }
  exact W.
Qed.

Lemma keeps_trans : forall S h h1 h2, keeps S h h1 -> keeps S h1 h2 -> keeps S h h2.
Proof. intros S h h1 h2 A B a P. rewrite B, A by exact P. reflexivity. Qed.
Lemma keeps_refl : forall S h, keeps S h h.
Proof. intros S h a P. reflexivity. Qed.
Lemma keeps_nth : forall S h h' a c, keeps S h h' -> nth_error h a = Some (Some c) -> 0 < cnt S a ->
  nth_error h' a = Some (Some c).
Proof. intros S h h' a c K E P. rewrite K by exact P. exact E. Qed.

(** Vectors and matrices. *)
Lemma wp_times_block : forall n h0 h T (Q : list addr -> heap -> Prop), spans h0 h T ->
  (forall l h', spans h0 h' (l ++ T) -> length l = n -> blocks h' l -> keeps T h h' -> Q l h') ->
  wp (times n (alloc Block)) Q h.
Proof.
  induction n as [|n IH]; intros h0 h T Q H HQ; cbn [times].
  - apply wp_ret. apply HQ; [exact H|reflexivity| |apply keeps_refl]. intros a P. rewrite cnt_nil in P. lia.
  - apply wp_bind. eapply wp_alloc; [exact H|]. intros a h1 H1 N1 K1.
    apply wp_bind. eapply IH; [exact H1|]. intros l h2 H2 L2 B2 K2.
    apply wp_ret. apply HQ.
    + eapply spans_cnt; [exact H2|]. inside.
    + cbn. lia.
    + intros b P. rewrite cnt_cons in P. destruct (Nat.eq_dec a b) as [->|N].
      * rewrite K2; [exact N1|]. inside.
      * rewrite one_ne in P by exact N. apply B2. lia.
    + eapply keeps_trans; [exact K1|]. eapply keeps_sub; [exact K2|]. inside.
Qed.

Lemma wp_alloc_matrix : forall n h0 h T (Q : addr -> heap -> Prop), spans h0 h T ->
  (forall m rows h', spans h0 h' ((rows ++ [m]) ++ T) -> length rows = n ->
     nth_error h' m = Some (Some (Pointers 0 (map Some rows))) -> blocks h' rows -> keeps T h h' -> Q m h') ->
  wp (alloc_matrix n) Q h.
Proof.
  intros n h0 h T Q H HQ. unfold alloc_matrix. apply wp_bind. eapply wp_alloc; [exact H|].
  intros m h1 H1 N1 K1. apply wp_bind. eapply wp_times_block; [exact H1|].
  intros rows h2 H2 L2 B2 K2. apply wp_bind.
  eapply wp_set with (S' := rows ++ T); [exact H2|inside|]. intros h3 H3 N3 K3. apply wp_ret.
  eapply HQ; [|exact L2|exact N3| |].
  - eapply spans_cnt; [exact H3|]. inside.
  - eapply blocks_keeps; [exact B2|]. eapply keeps_sub; [exact K3|]. inside.
  - eapply keeps_trans; [exact K1|]. eapply keeps_trans; [eapply keeps_sub; [exact K2|]; inside|].
    eapply keeps_sub; [exact K3|]. inside.
Qed.

Lemma wp_alloc_field : forall k h0 h T (Q : addr -> heap -> Prop), spans h0 h T ->
  (forall a S h', spans h0 h' (S ++ T) -> slot h' (Some a) k S -> keeps T h h' -> Q a h') ->
  wp (alloc_field k) Q h.
Proof.
  intros [n|] h0 h T Q H HQ; cbn [alloc_field].
  - eapply wp_alloc_matrix; [exact H|]. intros m rows h1 H1 L1 N1 B1 K1.
    eapply HQ; [exact H1| |exact K1]. subst n. econstructor; [exact N1|].
    intros a I. apply B1. apply cnt_in. exact I.
  - eapply wp_alloc; [exact H|]. intros a h1 H1 N1 K1. apply (HQ a [a]); [exact H1| |exact K1].
    constructor. exact N1.
Qed.

Lemma wp_alloc_fields : forall ks h0 h T (Q : list ptr -> heap -> Prop), spans h0 h T ->
  (forall l Ss h', spans h0 h' (concat Ss ++ T) -> slots h' l ks Ss -> keeps T h h' -> Q l h') ->
  wp (alloc_fields ks) Q h.
Proof.
  induction ks as [|k ks IH]; intros h0 h T Q H HQ; cbn [alloc_fields].
  - apply wp_ret. apply (HQ [] []); [exact H|constructor|apply keeps_refl].
  - apply wp_bind. eapply wp_alloc_field; [exact H|]. intros a S h1 H1 S1 K1.
    apply wp_bind. eapply IH; [exact H1|]. intros l Ss h2 H2 S2 K2. apply wp_ret.
    apply (HQ _ (S :: Ss)).
    + eapply spans_cnt; [exact H2|]. cbn [concat]. inside.
    + constructor; [|exact S2]. eapply slot_keeps; [exact S1|]. eapply keeps_sub; [exact K2|]. inside.
    + eapply keeps_trans; [exact K1|]. eapply keeps_sub; [exact K2|]. inside.
Qed.

Lemma wp_alloc_struct : forall n ks h0 h T (Q : addr -> heap -> Prop), spans h0 h T ->
  (forall s l Ss h', spans h0 h' ((concat Ss ++ [s]) ++ T) ->
     nth_error h' s = Some (Some (Pointers n l)) -> slots h' l ks Ss -> keeps T h h' -> Q s h') ->
  wp (alloc_struct n ks) Q h.
Proof.
  intros n ks h0 h T Q H HQ. unfold alloc_struct. apply wp_bind. eapply wp_alloc; [exact H|].
  intros s h1 H1 N1 K1. apply wp_bind. eapply wp_alloc_fields; [exact H1|].
  intros l Ss h2 H2 S2 K2. apply wp_bind.
  eapply wp_set with (S' := concat Ss ++ T); [exact H2|inside|]. intros h3 H3 N3 K3. apply wp_ret.
  apply (HQ s l Ss h3); [|exact N3| |].
  - eapply spans_cnt; [exact H3|]. inside.
  - eapply slots_keeps; [exact S2|]. eapply keeps_sub; [exact K3|]. inside.
  - eapply keeps_trans; [exact K1|]. eapply keeps_trans; [eapply keeps_sub; [exact K2|]; inside|].
    eapply keeps_sub; [exact K3|]. inside.
Qed.

(** Problems. *)
Definition hold (p : addr) (q : problem) (B : list addr) : list addr := p :: opts (fields q) ++ B.
Definition ownb (g : bool) (h : heap) (p : addr) (q : problem) (B : list addr) : Prop :=
  nth_error h p = Some (Some (ProblemCell q)) /\ shape q /\ blocks h (opts (plain q)) /\
  body g h q B /\ (g = true -> forall v, versatile q = Some v -> 0 < cnt B v).
Lemma ownb_own : forall g h p q B, ownb g h p q B -> own g h p q (hold p q B).
Proof. intros g h p q B [A [B' [C [D E]]]]. constructor; assumption. Qed.
Lemma own_ownb : forall g h p q S, own g h p q S -> exists B, S = hold p q B /\ ownb g h p q B.
Proof. intros g h p q S O. destruct O. exists B. split; [reflexivity|]. exact (conj H (conj H0 (conj H1 (conj H2 H3)))). Qed.
Lemma ownb_keeps : forall g h h' p q B, ownb g h p q B -> keeps (hold p q B) h h' -> ownb g h' p q B.
Proof.
  intros g h h' p q B O K. apply ownb_own in O. apply (own_keeps _ _ _ _ _ _ O) in K.
  apply own_ownb in K. destruct K as [B' [E K]]. unfold hold in E.
  injection E as E. apply app_inv_head in E. subst B'. exact K.
Qed.

Definition newborn (nv no nc : nat) (q : problem) : Prop :=
  variables q = nv /\ objectives q = no /\ constraints q = nc /\ shape q /\
  name q = None /\ id q = None /\ type q = None /\ data q = None /\ initial q = None /\
  versatile q = None /\ free_fn q = NoFree.

Lemma wp_alloc_if : forall b h0 h T (Q : ptr -> heap -> Prop), spans h0 h T ->
  (forall o h', spans h0 h' (opt o ++ T) -> blocks h' (opt o) -> keeps T h h' ->
     (o = None <-> b = false) -> Q o h') ->
  wp (alloc_if b) Q h.
Proof.
  intros [|] h0 h T Q H HQ; cbn [alloc_if].
  - apply wp_bind. eapply wp_alloc; [exact H|]. intros a h1 H1 N1 K1. apply wp_ret.
    apply HQ; [exact H1| |exact K1|split; discriminate].
    intros b P. cbn [opt] in P. rewrite cnt_cons, cnt_nil in P.
    assert (a = b) by (apply one_pos; lia). subst b. exact N1.
  - apply wp_ret. apply HQ; [exact H| |apply keeps_refl|tauto]. intros a P. rewrite cnt_nil in P. lia.
Qed.

Lemma blocks_app : forall h l l', blocks h l -> blocks h l' -> blocks h (l ++ l').
Proof.
  intros h l l' A B a P. rewrite cnt_app in P. destruct (Nat.eq_dec (cnt l a) 0); [apply B|apply A]; lia.
Qed.
Lemma blocks_one : forall h a, nth_error h a = Some (Some Block) -> blocks h [a].
Proof.
  intros h a N b P. rewrite cnt_cons, cnt_nil in P. assert (a = b) by (apply one_pos; lia). congruence.
Qed.
Lemma blocks_nil : forall h, blocks h [].
Proof. intros h a P. rewrite cnt_nil in P. lia. Qed.
Lemma blocks_sub : forall h l l', blocks h l -> (forall a, 0 < cnt l' a -> 0 < cnt l a) -> blocks h l'.
Proof. intros h l l' A H a P. apply A. apply H. exact P. Qed.

Lemma cnt_opts_nil : forall a, cnt (opts []) a = 0.
Proof. reflexivity. Qed.
Ltac forget :=
  repeat match goal with
  | H : spans _ _ _ |- _ => clear H
  | H : keeps _ _ _ |- _ => clear H
  | H : blocks _ _ |- _ => clear H
  | H : ownb _ _ _ _ _ |- _ => clear H
  | H : own _ _ _ _ _ |- _ => clear H
  | H : owns _ _ _ _ |- _ => clear H
  | H : body _ _ _ _ |- _ => clear H
  | H : slots _ _ _ _ |- _ => clear H
  | H : tdata _ _ _ _ |- _ => clear H
  | H : shape _ |- _ => clear H
  | H : nth_error _ _ = _ |- _ => clear H
  | H : forall _ : addr, _ |- _ => clear H
  | H : @eq nat _ _ |- _ => match type of H with cnt _ _ = _ => fail 1 | _ => clear H end
  | H : @eq ptr _ _ |- _ => clear H
  | H : not _ |- _ => clear H
  end.
Lemma cnt_hold : forall p q B a, cnt (hold p q B) a = one p a + cnt (opts (fields q)) a + cnt B a.
Proof. intros. unfold hold. rewrite cnt_cons, cnt_app. lia. Qed.
Ltac lite :=
  intros; forget; repeat rewrite ?cnt_hold, ?cnt_app, ?cnt_cons, ?cnt_nil, ?one_eq in *; cbn [opt] in *;
  repeat rewrite ?cnt_cons, ?cnt_nil, ?one_eq in *; lia.
Ltac full :=
  intros; forget; unfold hold, fields, plain in *;
  cbn [variables objectives constraints smallest largest best_parameter best_value nadir name id type
       data initial noise_free versatile free_fn with_free with_data with_versatile with_initial with_texts] in *;
  repeat rewrite ?opts_cons, ?cnt_app, ?cnt_cons, ?cnt_nil, ?cnt_opts_nil, ?one_eq in *; cbn [opt] in *;
  repeat rewrite ?cnt_cons, ?cnt_nil, ?one_eq in *; lia.

Ltac ins := first [lite | full].

Lemma wp_coco_problem_allocate : forall nv no nc h0 h T (Q : addr -> heap -> Prop), spans h0 h T ->
  (forall p q h', spans h0 h' (hold p q [] ++ T) -> nth_error h' p = Some (Some (ProblemCell q)) ->
     blocks h' (opts (plain q)) -> newborn nv no nc q -> keeps T h h' -> Q p h') ->
  wp (coco_problem_allocate nv no nc) Q h.
Proof.
  intros nv no nc h0 h T Q H HQ. unfold coco_problem_allocate.
  apply wp_bind. eapply wp_alloc; [exact H|]. intros p h1 H1 N1 K1.
  apply wp_bind. eapply wp_alloc; [exact H1|]. intros s h2 H2 N2 K2.
  apply wp_bind. eapply wp_alloc; [exact H2|]. intros l h3 H3 N3 K3.
  apply wp_bind. eapply wp_alloc_if; [exact H3|]. intros nf h4 H4 B4 K4 E4.
  apply wp_bind. eapply wp_alloc_if; [exact H4|]. intros bp h5 H5 B5 K5 E5.
  apply wp_bind. eapply wp_alloc; [exact H5|]. intros bv h6 H6 N6 K6.
  apply wp_bind. eapply wp_alloc_if; [exact H6|]. intros na h7 H7 B7 K7 E7.
  apply wp_bind.
  eapply wp_set with (S' := opt na ++ bv :: opt bp ++ opt nf ++ l :: s :: T); [exact H7|ins|].
  intros h8 H8 N8 K8. apply wp_ret.
  assert (KT : keeps T h h8).
  { eapply keeps_trans; [exact K1|]. eapply keeps_trans; [eapply keeps_sub; [exact K2|]; ins|].
    eapply keeps_trans; [eapply keeps_sub; [exact K3|]; ins|].
    eapply keeps_trans; [eapply keeps_sub; [exact K4|]; ins|].
    eapply keeps_trans; [eapply keeps_sub; [exact K5|]; ins|].
    eapply keeps_trans; [eapply keeps_sub; [exact K6|]; ins|].
    eapply keeps_trans; [eapply keeps_sub; [exact K7|]; ins|].
    eapply keeps_sub; [exact K8|]; ins. }
  eapply HQ; [|exact N8| | |exact KT].
  - eapply spans_cnt; [exact H8|]. ins.
  - assert (BB : blocks h8 (opt na ++ [bv] ++ opt bp ++ opt nf ++ [l] ++ [s])).
    { apply blocks_keeps with (h := h7); [|eapply keeps_sub; [exact K8|]; ins].
      apply blocks_app; [exact B7|].
      apply blocks_keeps with (h := h6); [|eapply keeps_sub; [exact K7|]; ins].
      apply blocks_app; [apply blocks_one; exact N6|].
      apply blocks_keeps with (h := h5); [|eapply keeps_sub; [exact K6|]; ins].
      apply blocks_app; [exact B5|].
      apply blocks_keeps with (h := h4); [|eapply keeps_sub; [exact K5|]; ins].
      apply blocks_app; [exact B4|].
      apply blocks_keeps with (h := h3); [|eapply keeps_sub; [exact K4|]; ins].
      apply blocks_app; [apply blocks_one; exact N3|].
      apply blocks_keeps with (h := h2); [|eapply keeps_sub; [exact K3|]; ins].
      apply blocks_one; exact N2. }
    eapply blocks_sub; [exact BB|]. ins.
  - unfold newborn, shape. cbn. repeat split; try discriminate; try reflexivity.
    + intro Z. assert (1 <? no = false) as W by (apply Nat.ltb_ge; assumption).
      rewrite W in E5. apply E5 in Z. discriminate.
    + apply E7. apply Nat.ltb_ge. assumption.
    + apply E5. assert (1 <? no = true) as W by (apply Nat.ltb_lt; assumption). rewrite W. reflexivity.
    + intro Z. apply E7 in Z. apply Nat.ltb_ge in Z. lia.
Qed.
