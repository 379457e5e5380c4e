(** Sessions: problems fetched, observed, unobserved and freed in any order. *)
From Coq Require Import List Arith Bool Lia Permutation.
From Verif Require Import CBase MemModel MemSuiteModel MemSpec MemProofs MemBuildProofs MemBuild2Proofs MemBuild3Proofs MemSuiteProofs MemSuite2Proofs.
Import ListNotations.
Local Open Scope nat_scope.

(** n wrappers around a problem. *)
Inductive deep (h : heap) : nat -> problem -> Prop :=
| deep_none : forall q, deep h 0 q
| deep_more : forall n q w i x t qi, free_fn q = TransformedFree -> data q = Some w ->
    nth_error h w = Some (Some (TransformedCell (Some i) x t)) ->
    nth_error h i = Some (Some (ProblemCell qi)) -> name qi <> None -> deep h n qi -> deep h (S n) q.

Lemma own_inner : forall g h p q S w i x t, own g h p q S -> free_fn q = TransformedFree -> data q = Some w ->
  nth_error h w = Some (Some (TransformedCell (Some i) x t)) ->
  exists qi Si Sd, own g h i qi Si /\ tdata h x t Sd /\ objectives qi = objectives q /\
    S = p :: opts (fields q) ++ Si ++ Sd.
Proof.
  intros g h p q S w i x t O F D N. destruct O as [p q B A1 A2 A3 A4 A5].
  destruct A4 as [q F'|q w' i' x' t' qi Si Sd F' D' N' Oi E T|q w' a qa Sa b qb Sb F'|q d n l ks Ss F'|q v F'|q v F'
    |q v l subs Ss a y sizes sm zm b c c' rows F'|q v n a qa Sa b qb Sb y F'];
    try (rewrite F in F'; discriminate).
  assert (w' = w) by congruence. subst w'. rewrite N in N'. injection N' as <- <- <-.
  exists qi, Si, Sd. auto.
Qed.

Lemma deep_keeps : forall n g h h' p q S, own g h p q S -> deep h n q -> keeps S h h' -> deep h' n q.
Proof.
  induction n as [|n IH]; intros g h h' p q S O D K; [constructor|].
  inversion D as [|? ? w i x t qi F Dq N Ni NN D']; subst.
  destruct (own_inner _ _ _ _ _ _ _ _ _ O F Dq N) as [qi' [Si [Sd [Oi [T [E ->]]]]]].
  assert (qi' = qi) by (apply own_cell in Oi; congruence). subst qi'.
  assert (0 < cnt (opts (fields q)) w) by (apply in_opts; cbn; rewrite Dq; tauto).
  pose proof (own_has _ _ _ _ _ Oi) as Hi.
  eapply deep_more; [exact F|exact Dq| | |exact NN|].
  - rewrite K by lite. exact N.
  - rewrite K by lite. exact Ni.
  - eapply IH; [exact Oi|exact D'|]. eapply keeps_sub; [exact K|]. lite.
Qed.

Lemma deep_wrapped : forall n g h h' i q B p q' Sd, ownb g h i q B -> deep h n q -> name q <> None ->
  ownb g h' p q' (hold i q B ++ Sd) -> free_fn q' = TransformedFree -> keeps (hold i q B) h h' ->
  deep h' (S n) q'.
Proof.
  intros n g h h' i q B p q' Sd O D NN O' F K.
  assert (O2 := O'). destruct O2 as [_ [_ [_ [BD _]]]]. remember (hold i q B ++ Sd) as X eqn:EX.
  destruct BD as [q' F'|q' w' i' x' t' qi Si Sd' F' D' N' Oi E T|q' w' a qa Sa b qb Sb F'|q' d m l ks Ss F'|q' v F'|q' v F'
    |q' v l subs Ss a y sizes sm zm b c c' rows F'|q' v m a qa Sa b qb Sb y F'];
    try (rewrite F in F'; discriminate).
  assert (i' = i) by (destruct Oi; unfold hold in EX; cbn in EX; congruence). subst i'.
  assert (Ei : nth_error h' i = Some (Some (ProblemCell q))) by (rewrite K by lite; apply O).
  eapply deep_more; [exact F|exact D'|exact N'|exact Ei|exact NN|].
  eapply deep_keeps; [apply ownb_own; exact O|exact D|exact K].
Qed.

Lemma wp_remove_observer : forall n p q S h0 h T (Q : addr -> heap -> Prop), own true h p q S ->
  deep h (Datatypes.S n) q -> spans h0 h (S ++ T) ->
  (forall i qi Si h', own true h' i qi Si -> deep h' n qi -> name qi <> None -> objectives qi = objectives q ->
     spans h0 h' (Si ++ T) -> keeps T h h' -> Q i h') ->
  wp (remove_observer p) Q h.
Proof.
  intros n p q S h0 h T Q O D H HQ.
  inversion D as [|? ? w i x t qi F Dq N Ni NN D']; subst.
  destruct (own_inner _ _ _ _ _ _ _ _ _ O F Dq N) as [qi' [Si [Sd [Oi [HT [E ES]]]]]].
  assert (qi' = qi) by (apply own_cell in Oi; congruence). subst qi'.
  assert (Iw : forall a, one w a <= cnt (opts (fields q)) a).
  { intro a. rewrite opts_fields, Dq. cbn [opt]. rewrite cnt_cons. lia. }
  subst S. pose proof (own_cell _ _ _ _ _ O) as Ep. pose proof (spans_room _ _ _ H) as R.
  pose proof (fun a => alive_le h a) as AL.
  unfold remove_observer. apply wp_bind. eapply wp_problem_at; [exact Ep|].
  apply wp_bind. eapply wp_deref; [exact Dq|]. apply wp_bind. eapply wp_read; [exact N|].
  apply wp_bind. eapply wp_deref; [reflexivity|].
  apply wp_bind. eapply tdata_freed; [exact Ep|exact Dq|exact N|exact HT| |].
  { intro a. specialize (R a). specialize (Iw a). lite. }
  intros h1 K1. destruct (spans_killed h0 h h1 _ ((p :: opts (fields q)) ++ Si ++ T) Sd H) as [H1 K1']; [lite|exact K1|].
  eapply wp_set with (S' := opts (fields q) ++ Si ++ T); [exact H1|lite|]. intros h2 H2 N2 K2.
  apply wp_bind.
  assert (W : wp (problem_free (2 * length h2 + 1) p) (fun _ h3 => wp (ret i) Q h3) h2).
  { replace (2 * length h2 + 1) with (Datatypes.S (2 * length h2)) by lia.
    eapply (generic_free _ h2 p (with_free q NoFree)); [exact N2|reflexivity| |].
    - intro a. pose proof (spans_room _ _ _ H2 a) as R2. change (fields (with_free q NoFree)) with (fields q). lite.
    - intros h3 K3. change (fields (with_free q NoFree)) with (fields q) in K3.
      destruct (spans_killed h0 h2 h3 _ (Si ++ T) (p :: opts (fields q)) H2) as [H3 K3']; [lite|exact K3|].
      assert (KS : keeps (Si ++ T) h h3) by (via K1'; via K2; last K3').
      apply wp_ret. eapply HQ; [|eapply deep_keeps; [exact Oi|exact D'|]|exact NN|exact E|exact H3|].
      + eapply own_keeps; [exact Oi|]. last KS.
      + last KS.
      + last KS. }
  exact W.
Qed.

(** The state of a session. *)
Inductive entry (h : heap) : option addr -> option (bool * nat) -> list addr -> Prop :=
| entry_freed : entry h None None []
| entry_problem : forall p q S b n, own true h p q S -> deep h n q -> name q <> None ->
    objectives q = (if b : bool then 2 else 1) -> entry h (Some p) (Some (b, n)) S.
Inductive held (h : heap) : list (option addr) -> status -> list (list addr) -> Prop :=
| held_nil : held h [] [] []
| held_cons : forall o x S l s Ss, entry h o x S -> held h l s Ss -> held h (o :: l) (x :: s) (S :: Ss).

Lemma entry_keeps : forall h h' o x S, entry h o x S -> keeps S h h' -> entry h' o x S.
Proof.
  intros h h' o x S E K. destruct E as [|p q S b n O D NN OB]; [constructor|].
  econstructor; [eapply own_keeps; eassumption|eapply deep_keeps; eassumption|exact NN|exact OB].
Qed.
Lemma held_keeps : forall h h' l s Ss, held h l s Ss -> keeps (concat Ss) h h' -> held h' l s Ss.
Proof.
  intros h h' l s Ss H. induction H as [|o x S l s Ss E H IH]; intro K; [constructor|]. cbn [concat] in K.
  constructor; [eapply entry_keeps; [exact E|]|apply IH]; eapply keeps_sub; try exact K; lite.
Qed.
Lemma held_shut : forall h l s Ss, held h l s Ss -> shut h (concat Ss) (concat Ss).
Proof.
  intros h l s Ss H. induction H as [|o x S l s Ss E H IH]; cbn [concat]; [apply shut_nil|].
  apply shut_app.
  - destruct E as [|p q S b n O]; [apply shut_nil|]. eapply shut_sub; [eapply own_shut; exact O|]. lite.
  - eapply shut_sub; [exact IH|]. lite.
Qed.
Lemma held_nth : forall i h l s Ss x, held h l s Ss -> nth_error s i = Some x ->
  exists o S R, nth_error l i = Some o /\ entry h o x S /\
    (forall a, cnt (concat Ss) a = cnt S a + cnt R a) /\
    (forall h' o' x' S', keeps R h h' -> entry h' o' x' S' ->
       exists Ss', held h' (set_problem l i o') (set_status s i x') Ss' /\
         forall a, cnt (concat Ss') a = cnt S' a + cnt R a).
Proof.
  induction i as [|i IH]; intros h l s Ss x H E; destruct H as [|o y S l s Ss En H]; try discriminate; cbn in E.
  - injection E as <-. exists o, S, (concat Ss). split; [reflexivity|]. split; [exact En|]. split; [cbn [concat]; lite|].
    intros h' o' x' S' K En'. exists (S' :: Ss). cbn [set_problem set_status concat]. split; [|lite].
    constructor; [exact En'|]. eapply held_keeps; eassumption.
  - destruct (IH h l s Ss x H E) as [o1 [S1 [R [N [En1 [C U]]]]]]. exists o1, S1, (S ++ R).
    split; [exact N|]. split; [exact En1|]. cbn [concat]. split; [intro a; specialize (C a); lite|].
    intros h' o' x' S' K En'. destruct (U h' o' x' S') as [Ss' [H' C']]; [eapply keeps_sub; [exact K|]; lite|exact En'|].
    exists (S :: Ss'). cbn [set_problem set_status concat]. split; [|intro a; specialize (C' a); lite].
    constructor; [|exact H']. eapply entry_keeps; [exact En|]. eapply keeps_sub; [exact K|]. lite.
Qed.
Lemma held_app : forall h l s Ss l' s' Ss', held h l s Ss -> held h l' s' Ss' -> held h (l ++ l') (s ++ s') (Ss ++ Ss').
Proof. intros h l s Ss l' s' Ss' H H'. induction H; [exact H'|]. cbn [app]. constructor; assumption. Qed.

Inductive state (h0 h : heap) (l : list (option addr)) (s : status) (k : nat) : Prop :=
| state_intro : forall Ss lost, held h l s Ss -> shut h lost lost -> length lost = k ->
    spans h0 h (concat Ss ++ lost) -> state h0 h l s k.

Section Formatting.
Variable null_ok : bool.

Lemma wp_step : forall c h0 h l s k (Q : list (option addr) -> heap -> Prop), state h0 h l s k -> allowed null_ok c s ->
  (forall l' h', state h0 h' l' (next_status c s) (lost_by c s + k) -> Q l' h') ->
  wp (step null_ok c l) Q h.
Proof.
  intros c h0 h l s k Q [Ss lost ST SH CN SP] AL HQ. destruct c as [r|i j|i|i]; cbn [step allowed next_status lost_by] in *.
  - destruct AL as [V PN]. apply wp_bind. eapply (offers_get_problem null_ok r V PN); [exact SP|].
    intros p q B x h' O H' SX LX NN OB K. apply wp_ret. apply HQ.
    exists (Ss ++ [hold p q B]) (x ++ lost).
    + apply held_app; [eapply held_keeps; [exact ST|last K]|].
      constructor; [|constructor]. econstructor; [apply ownb_own; exact O|constructor|exact NN|exact OB].
    + apply shut_app; [eapply shut_sub; [exact SX|lite]|].
      eapply shut_sub; [eapply shut_keeps; [exact SH|last K]|lite].
    + rewrite app_length. lia.
    + eapply spans_cnt; [exact H'|]. rewrite concat_app. cbn [concat]. rewrite app_nil_r. lite.
  - destruct AL as [[b n] E]. destruct (held_nth i h l s Ss _ ST E) as [o [S [R [N [En [C U]]]]]]. rewrite N. rewrite E in HQ.
    inversion En as [|p q S' b' n' O D NN OB]; subst.
    apply own_ownb in O. destruct O as [B [-> O]].
    apply wp_bind. eapply (wp_transform null_ok) with (T := R ++ lost);
      [exact O|eapply spans_cnt; [exact SP|intro a; specialize (C a); lite]|intro Z; contradiction|].
    intros p' q' Sd x h' O' H' L' BX LX K. apply wp_ret. apply HQ.
    destruct (U h' (Some p') (Some (b, Datatypes.S n)) (hold p' q' (hold p q B ++ Sd))) as [Ss' [ST' C']].
    + last K.
    + destruct L' as [L1 [L2 [L3 [L4 [L5 [L6 [L7 L8]]]]]]].
      econstructor; [apply ownb_own; exact O'| |exact L4|congruence].
      eapply deep_wrapped; [exact O|exact D|exact NN|exact O'|exact L8|last K].
    + exists Ss' (x ++ lost).
      * exact ST'.
      * apply shut_app; [apply shut_blocks; exact BX|].
        eapply shut_sub; [eapply shut_keeps; [exact SH|last K]|lite].
      * rewrite app_length, LX, OB. unfold lost_copies. destruct b; reflexivity.
      * eapply spans_cnt; [exact H'|]. intro a. specialize (C' a). lite.
  - destruct AL as [b [n E]]. destruct (held_nth i h l s Ss _ ST E) as [o [S [R [N [En [C U]]]]]]. rewrite N. rewrite E in HQ.
    inversion En as [|p q S' b' n' O D NN OB]; subst.
    apply wp_bind. eapply wp_remove_observer with (T := R ++ lost); [exact O|exact D|eapply spans_cnt; [exact SP|intro a; specialize (C a); lite]|].
    intros p' q' S' h' O' D' NN' OB' H' K. apply wp_ret. apply HQ.
    destruct (U h' (Some p') (Some (b, n)) S') as [Ss' [ST' C']].
    + last K.
    + econstructor; [exact O'|exact D'|exact NN'|congruence].
    + exists Ss' lost.
      * cbn [Nat.sub]. rewrite Nat.sub_0_r. exact ST'.
      * eapply shut_keeps; [exact SH|last K].
      * reflexivity.
      * eapply spans_cnt; [exact H'|]. intro a. specialize (C' a). lite.
  - destruct AL as [[b n] E]. destruct (held_nth i h l s Ss _ ST E) as [o [S [R [N [En [C U]]]]]]. rewrite N.
    inversion En as [|p q S' b' n' O D NN OB]; subst.
    apply wp_bind. eapply (wp_problem_free true) with (T := R ++ lost); [exact O|eapply spans_cnt; [exact SP|intro a; specialize (C a); lite]|].
    intros h' H' K. apply wp_ret. apply HQ.
    destruct (U h' None None []) as [Ss' [ST' C']].
    + last K.
    + constructor.
    + exists Ss' lost.
      * exact ST'.
      * eapply shut_keeps; [exact SH|last K].
      * reflexivity.
      * eapply spans_cnt; [exact H'|]. intro a. specialize (C' a). lite.
Qed.

Lemma wp_session : forall cs h0 h l s k (Q : list (option addr) -> heap -> Prop), state h0 h l s k ->
  all_allowed null_ok cs s ->
  (forall l' h', state h0 h' l' (final_status cs s) (lost_in cs s + k) -> Q l' h') ->
  wp (session null_ok cs l) Q h.
Proof.
  induction cs as [|c cs IH]; intros h0 h l s k Q ST AL HQ; cbn [session final_status lost_in all_allowed] in *.
  - apply wp_ret. apply HQ. exact ST.
  - destruct AL as [A1 A2]. apply wp_bind. eapply wp_step; [exact ST|exact A1|].
    intros l' h' ST'. eapply IH; [exact ST'|exact A2|]. intros l2 h2 ST2. apply HQ.
    replace (lost_by c s + lost_in cs (next_status c s) + k) with (lost_in cs (next_status c s) + (lost_by c s + k)) by lia.
    exact ST2.
Qed.
End Formatting.

(** What the invariant says about the heap. *)
Lemma spans_untouched : forall h0 h S, spans h0 h S -> untouched h0 h.
Proof.
  intros h0 h S [A [B C]]. unfold untouched. apply nth_ext with (d := None) (d' := None).
  - rewrite firstn_length. lia.
  - intros n L. rewrite firstn_length in L. assert (L' : n < length h0) by lia. destruct (B n L') as [E _].
    rewrite <- (firstn_skipn (length h0) h) in E. rewrite nth_error_app1 in E by (rewrite firstn_length; lia).
    rewrite (nth_error_nth' (firstn (length h0) h) None) in E by (rewrite firstn_length; lia).
    rewrite (nth_error_nth' h0 None) in E by exact L'. congruence.
Qed.
Lemma spans_dangling : forall h0 h S, spans h0 h S -> shut h S S -> no_dangling h0 h.
Proof.
  intros h0 h S H SH a c b L N I. pose proof H as [_ [_ C]].
  assert (P : 0 < cnt S a) by (rewrite C by exact L; unfold alive; rewrite N; lia).
  pose proof (SH a c b P N I) as Pb. apply (spans_alive _ _ _ _ H) in Pb. unfold alive in Pb. unfold live.
  destruct (nth_error h b) as [[c'|]|]; [exists c'; reflexivity|lia|lia].
Qed.
Lemma cnt_filter : forall (f : nat -> bool) l a, cnt (filter f l) a = if f a then cnt l a else 0.
Proof.
  intros f l a. induction l as [|b l IH]; cbn [filter]; [rewrite cnt_nil; destruct (f a); reflexivity|].
  rewrite cnt_cons. destruct (Nat.eq_dec b a) as [->|N].
  - destruct (f a) eqn:E; [rewrite cnt_cons; lia|exact IH].
  - rewrite one_ne by exact N. destruct (f b); [rewrite cnt_cons, one_ne by exact N|]; rewrite IH; destruct (f a); reflexivity.
Qed.
Lemma live_seq : forall h, length (filter (fun a => 0 <? alive h a) (seq 0 (length h))) = live_cells h.
Proof.
  intro h. induction h as [|o h IH] using rev_ind; [reflexivity|].
  rewrite app_length. cbn [length]. rewrite Nat.add_1_r, seq_S, filter_app, app_length. cbn [plus].
  unfold live_cells. rewrite filter_app, app_length. f_equal.
  - fold (live_cells h). rewrite <- IH. f_equal. apply filter_ext_in. intros a I. apply in_seq in I.
    unfold alive. rewrite nth_error_app1 by lia. reflexivity.
  - cbn [filter]. unfold alive. rewrite nth_error_app2 by lia. rewrite Nat.sub_diag. destruct o; reflexivity.
Qed.
Lemma filter_map_length : forall (f : nat -> bool) (g : nat -> nat) l,
  length (filter f (map g l)) = length (filter (fun a => f (g a)) l).
Proof. intros f g l. induction l as [|a l IH]; [reflexivity|]. cbn. destruct (f (g a)); cbn; lia. Qed.
Lemma seq_shift_by : forall k n, seq k n = map (fun a => k + a) (seq 0 n).
Proof.
  intros k n. induction n as [|n IH] using nat_ind; [reflexivity|].
  rewrite !seq_S, map_app, <- IH. reflexivity.
Qed.
Lemma alive_skipn : forall h k a, alive (skipn k h) a = alive h (k + a).
Proof.
  intros h k a. unfold alive. f_equal.
  revert h. induction k as [|k IH]; intros h; [reflexivity|].
  destruct h as [|o h]; [cbn; destruct a; reflexivity|]. cbn. apply IH.
Qed.
Lemma spans_live : forall h0 h S, spans h0 h S -> live_since h0 h = length S.
Proof.
  intros h0 h S [A [B C]]. unfold live_since. rewrite <- live_seq.
  rewrite (filter_ext_in _ (fun a => 0 <? alive h (length h0 + a))) by (intros a _; rewrite alive_skipn; reflexivity).
  rewrite <- (filter_map_length (fun a => 0 <? alive h a) (fun a => length h0 + a)), <- seq_shift_by, skipn_length.
  apply Permutation_length. apply perm_cnt. intro a. rewrite cnt_filter.
  destruct (lt_dec a (length h0)) as [L|L].
  - destruct (B a L) as [_ ->]. assert (Z : cnt (seq (length h0) (length h - length h0)) a = 0).
    { apply count_occ_not_In. intro I. apply in_seq in I. lia. }
    rewrite Z. destruct (0 <? alive h a); reflexivity.
  - rewrite (C a) by lia. pose proof (alive_le h a) as AL.
    destruct (0 <? alive h a) eqn:E.
    + apply Nat.ltb_lt in E. pose proof (alive_lt h a E).
      assert (I : In a (seq (length h0) (length h - length h0))) by (apply in_seq; lia).
      apply cnt_in in I. pose proof (proj1 (NoDup_count_occ Nat.eq_dec _) (seq_NoDup (length h - length h0) (length h0)) a) as U.
      unfold cnt in *. lia.
    + apply Nat.ltb_ge in E. lia.
Qed.

(** Printing the missing name of the constraint function. *)
Definition dies {A} (m : M A) (h : heap) : Prop := m h = UB.
Lemma dies_first : forall A B (m : M A) (k : A -> M B) h, dies m h -> dies (mbind m k) h.
Proof. intros A B m k h D. unfold dies, mbind in *. rewrite D. reflexivity. Qed.
Lemma dies_then : forall A B (m : M A) (k : A -> M B) h, wp m (fun a h' => dies (k a) h') h -> dies (mbind m k) h.
Proof. intros A B m k h [a [h' [E D]]]. unfold dies, mbind in *. rewrite E. exact D. Qed.
Lemma dies_around : forall A (m : M A) h0 h T, spans h0 h T ->
  (forall h' v, spans h0 h' (v :: T) -> keeps T h h' -> dies m h') -> dies (around m) h.
Proof.
  intros A m h0 h T H D. unfold around. apply dies_then. eapply wp_alloc; [exact H|]. intros v h1 H1 N1 K1.
  apply dies_first. eapply D; eassumption.
Qed.

Lemma dies_transform : forall p q h0 h T, ownb true h p q [] -> spans h0 h (hold p q [] ++ T) -> name q = None ->
  dies (transform false LinearConstraint p) h.
Proof.
  intros p q h0 h T O H NN. unfold transform. pose proof O as [N [Sh _]].
  apply dies_then. eapply wp_problem_at; [exact N|].
  apply dies_then. cbn [data_layout].
  assert (X : forall d h', spans h0 h' (d ++ hold p q [] ++ T) -> keeps (hold p q [] ++ T) h h' ->
    forall x, dies (transformed_allocate false p x LinearConstraint) h').
  { intros d h1 H1 K1 x. unfold transformed_allocate. apply dies_then. eapply wp_problem_at; [rewrite K1 by lite; exact N|].
    rewrite NN. cbn [strdup]. apply dies_then. apply wp_ret.
    apply dies_then. eapply wp_alloc; [exact H1|]. intros w h2 H2 N2 K2.
    apply dies_then. eapply (wp_coco_problem_duplicate p q); [exact H2|rewrite K2, K1 by lite; exact N|exact Sh| |].
    { intros a P. assert (0 < cnt (opts (fields q)) a) by (rewrite opts_fields; lia). lite. }
    intros c qc lost h3 H3 N3 B3 BL LL CP K3.
    apply dies_then. eapply wp_problem_at; [exact N3|].
    apply dies_then. eapply wp_set with (S' := opts (fields qc) ++ lost ++ w :: d ++ hold p q [] ++ T); [exact H3|lite|].
    intros h4 H4 N4 K4. apply dies_first. unfold set_name. apply dies_then. eapply wp_problem_at; [exact N4|].
    destruct CP as [_ [_ [_ [_ [CN _]]]]]. cbn [name with_data with_free]. rewrite (proj2 CN NN).
    cbn [free_ptr]. apply dies_then. apply wp_ret. reflexivity. }
  apply wp_bind. eapply wp_alloc_struct; [exact H|]. intros s l Ss h1 H1 N1 S1 K1. apply wp_ret.
  eapply (X (concat Ss ++ [s])); [recount H1|last K1].
Qed.

Lemma dies_linear_constraint : forall given d h0 h T, spans h0 h T -> dies (linear_constraint false given d) h.
Proof.
  intros given d h0 h T H. unfold linear_constraint.
  apply dies_then. eapply wp_coco_problem_allocate; [exact H|].
  intros p q h1 H1 N1 B1 [C1 [C2 [C3 [C4 [C5 [C6 [C7 [C8 [C9 [C10 C11]]]]]]]]]] K1.
  assert (O1 : ownb true h1 p q []).
  { apply bare_ownb; [exact (conj N1 (conj C4 B1))| |congruence].
    apply body_none; [exact C11|]. rewrite C8. apply blocks_nil. }
  apply dies_then. eapply (wp_set_id false); [exact O1|exact H1|intros o []|]. intros s1 h2 O2 H2 K2.
  apply dies_then. eapply wp_alloc; [exact H2|]. intros rng h3 H3 N3 K3.
  apply dies_first.
  assert (X : forall h' T', spans h0 h' (hold p (with_texts q (name q) (Some s1) (type q)) [] ++ T') ->
    keeps (hold p (with_texts q (name q) (Some s1) (type q)) []) h3 h' -> dies (transform false LinearConstraint p) h').
  { intros h' T' H' K'. eapply dies_transform; [eapply ownb_keeps; [exact O2|]|exact H'|exact C5].
    eapply keeps_trans; [eapply keeps_sub; [exact K3|]; lite|exact K']. }
  destruct given.
  - apply (X h3 (rng :: T)); [eapply spans_cnt; [exact H3|lite]|apply keeps_refl].
  - eapply dies_around; [exact H3|]. intros h4 v H4 K4.
    apply (X h4 (v :: rng :: T)); [eapply spans_cnt; [exact H4|lite]|]. last K4.
Qed.

Lemma dies_constrained : forall k first l d h, between 1 9 k -> dies (get_constrained false k first l d) h.
Proof.
  intros k first l d h Bk. pose proof (spans_start h) as H. unfold get_constrained.
  apply dies_first. eapply dies_around; [exact H|]. intros h1 v1 H1 _.
  eapply dies_around; [exact H1|]. intros h2 v2 H2 _.
  apply dies_first. eapply dies_around; [exact H2|]. intros h3 v3 H3 _.
  apply dies_then. eapply (builds_construct false true true _ d (cons_passes k Bk)); [exact H3|].
  intros po qo Bo h4 O4 H4 F4 K4.
  apply dies_first. unfold linear_constraints.
  eapply dies_around; [exact H4|]. intros h5 v5 H5 _.
  eapply dies_around; [exact H5|]. intros h6 v6 H6 _.
  eapply dies_around; [exact H6|]. intros h7 v7 H7 _.
  eapply dies_around; [exact H7|]. intros h8 v8 H8 _.
  apply dies_first. eapply dies_linear_constraint. exact H8.
Qed.

(** Sessions with single-objective problems only lose nothing. *)
Definition one_objective (x : option (bool * nat)) : Prop :=
  match x with Some (true, _) => False | _ => True end.
Lemma status_single : forall s i b n, Forall one_objective s ->
  nth_error s i = Some (Some (b, n)) -> b = false.
Proof.
  intros s i b n F E. apply nth_error_In in E. rewrite Forall_forall in F. specialize (F _ E). destruct b; [destruct F|reflexivity].
Qed.
Lemma set_status_single : forall s i x, Forall one_objective s ->
  one_objective x ->
  Forall one_objective (set_status s i x).
Proof.
  intros s i x F X. revert i. induction F as [|y s Y F IH]; intro i; [constructor|].
  destruct i as [|i]; constructor; auto.
Qed.
Lemma single_lost : forall cs s, Forall one_objective s ->
  Forall (fun c => match c with Fetch r => two_objectives r = false | _ => True end) cs -> lost_in cs s = 0.
Proof.
  induction cs as [|c cs IH]; intros s F G; [reflexivity|]. inversion G as [|? ? Gc G']; subst. cbn [lost_in].
  assert (Z : lost_by c s = 0 /\ Forall one_objective (next_status c s)).
  { destruct c as [r|i j|i|i]; cbn [lost_by next_status].
    - rewrite Gc. split.
      + destruct r; cbn in *; try reflexivity; discriminate.
      + apply Forall_app. split; [exact F|]. constructor; [exact I|constructor].
    - destruct (nth_error s i) as [[[b n]|]|] eqn:E; try (split; [reflexivity|exact F]).
      pose proof (status_single _ _ _ _ F E). subst b. split; [reflexivity|]. apply set_status_single; [exact F|exact I].
    - split; [reflexivity|]. destruct (nth_error s i) as [[[b n]|]|] eqn:E; try exact F.
      pose proof (status_single _ _ _ _ F E). subst b. apply set_status_single; [exact F|exact I].
    - split; [reflexivity|]. apply set_status_single; [exact F|exact I]. }
  destruct Z as [-> Z]. apply IH; assumption.
Qed.
