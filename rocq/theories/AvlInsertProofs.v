(** Proofs: links and insertion. *)
From Coq Require Import List Arith NArith ZArith Bool Lia Permutation.
Import ListNotations.
From Verif Require Import CBase MoModel AvlModel AvlSpec AvlTreeProofs AvlMemProofs AvlRebalProofs.

Section Avl.
Context {A : Type}.
Implicit Types (h : heap A) (s : avl A) (t : tree A) (c : list (frame A)).

(** ** Chains *)
Definition headof (ps : list nat) (a : option nat) : option nat := match ps with [] => a | q :: _ => Some q end.
Fixpoint lastof (ps : list nat) (b : option nat) : option nat := match ps with [] => b | p :: ps' => lastof ps' (Some p) end.
Fixpoint chain (K : links) (b : option nat) (ps : list nat) (a : option nat) : Prop :=
  match ps with [] => True | p :: ps' => K p = Some (b, headof ps' a) /\ chain K (Some p) ps' a end.
Lemma linked_chain : forall h ps b a, linked h b ps a <-> chain (link h) b ps a.
Proof.
  intros h. induction ps as [|p ps IH]; intros b a; cbn [linked chain]; [tauto|]. rewrite IH. unfold link. split; intros [H1 H2]; (split; [|exact H2]).
  - destruct H1 as [n [-> [E1 E2]]]. cbn [option_map]. rewrite E1, E2. reflexivity.
  - destruct (get h p) as [n|]; [|discriminate]. exists n. cbn [option_map] in H1. split; [reflexivity|]. unfold headof in H1. split; congruence.
Qed.
Lemma chain_ext : forall K K' ps b a, (forall q, In q ps -> K' q = K q) -> chain K b ps a -> chain K' b ps a.
Proof.
  intros K K'. induction ps as [|p ps IH]; intros b a E; cbn [chain]; [auto|]. intros [H1 H2]. split; [rewrite E; [exact H1|left; reflexivity]|]. apply IH; [|exact H2]. intros q I. apply E. right; exact I.
Qed.
Lemma lastof_app : forall l1 l2 b, lastof (l1 ++ l2) b = lastof l2 (lastof l1 b).
Proof. induction l1 as [|p l1 IH]; intros l2 b; cbn [app lastof]; auto. Qed.
Lemma headof_app : forall l1 l2 a, headof (l1 ++ l2) a = headof l1 (headof l2 a).
Proof. intros [|p l1] l2 a; reflexivity. Qed.
Lemma chain_app : forall K l1 l2 b a, chain K b (l1 ++ l2) a <-> chain K b l1 (headof l2 a) /\ chain K (lastof l1 b) l2 a.
Proof.
  intros K. induction l1 as [|p l1 IH]; intros l2 b a; cbn [app chain lastof]; [tauto|]. rewrite IH, headof_app. tauto.
Qed.
Lemma lastof_in : forall l b u, lastof l b = Some u -> In u l \/ (l = [] /\ b = Some u).
Proof.
  induction l as [|p l IH]; intros b u E; cbn [lastof] in E; [right; auto|]. destruct (IH _ _ E) as [H|[-> H]]; [left; right; exact H|left; left; congruence].
Qed.
Lemma headof_in : forall l a u, headof l a = Some u -> In u l \/ (l = [] /\ a = Some u).
Proof. intros [|p l] a u E; cbn [headof] in E; [right; auto|left; left; congruence]. Qed.
Lemma lastof_none : forall l, lastof l None = last_opt l.
Proof.
  intros l. destruct l as [|q l'] eqn:E using rev_ind; [reflexivity|]. clear IHl'. rewrite lastof_app. unfold last_opt. rewrite rev_app_distr. reflexivity.
Qed.
Lemma headof_none : forall l, headof l None = hd_error l.
Proof. intros [|p l]; reflexivity. Qed.

Lemma reset_next : forall K K' l b a a', NoDup l -> chain K b l a ->
  (forall q, In q l -> lastof l b <> Some q -> K' q = K q) -> (forall q w, In q l -> lastof l b = Some q -> K q = Some w -> K' q = Some (fst w, a')) -> chain K' b l a'.
Proof.
  intros K K'. induction l as [|p l IH]; intros b a a' N C H1 H2; cbn [chain] in *; [exact I|]. destruct C as [C1 C2]. inversion N as [|? ? N1 N2]; subst. cbn [lastof] in *. destruct l as [|q l].
  - split; [|exact I]. rewrite (H2 p _ (or_introl eq_refl) eq_refl C1). reflexivity.
  - split.
    + rewrite H1; [exact C1|left; reflexivity|]. intros E. destruct (lastof_in _ _ _ E) as [I|[I _]]; [exact (N1 I)|discriminate].
    + apply (IH (Some p) a a' N2 C2).
      * intros w I. apply H1. right; exact I.
      * intros w k I. apply H2. right; exact I.
Qed.
Lemma reset_prev : forall K K' l b b' a, NoDup l -> chain K b l a ->
  (forall q, In q l -> headof l a <> Some q -> K' q = K q) -> (forall q w, In q l -> headof l a = Some q -> K q = Some w -> K' q = Some (b', snd w)) -> chain K' b' l a.
Proof.
  intros K K' [|p l] b b' a N C H1 H2; cbn [chain] in *; [exact I|]. destruct C as [C1 C2]. inversion N as [|? ? N1 N2]; subst. split.
  - rewrite (H2 p _ (or_introl eq_refl) eq_refl C1). reflexivity.
  - apply (chain_ext K); [|exact C2]. intros q I. apply H1; [right; exact I|]. cbn [headof]. intros E. apply N1. congruence.
Qed.

Lemma chain_insert : forall K K' l1 l2 new, NoDup (l1 ++ new :: l2) -> chain K None (l1 ++ l2) None ->
  K' new = Some (lastof l1 None, headof l2 None) ->
  (forall u w, lastof l1 None = Some u -> K u = Some w -> K' u = Some (fst w, Some new)) ->
  (forall u w, headof l2 None = Some u -> K u = Some w -> K' u = Some (Some new, snd w)) ->
  (forall q, lastof l1 None <> Some q -> headof l2 None <> Some q -> q <> new -> K' q = K q) ->
  chain K' None (l1 ++ new :: l2) None.
Proof.
  intros K K' l1 l2 new N C E1 E2 E3 E4. pose proof (NoDup_remove_1 _ _ _ N) as N12. pose proof (NoDup_remove_2 _ _ _ N) as Nn.
  assert (N1 : NoDup l1 /\ NoDup l2 /\ (forall q, In q l1 -> ~ In q l2)).
  { clear -N12. induction l1 as [|p l1 IH]; cbn [app] in *; [split; [constructor|split; [exact N12|intros q []]]|]. inversion N12 as [|? ? M1 M2]; subst. destruct (IH M2) as [I1 [I2 I3]].
    split; [constructor; [|exact I1]; intros I; apply M1, in_or_app; left; exact I|]. split; [exact I2|]. intros q [->|I]; [intros I; apply M1, in_or_app; right; exact I|apply I3, I]. }
  destruct N1 as [N1 [N2 N3]]. apply chain_app in C. destruct C as [C1 C2]. apply chain_app. cbn [headof chain]. split; [|split].
  - apply (reset_next K K' l1 None (headof l2 None) (Some new) N1 C1).
    + intros q I D. apply E4; [exact D| |].
      * intros E. destruct (headof_in _ _ _ E) as [I2|[_ I2]]; [exact (N3 q I I2)|discriminate].
      * intros ->. apply Nn, in_or_app. left; exact I.
    + intros q w I D. apply E2, D.
  - exact E1.
  - apply (reset_prev K K' l2 (lastof l1 None) (Some new) None N2 C2).
    + intros q I D. apply E4; [|exact D|].
      * intros E. destruct (lastof_in _ _ _ E) as [I2|[_ I2]]; [exact (N3 q I2 I)|discriminate].
      * intros ->. apply Nn, in_or_app. right; exact I.
    + intros q w I D. apply E3, D.
Qed.
Lemma chain_delete : forall K K' l1 l2 p, NoDup (l1 ++ p :: l2) -> chain K None (l1 ++ p :: l2) None ->
  (forall u w, lastof l1 None = Some u -> K u = Some w -> K' u = Some (fst w, headof l2 None)) ->
  (forall u w, headof l2 None = Some u -> K u = Some w -> K' u = Some (lastof l1 None, snd w)) ->
  (forall q, lastof l1 None <> Some q -> headof l2 None <> Some q -> q <> p -> K' q = K q) ->
  chain K' None (l1 ++ l2) None.
Proof.
  intros K K' l1 l2 new N C E2 E3 E4. pose proof (NoDup_remove_1 _ _ _ N) as N12. pose proof (NoDup_remove_2 _ _ _ N) as Nn.
  assert (N1 : NoDup l1 /\ NoDup l2 /\ (forall q, In q l1 -> ~ In q l2)).
  { clear -N12. induction l1 as [|p l1 IH]; cbn [app] in *; [split; [constructor|split; [exact N12|intros q []]]|]. inversion N12 as [|? ? M1 M2]; subst. destruct (IH M2) as [I1 [I2 I3]].
    split; [constructor; [|exact I1]; intros I; apply M1, in_or_app; left; exact I|]. split; [exact I2|]. intros q [->|I]; [intros I; apply M1, in_or_app; right; exact I|apply I3, I]. }
  destruct N1 as [N1 [N2 N3]]. apply chain_app in C. cbn [headof chain] in C. destruct C as [C1 [_ C2]]. apply chain_app. split.
  - apply (reset_next K K' l1 None (Some new) (headof l2 None) N1 C1).
    + intros q I D. apply E4; [exact D| |].
      * intros E. destruct (headof_in _ _ _ E) as [I2|[_ I2]]; [exact (N3 q I I2)|discriminate].
      * intros ->. apply Nn, in_or_app. left; exact I.
    + intros q w I D. apply E2, D.
  - apply (reset_prev K K' l2 (Some new) (lastof l1 None) None N2 C2).
    + intros q I D. apply E4; [|exact D|].
      * intros E. destruct (lastof_in _ _ _ E) as [I2|[_ I2]]; [exact (N3 q I2 I)|discriminate].
      * intros ->. apply Nn, in_or_app. right; exact I.
    + intros q w I D. apply E3, D.
Qed.

(** ** States *)
Lemma holds_of : forall s t, represents s t -> holds (cells s) (link (cells s)) (hd_error (addrs t)) (last_opt (addrs t)) (root t) s [Sub None t].
Proof.
  intros s t [H1 [H2 [H3 [H4 [H5 [H6 [H7 H8]]]]]]]. split; auto.
  cbn. rewrite app_nil_r. exact H3.
Qed.
Lemma represents_of : forall h0 K hd tl s t, holds h0 K hd tl (root t) s [Sub None t] -> chain K None (addrs t) None -> hd = headof (addrs t) None -> tl = lastof (addrs t) None ->
  balanced t -> (size t < 2 ^ 64)%N -> represents s t.
Proof.
  intros h0 K hd tl s t [H1 H2 H3 H4 H5 H6 H7 H8] C E1 E2 B S. unfold represents. split; [exact H8|]. split; [inversion H1; assumption|].
  split; [cbn in H2; rewrite app_nil_r in H2; exact H2|]. split; [apply linked_chain; apply (chain_ext K); [intros q _; apply H5|exact C]|].
  split; [rewrite H6, E1; apply headof_none|]. split; [rewrite H7, E2; apply lastof_none|]. split; assumption.
Qed.
Lemma represents_chain : forall s t, represents s t -> chain (link (cells s)) None (addrs t) None.
Proof. intros s t H. apply linked_chain. apply H. Qed.
Lemma set_head_ok : forall h0 K hd tl v s (L : list (piece A)) w, holds h0 K hd tl v s L -> holds h0 K w tl v (Avl A (cells s) (top s) w (tail s)) L.
Proof. intros h0 K hd tl v s L w [H1 H2 H3 H4 H5 H6 H7 H8]. split; auto. Qed.
Lemma set_tail_ok : forall h0 K hd tl v s (L : list (piece A)) w, holds h0 K hd tl v s L -> holds h0 K hd w v (Avl A (cells s) (top s) (head s) w) L.
Proof. intros h0 K hd tl v s L w [H1 H2 H3 H4 H5 H6 H7 H8]. split; auto. Qed.

(** A new node *)
Definition allocated (s : avl A) (new : nat) (g : node A) : avl A := with_cells s ((new, g) :: cells s).
Lemma holds_new : forall s t new g, represents s t -> get (cells s) new = None ->
  holds (cells (allocated s new g)) (link (cells (allocated s new g))) (hd_error (addrs t)) (last_opt (addrs t)) (root t) (allocated s new g)
    [Cell new (parent g) (left g) (right g) (item g) (count g) (depth g); Sub None t].
Proof.
  intros s t new g R F. pose proof R as [H1 [H2 [H3 [H4 [H5 [H6 [H7 H8]]]]]]].
  assert (Nn : ~ In new (addrs t)) by (intros I; apply (sub_live _ _ _ _ H2 I F)).
  split; auto.
  - constructor; [|constructor; [|constructor]]; cbn [ok allocated with_cells cells].
    + exists g. cbn [get]. rewrite Nat.eqb_refl. auto 10.
    + apply (sub_frame _ (cells s)); [|exact H2]. intros q I. unfold same_fields. cbn [get]. destruct (Nat.eqb_spec q new) as [->|_]; [contradiction|reflexivity].
  - cbn. rewrite app_nil_r. constructor; assumption.
Qed.

Lemma up_single : forall c k new x, fits_height c k -> near k 1 -> balanced (up c (Fork Leaf new x Leaf)).
Proof. intros c k new x F N. apply (up_balanced c _ k F); [cbn; lia|exact N]. Qed.
Lemma size_up : forall c t, size (up c t) = size (plug c t).
Proof. intros c t. rewrite !size_entries, up_entries, entries_plug. reflexivity. Qed.
Lemma addrs_up : forall c t, addrs (up c t) = map fst (before c) ++ addrs t ++ map fst (after c).
Proof. intros c t. rewrite !addrs_entries, up_entries, !map_app. reflexivity. Qed.
Lemma addrs_plug : forall c t, addrs (plug c t) = map fst (before c) ++ addrs t ++ map fst (after c).
Proof. intros c t. rewrite !addrs_entries, entries_plug, !map_app. reflexivity. Qed.

(** What a change of the tree does to the rest of the memory *)
Definition frame_kept h h' (ps : list nat) : Prop := forall q, ~ In q ps -> get h' q = get h q.

Lemma drop_leaf : forall h0 K hd tl v s par (L : list (piece A)), holds h0 K hd tl v s (Sub par Leaf :: L) -> holds h0 K hd tl v s L.
Proof.
  intros h0 K hd tl v s par L H. apply (holds_conv _ _ _ _ _ _ _ _ H); [|reflexivity]. pose proof (holds_ok _ _ _ _ _ _ _ H) as F. inversion F; assumption.
Qed.
Lemma add_leaf : forall par h0 K hd tl v s (L : list (piece A)), holds h0 K hd tl v s L -> holds h0 K hd tl v s (Sub par Leaf :: L).
Proof.
  intros par h0 K hd tl v s L H. apply (holds_conv _ _ _ _ _ _ _ _ H); [|reflexivity]. constructor; [exact I|]. apply (holds_ok _ _ _ _ _ _ _ H).
Qed.
Lemma after_caddrs : forall c q, In q (map fst (after c)) -> In q (caddrs c).
Proof.
  induction c as [|[p x r|l p x] c IH]; intros q I; cbn [after caddrs map fst] in *; [exact I| |].
  - destruct I as [I|I]; [left; exact I|right]. rewrite map_app in I. rewrite <- addrs_entries in I. apply in_or_app. apply in_app_or in I as [I|I]; [left; exact I|right; apply IH, I].
  - right. apply in_or_app; right. apply IH, I.
Qed.
Lemma before_caddrs : forall c q, In q (map fst (before c)) -> In q (caddrs c).
Proof.
  induction c as [|[p x r|l p x] c IH]; intros q I; cbn [before caddrs map fst] in *; [exact I| |].
  - right. apply in_or_app; right. apply IH, I.
  - rewrite !map_app in I. rewrite <- addrs_entries in I. cbn [map fst] in I. apply in_app_or in I as [I|I]; [right; apply in_or_app; right; apply IH, I|].
    apply in_app_or in I as [I|[I|[]]]; [right; apply in_or_app; left; exact I|left; exact I].
Qed.
Lemma caddrs_plug : forall c t, Permutation (addrs (plug c t)) (caddrs c ++ addrs t).
Proof.
  induction c as [|[p x r|l p x] c IH]; intros t; cbn [plug caddrs]; [reflexivity| |]; rewrite IH; cbn [addrs]; cbn [app]; rewrite <- !app_assoc.
  - rewrite !app_assoc. rewrite <- Permutation_middle. constructor. rewrite <- app_assoc. rewrite (Permutation_app_comm _ (addrs r)).
    rewrite !app_assoc. apply Permutation_app_tail, Permutation_app_comm.
  - rewrite !app_assoc. rewrite <- Permutation_middle. constructor. apply Permutation_app_tail, Permutation_app_comm.
Qed.
Lemma link_alloc : forall s new g q, q <> new -> link (cells (allocated s new g)) q = link (cells s) q.
Proof. intros s new g q N. unfold link. cbn [allocated with_cells cells get]. destruct (Nat.eqb_spec q new); [contradiction|reflexivity]. Qed.
Lemma link_new : forall s new g, link (cells (allocated s new g)) new = Some (prev g, next g).
Proof. intros s new g. unfold link. cbn [allocated with_cells cells get]. rewrite Nat.eqb_refl. reflexivity. Qed.
End Avl.

Ltac mem P := apply in_flat_map; exists P; split; [solve [in_tac]|cbn [paddrs]].
Ltac mem_cell p := match goal with |- In _ (flat_map paddrs ?L) => let i := index_cell p L in apply in_flat_map; eexists; split; [solve [in_tac]|] end.

Section Avl2.
Context {A : Type}.
Implicit Types (h : heap A) (s : avl A) (t : tree A) (c : list (frame A)).

Lemma clear_ok : forall h0 K hd tl v s p par lp rp (x : A) k d L, holds h0 K hd tl v s (Cell p par lp rp x k d :: L) ->
  exists s', avl_node_clear s p = Ok s' /\ holds h0 K hd tl v s' (Cell p par None None x 1 1 :: L).
Proof.
  intros h0 K hd tl v s p par lp rp x k d L H. unfold avl_node_clear. did set_right_ok H. did set_left_ok H. did set_count_ok H. eapply set_depth_ok in H. exact H.
Qed.
Lemma read_both : forall h0 K hd tl v s p par lp rp (x : A) k d L a b, holds h0 K hd tl v s (Cell p par lp rp x k d :: L) -> K p = Some (a, b) ->
  exists n, read s p = Ok n /\ parent n = par /\ left n = lp /\ right n = rp /\ item n = x /\ prev n = a /\ next n = b.
Proof.
  intros h0 K hd tl v s p par lp rp x k d L a b H E. destruct (read_ok _ _ _ _ _ _ _ _ _ _ _ _ _ _ H) as [n [R [E1 [E2 [E3 [E4 _]]]]]]. destruct (read_link _ _ _ _ _ _ _ _ _ _ H E) as [n' [R' [E5 E6]]].
  assert (n' = n) by congruence. subst n'. exists n. auto 10.
Qed.

Lemma finish_insert : forall c k h0 K hd tl s new x,
  holds h0 K hd tl (segroot c (Some new)) s [Cell new (owner c) None None x 1 1; Seg c None (Some new)] ->
  chain K None (map fst (before c) ++ new :: map fst (after c)) None ->
  hd = headof (map fst (before c) ++ new :: map fst (after c)) None -> tl = lastof (map fst (before c) ++ new :: map fst (after c)) None ->
  fits_height c k -> near k 1 -> (size (plug c (Fork Leaf new x Leaf)) < 2 ^ 64)%N ->
  exists s', avl_rebalance s (owner c) = Ok s' /\ represents s' (up c (Fork Leaf new x Leaf)) /\
    frame_kept h0 (cells s') (new :: caddrs c) /\ length (cells s') = length h0.
Proof.
  intros c k h0 K hd tl s new x H C Eh Et F N Sz.
  apply (add_leaf (Some new)) in H. apply (add_leaf (Some new)) in H. bc new H. apply (fold_sub _ _ _ _ _ _ _ Leaf new x Leaf) in H.
  destruct (rebalance_ok c _ _ _ _ _ (Fork Leaf new x Leaf) k H F) as [s' [E H']]; [cbn; lia|exact N|exact Sz|].
  assert (AU : addrs (up c (Fork Leaf new x Leaf)) = map fst (before c) ++ new :: map fst (after c)) by (rewrite addrs_up; reflexivity).
  exists s'. split; [exact E|]. split; [|split].
  - apply (represents_of _ _ _ _ _ _ H'); [rewrite AU; exact C|rewrite AU; exact Eh|rewrite AU; exact Et|apply (up_single c k new x F N)|rewrite size_up; exact Sz].
  - intros q D. apply (holds_frame _ _ _ _ _ _ _ H'). cbn [flat_map paddrs]. rewrite app_nil_r. intros I. apply D. clear -I.
    assert (P : Permutation (addrs (up c (Fork Leaf new x Leaf))) (caddrs c ++ [new])) by (rewrite addrs_up, <- addrs_plug; apply caddrs_plug).
    apply (Permutation_in _ P) in I. apply in_app_or in I as [I|[I|[]]]; [right; exact I|left; exact I].
  - apply (holds_length _ _ _ _ _ _ _ H').
Qed.

Lemma insert_after_ok : forall fuel s c l q y new g, represents s (plug c (Fork l q y Leaf)) -> get (cells s) new = None -> (size (plug c (Fork l q y Leaf)) + 1 < 2 ^ 64)%N ->
  exists s', avl_node_insert (S fuel) false (allocated s new g) (Some q) new = Ok s' /\
    represents s' (up (InRight l q y :: c) (Fork Leaf new (item g) Leaf)) /\
    frame_kept (cells s) (cells s') (new :: addrs (plug c (Fork l q y Leaf))) /\ length (cells s') = S (length (cells s)).
Proof.
  intros fuel s c l q y new g R F Sz. set (T := plug c (Fork l q y Leaf)) in *. set (c1 := InRight l q y :: c).
  pose proof (represents_chain _ _ R) as C. unfold T in C. rewrite addrs_plug in C. cbn [addrs] in C. rewrite <- app_assoc in C. cbn [app] in C. rewrite app_assoc in C.
  set (l1' := map fst (before c) ++ addrs l) in *. set (l2 := map fst (after c)) in *.
  assert (AT : addrs T = l1' ++ q :: l2) by (unfold T; rewrite addrs_plug; cbn [addrs]; rewrite <- app_assoc; cbn [app]; unfold l1'; rewrite <- app_assoc; reflexivity).
  assert (NT : NoDup (l1' ++ q :: l2)) by (rewrite <- AT; apply R).
  assert (Nn : ~ In new (l1' ++ q :: l2)).
  { rewrite <- AT. intros I. destruct R as [_ [M _]]. apply (sub_live _ _ _ _ M I F). }
  set (K := link (cells (allocated s new g))). assert (C0 : chain K None (l1' ++ q :: l2) None).
  { apply (chain_ext (link (cells s))); [|exact C]. intros z I. apply link_alloc. intros ->. exact (Nn I). }
  assert (Kq : K q = Some (lastof l1' None, headof l2 None)) by (apply chain_app in C0; destruct C0 as [_ [C0 _]]; exact C0).
  assert (Kn : K new = Some (prev g, next g)) by apply link_new.
  assert (Dq : Nat.eqb q new = false) by (apply Nat.eqb_neq; intros ->; apply Nn, in_or_app; right; left; reflexivity).
  pose proof (holds_new s T new g R F) as H. fold K in H. set (h0 := cells (allocated s new g)) in *. rewrite AT in H.
  bs T H. unfold T in H at 2. apply split_sub in H. rewrite above_none in H. apply unfold_sub in H. pl 2%nat H. apply drop_leaf in H. cbn [root] in H.
  cbn [avl_node_insert].
  eapply read_both in Kq as X; [|exact H]. destruct X as [n [Rn [_ [_ [En _]]]]]. rewrite Rn. cbn [bind]. rewrite En. clear n Rn En.
  bc new H. did clear_ok H.
  eapply set_prev_ok in H; [|mem (Cell new (parent g) None None (item g) 1 1); left; reflexivity|exact Kn]. finish_op H.
  did set_parent_ok H. bc q H.
  edestruct read_both as [n [Rn [_ [_ [_ [_ [_ En]]]]]]]; [exact H|cbn beta; rewrite Dq; exact Kq|]. rewrite Rn. cbn [bind]. rewrite En. clear n Rn En.
  bc new H. eapply set_next_ok in H; [|mem (Cell new (Some q) None None (item g) 1 1); left; reflexivity|cbn beta; rewrite Nat.eqb_refl; reflexivity]. finish_op H.
  bc q H. edestruct read_both as [n [Rn [_ [_ [_ [_ [_ En]]]]]]]; [exact H|cbn beta; rewrite Dq; exact Kq|]. rewrite Rn. cbn [bind]. rewrite En. clear n Rn En.
  assert (Fr : forall s6 K1 tl1, holds h0 K1 (hd_error (l1' ++ q :: l2)) tl1 (root T) s6
      [Cell q (owner c) (root l) (Some new) y (size (Fork l q y Leaf)) (height (Fork l q y Leaf)); Cell new (Some q) None None (item g) 1 1; Sub (Some q) l; Seg c None (Some q)] ->
      tl1 = lastof ((l1' ++ [q]) ++ new :: l2) None -> chain K1 None ((l1' ++ [q]) ++ new :: l2) None ->
      exists s', avl_rebalance s6 (Some q) = Ok s' /\ represents s' (up c1 (Fork Leaf new (item g) Leaf)) /\
        frame_kept (cells s) (cells s') (new :: addrs T) /\ length (cells s') = S (length (cells s))).
  { intros s6 K1 tl1 H6 Et C6. bg c H6. bs l H6. bc q H6. rewrite <- above_none in H6. apply fold_right_seg in H6. bc new H6.
    assert (B : balanced T) by apply R. unfold T in B. apply balanced_plug in B. destruct B as [[Bl [_ [B1 B2]]] B3]. cbn [height] in B3. change (height Leaf) with 0%N in *.
    assert (E1 : map fst (before c1) ++ new :: map fst (after c1) = (l1' ++ [q]) ++ new :: l2) by (unfold c1, l1', l2; cbn [before after]; rewrite !map_app, addrs_entries, <- !app_assoc; reflexivity).
    destruct (finish_insert c1 0 h0 K1 (hd_error (l1' ++ q :: l2)) tl1 s6 new (item g)) as [s' [E [Hr [Hf Hl]]]].
    - assert (Er : root T = segroot c1 (Some new)) by (unfold T; rewrite root_plug; reflexivity). rewrite <- Er. exact H6.
    - rewrite E1. exact C6.
    - rewrite E1. rewrite <- headof_none. unfold l1'. rewrite !headof_app. cbn [headof]. destruct (map fst (before c)); [|reflexivity]. destruct (addrs l); reflexivity.
    - rewrite E1. exact Et.
    - unfold c1. cbn [fits_height]. split; [exact Bl|]. split; [lia|]. split; [lia|]. rewrite N.max_comm. exact B3.
    - unfold near. lia.
    - unfold c1. cbn [plug]. pose proof (size_entries (plug c (Fork l q y (Fork Leaf new (item g) Leaf)))) as Z1. pose proof (size_entries T) as Z2. unfold T in Z2 at 2.
      rewrite entries_plug in Z1, Z2. rewrite !app_length in Z1, Z2. cbn [entries] in Z1, Z2. rewrite !app_length in Z1, Z2. cbn [app length] in Z1, Z2. rewrite Z1. lia.
    - exists s'. split; [exact E|]. split; [exact Hr|]. split; [|rewrite Hl; reflexivity]. intros z D. rewrite Hf.
      + unfold h0. cbn [allocated with_cells cells get]. destruct (Nat.eqb_spec z new) as [->|_]; [exfalso; apply D; left; reflexivity|reflexivity].
      + intros I. apply D. destruct I as [I|I]; [left; exact I|right]. unfold c1 in I. cbn [caddrs] in I. rewrite AT. unfold T in AT. rewrite <- AT.
        apply (Permutation_in z (Permutation_sym (caddrs_plug c (Fork l q y Leaf)))). cbn [addrs]. apply in_or_app. destruct I as [I|I]; [right; apply in_or_app; right; left; exact I|].
        apply in_app_or in I as [I|I]; [right; apply in_or_app; left; exact I|left; exact I]. }
  assert (NN : NoDup ((l1' ++ [q]) ++ new :: l2)).
  { rewrite <- app_assoc. cbn [app]. apply (Permutation_NoDup (l := new :: l1' ++ q :: l2)); [|constructor; assumption].
    rewrite Permutation_middle. apply Permutation_app_head. constructor. }
  assert (C1 : chain K None ((l1' ++ [q]) ++ l2) None) by (rewrite <- app_assoc; exact C0).
  assert (L1 : lastof (l1' ++ [q]) None = Some q) by (rewrite lastof_app; reflexivity).
  destruct l2 as [|w l2'] eqn:El2; cbn [headof].
  - cbn [bind]. apply (set_tail_ok _ _ _ _ _ _ _ (Some new)) in H.
    eapply set_next_ok in H; [|mem (Cell q (owner c) (root l) None y (size (Fork l q y Leaf)) (height (Fork l q y Leaf))); left; reflexivity|cbn beta; rewrite Dq; exact Kq]. finish_op H.
    did set_right_ok H. apply (Fr _ _ _ H).
    + rewrite lastof_app. reflexivity.
    + apply (chain_insert K _ (l1' ++ [q]) [] new); [exact NN|exact C1|..]; rewrite ?L1; cbn [headof]; cbn beta.
      * rewrite (Nat.eqb_sym new q), Dq, Nat.eqb_refl. reflexivity.
      * intros u k E Ku. assert (u = q) by congruence. subst u. rewrite Nat.eqb_refl. rewrite Kq in Ku. injection Ku as <-. reflexivity.
      * intros u k E. discriminate.
      * intros z D1 _ D3. destruct (Nat.eqb_spec z q); [congruence|]. destruct (Nat.eqb_spec z new); [contradiction|reflexivity].
  - assert (Kw : exists b, K w = Some (Some q, b)) by (apply chain_app in C1; destruct C1 as [_ C1]; rewrite L1 in C1; destruct C1 as [C1 _]; eexists; exact C1). destruct Kw as [b Kw].
    assert (Dw : Nat.eqb w new = false) by (apply Nat.eqb_neq; intros ->; apply Nn, in_or_app; right; right; left; reflexivity).
    assert (Dwq : Nat.eqb q w = false).
    { apply Nat.eqb_neq. intros ->. apply NoDup_remove_2 in NT. apply NT, in_or_app. right. left; reflexivity. }
    eapply set_prev_ok in H; [|mem (Seg c None (Some q)); apply after_caddrs; fold l2; rewrite El2; left; reflexivity|cbn beta; rewrite Dw; exact Kw]. finish_op H.
    eapply set_next_ok in H; [|mem (Cell q (owner c) (root l) None y (size (Fork l q y Leaf)) (height (Fork l q y Leaf))); left; reflexivity|cbn beta; rewrite Dwq, Dq; exact Kq]. finish_op H.
    did set_right_ok H. apply (Fr _ _ _ H).
    + rewrite <- lastof_none. rewrite !lastof_app. reflexivity.
    + apply (chain_insert K _ (l1' ++ [q]) (w :: l2') new); [exact NN|exact C1|..]; rewrite ?L1; cbn [headof]; cbn beta.
      * rewrite (Nat.eqb_sym new q), Dq, (Nat.eqb_sym new w), Dw, Nat.eqb_refl. reflexivity.
      * intros u k E Ku. assert (u = q) by congruence. subst u. rewrite Nat.eqb_refl. rewrite Kq in Ku. injection Ku as <-. reflexivity.
      * intros u k E Ku. assert (u = w) by congruence. subst u. rewrite (Nat.eqb_sym w q), Dwq, Nat.eqb_refl. rewrite Kw in Ku. injection Ku as <-. reflexivity.
      * intros z D1 D2 D3. destruct (Nat.eqb_spec z q); [congruence|]. destruct (Nat.eqb_spec z w); [congruence|]. destruct (Nat.eqb_spec z new); [contradiction|reflexivity].
Qed.

Lemma insert_before_ok : forall fuel s c q y r new g, represents s (plug c (Fork Leaf q y r)) -> get (cells s) new = None -> (size (plug c (Fork Leaf q y r)) + 1 < 2 ^ 64)%N ->
  exists s', avl_node_insert (S fuel) true (allocated s new g) (Some q) new = Ok s' /\
    represents s' (up (InLeft q y r :: c) (Fork Leaf new (item g) Leaf)) /\
    frame_kept (cells s) (cells s') (new :: addrs (plug c (Fork Leaf q y r))) /\ length (cells s') = S (length (cells s)).
Proof.
  intros fuel s c q y r new g R F Sz. set (T := plug c (Fork Leaf q y r)) in *. set (c1 := InLeft q y r :: c).
  pose proof (represents_chain _ _ R) as C.
  set (l1 := map fst (before c)) in *. set (l2' := addrs r ++ map fst (after c)) in *.
  assert (AT : addrs T = l1 ++ q :: l2') by (unfold T; rewrite addrs_plug; reflexivity). rewrite AT in C.
  assert (NT : NoDup (l1 ++ q :: l2')) by (rewrite <- AT; apply R).
  assert (Nn : ~ In new (l1 ++ q :: l2')).
  { rewrite <- AT. intros I. destruct R as [_ [M _]]. apply (sub_live _ _ _ _ M I F). }
  set (K := link (cells (allocated s new g))). assert (C0 : chain K None (l1 ++ q :: l2') None).
  { apply (chain_ext (link (cells s))); [|exact C]. intros z I. apply link_alloc. intros ->. exact (Nn I). }
  assert (Kq : K q = Some (lastof l1 None, headof l2' None)) by (apply chain_app in C0; destruct C0 as [_ [C0' _]]; exact C0').
  assert (Kn : K new = Some (prev g, next g)) by apply link_new.
  assert (Dq : Nat.eqb q new = false) by (apply Nat.eqb_neq; intros ->; apply Nn, in_or_app; right; left; reflexivity).
  pose proof (holds_new s T new g R F) as H. fold K in H. set (h0 := cells (allocated s new g)) in *. rewrite AT in H.
  bs T H. unfold T in H at 2. apply split_sub in H. rewrite above_none in H. apply unfold_sub in H. pl 1%nat H. apply drop_leaf in H. cbn [root] in H.
  cbn [avl_node_insert].
  edestruct read_both as [n [Rn [_ [En _]]]]; [exact H|exact Kq|]. rewrite Rn. cbn [bind]. rewrite En. clear n Rn En.
  bc new H. did clear_ok H.
  eapply set_next_ok in H; [|mem (Cell new (parent g) None None (item g) 1 1); left; reflexivity|exact Kn]. finish_op H.
  did set_parent_ok H. bc q H.
  edestruct read_both as [n [Rn [_ [_ [_ [_ [En _]]]]]]]; [exact H|cbn beta; rewrite Dq; exact Kq|]. rewrite Rn. cbn [bind]. rewrite En. clear n Rn En.
  bc new H. eapply set_prev_ok in H; [|mem (Cell new (Some q) None None (item g) 1 1); left; reflexivity|cbn beta; rewrite Nat.eqb_refl; reflexivity]. finish_op H.
  bc q H. edestruct read_both as [n [Rn [_ [_ [_ [_ [En _]]]]]]]; [exact H|cbn beta; rewrite Dq; exact Kq|]. rewrite Rn. cbn [bind]. rewrite En. clear n Rn En.
  assert (Fr : forall s6 K1 hd1, holds h0 K1 hd1 (last_opt (l1 ++ q :: l2')) (root T) s6
      [Cell q (owner c) (Some new) (root r) y (size (Fork Leaf q y r)) (height (Fork Leaf q y r)); Cell new (Some q) None None (item g) 1 1; Sub (Some q) r; Seg c None (Some q)] ->
      hd1 = headof (l1 ++ new :: q :: l2') None -> chain K1 None (l1 ++ new :: q :: l2') None ->
      exists s', avl_rebalance s6 (Some q) = Ok s' /\ represents s' (up c1 (Fork Leaf new (item g) Leaf)) /\
        frame_kept (cells s) (cells s') (new :: addrs T) /\ length (cells s') = S (length (cells s))).
  { intros s6 K1 hd1 H6 Et C6. bg c H6. bs r H6. bc q H6. rewrite <- above_none in H6. apply fold_left_seg in H6. bc new H6.
    assert (B : balanced T) by apply R. unfold T in B. apply balanced_plug in B. destruct B as [[_ [Br [B1 B2]]] B3]. cbn [height] in B3. change (height Leaf) with 0%N in *.
    assert (E1 : map fst (before c1) ++ new :: map fst (after c1) = l1 ++ new :: q :: l2') by (unfold c1, l1, l2'; cbn [before after map fst]; rewrite map_app, addrs_entries; reflexivity).
    destruct (finish_insert c1 0 h0 K1 hd1 (last_opt (l1 ++ q :: l2')) s6 new (item g)) as [s' [E [Hr [Hf Hl]]]].
    - assert (Er : root T = segroot c1 (Some new)) by (unfold T; rewrite root_plug; reflexivity). rewrite <- Er. exact H6.
    - rewrite E1. exact C6.
    - rewrite E1. exact Et.
    - rewrite E1. rewrite <- lastof_none. rewrite !lastof_app. reflexivity.
    - unfold c1. cbn [fits_height]. split; [exact Br|]. split; [lia|]. split; [lia|]. exact B3.
    - unfold near. lia.
    - unfold c1. cbn [plug]. pose proof (size_entries (plug c (Fork (Fork Leaf new (item g) Leaf) q y r))) as Z1. pose proof (size_entries T) as Z2. unfold T in Z2 at 2.
      rewrite entries_plug in Z1, Z2. rewrite !app_length in Z1, Z2. cbn [entries] in Z1, Z2. cbn [app length] in Z1, Z2. rewrite Z1. lia.
    - exists s'. split; [exact E|]. split; [exact Hr|]. split; [|rewrite Hl; reflexivity]. intros z D. rewrite Hf.
      + unfold h0. cbn [allocated with_cells cells get]. destruct (Nat.eqb_spec z new) as [->|_]; [exfalso; apply D; left; reflexivity|reflexivity].
      + intros I. apply D. destruct I as [I|I]; [left; exact I|right]. unfold c1 in I. cbn [caddrs] in I. unfold T.
        apply (Permutation_in z (Permutation_sym (caddrs_plug c (Fork Leaf q y r)))). cbn [addrs app]. apply in_or_app. destruct I as [I|I]; [right; left; exact I|].
        apply in_app_or in I as [I|I]; [right; right; exact I|left; exact I]. }
  assert (NN : NoDup (l1 ++ new :: q :: l2')).
  { apply (Permutation_NoDup (l := new :: l1 ++ q :: l2')); [apply Permutation_middle|constructor; assumption]. }
  destruct (lastof l1 None) as [w|] eqn:El1.
  - assert (Kw : exists b, K w = Some (b, Some q)).
    { destruct l1 as [|z l1' _] eqn:E using rev_ind; [discriminate|]. rewrite lastof_app in El1. cbn [lastof] in El1. injection El1 as ->. rewrite <- app_assoc in C0. apply chain_app in C0. destruct C0 as [_ [C0 _]].
      eexists. exact C0. }
    destruct Kw as [b Kw]. destruct (lastof_in _ _ _ El1) as [Iw|[_ Iw]]; [|discriminate].
    assert (Dw : Nat.eqb w new = false) by (apply Nat.eqb_neq; intros ->; apply Nn, in_or_app; left; exact Iw).
    assert (Dwq : Nat.eqb q w = false) by (apply Nat.eqb_neq; intros ->; apply NoDup_remove_2 in NT; apply NT, in_or_app; left; exact Iw).
    eapply set_next_ok in H; [|mem (Seg c None (Some q)); apply before_caddrs; exact Iw|cbn beta; rewrite Dw; exact Kw]. finish_op H.
    eapply set_prev_ok in H; [|mem (Cell q (owner c) None (root r) y (size (Fork Leaf q y r)) (height (Fork Leaf q y r))); left; reflexivity|cbn beta; rewrite Dwq, Dq; exact Kq]. finish_op H.
    did set_left_ok H. apply (Fr _ _ _ H).
    + rewrite <- headof_none. rewrite !headof_app. cbn [headof]. destruct l1; [destruct Iw|reflexivity].
    + apply (chain_insert K _ l1 (q :: l2') new); [exact NN|exact C0|..]; rewrite ?El1; cbn [headof]; cbn beta.
      * rewrite (Nat.eqb_sym new q), Dq, (Nat.eqb_sym new w), Dw, Nat.eqb_refl. reflexivity.
      * intros u k E Ku. assert (u = w) by congruence. subst u. rewrite (Nat.eqb_sym w q), Dwq, Nat.eqb_refl. rewrite Kw in Ku. injection Ku as <-. reflexivity.
      * intros u k E Ku. assert (u = q) by congruence. subst u. rewrite Nat.eqb_refl. rewrite Kq in Ku. injection Ku as <-. reflexivity.
      * intros z D1 D2 D3. destruct (Nat.eqb_spec z q); [congruence|]. destruct (Nat.eqb_spec z w); [congruence|]. destruct (Nat.eqb_spec z new); [contradiction|reflexivity].
  - cbn [bind]. apply (set_head_ok _ _ _ _ _ _ _ (Some new)) in H.
    assert (E0 : l1 = []) by (destruct l1 as [|z l1' _] using rev_ind; [reflexivity|]; rewrite lastof_app in El1; discriminate).
    eapply set_prev_ok in H; [|mem (Cell q (owner c) None (root r) y (size (Fork Leaf q y r)) (height (Fork Leaf q y r))); left; reflexivity|cbn beta; rewrite Dq; exact Kq]. finish_op H.
    did set_left_ok H. apply (Fr _ _ _ H).
    + rewrite E0. reflexivity.
    + apply (chain_insert K _ l1 (q :: l2') new); [exact NN|exact C0|..]; rewrite ?El1; cbn [headof]; cbn beta.
      * rewrite (Nat.eqb_sym new q), Dq, Nat.eqb_refl. reflexivity.
      * intros u k E. discriminate.
      * intros u k E Ku. assert (u = q) by congruence. subst u. rewrite Nat.eqb_refl. rewrite Kq in Ku. injection Ku as <-. reflexivity.
      * intros z _ D2 D3. destruct (Nat.eqb_spec z q); [congruence|]. destruct (Nat.eqb_spec z new); [contradiction|reflexivity].
Qed.

Lemma insert_top_ok : forall s new g, represents s Leaf -> get (cells s) new = None ->
  exists s', avl_insert_top (allocated s new g) new = Ok s' /\ represents s' (Fork Leaf new (item g) Leaf) /\ frame_kept (cells s) (cells s') [new] /\ length (cells s') = S (length (cells s)).
Proof.
  intros s new g R F. pose proof (holds_new s Leaf new g R F) as H. unfold avl_insert_top. pl 1%nat H. apply drop_leaf in H. did clear_ok H. did set_parent_ok H.
  eapply set_next_ok in H; [|left; reflexivity|apply link_new]. finish_op H.
  eapply set_prev_ok in H; [|left; reflexivity|cbn beta; rewrite Nat.eqb_refl; reflexivity]. finish_op H.
  eexists. split; [reflexivity|]. match type of H with holds ?h0 ?K _ _ _ ?s3 _ => assert (H' : holds h0 K (Some new) (Some new) (Some new) (Avl A (cells s3) (Some new) (Some new) (Some new)) [Cell new None None None (item g) 1 1]) end.
  { destruct H as [H1 H2 H3 H4 H5 H6 H7 H8]. split; auto. }
  apply (add_leaf (Some new)) in H'. apply (add_leaf (Some new)) in H'. bc new H'. apply (fold_sub _ _ _ _ _ _ _ Leaf new (item g) Leaf) in H'. split; [|split].
  - apply (represents_of _ _ _ _ _ (Fork Leaf new (item g) Leaf) H'); try reflexivity; cbn [addrs app chain headof balanced height]; [|lia..]. cbn beta. rewrite Nat.eqb_refl. auto.
  - intros q D. pose proof (holds_frame _ _ _ _ _ _ _ H' q) as Q. cbn [flat_map paddrs addrs app cells] in *. rewrite Q by exact D. cbn [allocated with_cells cells get].
    destruct (Nat.eqb_spec q new) as [->|_]; [exfalso; apply D; left; reflexivity|reflexivity].
  - pose proof (holds_length _ _ _ _ _ _ _ H') as Q. cbn [cells] in *. rewrite Q. reflexivity.
Qed.

Definition last_addr (e : list (nat * A)) : option nat := option_map fst (last_opt e).
Lemma lastof_addr : forall e : list (nat * A), lastof (map fst e) None = last_addr e.
Proof. intros e. rewrite lastof_none. unfold last_addr, last_opt. rewrite <- map_rev. destruct (rev e); reflexivity. Qed.

Lemma insert_after_right : forall fuel s q n z new, read s q = Ok n -> right n = Some z -> avl_node_insert (S fuel) false s (Some q) new = avl_node_insert fuel true s (next n) new.
Proof. intros fuel s q n z new R E. cbn [avl_node_insert]. rewrite R. cbn [bind]. rewrite E. reflexivity. Qed.
Lemma insert_node_ok : forall s t e1 e2 new g, represents s t -> entries t = e1 ++ e2 -> get (cells s) new = None -> (size t + 1 < 2 ^ 64)%N ->
  exists s' t', avl_node_insert_after (allocated s new g) (last_addr e1) new = Ok s' /\ represents s' t' /\ entries t' = e1 ++ (new, item g) :: e2 /\
    frame_kept (cells s) (cells s') (new :: addrs t) /\ length (cells s') = S (length (cells s)).
Proof.
  intros s t e1 e2 new g R E F Sz. unfold avl_node_insert_after. cbn [allocated with_cells cells length]. fold (allocated s new g).
  assert (Ln : (length (addrs t) <= length (cells s))%nat) by (apply live_length; [apply R|]; intros q I; destruct R as [_ [M _]]; apply (sub_live _ _ _ _ M I)).
  destruct e1 as [|[q y] e1' _] eqn:Ee using rev_ind.
  - cbn [last_addr last_opt rev option_map]. cbn [app] in *. cbn [avl_node_insert]. cbn [allocated with_cells head]. fold (allocated s new g). destruct t as [|l0 q0 y0 r0] eqn:Et.
    + destruct R as [R1 [R2 [R3 [R4 [R5 R6]]]]]. rewrite R5. cbn [addrs hd_error]. destruct (insert_top_ok s new g) as [s' [E1 [E2 [E3 E4]]]]; [repeat (split; auto)|exact F|].
      exists s', (Fork Leaf new (item g) Leaf). split; [exact E1|]. split; [exact E2|]. cbn [entries] in *. subst e2. split; [reflexivity|]. split; [exact E3|exact E4].
    + rewrite <- Et in *. destruct (leftmost t ltac:(congruence)) as [c [q [y [r [Ht Hb]]]]].
      assert (Ea : addrs t = q :: addrs r ++ map fst (after c)) by (rewrite Ht, addrs_plug, Hb; reflexivity).
      pose proof R as [_ [_ [_ [_ [R5 _]]]]]. rewrite R5, Ea. cbn [hd_error]. rewrite Ea in Ln. cbn [length] in Ln. destruct (length (cells s)) as [|fuel] eqn:El; [lia|].
      rewrite Ht in R, Sz. destruct (insert_before_ok fuel s c q y r new g R F Sz) as [s' [E1 [E2 [E3 E4]]]].
      exists s', (up (InLeft q y r :: c) (Fork Leaf new (item g) Leaf)). split; [exact E1|]. split; [exact E2|]. split; [|split; [rewrite <- Ea, Ht; exact E3|congruence]].
      rewrite up_entries. cbn [before after]. rewrite Hb. cbn [app]. rewrite <- E, Ht, entries_plug, Hb. reflexivity.
  - rewrite <- app_assoc in E. cbn [app] in E. destruct (locate _ _ _ _ _ E) as [c [l [r [Ht [Hb Ha]]]]].
    assert (La : last_addr (e1' ++ [(q, y)]) = Some q) by (unfold last_addr, last_opt; rewrite rev_app_distr; reflexivity). rewrite La.
    destruct (match r with Leaf => true | Fork _ _ _ _ => false end) eqn:Er.
    + assert (r = Leaf) by (destruct r; [reflexivity|discriminate]). subst r. rewrite Ht in R, Sz.
      destruct (insert_after_ok (length (cells s)) s c l q y new g R F Sz) as [s' [E1 [E2 [E3 E4]]]].
      exists s', (up (InRight l q y :: c) (Fork Leaf new (item g) Leaf)). split; [exact E1|]. split; [exact E2|]. split; [|split; [rewrite Ht; exact E3|exact E4]].
      rewrite up_entries. cbn [before after]. rewrite (app_assoc (before c)), Hb. cbn [entries app] in *. rewrite Ha. reflexivity.
    + destruct (leftmost r ltac:(intros ->; discriminate)) as [c' [q' [y' [r' [Hr Hb']]]]].
      assert (Ht' : t = plug (c' ++ InRight l q y :: c) (Fork Leaf q' y' r')) by (rewrite plug_app, <- Hr; exact Ht).
      assert (Ea : addrs t = (map fst (before c) ++ addrs l) ++ q :: q' :: addrs r' ++ map fst (after c') ++ map fst (after c)).
      { rewrite Ht, addrs_plug. cbn [addrs]. rewrite Hr, addrs_plug, Hb'. cbn [map app addrs]. rewrite <- !app_assoc. cbn [app]. rewrite <- !app_assoc. reflexivity. }
      rewrite Ea, app_length in Ln. cbn [length] in Ln. destruct (length (cells s)) as [|fuel] eqn:El; [lia|].
      pose proof (holds_new s t new g R F) as H. bs t H. rewrite Ht in H at 4. apply split_sub in H. apply unfold_sub in H.
      pose proof (represents_chain _ _ R) as C.
      assert (C0 : chain (link (cells (allocated s new g))) None (addrs t) None).
      { apply (chain_ext (link (cells s))); [|exact C]. intros z I. apply link_alloc. intros ->. destruct R as [_ [M _]]. apply (sub_live _ _ _ _ M I F). }
      rewrite Ea in C0. apply chain_app in C0. destruct C0 as [_ [C0 _]].
      destruct (read_both _ _ _ _ _ _ _ _ _ _ _ _ _ _ _ _ H C0) as [n [Rn [_ [_ [En [_ [_ En2]]]]]]]. cbn [headof] in En2.
      assert (Sn : exists z, segroot c' (Some q') = Some z) by (clear; generalize q'; induction c' as [|[? ? ?|? ? ?] c' IH]; intros z; cbn [segroot]; eauto).
      destruct Sn as [z Ez]. rewrite Hr, root_plug in En. cbn [root] in En. rewrite Ez in En. rewrite (insert_after_right _ _ _ _ _ _ Rn En), En2.
      rewrite Ht' in R, Sz. destruct (insert_before_ok fuel s _ q' y' r' new g R F Sz) as [s' [E1 [E2 [E3 E4]]]].
      eexists s', _. split; [exact E1|]. split; [exact E2|]. split; [|split; [rewrite Ht'; exact E3|congruence]].
      rewrite up_entries. cbn [before after]. rewrite before_app, after_app, Hb', app_nil_r. cbn [before after entries app].
      rewrite (app_assoc (before c)), Hb. rewrite <- Ha, Hr, entries_plug, Hb'. cbn [entries app]. rewrite <- !app_assoc. reflexivity.
Qed.
End Avl2.
