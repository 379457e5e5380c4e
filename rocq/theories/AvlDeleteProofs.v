(** Proofs: deletion. *)
From Coq Require Import List Arith NArith ZArith Bool Lia Permutation.
Import ListNotations.
From Verif Require Import CBase MoModel AvlModel AvlSpec AvlTreeProofs AvlMemProofs AvlRebalProofs AvlInsertProofs.

Section Avl.
Context {A : Type}.
Implicit Types (h : heap A) (s : avl A) (t : tree A) (c : list (frame A)).

Lemma holds_restart : forall h0 K hd tl v s P (L : list (piece A)), holds h0 K hd tl v s (P :: L) -> holds (cells s) K hd tl v s L.
Proof.
  intros h0 K hd tl v s P L [H1 H2 H3 H4 H5 H6 H7 H8]. split; auto.
  - inversion H1; assumption.
  - cbn [flat_map] in H2. revert H2. induction (paddrs P) as [|q l IH]; cbn [app]; [auto|]. intros N. inversion N; auto.
Qed.
Lemma represents_frame : forall s t h', represents s t -> (forall q, In q (addrs t) -> get h' q = get (cells s) q) -> represents (with_cells s h') t.
Proof.
  intros s t h' [H1 [H2 [H3 [H4 [H5 [H6 [H7 H8]]]]]]] E. unfold represents. cbn [with_cells cells top head tail]. split; [exact H1|]. split.
  { apply (sub_frame _ (cells s)); [|exact H2]. intros q I. unfold same_fields. rewrite E by exact I. reflexivity. }
  split; [exact H3|]. split; [|auto]. apply linked_chain. apply linked_chain in H4. apply (chain_ext (link (cells s))); [|exact H4]. intros q I. unfold link. rewrite E by exact I. reflexivity.
Qed.

(** Taking a node out of the links *)
Definition unlink_links s (p : nat) : res (avl A) :=
  do n <- read s p;
  do s <- match prev n with
          | Some q => change s q (set_next (next n))
          | None => Ok (Avl A (cells s) (top s) (next n) (tail s))
          end;
  do n <- read s p;
  match next n with
  | Some q => change s q (set_prev (prev n))
  | None => Ok (Avl A (cells s) (top s) (head s) (prev n))
  end.
Lemma unlink_links_ok : forall h0 K hd tl v s (L : list (piece A)) l1 p l2, holds h0 K hd tl v s L -> NoDup (l1 ++ p :: l2) -> chain K None (l1 ++ p :: l2) None ->
  (forall q, In q (l1 ++ p :: l2) -> In q (flat_map paddrs L)) -> hd = headof (l1 ++ p :: l2) None -> tl = lastof (l1 ++ p :: l2) None ->
  exists s' K' hd' tl', unlink_links s p = Ok s' /\ holds h0 K' hd' tl' v s' L /\ chain K' None (l1 ++ l2) None /\ hd' = headof (l1 ++ l2) None /\ tl' = lastof (l1 ++ l2) None /\
    K' p = Some (lastof l1 None, headof l2 None).
Proof.
  intros h0 K hd tl v s L l1 p l2 H N C Mem Eh Et. assert (Kp : K p = Some (lastof l1 None, headof l2 None)) by (apply chain_app in C; destruct C as [_ [C _]]; exact C).
  assert (Np : ~ In p (l1 ++ l2)) by (apply NoDup_remove_2, N).
  unfold unlink_links. destruct (read_link _ _ _ _ _ _ _ _ _ _ H Kp) as [n [Rn [E1 E2]]]. rewrite Rn. cbn [bind]. rewrite E1, E2. clear n Rn E1 E2.
  (* the predecessor *)
  assert (S1 : exists s1 K1 hd1, (match lastof l1 None with Some q => change s q (set_next (headof l2 None)) | None => Ok (Avl A (cells s) (top s) (headof l2 None) (tail s)) end) = Ok s1 /\
            holds h0 K1 hd1 tl v s1 L /\ hd1 = headof (l1 ++ l2) None /\ (forall q, lastof l1 None <> Some q -> K1 q = K q) /\
            (forall u w, lastof l1 None = Some u -> K u = Some w -> K1 u = Some (fst w, headof l2 None))).
  { destruct (lastof l1 None) as [u|] eqn:El.
    - destruct (lastof_in _ _ _ El) as [Iu|[_ X]]; [|discriminate].
      assert (Ku : exists a, K u = Some (a, Some p)).
      { destruct l1 as [|z l1' _] using rev_ind; [discriminate|]. rewrite lastof_app in El. cbn [lastof] in El. assert (z = u) by congruence. subst z. rewrite <- app_assoc in C. apply chain_app in C.
        destruct C as [_ [C _]]. eexists. exact C. }
      destruct Ku as [a Ku]. pose proof H as H0. eapply set_next_ok in H0; [|apply Mem, in_or_app; left; exact Iu|exact Ku]. destruct H0 as [s1 [E H1]]. eexists s1, _, _. split; [exact E|]. split; [exact H1|].
      split; [rewrite Eh; destruct l1; [destruct Iu|reflexivity]|]. cbn beta. split.
      + intros q D. destruct (Nat.eqb_spec q u); [congruence|reflexivity].
      + intros u' w Eu Kw. assert (u' = u) by congruence. subst u'. rewrite Nat.eqb_refl. rewrite Ku in Kw. injection Kw as <-. reflexivity.
    - assert (E0 : l1 = []) by (destruct l1 as [|z l1' _] using rev_ind; [reflexivity|]; rewrite lastof_app in El; discriminate).
      eexists _, K, _. split; [reflexivity|]. split; [eapply set_head_ok, H|]. split; [rewrite E0; reflexivity|]. split; [auto|]. intros u w X. discriminate. }
  destruct S1 as [s1 [K1 [hd1 [E1 [H1 [Hh [F1 F2]]]]]]]. rewrite E1. cbn [bind]. clear E1 H.
  assert (Dp : lastof l1 None <> Some p) by (intros E; destruct (lastof_in _ _ _ E) as [I|[_ X]]; [apply Np, in_or_app; left; exact I|discriminate]).
  assert (Dp2 : headof l2 None <> Some p) by (intros E; destruct (headof_in _ _ _ E) as [I|[_ X]]; [apply Np, in_or_app; right; exact I|discriminate]).
  assert (K1p : K1 p = Some (lastof l1 None, headof l2 None)) by (rewrite F1; auto).
  destruct (read_link _ _ _ _ _ _ _ _ _ _ H1 K1p) as [n [Rn [E1 E2]]]. rewrite Rn. cbn [bind]. rewrite E1, E2. clear n Rn E1 E2.
  assert (Dis : forall u, lastof l1 None = Some u -> headof l2 None = Some u -> False).
  { intros u Eu1 Eu2. destruct (lastof_in _ _ _ Eu1) as [I1|[_ X]]; [|discriminate]. destruct (headof_in _ _ _ Eu2) as [I2|[_ X]]; [|discriminate].
    apply NoDup_remove_1 in N. apply in_split in I1 as [m1 [m2 ->]]. rewrite <- app_assoc in N. cbn [app] in N. apply NoDup_remove_2 in N. apply N. apply in_or_app; right. apply in_or_app; right. exact I2. }
  destruct (headof l2 None) as [w|] eqn:El2.
  - destruct (headof_in _ _ _ El2) as [Iw|[_ X]]; [|discriminate].
    assert (Kw : exists b, K w = Some (Some p, b)).
    { destruct l2 as [|z l2']; [discriminate|]. cbn [headof] in El2. assert (z = w) by congruence. subst z. apply chain_app in C. cbn [chain] in C. destruct C as [_ [_ [C _]]]. eexists. exact C. }
    destruct Kw as [b Kw]. assert (K1w : K1 w = Some (Some p, b)) by (rewrite F1; [exact Kw|]; intros E; apply (Dis w E eq_refl)).
    eapply set_prev_ok in H1; [|apply Mem, in_or_app; right; right; exact Iw|exact K1w]. destruct H1 as [s2 [E H2]]. eexists s2, _, _, _. split; [exact E|]. split; [exact H2|].
    split; [|split; [exact Hh|split]].
    + apply (chain_delete K _ l1 l2 p N C); cbn beta; rewrite ?El2.
      * intros u k Eu Ku. destruct (Nat.eqb_spec u w) as [->|_]; [exfalso; apply (Dis w Eu eq_refl)|]. apply F2; assumption.
      * intros u k Eu Ku. assert (u = w) by congruence. subst u. rewrite Nat.eqb_refl. rewrite Kw in Ku. injection Ku as <-. reflexivity.
      * intros q D1 D2 D3. destruct (Nat.eqb_spec q w); [congruence|]. apply F1, D1.
    + rewrite Et, !lastof_app. destruct l2; [destruct Iw|reflexivity].
    + cbn beta. destruct (Nat.eqb_spec p w); [congruence|]. rewrite K1p. reflexivity.
  - assert (E0 : l2 = []) by (destruct l2; [reflexivity|discriminate]).
    eexists _, K1, _, _. split; [reflexivity|]. split; [eapply set_tail_ok, H1|]. split; [|split; [exact Hh|split]].
    + apply (chain_delete K _ l1 l2 p N C); rewrite ?El2.
      * intros u k Eu Ku. apply F2; assumption.
      * intros u k Eu. discriminate.
      * intros q D1 D2 D3. apply F1, D1.
    + rewrite E0, app_nil_r. reflexivity.
    + exact K1p.
Qed.

(** Segments *)
Lemma seg_reparent : forall c h0 K hd tl v s par f w z (L : list (piece A)), holds h0 K hd tl v s (Seg c par f :: L) -> c <> [] -> segroot c f = Some z ->
  exists s', change s z (set_parent w) = Ok s' /\ holds h0 K hd tl v s' (Seg c w f :: L).
Proof.
  induction c as [|[p x r|l p x] c IH]; intros h0 K hd tl v s par f w z L H Nc Ez; [congruence| |]; cbn [segroot] in Ez.
  - apply unfold_left in H. destruct H as [k [d H]]. destruct c as [|f1 c].
    + cbn [segroot] in Ez. injection Ez as <-. eapply set_parent_ok in H. destruct H as [s' [E H]]. exists s'. split; [exact E|]. cbn [above] in H.
      pl 2%nat H. assert (H2 : holds h0 K hd tl v s' (Seg [] w (Some p) :: Cell p w f (root r) x k d :: Sub (Some p) r :: L)).
      { apply (holds_conv _ _ _ _ _ _ _ _ H); [|reflexivity]. pose proof (holds_ok _ _ _ _ _ _ _ H) as F. inversion F; subst. constructor; [exact I|assumption]. }
      pl 2%nat H2. pl 2%nat H2. apply (fold_left_seg _ _ _ _ _ _ p x r [] w f L k d) in H2. exact H2.
    + pl 2%nat H. destruct (IH _ _ _ _ _ _ _ _ w z _ H) as [s' [E H']]; [discriminate|exact Ez|]. exists s'. split; [exact E|]. pl 2%nat H'. pl 2%nat H'.
      assert (Ea : above (f1 :: c) par = above (f1 :: c) w) by (destruct f1; reflexivity). rewrite Ea in H'. apply fold_left_seg in H'. exact H'.
  - apply unfold_right in H. destruct H as [k [d H]]. destruct c as [|f1 c].
    + cbn [segroot] in Ez. injection Ez as <-. eapply set_parent_ok in H. destruct H as [s' [E H]]. exists s'. split; [exact E|]. cbn [above] in H.
      pl 2%nat H. assert (H2 : holds h0 K hd tl v s' (Seg [] w (Some p) :: Cell p w (root l) f x k d :: Sub (Some p) l :: L)).
      { apply (holds_conv _ _ _ _ _ _ _ _ H); [|reflexivity]. pose proof (holds_ok _ _ _ _ _ _ _ H) as F. inversion F; subst. constructor; [exact I|assumption]. }
      pl 2%nat H2. pl 2%nat H2. apply (fold_right_seg _ _ _ _ _ _ p x l [] w f L k d) in H2. exact H2.
    + pl 2%nat H. destruct (IH _ _ _ _ _ _ _ _ w z _ H) as [s' [E H']]; [discriminate|exact Ez|]. exists s'. split; [exact E|]. pl 2%nat H'. pl 2%nat H'.
      assert (Ea : above (f1 :: c) par = above (f1 :: c) w) by (destruct f1; reflexivity). rewrite Ea in H'. apply fold_right_seg in H'. exact H'.
Qed.
Lemma segroot_app : forall c c' f, segroot (c ++ c') f = segroot c' (segroot c f).
Proof. induction c as [|[p x r|l p x] c IH]; intros c' f; cbn [app segroot]; auto. Qed.
Lemma above_app : forall c c' par, above (c ++ c') par = above c (above c' par).
Proof. intros [|[p x r|l p x] c] c' par; reflexivity. Qed.
Lemma seg_join_mem : forall c c' h par f, seg h c (above c' par) f -> seg h c' par (segroot c f) -> seg h (c ++ c') par f.
Proof.
  induction c as [|[p x r|l p x] c IH]; intros c' h par f H1 H2; cbn [app seg segroot] in *; [exact H2| |]; rewrite above_app; destruct H1 as [C [R S]]; (split; [exact C|split; [exact R|apply IH; assumption]]).
Qed.
Lemma caddrs_app : forall c c', caddrs (c ++ c') = caddrs c ++ caddrs c'.
Proof. induction c as [|[p x r|l p x] c IH]; intros c'; cbn [app caddrs]; [reflexivity| |]; rewrite IH, <- app_assoc; reflexivity. Qed.
Lemma seg_join : forall c c' h0 K hd tl v s par f (L : list (piece A)), holds h0 K hd tl v s (Seg c (above c' par) f :: Seg c' par (segroot c f) :: L) -> holds h0 K hd tl v s (Seg (c ++ c') par f :: L).
Proof.
  intros c c' h0 K hd tl v s par f L H. apply (holds_conv _ _ _ _ _ _ _ _ H).
  - pose proof (holds_ok _ _ _ _ _ _ _ H) as F. inversion F as [|? ? F1 F2]; subst. inversion F2 as [|? ? F3 F4]; subst. constructor; [|exact F4]. cbn [ok] in *. apply seg_join_mem; assumption.
  - cbn [flat_map paddrs]. rewrite caddrs_app, <- app_assoc. reflexivity.
Qed.

Definition unlink_rest s (p : nat) : res (avl A) :=
  do n <- read s p;
  let par := parent n in
  do sp <- superparent s p par;
  match left n, right n with
  | None, r =>
    do s <- store s sp r;
    do s <- adopt s r par;
    avl_rebalance s par
  | Some l, None =>
    do s <- store s sp (Some l);
    do s <- change s l (set_parent par);
    avl_rebalance s par
  | Some l, Some r =>
    do subst <- deref (prev n);
    do (s, bal) <-
      (if Nat.eqb subst l then Ok (s, subst)
       else
         do sn <- read s subst;
         do bal <- deref (parent sn);
         do s <- change s bal (set_right (left sn));
         do bn <- read s bal;
         do s <- adopt s (right bn) (Some bal);
         do s <- change s subst (set_left (Some l));
         do s <- change s l (set_parent (Some subst));
         Ok (s, bal));
    do s <- change s subst (set_right (Some r));
    do s <- change s subst (set_parent par);
    do s <- change s r (set_parent (Some subst));
    do s <- store s sp (Some subst);
    avl_rebalance s (Some bal)
  end.
Lemma unlink_split : forall s p, avl_node_unlink s p = bind (unlink_links s p) (fun s => unlink_rest s p).
Proof.
  intros s p. unfold avl_node_unlink, unlink_links, unlink_rest. destruct (read s p) as [n| |]; cbn [bind]; [|reflexivity|reflexivity].
  match goal with |- context [bind ?m _] => destruct m as [s1| |] end; cbn [bind]; [|reflexivity|reflexivity].
  destruct (read s1 p) as [n1| |]; cbn [bind]; [|reflexivity|reflexivity].
  match goal with |- context [bind ?m _] => destruct m as [s2| |] end; cbn [bind]; reflexivity.
Qed.

Lemma fits_swap : forall c p x q y r c0 k, fits_height (c ++ InLeft p x r :: c0) k -> fits_height (c ++ InLeft q y r :: c0) k.
Proof. intros c p x q y r c0 k H. apply fits_app in H. apply fits_app. exact H. Qed.
Lemma nodup_l : forall l1 l2 : list nat, NoDup (l1 ++ l2) -> NoDup l1.
Proof.
  induction l1 as [|q l1 IH]; intros l2 N; [constructor|]. cbn [app] in N. inversion N as [|? ? M1 M2]; subst. constructor; [intros I; apply M1, in_or_app; left; exact I|apply (IH _ M2)].
Qed.
Lemma after_nil : forall c f, after (f :: c) = [] -> exists l p x, f = InRight l p x /\ after c = [].
Proof. intros c [p x r|l p x] E; cbn [after] in E; [discriminate|]. exists l, p, x. auto. Qed.

Lemma finish_delete : forall c k h0 K hd tl s t p par lp rp x k0 d0,
  holds h0 K hd tl (segroot c (root t)) s [Cell p par lp rp x k0 d0; Sub (owner c) t; Seg c None (root t)] ->
  fits_height c k -> balanced t -> near k (height t) -> (size (plug c t) < 2 ^ 64)%N ->
  exists s' t' h1, avl_rebalance s (owner c) = Ok s' /\ holds h1 K hd tl (root t') s' [Sub None t'] /\ balanced t' /\ entries t' = before c ++ entries t ++ after c /\
    (forall q, q <> p -> ~ In q (addrs (plug c t)) -> get (cells s') q = get h0 q).
Proof.
  intros c k h0 K hd tl s t p par lp rp x k0 d0 H F B N Sz. pose proof (holds_restart _ _ _ _ _ _ _ _ H) as H1.
  destruct (rebalance_ok c _ _ _ _ _ t k H1 F B N Sz) as [s' [E H2]]. exists s', (up c t), (cells s). split; [exact E|]. split; [exact H2|]. split; [apply (up_balanced c t k F B N)|].
  split; [apply up_entries|]. intros q Dq D. rewrite (holds_frame _ _ _ _ _ _ _ H2).
  - apply (holds_frame _ _ _ _ _ _ _ H). cbn [flat_map paddrs app]. rewrite app_nil_r. intros [I|I]; [congruence|]. apply D. apply (Permutation_in q (Permutation_sym (caddrs_plug c t))).
    apply in_or_app. apply in_app_or in I. tauto.
  - cbn [flat_map paddrs]. rewrite app_nil_r, addrs_up, <- addrs_plug. exact D.
Qed.

(** The part of the deletion after the links *)
Lemma unlink_rest_ok : forall h0 K hd tl s c l p x r k d e,
  holds h0 K hd tl (segroot c (Some p)) s [Cell p (owner c) (root l) (root r) x k d; Sub (Some p) l; Sub (Some p) r; Seg c None (Some p)] ->
  K p = Some (lastof (map fst (before c) ++ addrs l) None, e) ->
  balanced (plug c (Fork l p x r)) -> (size (plug c (Fork l p x r)) < 2 ^ 64)%N ->
  exists s' t' h1, unlink_rest s p = Ok s' /\ holds h1 K hd tl (root t') s' [Sub None t'] /\ balanced t' /\ entries t' = before c ++ entries l ++ entries r ++ after c /\
    (forall q, ~ In q (addrs (plug c (Fork l p x r))) -> get (cells s') q = get h0 q).
Proof.
  intros h0 K hd tl s c l p x r k d e H Kp B Sz. unfold unlink_rest.
  assert (Np : ~ In p (caddrs c)).
  { pose proof (holds_nodup _ _ _ _ _ _ _ H) as N. cbn [flat_map paddrs app] in N. inversion N as [|? ? N1 N2]; subst. intros I. apply N1. apply in_or_app; right. apply in_or_app; right.
    rewrite app_nil_r. exact I. }
  destruct (read_both _ _ _ _ _ _ _ _ _ _ _ _ _ _ _ _ H Kp) as [n [R [E1 [E2 [E3 [_ [E5 _]]]]]]]. rewrite R. cbn [bind]. cbv zeta. rewrite E1, E2, E3, E5. clear E1 E2 E3 E5.
  pose proof H as H'. pl 3%nat H'. rewrite (superparent_ok _ _ _ _ _ _ _ _ _ H' Np). clear H'. cbn [bind].
  pose proof B as B'. apply balanced_plug in B'. destruct B' as [[Bl [Br [D1 D2]]] Fh]. cbn [height] in Fh.
  assert (Ea : addrs (plug c (Fork l p x r)) = map fst (before c ++ entries l ++ (p, x) :: entries r ++ after c)).
  { rewrite addrs_entries, entries_plug. cbn [entries]. rewrite <- !app_assoc. reflexivity. }
  assert (En : forall c2 t2, before c2 ++ entries t2 ++ after c2 = before c ++ entries l ++ entries r ++ after c -> (size (plug c2 t2) < 2 ^ 64)%N /\
     (forall q, ~ In q (addrs (plug c (Fork l p x r))) -> q <> p /\ ~ In q (addrs (plug c2 t2)))).
  { intros c2 t2 E. split.
    - rewrite size_entries, entries_plug, E. rewrite size_entries, entries_plug in Sz. cbn [entries] in Sz. rewrite !app_length in *. cbn [length] in Sz. lia.
    - intros q D. rewrite Ea in D. split; [intros ->; apply D, in_map_iff; exists (p, x); split; [reflexivity|]; apply in_or_app; right; apply in_or_app; right; left; reflexivity|].
      rewrite (addrs_entries (plug c2 t2)), entries_plug, E. intros I. apply D. rewrite !map_app in *. cbn [map]. rewrite map_app.
      apply in_app_or in I as [I|I]; [apply in_or_app; left; exact I|]. apply in_or_app; right. apply in_app_or in I as [I|I]; [apply in_or_app; left; exact I|]. apply in_or_app; right. right. exact I. }
  assert (Sml : forall c2 k2 t2 s1 par lp rp k1 d1, holds h0 K hd tl (segroot c2 (root t2)) s1 [Cell p par lp rp x k1 d1; Sub (owner c2) t2; Seg c2 None (root t2)] ->
     fits_height c2 k2 -> balanced t2 -> near k2 (height t2) -> before c2 ++ entries t2 ++ after c2 = before c ++ entries l ++ entries r ++ after c ->
     exists s' t' h1, avl_rebalance s1 (owner c2) = Ok s' /\ holds h1 K hd tl (root t') s' [Sub None t'] /\ balanced t' /\ entries t' = before c ++ entries l ++ entries r ++ after c /\
       (forall q, ~ In q (addrs (plug c (Fork l p x r))) -> get (cells s') q = get h0 q)).
  { intros c2 k2 t2 s1 par lp rp k1 d1 H1 F2 B2 N2 E2. destruct (En c2 t2 E2) as [S2 D3]. destruct (finish_delete c2 k2 _ _ _ _ _ _ _ _ _ _ _ _ _ H1 F2 B2 N2 S2) as [s' [t' [h1 [G1 [G2 [G3 [G4 G5]]]]]]].
    exists s', t', h1. split; [exact G1|]. split; [exact G2|]. split; [exact G3|]. split; [rewrite G4; exact E2|]. intros q D. destruct (D3 q D). apply G5; assumption. }
  destruct l as [|ll pl0 xl lr].
  - cbn [root]. bg c H. did store_ok H. bs r H. did adopt_ok H. bs (Leaf (A := A)) H. apply drop_leaf in H. bg c H. bs r H. bc p H.
    apply (Sml c _ r _ _ _ _ _ _ H Fh Br); [|reflexivity]. unfold near. cbn [height] in *. lia.
  - destruct r as [|rl pr0 xr rr].
    + cbn [root]. bg c H. did store_ok H. bs (Fork ll pl0 xl lr) H. apply unfold_sub in H. did set_parent_ok H. apply fold_sub in H. bs (Leaf (A := A)) H. apply drop_leaf in H.
      bg c H. bs (Fork ll pl0 xl lr) H. bc p H.
      apply (Sml c _ (Fork ll pl0 xl lr) _ _ _ _ _ _ H Fh Bl); [|reflexivity]. unfold near. cbn [height] in *. lia.
    + destruct (rightmost (Fork ll pl0 xl lr) ltac:(discriminate)) as [c' [la [sx [y [El Ec']]]]].
      assert (Elast : lastof (map fst (before c) ++ addrs (Fork ll pl0 xl lr)) None = Some sx).
      { rewrite El, addrs_plug, Ec'. cbn [addrs map]. rewrite app_nil_r, !lastof_app. reflexivity. }
      rewrite Elast in *. cbn [root deref bind]. set (r := Fork rl pr0 xr rr) in *.
      assert (Rl : segroot c' (Some sx) = Some pl0) by (assert (Q : root (Fork ll pl0 xl lr) = segroot c' (Some sx)) by (rewrite El, root_plug; reflexivity); rewrite <- Q; reflexivity).
      assert (Ff : fits_height (c' ++ InLeft sx y r :: c) (height (Fork la sx y Leaf)) /\ balanced la /\ near (height (Fork la sx y Leaf)) (height la)).
      { rewrite El in B. change (plug c (Fork (plug c' (Fork la sx y Leaf)) p x r)) with (plug (InLeft p x r :: c) (plug c' (Fork la sx y Leaf))) in B. rewrite <- plug_app in B.
        apply balanced_plug in B. destruct B as [[Ba [_ [Q1 Q2]]] B]. split; [apply (fits_swap _ _ _ _ _ _ _ _ B)|]. split; [exact Ba|]. unfold near. cbn [height] in *. lia. }
      destruct Ff as [Ff [Ba Nr]].
      assert (Een : before (c' ++ InLeft sx y r :: c) ++ entries la ++ after (c' ++ InLeft sx y r :: c) = before c ++ entries (Fork ll pl0 xl lr) ++ entries r ++ after c).
      { rewrite before_app, after_app, Ec'. cbn [before after app]. rewrite El, entries_plug, Ec'. cbn [entries]. rewrite app_nil_r, <- !app_assoc. reflexivity. }
      specialize (Sml (c' ++ InLeft sx y r :: c) (height (Fork la sx y Leaf)) la). clear En.
      assert (Nd : NoDup (addrs (Fork ll pl0 xl lr))).
      { pose proof (holds_nodup _ _ _ _ _ _ _ H) as N. cbn [flat_map paddrs app] in N. inversion N as [|? ? N1 N2]; subst. exact (nodup_l _ _ N2). }
      (* the node that takes the place *)
      assert (Mid : exists s1 bal, (if Nat.eqb sx pl0 then Ok (s, sx) else
          do sn <- read s sx; do bal <- deref (parent sn); do s <- change s bal (set_right (left sn)); do bn <- read s bal; do s <- adopt s (right bn) (Some bal);
          do s <- change s sx (set_left (Some pl0)); do s <- change s pl0 (set_parent (Some sx)); Ok (s, bal)) = Ok (s1, bal) /\ owner (c' ++ InLeft sx y r :: c) = Some bal /\
          exists par k1 d1, holds h0 K hd tl (segroot c (Some p)) s1 [Cell p (owner c) (root (Fork ll pl0 xl lr)) (root r) x k d; Cell sx par (segroot c' (root la)) None y k1 d1;
             Sub (above c' (Some sx)) la; Seg c' (Some sx) (root la); Sub (Some p) r; Seg c None (Some p)]).
      { bs (Fork ll pl0 xl lr) H. rewrite El in H at 1. apply split_sub in H. apply unfold_sub in H. bs (Leaf (A := A)) H. apply drop_leaf in H. cbn [root] in H. destruct c' as [|f1 c1].
        - cbn [segroot] in Rl. injection Rl as <-. rewrite Nat.eqb_refl. exists s, sx. split; [reflexivity|]. split; [reflexivity|].
          exists (Some p), (size (Fork la sx y Leaf)), (height (Fork la sx y Leaf)). cbn [above segroot app].
          assert (H2 : holds h0 K hd tl (segroot c (Some p)) s [Seg [] (Some sx) (root la); Cell sx (Some p) (root la) None y (size (Fork la sx y Leaf)) (height (Fork la sx y Leaf));
            Sub (Some sx) la; Cell p (owner c) (root (Fork ll sx xl lr)) (root r) x k d; Sub (Some p) r; Seg c None (Some p)]).
          { pl 2%nat H. apply (holds_conv _ _ _ _ _ _ _ _ H); [|reflexivity]. pose proof (holds_ok _ _ _ _ _ _ _ H) as F. inversion F; subst. constructor; [exact I|assumption]. }
          bs la H2. bc sx H2. bc p H2. apply (holds_perm _ _ _ _ _ _ _ _ H2). do 3 constructor. reflexivity.
        - destruct (after_nil _ _ Ec') as [l1 [b [z [-> Ec1]]]].
          assert (Ds : Nat.eqb sx pl0 = false).
          { apply Nat.eqb_neq. intros ->. rewrite El in Nd. apply (Permutation_NoDup (caddrs_plug _ _)) in Nd.
            assert (Ip : In pl0 (caddrs (InRight l1 b z :: c1))).
            { clear -Rl. cbn [segroot] in Rl. assert (G : forall c f q, segroot c (Some f) = Some q -> q = f \/ In q (caddrs c)).
              { induction c as [|[? ? ?|? ? ?] c IH]; intros f q E; cbn [segroot caddrs] in *; [left; congruence| |]; destruct (IH _ _ E) as [->|I]; [right; left; reflexivity|right; right; apply in_or_app; right; exact I|
                 right; left; reflexivity|right; right; apply in_or_app; right; exact I]. }
              destruct (G _ _ _ Rl) as [->|I]; cbn [caddrs]; [left; reflexivity|right; apply in_or_app; right; exact I]. }
            apply in_split in Ip as [m1 [m2 Em]]. rewrite Em, <- app_assoc in Nd. cbn [app] in Nd. apply NoDup_remove_2 in Nd. apply Nd. apply in_or_app; right. apply in_or_app; right.
            cbn [addrs]. apply in_or_app; right; left; reflexivity. }
          rewrite Ds. rd H. cbn [above deref bind] in *. bg (InRight l1 b z :: c1) H. apply unfold_right in H. destruct H as [kb [db H]]. did set_right_ok H. rd H. bs la H. did adopt_ok H.
          bc sx H. did set_left_ok H. bg c1 H. bs l1 H. bc b H. apply fold_right_seg in H. eapply seg_reparent in H; [|discriminate|exact Rl]. 
          finish_op H. eexists _, b. split; [reflexivity|]. split; [reflexivity|]. exists (Some b), (size (Fork la sx y Leaf)), (height (Fork la sx y Leaf)). cbn [segroot] in *. rewrite Rl. cbn [root].
          bg (InRight l1 b z :: c1) H. bs la H. bc sx H. bc p H. exact H. }
      destruct Mid as [s1 [bal [Em [Ow [par [k1 [d1 H1]]]]]]]. rewrite Em. cbn [bind]. clear Em H. rename H1 into H.
      bc sx H. did set_right_ok H. did set_parent_ok H. bs r H. unfold r in H at 2. apply unfold_sub in H. did set_parent_ok H. apply fold_sub in H. fold r in H. bg c H. did store_ok H.
      bs r H. bc sx H. rewrite <- above_none in H. pl 2%nat H. pl 2%nat H. pl 2%nat H.
      apply (fold_left_seg _ _ _ _ _ _ sx y r c None (segroot c' (root la))) in H. bg c' H. pl 1%nat H. pl 1%nat H. 
      assert (H2 : holds h0 K hd tl (segroot c (Some sx)) s4 [Seg c' (above (InLeft sx y r :: c) None) (root la); Seg (InLeft sx y r :: c) None (segroot c' (root la));
         Cell p (above c None) (root (Fork ll pl0 xl lr)) (root r) x k d; Sub (above c' (Some sx)) la]) by exact H.
      apply seg_join in H2. bs la H2. bc p H2. rewrite <- Ow.
      assert (Ep : above c' (Some sx) = owner (c' ++ InLeft sx y r :: c)) by (rewrite <- above_none, above_app; reflexivity). rewrite Ep in H2.
      assert (Es : segroot c (Some sx) = segroot (c' ++ InLeft sx y r :: c) (root la)) by (rewrite segroot_app; reflexivity). rewrite Es in H2.
      apply (Sml _ _ _ _ _ _ H2 Ff Ba Nr Een).
Qed.

Lemma delete_ok : forall s t e1 p x e2, represents s t -> entries t = e1 ++ (p, x) :: e2 ->
  exists s' t', avl_node_delete s (Some p) = Ok (s', Some x) /\ represents s' t' /\ entries t' = e1 ++ e2 /\ frame_kept (cells s) (cells s') (addrs t) /\ get (cells s') p = None.
Proof.
  intros s t e1 p x e2 R E. destruct (locate _ _ _ _ _ E) as [c [l [r [Ht [Hb Ha]]]]]. pose proof (holds_of _ _ R) as H.
  assert (Ea : addrs t = map fst e1 ++ p :: map fst e2) by (rewrite addrs_entries, E, map_app; reflexivity).
  assert (N : NoDup (map fst e1 ++ p :: map fst e2)) by (rewrite <- Ea; apply R).
  pose proof (represents_chain _ _ R) as C. rewrite Ea in C.
  assert (B : balanced t) by apply R. assert (Sz : (size t < 2 ^ 64)%N) by apply R.
  destruct (unlink_links_ok _ _ _ _ _ _ _ _ _ _ H N C) as [s1 [K1 [hd1 [tl1 [E1 [H1 [C1 [Eh [Et Kp]]]]]]]]].
  { intros q I. cbn [flat_map paddrs]. rewrite app_nil_r, Ea. exact I. } { rewrite <- headof_none, Ea. reflexivity. } { rewrite <- lastof_none, Ea. reflexivity. }
  assert (Eb : map fst (before c) ++ addrs l = map fst e1) by (rewrite addrs_entries, <- map_app, Hb; reflexivity).
  rewrite Ht in H1 at 2. apply split_sub in H1. apply unfold_sub in H1. rewrite Ht, root_plug in H1. cbn [root] in H1. rewrite above_none in H1.
  rewrite <- Eb in Kp at 1. rewrite Ht in B, Sz.
  destruct (unlink_rest_ok _ _ _ _ _ _ _ _ _ _ _ _ _ H1 Kp B Sz) as [s2 [t' [h1 [E2 [H2 [B2 [En Fk]]]]]]].
  assert (En' : entries t' = e1 ++ e2) by (rewrite En, app_assoc, Hb, Ha; reflexivity).
  assert (Ea' : addrs t' = map fst e1 ++ map fst e2) by (rewrite addrs_entries, En', map_app; reflexivity).
  assert (R2 : represents s2 t').
  { apply (represents_of _ _ _ _ _ _ H2); [rewrite Ea'; exact C1|rewrite Ea'; exact Eh|rewrite Ea'; exact Et|exact B2|].
    rewrite size_entries, En'. rewrite <- Ht, size_entries, E in Sz. rewrite app_length in *. cbn [length] in Sz. lia. }
  assert (Np : ~ In p (addrs t')) by (rewrite Ea'; apply NoDup_remove_2, N).
  eexists _, t'. split; [|split; [|split; [exact En'|split]]].
  - cbn [avl_node_delete]. assert (Rd : exists n, read s p = Ok n /\ item n = x).
    { pose proof H as H'. rewrite Ht in H' at 4. apply split_sub in H'. apply unfold_sub in H'. destruct (read_ok _ _ _ _ _ _ _ _ _ _ _ _ _ _ H') as [n [Q1 [_ [_ [_ [Q2 _]]]]]]. exists n. auto. }
    destruct Rd as [n [Rd Ex]]. rewrite Rd. cbn [bind]. rewrite unlink_split, E1. cbn [bind]. rewrite E2. cbn [bind]. rewrite Ex. reflexivity.
  - apply represents_frame; [exact R2|]. intros q I. apply get_release_ne. intros ->. exact (Np I).
  - intros q D. cbn [with_cells cells]. rewrite get_release_ne; [|intros ->; apply D; rewrite Ea; apply in_or_app; right; left; reflexivity]. rewrite <- Ht in Fk. apply Fk, D.
  - cbn [with_cells cells]. apply get_release_eq.
Qed.
End Avl.
