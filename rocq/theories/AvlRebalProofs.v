(** Proofs: rebalancing. *)
From Coq Require Import List Arith NArith ZArith Bool Lia Permutation.
Import ListNotations.
From Verif Require Import CBase MoModel AvlModel AvlSpec AvlTreeProofs AvlMemProofs.

Ltac pl k H := apply (holds_pull k) in H; cbn [pull] in H.
Ltac index_cell p L := lazymatch L with Cell p _ _ _ _ _ _ :: _ => constr:(O) | _ :: ?L' => let i := index_cell p L' in constr:(S i) end.
Ltac index_sub t L := lazymatch L with Sub _ t :: _ => constr:(O) | _ :: ?L' => let i := index_sub t L' in constr:(S i) end.
Ltac index_seg c L := lazymatch L with Seg c _ _ :: _ => constr:(O) | _ :: ?L' => let i := index_seg c L' in constr:(S i) end.
Ltac bc p H := match type of H with holds _ _ _ _ _ _ ?L => let i := index_cell p L in pl i H end.
Ltac bs t H := match type of H with holds _ _ _ _ _ _ ?L => let i := index_sub t L in pl i H end.
Ltac bg c H := match type of H with holds _ _ _ _ _ _ ?L => let i := index_seg c L in pl i H end.
Ltac fold_fork l p x r H := bs r H; bs l H; bc p H; apply (fold_sub _ _ _ _ _ _ _ l p x r) in H.
Ltac in_tac := cbn [In]; repeat (first [left; reflexivity | right]).
Ltac finish_op H := let s' := fresh "s" in let E := fresh "E" in destruct H as [s' [E H]]; rewrite E; cbn [bind]; clear E.
Tactic Notation "did" uconstr(lem) hyp(H) := eapply lem in H; finish_op H.
Ltac cnt H := first [eapply count_cell; [exact H|solve [in_tac]] | eapply count_sub; [exact H|solve [in_tac]]].
Ltac dpt H := first [eapply depth_cell; [exact H|solve [in_tac]] | eapply depth_sub; [exact H|solve [in_tac]]].
Ltac upd_count H := eapply update_count_ok in H; [|cnt H|cnt H|lia]; finish_op H.
Ltac upd_depth H := eapply update_depth_ok in H; [|dpt H|dpt H|lia|lia]; finish_op H.
Ltac rd H :=
  let X := fresh "X" in pose proof H as X; eapply read_ok in X;
  let n := fresh "n" in let R := fresh "R" in let E1 := fresh "E" in let E2 := fresh "E" in let E3 := fresh "E" in let E4 := fresh "E" in let E5 := fresh "E" in let E6 := fresh "E" in
  destruct X as [n [R [E1 [E2 [E3 [E4 [E5 E6]]]]]]]; rewrite R; cbn [bind]; rewrite ?E1, ?E2, ?E3; clear R E1 E2 E3 E4 E5 E6.

Section Avl.
Context {A : Type}.
Implicit Types (h : heap A) (s : avl A) (t l r : tree A) (c : list (frame A)).

Lemma cell_conv : forall h0 K hd tl v s p par lp rp (x : A) k d k' d' L, k = k' -> d = d' ->
  holds h0 K hd tl v s (Cell p par lp rp x k d :: L) -> holds h0 K hd tl v s (Cell p par lp rp x k' d' :: L).
Proof. intros. subst. assumption. Qed.

Lemma step_ok : forall h0 K hd tl s c p x l r k d,
  holds h0 K hd tl (segroot c (Some p)) s [Cell p (owner c) (root l) (root r) x k d; Sub (Some p) l; Sub (Some p) r; Seg c None (Some p)] ->
  (height l <= height r + 2 -> height r <= height l + 2 -> size l + size r + 1 < 2 ^ 64 -> height l < 200 -> height r < 200 ->
  exists s', rebalance_step s p = Ok (s', owner c) /\
    holds h0 K hd tl (segroot c (root (bal l p x r))) s' [Sub (owner c) (bal l p x r); Seg c None (root (bal l p x r))])%N.
Proof.
  intros h0 K hd tl s c p x l r k d H H1 H2 Hs Hl Hr. unfold rebalance_step.
  assert (Np : ~ In p (caddrs c)).
  { pose proof (holds_nodup _ _ _ _ _ _ _ H) as N. cbn [flat_map paddrs app] in N. inversion N as [|? ? N1 N2]; subst. intros I. apply N1. apply in_or_app; right. apply in_or_app; right.
    rewrite app_nil_r. exact I. }
  destruct (read_ok _ _ _ _ _ _ _ _ _ _ _ _ _ _ H) as [n [R [E1 [E2 [E3 _]]]]]. rewrite R. cbn [bind]. cbv zeta. rewrite E1, E2, E3. clear E1 E2 E3.
  pose proof H as H'. pl 3%nat H'. rewrite (superparent_ok _ _ _ _ _ _ _ _ _ H' Np). clear H'. cbn [bind].
  assert (Dl : node_depth s (root l) = Ok (height l)) by dpt H. assert (Dr : node_depth s (root r) = Ok (height r)) by dpt H.
  rewrite (balance_ok _ _ _ _ _ _ _ _ _ _ _ _ _ _ _ _ H Dl Dr). cbn [bind]. clear Dl Dr R n Np.
  unfold bal. destruct (N.ltb_spec (height r + 1) (height l)) as [C1|C1]; [|destruct (N.ltb_spec (height l + 1) (height r)) as [C2|C2]].
  - change (-1 =? -1)%Z with true. cbn iota. destruct l as [|ll q y lr]; [cbn [height] in C1; lia|]. cbn [root deref bind]. cbn [height size] in *.
    pl 1%nat H. apply unfold_sub in H.
    assert (Dl : node_depth s (root ll) = Ok (height ll)) by dpt H. assert (Dr : node_depth s (root lr) = Ok (height lr)) by dpt H.
    rewrite (l_depth_ok _ _ _ _ _ _ _ _ _ _ _ _ _ _ _ H Dl), (r_depth_ok _ _ _ _ _ _ _ _ _ _ _ _ _ _ _ H Dr). cbn [bind]. rd H. clear Dl Dr.
    destruct (N.leb_spec (height lr) (height ll)) as [C2|C2].
    + bc p H. did set_left_ok H. rd H. bs lr H. did adopt_ok H. bc q H. did set_right_ok H. bc p H. did set_parent_ok H. bg c H. did store_ok H.
      bc q H. did set_parent_ok H. bc p H. upd_count H. bc q H. upd_count H. bc p H. upd_depth H. bc q H. upd_depth H.
      eexists. split; [reflexivity|]. fold_fork lr p x r H. fold_fork ll q y (Fork lr p x r) H. exact H.
    + destruct lr as [|gl g z gr]; [cbn [height] in C2; lia|]. cbn [root deref bind]. cbn [height size] in *.
      bs (Fork gl g z gr) H. apply unfold_sub in H. rd H. bc p H. did set_left_ok H. rd H. bs gr H. did adopt_ok H. bc g H. rd H.
      bc q H. did set_right_ok H. rd H. bs gl H. did adopt_ok H. bc g H. did set_right_ok H. bc p H. did set_parent_ok H. bc g H. did set_left_ok H.
      bc q H. did set_parent_ok H. bg c H. did store_ok H. bc g H. did set_parent_ok H.
      bc p H. upd_count H. bc q H. upd_count H. bc g H. upd_count H. bc p H. upd_depth H. bc q H. upd_depth H. bc g H. upd_depth H.
      eexists. split; [reflexivity|]. fold_fork gr p x r H. fold_fork ll q y gl H. fold_fork (Fork ll q y gl) g z (Fork gr p x r) H. exact H.
  - change (1 =? -1)%Z with false. change (1 =? 1)%Z with true. cbn iota. destruct r as [|rl q y rr]; [cbn [height] in C2; lia|]. cbn [root deref bind]. cbn [height size] in *.
    bs (Fork rl q y rr) H. apply unfold_sub in H.
    assert (Dl : node_depth s (root rl) = Ok (height rl)) by dpt H. assert (Dr : node_depth s (root rr) = Ok (height rr)) by dpt H.
    rewrite (l_depth_ok _ _ _ _ _ _ _ _ _ _ _ _ _ _ _ H Dl), (r_depth_ok _ _ _ _ _ _ _ _ _ _ _ _ _ _ _ H Dr). cbn [bind]. rd H. clear Dl Dr.
    destruct (N.leb_spec (height rl) (height rr)) as [C3|C3].
    + bc p H. did set_right_ok H. rd H. bs rl H. did adopt_ok H. bc q H. did set_left_ok H. bc p H. did set_parent_ok H. bg c H. did store_ok H.
      bc q H. did set_parent_ok H. bc p H. upd_count H. bc q H. upd_count H. bc p H. upd_depth H. bc q H. upd_depth H.
      eexists. split; [reflexivity|]. fold_fork l p x rl H. fold_fork (Fork l p x rl) q y rr H. exact H.
    + destruct rl as [|gl g z gr]; [cbn [height] in C3; lia|]. cbn [root deref bind]. cbn [height size] in *.
      bs (Fork gl g z gr) H. apply unfold_sub in H. rd H. bc p H. did set_right_ok H. rd H. bs gl H. did adopt_ok H. bc g H. rd H.
      bc q H. did set_left_ok H. rd H. bs gr H. did adopt_ok H. bc g H. did set_left_ok H. bc p H. did set_parent_ok H. bc g H. did set_right_ok H.
      bc q H. did set_parent_ok H. bg c H. did store_ok H. bc g H. did set_parent_ok H.
      bc p H. upd_count H. bc q H. upd_count H. bc g H. upd_count H. bc p H. upd_depth H. bc q H. upd_depth H. bc g H. upd_depth H.
      eexists. split; [reflexivity|]. fold_fork l p x gl H. fold_fork gr q y rr H. fold_fork (Fork l p x gl) g z (Fork gr q y rr) H. exact H.
  - change (0 =? -1)%Z with false. change (0 =? 1)%Z with false. cbn iota. upd_count H. upd_depth H.
    eexists. split; [reflexivity|]. fold_fork l p x r H. exact H.
Qed.

Lemma size_plug : forall c t, (size t <= size (plug c t))%N.
Proof. induction c as [|[p x r|l p x] c IH]; intros t; cbn [plug]; [lia| |]; specialize (IH (Fork t p x r)) + specialize (IH (Fork l p x t)); cbn [size] in IH; lia. Qed.
Lemma size_plug_mono : forall c t t', (size t = size t' -> size (plug c t) = size (plug c t'))%N.
Proof. induction c as [|[p x r|l p x] c IH]; intros t t' E; cbn [plug]; [exact E| |]; apply IH; cbn [size]; lia. Qed.
Lemma size_bal : forall l p x r, size (bal l p x r) = size (Fork l p x r).
Proof. intros. rewrite !size_entries, bal_entries. reflexivity. Qed.

Lemma rebalance_loop_ok : forall c fuel h0 K hd tl s t k,
  holds h0 K hd tl (segroot c (root t)) s [Sub (owner c) t; Seg c None (root t)] ->
  (length c <= fuel)%nat -> fits_height c k -> balanced t -> near k (height t) -> (size (plug c t) < 2 ^ 64)%N ->
  exists s', rebalance_loop fuel s (owner c) = Ok s' /\ holds h0 K hd tl (root (up c t)) s' [Sub None (up c t)].
Proof.
  induction c as [|[p x r|l p x] c IH]; intros fuel h0 K hd tl s t k H Hf F B [N1 N2] Hs; cbn [owner segroot up plug fits_height length] in *.
  - exists s. split; [destruct fuel; reflexivity|]. apply (holds_conv _ _ _ _ _ _ _ _ H).
    + pose proof (holds_ok _ _ _ _ _ _ _ H) as G. inversion G; subst. constructor; [assumption|constructor].
    + cbn. rewrite !app_nil_r. reflexivity.
  - destruct fuel as [|fuel]; [lia|]. cbn [rebalance_loop]. destruct F as [Br [F1 [F2 F3]]].
    pl 1%nat H. apply unfold_left in H. destruct H as [k0 [d0 H]]. rewrite above_none in H. bs t H. bc p H.
    pose proof (size_plug c (Fork t p x r)) as Sz. cbn [size] in Sz.
    pose proof (height_100 t B ltac:(lia)) as Ht. pose proof (height_100 r Br ltac:(lia)) as Hr.
    destruct (step_ok _ _ _ _ _ _ _ _ _ _ _ _ H) as [s1 [E1 H1]]; [lia..|]. rewrite E1. cbn [bind].
    destruct (bal_ok t p x r B Br ltac:(lia) ltac:(lia)) as [Bb [[Q1 Q2] Q3]].
    apply (IH fuel _ _ _ _ _ _ (N.max k (height r) + 1)%N H1 ltac:(lia) F3 Bb).
    + unfold near. assert (D : (height t <= height r + 1 /\ height r <= height t + 1 \/ height t > height r + 1 \/ height r > height t + 1)%N) by lia.
      destruct D as [[D1 D2]|[D|D]]; [rewrite (Q3 D1 D2)| |]; lia.
    + rewrite (size_plug_mono c (bal t p x r) (Fork t p x r)); [exact Hs|apply size_bal].
  - destruct fuel as [|fuel]; [lia|]. cbn [rebalance_loop]. destruct F as [Br [F1 [F2 F3]]].
    pl 1%nat H. apply unfold_right in H. destruct H as [k0 [d0 H]]. rewrite above_none in H. bs t H. bs l H. bc p H.
    pose proof (size_plug c (Fork l p x t)) as Sz. cbn [size] in Sz.
    pose proof (height_100 t B ltac:(lia)) as Ht. pose proof (height_100 l Br ltac:(lia)) as Hr.
    destruct (step_ok _ _ _ _ _ _ _ _ _ _ _ _ H) as [s1 [E1 H1]]; [lia..|]. rewrite E1. cbn [bind].
    destruct (bal_ok l p x t Br B ltac:(lia) ltac:(lia)) as [Bb [[Q1 Q2] Q3]].
    apply (IH fuel _ _ _ _ _ _ (N.max k (height l) + 1)%N H1 ltac:(lia) F3 Bb).
    + unfold near. assert (D : (height l <= height t + 1 /\ height t <= height l + 1 \/ height t > height l + 1 \/ height l > height t + 1)%N) by lia.
      destruct D as [[D1 D2]|[D|D]]; [rewrite (Q3 D1 D2)| |]; lia.
    + rewrite (size_plug_mono c (bal l p x t) (Fork l p x t)); [exact Hs|apply size_bal].
Qed.

(** Allocated addresses *)
Lemma sub_live : forall t h par q, in_memory h par t -> In q (addrs t) -> get h q <> None.
Proof.
  induction t as [|l IHl p x r IHr]; intros h par q M I; cbn [in_memory addrs] in *; [destruct I|]. destruct M as [[n [G _]] [L R]]. apply in_app_or in I as [I|[I|I]].
  - apply (IHl _ _ _ L I).
  - subst q. congruence.
  - apply (IHr _ _ _ R I).
Qed.
Lemma seg_live : forall c h par f q, seg h c par f -> In q (caddrs c) -> get h q <> None.
Proof.
  induction c as [|[p x r|l p x] c IH]; intros h par f q M I; cbn [seg caddrs] in *; [destruct I| |]; destruct M as [[k [d [n [G _]]]] [L S]]; destruct I as [I|I]; try (subst q; congruence);
    apply in_app_or in I as [I|I]; [apply (sub_live _ _ _ _ L I)|apply (IH _ _ _ _ S I)|apply (sub_live _ _ _ _ L I)|apply (IH _ _ _ _ S I)].
Qed.
Lemma holds_live : forall h0 K hd tl v s (L : list (piece A)) q, holds h0 K hd tl v s L -> In q (flat_map paddrs L) -> get (cells s) q <> None.
Proof.
  intros h0 K hd tl v s L q H I. apply in_flat_map in I as [P [IP Iq]]. pose proof (holds_ok _ _ _ _ _ _ _ H) as F. rewrite Forall_forall in F. specialize (F P IP).
  destruct P as [p par lp rp x k d|par t|c par f]; cbn [ok paddrs] in *.
  - destruct Iq as [->|[]]. destruct F as [n [G _]]. congruence.
  - apply (sub_live _ _ _ _ F Iq).
  - apply (seg_live _ _ _ _ _ F Iq).
Qed.
Lemma holds_size : forall h0 K hd tl v s (L : list (piece A)), holds h0 K hd tl v s L -> (length (flat_map paddrs L) <= length (cells s))%nat.
Proof. intros h0 K hd tl v s L H. apply live_length; [apply (holds_nodup _ _ _ _ _ _ _ H)|]. intros p I. apply (holds_live _ _ _ _ _ _ _ _ H I). Qed.
Lemma caddrs_length : forall c, (length c <= length (caddrs c))%nat.
Proof. induction c as [|[p x r|l p x] c IH]; cbn [caddrs length]; [lia| |]; rewrite app_length; lia. Qed.

Lemma rebalance_ok : forall c h0 K hd tl s t k,
  holds h0 K hd tl (segroot c (root t)) s [Sub (owner c) t; Seg c None (root t)] ->
  fits_height c k -> balanced t -> near k (height t) -> (size (plug c t) < 2 ^ 64)%N ->
  exists s', avl_rebalance s (owner c) = Ok s' /\ holds h0 K hd tl (root (up c t)) s' [Sub None (up c t)].
Proof.
  intros c h0 K hd tl s t k H F B N S. unfold avl_rebalance. apply (rebalance_loop_ok c _ h0 K hd tl s t k H); auto.
  pose proof (holds_size _ _ _ _ _ _ _ H) as L. cbn [flat_map paddrs] in L. rewrite app_nil_r, app_length in L. pose proof (caddrs_length c). lia.
Qed.
End Avl.
