(** Proofs about trees in memory: pieces of a tree that do not overlap, and what the elementary operations do to them. *)
From Coq Require Import List Arith NArith ZArith Bool Lia Permutation.
Import ListNotations.
From Verif Require Import CBase MoModel AvlModel AvlSpec AvlTreeProofs.

Section Avl.
Context {A : Type}.
Implicit Types (h : heap A) (s : avl A) (t l r : tree A) (c : list (frame A)).

(** ** The heap *)
Lemma get_put_eq : forall h p n m, get h p = Some m -> get (put h p n) p = Some n.
Proof.
  induction h as [|[q k] h IH]; intros p n m H; cbn [get put] in *; [discriminate|].
  destruct (Nat.eqb p q) eqn:E; cbn [get]; rewrite E; [reflexivity|apply (IH _ _ _ H)].
Qed.
Lemma get_put_ne : forall h p n q, q <> p -> get (put h p n) q = get h q.
Proof.
  induction h as [|[k m] h IH]; intros p n q H; cbn [get put]; [reflexivity|].
  destruct (Nat.eqb_spec p k) as [E|E]; cbn [get].
  - destruct (Nat.eqb_spec q k); [congruence|reflexivity].
  - destruct (Nat.eqb q k); [reflexivity|apply IH, H].
Qed.
Lemma length_put : forall h p n, length (put h p n) = length h.
Proof. induction h as [|[k m] h IH]; intros p n; cbn [put]; [reflexivity|]. destruct (Nat.eqb p k); cbn [length]; [reflexivity|rewrite IH; reflexivity]. Qed.
Lemma get_release_eq : forall h p, get (release h p) p = None.
Proof. induction h as [|[k m] h IH]; intros p; cbn [release]; [reflexivity|]. destruct (Nat.eqb p k) eqn:E; [apply IH|]. cbn [get]. rewrite E. apply IH. Qed.
Lemma get_release_ne : forall h p q, q <> p -> get (release h p) q = get h q.
Proof.
  induction h as [|[k m] h IH]; intros p q N; cbn [release get]; [reflexivity|]. destruct (Nat.eqb_spec p k) as [E|E].
  - subst. destruct (Nat.eqb_spec q k); [congruence|apply IH, N].
  - cbn [get]. destruct (Nat.eqb q k); [reflexivity|apply IH, N].
Qed.
Lemma get_in : forall h p n, get h p = Some n -> In p (map fst h).
Proof.
  induction h as [|[k m] h IH]; intros p n H; cbn [get map fst] in *; [discriminate|]. destruct (Nat.eqb_spec p k); [left; congruence|right; apply (IH _ _ H)].
Qed.
Lemma live_length : forall h ps, NoDup ps -> (forall p, In p ps -> get h p <> None) -> (length ps <= length h)%nat.
Proof.
  intros h ps N L. rewrite <- (map_length fst h). apply NoDup_incl_length; [exact N|]. intros p I. specialize (L p I). destruct (get h p) as [n|] eqn:E; [|congruence].
  apply (get_in _ _ _ E).
Qed.

(** ** Pieces *)
Definition link h (q : nat) : option (option nat * option nat) := option_map (fun n => (prev n, next n)) (get h q).
Definition above c (par : option nat) : option nat := match c with [] => par | InLeft p _ _ :: _ => Some p | InRight _ p _ :: _ => Some p end.
Fixpoint segroot c (f : option nat) : option nat :=
  match c with [] => f | InLeft p _ _ :: c' => segroot c' (Some p) | InRight _ p _ :: c' => segroot c' (Some p) end.
Definition cell h (p : nat) (par lp rp : option nat) (x : A) (k d : N) : Prop :=
  exists n, get h p = Some n /\ parent n = par /\ left n = lp /\ right n = rp /\ item n = x /\ count n = k /\ depth n = d.
Fixpoint seg h c (par f : option nat) : Prop :=
  match c with
  | [] => True
  | InLeft p x r :: c' => (exists k d, cell h p (above c' par) f (root r) x k d) /\ in_memory h (Some p) r /\ seg h c' par (Some p)
  | InRight l p x :: c' => (exists k d, cell h p (above c' par) (root l) f x k d) /\ in_memory h (Some p) l /\ seg h c' par (Some p)
  end.
Fixpoint caddrs c : list nat :=
  match c with [] => [] | InLeft p _ s :: c' => p :: addrs s ++ caddrs c' | InRight s p _ :: c' => p :: addrs s ++ caddrs c' end.
Lemma above_none : forall c, above c None = owner c.
Proof. intros [|[p x r|l p x] c]; reflexivity. Qed.

Inductive piece :=
| Cell (p : nat) (par lp rp : option nat) (x : A) (k d : N)
| Sub (par : option nat) (t : tree A)
| Seg (c : list (frame A)) (par f : option nat).
Definition ok h (P : piece) : Prop :=
  match P with
  | Cell p par lp rp x k d => cell h p par lp rp x k d
  | Sub par t => in_memory h par t
  | Seg c par f => seg h c par f
  end.
Definition paddrs (P : piece) : list nat := match P with Cell p _ _ _ _ _ _ => [p] | Sub _ t => addrs t | Seg c _ _ => caddrs c end.

(** Pieces depend on their own addresses only, and not on the links. *)
Definition fields (n : node A) := (parent n, left n, right n, item n, count n, depth n).
Definition same_fields h h' (q : nat) : Prop := option_map fields (get h' q) = option_map fields (get h q).
Lemma cell_frame : forall h h' p par lp rp x k d, same_fields h h' p -> cell h p par lp rp x k d -> cell h' p par lp rp x k d.
Proof.
  unfold same_fields, cell. intros h h' p par lp rp x k d E [n [G H]]. rewrite G in E. cbn [option_map] in E. destruct (get h' p) as [n'|] eqn:G'; [|discriminate].
  exists n'. split; [reflexivity|]. cbn [option_map] in E. assert (F : fields n' = fields n) by congruence. unfold fields in F. injection F as -> -> -> -> -> ->. exact H.
Qed.
Lemma sub_frame : forall t h h' par, (forall q, In q (addrs t) -> same_fields h h' q) -> in_memory h par t -> in_memory h' par t.
Proof.
  induction t as [|l IHl p x r IHr]; intros h h' par E; cbn [in_memory]; [auto|]. intros [C [L R]]. cbn [addrs] in E. split; [|split].
  - apply (cell_frame h h'); [apply E, in_or_app; right; left; reflexivity|exact C].
  - apply (IHl h); [intros q I; apply E, in_or_app; left; exact I|exact L].
  - apply (IHr h); [intros q I; apply E, in_or_app; right; right; exact I|exact R].
Qed.
Lemma seg_frame : forall c h h' par f, (forall q, In q (caddrs c) -> same_fields h h' q) -> seg h c par f -> seg h' c par f.
Proof.
  induction c as [|[p x r|l p x] c IH]; intros h h' par f E; cbn [seg]; [auto| |].
  - intros [[k [d C]] [R S]]. cbn [caddrs] in E. split; [|split].
    + exists k, d. apply (cell_frame h h'); [apply E; left; reflexivity|exact C].
    + apply (sub_frame _ h); [intros q I; apply E; right; apply in_or_app; left; exact I|exact R].
    + apply (IH h); [intros q I; apply E; right; apply in_or_app; right; exact I|exact S].
  - intros [[k [d C]] [R S]]. cbn [caddrs] in E. split; [|split].
    + exists k, d. apply (cell_frame h h'); [apply E; left; reflexivity|exact C].
    + apply (sub_frame _ h); [intros q I; apply E; right; apply in_or_app; left; exact I|exact R].
    + apply (IH h); [intros q I; apply E; right; apply in_or_app; right; exact I|exact S].
Qed.
Lemma ok_frame : forall h h' P, (forall q, In q (paddrs P) -> same_fields h h' q) -> ok h P -> ok h' P.
Proof.
  intros h h' [p par lp rp x k d|par t|c par f]; cbn [ok paddrs]; intros E.
  - apply cell_frame, E. left; reflexivity.
  - apply sub_frame, E.
  - apply seg_frame, E.
Qed.

(** ** States made of pieces *)
Definition links := nat -> option (option nat * option nat).
Record holds (h0 : heap A) (K : links) (hd tl v : option nat) (s : avl A) (L : list piece) : Prop := Holds {
  holds_ok : Forall (ok (cells s)) L;
  holds_nodup : NoDup (flat_map paddrs L);
  holds_frame : forall q, ~ In q (flat_map paddrs L) -> get (cells s) q = get h0 q;
  holds_length : length (cells s) = length h0;
  holds_links : forall q, link (cells s) q = K q;
  holds_head : head s = hd;
  holds_tail : tail s = tl;
  holds_top : top s = v }.

Lemma holds_conv : forall h0 K hd tl v s L L', holds h0 K hd tl v s L -> Forall (ok (cells s)) L' -> Permutation (flat_map paddrs L) (flat_map paddrs L') ->
  holds h0 K hd tl v s L'.
Proof.
  intros h0 K hd tl v s L L' [H1 H2 H3 H4 H5 H6 H7 H8] F P. split; auto.
  - apply (Permutation_NoDup P H2).
  - intros q N. apply H3. intros I. apply N. apply (Permutation_in q P I).
Qed.
Lemma flat_map_perm : forall L L' : list piece, Permutation L L' -> Permutation (flat_map paddrs L) (flat_map paddrs L').
Proof.
  intros L L' P. induction P as [|x l l' P IH|x y l|l1 l2 l3 P1 IH1 P2 IH2]; cbn [flat_map]; auto.
  - apply Permutation_app_head, IH.
  - rewrite !app_assoc. apply Permutation_app_tail, Permutation_app_comm.
  - apply (perm_trans IH1 IH2).
Qed.
Lemma holds_perm : forall h0 K hd tl v s L L', holds h0 K hd tl v s L -> Permutation L L' -> holds h0 K hd tl v s L'.
Proof.
  intros h0 K hd tl v s L L' H P. apply (holds_conv _ _ _ _ _ _ L); [exact H| |apply flat_map_perm, P]. rewrite Forall_forall. intros x I.
  pose proof (holds_ok _ _ _ _ _ _ _ H) as F. rewrite Forall_forall in F. apply F. apply (Permutation_in x (Permutation_sym P) I).
Qed.
Fixpoint pull (k : nat) (L : list piece) : list piece :=
  match k, L with
  | O, _ => L
  | S k', x :: L' => match pull k' L' with y :: L'' => y :: x :: L'' | [] => L end
  | _, [] => L
  end.
Lemma pull_perm : forall k L, Permutation L (pull k L).
Proof.
  induction k as [|k IH]; intros [|x L]; cbn [pull]; auto. specialize (IH L). destruct (pull k L) as [|y L'']; [reflexivity|].
  apply (perm_trans (l' := x :: y :: L'')); [constructor; exact IH|constructor].
Qed.
Lemma holds_pull : forall k h0 K hd tl v s L, holds h0 K hd tl v s L -> holds h0 K hd tl v s (pull k L).
Proof. intros. eapply holds_perm; [eassumption|apply pull_perm]. Qed.

(** Folding and unfolding *)
Lemma unfold_sub : forall h0 K hd tl v s par l p x r L, holds h0 K hd tl v s (Sub par (Fork l p x r) :: L) ->
  holds h0 K hd tl v s (Cell p par (root l) (root r) x (size (Fork l p x r)) (height (Fork l p x r)) :: Sub (Some p) l :: Sub (Some p) r :: L).
Proof.
  intros h0 K hd tl v s par l p x r L H. apply (holds_conv _ _ _ _ _ _ _ _ H).
  - pose proof (holds_ok _ _ _ _ _ _ _ H) as F. inversion F as [|? ? F1 F2]; subst. cbn [ok in_memory] in F1. destruct F1 as [C [L1 R1]]. repeat (constructor; [assumption|]). exact F2.
  - cbn [flat_map paddrs addrs]. cbn [app]. rewrite <- !app_assoc. cbn [app]. symmetry. apply Permutation_middle.
Qed.
Lemma fold_sub : forall h0 K hd tl v s par l p x r L,
  holds h0 K hd tl v s (Cell p par (root l) (root r) x (size (Fork l p x r)) (height (Fork l p x r)) :: Sub (Some p) l :: Sub (Some p) r :: L) ->
  holds h0 K hd tl v s (Sub par (Fork l p x r) :: L).
Proof.
  intros h0 K hd tl v s par l p x r L H. apply (holds_conv _ _ _ _ _ _ _ _ H).
  - pose proof (holds_ok _ _ _ _ _ _ _ H) as F. inversion F as [|? ? F1 F2]; subst. inversion F2 as [|? ? F3 F4]; subst. inversion F4 as [|? ? F5 F6]; subst.
    constructor; [|exact F6]. cbn [ok in_memory]. split; [exact F1|split; assumption].
  - cbn [flat_map paddrs addrs]. cbn [app]. rewrite <- !app_assoc. cbn [app]. apply Permutation_middle.
Qed.
Lemma unfold_left : forall h0 K hd tl v s p x r c par f L, holds h0 K hd tl v s (Seg (InLeft p x r :: c) par f :: L) ->
  exists k d, holds h0 K hd tl v s (Cell p (above c par) f (root r) x k d :: Sub (Some p) r :: Seg c par (Some p) :: L).
Proof.
  intros h0 K hd tl v s p x r c par f L H. pose proof (holds_ok _ _ _ _ _ _ _ H) as F. inversion F as [|? ? F1 F2]; subst. cbn [ok seg] in F1. destruct F1 as [[k [d C]] [R S]].
  exists k, d. apply (holds_conv _ _ _ _ _ _ _ _ H); [repeat (constructor; [assumption|]); exact F2|]. cbn [flat_map paddrs caddrs]. cbn [app]. rewrite <- !app_assoc. reflexivity.
Qed.
Lemma unfold_right : forall h0 K hd tl v s p x l c par f L, holds h0 K hd tl v s (Seg (InRight l p x :: c) par f :: L) ->
  exists k d, holds h0 K hd tl v s (Cell p (above c par) (root l) f x k d :: Sub (Some p) l :: Seg c par (Some p) :: L).
Proof.
  intros h0 K hd tl v s p x r c par f L H. pose proof (holds_ok _ _ _ _ _ _ _ H) as F. inversion F as [|? ? F1 F2]; subst. cbn [ok seg] in F1. destruct F1 as [[k [d C]] [R S]].
  exists k, d. apply (holds_conv _ _ _ _ _ _ _ _ H); [repeat (constructor; [assumption|]); exact F2|]. cbn [flat_map paddrs caddrs]. cbn [app]. rewrite <- !app_assoc. reflexivity.
Qed.
Lemma fold_left_seg : forall h0 K hd tl v s p x r c par f L k d,
  holds h0 K hd tl v s (Cell p (above c par) f (root r) x k d :: Sub (Some p) r :: Seg c par (Some p) :: L) -> holds h0 K hd tl v s (Seg (InLeft p x r :: c) par f :: L).
Proof.
  intros h0 K hd tl v s p x r c par f L k d H. pose proof (holds_ok _ _ _ _ _ _ _ H) as F. inversion F as [|? ? F1 F2]; subst. inversion F2 as [|? ? F3 F4]; subst. inversion F4 as [|? ? F5 F6]; subst.
  apply (holds_conv _ _ _ _ _ _ _ _ H).
  - constructor; [|exact F6]. cbn [ok seg]. split; [exists k, d; exact F1|split; assumption].
  - cbn [flat_map paddrs caddrs]. cbn [app]. rewrite <- !app_assoc. reflexivity.
Qed.
Lemma fold_right_seg : forall h0 K hd tl v s p x l c par f L k d,
  holds h0 K hd tl v s (Cell p (above c par) (root l) f x k d :: Sub (Some p) l :: Seg c par (Some p) :: L) -> holds h0 K hd tl v s (Seg (InRight l p x :: c) par f :: L).
Proof.
  intros h0 K hd tl v s p x r c par f L k d H. pose proof (holds_ok _ _ _ _ _ _ _ H) as F. inversion F as [|? ? F1 F2]; subst. inversion F2 as [|? ? F3 F4]; subst. inversion F4 as [|? ? F5 F6]; subst.
  apply (holds_conv _ _ _ _ _ _ _ _ H).
  - constructor; [|exact F6]. cbn [ok seg]. split; [exists k, d; exact F1|split; assumption].
  - cbn [flat_map paddrs caddrs]. cbn [app]. rewrite <- !app_assoc. reflexivity.
Qed.

(** A subtree is a segment with a smaller subtree below it. *)
Lemma root_plug : forall c t, root (plug c t) = segroot c (root t).
Proof. induction c as [|[p x r|l p x] c IH]; intros t; cbn [plug segroot]; [reflexivity|rewrite IH; reflexivity|rewrite IH; reflexivity]. Qed.
Lemma split_sub : forall c h0 K hd tl v s par t L, holds h0 K hd tl v s (Sub par (plug c t) :: L) -> holds h0 K hd tl v s (Sub (above c par) t :: Seg c par (root t) :: L).
Proof.
  induction c as [|[p x r|l p x] c IH]; intros h0 K hd tl v s par t L H; cbn [plug above] in *.
  - apply (holds_conv _ _ _ _ _ _ _ _ H); [|reflexivity]. pose proof (holds_ok _ _ _ _ _ _ _ H) as F. inversion F; subst. constructor; [assumption|]. constructor; [exact I|assumption].
  - apply IH in H. apply unfold_sub in H. apply (holds_pull 1) in H. cbn [pull] in H. apply (holds_pull 3) in H. cbn [pull] in H. apply (holds_pull 3) in H. cbn [pull] in H.
    apply (holds_pull 3) in H. cbn [pull] in H. apply fold_left_seg in H. apply (holds_pull 1) in H. cbn [pull] in H. exact H.
  - apply IH in H. apply unfold_sub in H. apply (holds_pull 2) in H. cbn [pull] in H. apply (holds_pull 3) in H. cbn [pull] in H. apply (holds_pull 3) in H. cbn [pull] in H.
    apply (holds_pull 3) in H. cbn [pull] in H. apply fold_right_seg in H. apply (holds_pull 1) in H. cbn [pull] in H. exact H.
Qed.

(** ** Elementary operations *)
Lemma cell_of : forall h0 K hd tl v s p par lp rp x k d L, holds h0 K hd tl v s (Cell p par lp rp x k d :: L) -> cell (cells s) p par lp rp x k d.
Proof. intros h0 K hd tl v s p par lp rp x k d L H. pose proof (holds_ok _ _ _ _ _ _ _ H) as F. inversion F as [|? ? F1 F2]; subst. exact F1. Qed.
Lemma read_ok : forall h0 K hd tl v s p par lp rp x k d L, holds h0 K hd tl v s (Cell p par lp rp x k d :: L) ->
  exists n, read s p = Ok n /\ parent n = par /\ left n = lp /\ right n = rp /\ item n = x /\ count n = k /\ depth n = d.
Proof. intros h0 K hd tl v s p par lp rp x k d L H. destruct (cell_of _ _ _ _ _ _ _ _ _ _ _ _ _ _ H) as [n [G E]]. exists n. split; [unfold read; rewrite G; reflexivity|exact E]. Qed.
Lemma change_eq : forall s p f n, get (cells s) p = Some n -> change s p f = Ok (with_cells s (put (cells s) p (f n))).
Proof. intros s p f n G. unfold change, read. rewrite G. reflexivity. Qed.

Lemma link_put : forall h p n m q, get h p = Some m -> link (put h p n) q = if Nat.eqb q p then Some (prev n, next n) else link h q.
Proof.
  intros h p n m q G. unfold link. destruct (Nat.eqb_spec q p) as [->|N]; [rewrite (get_put_eq _ _ _ _ G); reflexivity|]. rewrite get_put_ne by exact N. reflexivity.
Qed.
Lemma fields_put : forall h p n m q, get h p = Some m -> fields n = fields m -> same_fields h (put h p n) q.
Proof.
  intros h p n m q G E. unfold same_fields. destruct (Nat.eqb_spec q p) as [->|N]; [rewrite (get_put_eq _ _ _ _ G), G; cbn [option_map]; congruence|].
  rewrite get_put_ne by exact N. reflexivity.
Qed.

Lemma change_ok : forall f h0 K hd tl v s p par lp rp x k d L par' lp' rp' x' k' d',
  holds h0 K hd tl v s (Cell p par lp rp x k d :: L) ->
  (forall n, prev (f n) = prev n /\ next (f n) = next n) ->
  (forall n, fields n = (par, lp, rp, x, k, d) -> fields (f n) = (par', lp', rp', x', k', d')) ->
  exists s', change s p f = Ok s' /\ holds h0 K hd tl v s' (Cell p par' lp' rp' x' k' d' :: L).
Proof.
  intros f h0 K hd tl v s p par lp rp x k d L par' lp' rp' x' k' d' H Hl Hf. destruct (cell_of _ _ _ _ _ _ _ _ _ _ _ _ _ _ H) as [n [G [E1 [E2 [E3 [E4 [E5 E6]]]]]]].
  rewrite (change_eq _ _ f _ G). eexists. split; [reflexivity|]. destruct H as [H1 H2 H3 H4 H5 H6 H7 H8]. cbn [flat_map paddrs app] in *. inversion H2 as [|? ? N1 N2]; subst.
  split; cbn [with_cells cells top head tail]; auto.
  - inversion H1 as [|? ? F1 F2]; subst. constructor.
    + cbn [ok]. exists (f n). split; [apply (get_put_eq _ _ _ _ G)|]. specialize (Hf n eq_refl). unfold fields in Hf. injection Hf as <- <- <- <- <- <-. auto 10.
    + rewrite Forall_forall in *. intros P I. apply (ok_frame (cells s)); [|apply F2, I]. intros q Iq. unfold same_fields. rewrite get_put_ne; [reflexivity|].
      intros ->. apply N1. apply in_flat_map. exists P. split; assumption.
  - intros q Nq. cbn [flat_map paddrs app] in Nq. rewrite get_put_ne; [apply H3, Nq|]. intros ->. apply Nq. left; reflexivity.
  - rewrite length_put. exact H4.
  - intros q. rewrite (link_put _ _ _ _ _ G). destruct (Nat.eqb_spec q p) as [->|N]; [|apply H5]. rewrite <- H5. unfold link. rewrite G. cbn [option_map]. destruct (Hl n) as [-> ->]. reflexivity.
Qed.

Ltac op := intros; eapply change_ok; [eassumption|intros n; split; reflexivity|intros n Hn; unfold fields in *; cbn; congruence].
Lemma set_left_ok : forall h0 K hd tl v s p par lp rp x k d L w, holds h0 K hd tl v s (Cell p par lp rp x k d :: L) ->
  exists s', change s p (set_left w) = Ok s' /\ holds h0 K hd tl v s' (Cell p par w rp x k d :: L).
Proof. op. Qed.
Lemma set_right_ok : forall h0 K hd tl v s p par lp rp x k d L w, holds h0 K hd tl v s (Cell p par lp rp x k d :: L) ->
  exists s', change s p (set_right w) = Ok s' /\ holds h0 K hd tl v s' (Cell p par lp w x k d :: L).
Proof. op. Qed.
Lemma set_parent_ok : forall h0 K hd tl v s p par lp rp x k d L w, holds h0 K hd tl v s (Cell p par lp rp x k d :: L) ->
  exists s', change s p (set_parent w) = Ok s' /\ holds h0 K hd tl v s' (Cell p w lp rp x k d :: L).
Proof. op. Qed.
Lemma set_count_ok : forall h0 K hd tl v s p par lp rp x k d L w, holds h0 K hd tl v s (Cell p par lp rp x k d :: L) ->
  exists s', change s p (set_count w) = Ok s' /\ holds h0 K hd tl v s' (Cell p par lp rp x w d :: L).
Proof. op. Qed.
Lemma set_depth_ok : forall h0 K hd tl v s p par lp rp x k d L w, holds h0 K hd tl v s (Cell p par lp rp x k d :: L) ->
  exists s', change s p (set_depth w) = Ok s' /\ holds h0 K hd tl v s' (Cell p par lp rp x k w :: L).
Proof. op. Qed.

Lemma adopt_ok : forall h0 K hd tl v s par t L w, holds h0 K hd tl v s (Sub par t :: L) ->
  exists s', adopt s (root t) w = Ok s' /\ holds h0 K hd tl v s' (Sub w t :: L).
Proof.
  intros h0 K hd tl v s par [|l p x r] L w H; cbn [adopt root].
  - exists s. split; [reflexivity|]. apply (holds_conv _ _ _ _ _ _ _ _ H); [|reflexivity]. pose proof (holds_ok _ _ _ _ _ _ _ H) as F. inversion F; subst. constructor; [exact I|assumption].
  - apply unfold_sub in H. destruct (set_parent_ok _ _ _ _ _ _ _ _ _ _ _ _ _ _ w H) as [s' [E H']]. exists s'. split; [exact E|]. apply fold_sub, H'.
Qed.

Definition place_of c : place := match c with [] => Top | InLeft p _ _ :: _ => LeftOf p | InRight _ p _ :: _ => RightOf p end.
Lemma store_ok : forall h0 K hd tl s c f w L, holds h0 K hd tl (segroot c f) s (Seg c None f :: L) ->
  exists s', store s (place_of c) w = Ok s' /\ holds h0 K hd tl (segroot c w) s' (Seg c None w :: L).
Proof.
  intros h0 K hd tl s [|[p x r|l p x] c] f w L H; cbn [place_of store segroot] in *.
  - eexists. split; [reflexivity|]. destruct H as [H1 H2 H3 H4 H5 H6 H7 H8]. split; cbn [cells top head tail]; auto.
    inversion H1; subst. constructor; [exact I|assumption].
  - destruct (unfold_left _ _ _ _ _ _ _ _ _ _ _ _ _ H) as [k [d H1]]. destruct (set_left_ok _ _ _ _ _ _ _ _ _ _ _ _ _ _ w H1) as [s' [E H2]]. exists s'. split; [exact E|].
    apply fold_left_seg in H2. exact H2.
  - destruct (unfold_right _ _ _ _ _ _ _ _ _ _ _ _ _ H) as [k [d H1]]. destruct (set_right_ok _ _ _ _ _ _ _ _ _ _ _ _ _ _ w H1) as [s' [E H2]]. exists s'. split; [exact E|].
    apply fold_right_seg in H2. exact H2.
Qed.
Lemma root_in : forall t p, root t = Some p -> In p (addrs t).
Proof. intros [|l q x r] p; cbn [root addrs]; [discriminate|]. intros E. injection E as ->. apply in_or_app; right; left; reflexivity. Qed.
Lemma superparent_ok : forall h0 K hd tl v s c p L, holds h0 K hd tl v s (Seg c None (Some p) :: L) -> ~ In p (caddrs c) ->
  superparent s p (owner c) = Ok (place_of c).
Proof.
  intros h0 K hd tl v s [|[q x r|l q x] c] p L H N; cbn [owner superparent place_of].
  - reflexivity.
  - destruct (unfold_left _ _ _ _ _ _ _ _ _ _ _ _ _ H) as [k [d H1]]. destruct (read_ok _ _ _ _ _ _ _ _ _ _ _ _ _ _ H1) as [n [-> [_ [E _]]]]. cbn [bind]. rewrite E, Nat.eqb_refl. reflexivity.
  - destruct (unfold_right _ _ _ _ _ _ _ _ _ _ _ _ _ H) as [k [d H1]]. destruct (read_ok _ _ _ _ _ _ _ _ _ _ _ _ _ _ H1) as [n [-> [_ [E0 _]]]]. cbn [bind]. rewrite E0.
    destruct (root l) as [q'|] eqn:E; [|reflexivity]. destruct (Nat.eqb_spec p q') as [->|_]; [|reflexivity]. exfalso. apply N. cbn [caddrs]. right. apply in_or_app; left. apply root_in, E.
Qed.

(** Counts and depths *)
Lemma sub_in : forall h0 K hd tl v s par t L, holds h0 K hd tl v s L -> In (Sub par t) L -> in_memory (cells s) par t.
Proof. intros h0 K hd tl v s par t L H I. pose proof (holds_ok _ _ _ _ _ _ _ H) as F. rewrite Forall_forall in F. exact (F _ I). Qed.
Lemma cell_in : forall h0 K hd tl v s p par lp rp x k d L, holds h0 K hd tl v s L -> In (Cell p par lp rp x k d) L -> cell (cells s) p par lp rp x k d.
Proof. intros h0 K hd tl v s p par lp rp x k d L H I. pose proof (holds_ok _ _ _ _ _ _ _ H) as F. rewrite Forall_forall in F. exact (F _ I). Qed.
Lemma count_sub : forall h0 K hd tl v s par t L, holds h0 K hd tl v s L -> In (Sub par t) L -> node_count s (root t) = Ok (size t).
Proof.
  intros h0 K hd tl v s par t L H I. pose proof (sub_in _ _ _ _ _ _ _ _ _ H I) as M. destruct t as [|l p x r]; [reflexivity|]. cbn [in_memory] in M. destruct M as [[n [G [_ [_ [_ [_ [C _]]]]]]] _].
  cbn [node_count root]. unfold read. rewrite G. cbn [bind]. rewrite C. reflexivity.
Qed.
Lemma depth_sub : forall h0 K hd tl v s par t L, holds h0 K hd tl v s L -> In (Sub par t) L -> node_depth s (root t) = Ok (height t).
Proof.
  intros h0 K hd tl v s par t L H I. pose proof (sub_in _ _ _ _ _ _ _ _ _ H I) as M. destruct t as [|l p x r]; [reflexivity|]. cbn [in_memory] in M. destruct M as [[n [G [_ [_ [_ [_ [_ C]]]]]]] _].
  cbn [node_depth root]. unfold read. rewrite G. cbn [bind]. rewrite C. reflexivity.
Qed.
Lemma count_cell : forall h0 K hd tl v s p par lp rp x k d L, holds h0 K hd tl v s L -> In (Cell p par lp rp x k d) L -> node_count s (Some p) = Ok k.
Proof.
  intros h0 K hd tl v s p par lp rp x k d L H I. destruct (cell_in _ _ _ _ _ _ _ _ _ _ _ _ _ _ H I) as [n [G [_ [_ [_ [_ [C _]]]]]]].
  cbn [node_count]. unfold read. rewrite G. cbn [bind]. rewrite C. reflexivity.
Qed.
Lemma depth_cell : forall h0 K hd tl v s p par lp rp x k d L, holds h0 K hd tl v s L -> In (Cell p par lp rp x k d) L -> node_depth s (Some p) = Ok d.
Proof.
  intros h0 K hd tl v s p par lp rp x k d L H I. destruct (cell_in _ _ _ _ _ _ _ _ _ _ _ _ _ _ H I) as [n [G [_ [_ [_ [_ [_ C]]]]]]].
  cbn [node_depth]. unfold read. rewrite G. cbn [bind]. rewrite C. reflexivity.
Qed.
Lemma l_depth_ok : forall h0 K hd tl v s p par lp rp x k d L a, holds h0 K hd tl v s (Cell p par lp rp x k d :: L) -> node_depth s lp = Ok a -> l_depth s p = Ok a.
Proof. intros h0 K hd tl v s p par lp rp x k d L a H E. destruct (read_ok _ _ _ _ _ _ _ _ _ _ _ _ _ _ H) as [n [R [_ [El _]]]]. unfold l_depth. rewrite R. cbn [bind]. rewrite El. exact E. Qed.
Lemma r_depth_ok : forall h0 K hd tl v s p par lp rp x k d L a, holds h0 K hd tl v s (Cell p par lp rp x k d :: L) -> node_depth s rp = Ok a -> r_depth s p = Ok a.
Proof. intros h0 K hd tl v s p par lp rp x k d L a H E. destruct (read_ok _ _ _ _ _ _ _ _ _ _ _ _ _ _ H) as [n [R [_ [_ [El _]]]]]. unfold r_depth. rewrite R. cbn [bind]. rewrite El. exact E. Qed.
Lemma update_count_ok : forall h0 K hd tl v s p par lp rp x k d L a b, holds h0 K hd tl v s (Cell p par lp rp x k d :: L) ->
  node_count s lp = Ok a -> node_count s rp = Ok b -> (a + b + 1 < 2 ^ 64)%N ->
  exists s', update_count s p = Ok s' /\ holds h0 K hd tl v s' (Cell p par lp rp x (a + b + 1) d :: L).
Proof.
  intros h0 K hd tl v s p par lp rp x k d L a b H Ea Eb B. destruct (read_ok _ _ _ _ _ _ _ _ _ _ _ _ _ _ H) as [n [R [_ [El [Er _]]]]].
  unfold update_count, calc_count. rewrite R. cbn [bind]. rewrite El, Er, Ea, Eb. cbn [bind]. rewrite N.mod_small by exact B. apply (set_count_ok _ _ _ _ _ _ _ _ _ _ _ _ _ _ _ H).
Qed.
Lemma update_depth_ok : forall h0 K hd tl v s p par lp rp x k d L a b, holds h0 K hd tl v s (Cell p par lp rp x k d :: L) ->
  node_depth s lp = Ok a -> node_depth s rp = Ok b -> (a < 255 -> b < 255 ->
  exists s', update_depth s p = Ok s' /\ holds h0 K hd tl v s' (Cell p par lp rp x k (N.max a b + 1) :: L))%N.
Proof.
  intros h0 K hd tl v s p par lp rp x k d L a b H Ea Eb B1 B2. unfold update_depth, calc_depth.
  rewrite (l_depth_ok _ _ _ _ _ _ _ _ _ _ _ _ _ _ _ H Ea), (r_depth_ok _ _ _ _ _ _ _ _ _ _ _ _ _ _ _ H Eb). cbn [bind].
  replace (if (b <? a)%N then a else b) with (N.max a b) by (destruct (N.ltb_spec b a); lia). rewrite N.mod_small by lia. apply (set_depth_ok _ _ _ _ _ _ _ _ _ _ _ _ _ _ _ H).
Qed.
Lemma balance_ok : forall h0 K hd tl v s p par lp rp x k d L a b, holds h0 K hd tl v s (Cell p par lp rp x k d :: L) ->
  node_depth s lp = Ok a -> node_depth s rp = Ok b ->
  avl_check_balance s p = Ok (if (b + 1 <? a)%N then (-1)%Z else if (a + 1 <? b)%N then 1%Z else 0%Z).
Proof.
  intros h0 K hd tl v s p par lp rp x k d L a b H Ea Eb. unfold avl_check_balance.
  rewrite (l_depth_ok _ _ _ _ _ _ _ _ _ _ _ _ _ _ _ H Ea), (r_depth_ok _ _ _ _ _ _ _ _ _ _ _ _ _ _ _ H Eb). cbn [bind]. cbv zeta. f_equal.
  destruct (Z.ltb_spec (Z.of_N b - Z.of_N a) (-1)), (N.ltb_spec (b + 1) a); try lia. destruct (Z.ltb_spec 1 (Z.of_N b - Z.of_N a)), (N.ltb_spec (a + 1) b); lia.
Qed.

(** Links *)
Lemma set_prev_ok : forall h0 K hd tl v s L q a b w, holds h0 K hd tl v s L -> In q (flat_map paddrs L) -> K q = Some (a, b) ->
  exists s', change s q (set_prev w) = Ok s' /\ holds h0 (fun r : nat => if Nat.eqb r q then Some (w, b) else K r) hd tl v s' L.
Proof.
  intros h0 K hd tl v s L q a b w [H1 H2 H3 H4 H5 H6 H7 H8] I E. pose proof (H5 q) as Lq. unfold link in Lq. rewrite E in Lq. destruct (get (cells s) q) as [n|] eqn:G; [|discriminate].
  cbn [option_map] in Lq. assert (Ln : next n = b) by congruence.
  rewrite (change_eq _ _ _ _ G). eexists. split; [reflexivity|]. split; cbn [with_cells cells top head tail]; auto.
  - rewrite Forall_forall in *. intros P IP. apply (ok_frame (cells s)); [|apply H1, IP]. intros r _. apply (fields_put _ _ _ _ _ G). reflexivity.
  - intros r N. rewrite get_put_ne; [apply H3, N|]. intros ->. exact (N I).
  - rewrite length_put. exact H4.
  - intros r. rewrite (link_put _ _ _ _ _ G). destruct (Nat.eqb r q); [cbn; rewrite Ln; reflexivity|apply H5].
Qed.
Lemma set_next_ok : forall h0 K hd tl v s L q a b w, holds h0 K hd tl v s L -> In q (flat_map paddrs L) -> K q = Some (a, b) ->
  exists s', change s q (set_next w) = Ok s' /\ holds h0 (fun r : nat => if Nat.eqb r q then Some (a, w) else K r) hd tl v s' L.
Proof.
  intros h0 K hd tl v s L q a b w [H1 H2 H3 H4 H5 H6 H7 H8] I E. pose proof (H5 q) as Lq. unfold link in Lq. rewrite E in Lq. destruct (get (cells s) q) as [n|] eqn:G; [|discriminate].
  cbn [option_map] in Lq. assert (Ln : prev n = a) by congruence.
  rewrite (change_eq _ _ _ _ G). eexists. split; [reflexivity|]. split; cbn [with_cells cells top head tail]; auto.
  - rewrite Forall_forall in *. intros P IP. apply (ok_frame (cells s)); [|apply H1, IP]. intros r _. apply (fields_put _ _ _ _ _ G). reflexivity.
  - intros r N. rewrite get_put_ne; [apply H3, N|]. intros ->. exact (N I).
  - rewrite length_put. exact H4.
  - intros r. rewrite (link_put _ _ _ _ _ G). destruct (Nat.eqb r q); [cbn; rewrite Ln; reflexivity|apply H5].
Qed.
Lemma links_conv : forall h0 K K' hd tl v s L, (forall q, K q = K' q) -> holds h0 K hd tl v s L -> holds h0 K' hd tl v s L.
Proof. intros h0 K K' hd tl v s L E [H1 H2 H3 H4 H5 H6 H7 H8]. split; auto. intros q. rewrite <- E. apply H5. Qed.
Lemma read_link : forall h0 K hd tl v s L q a b, holds h0 K hd tl v s L -> K q = Some (a, b) -> exists n, read s q = Ok n /\ prev n = a /\ next n = b.
Proof.
  intros h0 K hd tl v s L q a b H E. pose proof (holds_links _ _ _ _ _ _ _ H q) as Lq. unfold link in Lq. rewrite E in Lq. unfold read. destruct (get (cells s) q) as [n|]; [|discriminate].
  exists n. cbn [option_map] in Lq. split; [reflexivity|]. split; congruence.
Qed.
End Avl.
Arguments piece : clear implicits.
