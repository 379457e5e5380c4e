(** Proofs for the removal of directories (C19). *)
From Coq Require Import List Arith NArith ZArith Ascii String Bool Lia.
From Coq Require Import ZifyBool ZifyNat.
Import ListNotations.
From Verif Require Import CBase FsModel FsSpec.

(** * Trees *)
Lemma streq_refl : forall s, streq s s = true.
Proof. intro. now apply streq_spec. Qed.

Lemma streq_neq : forall a b, a <> b -> streq a b = false.
Proof. intros a b H. destruct (streq a b) eqn:E; auto. apply streq_spec in E. congruence. Qed.

Lemma walk_app : forall p q t,
  walk t (p ++ q) = match walk t p with Some x => walk x q | None => None end.
Proof.
  induction p as [|n p IH]; intros q t; [reflexivity|].
  simpl. destruct t; auto. destruct (entry entries n); auto.
Qed.

Lemma entry_In : forall es n x, entry es n = Some x -> In n (map fst es).
Proof.
  induction es as [|[m y] es IH]; simpl; intros n x H; [discriminate|].
  destruct (streq m n) eqn:E; [apply streq_spec in E; auto|eauto].
Qed.

Lemma entry_Some : forall es n, In n (map fst es) -> entry es n <> None.
Proof.
  induction es as [|[m y] es IH]; simpl; intros n H; [tauto|].
  destruct (streq m n) eqn:E; [discriminate|]. apply IH. destruct H as [->|H]; auto.
  rewrite streq_refl in E. discriminate.
Qed.

Lemma entry_remove : forall es n m, NoDup (map fst es) ->
  entry (remove_entry es n) m = if streq n m then None else entry es m.
Proof.
  induction es as [|[a y] es IH]; simpl; intros n m H; [destruct (streq n m); auto|].
  inversion H as [|? ? H1 H2]; subst.
  destruct (streq a n) eqn:E.
  - apply streq_spec in E. subst a. destruct (streq n m) eqn:F; auto.
    apply streq_spec in F. subst m. destruct (entry es n) eqn:G; auto.
    apply entry_In in G. contradiction.
  - simpl. rewrite IH by auto. destruct (streq a m) eqn:F; auto.
    apply streq_spec in F. subst m. destruct (streq n a) eqn:G; auto.
    apply streq_spec in G. subst. rewrite streq_refl in E. discriminate.
Qed.

Lemma entry_set : forall es n m y, entry es n <> None ->
  entry (set_entry es n y) m = if streq n m then Some y else entry es m.
Proof.
  induction es as [|[a x] es IH]; simpl; intros n m y H; [congruence|].
  destruct (streq a n) eqn:E.
  - apply streq_spec in E. subst a. simpl. destruct (streq n m); auto.
  - simpl. rewrite IH by auto. destruct (streq a m) eqn:F; auto.
    apply streq_spec in F. subst m. destruct (streq n a) eqn:G; auto.
    apply streq_spec in G. subst. rewrite streq_refl in E. discriminate.
Qed.

Lemma set_entry_names : forall es n y, map fst (set_entry es n y) = map fst es.
Proof. induction es as [|[a x] es IH]; simpl; intros; auto. destruct (streq a n); simpl; f_equal; auto. Qed.

Lemma remove_entry_names : forall es n m, In m (map fst (remove_entry es n)) -> In m (map fst es).
Proof.
  induction es as [|[a x] es IH]; simpl; intros n m H; auto.
  destruct (streq a n); simpl in *; auto. destruct H; eauto.
Qed.

Lemma remove_entry_NoDup : forall es n, NoDup (map fst es) -> NoDup (map fst (remove_entry es n)).
Proof.
  induction es as [|[a x] es IH]; simpl; intros n H; auto.
  inversion H; subst. destruct (streq a n); simpl; auto. constructor; auto.
  intro I. apply remove_entry_names in I. contradiction.
Qed.

(** Prefix test used in proofs. *)
Fixpoint prefixb (p q : path) : bool :=
  match p, q with
  | [], _ => true
  | a :: p', b :: q' => streq a b && prefixb p' q'
  | _ :: _, [] => false
  end.

Lemma prefixb_spec : forall p q, prefixb p q = true <-> below p q.
Proof.
  unfold below. induction p as [|a p IH]; intros q; simpl.
  - split; eauto.
  - destruct q as [|b q].
    + split; [discriminate|]. intros [s H]. discriminate.
    + rewrite andb_true_iff, streq_spec, IH. split.
      * intros [-> [s ->]]. exists s. reflexivity.
      * intros [s H]. injection H as -> ->. eauto.
Qed.

Lemma delete_unfold : forall n p es,
  delete (Dir es) (n :: p) =
    match p with
    | [] => Dir (remove_entry es n)
    | _ => match entry es n with Some x => Dir (set_entry es n (delete x p)) | None => Dir es end
    end.
Proof. destruct p; reflexivity. Qed.

Lemma shape_dir_cons : forall es n q,
  shape (Dir es) (n :: q) = match entry es n with Some x => shape x q | None => None end.
Proof. intros. unfold shape. simpl. destruct (entry es n); reflexivity. Qed.

Lemma proper_sub : forall t n es x, t = Dir es -> proper_tree t -> entry es n = Some x -> proper_tree x.
Proof. intros t n es x -> H E p es' W. apply (H (n :: p)). simpl. rewrite E. exact W. Qed.

Lemma delete_shape : forall p t x, p <> [] -> proper_tree t -> walk t p = Some x ->
  forall q, shape (delete t p) q = if prefixb p q then None else shape t q.
Proof.
  induction p as [|n p IH]; intros t x Hne Hp W q; [congruence|].
  simpl in W. destruct t as [|es|]; try discriminate.
  destruct (entry es n) as [y|] eqn:E; [|discriminate].
  rewrite delete_unfold. destruct p as [|m p].
  - destruct q as [|b q]; [reflexivity|].
    rewrite !shape_dir_cons, entry_remove by (apply (Hp []); reflexivity).
    simpl. destruct (streq n b); simpl; auto.
  - rewrite E. destruct q as [|b q]; [reflexivity|].
    rewrite !shape_dir_cons, entry_set by congruence.
    cbn [prefixb]. destruct (streq n b) eqn:S; [|reflexivity].
    apply streq_spec in S. subst b. rewrite E. cbn [andb].
    eapply IH; eauto; [discriminate|]. eapply proper_sub; eauto.
Qed.

Lemma delete_proper : forall p t, proper_tree t -> proper_tree (delete t p).
Proof.
  induction p as [|n p IH]; intros t Hp; [destruct t; exact Hp|].
  destruct t as [|es|].
  1, 3: destruct p; exact Hp.
  rewrite delete_unfold.
  assert (ND : NoDup (map fst es)) by (apply (Hp []); reflexivity).
  destruct p as [|m p].
  - intros q es' W. destruct q as [|b q].
    + injection W as <-. now apply remove_entry_NoDup.
    + simpl in W. rewrite entry_remove in W by auto.
      destruct (streq n b); [discriminate|]. apply (Hp (b :: q)). exact W.
  - destruct (entry es n) as [y|] eqn:E; [|exact Hp].
    intros q es' W. destruct q as [|b q].
    + injection W as <-. rewrite set_entry_names. exact ND.
    + simpl in W. rewrite entry_set in W by congruence.
      destruct (streq n b) eqn:S; [|apply (Hp (b :: q)); exact W].
      eapply (IH y); [eapply proper_sub; eauto|exact W].
Qed.

(** * Path resolution without links *)
Definition plain (x : option node) : Prop := match x with Some (Link _) => False | _ => True end.

Lemma walk_prefix_dir : forall p n t x, walk t (p ++ [n]) = Some x -> exists es, walk t p = Some (Dir es) /\ entry es n = Some x.
Proof.
  intros p n t x H. rewrite walk_app in H. destruct (walk t p) as [y|] eqn:E; [|discriminate].
  simpl in H. destruct y; try discriminate. destruct (entry entries n) eqn:F; [|discriminate].
  exists entries. split; auto. congruence.
Qed.

Lemma resolve_plain : forall todo fuel root cur,
  (forall k n, k ++ [n] = todo -> plain (walk root (cur ++ todo))) ->
  (forall k, below k (cur ++ todo) -> k <> cur ++ todo -> forall t, walk root k <> Some (Link t)) ->
  resolve_path (S fuel) root cur todo =
    match todo with [] => Some cur | _ => match walk root (cur ++ todo) with Some _ => Some (cur ++ todo) | None => None end end.
Proof.
  intros todo fuel root. induction todo as [|n rest IH]; intros cur Hl Hk; [reflexivity|].
  assert (E : resolve_path (S fuel) root cur (n :: rest) =
     match walk root (cur ++ [n]) with
     | None => None
     | Some (Link t) => resolve_path fuel root [] (t ++ rest)
     | Some _ => resolve_path (S fuel) root (cur ++ [n]) rest
     end) by reflexivity.
  rewrite E. clear E.
  assert (A : (cur ++ [n]) ++ rest = cur ++ n :: rest) by (rewrite <- app_assoc; reflexivity).
  destruct (walk root (cur ++ [n])) as [x|] eqn:W.
  - assert (NL : forall t, x <> Link t).
    { intros t ->. destruct rest as [|m rest].
      - specialize (Hl [] n eq_refl). rewrite W in Hl. exact Hl.
      - apply (Hk (cur ++ [n])) with (t := t); auto.
        + exists (m :: rest). rewrite <- app_assoc. reflexivity.
        + intro Z. apply (f_equal (@List.length _)) in Z. rewrite !app_length in Z. simpl in Z. lia. }
    assert (R : resolve_path (S fuel) root (cur ++ [n]) rest =
       match walk root (cur ++ n :: rest) with Some _ => Some (cur ++ n :: rest) | None => None end).
    { rewrite IH.
      - rewrite A. destruct rest as [|m rest]; [rewrite W; reflexivity|reflexivity].
      - intros k m Z. rewrite A. apply (Hl (n :: k) m). simpl. now rewrite Z.
      - rewrite A. exact Hk. }
    destruct x; try exact R. exfalso. eapply NL; reflexivity.
  - rewrite walk_app in W. rewrite walk_app. destruct (walk root cur) as [y|]; auto.
    simpl in *. destruct y; auto. destruct (entry entries n); [discriminate|reflexivity].
Qed.

Lemma follow_plain : forall root p,
  plain (walk root p) -> (forall k t, below k p -> k <> p -> walk root k <> Some (Link t)) ->
  follow root p = match walk root p with Some _ => Some p | None => None end.
Proof.
  intros root p Hp Hk. unfold follow. rewrite resolve_plain.
  - destruct p; reflexivity.
  - intros. exact Hp.
  - intros k A B t. apply Hk; auto.
Qed.

Lemma walk_above_dir : forall root p s x, s <> [] -> walk root (p ++ s) = Some x -> exists es, walk root p = Some (Dir es).
Proof.
  intros root p s x Hs H. rewrite walk_app in H. destruct (walk root p) as [y|]; [|discriminate].
  destruct s as [|a s]; [congruence|]. simpl in H. destruct y; try discriminate. eauto.
Qed.

(** A directory reached without links. *)
Lemma follow_dir : forall root p es, walk root p = Some (Dir es) -> follow root p = Some p.
Proof.
  intros root p es W. rewrite follow_plain; [rewrite W; reflexivity|rewrite W; exact I|].
  intros k t [s ->] Hne. destruct s as [|a s]; [rewrite app_nil_r in Hne; congruence|].
  destruct (walk_above_dir root k (a :: s) (Dir es)) as [es' ->]; [discriminate|exact W|discriminate].
Qed.

Lemma follow_below_dir : forall root p n es, walk root p = Some (Dir es) ->
  plain (walk root (p ++ [n])) ->
  follow root (p ++ [n]) = match walk root (p ++ [n]) with Some _ => Some (p ++ [n]) | None => None end.
Proof.
  intros root p n es W P. apply follow_plain; auto.
  intros k t [s E] Hne.
  destruct s as [|a s] using rev_ind; [rewrite app_nil_r in E; congruence|]. clear IHs.
  rewrite app_assoc in E. apply app_inj_tail in E as [-> ->].
  destruct s as [|b s]; [rewrite app_nil_r in W; rewrite W; discriminate|].
  destruct (walk_above_dir root k (b :: s) (Dir es)) as [es' ->]; [discriminate|exact W|discriminate].
Qed.

Lemma nofollow_below : forall root p n es, walk root p = Some (Dir es) -> nofollow root (p ++ [n]) = Some (p ++ [n]).
Proof.
  intros root p n es W. unfold nofollow, parent_and_name. rewrite rev_app_distr. simpl.
  rewrite rev_involutive, (follow_dir _ _ _ W). reflexivity.
Qed.

Lemma directory_exists_below : forall root p n es, walk root p = Some (Dir es) ->
  plain (walk root (p ++ [n])) ->
  directory_exists root (p ++ [n]) = match walk root (p ++ [n]) with Some (Dir _) => true | _ => false end.
Proof.
  intros root p n es W P. unfold directory_exists, stat. rewrite (follow_below_dir _ _ _ _ W P).
  destruct (walk root (p ++ [n])) eqn:E; auto. rewrite E. reflexivity.
Qed.

(** * The removal *)
(** Below p things may have disappeared, elsewhere nothing changed. *)
Definition shrinks (p : path) (t t' : node) : Prop :=
  (forall q, ~ below p q -> shape t' q = shape t q) /\
  (forall q, below p q -> shape t' q = None \/ shape t' q = shape t q).

Lemma shrinks_refl : forall p t, shrinks p t t.
Proof. split; auto. Qed.

Lemma shrinks_trans : forall p a b c, shrinks p a b -> shrinks p b c -> shrinks p a c.
Proof.
  intros p a b c [H1 H2] [H3 H4]. split.
  - intros q Hq. rewrite H3, H1; auto.
  - intros q Hq. destruct (H4 q Hq) as [->| ->]; auto.
Qed.

Lemma below_dec : forall p q, below p q \/ ~ below p q.
Proof.
  intros p q. destruct (prefixb p q) eqn:E; [left|right].
  - now apply prefixb_spec.
  - rewrite <- prefixb_spec. congruence.
Qed.

Lemma shrinks_up : forall p n a b, shrinks (p ++ [n]) a b -> shrinks p a b.
Proof.
  intros p n a b [H1 H2]. split.
  - intros q Hq. apply H1. intros [s ->]. apply Hq. exists ([n] ++ s). rewrite app_assoc. reflexivity.
  - intros q _. destruct (below_dec (p ++ [n]) q) as [B|B]; [apply H2; auto|right; apply H1; auto].
Qed.

Lemma shrinks_mono : forall p a b q, shrinks p a b -> shape b q <> None -> shape b q = shape a q.
Proof.
  intros p a b q [H1 H2] Hq. destruct (below_dec p q) as [B|B]; [|auto].
  destruct (H2 q B) as [E|E]; congruence.
Qed.

Lemma shape_walk_dir : forall t p, shape t p = Some SDir <-> exists es, walk t p = Some (Dir es).
Proof.
  intros t p. unfold shape. destruct (walk t p) as [[|es|]|]; split; intro H; try discriminate; eauto;
    destruct H as [es' H]; discriminate.
Qed.

Section Removing.
Variable fails : nat -> bool.

(** What a removal at p achieves. *)
Definition result_ok (p : path) (d : disk) (r : Z) (d' : disk) : Prop :=
  proper_tree (root d') /\ shrinks p (root d) (root d') /\
  (r = 0%Z -> forall q, below p q -> shape (root d') q = None) /\
  (r <> 0%Z -> exists k, time d <= k < time d' /\ fails k = true).

Lemma unlink_ok : forall p n es d,
  proper_tree (root d) -> walk (root d) p = Some (Dir es) -> walk (root d) (p ++ [n]) = Some File ->
  let (r, d') := sys_unlink fails (p ++ [n]) d in result_ok (p ++ [n]) d r d' /\ time d <= time d'.
Proof.
  intros p n es d Hp Hw Hf. unfold sys_unlink.
  destruct (fails (time d)) eqn:F.
  - split; [|cbn; lia]. split; [exact Hp|]. split; [apply shrinks_refl|]. split; [lia|].
    intros _. exists (time d). cbn. split; [lia|auto].
  - rewrite (nofollow_below _ _ _ _ Hw), Hf. split; [|cbn; lia].
    assert (S : forall q, shape (delete (root d) (p ++ [n])) q = if prefixb (p ++ [n]) q then None else shape (root d) q).
    { eapply delete_shape; eauto. intro Z. apply app_eq_nil in Z as [_ Z]. discriminate. }
    split; [now apply delete_proper|]. cbn [root time]. split; [split|split].
    + intros q Hq. rewrite S. rewrite <- prefixb_spec in Hq. destruct (prefixb _ q); [congruence|auto].
    + intros q Hq. rewrite S. apply prefixb_spec in Hq. rewrite Hq. auto.
    + intros _ q Hq. rewrite S. apply prefixb_spec in Hq. rewrite Hq. auto.
    + intros Z. congruence.
Qed.

Lemma rmdir_ok : forall p n es d,
  proper_tree (root d) -> walk (root d) p = Some (Dir es) -> walk (root d) (p ++ [n]) = Some (Dir []) ->
  let (r, d') := sys_rmdir fails (p ++ [n]) d in result_ok (p ++ [n]) d r d' /\ time d <= time d'.
Proof.
  intros p n es d Hp Hw Hf. unfold sys_rmdir.
  destruct (fails (time d)) eqn:F.
  - split; [|cbn; lia]. split; [exact Hp|]. split; [apply shrinks_refl|]. split; [lia|].
    intros _. exists (time d). cbn. split; [lia|auto].
  - rewrite (nofollow_below _ _ _ _ Hw), Hf. split; [|cbn; lia].
    assert (S : forall q, shape (delete (root d) (p ++ [n])) q = if prefixb (p ++ [n]) q then None else shape (root d) q).
    { eapply delete_shape; eauto. intro Z. apply app_eq_nil in Z as [_ Z]. discriminate. }
    split; [now apply delete_proper|]. cbn [root time]. split; [split|split].
    + intros q Hq. rewrite S. rewrite <- prefixb_spec in Hq. destruct (prefixb _ q); [congruence|auto].
    + intros q Hq. rewrite S. apply prefixb_spec in Hq. rewrite Hq. auto.
    + intros _ q Hq. rewrite S. apply prefixb_spec in Hq. rewrite Hq. auto.
    + intros Z. congruence.
Qed.

Definition pre (len : nat) (p : path) (d : disk) : Prop :=
  proper_tree (root d) /\ no_links_below (root d) p /\ texts_fit (root d) p len.

Definition rec_ok (rec : nat -> path -> disk -> res (Z * disk)) (len : nat) : Prop :=
  forall len' p n es es' d, len < len' -> pre len' (p ++ [n]) d ->
    walk (root d) p = Some (Dir es) -> walk (root d) (p ++ [n]) = Some (Dir es') ->
    exists r d', rec len' (p ++ [n]) d = Ok (r, d') /\ result_ok (p ++ [n]) d r d' /\ time d <= time d'.

Lemma pre_down : forall len p n d, pre len p d -> pre (len + 1 + List.length n) (p ++ [n]) d.
Proof.
  intros len p n d (A & B & C). split; auto. split.
  - intros q t. rewrite <- app_assoc. apply B.
  - intros q. rewrite <- app_assoc. intro H. apply (C ([n] ++ q)) in H. exact H.
Qed.

Lemma pre_shrinks : forall len p d d', pre len p d -> proper_tree (root d') -> shrinks p (root d) (root d') -> pre len p d'.
Proof.
  intros len p d d' (A & B & C) Hp S. split; auto. split.
  - intros q t H. apply (B q t). rewrite <- H. symmetry. eapply shrinks_mono; eauto. congruence.
  - intros q H. apply C. erewrite <- shrinks_mono; eauto.
Qed.

Lemma text_length_le : forall q len, len <= text_length len q.
Proof. induction q as [|n q IH]; intros len; simpl; auto. specialize (IH (len + 1 + List.length n)). lia. Qed.

Lemma loop_ok : forall rec len p, rec_ok rec len ->
  forall names es d, pre len p d -> walk (root d) p = Some (Dir es) -> NoDup names ->
  (forall n, shape (root d) (p ++ [n]) <> None <-> In n names) ->
  exists r d', remove_loop fails rec len p names d = Ok (r, d') /\
    proper_tree (root d') /\ shrinks p (root d) (root d') /\ shape (root d') p = Some SDir /\
    (r = 0%Z -> forall n, shape (root d') (p ++ [n]) = None) /\
    (r <> 0%Z -> exists k, time d <= k < time d' /\ fails k = true) /\ time d <= time d'.
Proof.
  intros rec len p Hrec. induction names as [|n ns IH]; intros es d Hpre Hw ND Hn.
  - exists 0%Z, d. split; [reflexivity|]. split; [apply Hpre|]. split; [apply shrinks_refl|].
    split; [apply shape_walk_dir; eauto|]. split; [|split; [congruence|lia]].
    intros _ n. destruct (shape (root d) (p ++ [n])) eqn:E; auto. exfalso. apply (proj1 (Hn n)). congruence.
  - cbn [remove_loop]. cbv zeta.
    assert (Hex : shape (root d) (p ++ [n]) <> None) by (apply Hn; left; reflexivity).
    assert (Hfit : len + 1 + List.length n <= 441).
    { destruct Hpre as (_ & _ & C). apply (C [n]) in Hex. exact Hex. }
    unfold name_fits. destruct (Nat.ltb_spec 443 (len + 1 + List.length n)); [lia|].
    destruct (Nat.ltb_spec 441 (len + 1 + List.length n)); [lia|]. cbn [bind].
    assert (Hpl : plain (walk (root d) (p ++ [n]))).
    { destruct (walk (root d) (p ++ [n])) as [[| |t]|] eqn:E; simpl; auto.
      destruct Hpre as (_ & B & _). apply (B [n] t). unfold shape. rewrite E. reflexivity. }
    rewrite (directory_exists_below _ _ _ _ Hw Hpl).
    assert (STEP : exists r d1,
       (if match walk (root d) (p ++ [n]) with Some (Dir _) => true | _ => false end
        then rec (len + 1 + List.length n) (p ++ [n]) d else Ok (sys_unlink fails (p ++ [n]) d)) = Ok (r, d1) /\
       result_ok (p ++ [n]) d r d1 /\ time d <= time d1).
    { destruct (walk (root d) (p ++ [n])) as [[|es'|t]|] eqn:E.
      - pose proof (unlink_ok p n es d (proj1 Hpre) Hw E) as U.
        destruct (sys_unlink fails (p ++ [n]) d) as [r d1]. eauto.
      - apply (Hrec _ _ _ es es'); auto; [lia|]. now apply pre_down.
      - simpl in Hpl. contradiction.
      - exfalso. apply Hex. unfold shape. rewrite E. reflexivity. }
    destruct STEP as (r & d1 & -> & (P1 & S1 & Z1 & F1) & T1). cbn [bind].
    destruct (Z.eqb_spec r 0) as [->|Hr].
    + assert (Sp : shrinks p (root d) (root d1)) by (eapply shrinks_up; eauto).
      assert (Hd1 : shape (root d1) p = Some SDir).
      { rewrite (proj1 S1). - apply shape_walk_dir. eauto.
        - intros [s Z]. apply (f_equal (@List.length _)) in Z. rewrite !app_length in Z. simpl in Z. lia. }
      apply shape_walk_dir in Hd1 as [es1 Hw1].
      inversion ND as [|? ? N1 N2]; subst.
      destruct (IH es1 d1) as (r & d2 & E & P2 & S2 & D2 & Z2 & F2 & T2).
      * eapply pre_shrinks; eauto.
      * exact Hw1.
      * exact N2.
      * intros m. destruct (list_eq_dec (list_eq_dec Ascii.ascii_dec) [m] [n]) as [Q|Q].
        -- injection Q as ->. rewrite Z1; auto; [|exists []; now rewrite app_nil_r].
           split; [congruence|contradiction].
        -- rewrite (proj1 S1).
           ++ rewrite Hn. simpl. split; [intros [->|]; [congruence|auto]|auto].
           ++ intros [s Z]. rewrite <- app_assoc in Z. apply app_inv_head in Z. injection Z as -> _. congruence.
      * exists r, d2. rewrite E. split; [reflexivity|]. split; [exact P2|]. split; [eapply shrinks_trans; eauto|].
        split; [exact D2|]. split; [exact Z2|]. split; [|lia].
        intro Hr. destruct (F2 Hr) as (k & Hk & Fk). exists k. split; [lia|auto].
    + exists r, d1. split; [reflexivity|]. split; [exact P1|]. split; [eapply shrinks_up; eauto|].
      split.
      { rewrite (proj1 S1). - apply shape_walk_dir. eauto.
        - intros [s Z]. apply (f_equal (@List.length _)) in Z. rewrite !app_length in Z. simpl in Z. lia. }
      split; [congruence|]. split; auto.
Qed.

Lemma remove_rec_ok : forall fuel len p n es es' d,
  445 < fuel + len -> len <= 441 -> pre len (p ++ [n]) d ->
  walk (root d) p = Some (Dir es) -> walk (root d) (p ++ [n]) = Some (Dir es') ->
  exists r d', remove_rec fails fuel len (p ++ [n]) d = Ok (r, d') /\ result_ok (p ++ [n]) d r d' /\ time d <= time d'.
Proof.
  induction fuel as [|fuel IH]; intros len p n es es' d Hf Hl Hpre Hw Hw'; [lia|].
  cbn [remove_rec]. unfold sys_opendir, stat.
  rewrite (follow_dir _ _ _ Hw'), Hw'.
  assert (DE : directory_exists (root d) (p ++ [n]) = true).
  { unfold directory_exists, stat. rewrite (follow_dir _ _ _ Hw'), Hw'. reflexivity. }
  destruct (fails (time d)) eqn:F.
  - unfold tick. cbn [root]. rewrite DE. cbn [negb bind]. cbv iota. 
    exists (-1)%Z, {| root := root d; time := S (time d) |}. split; [reflexivity|]. split; [|cbn; lia].
    split; [apply Hpre|]. split; [apply shrinks_refl|]. split; [congruence|].
    intros _. exists (time d). cbn. split; [lia|auto].
  - unfold tick. cbn [root]. rewrite DE. cbn [negb]. cbv iota.
    set (d1 := {| root := root d; time := S (time d) |}).
    assert (L : exists r d', remove_loop fails (remove_rec fails fuel) len (p ++ [n]) (map fst es') d1 = Ok (r, d') /\
      proper_tree (root d') /\ shrinks (p ++ [n]) (root d1) (root d') /\ shape (root d') (p ++ [n]) = Some SDir /\
      (r = 0%Z -> forall m, shape (root d') ((p ++ [n]) ++ [m]) = None) /\
      (r <> 0%Z -> exists k, time d1 <= k < time d' /\ fails k = true) /\ time d1 <= time d').
    { eapply loop_ok with (es := es').
      - intros len' p' n' e e' d' H1 H2 H3 H4. eapply IH; eauto; [lia|].
        destruct H2 as (_ & _ & C). specialize (C []). rewrite app_nil_r in C. simpl in C. apply C.
        unfold shape. rewrite H4. discriminate.
      - exact Hpre.
      - exact Hw'.
      - apply (proj1 Hpre (p ++ [n])). exact Hw'.
      - intros m. unfold shape. rewrite walk_app. cbn [root d1]. rewrite Hw'. simpl.
        split; intro H.
        + destruct (entry es' m) eqn:E; [eapply entry_In; eauto|congruence].
        + apply entry_Some in H. destruct (entry es' m) as [[]|]; congruence. }
    destruct L as (r & d2 & -> & P2 & S2 & D2 & Z2 & F2 & T2). cbn [bind].
    destruct (Z.eqb_spec r 0) as [->|Hr].
    + apply shape_walk_dir in D2 as [es2 W2].
      assert (es2 = []).
      { destruct es2 as [|[m x] es2]; auto. exfalso.
        specialize (Z2 eq_refl m). unfold shape in Z2. rewrite walk_app, W2 in Z2. simpl in Z2.
        rewrite streq_refl in Z2. destruct x; discriminate. }
      subst es2.
      assert (Wp : exists e, walk (root d2) p = Some (Dir e)).
      { eapply walk_above_dir with (s := [n]); [discriminate|exact W2]. }
      destruct Wp as [e We].
      pose proof (rmdir_ok p n e d2 P2 We W2) as R.
      destruct (sys_rmdir fails (p ++ [n]) d2) as [r d3]. destruct R as ((P3 & S3 & Z3 & F3) & T3).
      exists r, d3. split; [reflexivity|]. cbn [time d1] in *. split; [|lia]. split; [exact P3|].
      split; [eapply shrinks_trans; [exact S2|exact S3]|]. split; [exact Z3|].
      intro Hr. destruct (F3 Hr) as (k & Hk & Fk). exists k. split; [lia|auto].
    + exists r, d2. split; [reflexivity|]. cbn [time d1] in *. split; [|lia]. split; [exact P2|]. split; [exact S2|].
      split; [congruence|]. intros _. destruct (F2 Hr) as (k & Hk & Fk). exists k. split; [lia|auto].
Qed.

Lemma remove_missing : forall len p d,
  (forall es, stat (root d) p <> Some (Dir es)) ->
  exists d', coco_remove_directory fails len p d = Ok (0%Z, d') /\ root d' = root d.
Proof.
  intros len p d H. unfold coco_remove_directory. cbn [remove_rec]. unfold sys_opendir, directory_exists.
  destruct (fails (time d)); cbn [tick root].
  - destruct (stat (root d) p) as [[| |]|] eqn:E; cbn [negb]; eauto. exfalso. eapply H; eauto.
  - destruct (stat (root d) p) as [[| |]|] eqn:E; cbn [tick root]; rewrite ?E; cbn [negb]; eauto. exfalso. eapply H; eauto.
Qed.

Lemma remove_correct : forall len p es d,
  p <> [] -> proper_tree (root d) -> no_links_below (root d) p -> texts_fit (root d) p len ->
  walk (root d) p = Some (Dir es) ->
  exists r d', coco_remove_directory fails len p d = Ok (r, d') /\
    (forall q, ~ below p q -> shape (root d') q = shape (root d) q) /\
    (r = 0%Z -> forall q, below p q -> shape (root d') q = None) /\
    (r <> 0%Z -> exists k, time d <= k < time d' /\ fails k = true).
Proof.
  intros len p es d Hne Hp Hl Ht Hw.
  destruct p as [|n p] using rev_ind; [congruence|]. clear IHp Hne.
  assert (Wp : exists e, walk (root d) p = Some (Dir e)).
  { eapply walk_above_dir with (s := [n]); [discriminate|exact Hw]. }
  destruct Wp as [e We].
  assert (L : len <= 441).
  { specialize (Ht []). rewrite app_nil_r in Ht. simpl in Ht. apply Ht. unfold shape. rewrite Hw. discriminate. }
  destruct (remove_rec_ok 500 len p n e es d) as (r & d' & E & (P & S & Z & F) & T); auto; try lia.
  { split; auto. }
  exists r, d'. split; [exact E|]. split; [apply S|]. split; auto.
Qed.
End Removing.
