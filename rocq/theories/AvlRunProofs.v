(** Proofs: the public functions of the tree, and histories. *)
From Coq Require Import List Arith NArith ZArith Bool Lia Permutation.
Import ListNotations.
From Verif Require Import CBase MoModel AvlModel AvlSpec AvlTreeProofs AvlMemProofs AvlRebalProofs AvlInsertProofs AvlDeleteProofs AvlSearchProofs.

Section Avl.
Context {A : Type}.
Variable cmp : A -> A -> Z.
Implicit Types (h : heap A) (s : avl A) (t : tree A) (c : list (frame A)).

(** ** Reading through the pointers *)
Lemma entry_cell : forall s t p x, represents s t -> In (p, x) (entries t) -> exists n, get (cells s) p = Some n /\ item n = x.
Proof.
  intros s t p x R I. apply in_split in I as [e1 [e2 E]]. destruct (locate _ _ _ _ _ E) as [c [l [r [Ht _]]]].
  assert (M : in_memory (cells s) (above c None) (Fork l p x r)) by (apply memory_plug; rewrite <- Ht; apply R). cbn [in_memory] in M. destruct M as [[n [G [_ [_ [_ [Ei _]]]]]] _]. eauto.
Qed.
Lemma entries_fun : forall s t p x y, represents s t -> In (p, x) (entries t) -> In (p, y) (entries t) -> x = y.
Proof. intros s t p x y R I J. destruct (entry_cell _ _ _ _ R I) as [n [G <-]]. destruct (entry_cell _ _ _ _ R J) as [m [G' <-]]. congruence. Qed.
Lemma forward_ok : forall h e bf, linked h bf (map fst e) None -> (forall p x, In (p, x) e -> exists n, get h p = Some n /\ item n = x) -> forward h (hd_error (map fst e)) (map snd e).
Proof.
  intros h e. induction e as [|[p x] e IH]; intros bf L C; cbn [map hd_error fst snd] in *; [constructor|]. destruct L as [[n [G [_ Nx]]] L]. destruct (C p x (or_introl eq_refl)) as [n' [G' Ei]].
  assert (n' = n) by congruence. subst n'. rewrite <- Ei. eapply forward_step; [exact G|]. rewrite Nx. specialize (IH _ L (fun q y I => C q y (or_intror I))). destruct e as [|[q y] e]; exact IH.
Qed.
Lemma backward_ok : forall h e af, linked h None (map fst e) af -> (forall p x, In (p, x) e -> exists n, get h p = Some n /\ item n = x) -> backward h (last_addr e) (rev (map snd e)).
Proof.
  intros h e. induction e as [|[p x] e IH] using rev_ind; intros af L C; [constructor|].
  assert (La : last_addr (e ++ [(p, x)]) = Some p) by (unfold last_addr, last_opt; rewrite rev_app_distr; reflexivity). rewrite La, map_app, rev_app_distr. cbn [map snd rev app].
  destruct (C p x ltac:(apply in_or_app; right; left; reflexivity)) as [n [G Ei]]. rewrite <- Ei. eapply backward_step; [exact G|].
  assert (Q : linked h None (map fst e) (Some p) /\ prev n = last_addr e).
  { apply linked_chain in L. rewrite map_app in L. cbn [map fst] in L. apply chain_app in L. destruct L as [L1 [L2 _]]. split; [apply linked_chain, L1|]. unfold link in L2. rewrite G in L2. cbn [option_map] in L2.
    rewrite <- lastof_addr. congruence. }
  destruct Q as [Q1 ->]. apply (IH _ Q1). intros q y I. apply C. apply in_or_app; left; exact I.
Qed.
Lemma represents_forward : forall s t, represents s t -> forward (cells s) (head s) (items t).
Proof.
  intros s t R. pose proof R as [_ [_ [_ [L [Hh _]]]]]. rewrite Hh, items_entries. rewrite addrs_entries in *. apply (forward_ok _ _ None L). intros p x I. apply (entry_cell s t _ _ R I).
Qed.
Lemma represents_backward : forall s t, represents s t -> backward (cells s) (tail s) (rev (items t)).
Proof.
  intros s t R. pose proof R as [_ [_ [_ [L [_ [Ht _]]]]]]. rewrite Ht, items_entries. rewrite addrs_entries in *.
  replace (last_opt (map fst (entries t))) with (last_addr (entries t)) by (rewrite <- lastof_addr; apply lastof_none).
  apply (backward_ok _ _ None L). intros p x I. apply (entry_cell s t _ _ R I).
Qed.
Lemma size_items : forall t, size t = N.of_nat (length (items t)).
Proof. induction t as [|l IHl p x r IHr]; cbn [size items]; [reflexivity|]. rewrite app_length. cbn [length]. lia. Qed.
Lemma count_ok : forall s t, represents s t -> avl_count s = Ok (N.of_nat (length (items t))).
Proof.
  intros s t R. rewrite <- size_items. unfold avl_count. pose proof R as [Et [M _]]. rewrite Et. destruct t as [|l p x r]; [reflexivity|]. cbn [root in_memory node_count] in *. destruct M as [[n [G [_ [_ [_ [_ [Ec _]]]]]]] _].
  unfold read. rewrite G. cbn [bind]. rewrite Ec. reflexivity.
Qed.
Lemma descends_ok : forall t h par k, in_memory h par t -> descends h (root t) k -> (N.of_nat k <= height t)%N.
Proof.
  induction t as [|l IHl p x r IHr]; intros h par k M D; cbn [root height in_memory] in *.
  - inversion D; subst. reflexivity.
  - destruct M as [[n [G [_ [El [Er _]]]]] [Ml Mr]]. inversion D as [?|? m k' G' D'|? m k' G' D']; subst; [lia| |]; assert (m = n) by congruence; subst m.
    + rewrite El in D'. specialize (IHl _ _ _ Ml D'). lia.
    + rewrite Er in D'. specialize (IHr _ _ _ Mr D'). lia.
Qed.
Lemma fib_square : forall k, (2 ^ N.of_nat k <= fib (k + 2) * fib (k + 2))%N /\ (2 ^ N.of_nat (S k) <= fib (k + 3) * fib (k + 3))%N.
Proof.
  induction k as [|k [I1 I2]]; [split; cbn; lia|]. split; [replace (S k + 2)%nat with (k + 3)%nat by lia; exact I2|].
  replace (S k + 3)%nat with (S (S (k + 2))) by lia. rewrite fib_SS. replace (S (k + 2)) with (k + 3)%nat by lia. assert (M : (fib (k + 2) <= fib (k + 3))%N) by (apply fib_le; lia).
  replace (N.of_nat (S (S k))) with (2 + N.of_nat k)%N by lia. rewrite N.pow_add_r. change (2 ^ 2)%N with 4%N. set (u := fib (k + 3)) in *. set (v := fib (k + 2)) in *. nia.
Qed.
Lemma height_ok : forall s t k, represents s t -> descends (cells s) (top s) k -> (2 ^ N.of_nat k <= (N.of_nat (length (items t)) + 1) ^ 2)%N.
Proof.
  intros s t k R D. pose proof R as [Et [M [_ [_ [_ [_ [B _]]]]]]]. rewrite Et in D. pose proof (descends_ok _ _ _ _ M D) as K. pose proof (height_size _ B) as Hs. rewrite size_items in Hs.
  destruct (fib_square k) as [F _]. assert (L : (fib (k + 2) <= fib (N.to_nat (height t) + 2))%N) by (apply fib_le; lia). rewrite N.pow_2_r. nia.
Qed.

(** ** Insertion and deletion of items *)
Lemma allocated_ok : forall s t new (g : node A), represents s t -> get (cells s) new = None -> represents (allocated s new g) t.
Proof.
  intros s t new g R F. apply represents_frame; [exact R|]. intros q I. cbn [get]. destruct (Nat.eqb_spec q new) as [->|N]; [|reflexivity]. exfalso. destruct R as [_ [M _]]. apply (sub_live _ _ _ _ M I F).
Qed.
Lemma item_insert_ok : forall s t x new g, represents s t -> three_way cmp x (items t) -> get (cells s) new = None -> (size t + 1 < 2 ^ 64)%N ->
  (exists s' t' e1 e2, avl_item_insert cmp s x new g = Ok (s', Some new) /\ represents s' t' /\ entries t = e1 ++ e2 /\ entries t' = e1 ++ (new, x) :: e2 /\
    (forall e, In e e1 -> (0 < cmp x (snd e))%Z) /\ (forall e, In e e2 -> (cmp x (snd e) < 0)%Z) /\ frame_kept (cells s) (cells s') (new :: addrs t)) \/
  (exists s', avl_item_insert cmp s x new g = Ok (s', None) /\ represents s' t /\ (forall q, get (cells s') q = get (cells s) q) /\ exists y, In y (items t) /\ cmp x y = 0%Z).
Proof.
  intros s t x new g R TW F Sz. unfold avl_item_insert. cbv zeta. fold (allocated s new (set_item x g)). pose proof (allocated_ok s t new (set_item x g) R F) as Ra.
  destruct (search_rightish_ok cmp _ t x Ra TW) as [o [ex [E Fd]]]. rewrite E. cbn [bind]. destruct ex; cbn [found] in Fd.
  - right. destruct Fd as [c [l [p [y [r [-> [F1 [F2 _]]]]]]]]. eexists. split; [reflexivity|].
    assert (Q : forall q, get (release (cells (allocated s new (set_item x g))) new) q = get (cells s) q).
    { intros q. destruct (Nat.eq_dec q new) as [->|N]; [rewrite get_release_eq; symmetry; exact F|]. rewrite get_release_ne by exact N. cbn [allocated with_cells cells get]. apply Nat.eqb_neq in N. rewrite N. reflexivity. }
    split; [|split; [exact Q|]].
    + apply represents_frame; [exact Ra|]. intros q I. rewrite Q. cbn [allocated with_cells cells get]. destruct (Nat.eqb_spec q new) as [->|N]; [|reflexivity]. exfalso. destruct R as [_ [M _]]. apply (sub_live _ _ _ _ M I F).
    + exists y. split; [|exact F2]. rewrite F1, items_plug. cbn [items]. apply in_or_app; right. apply in_or_app; left. apply in_or_app; right. left; reflexivity.
  - left. destruct Fd as [e1 [e2 [F1 [-> [F3 F4]]]]]. destruct (insert_node_ok s t e1 e2 new (set_item x g) R F1 F Sz) as [s' [t' [E1 [E2 [E3 [E4 _]]]]]]. rewrite E1. cbn [bind].
    exists s', t', e1, e2. split; [reflexivity|]. split; [exact E2|]. split; [exact F1|]. split; [exact E3|]. split; [exact F3|]. split; [exact F4|exact E4].
Qed.
Lemma item_delete_ok : forall s t x, represents s t -> three_way cmp x (items t) ->
  (exists s' t' e1 p y e2, avl_item_delete cmp s x = Ok (s', Some y) /\ represents s' t' /\ entries t = e1 ++ (p, y) :: e2 /\ cmp x y = 0%Z /\ entries t' = e1 ++ e2 /\
    frame_kept (cells s) (cells s') (addrs t) /\ get (cells s') p = None) \/
  (avl_item_delete cmp s x = Ok (s, None) /\ forall y, In y (items t) -> cmp x y <> 0%Z).
Proof.
  intros s t x R TW. unfold avl_item_delete. destruct (item_search_ok cmp s t x R TW) as [[p [y [e1 [e2 [E [E1 E2]]]]]]|[E N]]; rewrite E; cbn [bind].
  - left. destruct (delete_ok s t e1 p y e2 R E1) as [s' [t' [D1 [D2 [D3 [D4 D5]]]]]]. exists s', t', e1, p, y, e2. rewrite D1. auto 10.
  - right. split; [reflexivity|exact N].
Qed.

(** ** Purge *)
Lemma purge_ok : forall e fuel s bf, linked (cells s) bf (map fst e) None -> NoDup (map fst e) -> (forall p x, In (p, x) e -> exists n, get (cells s) p = Some n /\ item n = x) -> (length e <= fuel)%nat ->
  exists s', purge_loop fuel s (hd_error (map fst e)) = Ok (s', map snd e) /\ (forall q, get (cells s') q = if in_dec Nat.eq_dec q (map fst e) then None else get (cells s) q).
Proof.
  induction e as [|[p x] e IH]; intros fuel s bf L N C Hf; cbn [map fst snd hd_error length] in *.
  - exists s. destruct fuel; (split; [reflexivity|]); intros q; reflexivity.
  - destruct fuel as [|fuel]; [lia|]. cbn [purge_loop]. destruct L as [[n [G [_ Nx]]] L]. unfold read. rewrite G. cbn [bind]. destruct (C p x (or_introl eq_refl)) as [n' [G' Ei]]. assert (n' = n) by congruence. subst n'.
    inversion N as [|? ? Np Ne]; subst. set (s1 := with_cells s (release (cells s) p)).
    assert (K : forall q, In q (map fst e) -> get (cells s1) q = get (cells s) q) by (intros q I; apply get_release_ne; intros ->; contradiction).
    assert (L1 : linked (cells s1) (Some p) (map fst e) None).
    { revert L K. clear. generalize (Some p) as bf. induction (map fst e) as [|q l IH]; intros bf L K; [exact L|]. destruct L as [[n [G R]] L]. split; [exists n; rewrite K by (left; reflexivity); auto|]. apply IH; [exact L|]. intros q' I. apply K. right; exact I. }
    destruct (IH fuel s1 (Some p) L1 Ne) as [s' [E1 E2]]; [|lia|].
    { intros q y I. rewrite K by (apply in_map_iff; exists (q, y); auto). apply C. right; exact I. }
    replace (next n) with (hd_error (map fst e)) by (rewrite Nx; destruct (map fst e); reflexivity). rewrite E1. cbn [bind]. exists s'. split; [reflexivity|].
    intros q. rewrite E2. destruct (in_dec Nat.eq_dec q (map fst e)) as [I|I]; destruct (in_dec Nat.eq_dec q (p :: map fst e)) as [J|J]; [reflexivity|exfalso; apply J; right; exact I| |].
    + destruct J as [<-|J]; [apply get_release_eq|contradiction].
    + apply get_release_ne. intros ->. apply J. left; reflexivity.
Qed.
Lemma tree_purge_ok : forall s t, represents s t -> exists s', avl_tree_purge s = Ok (s', items t) /\ represents s' Leaf /\ (forall q, get (cells s') q = if in_dec Nat.eq_dec q (addrs t) then None else get (cells s) q).
Proof.
  intros s t R. pose proof R as [_ [_ [Nd [L [Hh _]]]]]. unfold avl_tree_purge. rewrite Hh.
  assert (Sz : (length (entries t) <= length (cells s))%nat) by (pose proof (size_cells s t R) as Q; rewrite addrs_entries, map_length in Q; exact Q).
  rewrite addrs_entries in *. rewrite items_entries. destruct (purge_ok (entries t) (length (cells s)) s None L Nd) as [s' [E1 E2]]; [|exact Sz|].
  { intros p x I. apply (entry_cell s t _ _ R I). }
  rewrite E1. cbn [bind]. eexists. split; [reflexivity|]. split; [|exact E2]. unfold represents. cbn [top cells root in_memory addrs linked head tail hd_error balanced size]. repeat split. constructor.
Qed.

(** ** Order *)
Lemma order_three_way : forall (P : A -> Prop) x (l : list A), order_on cmp P -> P x -> (forall y, In y l -> P y) -> increasing cmp l -> three_way cmp x l.
Proof.
  intros P x l [O1 O2] Px Pl Inc. induction l as [|y l IH].
  - exists [], [], []. split; [reflexivity|]. repeat split; intros ? [].
  - cbn [increasing] in Inc. destruct Inc as [Iy Il]. assert (Py : P y) by (apply Pl; left; reflexivity).
    assert (Up : (cmp x y <= 0)%Z -> forall z, In z l -> (cmp x z < 0)%Z).
    { intros L z I. assert (Pz : P z) by (apply Pl; right; exact I). specialize (Iy z I). pose proof (O2 x y z Px Py Pz L ltac:(lia)) as Q. destruct (Z.eq_dec (cmp x z) 0) as [E|E]; [exfalso|lia].
      pose proof (O1 x z Px Pz) as S1. rewrite E in S1. cbn in S1. assert (Ez : (cmp z x <= 0)%Z) by lia. pose proof (O2 z x y Pz Px Py Ez L) as S2. pose proof (O1 y z Py Pz) as S3. lia. }
    destruct (Z.lt_trichotomy (cmp x y) 0) as [L|[E|G]].
    + exists [], [], (y :: l). split; [reflexivity|]. split; [intros ? []|]. split; [intros ? []|]. intros z [<-|I]; [exact L|apply Up; [lia|exact I]].
    + exists [], [y], l. split; [reflexivity|]. split; [intros ? []|]. split; [intros z [<-|[]]; exact E|]. apply Up. lia.
    + destruct (IH ltac:(intros z I; apply Pl; right; exact I) Il) as [a [b [d [-> [Ha [Hb Hd]]]]]]. exists (y :: a), b, d. split; [reflexivity|]. split; [|split; assumption]. intros z [<-|I]; [exact G|apply Ha, I].
Qed.
Lemma increasing_app : forall (a b : list A), increasing cmp (a ++ b) <-> increasing cmp a /\ increasing cmp b /\ (forall x y, In x a -> In y b -> (cmp x y < 0)%Z).
Proof.
  intros a b. induction a as [|x a IH]; cbn [app increasing].
  - split; [intros H; split; [exact I|]; split; [exact H|intros ? ? []]|intros [_ [H _]]; exact H].
  - rewrite IH. split.
    + intros [H1 [H2 [H3 H4]]]. split; [split; [|exact H2]; intros y I; apply H1, in_or_app; left; exact I|]. split; [exact H3|]. intros u y [<-|I] J; [apply H1, in_or_app; right; exact J|apply H4; assumption].
    + intros [[H1 H2] [H3 H4]]. split; [|split; [exact H2|split; [exact H3|intros u y I J; apply H4; [right; exact I|exact J]]]]. intros y I. apply in_app_or in I as [I|I]; [apply H1, I|apply H4; [left; reflexivity|exact I]].
Qed.
Lemma increasing_insert : forall (P : A -> Prop) x (a b : list A), order_on cmp P -> P x -> (forall y, In y (a ++ b) -> P y) -> increasing cmp (a ++ b) ->
  (forall y, In y a -> (0 < cmp x y)%Z) -> (forall y, In y b -> (cmp x y < 0)%Z) -> increasing cmp (a ++ x :: b).
Proof.
  intros P x a b [O1 O2] Px Pl Inc Ha Hb. apply increasing_app in Inc as [I1 [I2 I3]]. apply increasing_app. split; [exact I1|]. split; [cbn [increasing]; split; assumption|].
  intros u y Iu [<-|Iy]; [|apply I3; assumption]. pose proof (O1 x u Px ltac:(apply Pl, in_or_app; left; exact Iu)) as S1. specialize (Ha u Iu). lia.
Qed.
Lemma increasing_delete : forall x (a b : list A), increasing cmp (a ++ x :: b) -> increasing cmp (a ++ b).
Proof.
  intros x a b Inc. apply increasing_app in Inc as [I1 [[_ I2] I3]]. apply increasing_app. split; [exact I1|]. split; [exact I2|]. intros u y J K. apply I3; [exact J|right; exact K].
Qed.

(** ** Walking *)
Lemma walk_ok : forall (e : list (nat * A)) s bf k, linked (cells s) bf (map fst e) None -> walk s k (hd_error (map fst e)) = Ok (option_map fst (nth_error e k)).
Proof.
  induction e as [|[p x] e IH]; intros s bf k L; cbn [map hd_error fst]; [destruct k; reflexivity|]. cbn [map linked fst] in L. destruct L as [[n [G [_ Nx]]] L]. destruct k as [|k]; [reflexivity|]. cbn [walk nth_error].
  unfold read. rewrite G. cbn [bind]. rewrite <- (IH s (Some p) k L), Nx. destruct (map fst e); reflexivity.
Qed.
Lemma item_at_last : forall s t e1 e2, represents s t -> entries t = e1 ++ e2 -> item_at s (last_addr e1) = Ok (last_opt (map snd e1)).
Proof.
  intros s t e1 e2 R E. destruct e1 as [|[p x] e1' _] using rev_ind; [reflexivity|]. unfold last_addr, last_opt. rewrite map_app, !rev_app_distr. cbn [rev app map option_map fst snd item_at].
  destruct (entry_cell s t p x R) as [n [G Ei]]; [rewrite E; apply in_or_app; left; apply in_or_app; right; left; reflexivity|]. unfold read. rewrite G. cbn [bind]. rewrite Ei. reflexivity.
Qed.

(** ** Histories *)
Record good (P : A -> Prop) (h : heap A) (m : N) (s : avl A) (t : tree A) : Prop := {
  good_rep : represents s t;
  good_P : forall y, In y (items t) -> P y;
  good_inc : increasing cmp (items t);
  good_size : (size t <= m)%N;
  good_frame : forall q, ~ In q (addrs t) -> get (cells s) q = get h q;
  good_new : forall q, In q (addrs t) -> get h q = None }.

Lemma perform_ok : forall P h m malloc s t e, order_on cmp P -> fresh malloc -> good P h m s t -> (m + 1 < 2 ^ 64)%N -> Forall P (argument e) ->
  exists s' o t', perform cmp malloc s e = Ok (s', o) /\ behaves cmp (items t) e o (items t') /\ good P h (m + 1) s' t'.
Proof.
  intros P h m malloc s t e O Fr Gd Hm Pe. pose proof (good_rep _ _ _ _ _ Gd) as R. pose proof (good_P _ _ _ _ _ Gd) as GP. pose proof (good_inc _ _ _ _ _ Gd) as GI. pose proof (good_size _ _ _ _ _ Gd) as GS.
  assert (TW : forall x, P x -> three_way cmp x (items t)) by (intros x Px; apply (order_three_way P); assumption).
  assert (Same : good P h (m + 1) s t) by (destruct Gd; constructor; try assumption; lia).
  assert (Del : forall s' t' p y e1 e2, represents s' t' -> entries t = e1 ++ (p, y) :: e2 -> entries t' = e1 ++ e2 -> frame_kept (cells s) (cells s') (addrs t) -> get (cells s') p = None -> good P h (m + 1) s' t').
  { intros s' t' p y e1 e2 R' E E' Fk Gp. assert (It : items t = map snd e1 ++ y :: map snd e2) by (rewrite items_entries, E, map_app; reflexivity). assert (It' : items t' = map snd e1 ++ map snd e2) by (rewrite items_entries, E', map_app; reflexivity).
    assert (At : addrs t = map fst e1 ++ p :: map fst e2) by (rewrite addrs_entries, E, map_app; reflexivity). assert (At' : addrs t' = map fst e1 ++ map fst e2) by (rewrite addrs_entries, E', map_app; reflexivity).
    constructor; [exact R'| | | | |].
    - intros z I. apply GP. rewrite It' in I. rewrite It. apply in_app_or in I as [I|I]; apply in_or_app; [left; exact I|right; right; exact I].
    - rewrite It'. rewrite It in GI. apply (increasing_delete y), GI.
    - rewrite size_items in *. rewrite It in GS. rewrite It'. rewrite app_length in *. cbn [length] in GS. lia.
    - intros q Nq. destruct (Nat.eq_dec q p) as [->|Np]; [rewrite Gp; symmetry; apply (good_new _ _ _ _ _ Gd); rewrite At; apply in_or_app; right; left; reflexivity|].
      assert (Nt : ~ In q (addrs t)). { rewrite At. rewrite At' in Nq. intros I. apply Nq. apply in_app_or in I as [I|[->|I]]; [apply in_or_app; left; exact I|contradiction|apply in_or_app; right; exact I]. }
      rewrite (Fk q Nt). apply (good_frame _ _ _ _ _ Gd), Nt.
    - intros q I. apply (good_new _ _ _ _ _ Gd). rewrite At' in I. rewrite At. apply in_app_or in I as [I|I]; apply in_or_app; [left; exact I|right; right; exact I]. }
  destruct e as [x|x|k|x|x| |]; cbn [argument perform] in *.
  - pose proof (Forall_inv Pe) as Px. destruct (item_insert_ok s t x (fst (malloc (cells s))) (snd (malloc (cells s))) R (TW x Px) (Fr _) ltac:(lia)) as [[s' [t' [e1 [e2 [E [R' [E1 [E2 [H1 [H2 Fk]]]]]]]]]]|[s' [E [R' [Fk [y [Iy Ey]]]]]]]; rewrite E; cbn [bind].
    + exists s', (Inserted true), t'. split; [reflexivity|]. set (new := fst (malloc (cells s))) in *.
      assert (It : items t = map snd e1 ++ map snd e2) by (rewrite items_entries, E1, map_app; reflexivity). assert (It' : items t' = map snd e1 ++ x :: map snd e2) by (rewrite items_entries, E2, map_app; reflexivity).
      assert (At : addrs t = map fst e1 ++ map fst e2) by (rewrite addrs_entries, E1, map_app; reflexivity). assert (At' : addrs t' = map fst e1 ++ new :: map fst e2) by (rewrite addrs_entries, E2, map_app; reflexivity).
      assert (K1 : forall y, In y (map snd e1) -> (0 < cmp x y)%Z) by (intros y I; apply in_map_iff in I as [q [<- I]]; apply H1, I).
      assert (K2 : forall y, In y (map snd e2) -> (cmp x y < 0)%Z) by (intros y I; apply in_map_iff in I as [q [<- I]]; apply H2, I).
      split; [rewrite It, It'; apply insert_new; assumption|]. constructor; [exact R'| | | | |].
      * intros z I. rewrite It' in I. apply in_app_or in I as [I|[<-|I]]; [apply GP; rewrite It; apply in_or_app; left; exact I|exact Px|apply GP; rewrite It; apply in_or_app; right; exact I].
      * rewrite It'. rewrite It in GI, GP. apply (increasing_insert P); assumption.
      * rewrite size_items in *. rewrite It in GS. rewrite It'. rewrite app_length in *. cbn [length]. lia.
      * intros q Nq. assert (Nt : ~ In q (new :: addrs t)). { rewrite At. rewrite At' in Nq. intros [<-|I]; apply Nq; apply in_or_app; [right; left; reflexivity|]. apply in_app_or in I as [I|I]; [left; exact I|right; right; exact I]. }
        rewrite (Fk q Nt). apply (good_frame _ _ _ _ _ Gd). intros I. apply Nt. right; exact I.
      * intros q I. rewrite At' in I. assert (J : q = new \/ In q (addrs t)). { rewrite At. apply in_app_or in I as [I|[->|I]]; [right; apply in_or_app; left; exact I|left; reflexivity|right; apply in_or_app; right; exact I]. }
        destruct J as [->|J]; [|apply (good_new _ _ _ _ _ Gd), J]. rewrite <- (good_frame _ _ _ _ _ Gd); [apply Fr|]. intros J. destruct R as [_ [M _]]. apply (sub_live _ _ _ _ M J), Fr.
    + exists s', (Inserted false), t. split; [reflexivity|]. split; [eapply insert_old; eassumption|]. destruct Gd. constructor; try assumption; [lia|]. intros q Nq. rewrite Fk. auto.
  - pose proof (Forall_inv Pe) as Px. destruct (item_delete_ok s t x R (TW x Px)) as [[s' [t' [e1 [p [y [e2 [E [R' [E1 [Ey [E2 [Fk Gp]]]]]]]]]]]]|[E N]]; rewrite E; cbn [bind].
    + exists s', (Deleted (Some y)), t'. split; [reflexivity|]. split; [|apply (Del s' t' p y e1 e2); assumption]. rewrite !items_entries, E1, E2, !map_app. apply delete_hit. exact Ey.
    + exists s, (Deleted None), t. split; [reflexivity|]. split; [apply delete_miss, N|exact Same].
  - pose proof R as [_ [_ [_ [L [Hh _]]]]]. rewrite Hh, addrs_entries. rewrite addrs_entries in L. rewrite (walk_ok _ _ _ k L). cbn [bind]. destruct (nth_error (entries t) k) as [[p y]|] eqn:En; cbn [option_map fst].
    + apply nth_error_split in En as [e1 [e2 [E1 E2]]]. destruct (delete_ok s t e1 p y e2 R E1) as [s' [t' [D1 [D2 [D3 [D4 D5]]]]]]. rewrite D1. cbn [bind]. exists s', (Deleted (Some y)), t'. split; [reflexivity|].
      split; [|apply (Del s' t' p y e1 e2); assumption]. rewrite !items_entries, E1, D3, !map_app, <- E2, <- (map_length snd e1). apply delete_at.
    + apply nth_error_None in En. cbn [avl_node_delete bind]. exists s, (Deleted None), t. split; [reflexivity|]. split; [|exact Same]. apply delete_nothing. rewrite items_entries, map_length. exact En.
  - pose proof (Forall_inv Pe) as Px. destruct (item_search_ok cmp s t x R (TW x Px)) as [[p [y [e1 [e2 [E [E1 E2]]]]]]|[E N]]; rewrite E; cbn [bind item_at].
    + destruct (entry_cell s t p y R) as [n [G Ei]]; [rewrite E1; apply in_or_app; right; left; reflexivity|]. unfold read. rewrite G. cbn [bind]. exists s, (Found (Some y)), t. rewrite Ei. split; [reflexivity|]. split; [|exact Same].
      apply search_hit; [|exact E2]. rewrite items_entries, E1, map_app. apply in_or_app; right; left; reflexivity.
    + exists s, (Found None), t. split; [reflexivity|]. split; [apply search_miss, N|exact Same].
  - pose proof (Forall_inv Pe) as Px. destruct (item_search_right_ok cmp s t x R (TW x Px)) as [e1 [e2 [E [E1 [H1 H2]]]]]. rewrite E. cbn [bind]. rewrite (item_at_last s t e1 e2 R E1). cbn [bind].
    exists s, (Found (last_opt (map snd e1))), t. split; [reflexivity|]. split; [|exact Same]. rewrite items_entries, E1, map_app. apply search_right; intros y I; apply in_map_iff in I as [q [<- I]]; [apply H1, I|apply H2, I].
  - rewrite (count_ok s t R). cbn [bind]. exists s, (Number (N.of_nat (length (items t)))), t. split; [reflexivity|]. split; [apply count_all|exact Same].
  - destruct (tree_purge_ok s t R) as [s' [E [R' Fk]]]. rewrite E. cbn [bind]. exists s', (Freed (items t)), Leaf. split; [reflexivity|]. split; [apply purge_all|]. constructor; [exact R'|intros ? []|exact I|cbn [size]; lia| |intros ? []].
    intros q _. rewrite Fk. destruct (in_dec Nat.eq_dec q (addrs t)) as [J|J]; [symmetry; apply (good_new _ _ _ _ _ Gd), J|apply (good_frame _ _ _ _ _ Gd), J].
Qed.
Lemma run_ok : forall P h malloc es m s t, order_on cmp P -> fresh malloc -> good P h m s t -> (m + N.of_nat (length es) < 2 ^ 64)%N -> Forall P (concat (map argument es)) ->
  exists s' os t', run cmp malloc s es = Ok (s', os) /\ history cmp (items t) es os (items t') /\ good P h (m + N.of_nat (length es)) s' t'.
Proof.
  intros P h malloc es. induction es as [|e es IH]; intros m s t O Fr Gd Hm Pe; cbn [run length map concat] in *.
  - exists s, [], t. split; [reflexivity|]. split; [constructor|]. replace (m + N.of_nat 0)%N with m by lia. exact Gd.
  - apply Forall_app in Pe as [P1 P2]. destruct (perform_ok P h m malloc s t e O Fr Gd ltac:(lia) P1) as [s1 [o [t1 [E [B G1]]]]]. rewrite E. cbn [bind].
    destruct (IH (m + 1)%N s1 t1 O Fr G1 ltac:(lia) P2) as [s2 [os [t2 [E2 [B2 G2]]]]]. rewrite E2. cbn [bind]. exists s2, (o :: os), t2. split; [reflexivity|]. split; [econstructor; eassumption|].
    replace (m + N.of_nat (S (length es)))%N with (m + 1 + N.of_nat (length es))%N by lia. exact G2.
Qed.
Lemma good_empty : forall P h, good P h 0 (avl_tree_construct h) Leaf.
Proof.
  intros P h. constructor; [|intros ? []|exact I|cbn [size]; lia|reflexivity|intros ? []]. unfold represents. cbn. repeat split. constructor.
Qed.
End Avl.
