(** Proofs: searching, counting, purging, and histories. *)
From Coq Require Import List Arith NArith ZArith Bool Lia Permutation.
Import ListNotations.
From Verif Require Import CBase MoModel AvlModel AvlSpec AvlTreeProofs AvlMemProofs AvlRebalProofs AvlInsertProofs AvlDeleteProofs.

Section Avl.
Context {A : Type}.
Variable cmp : A -> A -> Z.
Implicit Types (h : heap A) (s : avl A) (t : tree A) (c : list (frame A)).

(** ** Comparisons along the sequence *)
Lemma three_way_lt : forall x u y w, three_way cmp x (u ++ y :: w) -> (cmp x y < 0)%Z -> forall z, In z w -> (cmp x z < 0)%Z.
Proof.
  intros x u y w [a [b [d [E [Ha [Hb Hd]]]]]] L z Iz. revert b d E Hb Hd. revert a Ha. induction u as [|v u IH]; intros a Ha b d E Hb Hd; cbn [app] in E.
  - destruct a as [|a0 a].
    + cbn [app] in E. destruct b as [|b0 b]; cbn [app] in E.
      * destruct d as [|d0 d]; [discriminate|]. injection E as <- <-. apply Hd. right; exact Iz.
      * injection E as <- E. specialize (Hb y (or_introl eq_refl)). lia.
    + cbn [app] in E. injection E as <- E. specialize (Ha y (or_introl eq_refl)). lia.
  - destruct a as [|a0 a]; cbn [app] in E.
    + destruct b as [|b0 b]; cbn [app] in E.
      * destruct d as [|d0 d]; [discriminate|]. injection E as <- E. apply (IH [] ltac:(intros ? []) [] d E ltac:(intros ? [])). intros q I. apply Hd. right; exact I.
      * injection E as <- E. apply (IH [] ltac:(intros ? []) b d E); [intros q I; apply Hb; right; exact I|exact Hd].
    + injection E as <- E. apply (IH a ltac:(intros q I; apply Ha; right; exact I) b d E Hb Hd).
Qed.
Lemma three_way_gt : forall x u y w, three_way cmp x (u ++ y :: w) -> (0 < cmp x y)%Z -> forall z, In z u -> (0 < cmp x z)%Z.
Proof.
  intros x u y w [a [b [d [E [Ha [Hb Hd]]]]]] L z Iz. revert a E Ha. induction u as [|v u IH]; intros a E Ha; [destruct Iz|]. cbn [app] in E.
  destruct a as [|a0 a]; cbn [app] in E.
  - exfalso. assert (I : In y (b ++ d)) by (rewrite <- E; right; apply in_or_app; right; left; reflexivity). apply in_app_or in I as [I|I]; [specialize (Hb y I)|specialize (Hd y I)]; lia.
  - injection E as <- E. destruct Iz as [<-|Iz]; [apply Ha; left; reflexivity|]. apply (IH Iz a E). intros q I. apply Ha. right; exact I.
Qed.
Lemma three_way_eq_r : forall x u y w, three_way cmp x (u ++ y :: w) -> cmp x y = 0%Z -> forall z, In z w -> (cmp x z <= 0)%Z.
Proof.
  intros x u y w T E z Iz. destruct (Z.le_gt_cases (cmp x z) 0) as [L|G]; [exact L|exfalso]. apply in_split in Iz as [w1 [w2 ->]].
  change (u ++ y :: w1 ++ z :: w2) with (u ++ (y :: w1) ++ z :: w2) in T. rewrite app_assoc in T. pose proof (three_way_gt _ _ _ _ T ltac:(lia) y) as Q.
  specialize (Q ltac:(apply in_or_app; right; left; reflexivity)). lia.
Qed.

(** ** The descent *)
Lemma items_plug : forall c t, items (plug c t) = map snd (before c) ++ items t ++ map snd (after c).
Proof. intros c t. rewrite !items_entries, entries_plug, !map_app. reflexivity. Qed.
Lemma memory_plug : forall c h par t, in_memory h par (plug c t) -> in_memory h (above c par) t.
Proof.
  induction c as [|[p x r|l p x] c IH]; intros h par t M; cbn [plug above] in *; [exact M| |]; apply IH in M; cbn [in_memory] in M; destruct M as [_ [M1 M2]]; assumption.
Qed.
Lemma node_links : forall s t l1 p l2 n, represents s t -> addrs t = l1 ++ p :: l2 -> get (cells s) p = Some n -> prev n = lastof l1 None /\ next n = headof l2 None.
Proof.
  intros s t l1 p l2 n R E G. pose proof (represents_chain _ _ R) as C. rewrite E in C. apply chain_app in C. destruct C as [_ [C _]]. unfold link in C. rewrite G in C. cbn [option_map] in C. split; congruence.
Qed.

(** What the search returns: an equal node, or the last of the greater ones. *)
Definition found (x : A) t (o : option nat) (exact : bool) : Prop :=
  if exact then exists c l p y r, o = Some p /\ t = plug c (Fork l p y r) /\ cmp x y = 0%Z /\ (forall e, In e (after c) -> (cmp x (snd e) < 0)%Z)
  else exists e1 e2, entries t = e1 ++ e2 /\ o = last_addr e1 /\ (forall e, In e e1 -> (0 < cmp x (snd e))%Z) /\ (forall e, In e e2 -> (cmp x (snd e) < 0)%Z).

Lemma rightish_ok : forall fuel s T x t c, represents s T -> T = plug c t -> t <> Leaf -> three_way cmp x (items T) ->
  (forall e, In e (before c) -> (0 < cmp x (snd e))%Z) -> (forall e, In e (after c) -> (cmp x (snd e) < 0)%Z) -> (length (addrs t) <= fuel)%nat ->
  exists p o exact, root t = Some p /\ rightish cmp fuel s x p = Ok (o, exact) /\ found x T o exact.
Proof.
  intros fuel s T x t. revert fuel. induction t as [|l IHl p y r IHr]; intros fuel c R ET Nl TW Hb Ha Hf; [congruence|]. cbn [addrs] in Hf. rewrite app_length in Hf. cbn [length] in Hf.
  destruct fuel as [|fuel]; [lia|]. cbn [root rightish].
  assert (M : in_memory (cells s) (above c None) (Fork l p y r)) by (apply memory_plug; rewrite <- ET; apply R). cbn [in_memory] in M. destruct M as [[n [G [_ [El [Er [Ei _]]]]]] _].
  assert (Rd : read s p = Ok n) by (unfold read; rewrite G; reflexivity).
  assert (EE : entries T = (before c ++ entries l) ++ (p, y) :: entries r ++ after c).
  { rewrite ET, entries_plug. cbn [entries]. rewrite <- !app_assoc. reflexivity. }
  assert (TW' : three_way cmp x (map snd (before c ++ entries l) ++ y :: map snd (entries r ++ after c))) by (rewrite items_entries, EE, map_app in TW; exact TW).
  assert (AA : addrs T = map fst (before c ++ entries l) ++ p :: map fst (entries r ++ after c)) by (rewrite addrs_entries, EE, map_app; reflexivity).
  destruct (Z.ltb_spec (cmp x y) 0) as [L|L]; [|destruct (Z.ltb_spec 0 (cmp x y)) as [L2|L2]].
  - assert (Hr : forall e, In e ((p, y) :: entries r ++ after c) -> (cmp x (snd e) < 0)%Z).
    { intros e [<-|I]; [exact L|]. apply (three_way_lt _ _ _ _ TW' L). apply in_map, I. }
    destruct l as [|l1 q z l2].
    + exists p, (prev n), false. split; [reflexivity|]. rewrite Rd. cbn [bind]. cbv zeta. rewrite Ei, (proj2 (Z.ltb_lt _ _) L), El. cbn [root]. split; [reflexivity|].
      cbn [found]. exists (before c), ((p, y) :: entries r ++ after c). cbn [entries] in *. rewrite app_nil_r in *. split; [exact EE|]. split; [|split; [exact Hb|exact Hr]].
      destruct (node_links _ _ _ _ _ _ R AA G) as [-> _]. apply lastof_addr.
    + destruct (IHl fuel (InLeft p y r :: c) R ET ltac:(discriminate) TW Hb Hr ltac:(lia)) as [q' [o [ex [E1 [E2 E3]]]]]. exists p, o, ex. split; [reflexivity|]. rewrite Rd. cbn [bind]. cbv zeta.
      rewrite Ei, (proj2 (Z.ltb_lt _ _) L), El, E1. split; [exact E2|exact E3].
  - assert (Hl : forall e, In e (before c ++ entries l ++ [(p, y)]) -> (0 < cmp x (snd e))%Z).
    { intros e I. rewrite app_assoc in I. apply in_app_or in I as [I|[<-|[]]]; [|exact L2]. apply (three_way_gt _ _ _ _ TW' L2). apply in_map, I. }
    destruct r as [|r1 q z r2].
    + exists p, (Some p), false. split; [reflexivity|]. rewrite Rd. cbn [bind]. cbv zeta. rewrite Ei, (proj2 (Z.ltb_ge _ _) L), (proj2 (Z.ltb_lt _ _) L2), Er. cbn [root]. split; [reflexivity|].
      cbn [found]. exists (before c ++ entries l ++ [(p, y)]), (after c). split; [rewrite EE, <- !app_assoc; reflexivity|]. split; [|split; [exact Hl|exact Ha]].
      rewrite <- lastof_addr, !map_app, !lastof_app. reflexivity.
    + destruct (IHr fuel (InRight l p y :: c) R ET ltac:(discriminate) TW Hl Ha ltac:(cbn [addrs] in *; lia)) as [q' [o [ex [E1 [E2 E3]]]]]. exists p, o, ex. split; [reflexivity|]. rewrite Rd. cbn [bind]. cbv zeta.
      rewrite Ei, (proj2 (Z.ltb_ge _ _) L), (proj2 (Z.ltb_lt _ _) L2), Er, E1. split; [exact E2|exact E3].
  - exists p, (Some p), true. split; [reflexivity|]. rewrite Rd. cbn [bind]. cbv zeta. rewrite Ei, (proj2 (Z.ltb_ge _ _) L), (proj2 (Z.ltb_ge _ _) L2). split; [reflexivity|].
    cbn [found]. exists c, l, p, y, r. split; [reflexivity|]. split; [exact ET|]. split; [lia|exact Ha].
Qed.
Lemma size_cells : forall s t, represents s t -> (length (addrs t) <= length (cells s))%nat.
Proof. intros s t R. apply live_length; [apply R|]. intros q I. destruct R as [_ [M _]]. apply (sub_live _ _ _ _ M I). Qed.
Lemma search_rightish_ok : forall s t x, represents s t -> three_way cmp x (items t) -> exists o exact, avl_search_rightish cmp s x = Ok (o, exact) /\ found x t o exact.
Proof.
  intros s t x R TW. unfold avl_search_rightish. pose proof R as [Et _]. rewrite Et. destruct t as [|l p y r] eqn:E.
  - exists None, false. split; [reflexivity|]. exists [], []. split; [reflexivity|]. split; [reflexivity|]. split; intros e [].
  - rewrite <- E in *. destruct (rightish_ok (length (cells s)) s t x t [] R eq_refl) as [q [o [ex [E1 [E2 E3]]]]]; [congruence|exact TW|intros e []|intros e []|apply size_cells, R|].
    rewrite E1. exists o, ex. auto.
Qed.

(** The rightmost of the equal ones *)
Lemma rightmost_equal_ok : forall t fuel s T x q c r p n (dir : bool) er, represents s T -> T = plug c t -> three_way cmp x (items T) ->
  get (cells s) p = Some n -> (if dir then right n else left n) = root t ->
  before c = er ++ [(r, q)] -> cmp x q = 0%Z -> (forall e, In e (after c) -> (cmp x (snd e) < 0)%Z) -> (length (addrs t) < fuel)%nat ->
  exists r' e1 y e2, rightmost_equal cmp fuel s x r p dir = Ok r' /\ entries T = e1 ++ (r', y) :: e2 /\ cmp x y = 0%Z /\ (forall e, In e e2 -> (cmp x (snd e) < 0)%Z).
Proof.
  induction t as [|l IHl p' y rr IHr]; intros fuel s T x q c r p n dir er R ET TW G Hd Hb Hq Ha Hf; (destruct fuel as [|fuel]; [lia|]); cbn [rightmost_equal];
    (assert (Rd : read s p = Ok n) by (unfold read; rewrite G; reflexivity)); rewrite Rd; cbn [bind]; rewrite Hd; cbn [root].
  - exists r, er, q, (after c). split; [reflexivity|]. split; [rewrite ET, entries_plug, Hb; cbn [entries]; rewrite <- app_assoc; reflexivity|]. split; assumption.
  - cbn [addrs] in Hf. rewrite app_length in Hf. cbn [length] in Hf.
    assert (M : in_memory (cells s) (above c None) (Fork l p' y rr)) by (apply memory_plug; rewrite <- ET; apply R). cbn [in_memory] in M. destruct M as [[m [Gm [_ [El [Er [Ei _]]]]]] _].
    assert (Rm : read s p' = Ok m) by (unfold read; rewrite Gm; reflexivity). rewrite Rm. cbn [bind]. rewrite Ei.
    assert (EE : entries T = (before c ++ entries l) ++ (p', y) :: entries rr ++ after c).
    { rewrite ET, entries_plug. cbn [entries]. rewrite <- !app_assoc. reflexivity. }
    assert (TW' : three_way cmp x (map snd (before c ++ entries l) ++ y :: map snd (entries rr ++ after c))) by (rewrite items_entries, EE, map_app in TW; exact TW).
    assert (Ly : (cmp x y <= 0)%Z).
    { assert (T2 : three_way cmp x (map snd er ++ q :: map snd (entries l ++ (p', y) :: entries rr ++ after c))).
      { rewrite items_entries, EE, Hb in TW. rewrite <- !app_assoc in TW. rewrite map_app in TW. exact TW. }
      apply (three_way_eq_r _ _ _ _ T2 Hq). rewrite map_app. apply in_or_app; right; left; reflexivity. }
    destruct (Z.eqb_spec (cmp x y) 0) as [Ey|Ey].
    + apply (IHr fuel s T x y (InRight l p' y :: c) p' p' m true (before c ++ entries l) R ET TW Gm Er); [cbn [before]; rewrite app_assoc; reflexivity|exact Ey|exact Ha|lia].
    + apply (IHl fuel s T x q (InLeft p' y rr :: c) r p' m false er R ET TW Gm El); [exact Hb|exact Hq| |lia].
      intros e [<-|I]; [cbn [snd]; lia|]. apply (three_way_lt _ _ _ _ TW' ltac:(lia)). apply in_map, I.
Qed.

(** ** The searches of the list model *)
Lemma split_right_prefix : forall x (a b : list A), (forall y, In y a -> (0 <= cmp x y)%Z) -> (forall y, In y b -> (cmp x y < 0)%Z) -> split_right A cmp x (a ++ b) = (a, b).
Proof.
  intros x a b Ha Hb. induction a as [|y a IH]; cbn [app split_right].
  - destruct b as [|y b]; [reflexivity|]. cbn [split_right]. specialize (Hb y (or_introl eq_refl)). destruct (Z.ltb_spec (cmp x y) 0); [reflexivity|lia].
  - pose proof (Ha y (or_introl eq_refl)). destruct (Z.ltb_spec (cmp x y) 0); [lia|]. rewrite IH; [reflexivity|]. intros z I. apply Ha. right; exact I.
Qed.
Lemma search_none : forall x (l : list A), (forall y, In y l -> cmp x y <> 0%Z) -> search A cmp x l = None.
Proof. intros x l H. unfold search. induction l as [|y l IH]; [reflexivity|]. cbn [find]. destruct (Z.eqb_spec (cmp x y) 0) as [E|E]; [exfalso; apply (H y (or_introl eq_refl) E)|]. apply IH. intros z I. apply H. right; exact I. Qed.
Lemma search_some : forall x (l : list A) y, In y l -> cmp x y = 0%Z -> exists z, search A cmp x l = Some z.
Proof.
  intros x l y I E. unfold search. induction l as [|z l IH]; [destruct I|]. cbn [find]. destruct (Z.eqb_spec (cmp x z) 0) as [Ez|Ez]; [eauto|]. destruct I as [->|I]; [contradiction|apply IH, I].
Qed.

(** ** The public functions *)
Lemma item_search_ok : forall s t x, represents s t -> three_way cmp x (items t) ->
  (exists p y e1 e2, avl_item_search cmp s x = Ok (Some p) /\ entries t = e1 ++ (p, y) :: e2 /\ cmp x y = 0%Z) \/
  (avl_item_search cmp s x = Ok None /\ forall y, In y (items t) -> cmp x y <> 0%Z).
Proof.
  intros s t x R TW. destruct (search_rightish_ok s t x R TW) as [o [ex [E F]]]. unfold avl_item_search. rewrite E. cbn [bind]. destruct ex; cbn [found] in F.
  - left. destruct F as [c [l [p [y [r [-> [F1 [F2 _]]]]]]]]. exists p, y, (before c ++ entries l), (entries r ++ after c). split; [reflexivity|]. split; [|exact F2].
    rewrite F1, entries_plug. cbn [entries]. rewrite <- !app_assoc. reflexivity.
  - right. split; [reflexivity|]. destruct F as [e1 [e2 [F1 [_ [F3 F4]]]]]. intros y I. rewrite items_entries, F1 in I. apply in_map_iff in I as [e [<- I]]. apply in_app_or in I as [I|I]; [specialize (F3 e I)|specialize (F4 e I)]; lia.
Qed.
Lemma item_search_right_ok : forall s t x, represents s t -> three_way cmp x (items t) ->
  exists e1 e2, avl_item_search_right cmp s x = Ok (last_addr e1) /\ entries t = e1 ++ e2 /\ (forall e, In e e1 -> (0 <= cmp x (snd e))%Z) /\ (forall e, In e e2 -> (cmp x (snd e) < 0)%Z).
Proof.
  intros s t x R TW. destruct (search_rightish_ok s t x R TW) as [o [ex [E F]]]. unfold avl_item_search_right. rewrite E. cbn [bind]. destruct ex; cbn [found] in F.
  - destruct F as [c [l [p [y [r [-> [Ht [F2 F3]]]]]]]]. cbn [deref bind].
    assert (M : in_memory (cells s) (above c None) (Fork l p y r)) by (apply memory_plug; rewrite <- Ht; apply R). cbn [in_memory] in M. destruct M as [[n [G [_ [El [Er [Ei _]]]]]] _].
    assert (Sz : (length (addrs r) < length (cells s))%nat).
    { pose proof (size_cells s t R) as Q. rewrite addrs_entries, Ht, entries_plug in Q. cbn [entries] in Q. rewrite !map_app, !app_length in Q. cbn [map length] in Q. rewrite <- (addrs_entries r) in Q. lia. }
    destruct (rightmost_equal_ok r (length (cells s)) s t x y (InRight l p y :: c) p p n true (before c ++ entries l) R Ht TW G Er) as [r' [e1 [z [e2 [E1 [E2 [E3 E4]]]]]]];
      [cbn [before]; rewrite app_assoc; reflexivity|exact F2|exact F3|exact Sz|].
    unfold avl_search_rightmost_equal. rewrite E1. cbn [bind]. exists (e1 ++ [(r', z)]), e2. split; [unfold last_addr; unfold last_opt; rewrite rev_app_distr; reflexivity|]. split; [rewrite <- app_assoc; exact E2|]. split; [|exact E4].
    intros e I. apply in_app_or in I as [I|[<-|[]]]; [|cbn [snd]; lia].
    assert (TW' : three_way cmp x (map snd e1 ++ z :: map snd e2)) by (rewrite items_entries, E2, map_app in TW; exact TW).
    destruct (Z.le_gt_cases 0 (cmp x (snd e))) as [Q|Q]; [exact Q|exfalso]. apply in_split in I as [u [w ->]]. rewrite map_app in TW'. cbn [map] in TW'. rewrite <- app_assoc in TW'. cbn [app] in TW'.
    pose proof (three_way_lt _ _ _ _ TW' Q z ltac:(apply in_or_app; right; left; reflexivity)). lia.
  - destruct F as [e1 [e2 [F1 [F2 [F3 F4]]]]]. exists e1, e2. rewrite F2. split; [reflexivity|]. split; [exact F1|]. split; [intros e I; specialize (F3 e I); lia|exact F4].
Qed.
End Avl.
