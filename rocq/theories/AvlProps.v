(** Property C38. *)
From Coq Require Import List Arith NArith ZArith Bool Lia.
Import ListNotations.
From Verif Require Import CBase MoModel AvlModel AvlSpec AvlTreeProofs AvlMemProofs AvlRebalProofs AvlInsertProofs AvlDeleteProofs AvlSearchProofs AvlRunProofs.
From Verif Require FrontSpec FrontProofs ArchModel BiobjModel.
Local Open Scope nat_scope.

(** * All histories *)
(** Starting with an empty tree in any memory h, every sequence of operations is carried out without undefined behaviour; every
    outcome is the one of the sorted sequence; in the end the nodes linked by next, starting at head, hold the sorted sequence, the
    nodes linked by prev, starting at tail, hold its reverse, avl_count returns its length, no path from the root is longer than
    2 log2 (length + 1), and outside the nodes of the tree the memory is what it was before (nothing leaks, nothing else is
    overwritten or freed). *)
Theorem C38_history : forall A (cmp : A -> A -> Z) (P : A -> Prop) malloc h es,
  order_on cmp P -> fresh malloc -> Forall P (concat (map argument es)) -> (N.of_nat (length es) < 2 ^ 64)%N ->
  exists s os l ps,
    run cmp malloc (avl_tree_construct h) es = Ok (s, os) /\ history cmp [] es os l /\ increasing cmp l /\
    forward (cells s) (head s) l /\ backward (cells s) (tail s) (rev l) /\
    avl_count s = Ok (N.of_nat (length l)) /\
    (forall k, descends (cells s) (top s) k -> (2 ^ N.of_nat k <= (N.of_nat (length l) + 1) ^ 2)%N) /\
    length ps = length l /\ NoDup ps /\ linked (cells s) None ps None /\ head s = hd_error ps /\
    (forall q, In q ps -> get h q = None) /\ (forall q, ~ In q ps -> get (cells s) q = get h q).
Proof.
  intros A cmp P malloc h es O Fr Pe Le. destruct (run_ok cmp P h malloc es 0 (avl_tree_construct h) Leaf O Fr (good_empty _ _ _) ltac:(lia) Pe) as [s [os [t [E [Hi G]]]]].
  pose proof (good_rep _ _ _ _ _ _ G) as R. exists s, os, (items t), (addrs t). split; [exact E|]. split; [exact Hi|]. split; [apply (good_inc _ _ _ _ _ _ G)|]. split; [apply represents_forward, R|]. split; [apply represents_backward, R|].
  split; [apply count_ok, R|]. split; [intros k D; apply (height_ok _ _ _ R D)|]. split; [rewrite addrs_entries, items_entries, !map_length; reflexivity|]. pose proof R as [_ [_ [Nd [L [Hh _]]]]].
  split; [exact Nd|]. split; [exact L|]. split; [exact Hh|]. split; [apply (good_new _ _ _ _ _ _ G)|apply (good_frame _ _ _ _ _ _ G)].
Qed.

(** The depth and the count recorded in every node and the balance, after every history: [represents]. *)
Theorem C38_structure : forall A (cmp : A -> A -> Z) (P : A -> Prop) malloc h es s os,
  order_on cmp P -> fresh malloc -> Forall P (concat (map argument es)) -> (N.of_nat (length es) < 2 ^ 64)%N ->
  run cmp malloc (avl_tree_construct h) es = Ok (s, os) -> exists t, represents s t /\ increasing cmp (items t).
Proof.
  intros A cmp P malloc h es s os O Fr Pe Le E. destruct (run_ok cmp P h malloc es 0 (avl_tree_construct h) Leaf O Fr (good_empty _ _ _) ltac:(lia) Pe) as [s' [os' [t [E' [Hi G]]]]].
  assert (s' = s) by congruence. subst s'. exists t. split; [apply (good_rep _ _ _ _ _ _ G)|apply (good_inc _ _ _ _ _ _ G)].
Qed.

Definition tens (h : heap Z) : nat * node Z := (S (fold_right (fun e m => Nat.max (fst e) m) 10 h), Node Z (Some 5) None (Some 1) None (Some 7) 99%Z 3 4).
Lemma tens_fresh : fresh tens.
Proof.
  intros h. unfold tens. cbn [fst]. assert (H : forall q (h' : heap Z), fold_right (fun e m => Nat.max (fst e) m) 10 h' < q -> get h' q = None).
  { intros q h'. induction h' as [|[p n] h' IH]; intros L; [reflexivity|]. cbn [fold_right fst get] in *. destruct (Nat.eqb_spec q p); [lia|]. apply IH. lia. }
  apply H. lia.
Qed.
Lemma minus_order : order_on Z.sub (fun _ => True).
Proof. split; intros; lia. Qed.
Definition story : list (event Z) := map Insert [50; 20; 70; 10; 30; 25; 27]%Z ++ [Insert 30; DeleteAt 2; Search 27; SearchRight 26; Delete 50; Delete 51; Count; DeleteAt 100]%Z.
Example C38_history_ex : order_on Z.sub (fun _ => True) /\ fresh tens /\ Forall (fun _ => True) (concat (map argument story)) /\ (N.of_nat (length story) < 2 ^ 64)%N /\
  match run Z.sub tens (avl_tree_construct []) story with
  | Ok (s, os) => os = map Inserted [true; true; true; true; true; true; true; false] ++ [Deleted (Some 25%Z); Found (Some 27%Z); Found (Some 20%Z); Deleted (Some 50%Z); Deleted None; Number 5; Deleted None] /\ head s = Some 14 /\ tail s = Some 13
  | _ => False end.
Proof. split; [exact minus_order|]. split; [exact tens_fresh|]. split; [apply Forall_forall; auto|]. split; [cbn; lia|]. vm_compute. repeat split. Qed.
Print Assumptions C38_history.
Print Assumptions C38_structure.

(** * Single operations *)
(** For these, the comparison function only has to compare x with the items in the tree consistently with their sequence
    ([three_way]); it may have a tolerance.  [entries t] are the nodes with their items in order: every node keeps its address and
    its item, whatever rotations are made. *)
Theorem C38_insert : forall A (cmp : A -> A -> Z) s t x new garbage,
  represents s t -> three_way cmp x (items t) -> get (cells s) new = None -> (N.of_nat (length (items t)) + 1 < 2 ^ 64)%N ->
  (exists s' t' e1 e2, avl_item_insert cmp s x new garbage = Ok (s', Some new) /\ represents s' t' /\
     entries t = e1 ++ e2 /\ entries t' = e1 ++ (new, x) :: e2 /\
     (forall p y, In (p, y) e1 -> (0 < cmp x y)%Z) /\ (forall p y, In (p, y) e2 -> (cmp x y < 0)%Z) /\
     (forall q, q <> new -> ~ In q (addrs t) -> get (cells s') q = get (cells s) q)) \/
  (exists s' y, avl_item_insert cmp s x new garbage = Ok (s', None) /\ In y (items t) /\ cmp x y = 0%Z /\ represents s' t /\
     forall q, get (cells s') q = get (cells s) q).
Proof.
  intros A cmp s t x new g R TW F Sz. rewrite <- size_items in Sz. destruct (item_insert_ok cmp s t x new g R TW F Sz) as [[s' [t' [e1 [e2 [E [R' [E1 [E2 [H1 [H2 Fk]]]]]]]]]]|[s' [E [R' [Fk [y [Iy Ey]]]]]]].
  - left. exists s', t', e1, e2. split; [exact E|]. split; [exact R'|]. split; [exact E1|]. split; [exact E2|]. split; [intros p y I; apply (H1 _ I)|]. split; [intros p y I; apply (H2 _ I)|]. intros q Nq Na. apply Fk. intros [->|I]; contradiction.
  - right. exists s', y. auto.
Qed.
Theorem C38_delete : forall A (s : avl A) t e1 p x e2,
  represents s t -> entries t = e1 ++ (p, x) :: e2 ->
  exists s' t', avl_node_delete s (Some p) = Ok (s', Some x) /\ represents s' t' /\ entries t' = e1 ++ e2 /\ get (cells s') p = None /\
    (forall q, ~ In q (addrs t) -> get (cells s') q = get (cells s) q).
Proof.
  intros A s t e1 p x e2 R E. destruct (delete_ok s t e1 p x e2 R E) as [s' [t' [D1 [D2 [D3 [D4 D5]]]]]]. exists s', t'. auto.
Qed.
Theorem C38_item_delete : forall A (cmp : A -> A -> Z) s t x, represents s t -> three_way cmp x (items t) ->
  (exists s' t' e1 p y e2, avl_item_delete cmp s x = Ok (s', Some y) /\ entries t = e1 ++ (p, y) :: e2 /\ cmp x y = 0%Z /\ represents s' t' /\ entries t' = e1 ++ e2) \/
  (avl_item_delete cmp s x = Ok (s, None) /\ forall y, In y (items t) -> cmp x y <> 0%Z).
Proof.
  intros A cmp s t x R TW. destruct (item_delete_ok cmp s t x R TW) as [[s' [t' [e1 [p [y [e2 [E [R' [E1 [Ey [E2 _]]]]]]]]]]]|H]; [left|right; exact H]. exists s', t', e1, p, y, e2. auto 10.
Qed.
Theorem C38_search : forall A (cmp : A -> A -> Z) s t x, represents s t -> three_way cmp x (items t) ->
  (exists p y, avl_item_search cmp s x = Ok (Some p) /\ In (p, y) (entries t) /\ cmp x y = 0%Z) \/
  (avl_item_search cmp s x = Ok None /\ forall y, In y (items t) -> cmp x y <> 0%Z).
Proof.
  intros A cmp s t x R TW. destruct (item_search_ok cmp s t x R TW) as [[p [y [e1 [e2 [E [E1 E2]]]]]]|H]; [left|right; exact H]. exists p, y. split; [exact E|]. split; [|exact E2]. rewrite E1. apply in_or_app; right; left; reflexivity.
Qed.
Theorem C38_search_right : forall A (cmp : A -> A -> Z) s t x, represents s t -> three_way cmp x (items t) ->
  (avl_item_search_right cmp s x = Ok None /\ forall y, In y (items t) -> (cmp x y < 0)%Z) \/
  (exists p y e1 e2, avl_item_search_right cmp s x = Ok (Some p) /\ entries t = e1 ++ (p, y) :: e2 /\ (0 <= cmp x y)%Z /\
     (forall q z, In (q, z) e1 -> (0 <= cmp x z)%Z) /\ (forall q z, In (q, z) e2 -> (cmp x z < 0)%Z)).
Proof.
  intros A cmp s t x R TW. destruct (item_search_right_ok cmp s t x R TW) as [e1 [e2 [E [E1 [H1 H2]]]]]. destruct e1 as [|[p y] e1' _] using rev_ind.
  - left. split; [exact E|]. intros y I. rewrite items_entries, E1 in I. apply in_map_iff in I as [e [<- I]]. apply H2, I.
  - right. assert (La : last_addr (e1' ++ [(p, y)]) = Some p) by (unfold last_addr, last_opt; rewrite rev_app_distr; reflexivity). rewrite La in E.
    exists p, y, e1', e2. split; [exact E|]. split; [rewrite E1, <- app_assoc; reflexivity|]. split; [apply (H1 (p, y)); apply in_or_app; right; left; reflexivity|].
    split; [intros q z I; apply (H1 (q, z)); apply in_or_app; left; exact I|intros q z I; apply (H2 (q, z) I)].
Qed.
(** The purge frees every item once, in order, and every node. *)
Theorem C38_purge : forall A (s : avl A) t, represents s t ->
  exists s', avl_tree_purge s = Ok (s', items t) /\ represents s' Leaf /\
    (forall q, In q (addrs t) -> get (cells s') q = None) /\ (forall q, ~ In q (addrs t) -> get (cells s') q = get (cells s) q).
Proof.
  intros A s t R. destruct (tree_purge_ok s t R) as [s' [E [R' F]]]. exists s'. split; [exact E|]. split; [exact R'|]. split; intros q H; rewrite F; destruct (in_dec Nat.eq_dec q (addrs t)); auto; contradiction.
Qed.

(** A tree of three nodes, and a comparison with a tolerance that is not transitive *)
Definition near_cmp (x y : Z) : Z := if (Z.abs (x - y) <? 3)%Z then 0%Z else (x - y)%Z.
Definition three : avl Z := Avl Z
  [(4, Node Z None (Some 6) (Some 6) None None 10%Z 1 1); (6, Node Z (Some 4) (Some 2) None (Some 4) (Some 2) 12%Z 3 2); (2, Node Z (Some 6) None (Some 6) None None 20%Z 1 1)] (Some 6) (Some 4) (Some 2).
Definition three_tree : tree Z := Fork (Fork Leaf 4 10%Z Leaf) 6 12%Z (Fork Leaf 2 20%Z Leaf).
Lemma three_represents : represents three three_tree.
Proof.
  unfold represents, three, three_tree. cbn. repeat split; try lia; try (eexists; split; [reflexivity|]; cbn; repeat split; reflexivity).
  repeat constructor; cbn; intuition lia.
Qed.
Example C38_operations_ex : represents three three_tree /\ three_way near_cmp 11%Z (items three_tree) /\ three_way near_cmp 16%Z (items three_tree) /\ get (cells three) 9 = None /\
  (N.of_nat (length (items three_tree)) + 1 < 2 ^ 64)%N /\ entries three_tree = [(4, 10%Z); (6, 12%Z); (2, 20%Z)] /\
  avl_item_search_right near_cmp three 11%Z = Ok (Some 6) /\ avl_item_search_right near_cmp three 16%Z = Ok (Some 6) /\
  match avl_item_insert near_cmp three 16%Z 9 (snd (tens [])) with Ok (s, Some p) => p = 9 /\ option_map prev (get (cells s) 2) = Some (Some 9) | _ => False end.
Proof.
  split; [exact three_represents|]. split.
  { exists [], [10; 12]%Z, [20%Z]. split; [reflexivity|]. split; [intros ? []|]. split; intros y I; cbn in I; repeat destruct I as [<-|I]; try destruct I; reflexivity. }
  split.
  { exists [10; 12]%Z, [], [20%Z]. split; [reflexivity|]. split; [|split; [intros ? []|]]; intros y I; cbn in I; repeat destruct I as [<-|I]; try destruct I; reflexivity. }
  vm_compute. repeat split.
Qed.
Print Assumptions C38_insert.
Print Assumptions C38_delete.
Print Assumptions C38_item_delete.
Print Assumptions C38_search.
Print Assumptions C38_search_right.
Print Assumptions C38_purge.

(** * The lists of the other models *)
(** Where the other models (C32-C37) use sequences, the trees do the same. *)
Theorem C38_lists : forall A (cmp : A -> A -> Z) (P : A -> Prop) s t x,
  order_on cmp P -> represents s t -> increasing cmp (items t) -> P x -> (forall y, In y (items t) -> P y) ->
  (exists e1 e2, avl_item_search_right cmp s x = Ok (option_map fst (last_opt e1)) /\ entries t = e1 ++ e2 /\ split_right A cmp x (items t) = (map snd e1, map snd e2)) /\
  (exists o, avl_item_search cmp s x = Ok o /\ item_at s o = Ok (search A cmp x (items t))) /\
  (exists s' t', avl_item_delete cmp s x = Ok (s', search A cmp x (items t)) /\ represents s' t' /\ items t' = delete_item A cmp x (items t)) /\
  (forall new garbage, get (cells s) new = None -> (N.of_nat (length (items t)) + 1 < 2 ^ 64)%N ->
   exists s' o t', avl_item_insert cmp s x new garbage = Ok (s', o) /\ represents s' t' /\
     match insert A cmp x (items t) with Some l => o = Some new /\ items t' = l | None => o = None /\ items t' = items t end).
Proof.
  intros A cmp P s t x O R Inc Px Pl. pose proof (order_three_way cmp P x (items t) O Px Pl Inc) as TW.
  assert (Uniq : forall a y b, items t = a ++ y :: b -> cmp x y = 0%Z -> search A cmp x (items t) = Some y /\ delete_item A cmp x (items t) = a ++ b).
  { intros a y b E Ey. assert (Na : forall z, In z a -> cmp x z <> 0%Z).
    { intros z I Ez. apply in_split in I as [u [w ->]]. rewrite E, <- app_assoc in Inc. cbn [app] in Inc. apply increasing_app in Inc as [_ [[I1 _] _]]. specialize (I1 y ltac:(apply in_or_app; right; left; reflexivity)).
      destruct O as [O1 O2]. assert (Pz : P z) by (apply Pl; rewrite E; apply in_or_app; left; apply in_or_app; right; left; reflexivity). assert (Py : P y) by (apply Pl; rewrite E; apply in_or_app; right; left; reflexivity).
      pose proof (O1 x y Px Py) as S1. pose proof (O2 y x z Py Px Pz ltac:(lia) ltac:(lia)) as S2. pose proof (O1 z y Pz Py) as S3. lia. }
    rewrite E. clear E. unfold search. induction a as [|z a IH]; cbn [app find delete_item].
    - rewrite Ey. split; reflexivity.
    - pose proof (Na z (or_introl eq_refl)) as Nz. apply Z.eqb_neq in Nz. rewrite Nz. destruct (IH ltac:(intros q I; apply Na; right; exact I)) as [I1 I2]. rewrite I1, I2. split; reflexivity. }
  assert (Miss : (forall y, In y (items t) -> cmp x y <> 0%Z) -> search A cmp x (items t) = None /\ delete_item A cmp x (items t) = items t).
  { intros N. split; [apply search_none, N|]. induction (items t) as [|z l IH] in N |- *; [reflexivity|]. cbn [delete_item]. pose proof (N z (or_introl eq_refl)) as Nz. apply Z.eqb_neq in Nz. rewrite Nz, IH; [reflexivity|]. intros q I. apply N. right; exact I. }
  split; [|split; [|split]].
  - destruct (item_search_right_ok cmp s t x R TW) as [e1 [e2 [E [E1 [H1 H2]]]]]. exists e1, e2. split; [exact E|]. split; [exact E1|]. rewrite items_entries, E1, map_app. apply split_right_prefix; intros y I; apply in_map_iff in I as [q [<- I]]; [apply H1, I|apply H2, I].
  - destruct (item_search_ok cmp s t x R TW) as [[p [y [e1 [e2 [E [E1 E2]]]]]]|[E N]].
    + exists (Some p). split; [exact E|]. cbn [item_at]. destruct (entry_cell s t p y R) as [n [G Ei]]; [rewrite E1; apply in_or_app; right; left; reflexivity|]. unfold read. rewrite G. cbn [bind]. rewrite Ei.
      rewrite (proj1 (Uniq (map snd e1) y (map snd e2) ltac:(rewrite items_entries, E1, map_app; reflexivity) E2)). reflexivity.
    + exists None. split; [exact E|]. rewrite (proj1 (Miss N)). reflexivity.
  - destruct (item_delete_ok cmp s t x R TW) as [[s' [t' [e1 [p [y [e2 [E [R' [E1 [Ey [E2 _]]]]]]]]]]]|[E N]].
    + destruct (Uniq (map snd e1) y (map snd e2) ltac:(rewrite items_entries, E1, map_app; reflexivity) Ey) as [U1 U2]. exists s', t'. rewrite U1, U2. split; [exact E|]. split; [exact R'|]. rewrite items_entries, E2, map_app. reflexivity.
    + destruct (Miss N) as [M1 M2]. exists s, t. rewrite M1, M2. auto.
  - intros new g F Sz. rewrite <- size_items in Sz. destruct (item_insert_ok cmp s t x new g R TW F Sz) as [[s' [t' [e1 [e2 [E [R' [E1 [E2 [H1 [H2 Fk]]]]]]]]]]|[s' [E [R' [Fk [y [Iy Ey]]]]]]].
    + exists s', (Some new), t'. split; [exact E|]. split; [exact R'|]. unfold insert. rewrite search_none.
      * replace (items t) with (map snd e1 ++ map snd e2) by (rewrite items_entries, E1, map_app; reflexivity). rewrite split_right_prefix; [split; [reflexivity|]; rewrite items_entries, E2, map_app; reflexivity| |];
          intros z I; apply in_map_iff in I as [q [<- I]]; [specialize (H1 _ I); lia|apply H2, I].
      * intros z I. rewrite items_entries, E1 in I. apply in_map_iff in I as [q [<- I]]. apply in_app_or in I as [I|I]; [specialize (H1 _ I)|specialize (H2 _ I)]; lia.
    + exists s', None, t. split; [exact E|]. split; [exact R'|]. unfold insert. destruct (search_some cmp x (items t) y Iy Ey) as [z ->]. auto.
Qed.
Example C38_lists_ex : order_on Z.sub (fun _ => True) /\ represents three three_tree /\ increasing Z.sub (items three_tree) /\ insert Z Z.sub 16%Z (items three_tree) = Some [10; 12; 16; 20]%Z /\ delete_item Z Z.sub 12%Z (items three_tree) = [10; 20]%Z.
Proof.
  split; [exact minus_order|]. split; [exact three_represents|]. split; [|split; reflexivity]. cbn. split; [intros y I; repeat destruct I as [<-|I]; try destruct I; reflexivity|]. split; [intros y I; repeat destruct I as [<-|I]; try destruct I; reflexivity|]. split; [intros y []|exact I].
Qed.
Print Assumptions C38_lists.

(** * The comparison functions of the library *)
(** On normalised points (C32) the comparison by the last objective is an order although it has a tolerance; the comparison by
    evaluation numbers is one on all items. *)
Theorem C38_comparators :
  order_on ArchModel.item_compare (fun i => exists k, ArchModel.ny i = mo_normalize k) /\
  order_on BiobjModel.compare_obj (fun i => exists k, BiobjModel.npt i = mo_normalize k) /\
  order_on BiobjModel.compare_eval (fun _ => True).
Proof.
  assert (Gr : forall k, exists b, snd (mo_normalize k) = (10 * b)%Z).
  { intros k. rewrite FrontProofs.normalize_spec. destruct (FrontProofs.normalised_grid k) as [_ [b Hb]]. exists b. exact Hb. }
  assert (C : forall p q a b, snd p = (10 * a)%Z -> snd q = (10 * b)%Z -> compare_last p q = if (a =? b)%Z then 0%Z else if (a <? b)%Z then (-1)%Z else 1%Z).
  { intros p q a b Ea Eb. unfold compare_last, almost_equal, mo_precision. rewrite Ea, Eb. destruct (Z.ltb_spec (Z.abs (10 * a - 10 * b)) 2), (Z.eqb_spec a b), (Z.ltb_spec (10 * a) (10 * b)), (Z.ltb_spec a b); try reflexivity; lia. }
  split; [|split].
  - split.
    + intros x y [k Ek] [j Ej]. unfold ArchModel.item_compare. rewrite Ek, Ej. destruct (Gr k) as [a Ea], (Gr j) as [b Eb]. rewrite (C _ _ _ _ Ea Eb), (C _ _ _ _ Eb Ea).
      destruct (Z.eqb_spec a b), (Z.eqb_spec b a), (Z.ltb_spec a b), (Z.ltb_spec b a); cbn; lia.
    + intros x y z [k Ek] [j Ej] [i Ei]. unfold ArchModel.item_compare. rewrite Ek, Ej, Ei. destruct (Gr k) as [a Ea], (Gr j) as [b Eb], (Gr i) as [c Ec]. rewrite (C _ _ _ _ Ea Eb), (C _ _ _ _ Eb Ec), (C _ _ _ _ Ea Ec).
      destruct (Z.eqb_spec a b), (Z.eqb_spec b c), (Z.eqb_spec a c), (Z.ltb_spec a b), (Z.ltb_spec b c), (Z.ltb_spec a c); lia.
  - split.
    + intros x y [k Ek] [j Ej]. unfold BiobjModel.compare_obj. rewrite Ek, Ej. destruct (Gr k) as [a Ea], (Gr j) as [b Eb]. rewrite (C _ _ _ _ Ea Eb), (C _ _ _ _ Eb Ea).
      destruct (Z.eqb_spec a b), (Z.eqb_spec b a), (Z.ltb_spec a b), (Z.ltb_spec b a); cbn; lia.
    + intros x y z [k Ek] [j Ej] [i Ei]. unfold BiobjModel.compare_obj. rewrite Ek, Ej, Ei. destruct (Gr k) as [a Ea], (Gr j) as [b Eb], (Gr i) as [c Ec]. rewrite (C _ _ _ _ Ea Eb), (C _ _ _ _ Eb Ec), (C _ _ _ _ Ea Ec).
      destruct (Z.eqb_spec a b), (Z.eqb_spec b c), (Z.eqb_spec a c), (Z.ltb_spec a b), (Z.ltb_spec b c), (Z.ltb_spec a c); lia.
  - unfold BiobjModel.compare_eval. split; intros; repeat match goal with |- context [Nat.ltb ?u ?v] => destruct (Nat.ltb_spec u v) | H : context [Nat.ltb ?u ?v] |- _ => destruct (Nat.ltb_spec u v) end; cbn; lia.
Qed.
(** Without the normalisation it is not an order: 0 and 1 are equal, 1 and 2 are equal, 0 and 2 are not (in units of 5e-14). *)
Theorem C38_tolerance_refuted : exists p q r, compare_last p q = 0%Z /\ compare_last q r = 0%Z /\ compare_last p r = (-1)%Z.
Proof. exists (0, 0)%Z, (0, 1)%Z, (0, 2)%Z. repeat split. Qed.
Print Assumptions C38_comparators.
Print Assumptions C38_tolerance_refuted.
