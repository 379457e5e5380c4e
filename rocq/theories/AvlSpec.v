(** Specification of the balanced tree. *)
From Coq Require Import List Arith NArith ZArith Bool.
Import ListNotations.
From Verif Require Import CBase MoModel AvlModel.

Section Avl.
Variable A : Type.
Variable cmp : A -> A -> Z.

(** ** What the tree looks like *)
Inductive tree := Leaf | Fork (l : tree) (p : nat) (x : A) (r : tree).
Fixpoint addrs (t : tree) : list nat := match t with Leaf => [] | Fork l p _ r => addrs l ++ p :: addrs r end.
Fixpoint items (t : tree) : list A := match t with Leaf => [] | Fork l _ x r => items l ++ x :: items r end.
(** Nodes with their items, in order *)
Fixpoint entries (t : tree) : list (nat * A) := match t with Leaf => [] | Fork l p x r => entries l ++ (p, x) :: entries r end.
Fixpoint size (t : tree) : N := match t with Leaf => 0 | Fork l _ _ r => size l + size r + 1 end%N.
Fixpoint height (t : tree) : N := match t with Leaf => 0 | Fork l _ _ r => N.max (height l) (height r) + 1 end%N.
Definition root (t : tree) : option nat := match t with Leaf => None | Fork _ p _ _ => Some p end.

(** The heights of the subtrees of every node differ by at most 1. *)
Fixpoint balanced (t : tree) : Prop :=
  match t with
  | Leaf => True
  | Fork l _ _ r => balanced l /\ balanced r /\ (height l <= height r + 1 /\ height r <= height l + 1)%N
  end.

(** The nodes of t are in memory, with the right children, parents, counts and depths; par is the parent of the root. *)
Fixpoint in_memory (h : heap A) (par : option nat) (t : tree) : Prop :=
  match t with
  | Leaf => True
  | Fork l p x r =>
    (exists n, get h p = Some n /\ parent n = par /\ left n = root l /\ right n = root r /\ item n = x /\
               count n = size t /\ depth n = height t) /\
    in_memory h (Some p) l /\ in_memory h (Some p) r
  end.

(** The nodes ps are linked in this order; the first one follows before, the last one precedes after. *)
Fixpoint linked (h : heap A) (before : option nat) (ps : list nat) (after : option nat) : Prop :=
  match ps with
  | [] => True
  | p :: ps' =>
    (exists n, get h p = Some n /\ prev n = before /\ next n = match ps' with [] => after | q :: _ => Some q end) /\
    linked h (Some p) ps' after
  end.

Definition represents (s : avl A) (t : tree) : Prop :=
  top s = root t /\ in_memory (cells s) None t /\ NoDup (addrs t) /\
  linked (cells s) None (addrs t) None /\ head s = hd_error (addrs t) /\ tail s = last_opt (addrs t) /\
  balanced t /\ (size t < 2 ^ 64)%N.

(** ** What is seen through the pointers *)
(** The items met on the way along the pointers next *)
Inductive forward (h : heap A) : option nat -> list A -> Prop :=
| forward_end : forward h None []
| forward_step : forall p n l, get h p = Some n -> forward h (next n) l -> forward h (Some p) (item n :: l).
Inductive backward (h : heap A) : option nat -> list A -> Prop :=
| backward_end : backward h None []
| backward_step : forall p n l, get h p = Some n -> backward h (prev n) l -> backward h (Some p) (item n :: l).

(** A path of k nodes along pointers to children *)
Inductive descends (h : heap A) : option nat -> nat -> Prop :=
| descends_0 : forall p, descends h p 0
| descends_left : forall p n k, get h p = Some n -> descends h (left n) k -> descends h (Some p) (S k)
| descends_right : forall p n k, get h p = Some n -> descends h (right n) k -> descends h (Some p) (S k).

(** ** Order *)
(** The comparison of x with the items of l: first greater, then equal, then smaller. *)
Definition three_way (x : A) (l : list A) : Prop :=
  exists a b c, l = a ++ b ++ c /\ (forall y, In y a -> 0 < cmp x y)%Z /\ (forall y, In y b -> cmp x y = 0)%Z /\ (forall y, In y c -> cmp x y < 0)%Z.

(** A total preorder on the items that satisfy P *)
Definition order_on (P : A -> Prop) : Prop :=
  (forall x y, P x -> P y -> Z.sgn (cmp y x) = - Z.sgn (cmp x y))%Z /\
  (forall x y z, P x -> P y -> P z -> cmp x y <= 0 -> cmp y z <= 0 -> cmp x z <= 0)%Z.
Fixpoint increasing (l : list A) : Prop :=
  match l with
  | [] => True
  | x :: l' => (forall y, In y l' -> cmp x y < 0)%Z /\ increasing l'
  end.

(** ** Histories *)
(** What a program does with a tree; DeleteAt k deletes the node that is k steps along the pointers next after head. *)
Inductive event := Insert (x : A) | Delete (x : A) | DeleteAt (k : nat) | Search (x : A) | SearchRight (x : A) | Count | Purge.
Inductive outcome := Inserted (new : bool) | Deleted (y : option A) | Found (y : option A) | Number (n : N) | Freed (l : list A).
Definition argument (e : event) : list A :=
  match e with Insert x | Delete x | Search x | SearchRight x => [x] | DeleteAt _ | Count | Purge => [] end.

Fixpoint walk (s : avl A) (k : nat) (p : option nat) : res (option nat) :=
  match p, k with
  | Some q, S k' => do n <- read s q; walk s k' (next n)
  | _, _ => Ok p
  end.
Definition item_at (s : avl A) (p : option nat) : res (option A) :=
  match p with Some q => do n <- read s q; Ok (Some (item n)) | None => Ok None end.

(** malloc gives an address that is not in use, and what is in the memory there. *)
Definition fresh (malloc : heap A -> nat * node A) : Prop := forall h, get h (fst (malloc h)) = None.
Definition perform (malloc : heap A -> nat * node A) (s : avl A) (e : event) : res (avl A * outcome) :=
  match e with
  | Insert x => do (s1, p) <- avl_item_insert cmp s x (fst (malloc (cells s))) (snd (malloc (cells s)));
                Ok (s1, Inserted (match p with Some _ => true | None => false end))
  | Delete x => do (s1, y) <- avl_item_delete cmp s x; Ok (s1, Deleted y)
  | DeleteAt k => do p <- walk s k (head s); do (s1, y) <- avl_node_delete s p; Ok (s1, Deleted y)
  | Search x => do p <- avl_item_search cmp s x; do y <- item_at s p; Ok (s, Found y)
  | SearchRight x => do p <- avl_item_search_right cmp s x; do y <- item_at s p; Ok (s, Found y)
  | Count => do n <- avl_count s; Ok (s, Number n)
  | Purge => do (s1, l) <- avl_tree_purge s; Ok (s1, Freed l)
  end.
Fixpoint run (malloc : heap A -> nat * node A) (s : avl A) (es : list event) : res (avl A * list outcome) :=
  match es with
  | [] => Ok (s, [])
  | e :: es' => do (s1, o) <- perform malloc s e; do (s2, os) <- run malloc s1 es'; Ok (s2, o :: os)
  end.

(** What should happen: the sequence before, the event, the outcome, the sequence after *)
Inductive behaves : list A -> event -> outcome -> list A -> Prop :=
| insert_new : forall a b x, (forall y, In y a -> 0 < cmp x y)%Z -> (forall y, In y b -> cmp x y < 0)%Z -> behaves (a ++ b) (Insert x) (Inserted true) (a ++ x :: b)
| insert_old : forall l x y, In y l -> cmp x y = 0%Z -> behaves l (Insert x) (Inserted false) l
| delete_hit : forall a b x y, cmp x y = 0%Z -> behaves (a ++ y :: b) (Delete x) (Deleted (Some y)) (a ++ b)
| delete_miss : forall l x, (forall y, In y l -> cmp x y <> 0)%Z -> behaves l (Delete x) (Deleted None) l
| delete_at : forall a b y, behaves (a ++ y :: b) (DeleteAt (length a)) (Deleted (Some y)) (a ++ b)
| delete_nothing : forall l k, (length l <= k)%nat -> behaves l (DeleteAt k) (Deleted None) l
| search_hit : forall l x y, In y l -> cmp x y = 0%Z -> behaves l (Search x) (Found (Some y)) l
| search_miss : forall l x, (forall y, In y l -> cmp x y <> 0)%Z -> behaves l (Search x) (Found None) l
| search_right : forall a b x, (forall y, In y a -> 0 <= cmp x y)%Z -> (forall y, In y b -> cmp x y < 0)%Z -> behaves (a ++ b) (SearchRight x) (Found (last_opt a)) (a ++ b)
| count_all : forall l, behaves l Count (Number (N.of_nat (length l))) l
| purge_all : forall l, behaves l Purge (Freed l) [].
Inductive history : list A -> list event -> list outcome -> list A -> Prop :=
| history_end : forall l, history l [] [] l
| history_step : forall l e o l1 es os l2, behaves l e o l1 -> history l1 es os l2 -> history l (e :: es) (o :: os) l2.

End Avl.
Arguments Leaf {A}. Arguments Fork {A}. Arguments addrs {A}. Arguments items {A}. Arguments entries {A}. Arguments size {A}. Arguments height {A}. Arguments root {A}. Arguments balanced {A}.
Arguments in_memory {A}. Arguments linked {A}. Arguments represents {A}. Arguments forward {A}. Arguments backward {A}. Arguments descends {A}.
Arguments three_way {A}. Arguments order_on {A}. Arguments increasing {A}.
Arguments Insert {A}. Arguments Delete {A}. Arguments DeleteAt {A}. Arguments Search {A}. Arguments SearchRight {A}. Arguments Count {A}. Arguments Purge {A}.
Arguments Inserted {A}. Arguments Deleted {A}. Arguments Found {A}. Arguments Number {A}. Arguments Freed {A}.
Arguments argument {A}. Arguments walk {A}. Arguments item_at {A}. Arguments fresh {A}. Arguments perform {A}. Arguments run {A}. Arguments behaves {A}. Arguments history {A}.
