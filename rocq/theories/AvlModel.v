(** Model of src/mo_avl_tree.c: the tree with its pointers. *)
From Coq Require Import List Arith NArith ZArith Bool.
Import ListNotations.
From Verif Require Import CBase.

Section Avl.
Variable A : Type.                       (* items, behind the void pointers *)
Variable cmp : A -> A -> Z.              (* the comparison function; userdata is NULL and unused *)

(** Lines 68-81.  AVL_COUNT and AVL_DEPTH are defined (lines 42-45); unsigned long has 64 bits.  Pointers are addresses or NULL (None). *)
Record node := Node {
  prev : option nat;
  next : option nat;
  parent : option nat;
  left : option nat;
  right : option nat;
  item : A;
  count : N;                             (* unsigned long *)
  depth : N }.                           (* unsigned char *)

(** The nodes in memory that are allocated and not freed, with their addresses *)
Definition heap := list (nat * node).
Fixpoint get (h : heap) (p : nat) : option node :=
  match h with
  | [] => None
  | (q, n) :: h' => if Nat.eqb p q then Some n else get h' p
  end.
Fixpoint put (h : heap) (p : nat) (n : node) : heap :=
  match h with
  | [] => []
  | (q, m) :: h' => if Nat.eqb p q then (q, n) :: h' else (q, m) :: put h' p n
  end.
Fixpoint release (h : heap) (p : nat) : heap :=
  match h with
  | [] => []
  | (q, m) :: h' => if Nat.eqb p q then release h' p else (q, m) :: release h' p
  end.

(** Lines 85-93 without the functions (cmpitem is [cmp]; freeitem is treated at the deletions; allocator is NULL for all trees of
    the library, lines 419-430), together with the memory *)
Record avl := Avl {
  cells : heap;
  top : option nat;
  head : option nat;
  tail : option nat }.
Definition with_cells (s : avl) (h : heap) : avl := Avl h (top s) (head s) (tail s).

(** Access to memory: a NULL pointer or the address of a freed node is UB. *)
Definition read (s : avl) (p : nat) : res node := match get (cells s) p with Some n => Ok n | None => UB end.
Definition change (s : avl) (p : nat) (f : node -> node) : res avl :=
  do n <- read s p; Ok (with_cells s (put (cells s) p (f n))).
Definition deref (p : option nat) : res nat := match p with Some q => Ok q | None => UB end.

Definition set_prev (v : option nat) (n : node) := Node v (next n) (parent n) (left n) (right n) (item n) (count n) (depth n).
Definition set_next (v : option nat) (n : node) := Node (prev n) v (parent n) (left n) (right n) (item n) (count n) (depth n).
Definition set_parent (v : option nat) (n : node) := Node (prev n) (next n) v (left n) (right n) (item n) (count n) (depth n).
Definition set_left (v : option nat) (n : node) := Node (prev n) (next n) (parent n) v (right n) (item n) (count n) (depth n).
Definition set_right (v : option nat) (n : node) := Node (prev n) (next n) (parent n) (left n) v (item n) (count n) (depth n).
Definition set_item (v : A) (n : node) := Node (prev n) (next n) (parent n) (left n) (right n) v (count n) (depth n).
Definition set_count (v : N) (n : node) := Node (prev n) (next n) (parent n) (left n) (right n) (item n) v (depth n).
Definition set_depth (v : N) (n : node) := Node (prev n) (next n) (parent n) (left n) (right n) (item n) (count n) v.

(** Lines 109-112; additions of unsigned long wrap around. *)
Definition node_count (s : avl) (p : option nat) : res N :=
  match p with Some q => do n <- read s q; Ok (count n) | None => Ok 0%N end.
Definition calc_count (s : avl) (p : nat) : res N :=
  do n <- read s p;
  do l <- node_count s (left n);
  do r <- node_count s (right n);
  Ok ((l + r + 1) mod 2 ^ 64)%N.

(** Lines 116-119; the cast to unsigned char *)
Definition node_depth (s : avl) (p : option nat) : res N :=
  match p with Some q => do n <- read s q; Ok (depth n) | None => Ok 0%N end.
Definition l_depth (s : avl) (p : nat) : res N := do n <- read s p; node_depth s (left n).
Definition r_depth (s : avl) (p : nat) : res N := do n <- read s p; node_depth s (right n).
Definition calc_depth (s : avl) (p : nat) : res N :=
  do l <- l_depth s p;
  do r <- r_depth s p;
  Ok (((if r <? l then l else r) + 1) mod 256)%N.

(** Lines 129-133 *)
Definition avl_check_balance (s : avl) (p : nat) : res Z :=
  do r <- r_depth s p;
  do l <- l_depth s p;
  let d := (Z.of_N r - Z.of_N l)%Z in
  Ok (if (d <? -1)%Z then -1 else if (1 <? d)%Z then 1 else 0)%Z.

(** Lines 157-161 *)
Definition avl_count (s : avl) : res N := node_count s (top s).

(** Line 881.  The address of a pointer variable: &avltree->top, &p->left, &p->right *)
Inductive place := Top | LeftOf (p : nat) | RightOf (p : nat).
Definition superparent (s : avl) (p : nat) (par : option nat) : res place :=
  match par with
  | None => Ok Top
  | Some q => do n <- read s q;
              Ok (match left n with Some l => if Nat.eqb p l then LeftOf q else RightOf q | None => RightOf q end)
  end.
Definition store (s : avl) (w : place) (v : option nat) : res avl :=
  match w with
  | Top => Ok (Avl (cells s) v (head s) (tail s))
  | LeftOf q => change s q (set_left v)
  | RightOf q => change s q (set_right v)
  end.

(** if (p) p->parent = v; *)
Definition adopt (s : avl) (p : option nat) (v : option nat) : res avl :=
  match p with Some q => change s q (set_parent v) | None => Ok s end.

Definition update_count (s : avl) (p : nat) : res avl := do c <- calc_count s p; change s p (set_count c).
Definition update_depth (s : avl) (p : nat) : res avl := do d <- calc_depth s p; change s p (set_depth d).

(** Lines 879-999: one iteration of the loop of avl_rebalance.  Returns the node of the next iteration. *)
Definition rebalance_step (s : avl) (p : nat) : res (avl * option nat) :=
  do n <- read s p;
  let par := parent n in
  do sp <- superparent s p par;
  do b <- avl_check_balance s p;
  do s1 <-
    (if (b =? -1)%Z then
       do child <- deref (left n);                               (* line 885 *)
       do dl <- l_depth s child;
       do dr <- r_depth s child;
       do cn <- read s child;
       if (dr <=? dl)%N then                                     (* lines 887, 895-909 *)
         do s <- change s p (set_left (right cn));
         do n <- read s p;
         do s <- adopt s (left n) (Some p);
         do s <- change s child (set_right (Some p));
         do s <- change s p (set_parent (Some child));
         do s <- store s sp (Some child);
         do s <- change s child (set_parent par);
         do s <- update_count s p;
         do s <- update_count s child;
         do s <- update_depth s p;
         update_depth s child
       else                                                      (* lines 911-935 *)
         do g <- deref (right cn);
         do gn <- read s g;
         do s <- change s p (set_left (right gn));
         do n <- read s p;
         do s <- adopt s (left n) (Some p);
         do gn <- read s g;
         do s <- change s child (set_right (left gn));
         do cn <- read s child;
         do s <- adopt s (right cn) (Some child);
         do s <- change s g (set_right (Some p));
         do s <- change s p (set_parent (Some g));
         do s <- change s g (set_left (Some child));
         do s <- change s child (set_parent (Some g));
         do s <- store s sp (Some g);
         do s <- change s g (set_parent par);
         do s <- update_count s p;
         do s <- update_count s child;
         do s <- update_count s g;
         do s <- update_depth s p;
         do s <- update_depth s child;
         update_depth s g
     else if (b =? 1)%Z then
       do child <- deref (right n);                              (* line 939 *)
       do dl <- l_depth s child;
       do dr <- r_depth s child;
       do cn <- read s child;
       if (dl <=? dr)%N then                                     (* lines 941, 949-963 *)
         do s <- change s p (set_right (left cn));
         do n <- read s p;
         do s <- adopt s (right n) (Some p);
         do s <- change s child (set_left (Some p));
         do s <- change s p (set_parent (Some child));
         do s <- store s sp (Some child);
         do s <- change s child (set_parent par);
         do s <- update_count s p;
         do s <- update_count s child;
         do s <- update_depth s p;
         update_depth s child
       else                                                      (* lines 965-989 *)
         do g <- deref (left cn);
         do gn <- read s g;
         do s <- change s p (set_right (left gn));
         do n <- read s p;
         do s <- adopt s (right n) (Some p);
         do gn <- read s g;
         do s <- change s child (set_left (right gn));
         do cn <- read s child;
         do s <- adopt s (left cn) (Some child);
         do s <- change s g (set_left (Some p));
         do s <- change s p (set_parent (Some g));
         do s <- change s g (set_right (Some child));
         do s <- change s child (set_parent (Some g));
         do s <- store s sp (Some g);
         do s <- change s g (set_parent par);
         do s <- update_count s p;
         do s <- update_count s child;
         do s <- update_count s g;
         do s <- update_depth s p;
         do s <- update_depth s child;
         update_depth s g
     else
       do s <- update_count s p;
       update_depth s p);
  Ok (s1, par).

(** Lines 872-1002.  A loop that visits more nodes than there are in memory does not end; this is UB here and in the loops
    below. *)
Fixpoint rebalance_loop (fuel : nat) (s : avl) (p : option nat) : res avl :=
  match p with
  | None => Ok s
  | Some q =>
    match fuel with
    | O => UB
    | S fuel' => do (s1, par) <- rebalance_step s q; rebalance_loop fuel' s1 par
    end
  end.
Definition avl_rebalance (s : avl) (p : option nat) : res avl := rebalance_loop (length (cells s)) s p.

(** Lines 239-264: [to_right] says which of the two inner loops is running. *)
Fixpoint rightmost_equal (fuel : nat) (s : avl) (x : A) (r p : nat) (to_right : bool) : res nat :=
  match fuel with
  | O => UB
  | S fuel' =>
    do n <- read s p;
    match (if to_right then right n else left n) with
    | None => Ok r
    | Some q =>
      do m <- read s q;
      if (cmp x (item m) =? 0)%Z then rightmost_equal fuel' s x q q true
      else rightmost_equal fuel' s x r q false
    end
  end.
Definition avl_search_rightmost_equal (s : avl) (p : nat) (x : A) : res nat := rightmost_equal (length (cells s)) s x p p true.

(** Lines 324-362; the flag is *exact. *)
Fixpoint rightish (fuel : nat) (s : avl) (x : A) (p : nat) : res (option nat * bool) :=
  match fuel with
  | O => UB
  | S fuel' =>
    do n <- read s p;
    let c := cmp x (item n) in
    if (c <? 0)%Z then match left n with Some q => rightish fuel' s x q | None => Ok (prev n, false) end
    else if (0 <? c)%Z then match right n with Some q => rightish fuel' s x q | None => Ok (Some p, false) end
    else Ok (Some p, true)
  end.
Definition avl_search_rightish (s : avl) (x : A) : res (option nat * bool) :=
  match top s with None => Ok (None, false) | Some p => rightish (length (cells s)) s x p end.

(** Lines 391-403 *)
Definition avl_item_search_right (s : avl) (x : A) : res (option nat) :=
  do (p, exact) <- avl_search_rightish s x;
  if exact : bool then do q <- deref p; do r <- avl_search_rightmost_equal s q x; Ok (Some r) else Ok p.

(** Lines 408-413 *)
Definition avl_item_search (s : avl) (x : A) : res (option nat) :=
  do (p, exact) <- avl_search_rightish s x;
  Ok (if exact : bool then p else None).

(** Lines 509-517 *)
Definition avl_node_clear (s : avl) (p : nat) : res avl :=
  do s <- change s p (set_right None);
  do s <- change s p (set_left None);
  do s <- change s p (set_count 1);
  change s p (set_depth 1).

(** Lines 553-558 *)
Definition avl_insert_top (s : avl) (new : nat) : res avl :=
  do s <- avl_node_clear s new;
  do s <- change s new (set_parent None);
  do s <- change s new (set_next None);
  do s <- change s new (set_prev None);
  Ok (Avl (cells s) (Some new) (Some new) (Some new)).

(** Lines 563-588 (before = true) and 593-618 (before = false), which call each other.  The tree and the new node are not NULL. *)
Fixpoint avl_node_insert (fuel : nat) (before : bool) (s : avl) (p : option nat) (new : nat) : res avl :=
  match fuel with
  | O => UB
  | S fuel' =>
    if before then
      match p with
      | None => match tail s with Some t => avl_node_insert fuel' false s (Some t) new | None => avl_insert_top s new end
      | Some q =>
        do n <- read s q;
        match left n with
        | Some _ => avl_node_insert fuel' false s (prev n) new
        | None =>
          do s <- avl_node_clear s new;
          do s <- change s new (set_next p);
          do s <- change s new (set_parent p);
          do n <- read s q;
          do s <- change s new (set_prev (prev n));
          do n <- read s q;
          do s <- match prev n with
                  | Some r => change s r (set_next (Some new))
                  | None => Ok (Avl (cells s) (top s) (Some new) (tail s))
                  end;
          do s <- change s q (set_prev (Some new));
          do s <- change s q (set_left (Some new));
          avl_rebalance s p
        end
      end
    else
      match p with
      | None => match head s with Some t => avl_node_insert fuel' true s (Some t) new | None => avl_insert_top s new end
      | Some q =>
        do n <- read s q;
        match right n with
        | Some _ => avl_node_insert fuel' true s (next n) new
        | None =>
          do s <- avl_node_clear s new;
          do s <- change s new (set_prev p);
          do s <- change s new (set_parent p);
          do n <- read s q;
          do s <- change s new (set_next (next n));
          do n <- read s q;
          do s <- match next n with
                  | Some r => change s r (set_prev (Some new))
                  | None => Ok (Avl (cells s) (top s) (head s) (Some new))
                  end;
          do s <- change s q (set_next (Some new));
          do s <- change s q (set_right (Some new));
          avl_rebalance s p
        end
      end
  end.
Definition avl_node_insert_after (s : avl) (p : option nat) (new : nat) : res avl := avl_node_insert (length (cells s)) false s p new.
Definition avl_node_insert_before (s : avl) (p : option nat) (new : nat) : res avl := avl_node_insert (length (cells s)) true s p new.

(** Lines 653-667, with lines 522-547 and 623-629; malloc does not fail.  [p] is the address that malloc returns and [garbage] what is in the memory
    there. *)
Definition avl_item_insert (s : avl) (x : A) (p : nat) (garbage : node) : res (avl * option nat) :=
  let s1 := with_cells s ((p, set_item x garbage) :: cells s) in
  do (q, exact) <- avl_search_rightish s1 x;
  if exact : bool then Ok (with_cells s1 (release (cells s1) p), None)
  else do s2 <- avl_node_insert_after s1 q p; Ok (s2, Some p).

(** Lines 744-799; the node is not NULL. *)
Definition avl_node_unlink (s : avl) (p : nat) : res avl :=
  do n <- read s p;
  do s <- match prev n with
          | Some q => change s q (set_next (next n))
          | None => Ok (Avl (cells s) (top s) (next n) (tail s))
          end;
  do n <- read s p;
  do s <- match next n with
          | Some q => change s q (set_prev (prev n))
          | None => Ok (Avl (cells s) (top s) (head s) (prev n))
          end;
  do n <- read s p;
  let par := parent n in
  do sp <- superparent s p par;
  match left n, right n with
  | None, r =>
    do s <- store s sp r;
    do s <- adopt s r par;
    avl_rebalance s par
  | Some l, None =>
    do s <- store s sp (Some l);
    do s <- change s l (set_parent par);
    avl_rebalance s par
  | Some l, Some r =>
    do subst <- deref (prev n);
    do (s, bal) <-
      (if Nat.eqb subst l then Ok (s, subst)
       else
         do sn <- read s subst;
         do bal <- deref (parent sn);
         do s <- change s bal (set_right (left sn));
         do bn <- read s bal;
         do s <- adopt s (right bn) (Some bal);
         do s <- change s subst (set_left (Some l));
         do s <- change s l (set_parent (Some subst));
         Ok (s, bal));
    do s <- change s subst (set_right (Some r));
    do s <- change s subst (set_parent par);
    do s <- change s r (set_parent (Some subst));
    do s <- store s sp (Some subst);
    avl_rebalance s (Some bal)
  end.

(** Lines 805-815.  If the tree has a function freeitem, it is applied to the returned item. *)
Definition avl_node_delete (s : avl) (p : option nat) : res (avl * option A) :=
  match p with
  | None => Ok (s, None)
  | Some q =>
    do n <- read s q;
    do s1 <- avl_node_unlink s q;
    Ok (with_cells s1 (release (cells s1) q), Some (item n))
  end.

(** Lines 821-823 *)
Definition avl_item_delete (s : avl) (x : A) : res (avl * option A) :=
  do p <- avl_item_search s x;
  avl_node_delete s p.

(** Lines 468-497 with 444-448: the items to which freeitem is applied, in order, and the empty tree *)
Fixpoint purge_loop (fuel : nat) (s : avl) (p : option nat) : res (avl * list A) :=
  match p with
  | None => Ok (s, [])
  | Some q =>
    match fuel with
    | O => UB
    | S fuel' =>
      do n <- read s q;
      do (s1, l) <- purge_loop fuel' (with_cells s (release (cells s) q)) (next n);
      Ok (s1, item n :: l)
    end
  end.
Definition avl_tree_purge (s : avl) : res (avl * list A) :=
  do (s1, l) <- purge_loop (length (cells s)) s (head s);
  Ok (Avl (cells s1) None None None, l).

(** Lines 419-438, in the memory h *)
Definition avl_tree_construct (h : heap) : avl := Avl h None None None.
End Avl.
Arguments prev {A}. Arguments next {A}. Arguments parent {A}. Arguments left {A}. Arguments right {A}. Arguments item {A}. Arguments count {A}. Arguments depth {A}.
Arguments cells {A}. Arguments top {A}. Arguments head {A}. Arguments tail {A}.
Arguments get {A}. Arguments put {A}. Arguments release {A}. Arguments with_cells {A}. Arguments read {A}. Arguments change {A}.
Arguments set_prev {A}. Arguments set_next {A}. Arguments set_parent {A}. Arguments set_left {A}. Arguments set_right {A}. Arguments set_item {A}. Arguments set_count {A}. Arguments set_depth {A}.
Arguments node_count {A}. Arguments calc_count {A}. Arguments node_depth {A}. Arguments l_depth {A}. Arguments r_depth {A}. Arguments calc_depth {A}.
Arguments avl_check_balance {A}. Arguments avl_count {A}. Arguments superparent {A}. Arguments store {A}. Arguments adopt {A}. Arguments update_count {A}. Arguments update_depth {A}.
Arguments rebalance_step {A}. Arguments rebalance_loop {A}. Arguments avl_rebalance {A}. Arguments rightmost_equal {A}. Arguments avl_search_rightmost_equal {A}.
Arguments rightish {A}. Arguments avl_search_rightish {A}. Arguments avl_item_search_right {A}. Arguments avl_item_search {A}. Arguments avl_node_clear {A}. Arguments avl_insert_top {A}.
Arguments avl_node_insert {A}. Arguments avl_node_insert_after {A}. Arguments avl_node_insert_before {A}. Arguments avl_item_insert {A}. Arguments avl_node_unlink {A}. Arguments avl_node_delete {A}.
Arguments avl_item_delete {A}. Arguments purge_loop {A}. Arguments avl_tree_purge {A}. Arguments avl_tree_construct {A}.
