(** Model of src/mo_utilities.c and of the ordered sequences kept by src/mo_avl_tree.c, at the level of
    exact arithmetic.  Values are integers counting units of 5e-14. *)
From Coq Require Import List Arith NArith ZArith Bool Lia.
Import ListNotations.
Open Scope Z_scope.

(** src/mo_utilities.c:18 (1e-13) and :25 (5e-13), and 1.0, in units of 5e-14. *)
Definition mo_precision : Z := 2.
Definition mo_discretization : Z := 10.
Definition one : Z := 20000000000000.
(** 1.0 in discretisation steps. *)
Definition steps : Z := 2000000000000.

(** src/coco_utilities.c:909-911 *)
Definition almost_equal (a b precision : Z) : bool := Z.abs (a - b) <? precision.

(** src/mo_utilities.c:86-111 mo_get_dominance for any number of objectives; the precision is a
    parameter so that the values can be counted in any unit. *)
Fixpoint dominance_flags (precision : Z) (y1 y2 : list Z) (flag1 flag2 : bool) : bool * bool :=
  match y1, y2 with
  | a :: y1', b :: y2' =>
    if almost_equal a b precision then dominance_flags precision y1' y2' flag1 flag2
    else if a <? b then dominance_flags precision y1' y2' true flag2
    else if b <? a then dominance_flags precision y1' y2' flag1 true
    else dominance_flags precision y1' y2' flag1 flag2
  | _, _ => (flag1, flag2)
  end.

Definition mo_get_dominance (precision : Z) (y1 y2 : list Z) : Z :=
  match dominance_flags precision y1 y2 false false with
  | (true, false) => 1
  | (false, true) => -1
  | (true, true) => 0
  | (false, false) => -2
  end.

(** Bi-objective vectors. *)
Definition point : Type := Z * Z.
Definition vec (p : point) : list Z := [fst p; snd p].
Definition dominance (p q : point) : Z := mo_get_dominance mo_precision (vec p) (vec q).

(** src/mo_utilities.c:48-72 mo_normalize for two objectives.  The argument is the pair of
    rounded quotients coco_double_round((y - ideal) / (nadir - ideal) / mo_discretization), which are
    integers; (nadir - ideal) is larger than mo_discretization for all problems. *)
Definition mo_normalize (k : Z * Z) : point :=
  let n0 := fst k * mo_discretization in
  let n1 := snd k * mo_discretization in
  let n0 := if n0 <? 0 then 0 else n0 in
  let n1 := if n1 <? 0 then 0 else n1 in
  let n1 := if almost_equal n0 0 mo_precision && (n1 <? one) then one else n1 in
  let n0 := if almost_equal n1 0 mo_precision && (n0 <? one) then one else n0 in
  (n0, n1).

(** src/mo_utilities.c:116-129 *)
Definition value_within (v : Z) : bool :=
  almost_equal v 0 mo_precision || almost_equal v one mo_precision || ((0 <? v) && (v <? one)).
Definition mo_is_within_ROI (p : point) : bool := value_within (fst p) && value_within (snd p).

(** The ordered sequence kept by a tree with comparison function [cmp] (src/mo_avl_tree.c; the
    tree itself is treated in AvlModel.v). *)
Section Ordered.
Variable A : Type.
Variable cmp : A -> A -> Z.

(** The elements up to the last one that is not greater than x, and the rest:
    avl_item_search_right (src/mo_avl_tree.c:391-402) returns the last of the first part
    (NULL when it is empty); its successor is the first of the rest. *)
Fixpoint split_right (x : A) (l : list A) : list A * list A :=
  match l with
  | [] => ([], [])
  | e :: l' => if cmp x e <? 0 then ([], l)
               else let (p, r) := split_right x l' in (e :: p, r)
  end.

(** avl_item_search (lines 408-412): is there an equal element? *)
Definition search (x : A) (l : list A) : option A := find (fun e => cmp x e =? 0) l.

(** avl_item_insert (lines 621-629, 649-667): None when an equal element exists. *)
Definition insert (x : A) (l : list A) : option (list A) :=
  match search x l with
  | Some _ => None
  | None => let (p, r) := split_right x l in Some (p ++ x :: r)
  end.

(** avl_item_delete (lines 821-823): deletes the element found, if any. *)
Fixpoint delete_item (x : A) (l : list A) : list A :=
  match l with
  | [] => []
  | e :: l' => if cmp x e =? 0 then l' else e :: delete_item x l'
  end.
End Ordered.

Definition last_opt {A} (l : list A) : option A :=
  match rev l with [] => None | x :: _ => Some x end.

(** Comparison by the last objective (src/coco_archive.c:77-86, src/logger_biobj.c:234-244). *)
Definition compare_last (p q : point) : Z :=
  if almost_equal (snd p) (snd q) mo_precision then 0
  else if snd p <? snd q then -1 else 1.
