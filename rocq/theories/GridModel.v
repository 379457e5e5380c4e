(** Model of the grid search of build/c/example_experiment.c (lines 329-422): which nodes of the grid are evaluated, in which order.
    Bounds and budget are exact numbers; pow and the divisions are exact, longs are not bounded. *)
From Coq Require Import List Arith Bool QArith.
Import ListNotations.
From Verif Require Import CBase.
Local Open Scope nat_scope.

(** floor(pow(b / i, 1 / k)): the largest r with i * r^k <= b *)
Fixpoint floor_root (b i k r : nat) : nat :=
  match r with O => O | S r' => if i * r ^ k <=? b then r else floor_root b i k r' end.
(** Lines 352-374: max_nodes and integer_nodes.  [uppers] are the upper bounds of the integer variables (their lower bounds are 0),
    which come first; [c] is the number of continuous variables, [b] the budget. *)
Definition integer_nodes (uppers : list nat) : nat := fold_left Nat.mul uppers 1.
Definition continuous_nodes (uppers : list nat) (c b : nat) : nat :=
  let m := floor_root b (integer_nodes uppers) c b - 1 in if m <? 1 then 1 else m.
Definition max_nodes (uppers : list nat) (c b : nat) : list nat := uppers ++ repeat (continuous_nodes uppers c b) c.

(** Lines 405-409: the first j with nodes[j] < max_nodes[j], counting from the given one *)
Fixpoint level (nodes max : list nat) (j : nat) : option nat :=
  match nodes, max with
  | n :: nodes', m :: max' => if n <? m then Some j else level nodes' max' (S j)
  | _, _ => None
  end.
(** Lines 397-419: the next node, None to leave the loop *)
Definition advance (nodes max : list nat) : option (list nat) :=
  if nth 0 nodes 0 <? nth 0 max 0 then Some (upd nodes 0 (S (nth 0 nodes 0)))
  else if 0 <? nth 0 max 0 then
    match level (skipn 1 nodes) (skipn 1 max) 1 with
    | Some j => Some (repeat 0 j ++ S (nth j nodes 0) :: skipn (S j) nodes)
    | None => if nth (length nodes - 1) nodes 0 =? nth (length nodes - 1) max 0 then None else Some nodes
    end
  else Some nodes.
(** Lines 379-420: [k] is what is left of the budget, [e] the value of evaluations; [stop] is integer_nodes if all variables are integer.
    The result are the nodes evaluated. *)
Fixpoint visit (max : list nat) (stop : option nat) (k e : nat) (nodes : list nat) : list (list nat) :=
  match k with
  | O => []
  | S k' =>
    if match stop with Some i => i <=? e | None => false end then []
    else nodes :: match advance nodes max with None => [] | Some nodes' => visit max stop k' (S e) nodes' end
  end.
Definition my_grid_search (uppers : list nat) (c b : nat) : list (list nat) :=
  visit (max_nodes uppers c b) (if c =? 0 then Some (integer_nodes uppers) else None) b 0 (repeat 0 (length uppers + c)).

(** Lines 355, 371 and 388: a coordinate of the point of a node *)
Definition coordinate (integer : bool) (lower upper : Q) (max node : nat) : Q :=
  (lower + (if integer then 1 else (upper - lower) / inject_Z (Z.of_nat max)) * inject_Z (Z.of_nat node))%Q.
