(** Specification of a grid. *)
From Coq Require Import List Arith.
Import ListNotations.

(** A node of the grid with max + 1 nodes along each axis *)
Definition in_grid (max node : list nat) : Prop := Forall2 (fun n m => n <= m) node max.
Fixpoint grid_size (max : list nat) : nat := match max with [] => 1 | m :: max' => S m * grid_size max' end.
