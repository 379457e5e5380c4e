(** Specification of block rotations. *)
From Coq Require Import List Arith ZArith Reals.
From Verif Require Import CBase.
Import ListNotations.
Open Scope nat_scope.

(** Where block b begins, and that row i belongs to it. *)
Fixpoint total (sizes : list nat) : nat := match sizes with [] => 0 | s :: t => s + total t end.
Definition block_start (sizes : list nat) (b : nat) : nat := total (firstn b sizes).
Definition in_block (sizes : list nat) (b i : nat) : Prop := exists s, nth_error sizes b = Some s /\ block_start sizes b <= i < block_start sizes b + s.

Section Arithmetic.
Variable A : Type.
Variables (zero : A) (add mul : A -> A -> A).
(** The scalar product, summed from the left. *)
Fixpoint products_onto (s : A) (u v : list A) : A :=
  match u, v with a :: u', b :: v' => products_onto (add s (mul a b)) u' v' | _, _ => s end.
Definition scalar_product : list A -> list A -> A := products_onto zero.
(** The product of a block-diagonal matrix (its blocks given by rows) and a vector. *)
Fixpoint block_product (blocks : list (list (list A))) (x : list A) : list A :=
  match blocks with
  | [] => []
  | M :: t => map (fun row => scalar_product row (firstn (length M) x)) M ++ block_product t (skipn (length M) x)
  end.
(** s x s matrices *)
Definition square (s : nat) (M : list (list A)) : Prop := length M = s /\ Forall (fun row => length row = s) M.
End Arithmetic.

(** ** Exact arithmetic *)
Open Scope R_scope.
Fixpoint inner (u v : list R) : R := match u, v with a :: u', b :: v' => a * b + inner u' v' | _, _ => 0 end.
Definition orthonormal (vs : list (list R)) : Prop :=
  forall i j u v, nth_error vs i = Some u -> nth_error vs j = Some v -> inner u v = if Nat.eqb i j then 1 else 0.
(** Coordinate k of a linear combination, and linear independence of vectors with m coordinates. *)
Fixpoint combination (coefs : list R) (vs : list (list R)) (k : nat) : R :=
  match coefs, vs with c :: cs, v :: t => c * nth k v 0 + combination cs t k | _, _ => 0 end.
Definition independent (m : nat) (vs : list (list R)) : Prop :=
  forall coefs, length coefs = length vs -> (forall k, (k < m)%nat -> combination coefs vs k = 0) -> Forall (fun c => c = 0) coefs.
(** The matrix M (given by rows) preserves scalar products, hence lengths and distances. *)
Definition isometry (m : nat) (f : list R -> list R) : Prop :=
  forall x y, length x = m -> length y = m -> length (f x) = m /\ inner (f x) (f y) = inner x y.
