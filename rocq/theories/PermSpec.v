(** Specification of the permutations. *)
From Coq Require Import List Arith ZArith Reals Bool Permutation.
From Flocq Require Import Core.
From Verif Require Import CBase DblModel DblSpec RandModel PermModel.
Import ListNotations.
Open Scope nat_scope.

(** What the C standard says about qsort: with a comparison function that is consistent on the members the result is a
    rearrangement in ascending order. *)
Definition consistent (compare : nat -> nat -> Z) (l : list nat) : Prop :=
  (forall a b, In a l -> In b l -> Z.sgn (compare b a) = (- Z.sgn (compare a b))%Z) /\
  (forall a b c, In a l -> In b l -> In c l -> (compare a b <= 0)%Z -> (compare b c <= 0)%Z -> (compare a c <= 0)%Z).
Definition ascending (le : nat -> nat -> Prop) (l : list nat) : Prop :=
  forall i j a b, i < j -> nth_error l i = Some a -> nth_error l j = Some b -> le a b.
Definition qsort_ok (qsort : (nat -> nat -> Z) -> list nat -> list nat) : Prop :=
  forall compare l, consistent compare l ->
    Permutation l (qsort compare l) /\ ascending (fun a b => (compare a b <= 0)%Z) (qsort compare l).

(** l lists the positions of the data in ascending order. *)
Definition sorts (data : list double) (l : list nat) : Prop :=
  Permutation (seq 0 (length data)) l /\ ascending (fun a b => (val (nth a data dzero) <= val (nth b data dzero))%R) l.

(** The positions that a may be swapped with: those different from a at a distance of at most range. *)
Definition window (n range a : nat) : list nat :=
  filter (fun b => negb (b =? a) && (a <=? b + range) && (b <=? a + range)) (seq 0 n).

(** The number of the window chosen by a number u of (0, 1). *)
Definition chosen (u : double) (size : nat) : nat := Z.to_nat (Zfloor (rnd (val u * INR size))).

(** P' is P with the contents of the positions a and b swapped. *)
Definition transposed (a b : nat) (P P' : list nat) : Prop :=
  length P' = length P /\ forall i, nth_error P' i = nth_error P (if i =? a then b else if i =? b then a else i).

(** A chain of swaps: the positions [firsts] are swapped, in this order, with partners. *)
Inductive swap_chain (partner : nat -> nat -> nat -> Prop) : nat -> list nat -> list nat -> list nat -> Prop :=
| chain_end : forall i P, swap_chain partner i [] P P
| chain_swap : forall i a b rest P P' Q, partner i a b -> transposed a b P P' -> swap_chain partner (S i) rest P' Q ->
    swap_chain partner i (a :: rest) P Q.

(** The partner of position a in swap number i: the one of the window chosen by the number drawn with its own seed. *)
Definition partner (seed : Z) (n range i a b : nat) : Prop := exists u, bbob2009_unif 1 (seed + 1000 * (1 + Z.of_nat i)) = Ok [u] /\
  nth_error (window n range a) (chosen u (length (window n range a))) = Some b.

(** New blocks of memory do not overlap live ones. *)
Definition addresses_old (m : memory) : Prop := Forall (fun b => fst b < fresh m) (blocks m).
