(** What the numerical inversion has to do, for C71. *)

From Coq Require Import List Bool Reals.
From Verif Require Import FunModel FunSpec FunDocSpec BrentModel ConsModel ConsSpec.
Import ListNotations.
Local Open Scope R_scope.

Definition increasing (f : R -> R) : Prop := forall a b, a < b -> f a < f b.

(** An increasing function that takes every value, 0 at 0. *)
Definition invertible (f : R -> R) : Prop := increasing f /\ f 0 = 0 /\ forall y, exists x, f x = y.

(** The tolerance of an inversion. *)
Definition tolerance (r : R) : R := / 10 ^ 14 + / 10 ^ 10 * Rabs r.

(** The asymmetric map of coordinate i of n. *)
Definition asy (n i : nat) (x : R) : R := Tasy n 0.2 (fun _ => x) i.

(** The numbers that the search for the initial solution uses are what brentinv returns, and the flags of [good] tell for
    which values it stopped before its 200 iterations. *)
Definition computed_inverses (n : nat) (q : inputs real_arith) (good_osz : R -> bool) (good_asy : nat -> R -> bool) : Prop :=
  (forall y, exists fuel, brentinv real_arith fuel (tosz_uv real_arith) y = Some (inverse_osz _ q y, good_osz y)) /\
  (forall i y, (i < n)%nat -> exists fuel,
     brentinv real_arith fuel (tasy_uv real_arith (0.2 : num real_arith) n i) y = Some (inverse_asy _ q i y, good_asy i y)).
