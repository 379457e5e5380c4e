(** Random numbers and domains for initial solution proposals. *)
From Coq Require Import List Arith ZArith Reals.
From Verif Require Import CBase DblModel DblSpec PyPropModel.
Import ListNotations.
Local Open Scope R_scope.

(** Uniform random numbers *)
Definition unit_draw (u : double) : Prop := fin u /\ 0 <= val u <= 1.
(** A bound that is an integer of moderate size, as in all suites *)
Definition integer_bound (b : double) (z : Z) : Prop := fin b /\ val b = IZR z /\ (Z.abs z <= 2 ^ 50)%Z.
(** A domain of such bounds *)
Definition proper_domain (lower upper : list double) : Prop :=
  Forall2 (fun l u => exists a b, integer_bound l a /\ integer_bound u b /\ (a <= b)%Z) lower upper.
(** randint(lower, upper + 1) *)
Definition integer_draw (l u : double) (k : Z) : Prop := val l <= IZR k <= val u.
Definition inside (l u x : double) : Prop := fin x /\ val l <= val x <= val u.
Definition whole (x : double) : Prop := exists z, val x = IZR z.

(** The number of calls without argument *)
Definition unnumbered (l : list draws) : nat := length (filter (fun d => match fst d with None => true | Some _ => false end) l).
