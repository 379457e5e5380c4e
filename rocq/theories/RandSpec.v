(** Specification of the random number generators. *)
From Coq Require Import List Arith NArith ZArith Reals.
From Flocq Require Import Core.
From Verif Require Import DblModel DblSpec.
Import ListNotations.
Open Scope nat_scope.

(** The 32-bit numbers a seed is expanded to. *)
Fixpoint seed_number (seed : N) (i : nat) : N :=
  match i with
  | O => seed
  | S j => let v := seed_number seed j in ((1812433253 * N.lxor v (v / 2 ^ 30) + N.of_nat i) mod 2 ^ 32)%N
  end.

(** c is the sum of a and b modulo 1, the sum being rounded to binary64. *)
Definition sum_mod_1 (a b c : R) : Prop :=
  ((rnd (a + b) < 1)%R /\ c = rnd (a + b)) \/ ((1 <= rnd (a + b))%R /\ c = (rnd (a + b) - 1)%R).

(** A lagged Fibonacci sequence with the lags 607 and 273. *)
Definition lagged_fibonacci (y : nat -> double) : Prop :=
  forall n, sum_mod_1 (val (y n)) (val (y (n + 607 - 273))) (val (y (n + 607))).

Open Scope Z_scope.

(** The "minimal standard" generator of Park and Miller. *)
Definition lcg_modulus : Z := 2 ^ 31 - 1.
Definition lcg (seed : Z) (k : nat) : Z := (7 ^ 5) ^ Z.of_nat k * seed mod lcg_modulus.

(** The seed the generator works with. *)
Definition effective_seed (inseed : Z) : Z := Z.max 1 (Z.abs inseed).

(** The largest seed that can be used. *)
Definition legacy_limit : Z := 127773 * 2 ^ 31.

(** The number of the interval (0, 1) belonging to an integer: a / (2^31 - 1), the smallest positive replacement for 0. *)
Definition is_uniform (a : Z) (u : double) : Prop :=
  fin u /\ (a <> 0 -> val u = rnd (IZR a / IZR lcg_modulus)%R) /\ (a = 0 -> val u = rnd (/ IZR (10 ^ 99))%R).

(** The shuffle of Bays and Durham: which members of the sequence are drawn.  A table of 32 slots is filled with the members
    9 to 40, slot j with member 40 - j.  Draw i chooses the slot by the number drawn before (member 40 for the first draw),
    takes what was last stored in it and stores member 41 + i instead. *)
Definition previous (ps : list nat) (i : nat) : nat := match i with O => 40%nat | S j => nth j ps 0%nat end.
Definition slot (seed : Z) (ps : list nat) (i : nat) : Z := lcg seed (previous ps i) / (2 ^ 26 + 1).
Definition bays_durham (seed : Z) (ps : list nat) : Prop := forall i p, nth_error ps i = Some p ->
  (exists j, (j < i)%nat /\ slot seed ps j = slot seed ps i /\ (forall k, (j < k < i)%nat -> slot seed ps k <> slot seed ps i) /\
             p = (41 + j)%nat) \/
  ((forall k, (k < i)%nat -> slot seed ps k <> slot seed ps i) /\ 0 <= slot seed ps i < 32 /\ Z.of_nat p = 40 - slot seed ps i).
