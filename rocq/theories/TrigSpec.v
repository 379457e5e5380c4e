(** Specification of the triggers. *)
From Coq Require Import List Arith NArith ZArith Reals.
From Flocq Require Import Core BinarySingleNaN.
Import ListNotations.
From Verif Require Import CBase DblModel DblSpec.
Open Scope R_scope.

(** [marks key limit vs bs]: the answer for the i-th value is "yes" exactly when its key is below the
    limit and below the keys of all earlier values. *)
Definition marks {V : Type} (key : V -> R) (limit : R) (vs : list V) (bs : list bool) : Prop :=
  length bs = length vs /\
  forall i v b, nth_error vs i = Some v -> nth_error bs i = Some b ->
    (b = true <-> key v < limit /\ forall j w, (j < i)%nat -> nth_error vs j = Some w -> key v < key w).

(** The decimal logarithm. *)
Definition lg (r : R) : R := ln r / ln 10.

(** What is assumed of the library's log10 on positive finite doubles: accurate to 2^-40 and
    monotone. *)
Definition log10_accurate (log10 : double -> double) : Prop :=
  forall x, fin x -> 0 < val x -> fin (log10 x) /\ Rabs (val (log10 x) - lg (val x)) <= bpow radix2 (-40).
Definition log10_monotone (log10 : double -> double) : Prop :=
  forall x y, fin x -> fin y -> 0 < val x <= val y -> val (log10 x) <= val (log10 y).

(** The targets 10^(k/n). *)
Definition target (n : N) (k : Z) : R := Rpower 10 (IZR k / IZR (Z.of_N n)).
(** A factor within 10^(-2^-39) and 10^(2^-39) of 1. *)
Definition slack : R := Rpower 10 (bpow radix2 (-39)).

(** Level k of the value v: the smallest target that v has reached is, up to the slack, 10^(k/n). *)
Definition at_level (n : N) (v : R) (k : Z) : Prop :=
  target n (k - 1) < v * slack /\ v <= target n k * slack.

(** floor(10^(k/20)): the largest m with m^20 <= 10^k. *)
Definition is_floor_root (k : nat) (m : N) : Prop :=
  (m ^ 20 <= 10 ^ N.of_nat k < (m + 1) ^ 20)%N.

(** The same for a value below zero, given its distance v from zero: the largest 10^(k/n) that the
    distance has reached is, up to the slack, 10^(k/n). *)
Definition at_depth (n : N) (v : R) (k : Z) : Prop :=
  target n k <= v * slack /\ v < target n (k + 1) * slack.

(** What is assumed of the library's pow with base 10: accurate to 2^-51 for exponents between 0 and
    300, exact for the powers that are doubles. *)
Definition pow10_accurate (pow10 : double -> double) : Prop :=
  (forall y, fin y -> 0 <= val y <= 300 ->
     fin (pow10 y) /\ Rabs (val (pow10 y) - Rpower 10 (val y)) <= bpow radix2 (-51) * Rpower 10 (val y)) /\
  (forall y e, fin y -> val y = IZR e -> (0 <= e <= 22)%Z -> val (pow10 y) = IZR (10 ^ e)).

(** The documented evaluation numbers. *)
Definition power_number (v : N) : Prop := exists k, is_floor_root k v.
Definition base_number (dimension : N) (bases : list N) (v : N) : Prop :=
  exists b e, In b bases /\ v = (b * dimension * 10 ^ e)%N.

(** Base numbers in increasing order and within one decade. *)
Definition within_decade (bases : list N) : Prop :=
  (forall i j a b, (i < j)%nat -> nth_error bases i = Some a -> nth_error bases j = Some b -> (a < b)%N) /\
  (forall a b, In a bases -> In b bases -> (0 < a /\ b < 10 * a)%N).

(** The evaluation numbers 1, 2, ..., m. *)
Definition counts (m : nat) : list N := map N.of_nat (seq 1 m).

(** The limits of the constraint digits: 0, 1e-7, ..., 1e-1, 1, as doubles. *)
Definition digit_limit (d : Z) : R := if (d =? 0)%Z then 0 else rnd (/ IZR (10 ^ (8 - d))).
Definition is_digit (c : R) (d : Z) : Prop :=
  (0 <= d <= 9)%Z /\ ((0 < d)%Z -> digit_limit (d - 1) < c) /\ ((d < 9)%Z -> c <= digit_limit d).

(** The key of a value for a rounding up function: a NaN counts as worse than everything. *)
Definition rounded_key (up : double -> double) (v : double) : R :=
  if is_nan v then bpow radix2 1024 else val (up v).

(** The answers of a consultation. *)
Definition answers {S : Type} (r : res (list bool * S)) : option (list bool) :=
  match r with Ok (bs, _) => Some bs | _ => None end.
