(** Doubles as real numbers. *)
From Coq Require Import ZArith Reals.
From Flocq Require Import Core BinarySingleNaN.
From Verif Require Import DblModel.
Open Scope R_scope.

(** The value of a double; an infinite one counts as +/- 2^1024, which is beyond every finite one. *)
Definition val (x : double) : R :=
  match x with
  | B754_infinity s => if s then - bpow radix2 1024 else bpow radix2 1024
  | _ => B2R x
  end.

(** Not a NaN. *)
Definition num (x : double) : Prop := is_nan x = false.
Definition fin (x : double) : Prop := is_finite x = true.

(** Rounding to nearest even with unbounded exponents, and the effect of overflow. *)
Definition rnd (r : R) : R := round radix2 (FLT_exp (-1074) 53) ZnearestE r.
Definition clamp (r : R) : R := Rmax (- bpow radix2 1024) (Rmin (bpow radix2 1024) r).
