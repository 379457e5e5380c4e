(** What is claimed about normalised objective vectors. *)
From Coq Require Import List ZArith Reals.
From Flocq Require Import Core.
From Verif Require Import CBase DblModel DblSpec NormModel.
Open Scope R_scope.

(** A finite normalised vector, for any objective values and any reference points. *)
Definition normalised (p : double * double) : Prop :=
  fin (fst p) /\ fin (snd p) /\ exists y ideal nadir, mo_normalize y ideal nadir = Ok p.

(** Reference points for which the normalisation does not end in its assert: the difference is finite and above 5e-13. *)
Definition ranged1 (ideal nadir : double) : Prop :=
  fin ideal /\ fin nadir /\ fin (dsub nadir ideal) /\ val mo_discretization < val (dsub nadir ideal).
Definition ranged (ideal nadir : double * double) : Prop :=
  ranged1 (fst ideal) (fst nadir) /\ ranged1 (snd ideal) (snd nadir).

(** Up to 2^900 there is no overflow in the normalisation. *)
Definition moderate1 (x : double) : Prop := fin x /\ Rabs (val x) <= bpow radix2 900.
Definition moderate (p : double * double) : Prop := moderate1 (fst p) /\ moderate1 (snd p).

(** The exact relative position between ideal and nadir, at least 0 *)
Definition position (y ideal nadir : double) : R := Rmax 0 ((val y - val ideal) / (val nadir - val ideal)).

Definition pareto (p q : double * double) : Prop :=
  val (fst p) <= val (fst q) /\ val (snd p) <= val (snd q) /\ (val (fst p) < val (fst q) \/ val (snd p) < val (snd q)).
Definition same (p q : double * double) : Prop := val (fst p) = val (fst q) /\ val (snd p) = val (snd q).

(** The vector of doubles that an integer vector of MoModel.v (units of 5e-14, multiples of 10) stands for *)
Definition stands_for (p : double * double) (m : Z * Z) : Prop :=
  fin (fst p) /\ fin (snd p) /\ exists a b, m = (10 * a, 10 * b)%Z /\ (0 <= a)%Z /\ (0 <= b)%Z /\
  val (fst p) = rnd (IZR a * val mo_discretization) /\ val (snd p) = rnd (IZR b * val mo_discretization).
(** up to 1000 *)
Definition below_1000 (m : Z * Z) : Prop := (fst m <= 20000000000000000 /\ snd m <= 20000000000000000)%Z.
