(** Specification of the files of the old bbob logger: those of BbobSpec.v, with the deviations below. *)
From Coq Require Import List Arith NArith ZArith Reals Bool.
From Flocq Require Import Core BinarySingleNaN.
Import ListNotations.
From Verif Require Import CBase DblModel DblSpec TrigModel ProbModel ProbSpec BbobModel BbobSpec.
Local Open Scope nat_scope.

(** Problems without noise, on which recommendations have no effect. *)
Definition plain (C : class) : Prop :=
  (forall d, last_noise_free C d = None) /\
  (forall f h d x, recommend_solution C = Some f -> f h d x = Ok d).

(** Its optimum is known, it has not been tainted, and either all variables are continuous or there are fewer
    than 22 of them. *)
Definition usual {C : class} (p : problem C) : Prop :=
  is_tainted (head p) = false /\ is_opt_known (head p) = true /\
  number_of_integer_variables (head p) <= number_of_variables (head p) /\
  (number_of_variables (head p) < 22 \/ number_of_integer_variables (head p) = 0).
