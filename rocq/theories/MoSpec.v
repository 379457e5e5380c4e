(** What dominance means, stated without the flags of the code. *)
From Coq Require Import List ZArith Lia.
Import ListNotations.
Open Scope Z_scope.

(** Componentwise relations of two vectors. *)
Definition everywhere (R : Z -> Z -> Prop) (a b : list Z) : Prop := Forall2 R a b.
Definition somewhere (R : Z -> Z -> Prop) (a b : list Z) : Prop :=
  exists i x y, nth_error a i = Some x /\ nth_error b i = Some y /\ R x y.

(** Smaller, and by at least the precision. *)
Definition clearly_less (p x y : Z) : Prop := x + p <= y.
Definition indistinct (p x y : Z) : Prop := Z.abs (x - y) < p.

(** Pareto dominance of minimisation. *)
Definition pareto (a b : list Z) : Prop := everywhere Z.le a b /\ somewhere Z.lt a b.

(** Values that are equal or differ by at least the precision. *)
Definition separated (p x y : Z) : Prop := x = y \/ clearly_less p x y \/ clearly_less p y x.

(** What the comparison answers. *)
Definition answers (p : Z) (a b : list Z) (r : Z) : Prop :=
  (r = 1 /\ somewhere (clearly_less p) a b /\ ~ somewhere (clearly_less p) b a) \/
  (r = -1 /\ somewhere (clearly_less p) b a /\ ~ somewhere (clearly_less p) a b) \/
  (r = 0 /\ somewhere (clearly_less p) a b /\ somewhere (clearly_less p) b a) \/
  (r = -2 /\ everywhere (indistinct p) a b).

(** The answer with exchanged arguments. *)
Definition swapped (r : Z) : Z := if r =? 1 then -1 else if r =? -1 then 1 else r.
