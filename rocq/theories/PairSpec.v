(** Specification of the numbering of bi-objective problems. *)
From Coq Require Import List Arith NArith ZArith Reals.
From Flocq Require Import Core.
Import ListNotations.
Open Scope N_scope.

(** The ten functions the suite bbob-biobj is built from. *)
Definition selected_functions : list N := [1; 2; 6; 8; 13; 14; 15; 17; 20; 21].
Definition selected (f : N) : Prop := In f selected_functions.

(** The groups of bbob functions: 1-5, 6-9, 10-14, 15-19, 20-24. *)
Definition group (f : N) : N := if f <=? 5 then 1 else if f <=? 9 then 2 else if f <=? 14 then 3 else if f <=? 19 then 4 else 5.

(** The additional pairs of bbob-biobj-ext: two different functions of the same group, not both selected, without f16. *)
Definition extension (a b : N) : Prop :=
  1 <= a < b /\ b <= 24 /\ group a = group b /\ a <> 16 /\ b <> 16 /\ ~ (selected a /\ selected b).

(** The pairs (i, j) with i <= j < n in lexicographic order have number idx (from 0): before the row i there are
    n + (n - 1) + ... + (n - i + 1) pairs. *)
Fixpoint row_start (n i : nat) : nat := match i with O => O | S i' => row_start n i' + (n - i') end.
Definition pair_number (n i j idx : nat) : Prop := (i <= j < n /\ idx = row_start n i + (j - i))%nat.

(** The formula of the code in exact arithmetic, for n functions. *)
Definition formula_row (n idx : nat) : Z :=
  (Z.of_nat n - Zfloor (- (1/2) + sqrt (1/4 + 2 * IZR (Z.of_nat n * (Z.of_nat n + 1) / 2 - Z.of_nat idx - 1))) - 1)%Z.
Definition formula_column (n idx : nat) : Z :=
  let i := formula_row n idx in (Z.of_nat idx - i * Z.of_nat n + i * (i + 1) / 2)%Z.

(** The instance pair (i1, i2) is acceptable for the dimensions that are not filtered out. *)
Definition acceptable (too_close : N -> N -> N -> N -> N -> bool) (dimensions : list N) (i1 i2 : N) : Prop :=
  forall d, In d dimensions -> d <> 0 ->
    (forall f1 f2, 1 <= f1 < f2 -> f2 <= 24 -> too_close d f1 i1 f2 i2 = false) /\
    (forall f, selected f -> too_close d f i1 f i2 = false).

(** The instances of the two objectives for the instances 1 to 15, as published with the reference data. *)
Definition published_instances (i : N) : N * N :=
  match i with
  | 1 => (2, 4) | 2 => (3, 5) | 9 => (19, 21) | 15 => (31, 34)
  | _ => (2 * i + 1, 2 * i + 2)
  end.
