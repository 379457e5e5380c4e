(** Specification of the location of the optimum and the optimal value. *)
From Coq Require Import List NArith ZArith Reals Bool.
From Flocq Require Import Core.
From Verif Require Import DblModel DblSpec.
Import ListNotations.
Open Scope Z_scope.

(** The coordinate belonging to the number u of (0, 1): a point of a grid with 10000 points over [- offset, offset),
    with -0.00001 for zero. *)
Definition grid_point (offset k : Z) : R := rnd (rnd (IZR (2 * offset * k) / 10000) - IZR offset).
Definition is_coordinate (offset : Z) (u x : double) : Prop :=
  fin x /\ exists k, 0 <= k <= 9999 /\ k = Zfloor (rnd (10000 * val u)) /\
    (k <> 5000 -> val x = grid_point offset k) /\ (k = 5000 -> val x = (- rnd (/ 100000))%R).

(** What is assumed of the functions log and cos of math.h. *)
Definition libm_ok (log cos : double -> double) : Prop :=
  (forall u, fin u -> (0 < val u < 1)%R -> fin (log u) /\ (-1000 <= val (log u) <= 0)%R) /\
  (forall w, fin w -> fin (cos w) /\ (Rabs (val (cos w)) <= 1)%R).

(** The Gaussian number of Box and Muller belonging to two uniform ones; 1e-99 stands for 0.  The binary64 number
    closest to pi is 7074237752028440 / 2^51. *)
Definition is_gaussian (log cos : double -> double) (u1 u2 g : double) : Prop :=
  fin g /\ exists w, fin w /\ val w = rnd (IZR (2 * 7074237752028440) / IZR (2 ^ 51) * val u2) /\
    let p := rnd (rnd (sqrt (rnd (-2 * val (log u1)))) * val (cos w)) in
    (p <> 0%R -> val g = p) /\ (p = 0%R -> val g = rnd (/ IZR (10 ^ 99))).

(** The number of hundredths of the optimal value. *)
Definition hundredths (g g2 : R) : Z :=
  Z.max (-100000) (Z.min 100000 (Zfloor (rnd (rnd (rnd (10000 * g) / g2) + / 2)))).

(** Functions that share their seed, hence their optimal value, with another one: all variants of a noisy function with
    the noiseless one. *)
Definition shared_functions : list (N * list N) :=
  [(3, [4]); (17, [18; 122; 123; 124]); (1, [101; 102; 103; 107; 108; 109]); (8, [104; 105; 106; 110; 111; 112]);
   (7, [113; 114; 115]); (10, [116; 117; 118]); (14, [119; 120; 121]); (19, [125; 126; 127]); (21, [128; 129; 130])]%N.
Definition base_function (f : N) : N :=
  match find (fun e => existsb (N.eqb f) (snd e)) shared_functions with Some e => fst e | None => f end.

(** The seed of a function and instance. *)
Definition fopt_seed (f i : N) : Z := Z.of_N (base_function f) + 10000 * Z.of_N i.
