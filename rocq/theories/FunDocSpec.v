(** The definitions of the 24 noiseless functions as published (N. Hansen, S. Finck, R. Ros, A. Auger: Real-parameter
    black-box optimization benchmarking 2009: noiseless functions definitions).  A point is a function from coordinate
    numbers (from 0) to reals, D is the number of coordinates. *)

From Coq Require Import ZArith List Bool Reals.
From Verif Require Import FunModel FunSpec.
Import ListNotations.
Local Open Scope R_scope.

Definition point := nat -> R.

(** A power with a non-negative base. *)
Definition power (x y : R) : R := if Req_EM_T x 0 then 0 else Rpower x y.

Definition sign (x : R) : R := if Rlt_dec 0 x then 1 else if Rlt_dec x 0 then -1 else 0.

(** The oscillation T_osz of a number. *)
Definition osz (x : R) : R :=
  let h := ln (Rabs x) in
  let c1 := if Rlt_dec 0 x then 10 else 5.5 in
  let c2 := if Rlt_dec 0 x then 7.9 else 3.1 in
  sign x * Rtrigo_def.exp (h + 0.049 * (Rtrigo_def.sin (c1 * h) + Rtrigo_def.sin (c2 * h))).
Definition Tosz (z : point) : point := fun i => osz (z i).

Fixpoint product (n : nat) (f : nat -> R) : R := match n with O => 1 | S k => product k f * f k end.

(** The greatest of f 0, ..., f n. *)
Fixpoint greatest (n : nat) (f : nat -> R) : R := match n with O => f 0%nat | S k => Rmax (greatest k f) (f (S k)) end.

(** The integer nearest to x, the greater of two. *)
Definition nearest (x : R) : R := IZR (Int_part (x + 1/2)).

Section Dimension.
Variable D : nat.

(** (i-1)/(D-1) for coordinates counted from 1 *)
Definition share (i : nat) : R := INR i / INR (D - 1).

(** The asymmetry T_asy with parameter beta and the diagonal matrix Lambda with parameter alpha. *)
Definition Tasy (beta : R) (z : point) : point :=
  fun i => if Rlt_dec 0 (z i) then Rpower (z i) (1 + beta * share i * R_sqrt.sqrt (z i)) else z i.
Definition Lambda (alpha : R) (z : point) : point := fun i => Rpower alpha (share i / 2) * z i.

(** Product of a matrix and a vector, translation, boundary penalty. *)
Definition apply (M : list (list R)) (z : point) : point := fun i => total D (fun j => cell M i j * z j).
Definition minus (x y : point) : point := fun i => x i - y i.
Definition fpen (x : point) : R := total D (fun i => (Rmax 0 (Rabs (x i) - 5)) ^ 2).

Definition squares (z : point) : R := total D (fun i => z i ^ 2).
Definition later_squares (z : point) : R := total (D - 1) (fun i => z (S i) ^ 2).

Definition ellipsoid (z : point) : R := total D (fun i => Rpower 10 (6 * share i) * z i ^ 2).
Definition rastrigin (z : point) : R := 10 * (INR D - total D (fun i => Rtrigo_def.cos (2 * PI * z i))) + squares z.
Definition rosenbrock (z : point) : R :=
  total (D - 1) (fun i => 100 * (z i ^ 2 - z (S i)) ^ 2 + (z i - 1) ^ 2).
(** the scaling max(1, sqrt(D)/8) of the Rosenbrock functions *)
Definition spread : R := Rmax 1 (R_sqrt.sqrt (INR D) / 8).

Definition f4_scale (z : point) : point := fun i =>
  (if Nat.even i then (if Rlt_dec 0 (z i) then 10 else 1) else 1) * Rpower 10 (share i / 2) * z i.

Definition slope (corner x : point) : R := total D (fun i =>
  let s := sign (corner i) * Rpower 10 (share i) in
  5 * Rabs s - s * (if Rlt_dec (corner i * x i) 25 then x i else corner i)).

Definition sector (o z : point) : R :=
  power (osz (total D (fun i => ((if Rlt_dec 0 (z i * o i) then 100 else 1) * z i) ^ 2))) 0.9.

Definition step (z : point) : point := fun i =>
  if Rlt_dec 0.5 (Rabs (z i)) then nearest (z i) else nearest (10 * z i) / 10.

Definition weierstrass (z : point) : R :=
  let f0 := total 12 (fun k => Rtrigo_def.cos (2 * PI * 3 ^ k * (1/2)) / 2 ^ k) in
  10 * (total D (fun i => total 12 (fun k => Rtrigo_def.cos (2 * PI * 3 ^ k * (z i + 1/2)) / 2 ^ k)) / INR D - f0) ^ 3.

Definition schaffers (z : point) : R :=
  (total (D - 1) (fun i =>
     let s := R_sqrt.sqrt (z i ^ 2 + z (S i) ^ 2) in
     R_sqrt.sqrt s + R_sqrt.sqrt s * Rtrigo_def.sin (50 * power s (1/5)) ^ 2) / INR (D - 1)) ^ 2.

Definition griewank_rosenbrock (z : point) : R :=
  10 / INR (D - 1) * total (D - 1) (fun i =>
    let s := 100 * (z i ^ 2 - z (S i)) ^ 2 + (z i - 1) ^ 2 in s / 4000 - Rtrigo_def.cos s) + 10.

(** The Schwefel function with signs s and optimum o = s 4.2096874637/2. *)
Definition schwefel (s x : point) : R :=
  let o2 := fun _ : nat => 4.2096874637 in (* 2 |o| *)
  let x_hat := fun i => 2 * s i * x i in
  let z_hat := fun i => match i with O => x_hat 0%nat | S k => x_hat i + 0.25 * (x_hat k - o2 k) end in
  let z := fun i => 100 * (Lambda 10 (minus z_hat o2) i + o2 i) in
  - (total D (fun i => z i * Rtrigo_def.sin (R_sqrt.sqrt (Rabs (z i))))) / (100 * INR D) + 4.189828872724339
  + 100 * fpen (fun i => z i / 100).

(** The Gallagher function with the peaks y 0, ..., y m of heights w and with the diagonal matrices C: C i j is the
    j-th entry for peak i. *)
Definition gallagher (m : nat) (R_ : list (list R)) (w : nat -> R) (C : nat -> point) (y : nat -> point) (x : point) : R :=
  osz (10 - greatest m (fun i =>
    w i * Rtrigo_def.exp (- (1 / (2 * INR D)) * total D (fun j => C i j * apply R_ (minus x (y i)) j ^ 2)))) ^ 2
  + fpen x.

Definition katsuura (z : point) : R :=
  10 / INR D ^ 2 * product D (fun i =>
    Rpower (1 + INR (S i) * total 32 (fun j => let t := 2 ^ S j in Rabs (t * z i - nearest (t * z i)) / t))
           (10 / Rpower (INR D) 1.2)) - 10 / INR D ^ 2.

(** The Lunacek function with signs s, rotations Q and R. *)
Definition lunacek (s : point) (Q R_ : list (list R)) (x : point) : R :=
  let mu0 := 2.5 in
  let c := 1 - 1 / (2 * R_sqrt.sqrt (INR D + 20) - 8.2) in
  let mu1 := - R_sqrt.sqrt ((mu0 ^ 2 - 1) / c) in
  let x_hat := fun i => 2 * s i * x i in
  let z := apply Q (Lambda 100 (apply R_ (fun i => x_hat i - mu0))) in
  Rmin (total D (fun i => (x_hat i - mu0) ^ 2)) (INR D + c * total D (fun i => (x_hat i - mu1) ^ 2))
  + 10 * (INR D - total D (fun i => Rtrigo_def.cos (2 * PI * z i))) + 10 ^ 4 * fpen x.

(** The functions without the optimal value.  [o] is the drawn location.  The matrix for the seed of the function and the
    one for that seed + 1000000 are [rot2] and [rot1].  In the publication R and Q stand for [rot1] and [rot2] in the
    functions 10-12 and 14-18 and for [rot2] and [rot1] in the others. *)
Definition documented (function : nat) (boxed : bool) (d : real_draws) (x : point) : R :=
  let o := coord (xopt _ d) in
  let R1 := apply (rot1 _ d) in
  let R2 := apply (rot2 _ d) in
  match function with
  | 1 => squares (minus x o)
  | 2 => ellipsoid (Tosz (minus x o))
  | 3 => rastrigin (Lambda 10 (Tasy 0.2 (Tosz (minus x o))))
  | 4 => rastrigin (f4_scale (Tosz (minus x (fun i => if Nat.even i then Rabs (o i) else o i)))) + 100 * fpen x
  | 5 => slope (fun i => if Rlt_dec (o i) 0 then -5 else 5) x
  | 6 => sector o (R1 (Lambda 10 (R2 (minus x o))))
  | 7 => let z_hat := Lambda 10 (R2 (minus x o)) in
         let z := R1 (step z_hat) in
         0.1 * Rmax (Rabs (z_hat 0%nat) / 10 ^ 4) (total D (fun i => Rpower 10 (2 * share i) * z i ^ 2)) + fpen x
  | 8 => rosenbrock (fun i => spread * (x i - 3 / 4 * o i) + 1)
  | 9 => rosenbrock (fun i => spread * R2 x i + 1/2)
  | 10 => ellipsoid (Tosz (R1 (minus x o)))
  | 11 => let z := Tosz (R1 (minus x o)) in 10 ^ 6 * z 0%nat ^ 2 + later_squares z
  | 12 => let z := R1 (Tasy 0.5 (R1 (minus x o))) in z 0%nat ^ 2 + 10 ^ 6 * later_squares z
  | 13 => let z := R1 (Lambda 10 (R2 (minus x o))) in z 0%nat ^ 2 + 100 * R_sqrt.sqrt (later_squares z)
  | 14 => let z := R1 (minus x o) in R_sqrt.sqrt (total D (fun i => power (Rabs (z i)) (2 + 4 * share i)))
  | 15 => rastrigin (R1 (Lambda 10 (R2 (Tasy 0.2 (Tosz (R1 (minus x o)))))))
  | 16 => weierstrass (R1 (Lambda (1 / 100) (R2 (Tosz (R1 (minus x o)))))) + 10 / INR D * fpen x
  | 17 => schaffers (Lambda 10 (R2 (Tasy 0.5 (R1 (minus x o))))) + 10 * fpen x
  | 18 => schaffers (Lambda 1000 (R2 (Tasy 0.5 (R1 (minus x o))))) + 10 * fpen x
  | 19 => griewank_rosenbrock (fun i => spread * R2 x i + 1/2)
  | 20 => schwefel (fun i => if Rlt_dec (coord (unif _ d) i) (1 / 2) then -1 else 1) x
  | 21 => gallagher 100 (rot2 _ d)
            (fun i => match i with O => 10 | S k => 1.1 + 8 * INR k / 99 end)
            (fun i j =>
               let alpha := match i with O => 1000 | S k => Rpower 1000 (2 * INR (nth k (condition_order _ d) 0%nat) / 99) end in
               Rpower alpha (share (nth j (nth i (scale_order _ d) nil) 0%nat) / 2) / Rpower alpha (1/4))
            (fun i j => let v := 10 * coord (locations _ d) (i * D + j) - 5 in
               match i with O => (if boxed then 1 else 0.8) * v | S _ => v end) x
  | 22 => gallagher 20 (rot2 _ d)
            (fun i => match i with O => 10 | S k => 1.1 + 8 * INR k / 19 end)
            (fun i j =>
               let alpha := match i with O => 1000 ^ 2 | S k => Rpower 1000 (2 * INR (nth k (condition_order _ d) 0%nat) / 19) end in
               Rpower alpha (share (nth j (nth i (scale_order _ d) nil) 0%nat) / 2) / Rpower alpha (1/4))
            (fun i j => let v := 9.8 * coord (locations _ d) (i * D + j) - 4.9 in
               match i with O => (if boxed then 1 else 0.8) * v | S _ => v end) x
  | 23 => katsuura (R1 (Lambda 100 (R2 (minus x o)))) + fpen x
  | 24 => lunacek (fun i => if Rlt_dec (coord (gauss _ d) i) 0 then -1 else 1) (rot1 _ d) (rot2 _ d) x
  | _ => 0
  end.
End Dimension.
