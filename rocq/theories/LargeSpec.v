(** The functions of the large-scale suite as published (O. Ait Elhara, K. Varelas, D. Nguyen, T. Tusar, D. Brockhoff,
    N. Hansen, A. Auger: COCO: the large scale black-box optimization benchmarking (bbob-largescale) test suite): rotations
    by permuted block-diagonal matrices, normalisation by the dimension, and where the optima lie. *)

From Coq Require Import ZArith List Bool Reals Permutation.
From Verif Require Import FunModel FunSpec FunDocSpec LargeModel.
Import ListNotations.
Local Open Scope R_scope.

Definition real_large := large_draws real_arith.

(** The product with a block-diagonal matrix: the rows of the successive square blocks of the given sizes. *)
Fixpoint blockwise (sizes : list nat) (B : list (list R)) (z : point) (i : nat) : R :=
  match sizes with
  | nil => 0
  | s :: t => if (i <? s)%nat then total s (fun j => cell B i j * z j)
              else blockwise t (skipn s B) (fun j => z (s + j)%nat) (i - s)
  end.

(** The sums of the columns of such a matrix. *)
Fixpoint columns (sizes : list nat) (B : list (list R)) (j : nat) : R :=
  match sizes with
  | nil => 0
  | s :: t => if (j <? s)%nat then total s (fun i => cell B i j) else columns t (skipn s B) (j - s)
  end.

Fixpoint blocks_orthonormal (sizes : list nat) (B : list (list R)) : Prop :=
  match sizes with
  | nil => True
  | s :: t => orthonormal s B /\ blocks_orthonormal t (skipn s B)
  end.

Definition permutation (n : nat) (P : list nat) : Prop := Permutation P (seq 0 n).

(** What the generators deliver: C39 and C40 show the bounds of the numbers, C45 that the swaps yield permutations and that
    the blocks have at most 40 rows and add up to the dimension, C57 that they are orthogonal. *)
Definition plausible_large (n : nat) (d : real_large) : Prop :=
  (forall k, length (lxopt _ d k) = n /\ within 5 (lxopt _ d k)) /\
  (forall k, permutation n (perm _ d k)) /\
  (forall k, permutation n (lambda_order _ d k)) /\
  Forall (fun s => (1 <= s <= 40)%nat) (sizes _ d) /\ list_sum (sizes _ d) = n /\
  (forall k, blocks_orthonormal (sizes _ d) (block _ d k)) /\
  Forall (fun v => 0 <= v <= 1) (lunif _ d).

(** The order of the conditions of the peaks but the first. *)
Definition plausible_order (function : nat) (d : real_large) : Prop :=
  match function with
  | 21 => permutation 100 (alpha_order _ d)
  | 22 => permutation 20 (alpha_order _ d)
  | _ => True
  end.

Definition large_location (function n : nat) (d : real_large) (x : list R) : Prop :=
  forall i, (i < n)%nat ->
  match function with
  | 4 => coord x i = if Nat.even i then Rabs (coord (lxopt _ d 0) i) else coord (lxopt _ d 0) i
  | 5 => coord x i = if Rlt_dec (coord (lxopt _ d 0) i) 0 then -5 else 5
  | 8 | 9 => coord x i = 3 / 4 * coord (lxopt _ d 0) i
  | 12 => coord x i = coord (lxopt _ d 1) i
  | 19 => coord x (nth i (perm _ d 2) 0%nat) = columns (sizes _ d) (block _ d 0) i / 2
  | 20 => coord x i = if Rlt_dec (coord (lunif _ d) i) (1 / 2) then -2.10484373165 else 2.10484373165
  | 21 => coord x i = 0.8 * (10 * coord (lunif _ d) i - 5)
  | 22 => coord x i = 0.8 * (9.8 * coord (lunif _ d) i - 4.9)
  | 24 => coord x i = if Rlt_dec (coord (lgauss _ d) i) 0 then -1.25 else 1.25
  | _ => coord x i = coord (lxopt _ d 0) i
  end.

Section Dimension.
Variable D : nat.

(** The normalisation. *)
Definition gamma : R := Rmin 1 (40 / INR D).

(** The number of short axes of the discus, of long axes of the bent cigar and of linear dimensions of the sharp ridge:
    D/40 rounded up. *)
Definition axes : nat := ((D + 39) / 40)%nat.
Definition first_squares (z : point) : R := total axes (fun i => z i ^ 2).
Definition other_squares (z : point) : R := total (D - axes) (fun i => z (axes + i)%nat ^ 2).

Definition permuted (P : list nat) (z : point) : point := fun i => z (nth i P 0%nat).

(** P2 B P1, where the matrix and the permutations are those for the seed plus b, p2 and p1 millions. *)
Definition turn (d : real_large) (p2 b p1 : nat) (z : point) : point :=
  permuted (perm _ d p2) (blockwise (sizes _ d) (block _ d b) (permuted (perm _ d p1) z)).

Definition gallagher_block (m : nat) (d : real_large) (w : nat -> R) (C : nat -> point) (y : nat -> point) (x : point) : R :=
  osz (10 - greatest m (fun i =>
    w i * Rtrigo_def.exp (- (1 / (2 * INR D)) *
      total D (fun j => C i j * blockwise (sizes _ d) (block _ d 0) (minus x (y i)) j ^ 2)))) ^ 2
  + fpen D x.

(** The functions without the optimal value.  The first term in the maximum of function 7 is D times the published one. *)
Definition large_documented (function : nat) (d : real_large) (x : point) : R :=
  let o := coord (lxopt _ d 0) in
  match function with
  | 1 => gamma * squares D (minus x o)
  | 2 => gamma * ellipsoid D (Tosz (minus x o))
  | 3 => gamma * rastrigin D (Lambda D 10 (Tasy D 0.2 (Tosz (minus x o))))
  | 4 => gamma * rastrigin D (f4_scale D (Tosz (minus x (fun i => if Nat.even i then Rabs (o i) else o i)))) + 100 * fpen D x
  | 5 => gamma * slope D (fun i => if Rlt_dec (o i) 0 then -5 else 5) x
  | 6 => let z := turn d 5 1 4 (Lambda D 10 (turn d 3 0 2 (minus x o))) in
         power (osz (gamma * total D (fun i => ((if Rlt_dec 0 (z i * o i) then 100 else 1) * z i) ^ 2))) 0.9
  | 7 => let z_hat := Lambda D 10 (turn d 3 0 2 (minus x o)) in
         let z := turn d 5 1 4 (step z_hat) in
         gamma * (0.1 * Rmax (INR D * Rabs (z_hat 0%nat) / 10 ^ 4) (total D (fun i => Rpower 10 (2 * share D i) * z i ^ 2)))
         + fpen D x
  | 8 => gamma * rosenbrock D (fun i => x i - 3 / 4 * o i + 1)
  | 9 => gamma * rosenbrock D (fun i => turn d 3 0 2 (fun i => x i - 3 / 4 * o i) i + 1)
  | 10 => gamma * ellipsoid D (Tosz (turn d 3 1 2 (minus x o)))
  | 11 => let z := Tosz (turn d 3 1 2 (minus x o)) in gamma * (10 ^ 6 * first_squares z + other_squares z)
  | 12 => let z := turn d 3 1 2 (Tasy D 0.5 (turn d 3 1 2 (minus x (coord (lxopt _ d 1))))) in
          gamma * (first_squares z + 10 ^ 6 * other_squares z)
  | 13 => let z := turn d 4 1 3 (Lambda D 10 (turn d 6 0 5 (minus x o))) in
          gamma * (first_squares z + 100 * R_sqrt.sqrt (other_squares z))
  | 14 => let z := turn d 3 1 2 (minus x o) in
          gamma * R_sqrt.sqrt (total D (fun i => power (Rabs (z i)) (2 + 4 * share D i)))
  | 15 => gamma * rastrigin D (turn d 4 1 3 (Lambda D 10 (turn d 6 0 5 (Tasy D 0.2 (Tosz (turn d 4 1 3 (minus x o)))))))
  | 16 => weierstrass D (turn d 6 1 5 (Lambda D (1 / 100) (turn d 4 0 3 (Tosz (turn d 6 1 5 (minus x o))))))
          + 10 / INR D * fpen D x
  | 17 => schaffers D (Lambda D 10 (turn d 4 0 3 (Tasy D 0.5 (turn d 6 1 5 (minus x o))))) + 10 * fpen D x
  | 18 => schaffers D (Lambda D 1000 (turn d 4 0 3 (Tasy D 0.5 (turn d 6 1 5 (minus x o))))) + 10 * fpen D x
  | 19 => griewank_rosenbrock D (fun i => turn d 3 0 2 x i + 1/2)
  | 20 => schwefel D (fun i => if Rlt_dec (coord (lunif _ d) i) (1 / 2) then -1 else 1) x
  | 21 => gallagher_block 100 d
            (fun i => match i with O => 10 | S k => 1.1 + 8 * INR k / 99 end)
            (fun i j =>
               let alpha := match i with O => 1000 | S k => Rpower 1000 (2 * INR (nth k (alpha_order _ d) 0%nat) / 99) end in
               Rpower alpha (share D (nth j (lambda_order _ d i) 0%nat) / 2) / Rpower alpha (1/4))
            (fun i j => let v := 10 * coord (lunif _ d) (i * D + j) - 5 in match i with O => 0.8 * v | S _ => v end) x
  | 22 => gallagher_block 20 d
            (fun i => match i with O => 10 | S k => 1.1 + 8 * INR k / 19 end)
            (fun i j =>
               let alpha := match i with O => 1000 ^ 2 | S k => Rpower 1000 (2 * INR (nth k (alpha_order _ d) 0%nat) / 19) end in
               Rpower alpha (share D (nth j (lambda_order _ d i) 0%nat) / 2) / Rpower alpha (1/4))
            (fun i j => let v := 9.8 * coord (lunif _ d) (i * D + j) - 4.9 in match i with O => 0.8 * v | S _ => v end) x
  | 23 => katsuura D (turn d 6 1 5 (Lambda D 100 (turn d 4 0 3 (minus x o)))) + fpen D x
  | 24 =>
      let s := fun i => if Rlt_dec (coord (lgauss _ d) i) 0 then -1 else 1 in
      let mu0 := 2.5 in
      let c := 1 - 1 / (2 * R_sqrt.sqrt (INR D + 20) - 8.2) in
      let mu1 := - R_sqrt.sqrt ((mu0 ^ 2 - 1) / c) in
      let x_hat := fun i => 2 * s i * x i in
      let z := turn d 6 1 5 (Lambda D 100 (turn d 4 0 3 (fun i => x_hat i - mu0))) in
      gamma * (Rmin (total D (fun i => (x_hat i - mu0) ^ 2)) (INR D + c * total D (fun i => (x_hat i - mu1) ^ 2))
               + 10 * (INR D - total D (fun i => Rtrigo_def.cos (2 * PI * z i)))) + 10 ^ 4 * fpen D x
  | _ => 0
  end.

(** Function 7 as published. *)
Definition step_published (d : real_large) (x : point) : R :=
  let z_hat := Lambda D 10 (turn d 3 0 2 (minus x (coord (lxopt _ d 0)))) in
  let z := turn d 5 1 4 (step z_hat) in
  gamma * (0.1 * Rmax (Rabs (z_hat 0%nat) / 10 ^ 4) (total D (fun i => Rpower 10 (2 * share D i) * z i ^ 2))) + fpen D x.
End Dimension.
