(** Model of the random number generators: src/coco_random.c and src/suite_bbob_legacy_code.c. *)
From Coq Require Import List Arith NArith ZArith Bool.
From Flocq Require Import BinarySingleNaN.
From Verif Require Import CBase OptModel DblModel PairModel.
Import ListNotations.
Open Scope nat_scope.

(** * coco_random.c *)

(** Lines 16-17 *)
Definition COCO_SHORT_LAG : nat := 273.
Definition COCO_LONG_LAG : nat := 607.

(** Lines 22-25 *)
Record random_state := { rx : list double; rindex : nat }.

(** The body of the two loops, lines 36-39 and 42-45: x[i] += x[j], minus 1 if the sum is at least 1. *)
Definition random_mix (x : list double) (i j : nat) : res (list double) :=
  do a <- mget x i;
  do b <- mget x j;
  let t := dadd a b in
  let t := if dle (dint 1) t then dsub t (dint 1) else t in
  mset x i t.

(** Lines 35-40 and 41-46; n iterations are left. *)
Fixpoint random_loop1 (n i : nat) (x : list double) : res (list double) :=
  match n with
  | O => Ok x
  | S n' => do x <- random_mix x i (i + (COCO_LONG_LAG - COCO_SHORT_LAG)); random_loop1 n' (S i) x
  end.
Fixpoint random_loop2 (n i : nat) (x : list double) : res (list double) :=
  match n with
  | O => Ok x
  | S n' => do x <- random_mix x i (i - COCO_SHORT_LAG); random_loop2 n' (S i) x
  end.

(** Lines 33-48 *)
Definition coco_random_generate (s : random_state) : res random_state :=
  do x <- random_loop1 COCO_SHORT_LAG 0 (rx s);
  do x <- random_loop2 (COCO_LONG_LAG - COCO_SHORT_LAG) COCO_SHORT_LAG x;
  Ok {| rx := x; rindex := 0 |}.

(** Line 59, in uint32_t arithmetic *)
Definition advance_seed (seed : N) (i : nat) : N :=
  ((1812433253 * N.lxor seed (N.shiftr seed 30) + (N.of_nat i + 1)) mod 2 ^ 32)%N.

(** Lines 55-60: the values written to x[i], x[i + 1], ... (n of them) *)
Fixpoint expand_seed (n i : nat) (seed : N) : list double :=
  match n with
  | O => []
  | S n' => ddiv (dint (Z.of_N seed)) (dint 4294967295) :: expand_seed n' (S i) (advance_seed seed i)
  end.

(** Lines 50-64 *)
Definition coco_random_new (seed : N) : random_state :=
  {| rx := expand_seed COCO_LONG_LAG 0 seed; rindex := 12 |}.

(** Lines 68-74 *)
Definition coco_random_uniform (s : random_state) : res (double * random_state) :=
  do s <- (if COCO_LONG_LAG <=? rindex s then coco_random_generate s else Ok s);
  do v <- mget (rx s) (rindex s);
  Ok (v, {| rx := rx s; rindex := S (rindex s) |}).

(** n calls *)
Fixpoint uniforms (n : nat) (s : random_state) : res (list double * random_state) :=
  match n with
  | O => Ok ([], s)
  | S n' => do (v, s) <- coco_random_uniform s; do (vs, s) <- uniforms n' s; Ok (v :: vs, s)
  end.

(** coco.h 110: 3.14159265358979323846 as the nearest double *)
Definition coco_pi : double := binary_normalize 53 1024 _ _ mode_NE 7074237752028440 (-51) false.

Section Libm.
(** log and cos of math.h *)
Variable log cos : double -> double.

(** Lines 86 and (legacy) 117: sqrt(-2 * log(u1)) * cos(2 * coco_pi * u2) *)
Definition box_muller (u1 u2 : double) : double :=
  dmul (dsqrt (dmul (dint (-2)) (log u1))) (cos (dmul (dmul (dint 2) coco_pi) u2)).

(** Lines 81-96 (COCO_NORMAL_POLAR is defined) *)
Definition coco_random_normal (s : random_state) : res (double * random_state) :=
  do (u1, s) <- coco_random_uniform s;
  do (u2, s) <- coco_random_uniform s;
  Ok (box_muller u1 u2, s).
End Libm.

(** * suite_bbob_legacy_code.c *)
Open Scope Z_scope.

(** The type long: overflow is undefined. *)
Definition LONG_MIN : Z := - 2 ^ 63.
Definition long (z : Z) : res Z := if (LONG_MIN <=? z) && (z <? 2 ^ 63) then Ok z else UB.

(** Lines 70-73 and 79-82: one step of the seed. *)
Definition legacy_step (aktseed : Z) : res Z :=
  do tmp <- to_int (dfloor (ddiv (dint aktseed) (dint 127773)));
  do a <- long (tmp * 127773);
  do b <- long (aktseed - a);
  do c <- long (16807 * b);
  do d <- long (2836 * tmp);
  do aktseed <- long (c - d);
  if aktseed <? 0 then long (aktseed + 2147483647) else Ok aktseed.

(** Lines 69-76: [n] iterations are left, i = n - 1.  An element of rgrand that was not written is None. *)
Fixpoint legacy_warm_up (n : nat) (aktseed : Z) (rgrand : list (option Z)) : res (Z * list (option Z)) :=
  match n with
  | O => Ok (aktseed, rgrand)
  | S i =>
    do aktseed <- legacy_step aktseed;
    do rgrand <- (if (i <? 32)%nat then mset rgrand i (Some aktseed) else Ok rgrand);
    legacy_warm_up i aktseed rgrand
  end.

Definition defined (o : option Z) : res Z := match o with Some z => Ok z | None => UB end.

(** The index has to be inside the array; a negative one is not. *)
Definition index_of (z : Z) : res nat := if z <? 0 then UB else Ok (Z.to_nat z).

(** 1e-99 as the nearest double *)
Definition tiny : double := binary_normalize 53 1024 _ _ mode_NE 4925250774549310 (-381) false.

(** Lines 78-91: the n values written to r *)
Fixpoint legacy_loop (n : nat) (aktseed aktrand : Z) (rgrand : list (option Z)) : res (list double) :=
  match n with
  | O => Ok []
  | S n' =>
    do aktseed <- legacy_step aktseed;
    do tmp <- to_int (dfloor (ddiv (dint aktrand) (dint 67108865)));
    do i <- index_of tmp;
    do o <- mget rgrand i;
    do aktrand <- defined o;
    do rgrand <- mset rgrand i (Some aktseed);
    let r := ddiv (dint aktrand) (dint 2147483647) in
    let r := if deq r (dint 0) then tiny else r in
    do rs <- legacy_loop n' aktseed aktrand rgrand;
    Ok (r :: rs)
  end.

(** Lines 57-93 *)
Definition bbob2009_unif (n : nat) (inseed : Z) : res (list double) :=
  do inseed <- (if inseed <? 0 then long (- inseed) else Ok inseed);
  let inseed := if inseed <? 1 then 1 else inseed in
  do (aktseed, rgrand) <- legacy_warm_up 40 inseed (repeat None 32);
  do o <- mget rgrand 0;
  do aktrand <- defined o;
  legacy_loop n aktseed aktrand rgrand.

(** Lines 172-180 and 186-194: one coordinate *)
Definition xopt_coordinate (scale offset : Z) (u : double) : double :=
  let x := dsub (ddiv (dmul (dint scale) (dfloor (dmul (dint 10000) u))) (dint 10000)) (dint offset) in
  if deq x (dint 0) then dopp (ddec 1 5) else x.

Definition bbob2009_compute_xopt (seed : Z) (dim : nat) : res (list double) :=
  do u <- bbob2009_unif dim seed; Ok (map (xopt_coordinate 8 4) u).
Definition sbox_cost_compute_xopt (seed : Z) (dim : nat) : res (list double) :=
  do u <- bbob2009_unif dim seed; Ok (map (xopt_coordinate 10 5) u).

Section LegacyLibm.
Variable log cos : double -> double.

(** Lines 110-122.  The assert fails when 2 * N does not fit. *)
Definition gauss_value (u1 u2 : double) : double :=
  let g := box_muller log cos u1 u2 in if deq g (dint 0) then tiny else g.
Definition bbob2009_gauss (n : nat) (seed : Z) : res (list double) :=
  if Z.of_nat (2 * n) <? 6000 then
    do u <- bbob2009_unif (2 * n) seed;
    Ok (map (fun i => gauss_value (nth i u dzero) (nth (n + i) u dzero)) (seq 0 n))
  else UB.

(** Lines 18-24 *)
Definition bbob2009_fmin (a b : double) : double := if dlt a b then a else b.
Definition bbob2009_fmax (a b : double) : double := if dlt b a then a else b.
Definition bbob2009_round (x : double) : double := dfloor (dadd x (ddec 5 1)).

(** Lines 203-226 *)
Definition fopt_rseed (function : N) : N :=
  (let f := function in
   if f =? 4 then 3
   else if f =? 18 then 17
   else if (f =? 101) || (f =? 102) || (f =? 103) || (f =? 107) || (f =? 108) || (f =? 109) then 1
   else if (f =? 104) || (f =? 105) || (f =? 106) || (f =? 110) || (f =? 111) || (f =? 112) then 8
   else if (f =? 113) || (f =? 114) || (f =? 115) then 7
   else if (f =? 116) || (f =? 117) || (f =? 118) then 10
   else if (f =? 119) || (f =? 120) || (f =? 121) then 14
   else if (f =? 122) || (f =? 123) || (f =? 124) then 17
   else if (f =? 125) || (f =? 126) || (f =? 127) then 19
   else if (f =? 128) || (f =? 129) || (f =? 130) then 21
   else f)%N.

(** Lines 199-232; (long) of a size_t: out-of-range values wrap around. *)
Definition as_long (n : N) : Z := let m := Z.of_N n mod 2 ^ 64 in if m <? 2 ^ 63 then m else m - 2 ^ 64.
Definition bbob2009_compute_fopt (function instance : N) : res double :=
  do rrseed <- long (as_long (fopt_rseed function) + as_long (10000 * instance));
  do g <- bbob2009_gauss 1 rrseed;
  do next <- long (rrseed + 1);
  do g2 <- bbob2009_gauss 1 next;
  let gval := nth 0 g dzero in
  let gval2 := nth 0 g2 dzero in
  Ok (bbob2009_fmin (dint 1000) (bbob2009_fmax (dint (-1000))
        (ddiv (bbob2009_round (ddiv (dmul (dmul (dint 100) (dint 100)) gval) gval2)) (dint 100)))).
End LegacyLibm.
