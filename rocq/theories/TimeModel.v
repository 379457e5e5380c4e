(** Model of ascetime, build/python/src/cocoex/utilities.py 570-585, with decimals=0. *)
From Coq Require Import String List NArith ZArith Ascii Bool.
From Flocq Require Import Core BinarySingleNaN.
From Verif Require Import CBase IdModel DblModel.
Import ListNotations.

(** x % 1 for finite x >= 0, which is exact in Python (fmod) *)
Definition mod1 (x : double) : double := dsub x (dfloor x).
(** Lines 582-585: the numbers that are printed.  An int is divided as the double of the same value, up to 2^53. *)
Definition fields (sec : double) : Z * Z * Z :=
  let h := ddiv sec (dint 3600) in
  let m := dmul (dint 60) (mod1 h) in
  let s := dmul (dint 60) (mod1 m) in
  (Btrunc h, Btrunc m, Btrunc s).
(** Line 585 with sec >= 0; None stands for negative numbers (line 576) and for values that are not finite (an exception in "%d"). *)
Definition ascetime (sec : double) : option cstr :=
  if is_finite sec && negb (dlt sec dzero) then
    let '(h, m, s) := fields sec in
    Some (print_lu 0 (Z.to_N h) ++ str "h" ++ print_lu 2 (Z.to_N m) ++ str ":" ++ print_lu 2 (Z.to_N s))
  else None.
