(** The C type double as IEEE binary64 (Flocq), rounding to nearest even. *)
From Coq Require Import ZArith Bool.
From Flocq Require Import Core BinarySingleNaN.
From Verif Require Import CBase OptModel.
Open Scope Z_scope.

Notation double := (binary_float 53 1024).

Definition prec_pos : Prec_gt_0 53 := eq_refl.
Definition prec_emax : Prec_lt_emax 53 1024 := eq_refl.
#[global] Existing Instance prec_pos.
#[global] Existing Instance prec_emax.

(** + - * / *)
Definition dadd (x y : double) : double := Bplus mode_NE x y.
Definition dsub (x y : double) : double := Bminus mode_NE x y.
Definition dmul (x y : double) : double := Bmult mode_NE x y.
Definition ddiv (x y : double) : double := Bdiv mode_NE x y.
Definition dopp (x : double) : double := Bopp x.
(** fabs *)
Definition dabs (x : double) : double := Babs x.

(** < <= == ; false when an operand is a NaN *)
Definition dlt (x y : double) : bool := Bltb x y.
Definition dle (x y : double) : bool := Bleb x y.
Definition deq (x y : double) : bool := Beqb x y.

(** ceil, floor (exact, no rounding needed) *)
Definition dceil (x : double) : double := Bnearbyint mode_UP x.
Definition dfloor (x : double) : double := Bnearbyint mode_DN x.

(** (double) of an integer *)
Definition dint (z : Z) : double := binary_normalize 53 1024 _ _ mode_NE z 0 false.

(** The literal m * 10^-e: the quotient of two exactly representable integers is the double
    nearest to the decimal number. *)
Definition ddec (m e : Z) : double := ddiv (dint m) (dint (10 ^ e)).

Definition dzero : double := B754_zero false.
Definition dinf : double := B754_infinity false.
Definition dnan : double := B754_nan.
(** float.h *)
Definition DBL_MAX : double := Bmax_float.

(** (int) and (size_t) of a double: towards zero, undefined when the result is not representable. *)
Definition to_int (x : double) : res Z :=
  if is_finite x
  then if (INT_MIN <=? Btrunc x) && (Btrunc x <=? INT_MAX) then Ok (Btrunc x) else UB
  else UB.
Definition to_size_t (x : double) : res N :=
  if is_finite x
  then if (0 <=? Btrunc x) && (Btrunc x <? 2 ^ 64) then Ok (Z.to_N (Btrunc x)) else UB
  else UB.

(** Lines of src/coco_utilities.c: 909-911, 916, 943-960. *)
Definition coco_double_almost_equal (a b precision : double) : bool := dlt (dabs (dsub a b)) precision.
Definition coco_double_round (number : double) : double := dfloor (dadd number (ddec 5 1)).
Definition coco_double_max (a b : double) : double := if dle b a then a else b.
Definition coco_double_min (a b : double) : double := if dle a b then a else b.

(** Lines 968 and 973-983 *)
Definition coco_double_to_size_t (number : double) : res N := to_size_t (coco_double_round number).
Definition coco_double_to_int (number : double) : res Z :=
  if dlt (dint INT_MAX) number then Err
  else if dlt number (dint INT_MIN) then Err
  else to_int (dadd number (ddec 5 1)).

(** Lines 997-1001 and 1027-1031.  In coco_is_nan a comparison with NAN is false. *)
Definition coco_is_nan (x : double) : bool := is_nan x || negb (deq x x).
Definition coco_is_inf (x : double) : bool :=
  if coco_is_nan x then false
  else match x with B754_infinity _ => true | _ => false end || dle x (dopp dinf) || dle dinf x.
