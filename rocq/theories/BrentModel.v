(** Numerical inversion of a univariate function: brentq.c, with the two functions it is applied to.

    Over the abstract arithmetic of FunModel.v. *)

From Coq Require Import ZArith List Bool.
From Verif Require Import FunModel.
Import ListNotations.

Section Brent.
Variable A : arith.
Notation T := (num A).
Local Notation L := (lit A).
Local Notation "x + y" := (add A x y) : fun_scope.
Local Notation "x - y" := (sub A x y) : fun_scope.
Local Notation "x * y" := (mul A x y) : fun_scope.
Local Notation "x / y" := (div A x y) : fun_scope.
Local Notation "x < y" := (lt A x y) : fun_scope.
Local Notation "x <= y" := (le A x y) : fun_scope.
Local Open Scope fun_scope.

(** x == y *)
Definition equal (x y : T) : bool := (x <= y) && (y <= x).
(** brentq.c:54, 59-61 *)
Definition MIN (a b : T) : T := if a < b then a else b.
Definition signbit (x : T) : bool := x < zero A.

(** The variables of the loop of brentq (lines 93-98) that live from one round to the next. *)
Record state := { xpre : T; xcur : T; xblk : T; fpre : T; fcur : T; fblk : T; spre : T; scur : T }.

Section Function.
(** The callback with its data *)
Variable f : T -> T.
Variables y xtol rtol : T.

(** Lines 116-120 *)
Definition rebracket (s : state) : state :=
  if negb (equal (fpre s) (zero A)) && negb (equal (fcur s) (zero A)) && negb (Bool.eqb (signbit (fpre s)) (signbit (fcur s)))
  then {| xpre := xpre s; xcur := xcur s; xblk := xpre s; fpre := fpre s; fcur := fcur s; fblk := fpre s;
          spre := xcur s - xpre s; scur := xcur s - xpre s |}
  else s.

(** Lines 121-129 *)
Definition swap (s : state) : state :=
  if abs A (fblk s) < abs A (fcur s)
  then {| xpre := xcur s; xcur := xblk s; xblk := xcur s; fpre := fcur s; fcur := fblk s; fblk := fcur s;
          spre := spre s; scur := scur s |}
  else s.

(** Lines 131-132 *)
Definition delta (s : state) : T := (xtol + rtol * abs A (xcur s)) / L 2 0.
Definition sbis (s : state) : T := (xblk s - xcur s) / L 2 0.

(** Lines 139-147 *)
Definition stry (s : state) : T :=
  if equal (xpre s) (xblk s) then opp A (fcur s) * (xcur s - xpre s) / (fcur s - fpre s)
  else let dpre := (fpre s - fcur s) / (xpre s - xcur s) in
       let dblk := (fblk s - fcur s) / (xblk s - xcur s) in
       opp A (fcur s) * (fblk s * dblk - fpre s * dpre) / (dblk * dpre * (fblk s - fpre s)).

(** Lines 138-161: the new values of spre and scur. *)
Definition choose (s : state) : T * T :=
  if (delta s < abs A (spre s)) && (abs A (fcur s) < abs A (fpre s))
  then if L 2 0 * abs A (stry s) < MIN (abs A (spre s)) (L 3 0 * abs A (sbis s) - delta s)
       then (scur s, stry s) else (sbis s, sbis s)
  else (sbis s, sbis s).

(** Lines 163-171 *)
Definition advance (s : state) : state :=
  let (pre, cur) := choose s in
  let x := if delta s < abs A cur then xcur s + cur
           else xcur s + (if zero A < sbis s then delta s else opp A (delta s)) in
  {| xpre := xcur s; xcur := x; xblk := xblk s; fpre := fcur s; fcur := f x - y; fblk := fblk s; spre := pre; scur := cur |}.

(** Lines 115-174.  The flag, which C does not return, tells whether the loop has been left because the result is good
    enough (line 135), and not because the iterations are exhausted. *)
Fixpoint rounds (iter : nat) (s : state) : T * bool :=
  match iter with
  | O => (xcur s, false)
  | S iter =>
    let s := swap (rebracket s) in
    if equal (fcur s) (zero A) || (abs A (sbis s) < delta s) then (xcur s, true)
    else rounds iter (advance s)
  end.

(** Lines 91-175; NAN (line 105) is [None]. *)
Definition brentq (xa xb : T) (iter : nat) : option (T * bool) :=
  let fa := f xa - y in
  let fb := f xb - y in
  if zero A < fa * fb then None
  else if equal fa (zero A) then Some (xa, true)
  else if equal fb (zero A) then Some (xb, true)
  else Some (rounds iter {| xpre := xa; xcur := xb; xblk := zero A; fpre := fa; fcur := fb; fblk := zero A;
                            spre := zero A; scur := zero A |}).

(** Lines 196-199, 206-209 and 201-204, 211-214: while (fval > y) and while (fval < y), for an end of the interval that
    is halved or doubled by [move].  The loops have no bound in C; [fuel] bounds the number of tests. *)
Fixpoint while_above (fuel : nat) (move : T -> T) (x : T) : option T :=
  match fuel with O => None | S fuel => if y < f x then while_above fuel move (move x) else Some x end.
Fixpoint while_below (fuel : nat) (move : T -> T) (x : T) : option T :=
  match fuel with O => None | S fuel => if f x < y then while_below fuel move (move x) else Some x end.
End Function.

(** Lines 188-223 *)
Definition half (x : T) : T := x / L 2 0.
Definition double (x : T) : T := x * L 2 0.
Definition brentinv (fuel : nat) (f : T -> T) (y : T) : option (T * bool) :=
  let invert := fun xmin xmax => brentq f y (L 1 14) (L 1 10) xmin xmax 200 in
  let down := if zero A < y then half else double in
  let up := if zero A < y then double else half in
  if y < f y then match while_above f y fuel down y with Some xmin => invert xmin y | None => None end
  else match while_below f y fuel up y with Some xmax => invert y xmax | None => None end.

(** transform_vars_oscillate.c:33-50 with alpha = 0.1 (line 159) *)
Definition tosz_uv (xi : T) : T :=
  let alpha := L 1 1 in
  if zero A < xi then
    let tmp := log A xi / alpha in
    pow A (exp A (tmp + L 49 2 * (sin A tmp + sin A (L 79 2 * tmp)))) alpha
  else if xi < zero A then
    let tmp := log A (opp A xi) / alpha in
    opp A (pow A (exp A (tmp + L 49 2 * (sin A (L 55 2 * tmp) + sin A (L 31 2 * tmp)))) alpha)
  else zero A.

(** transform_vars_asymmetric.c:35-46 for coordinate i of n *)
Definition tasy_uv (beta : T) (n i : nat) (xi : T) : T :=
  if zero A < xi then pow A xi (L 1 0 + beta * of_nat A i / (of_nat A n - L 1 0) * sqrt A xi) else xi.
End Brent.
