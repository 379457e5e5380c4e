(** What the calls of a binding amount to: the accepted ones are the calls of C in the same order. *)
From Coq Require Import List Arith NArith ZArith Bool.
Import ListNotations.
From Verif Require Import CBase DblModel ProbModel BindModel.
Local Open Scope nat_scope.

Definition to_call (k : what) (x : list double) : call :=
  match k with Function => Evaluate x | Constraint => Constrain x | Solution => Recommend x end.
(** The number of values of a problem with no objectives and nc constraints *)
Definition count (no nc : nat) (k : what) : nat := match k with Function => no | Constraint => nc | Solution => 0 end.
(** A row or a column with n doubles; slices of the right lengths *)
Definition matlab_accepts (n : nat) (r : what * mx) : bool :=
  is_double (snd r) && ((rows (snd r) =? 1) && (columns (snd r) =? n) || (columns (snd r) =? 1) && (rows (snd r) =? n)).
Definition rust_accepts (n no nc : nat) (r : what * list double * list double) : bool :=
  (length (snd (fst r)) =? n) && (length (snd r) =? count no nc (fst (fst r))).
(** The answers: errors for what is not accepted, otherwise the values of C, one after the other *)
Fixpoint weave {A} (accepts : A -> bool) (l : list A) (ys : list (list double)) : list answer :=
  match l with
  | [] => []
  | r :: l' => if accepts r then match ys with y :: ys' => Values y :: weave accepts l' ys' | [] => [] end
               else Raised :: weave accepts l' ys
  end.
Definition mx_ok (x : mx) : Prop := length (reals x) = rows x * columns x.
