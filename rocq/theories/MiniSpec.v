(** What MiniPrint should write, in terms of the calls before (latest first). *)
From Coq Require Import String List Arith NArith ZArith Ascii Bool.
From Verif Require Import CBase IdSpec MiniModel.
Import ListNotations.

(** A block begins with the first call, with another dimension and when the problems begin again. *)
Definition begins_block (past : list call) (c : call) : bool :=
  match past with
  | [] => true
  | b :: _ => negb (c_dimension b =? c_dimension c)%N || (c_index c <? c_index b)%Z
  end.
(** A function is named at the beginning of a block and when it changes. *)
Definition begins_function (past : list call) (c : call) : bool :=
  match past with
  | [] => true
  | b :: _ => begins_block past c || negb (c_function b =? c_function c)%N
  end.
(** The number of symbols in the current row: rows end where a function begins and 50 symbols are reached. *)
Fixpoint row (past : list call) : nat :=
  match past with
  | [] => 0
  | c :: r => if begins_block r c || (begins_function r c && (50 <=? row r)) then 1 else S (row r)
  end.
(** The number of latest calls behind the last name of a function *)
Fixpoint same_name (past : list call) : nat :=
  match past with
  | [] => 0
  | c :: r => if begins_function r c then 1 else S (same_name r)
  end.
Definition symbol_of (c : call) : ascii :=
  match hit c, restarted c with
  | true, _ => "|"%char
  | false, true => ":"%char
  | false, false => "."%char
  end.
Definition passes (past : list call) : nat := List.length (filter final past).

(** The tokens of a call *)
Definition expected (clock : call -> cstr) (done : nat -> cstr) (past : list call) (c : call) : list token :=
  (if begins_block past c then (match past with [] => [] | _ => [Break] end) ++ [Header (c_dimension c) (clock c)]
   else if begins_function past c && (50 <=? row past) then [Break] else []) ++
  (if begins_function past c then [Label (c_function c)] else []) ++
  [Symbol (symbol_of c)] ++
  (match final c, message c with
   | true, Message (x :: t) => [Final (x :: t)]
   | true, Flag => [Final (done (passes (c :: past)))]
   | _, _ => []
   end).
Fixpoint expected_all (clock : call -> cstr) (done : nat -> cstr) (past cs : list call) : list token :=
  match cs with
  | [] => []
  | c :: cs' => expected clock done past c ++ expected_all clock done (c :: past) cs'
  end.
Definition is_symbol (t : token) : bool := match t with Symbol _ => true | _ => false end.
(** The number of symbols between line ends: the longest row *)
Fixpoint longest (n : nat) (ts : list token) : nat :=
  match ts with
  | [] => n
  | Symbol _ :: ts' => longest (S n) ts'
  | Break :: ts' | Header _ _ :: ts' => Nat.max n (longest 0 ts')
  | _ :: ts' => longest n ts'
  end.
(** No function is named for more than [k] calls. *)
Fixpoint names_up_to (k : nat) (past cs : list call) : Prop :=
  match cs with
  | [] => True
  | c :: cs' => same_name (c :: past) <= k /\ names_up_to k (c :: past) cs'
  end.
