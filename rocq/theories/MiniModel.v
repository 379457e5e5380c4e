(** Model of MiniPrint, build/python/src/cocoex/utilities.py 425-483. *)
From Coq Require Import String List Arith NArith ZArith Ascii Bool.
From Verif Require Import CBase IdModel.
Import ListNotations.

(** The argument final_message: false or an empty text; another text; a value without length (True) *)
Inductive final_message := NoMessage | Message (text : cstr) | Flag.
(** A call: index, dimension, id_function and final_target_hit of the problem, the other arguments, and day of the month, hours, minutes
    and seconds of time.localtime (line 442) at the time of the call *)
Record call := {
  c_index : Z; c_dimension : N; c_function : N; hit : bool;
  restarted : bool; final : bool; message : final_message;
  now : N * N * N * N }.
(** What is written: line ends by print('') or print(); "2D 10h02:03\n"; " f1"; one symbol; the message at the end *)
Inductive token := Break | Header (dimension : N) (clock : cstr) | Label (function : N) | Symbol (c : ascii) | Final (text : cstr).

(** Lines 431-438; _functions is not in use and left out. *)
Record mini := { m_dimension : option N; m_function : option N; last_index : Z; calls : nat; sweeps : N; day0 : N }.
Definition new_mini (day : N) : mini :=
  {| m_dimension := None; m_function := None; last_index := -1; calls := 0; sweeps := 0; day0 := day |}.

(** Lines 440-446 *)
Definition stime (day0 : N) (now : N * N * N * N) : cstr :=
  let '(day, h, m, s) := now in
  let t := print_lu 0 h ++ str "h" ++ print_lu 2 m ++ str ":" ++ print_lu 2 s in
  if (day0 <? day)%N then t ++ str "+" ++ print_lu 0 (day - day0) ++ str "d" else t.

Definition is (o : option N) (n : N) : bool := match o with Some m => (m =? n)%N | None => false end.
(** Lines 447-483; flushing left out *)
Definition mini_call (st : mini) (c : call) : mini * list token :=
  let new_dimension := negb (is (m_dimension st) (c_dimension c)) || (c_index c <? last_index st)%Z in
  let '(t1, calls1) :=
    if new_dimension then
      ((match m_dimension st with Some _ => [Break] | None => [] end) ++ [Header (c_dimension c) (stime (day0 st) (now c))], 0)
    else ([], calls st) in
  let '(t2, calls2) :=
    if negb (is (m_function st) (c_function c)) || new_dimension then
      if negb new_dimension && (50 <=? calls1) then ([Break; Label (c_function c)], 0) else ([Label (c_function c)], calls1)
    else ([], calls1) in
  let symbol := if hit c then "|"%char else if restarted c then ":"%char else "."%char in
  let sweeps' := if final c then (sweeps st + 1)%N else sweeps st in
  let t3 := if final c then
              match message c with
              | NoMessage | Message [] => []
              | Message t => [Final t]
              | Flag => [Final (["010"%char] ++ str "Suite done (" ++ print_lu 0 sweeps' ++ str ")")]
              end
            else [] in
  ({| m_dimension := Some (c_dimension c); m_function := Some (c_function c); last_index := c_index c; calls := S calls2;
      sweeps := sweeps'; day0 := day0 st |}, t1 ++ t2 ++ [Symbol symbol] ++ t3).
Fixpoint mini_calls (st : mini) (cs : list call) : list token :=
  match cs with
  | [] => []
  | c :: cs' => let (st', t) := mini_call st c in t ++ mini_calls st' cs'
  end.

(** The text of a token: lines 453, 454, 467, 468, 473, 479 and 481 *)
Definition render (t : token) : cstr :=
  match t with
  | Break => ["010"%char]
  | Header d clock => print_lu 0 d ++ str "D " ++ clock ++ ["010"%char]
  | Label f => (if (f <? 10)%N then [" "%char] else []) ++ str "f" ++ print_lu 0 f
  | Symbol c => [c]
  | Final t => t ++ ["010"%char]
  end.
