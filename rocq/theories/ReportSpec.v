(** What the report should be. *)
From Coq Require Import List Arith NArith Bool.
From Verif Require Import SuiteModel SuiteSpec ReportModel.
Import ListNotations.

(** A line for each dimension of the suite, with each function once and a dot for each of its instances; [opening] comes before a line. *)
Definition line (s : suite) (opening : nat -> token) (d : nat) : list token :=
  [opening d; Start (nth d (dimensions s) 0%N)] ++
  flat_map (fun f => Function (nth f (functions s) 0%N) :: repeat Dot (length (positions (instances s)))) (positions (functions s)).
Definition report (s : suite) : list token :=
  flat_map (line s (fun d => if d =? 0 then Newline else Done)) (positions (dimensions s)) ++ [Done].
Definition is_dot (t : token) : bool := match t with Dot => true | _ => false end.
