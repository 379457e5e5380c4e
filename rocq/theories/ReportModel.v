(** Model of the report that coco_suite_get_next_problem writes (src/coco_suite.c 883-948); the rest of the function is in SuiteModel.v. *)
From Coq Require Import List Arith NArith ZArith Bool.
From Verif Require Import CBase SuiteModel MsgModel.
Import ListNotations.

(** What is written by coco_info_partial: "done\n"; "\n"; "COCO INFO: <time>, d=<number>, running: "; "f<number>" (two digits at least, also at
    the end of the line before); "." *)
Inductive token := Done | Newline | Start (dimension : N) | Function (number : N) | Dot.
(** coco_suite_get_next_problem of SuiteModel.v gives None if no next item is found only, as the iteration stops at items that are not 0. *)
Definition next_problem (level : nat) (s : suite) : res (option SuiteModel.problem * suite * list token) :=
  do (p, s') <- coco_suite_get_next_problem s;
  match p with
  | None => Ok (None, s', if COCO_INFO <=? level then [Done] else [])                                  (* line 906 *)
  | Some q =>
    if negb (COCO_INFO <=? level) then Ok (Some q, s', []) else                                        (* line 928 *)
    let d := cur_dimension s' in let f := cur_function s' in
    if negb (d =? cur_dimension s)%Z || (cur_instance s <? 0)%Z then                                   (* line 929 *)
      do dv <- item (dimensions s') (Z.to_nat d); do fv <- item (functions s') (Z.to_nat f);
      Ok (Some q, s', [if (0 <? d)%Z then Done else Newline; Start dv; Function fv; Dot])
    else if negb (f =? cur_function s)%Z then                                                          (* line 940 *)
      do fv <- item (functions s') (Z.to_nat f); Ok (Some q, s', [Function fv; Dot])
    else Ok (Some q, s', [Dot])
  end.
(** Calls until NULL is returned, at most [fuel] *)
Fixpoint whole_pass (fuel level : nat) (s : suite) : res (list token * suite) :=
  match fuel with
  | O => UB
  | S fuel' =>
    do (r, t) <- next_problem level s;
    match r with
    | (None, s') => Ok (t, s')
    | (Some _, s') => do (u, s'') <- whole_pass fuel' level s'; Ok (t ++ u, s'')
    end
  end.
