(** What the account of time should say. *)
From Coq Require Import List NArith Bool.
From Verif Require Import CBase SuiteModel SuiteSpec.
Import ListNotations.

Definition sum (l : list N) : N := fold_right N.add 0%N l.
(** The problems of the suite in the dimension at a position *)
Definition problems_in (s : suite) (d : nat) : list problem :=
  flat_map (fun f => map (fun i => problem_at s (d, f, i)) (positions (instances s))) (positions (functions s)).
(** The evaluations in it *)
Definition evaluations_in (s : suite) (evaluations : problem -> N) (d : nat) : N := sum (map evaluations (problems_in s d)).
(** One line for each dimension in which something was evaluated, in the order of the suite *)
Definition lines (s : suite) (evaluations : problem -> N) : list (N * N) :=
  filter (fun l => (0 <? snd l)%N) (map (fun d => (nth d (dimensions s) 0%N, evaluations_in s evaluations d)) (positions (dimensions s))).
(** No dimension occurs twice among those left *)
Definition distinct (l : list N) : Prop := NoDup (filter (fun x => negb (x =? 0)%N) l).
