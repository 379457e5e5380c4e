(** What the batches and the repetitions of an experiment should do, in terms of the sequence of problems that is handed
    in and of the trials that are run. *)
From Coq Require Import List Arith NArith ZArith QArith Bool.
From Verif Require Import CBase SuiteModel SuiteSpec PyExpModel.
Import ListNotations.
Local Open Scope nat_scope.

(** The answers of one scheduler asked about the problems one after the other. *)
Fixpoint answers (b : batcher) (ps : list pid) : list bool :=
  match ps with
  | [] => []
  | p :: ps' => fst (is_in_batch b p) :: answers (snd (is_in_batch b p)) ps'
  end.

(** The problems that batch [k] of [nob] executes. *)
Definition fresh (nob k : Z) : batcher := mk_batcher nob k None None (-1).
Definition executed (nob k : Z) (ps : list pid) : list pid :=
  map fst (filter snd (combine ps (answers (fresh nob k) ps))).

Definition copies {A} (n : nat) (l : list A) : list A := concat (repeat l n).

(** A suite as groups of problems with the same function and dimension. *)
Definition groups_problems (gs : list (key * list N)) : list pid :=
  flat_map (fun g => map (mk_pid (fst (fst g)) (snd (fst g))) (snd g)) gs.

(** The number of the [n] groups that are given to batch [k] in turn. *)
Definition groups_in_batch (nob k : Z) (n : nat) : nat :=
  length (filter (fun g => (Z.of_nat g mod nob =? k)%Z) (seq 0 n)).

(** The problems of a suite, in the order of iteration: dimension after dimension, function after function. *)
Definition pid_of (q : problem) : pid := mk_pid (dep_function q) (dep_dimension q) (dep_instance q).
Definition suite_pids (s : suite) : list pid := map pid_of (all_problems s).
(** The items that were not filtered out. *)
Definition present (l : list N) : list N := filter (fun x => negb (x =? 0)%N) l.

(** ** Trials *)
Definition pid_eqb (a b : pid) : bool := key_eqb (key_of a) (key_of b) && (p_instance a =? p_instance b)%N.

(** The trials on the problems with a given function and dimension. *)
Definition of_key (k : key) (h : history) : history := filter (fun e => key_eqb (key_of (fst e)) k) h.
(** The number of trials on a problem. *)
Definition trials_of (h : history) (p : pid) : nat := length (filter (fun e => pid_eqb (fst e) p) h).
(** How often a problem occurs in a sequence of problems. *)
Definition listed (ps : list pid) (p : pid) : nat := length (filter (fun q => pid_eqb q p) ps).
(** The different instances that were tried. *)
Definition instances_of (h : history) (k : key) : list N :=
  nodup N.eq_dec (map (fun e => p_instance (fst e)) (of_key k h)).
Definition total_evaluations (h : history) (k : key) : N := sumN (map (fun e => fst (snd e)) (of_key k h)).
Definition total_successes (h : history) (k : key) : N :=
  N.of_nat (length (filter (fun e => snd (snd e)) (of_key k h))).

(** Enough successes, or the evaluations reach the budget of multiplier times dimension per instance. *)
Definition enough (mult : Q) (mins : N) (h : history) (k : key) : Prop :=
  (mins <= total_successes h k)%N \/
  (inject_Z (Z.of_nat (length (instances_of h k))) * (inject_Z (Z.of_N (snd k)) * mult)
     <= inject_Z (Z.of_N (total_evaluations h k)))%Q.

(** All instances that were tried were tried equally often. *)
Definition balanced (h : history) (k : key) : Prop :=
  forall p q, key_of p = k -> key_of q = k -> 0 < trials_of h p -> 0 < trials_of h q -> trials_of h p = trials_of h q.

(** The result of a trial depends only on the earlier trials with the same function and dimension. *)
Definition own_history_only (s : solver) : Prop :=
  forall h h' p, of_key (key_of p) h = of_key (key_of p) h' -> s h p = s h' p.
