(** Model of the Python classes that organise an experiment, build/python/src/cocoex/utilities.py: BatchScheduler
    (lines 907-974), ExperimentRepeater (lines 593-906), and of the experiment loop that uses both,
    build/python/example/example_experiment_complete.py 64-123. *)
From Coq Require Import List Arith NArith ZArith QArith Bool.
Import ListNotations.
Local Open Scope nat_scope.

(** What both classes look at in a problem: id_function, dimension and id_instance (interface.pyx 834-860). *)
Record pid := mk_pid { p_function : N; p_dimension : N; p_instance : N }.

(** A dictionary key (id_function, dimension). *)
Definition key : Type := (N * N)%type.
Definition key_eqb (a b : key) : bool := (fst a =? fst b)%N && (snd a =? snd b)%N.
Definition key_of (p : pid) : key := (p_function p, p_dimension p).

(** ** BatchScheduler *)

(** Lines 940-943: the two parameters and the three attributes; [None] is Python's None. *)
Record batcher := mk_batcher {
  number_of_batches : Z;
  batch_to_execute : Z;
  first_problem : option key;
  current_problem : option key;
  current_batch : Z
}.

(** Lines 934-953.  [None] is an exception: the ValueError of line 949, or the TypeError of comparing None with 0 in
    line 947. *)
Definition new_batcher (nob : Z) (batch : option Z) : option batcher :=
  if (nob =? 1)%Z && match batch with None => true | Some b => (b =? 0)%Z || (b =? 1)%Z end
  then Some (mk_batcher nob 0 None None (-1))
  else match batch with
       | None => None
       | Some b => if (b <? 0)%Z || (nob <=? b)%Z then None else Some (mk_batcher nob b None None (-1))
       end.

Definition is_key (o : option key) (k : key) : bool :=
  match o with None => false | Some k' => key_eqb k' k end.

(** Lines 954-974.  Python's % by a positive number is Z.modulo. *)
Definition is_in_batch (b : batcher) (p : pid) : bool * batcher :=
  let k := key_of p in
  let first := match first_problem b with None => Some k | f => f end in
  let b' := if is_key (current_problem b) k then mk_batcher (number_of_batches b) (batch_to_execute b) first
                                                   (current_problem b) (current_batch b)
            else
              let cb := if is_key first k then (-1)%Z else current_batch b in
              mk_batcher (number_of_batches b) (batch_to_execute b) first (Some k) (cb + 1)%Z in
  ((current_batch b' mod number_of_batches b' =? batch_to_execute b')%Z, b').

(** ** ExperimentRepeater *)

(** What [track] records of a trial: evaluations and final_target_hit. *)
Definition trial : Type := (N * bool)%type.
(** The dictionary of one (id_function, dimension), from the instance to its trials, in order of insertion. *)
Definition idata : Type := list (N * list trial).

(** Lines 668-677: parameters and attributes.  The multiplier is an exact rational number, the rounding of float
    multiplication is not modelled; _dimension_offset is zero (nothing changes it). *)
Record repeater := mk_repeater {
  budget_multiplier : Q;
  min_successes : N;
  max_sweeps : N;
  r_data : list (key * idata);
  calls : N;
  sweeps : N
}.
Definition new_repeater (mult : Q) (mins : N) : repeater := mk_repeater mult mins 10000 [] 0 0.

(** d[k] of a dictionary, None for a missing key. *)
Fixpoint lookup_key (d : list (key * idata)) (k : key) : option idata :=
  match d with
  | [] => None
  | (k', v) :: d' => if key_eqb k' k then Some v else lookup_key d' k
  end.
Fixpoint lookup_inst (d : idata) (i : N) : option (list trial) :=
  match d with
  | [] => None
  | (j, v) :: d' => if (j =? i)%N then Some v else lookup_inst d' i
  end.

(** Lines 762-773: a missing entry is returned as an empty dictionary (the warning is not modelled). *)
Definition data (r : repeater) (k : key) : idata :=
  match lookup_key (r_data r) k with Some d => d | None => [] end.

(** Lines 774-776. *)
Definition data_of_instance (r : repeater) (p : pid) : list trial :=
  match lookup_inst (data r (key_of p)) (p_instance p) with Some l => l | None => [] end.

Definition sumN (l : list N) : N := fold_right N.add 0%N l.
Definition maxnat (l : list nat) : nat := fold_right Nat.max 0 l.

(** Lines 783-799.  The lists are in order of insertion here, sorted by the instance there; only their sums, maxima and
    lengths are used. *)
Definition trials (d : idata) : list nat := map (fun e => length (snd e)) d.
Definition successes (d : idata) : list N := map (fun e => sumN (map (fun t : trial => if snd t then 1 else 0)%N (snd e))) d.
Definition evaluations (d : idata) : list N := map (fun e => sumN (map fst (snd e))) d.

(** Lines 690-698. *)
Definition budget_from_dimension (r : repeater) (dim : N) : Q := (inject_Z (Z.of_N dim) * budget_multiplier r)%Q.

(** Lines 800-803. *)
Definition budget_exhausted (r : repeater) (k : key) : bool :=
  let d := data r k in
  Qle_bool (inject_Z (Z.of_nat (Nat.max 1 (length d))) * budget_from_dimension r (snd k))%Q
           (inject_Z (Z.of_N (sumN (evaluations d)))).

(** Lines 804-806. *)
Definition succeeded (r : repeater) (k : key) : bool := (min_successes r <=? sumN (successes (data r k)))%N.

(** Lines 887-893. *)
Definition missing_trials (r : repeater) (p : pid) : Z :=
  (Z.of_nat (Nat.max 1 (maxnat (trials (data r (key_of p))))) - Z.of_nat (length (data_of_instance r p)))%Z.

(** Lines 851-856: done(problem). *)
Definition done_problem (r : repeater) (p : pid) : bool :=
  if (sweeps r <=? 1)%N || negb (missing_trials r p =? 0)%Z
     || (negb (succeeded r (key_of p)) && negb (budget_exhausted r (key_of p)))
  then false else true.

(** Lines 882-886: remaining_problems(). *)
Definition remaining_problems (r : repeater) : list pid :=
  flat_map (fun e => flat_map (fun i => let p := mk_pid (fst (fst e)) (snd (fst e)) (fst i) in
                                        if done_problem r p then [] else [p]) (snd e)) (r_data r).

(** Lines 714-722: n_problem_instances(). *)
Definition n_problem_instances (r : repeater) : nat :=
  fold_right Nat.add 0
    (map (fun e => length (filter (fun n => 0 <? n) (trials (data r (fst e))))) (r_data r)).

Definition set_sweeps (r : repeater) (n : N) : repeater :=
  mk_repeater (budget_multiplier r) (min_successes r) (max_sweeps r) (r_data r) (calls r) n.

(** Lines 857-867: done() without argument (the message is not modelled). *)
Definition done (r : repeater) : bool * repeater :=
  let r1 := set_sweeps r (sweeps r + 1) in
  let d := (max_sweeps r1 <=? sweeps r1)%N
           || ((1 <? sweeps r1)%N && match r_data r1 with [] => true | _ => false end)
           || ((0 <? n_problem_instances r1) && match remaining_problems r1 with [] => true | _ => false end) in
  (d, if d then r else r1).

(** d[i] += [t] on a defaultdict(list). *)
Fixpoint append_trial (d : idata) (i : N) (t : trial) : idata :=
  match d with
  | [] => [(i, [t])]
  | (j, l) :: d' => if (j =? i)%N then (j, l ++ [t]) :: d' else (j, l) :: append_trial d' i t
  end.
Fixpoint update_key (d : list (key * idata)) (k : key) (f : idata -> idata) : list (key * idata) :=
  match d with
  | [] => [(k, f [])]
  | (k', v) :: d' => if key_eqb k' k then (k', f v) :: d' else (k', v) :: update_key d' k f
  end.

(** Lines 728-734. *)
Definition track (r : repeater) (p : pid) (t : trial) : repeater :=
  mk_repeater (budget_multiplier r) (min_successes r) (max_sweeps r)
    (update_key (r_data r) (key_of p) (fun d => append_trial d (p_instance p) t)) (calls r + 1) (sweeps r).

(** Lines 783-791: trials(problem, instance).  Subscripting the defaultdict creates the missing entry: permanently if
    the problem has data, in a temporary dictionary otherwise. *)
Definition trials_of_instance (r : repeater) (k : key) (i : N) : nat * repeater :=
  match lookup_key (r_data r) k with
  | None => (0, r)
  | Some d =>
    match lookup_inst d i with
    | Some l => (length l, r)
    | None => (0, mk_repeater (budget_multiplier r) (min_successes r) (max_sweeps r)
                    (update_key (r_data r) k (fun d => d ++ [(i, [])])) (calls r) (sweeps r))
    end
  end.

(** Lines 894-904: the restart number handed to problem.initial_solution_proposal; the check of line 900 is on an integer
    here. *)
Definition proposal_number (r : repeater) (k : key) (nonzero_odds : nat) : nat :=
  let t := fold_right Nat.add 0 (trials (data r k)) in
  if nonzero_odds =? 0 then t + 1 else if t mod (nonzero_odds + 1) =? 0 then 0 else t.

(** ** The experiment *)

(** The trials of an experiment in the order in which they were run. *)
Definition history : Type := list (pid * trial).
(** The solver: what a trial on a problem yields, given all trials so far. *)
Definition solver : Type := history -> pid -> trial.

Record experiment := mk_experiment { e_batcher : batcher; e_repeater : repeater; e_history : history }.

(** example_experiment_complete.py 74-123: one problem of a sweep. *)
Definition visit (s : solver) (e : experiment) (p : pid) : experiment :=
  let (b, b') := is_in_batch (e_batcher e) p in
  if negb b || done_problem (e_repeater e) p then mk_experiment b' (e_repeater e) (e_history e)
  else let t := s (e_history e) p in
       mk_experiment b' (track (e_repeater e) p t) (e_history e ++ [(p, t)]).

Definition sweep (s : solver) (problems : list pid) (e : experiment) : experiment :=
  fold_left (visit s) problems e.

(** Line 73: the loop; [None] when the fuel does not suffice. *)
Fixpoint experiment_loop (fuel : nat) (s : solver) (problems : list pid) (e : experiment) : option experiment :=
  match fuel with
  | O => None
  | S n =>
    let (d, r) := done (e_repeater e) in
    let e1 := mk_experiment (e_batcher e) r (e_history e) in
    if d then Some e1 else experiment_loop n s problems (sweep s problems e1)
  end.

(** Lines 64-65 and 73-123. *)
Definition run_experiment (fuel : nat) (mult : Q) (mins : N) (nob : Z) (batch : option Z) (s : solver)
    (problems : list pid) : option experiment :=
  match new_batcher nob batch with
  | None => None
  | Some b => experiment_loop fuel s problems (mk_experiment b (new_repeater mult mins) [])
  end.
