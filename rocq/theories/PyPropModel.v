(** Model of Problem.initial_solution_proposal, build/python/src/cocoex/interface.pyx 676-722 (with 723-728 initial_solution).
    Random numbers are arguments: the two arrays drawn by np.random.rand and the integers drawn by np.random.randint. *)
From Coq Require Import List Arith ZArith Bool.
From Verif Require Import CBase DblModel.
Import ListNotations.
Local Open Scope nat_scope.

(** The attributes of a problem that are read: lines 545-546, 565-584 *)
Record view := mk_view {
  number_of_integer_variables : nat;
  number_of_constraints : nat;
  lower_bounds : list double;
  upper_bounds : list double;
  initial_solution : list double
}.

(** Line 711: sum of two uniform numbers *)
Definition triangular (us vs : list double) : list double := map (fun p => dadd (fst p) (snd p)) (combine us vs).

(** Lines 714-716: rv += -1 + initial_solution, behind the integer variables *)
Definition around (init rv : list double) : list double := map (fun p => dadd (fst p) (dadd (dint (-1)) (snd p))) (combine rv init).

(** Lines 717-721: rv *= (upper - lower) / 2, rv += lower, behind the integer variables *)
Definition spread (lower upper rv : list double) : list double :=
  map (fun p => dadd (dmul (fst p) (ddiv (dsub (snd (snd p)) (fst (snd p))) (dint 2))) (fst (snd p)))
      (combine rv (combine lower upper)).

(** Lines 711-722: [ks] are the integers drawn in lines 712-713 for the integer variables. *)
Definition random_proposal (p : view) (us vs : list double) (ks : list Z) : list double :=
  let n := number_of_integer_variables p in
  let rv := skipn n (triangular us vs) in
  map dint ks ++
  (if 0 <? number_of_constraints p then around (skipn n (initial_solution p)) rv
   else spread (skipn n (lower_bounds p)) (skipn n (upper_bounds p)) rv).

(** Lines 706-722: [calls] is the attribute _initial_solution_proposal_calls; the result and the new value of it *)
Definition initial_solution_proposal (p : view) (calls : Z) (restart_number : option Z) (us vs : list double) (ks : list Z)
    : list double * Z :=
  let r := match restart_number with None => calls | Some r => r end in
  let calls' := match restart_number with None => (calls + 1)%Z | Some _ => calls end in
  ((if (r <=? 0)%Z then initial_solution p else random_proposal p us vs ks), calls').

(** A sequence of calls, each with its argument and random numbers; line 572: the counter starts at 0 *)
Definition draws := (option Z * (list double * list double * list Z))%type.
Fixpoint proposals (p : view) (calls : Z) (l : list draws) : list (list double) * Z :=
  match l with
  | [] => ([], calls)
  | (r, (us, vs, ks)) :: l' =>
      let '(x, c) := initial_solution_proposal p calls r us vs ks in
      let '(xs, c') := proposals p c l' in (x :: xs, c')
  end.
