(** Specification of the files of the toy and the real-world logger. *)
From Coq Require Import List Arith NArith ZArith Reals Bool.
From Flocq Require Import Core BinarySingleNaN.
Import ListNotations.
From Verif Require Import CBase DblModel DblSpec TrigModel TrigSpec ProbModel ProbSpec BbobModel BbobSpec LogsModel.
Open Scope nat_scope.

(** The counted evaluations of a session in order: decision vector, values returned to the user, and the number of
    counted constraint evaluations before (c at the start). *)
Definition entry : Type := (list double * list double * N)%type.
Fixpoint entries (c : N) (cs : list call) (ys : list (list double)) : list entry :=
  match cs, ys with
  | Evaluate x :: cs', y :: ys' => if regularb x then (x, y, c) :: entries c cs' ys' else entries c cs' ys'
  | Constrain x :: cs', _ :: ys' => entries (if regularb x then c + 1 else c)%N cs' ys'
  | Recommend _ :: cs', _ :: ys' => entries c cs' ys'
  | _, _ => []
  end.
Definition first_value (e : entry) : double := hd dnan (snd (fst e)).

(** A log of the records rs: the records that meet P, given the records before, each with the line L that carries
    its number (1, 2, ...). *)
Definition chosen {A : Type} (rs : list A) (bs : list bool) : list (nat * A) :=
  map fst (filter snd (combine (combine (seq 1 (length rs)) rs) bs)).
Definition logs {A B : Type} (P : list A -> A -> Prop) (L : nat -> A -> B -> Prop) (rs : list A) (lines : list B) : Prop :=
  exists bs, length bs = length rs /\
    (forall i r b, nth_error rs i = Some r -> nth_error bs i = Some b -> (b = true <-> P (firstn i rs) r)) /\
    Forall2 (fun kr l => L (fst kr) (snd kr) l) (chosen rs bs) lines.

(** ** Toy logger *)

(** The target that the value v of the given level has hit: 10^(level/n), 0, or for a negative value -10^(k/n) where k
    counts the levels in the other direction. *)
Definition hit (pow10 : double -> double) (n : N) (level : double -> Z) (v : double) : double :=
  let power k := pow10 (ddiv (dint k) (dint (Z.of_N n))) in
  if dle dzero v then if deq v dzero then dzero else power (level v)
  else dopp (power (2 * level dzero - level v - 1)%Z).
(** The depth k of a negative value: the largest 10^(k/n) its distance to zero has reached. *)
Definition depths (n : N) (p : double) (level : double -> Z) : Prop :=
  forall v, fin v -> (val v <= - val p)%R -> at_depth n (- val v) (2 * level dzero - level v - 1).

(** A value is logged if its level is below those of all values before. *)
Definition toy_logged (level : double -> Z) (before : list entry) (e : entry) : Prop :=
  forall e', In e' before -> (level (first_value e) < level (first_value e'))%Z.
Definition toy_line_is (target : double -> double) (k : nat) (e : entry) (l : toy_line) : Prop :=
  t_evaluation l = N.of_nat k /\ t_value l = first_value e /\ t_target l = target (first_value e) /\
  t_variables l = fst (fst e).

(** ** Real-world logger *)

(** Whether a kind of information is written for a problem with n variables or constraints. *)
Definition shown (m : log_mode) (limit : N) (n : nat) : bool :=
  match m with
  | LOG_NEVER => false
  | LOG_LOW_DIM => (N.of_nat n <=? limit)%N
  | LOG_ALWAYS => true
  end.

(** Every solution is logged, or (only for one objective) the first one and those with a value below that of all
    solutions before (a NaN counts as worse than everything; the largest double and infinity are not better than
    nothing). *)
Definition rw_logged (only_better : bool) (objectives : nat) (before : list entry) (e : entry) : Prop :=
  only_better = true -> objectives = 1 -> before <> [] ->
    below (first_value e) DBL_MAX /\
    forall e', In e' before -> num (first_value e') -> below (first_value e) (first_value e').

Definition rw_line_is (o : observer_rw_data) (as_int : bool) (h : header) (g : list double -> list double)
    (k : nat) (e : entry) (l : rw_line) : Prop :=
  let '(x, y, c) := e in
  r_function l = N.of_nat k /\ r_constraint l = c /\ r_objectives l = firstn (number_of_objectives h) y /\
  number_of_objectives h <= length y /\
  (if shown (log_vars_mode o) (low_dim_vars o) (number_of_variables h)
   then length (r_variables l) = length x /\
        forall i v p, nth_error x i = Some v -> nth_error (r_variables l) i = Some p ->
          prints (number_of_integer_variables h) as_int i v p
   else r_variables l = []) /\
  r_constraints l = (if shown (log_cons_mode o) (low_dim_cons o) (number_of_constraints h)
                     then firstn (number_of_constraints h) (g x) else []) /\
  r_timed l = negb (observer_log_time o =? 0)%Z.
