(** Specification of the files of the bbob logger. *)
From Coq Require Import List Arith NArith ZArith Reals Bool Sorted.
From Flocq Require Import Core BinarySingleNaN.
Import ListNotations.
From Verif Require Import CBase DblModel DblSpec TrigModel TrigSpec ProbModel ProbSpec BbobModel.
Open Scope nat_scope.

(** The problem under the logger computes f and the constraints g: every evaluation of a regular
    vector gives f, as the noise-free value if there is one and as the first objective otherwise. *)
Definition computes (C : class) (n : nat) (I : data C -> Prop) (f : list double -> double)
    (g : list double -> list double) : Prop :=
  constraints_are C n I g /\
  (forall h d x y d', I d -> number_of_variables h = n -> length x = n -> regular x ->
     evaluate_function C h d x = Ok (y, d') ->
     match last_noise_free C d' with None => nth_error y 0 | Some vs => nth_error vs 0 end = Some (f x)) /\
  (forall e, evaluate_constraint C = Some e -> forall h d x u vs d', e h d x u = Ok (vs, d') ->
     last_noise_free C d' = last_noise_free C d).

(** ** Values *)

(** NaN is replaced by 2e21 and infinities by 3e21. *)
Definition logged (v : double) : double :=
  match v with
  | B754_nan => dint (2 * 10 ^ 21)
  | B754_infinity _ => dint (3 * 10 ^ 21)
  | _ => v
  end.

(** Sum of the positive constraint values (from left to right, in binary64). *)
Definition violation (gs : list double) : double :=
  logged (fold_left dadd (filter (fun v => dlt dzero v) gs) dzero).

(** The performance value (f - fopt)^+ + sum of positive constraint values, before fopt is subtracted.
    Without a known optimum infeasible solutions get 1e10. *)
Definition merit (known : bool) (opt y : double) (gs : list double) : double :=
  let v := violation gs in
  dadd (if known then (if dlt (logged y) opt then opt else logged y)
        else if dlt dzero v then dint (10 ^ 10) else logged y) v.

(** ** Histories *)

Definition calls_of (acts : list action) : list call :=
  flat_map (fun a => match a with Call c => [c] | Restart => [] end) acts.

(** The k-th counted evaluation (k = 1, 2, ...) is at x, after the actions [before]. *)
Definition evaluation_at (acts : list action) (k : nat) (before : list action) (x : list double) : Prop :=
  exists after, acts = before ++ Call (Evaluate x) :: after /\ regular x /\
    S (counted_evaluations (calls_of before)) = k.

(** A restart was signalled between the counted evaluations k - 1 and k. *)
Definition restart_before (acts : list action) (k : nat) : Prop :=
  exists a b x c, acts = a ++ Restart :: b ++ Call (Evaluate x) :: c /\ regular x /\
    (0 < counted_evaluations (calls_of a))%nat /\ counted_evaluations (calls_of b) = 0%nat /\
    S (counted_evaluations (calls_of a)) = k.

(** The decision vectors of the counted evaluations. *)
Definition evaluated (acts : list action) : list (list double) :=
  flat_map (fun c => match c with Evaluate x => if regularb x then [x] else [] | _ => [] end) (calls_of acts).

(** (b, v) is the first vector among xs with the smallest value m. *)
Definition first_best (m : list double -> double) (xs : list (list double)) (b : list double) (v : double) : Prop :=
  exists i, nth_error xs i = Some b /\ v = m b /\
    (forall x, In x xs -> ~ below (m x) v) /\
    (forall j x, (j < i)%nat -> nth_error xs j = Some x -> below v (m x)).

(** Evaluation k is better than all earlier ones. *)
Definition improves (m : list double -> double) (xs : list (list double)) (k : nat) : Prop :=
  exists x, (0 < k)%nat /\ nth_error xs (k - 1) = Some x /\
    forall j x', (j < k - 1)%nat -> nth_error xs j = Some x' -> below (m x) (m x').

(** ** Lines *)

(** How coordinate i is printed: the first nint ones as integers if [as_int]. *)
Definition prints (nint : nat) (as_int : bool) (i : nat) (v : double) (p : Z + double) : Prop :=
  match p with
  | inl z => (i < nint)%nat /\ as_int = true /\ coco_double_to_int v = Ok z
  | inr w => ~ ((i < nint)%nat /\ as_int = true) /\ w = v
  end.
Definition prints_all (nint : nat) (as_int : bool) (x : list double) (ps : list (Z + double)) : Prop :=
  if (length x <? 22)%nat
  then length ps = length x /\
       forall i v p, nth_error x i = Some v -> nth_error ps i = Some p -> prints nint as_int i v p
  else ps = [].

(** The elements of ks whose answer is "yes". *)
Definition pick (ks : list nat) (bs : list bool) : list nat := map fst (filter snd (combine ks bs)).

Definition increasing (ks : list nat) : Prop := StronglySorted lt ks.

(** vs are the numbers of function and constraint evaluations together, at each counted evaluation. *)
Definition totals_are (acts : list action) (vs : list N) : Prop :=
  length vs = length (evaluated acts) /\
  forall k before x v, evaluation_at acts k before x -> nth_error vs (k - 1) = Some v ->
    v = N.of_nat (k + counted_constraints (calls_of before)).

(** vs are the differences to the optimum at the evaluations ks. *)
Definition gaps_are (m : list double -> double) (opt : double) (xs : list (list double)) (ks : list nat)
    (vs : list double) : Prop :=
  Forall2 (fun k v => exists x, nth_error xs (k - 1) = Some x /\ v = dsub (m x) opt) ks vs.

(** The line for the k-th evaluation: numbers of evaluations and of constraint evaluations, difference
    of the best performance value so far to the optimum, value at x_k, digits of the constraints at x_k or
    the best value, x_k. *)
Definition evaluation_line (nint : nat) (as_int : bool) (nc : nat) (opt : double) (f : list double -> double)
    (g : list double -> list double) (m : list double -> double) (acts : list action) (k : nat) (l : line) : Prop :=
  exists before x b v, evaluation_at acts k before x /\ first_best m (firstn k (evaluated acts)) b v /\
    f_evaluations l = N.of_nat k /\
    g_evaluations l = N.of_nat (counted_constraints (calls_of before)) /\
    gap l = dsub v opt /\
    measured l = logged (f x) /\
    fifth l = (if (nc =? 0)%nat then inr v
               else inl (map logger_bbob_single_digit_constraint (firstn nc (g x)))) /\
    prints_all nint as_int x (coordinates l).

(** The line added at the end of an experiment with n evaluations: the best solution. *)
Definition closing_line (nint : nat) (as_int : bool) (opt : double) (m : list double -> double)
    (acts : list action) (l : line) : Prop :=
  exists before x b v, evaluation_at acts (length (evaluated acts)) before x /\
    first_best m (evaluated acts) b v /\
    f_evaluations l = N.of_nat (length (evaluated acts)) /\
    g_evaluations l = N.of_nat (counted_constraints (calls_of before)) /\
    gap l = dsub v opt /\ measured l = v /\ fifth l = inr v /\ prints_all nint as_int b (coordinates l).

(** A data file after an experiment with [total] evaluations: the lines of the evaluations ks and, unless the
    last evaluation is one of them, a closing line. *)
Definition file_is (line_of : nat -> line -> Prop) (closing : line -> Prop) (total : nat) (ks : list nat)
    (file : list line) : Prop :=
  exists ls, Forall2 line_of ks ls /\
    ((In total ks /\ file = ls) \/ (~ In total ks /\ exists c, closing c /\ file = ls ++ [c])).

(** Later lines have larger evaluation numbers and no larger difference. *)
Definition progresses (file : list line) : Prop :=
  StronglySorted (fun l l' => (f_evaluations l < f_evaluations l')%N /\ num (gap l) /\ num (gap l') /\
                              (val (gap l') <= val (gap l))%R) file.

(** Evaluation k has a smaller key than every earlier improving evaluation except the first one, and one
    below the limit; the key is that of the difference to the optimum. *)
Definition new_at (m : list double -> double) (opt : double) (xs : list (list double)) (key : double -> R) (limit : R)
    (k : nat) : Prop :=
  exists x, nth_error xs (k - 1) = Some x /\ (key (dsub (m x) opt) < limit)%R /\
    forall j x', 2 <= j < k -> improves m xs j -> nth_error xs (j - 1) = Some x' ->
      (key (dsub (m x) opt) < key (dsub (m x') opt))%R.

(** Logarithmic targets: levels for n targets per decade with precision p (see C23). *)
Definition log_levels (n : N) (p : double) (level : double -> Z) : Prop :=
  (forall v w, fin v -> fin w -> (val v <= val w)%R -> (level v <= level w)%Z) /\
  (forall v, fin v -> (val p <= val v)%R -> at_level n (val v) (level v)) /\
  (forall v, fin v -> (0 < val v <= val p)%R -> level v = level p) /\
  (forall v w, fin v -> fin w -> val v = 0%R -> (0 < val w)%R -> (level v < level w)%Z) /\
  (forall v w, fin v -> fin w -> (val v < 0)%R -> val w = 0%R -> (level v < level w)%Z).

(** Linear targets: rounding up to multiples of p (see C24). *)
Definition rounds_up (p : double) (up : double -> double) : Prop :=
  (forall x, num x -> num (up x)) /\
  (forall x y, num x -> num y -> (val x <= val y)%R -> (val (up x) <= val (up y))%R) /\
  (forall x, fin x -> (Rabs (val x) + val p <= bpow radix2 900)%R -> fin (up x)) /\
  (forall x, fin x -> fin (up x) ->
     (exists k, val (up x) = rnd (IZR k * val p)) /\
     (val x - val (ddec 1 12) - bpow radix2 (-51) * (Rabs (val x) + val p) <= val (up x)
       <= val x + val p + bpow radix2 (-51) * (Rabs (val x) + val p))%R).

(** A problem that can be observed: it computes f and g, its best value is opt, and no constraint evaluation
    has been counted yet. *)
Definition observable {C : class} (I : data C -> Prop) (f : list double -> double) (g : list double -> list double)
    (opt : double) (p : problem C) : Prop :=
  computes C (number_of_variables (head p)) I f g /\ I (body p) /\
  (exists rest, best_value (head p) = Some (opt :: rest)) /\ fin opt /\ evaluations_constraints (head p) = 0%N.

(** The performance value of a vector on p. *)
Definition performance {C : class} (p : problem C) (f : list double -> double) (g : list double -> list double)
    (opt : double) (x : list double) : double :=
  merit (is_opt_known (head p)) opt (f x) (firstn (number_of_constraints (head p)) (g x)).

(** The lines for p. *)
Definition line_at {C : class} (o : observer_options) (p : problem C) f g opt (acts : list action) : nat -> line -> Prop :=
  evaluation_line (number_of_integer_variables (head p)) (discrete_as_int o) (number_of_constraints (head p)) opt f g
    (performance p f g opt) acts.
Definition line_end {C : class} (o : observer_options) (p : problem C) f g opt (acts : list action) : line -> Prop :=
  closing_line (number_of_integer_variables (head p)) (discrete_as_int o) opt (performance p f g opt) acts.

(** Parts of a history: without recommendations; without recommendations and restarts. *)
Definition without_recommendations (acts : list action) : list action :=
  filter (fun a => match a with Call (Recommend _) => false | _ => true end) acts.
Definition evaluations_only (acts : list action) : list action :=
  filter (fun a => match a with Call (Recommend _) => false | Restart => false | _ => true end) acts.
