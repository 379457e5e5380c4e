(** What the bi-objective logger should write, as functions of the history of evaluations. *)
From Coq Require Import List Arith ZArith Bool Reals Sorted Permutation.
Import ListNotations.
From Verif Require Import CBase BiobjModel.
From Verif Require Export FrontSpec.

(** An evaluation: its number, the rounded quotients of the objective values, the printed data and
    whether the constraints are satisfied. *)
Record evaluation := { number : nat; quotients : Z * Z; printed : cstr; satisfied : bool }.

Notation entry := ((Z * Z) * (nat * cstr))%type.
Definition entry_at (v : evaluation) : entry := (normalised (quotients v), (number v, printed v)).
Definition entries (h : list evaluation) : list entry := map entry_at (filter satisfied h).

(** The evaluations of a sequence of events after n evaluations. *)
Fixpoint history (n : nat) (evs : list event) : list evaluation :=
  match evs with
  | [] => []
  | Evaluate k d f :: evs' => {| number := S n; quotients := k; printed := d; satisfied := f |} :: history (S n) evs'
  | Feed e k :: evs' => {| number := e; quotients := k; printed := []; satisfied := true |} :: history e evs'
  | _ :: evs' => history n evs'
  end.
Definition last_number (n : nat) (h : list evaluation) : nat := fold_left (fun _ v => number v) h n.

(** Proper use: solutions are fed, with increasing evaluation numbers, to a logger that reads, and are
    evaluated otherwise; nothing is recommended after the observer has been freed. *)
Fixpoint proper_use (m : mode) (n : nat) (obs : bool) (evs : list event) : Prop :=
  match evs with
  | [] => True
  | Evaluate _ _ _ :: evs' => m <> NondomRead /\ proper_use m (S n) obs evs'
  | Feed e _ :: evs' => m = NondomRead /\ (n < e)%nat /\ proper_use m e obs evs'
  | Recommend _ :: evs' => obs = true /\ proper_use m n obs evs'
  | Restart :: evs' => proper_use m n obs evs'
  | FreeObserver :: evs' => proper_use m n false evs'
  end.

(** Distances to the unit square. *)
Definition coordinate (v : Z) : R := (IZR v / IZR unit)%R.
Definition dist2 (p q : R * R) : R := sqrt ((fst p - fst q) ^ 2 + (snd p - snd q) ^ 2).
Definition in_square (q : R * R) : Prop := (0 <= fst q <= 1 /\ 0 <= snd q <= 1)%R.
Definition is_distance (p : Z * Z) (d : R) : Prop :=
  (exists q, in_square q /\ d = dist2 (coordinate (fst p), coordinate (snd p)) q) /\
  (forall q, in_square q -> (d <= dist2 (coordinate (fst p), coordinate (snd p)) q)%R).
Definition dist_to_square (p : Z * Z) : R :=
  sqrt (Rmax 0 (coordinate (fst p) - 1) ^ 2 + Rmax 0 (coordinate (snd p) - 1) ^ 2).

Fixpoint nearest (l : list entry) : R :=
  match l with
  | [] => 0
  | [e] => dist_to_square (fst e)
  | e :: l' => Rmin (dist_to_square (fst e)) (nearest l')
  end.

(** The indicator value of a history. *)
Definition no_solution_value : R := IZR (3 * 10 ^ 21).
Definition value (best : R) (h : list evaluation) : R :=
  match entries h with
  | [] => no_solution_value
  | _ => (best - IZR (area unit (map fst (entries h))) / (IZR unit * IZR unit) + nearest (entries h))%R
  end.

(** For every evaluation of a history (after an earlier part), something that depends on the part
    before and on the evaluation. *)
Fixpoint along {B} (f : list evaluation -> evaluation -> list B) (before h : list evaluation) : list B :=
  match h with
  | [] => []
  | v :: h' => f before v ++ along f (before ++ [v]) h'
  end.

(** Is the evaluation a new non-dominated solution? *)
Definition is_new (before : list evaluation) (v : evaluation) : bool :=
  satisfied v && accepted (entries before) (entry_at v).

(** The evaluations with which the targets are compared: new solutions, and the very first evaluation. *)
Definition improvements (best : R) (h : list evaluation) : list line :=
  along (fun before v => if is_new before v || (Nat.eqb (number v) 1 && negb (satisfied v))
                         then [(number v, value best (before ++ [v]))] else []) [] h.

(** The evaluation numbers with their values; a reading logger also counts the numbers in between, at the
    value before (0 before anything was fed). *)
Definition with_values (best : R) (m : mode) (h : list evaluation) : list line :=
  along (fun before v =>
    (match m with
     | NondomRead =>
       let n := last_number 0 before in
       map (fun j => (j, match before with [] => 0%R | _ => value best before end)) (seq (S n) (number v - 1 - n))
     | _ => []
     end) ++ [(number v, value best (before ++ [v]))]) [] h.

(** The lines at which a trigger fires. *)
Fixpoint fired {S : Type} (trigger : S -> line -> bool * S) (s : S) (l : list line) : list line :=
  match l with
  | [] => []
  | x :: l' => let (b, s') := trigger s x in (if b then [x] else []) ++ fired trigger s' l'
  end.

(** The first evaluation after a restart. *)
Fixpoint restarts (best : R) (n : nat) (pending : bool) (before : list evaluation) (evs : list event) : list line :=
  match evs with
  | [] => []
  | Restart :: evs' => restarts best n (pending || negb (Nat.eqb n 0)) before evs'
  | ev :: evs' =>
    match history n [ev] with
    | [v] => (if pending then [(number v, value best (before ++ [v]))] else []) ++
             restarts best (number v) false (before ++ [v]) evs'
    | _ => restarts best n pending before evs'
    end
  end.

(** The archive file. *)
Definition archive_lines (m : mode) (h : list evaluation) : list (nat * cstr) :=
  match m with
  | NondomAll => along (fun before v => if is_new before v then [(number v, printed v)] else []) [] h
  | NondomFinal => map snd (kept (entries h))
  | _ => []
  end.

(** The positions of the feasible evaluations. *)
Fixpoint feasible_positions (i : nat) (h : list evaluation) : list nat :=
  match h with
  | [] => []
  | v :: h' => (if satisfied v then [i] else []) ++ feasible_positions (S i) h'
  end.

(** A file is completed with a line for the last evaluation, unless it has one. *)
Definition with_final (n : nat) (v : R) (l : list line) : list line :=
  if existsb (fun x => Nat.eqb (fst x) n) l then l else l ++ [(n, v)].
Definition final_value (best : R) (h : list evaluation) : R := match h with [] => 0%R | _ => value best h end.

(** Increasing evaluation numbers. *)
Fixpoint increasing (l : list (nat * cstr)) : Prop :=
  match l with
  | a :: (b :: _) as l' => (fst a < fst b)%nat /\ increasing l'
  | _ => True
  end.
