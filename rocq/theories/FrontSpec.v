(** Sets of mutually non-dominated solutions, stated on the history of solutions. *)
From Coq Require Import List Arith ZArith Bool Lia.
Import ListNotations.
Open Scope Z_scope.

(** Normalised objective vectors are counted in units of 5e-14; the nadir point is (unit, unit),
    the rounding interval is 10 units. *)
Definition unit : Z := 20000000000000.

(** Weak dominance and dominance of minimisation. *)
Definition weakly (p q : Z * Z) : bool := (fst p <=? fst q) && (snd p <=? snd q).
Definition dominates (p q : Z * Z) : bool := weakly p q && negb (weakly q p).

(** The normalised vector of a solution whose rounded quotients are k: values better than the ideal point
    are moved to it, and a solution reaching the ideal value in one objective gets at least the nadir
    value in the other. *)
Definition normalised (k : Z * Z) : Z * Z :=
  let a := Z.max 0 (10 * fst k) in
  let b := Z.max 0 (10 * snd k) in
  if a =? 0 then (0, Z.max unit b) else if b =? 0 then (Z.max unit a, 0) else (a, b).

(** Solutions: normalised objective vector and anything else. *)
Section Solutions.
Context {T : Type}.
Notation entry := ((Z * Z) * T)%type.

(** The solutions of a history that are not weakly dominated by an earlier and not dominated by a
    later one. *)
Fixpoint kept_after (earlier : list entry) (h : list entry) : list entry :=
  match h with
  | [] => []
  | e :: later =>
    (if existsb (fun f : entry => weakly (fst f) (fst e)) earlier || existsb (fun f : entry => dominates (fst f) (fst e)) later
     then [] else [e]) ++ kept_after (earlier ++ [e]) later
  end.
Definition kept (h : list entry) : list entry := kept_after [] h.

(** Sorting by the second objective. *)
Fixpoint insert_entry (e : entry) (l : list entry) : list entry :=
  match l with
  | [] => [e]
  | f :: l' => if snd (fst e) <? snd (fst f) then e :: l else f :: insert_entry e l'
  end.
Definition sort_entries (l : list entry) : list entry := fold_right insert_entry [] l.

Definition front (h : list entry) : list entry := sort_entries (kept h).

(** Is a new solution accepted? *)
Definition accepted (h : list entry) (e : entry) : bool := negb (existsb (fun f : entry => weakly (fst f) (fst e)) h).

End Solutions.

(** The area of the part of the square from 0 to n dominated by some point: the number of unit cells
    [u,u+1) x [v,v+1) all of whose points are weakly dominated. *)
Definition coords (n : Z) : list Z := map Z.of_nat (seq 0 (Z.to_nat n)).
Definition cells (n : Z) : list (Z * Z) := list_prod (coords n) (coords n).
Definition covered (pts : list (Z * Z)) (c : Z * Z) : bool := existsb (fun p => weakly p c) pts.
Definition area (n : Z) (pts : list (Z * Z)) : Z := Z.of_nat (length (filter (covered pts) (cells n))).
