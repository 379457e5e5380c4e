(** What an archive of solutions is, stated on the history of added solutions. *)
From Coq Require Import List Arith ZArith Bool Lia Sorted.
Import ListNotations.
From Verif Require Import CBase ArchModel.
From Verif Require Export FrontSpec.
Open Scope Z_scope.

(** A solution: normalised objective vector and text. *)
Notation entry := ((Z * Z) * cstr)%type.

(** The order in which solutions are read back: the two extreme ones, then those between. *)
Definition between (e : entry) : bool := negb (fst (fst e) =? 0) && negb (snd (fst e) =? 0).
Definition reading (t1 t2 : cstr) (h : list entry) : list cstr := [t1; t2] ++ map snd (filter between (front h)).

Definition extremes (t1 t2 : cstr) : list entry := [((unit, 0), t1); ((0, unit), t2)].

(** The expected results: [h] is the history (starting with the two extreme solutions), [pos] the
    number of texts read since the last accepted solution. *)
Fixpoint expected (t1 t2 : cstr) (h : list entry) (pos : nat) (us : list use) : list seen :=
  match us with
  | [] => []
  | Add k txt :: us' =>
    let e := (normalised k, txt) in
    if accepted h e then Added 1 :: expected t1 t2 (h ++ [e]) 0 us'
    else Added 0 :: expected t1 t2 (h ++ [e]) pos us'
  | Next :: us' =>
    Text (Some (nth pos (reading t1 t2 h) [])) :: expected t1 t2 h (S pos) us'
  | Count :: us' => Number (length (front h)) :: expected t1 t2 h pos us'
  | Hyper :: us' => Volume (area unit (map fst h)) :: expected t1 t2 h pos us'
  end.

(** The solutions added by some uses. *)
Fixpoint added (us : list use) : list entry :=
  match us with
  | [] => []
  | Add k txt :: us' => (normalised k, txt) :: added us'
  | _ :: us' => added us'
  end.
