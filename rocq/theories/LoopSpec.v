(** What is expected of an experiment. *)
From Coq Require Import String List Arith Ascii Bool.
Import ListNotations.
From Verif Require Import CBase HeapModel LoopModel.
Local Notation length := List.length.

(** Names short enough for the name of the observed problem; bi-objective observers need two objectives *)
Definition fits (n : cstr) (k : kind) (nm : cstr * nat) : Prop := length n + length (fst nm) + 2 <= 441 /\ (k = KBiobj -> snd nm = 2).
Definition all_fit (o : option (cstr * kind)) (l : list work) : Prop :=
  match o with None => True | Some (n, k) => Forall (fun x => fits n k (fst x)) l end.
(** The objects that exist *)
Definition live (h : heap) : nat := length (filter (fun c => match c with Some _ => true | None => false end) h).
Definition nothing_left (h : heap) : Prop := Forall (fun c => c = None) h.
