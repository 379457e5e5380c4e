(** What the arguments of a script stand for. *)
From Coq Require Import List Arith NArith ZArith Ascii String Bool.
From Verif Require Import CBase PyArgModel.
Import ListNotations.
Local Open Scope nat_scope.

(** An argument "name=value" with exactly one equals sign. *)
Definition assigns (arg name value : cstr) : Prop :=
  arg = name ++ "="%char :: value /\ ~ In "="%char name /\ ~ In "="%char value.

(** An abbreviation: the beginning of exactly one of the known names. *)
Definition begins (name k : cstr) : Prop := exists rest, k = name ++ rest.
Definition abbreviates (known : list cstr) (name k : cstr) : Prop :=
  exists before after, known = before ++ k :: after /\ begins name k /\
    Forall (fun o => ~ begins name o) before /\ Forall (fun o => ~ begins name o) after.
(** The name that an argument is about; without known names every name stands for itself. *)
Definition names (known : option (list cstr)) (name k : cstr) : Prop :=
  match known with None => k = name | Some l => abbreviates l name k end.
(** An argument that sets k. *)
Definition sets (known : option (list cstr)) (arg k value : cstr) : Prop :=
  exists name, assigns arg name value /\ names known name k.
(** The first of the arguments that sets k. *)
Definition first_sets (known : option (list cstr)) (args : list cstr) (k value : cstr) : Prop :=
  exists before arg after, args = before ++ arg :: after /\ sets known arg k value /\
    forall a w, In a before -> ~ sets known a k w.

(** A text of pieces between separators. *)
Fixpoint joined_by (sep : ascii) (l : list cstr) : cstr :=
  match l with
  | [] => []
  | [p] => p
  | p :: l' => p ++ sep :: joined_by sep l'
  end.
Definition without (sep : ascii) (l : list cstr) : Prop := l <> [] /\ Forall (fun p => ~ In sep p) l.
