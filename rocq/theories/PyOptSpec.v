(** What becomes of the items of a dictionary of observer options. *)
From Coq Require Import List Arith NArith ZArith Ascii String Bool.
From Verif Require Import CBase StrSpec OptModel OptSpec ObsSpec PyOptModel.
Import ListNotations.
Local Open Scope nat_scope.

(** Printable ASCII without single quotation mark and backslash. *)
Definition quiet (s : cstr) : Prop :=
  Forall (fun c => 32 <= code c < 127 /\ c <> "'"%char /\ c <> "\"%char) s.
Definition no_double (s : cstr) : Prop := ~ In """"%char s.
Definition strings_of (v : pyvalue) : list cstr := match v with VStr s => [s] | VInt _ => [] | VOther t => [t] end.
(** All keys and values are such strings. *)
Definition all_strings (P : cstr -> Prop) (d : pydict) : Prop :=
  Forall (fun e => P (fst e) /\ Forall P (strings_of (snd e))) d.

(** What is left of a string: a last "u" is lost, a comma becomes a space, braces are lost. *)
Definition without_last_u (s : cstr) : cstr :=
  match rev s with "u"%char :: r => rev r | _ => s end.
Definition cleaned (s : cstr) : cstr :=
  filter (fun c => negb (Ascii.eqb c "{" || Ascii.eqb c "}"))
    (map (fun c => if Ascii.eqb c "," then " "%char else c) s).
Definition left_of (v : pyvalue) : cstr :=
  match v with VStr s => cleaned (without_last_u s) | VInt z => repr_int z | VOther t => cleaned t end.
(** The entries of the C option string. *)
Fixpoint entries (d : pydict) : list (cstr * cstr) :=
  match d with
  | [] => []
  | (k, v) :: d' =>
      (cleaned (without_last_u k), str " " ++ left_of v ++ match d' with [] => [] | _ :: _ => str "  " end) :: entries d'
  end.

(** A word that arrives as it is: printable ASCII without space, comma, quotation marks, backslash, braces; the last
    letter is not "u". *)
Definition plain_char (c : ascii) : Prop :=
  33 <= code c < 127 /\ ~ In c (str ",'\{}") /\ c <> """"%char.
Definition plain_word (s : cstr) : Prop :=
  s <> [] /\ Forall plain_char s /\ forall r, s <> r ++ ["u"%char].
(** A dictionary with distinct keys, with words and integers as values, in which the keys of the observers do not occur
    inside of words or of other keys. *)
Definition plain_dict (d : pydict) : Prop :=
  NoDup (map fst d) /\ small (observer_text d) /\
  Forall (fun e => plain_word (fst e) /\ ~ In ":"%char (fst e) /\
    (forall k, In k all_keys -> fst e = k \/ absent (fst e) k) /\
    match snd e with
    | VStr s => plain_word s /\ forall k, In k all_keys -> absent s k
    | VInt _ => True
    | VOther _ => False
    end) d.
