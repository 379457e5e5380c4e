(** Specifications for the option strings. *)
From Coq Require Import List Arith NArith ZArith Ascii String Bool.
From Verif Require Import CBase StrSpec.
Import ListNotations.

(** The text after the first colon at or behind the first occurrence of the name. *)
Definition named_text (options name v : cstr) : Prop :=
  exists i c, first_occurrence options name i /\
    first_occurrence (skipn i options) [":"%char] c /\
    v = skipn (i + c + 1) options.

(** The name occurs, but no colon follows. *)
Definition named_no_colon (options name : cstr) : Prop :=
  exists i, first_occurrence options name i /\ ~ In ":"%char (skipn i options).

Definition absent (options name : cstr) : Prop := forall i, ~ occurs_at options name i.

(** A list of values: everything up to the next letter, white space left out. *)
Definition value_list (s t : cstr) : Prop :=
  exists u rest, s = u ++ rest /\ Forall (fun c => isalpha c = false) u /\
    (rest = [] \/ exists c r, rest = c :: r /\ isalpha c = true) /\
    t = filter (fun c => negb (isspace c)) u.

(** A single value: the word behind white space. *)
Definition first_word (s w : cstr) : Prop :=
  exists l rest, s = l ++ w ++ rest /\ blank l /\ w <> [] /\
    Forall (fun c => isspace c = false) w /\
    (rest = [] \/ exists c r, rest = c :: r /\ isspace c = true).

(** A value in quotation marks. *)
Definition quoted_text (s w : cstr) : Prop :=
  exists l rest, s = l ++ """"%char :: w ++ rest /\ blank l /\ w <> [] /\ ~ In """"%char w /\
    (rest = [] \/ exists r, rest = """"%char :: r).

(** Writing down options: key, colon, text; the text of an entry that is followed by another one
    ends with a space. *)
Fixpoint written (l : list (cstr * cstr)) : cstr :=
  match l with
  | [] => []
  | (k, v) :: l' => k ++ ":"%char :: v ++ written l'
  end.
Definition ends_with_space (v : cstr) : Prop := exists v', v = v' ++ [" "%char].
Fixpoint separated (l : list (cstr * cstr)) : Prop :=
  match l with
  | [] => True
  | (k, v) :: l' => (l' <> [] -> ends_with_space v) /\ separated l'
  end.

(** A key: a non-empty string without colon and white space. *)
Definition key_like (k : cstr) : Prop :=
  k <> [] /\ ~ In ":"%char k /\ Forall (fun c => isspace c = false) k.

(** Characters that are safe in key parsing: no quotation mark, no percent sign, plain ASCII. *)
Definition tame (s : cstr) : Prop :=
  Forall (fun c => c <> """"%char /\ c <> "%"%char /\ c <> NUL /\ high_char c = false) s.

(** Entries with proper keys and non-empty texts without colon. *)
Definition proper_entries (l : list (cstr * cstr)) : Prop :=
  l <> [] /\ separated l /\
  Forall (fun e => key_like (fst e) /\ tame (fst e) /\ tame (snd e) /\ ~ In ":"%char (snd e) /\
                   snd e <> []) l.

(** Keys as listed in a warning: a space, the key, a line feed. *)
Fixpoint listing (keys : list cstr) : cstr :=
  match keys with [] => [] | k :: ks => " "%char :: k ++ "010"%char :: listing ks end.
