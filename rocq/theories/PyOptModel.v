(** Model of the options of an observer given as a Python dictionary: build/python/src/cocoex/interface.pyx 88-94
    _bstring, 457-473 Observer.__cinit__, and build/python/src/cocoex/utilities.py 208-246 ObserverOptions. *)
From Coq Require Import List Arith NArith ZArith Ascii String Bool.
From Verif Require Import CBase StrModel OptModel IdModel FsModel DblModel LogsModel ObsModel.
Import ListNotations.
Local Open Scope nat_scope.

(** Python strings: lists of code points below 256; others are not modelled. *)

(** *** repr of a str (CPython, unicode_repr): the quotation mark is the single one unless the string has a single one and
    no double one; the quotation mark and the backslash are escaped, characters that cannot be printed are written as
    codes. *)
Definition SQ : ascii := "'"%char.
Definition DQ : ascii := """"%char.
Definition BS : ascii := "\"%char.
Definition hex_char (n : nat) : ascii := nth n (str "0123456789abcdef") "0"%char.
Definition printable (c : ascii) : bool :=
  ((32 <=? code c) && (code c <? 127)) || ((161 <=? code c) && negb (code c =? 173)).
Definition has (c : ascii) (s : cstr) : bool := existsb (Ascii.eqb c) s.
Definition quotation (s : cstr) : ascii := if has SQ s && negb (has DQ s) then DQ else SQ.
Definition escape (q c : ascii) : cstr :=
  if Ascii.eqb c q || Ascii.eqb c BS then [BS; c]
  else if code c =? 9 then [BS; "t"%char]
  else if code c =? 10 then [BS; "n"%char]
  else if code c =? 13 then [BS; "r"%char]
  else if printable c then [c]
  else [BS; "x"%char; hex_char (code c / 16); hex_char (code c mod 16)].
Definition repr_str (s : cstr) : cstr := let q := quotation s in q :: flat_map (escape q) s ++ [q].

(** *** Values of a dictionary: strings, integers, and anything else, given by its repr. *)
Inductive pyvalue := VStr (s : cstr) | VInt (z : Z) | VOther (text : cstr).
Definition repr_int (z : Z) : cstr :=
  let n := Z.to_N (Z.abs z) in (if (z <? 0)%Z then ["-"%char] else []) ++ decimal (S (N.size_nat n)) n.
Definition repr_value (v : pyvalue) : cstr :=
  match v with VStr s => repr_str s | VInt z => repr_int z | VOther t => t end.

(** *** str of a dictionary; the keys are strings.  A dictionary is the list of its items in the order of insertion. *)
Definition pydict := list (cstr * pyvalue).
Fixpoint items (d : pydict) : cstr :=
  match d with
  | [] => []
  | (k, v) :: d' =>
      repr_str k ++ str ": " ++ repr_value v ++ match d' with [] => [] | _ :: _ => str ", " ++ items d' end
  end.
Definition str_dict (d : pydict) : cstr := "{"%char :: items d ++ ["}"%char].

(** *** str.replace(old, new) with a non-empty old: from left to right, not overlapping; [skip] characters are still part
    of the last occurrence. *)
Fixpoint replace_from (old new : cstr) (skip : nat) (s : cstr) : cstr :=
  match s with
  | [] => []
  | c :: s' =>
      match skip with
      | S k => replace_from old new k s'
      | O => if is_prefix old s then new ++ replace_from old new (List.length old - 1) s'
             else c :: replace_from old new 0 s'
      end
  end.
Definition replace (s old new : cstr) : cstr := replace_from old new 0 s.
Definition remove_all (l : list cstr) (s : cstr) : cstr := fold_left (fun s c => replace s c []) l s.

(** interface.pyx 465-469 *)
Definition observer_text (d : pydict) : cstr :=
  remove_all [["u"%char; SQ]; ["u"%char; DQ]; [SQ]; [DQ]; ["{"%char]; ["}"%char]] (replace (str_dict d) (str ",") (str " ")).
(** utilities.py 238-246 *)
Definition as_string (d : pydict) : cstr :=
  remove_all [["u"%char; SQ]; [SQ]; ["{"%char]; ["}"%char]] (replace (str_dict d) (str ",") (str " ")).

(** interface.pyx 88-94: encoding as ASCII; [None] for UnicodeEncodeError *)
Definition bstring (s : cstr) : option cstr := if existsb high_char s then None else Some s.

(** interface.pyx 464-472: [None] for UnicodeEncodeError.  That a NUL ends the C string is not modelled. *)
Definition py_observer K keq (resolve : cstr -> K) others refuses opens strtod (name : cstr) (options : pydict + cstr) (w : world K)
    : option (res (option observer * list message * world K)) :=
  match bstring name, bstring (match options with inl d => observer_text d | inr s => s end) with
  | Some n, Some o => Some (coco_observer K keq resolve others refuses opens strtod (Some n) o w)
  | _, _ => None
  end.

(** *** dict methods: d[k] = v, k in d, and utilities.py 226-237 update and update_gracefully with a dictionary *)
Fixpoint dict_get (d : pydict) (k : cstr) : option pyvalue :=
  match d with [] => None | (k', v) :: d' => if streq k' k then Some v else dict_get d' k end.
Fixpoint dict_set (d : pydict) (k : cstr) (v : pyvalue) : pydict :=
  match d with
  | [] => [(k, v)]
  | (k', v') :: d' => if streq k' k then (k', v) :: d' else (k', v') :: dict_set d' k v
  end.
Definition update (d options : pydict) : pydict := fold_left (fun d e => dict_set d (fst e) (snd e)) options d.
Definition update_gracefully (d options : pydict) : pydict :=
  fold_left (fun d e => match dict_get d (fst e) with None => dict_set d (fst e) (snd e) | Some _ => d end) options d.
