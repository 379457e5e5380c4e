(** Specification of problem ids. *)
From Coq Require Import List Arith NArith Ascii String Bool.
From Verif Require Import CBase.
Import ListNotations.

(** The characters an id may have: letters, digits, '-' and '_'. *)
Definition letters : string := "abcdefghijklmnopqrstuvwxyzABCDEFGHIJKLMNOPQRSTUVWXYZ".
Definition digits : string := "0123456789".
Definition safe_char (c : ascii) : Prop := In c (str letters ++ str digits ++ ["-"; "_"]%char).
Definition safe (s : cstr) : Prop := Forall safe_char s.

(** The number a string of digits stands for. *)
Definition number (s : cstr) : N := fold_left (fun a c => (10 * a + (N_of_ascii c - 48))%N) s 0%N.

(** A numeral of at least w digits for n, without superfluous zeros. *)
Definition numeral (w : nat) (n : N) (s : cstr) : Prop :=
  number s = n /\ Forall (fun c => In c (str digits)) s /\ s <> [] /\ w <= List.length s /\
  (w < List.length s -> 1 < List.length s -> hd_error s <> Some "0"%char).

(** The text of an id: name, function, instance, dimension with the given minimal numbers of digits. *)
Definition id_text (name : cstr) (wf wi wd : nat) (f i d : N) (id : cstr) : Prop :=
  exists tf ti td, numeral wf f tf /\ numeral wi i ti /\ numeral wd d td /\
    id = name ++ str "_f" ++ tf ++ str "_i" ++ ti ++ str "_d" ++ td.

(** The suites: name and minimal numbers of digits. *)
Definition suite_table : list (string * (nat * nat * nat)) :=
  [("bbob", (3, 2, 2)); ("bbob-boxed", (3, 2, 2)); ("bbob_noisy", (0, 2, 2)); ("bbob", (3, 2, 4));
   ("bbob-mixint", (3, 2, 2)); ("bbob-biobj", (2, 2, 2)); ("bbob-biobj-mixint", (3, 2, 3));
   ("bbob-constrained", (3, 2, 2)); ("bbob-constrained-active-only", (3, 2, 2));
   ("bbob-constrained-no-disguise", (3, 2, 2))]%string.
