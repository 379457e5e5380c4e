(** The texts that ascetime should give. *)
From Coq Require Import String List NArith ZArith Ascii.
From Verif Require Import CBase IdSpec.
Import ListNotations.

(** A time of hours, minutes and seconds as text *)
Definition clock_text (h m s : Z) (t : cstr) : Prop := exists th tm ts,
  numeral 0 (Z.to_N h) th /\ numeral 2 (Z.to_N m) tm /\ numeral 2 (Z.to_N s) ts /\ t = th ++ "h"%char :: tm ++ ":"%char :: ts.
