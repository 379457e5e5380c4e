(** Model of formatted strings (src/coco_string.c 37-84) and of problem ids (src/coco_problem.c 347-394),
    with the id templates of all suites. *)
From Coq Require Import List Arith NArith Ascii String Bool.
From Verif Require Import CBase OptModel.
Import ListNotations.

(** Arguments of a printf-like function. *)
Inductive arg := AStr (s : cstr) | ANum (n : N).

(** Decimal digits of an unsigned long: at most 20 (2^64 < 10^20). *)
Definition digit_char (n : N) : ascii := ascii_of_N (48 + n).
Fixpoint decimal (most : nat) (n : N) : cstr :=
  match most with
  | O => []
  | S m => if (n <? 10)%N then [digit_char n] else decimal m (n / 10)%N ++ [digit_char (n mod 10)%N]
  end.

(** "%0wlu" *)
Definition print_lu (w : nat) (n : N) : cstr :=
  let s := decimal 20 n in repeat "0"%char (w - List.length s) ++ s.

(** vsprintf for the conversions that occur in ids and names: %% %s %lu %0wlu.  A missing argument, an argument of the
    wrong type and every other conversion are undefined. *)
Fixpoint vsprintf (fmt : cstr) (args : list arg) : res cstr :=
  match fmt with
  | [] => Ok []
  | c :: f =>
    if negb (Ascii.eqb c PERCENT) then do r <- vsprintf f args; Ok (c :: r) else
    match f with
    | [] => UB
    | c1 :: f1 =>
      if Ascii.eqb c1 PERCENT then do r <- vsprintf f1 args; Ok (PERCENT :: r)
      else if Ascii.eqb c1 "s"%char then
        match args with
        | AStr s :: l => do r <- vsprintf f1 l; Ok (s ++ r)
        | _ => UB
        end
      else if Ascii.eqb c1 "l"%char then
        match f1, args with
        | c2 :: f2, ANum n :: l =>
          if Ascii.eqb c2 "u"%char then do r <- vsprintf f2 l; Ok (print_lu 0 n ++ r) else UB
        | _, _ => UB
        end
      else if Ascii.eqb c1 "0"%char then
        match f1, args with
        | w :: c2 :: c3 :: f3, ANum n :: l =>
          if isdigit w && Ascii.eqb c2 "l"%char && Ascii.eqb c3 "u"%char
          then do r <- vsprintf f3 l; Ok (print_lu (code w - 48) n ++ r) else UB
        | _, _ => UB
        end
      else UB
    end
  end.

(** src/coco_string.c 42-66 coco_vstrdupf: a format of 220 or more characters is an error (lines 56-58); the text is
    written into a buffer of 444 characters, more than 441 characters are an error, more than 443 do not fit. *)
Definition coco_vstrdupf (fmt : cstr) (args : list arg) : res cstr :=
  if fmt_max <=? List.length fmt then Err
  else do s <- vsprintf fmt args; strdupf_result s.

(** src/coco_problem.c 352-376: the id is expanded as a format without arguments, then every character is looked at. *)
Definition id_char (c : ascii) : bool :=
  ((65 <=? code c) && (code c <=? 90)) || ((97 <=? code c) && (code c <=? 122)) ||
  (Ascii.eqb c "_" || Ascii.eqb c "-")%char || ((48 <=? code c) && (code c <=? 57)).

Fixpoint id_loop (s : cstr) (result : bool) : bool :=
  match s with
  | [] => result
  | c :: s' => if id_char c then id_loop s' result else id_loop s' false
  end.

Definition coco_problem_id_is_fine (id : cstr) : res bool :=
  do s <- coco_vstrdupf id []; Ok (id_loop s true).

(** src/coco_problem.c 383-394: the new id. *)
Definition coco_problem_set_id (fmt : cstr) (args : list arg) : res cstr :=
  do id <- coco_vstrdupf fmt args;
  do fine <- coco_problem_id_is_fine id;
  if fine : bool then Ok id else Err.

(** src/coco_problem.c 967-969: the id of a stacked problem before a suite changes it (not checked). *)
Definition stacked_id (id1 id2 : cstr) : cstr := (id1 ++ str "__") ++ id2.

(** ** The ids of the suites *)

(** The suites whose problems have ids of their own. *)
Inductive suite_id := Bbob | BbobBoxed | BbobNoisy | BbobLargescale | BbobMixint | BbobBiobj | BbobBiobjMixint
  | BbobConstrained | BbobConstrainedActive | BbobConstrainedPlain.

(** suite_bbob.c 88, suite_sbox_cost.c 80, suite_bbob_noisy.c 61, suite_largescale.c 62, suite_bbob_mixint.c 110,
    suite_biobj_utilities.c 468 (bbob-biobj and bbob-biobj-ext), suite_biobj_mixint.c 150, suite_cons_bbob.c 188 with
    the name of the suite. *)
Definition template (s : suite_id) : cstr :=
  match s with
  | Bbob => str "bbob_f%03lu_i%02lu_d%02lu"
  | BbobBoxed => str "bbob-boxed_f%03lu_i%02lu_d%02lu"
  | BbobNoisy => str "bbob_noisy_f%lu_i%02lu_d%02lu"
  | BbobLargescale => str "bbob_f%03lu_i%02lu_d%04lu"
  | BbobMixint => str "bbob-mixint_f%03lu_i%02lu_d%02lu"
  | BbobBiobj => str "bbob-biobj_f%02lu_i%02lu_d%02lu"
  | BbobBiobjMixint => str "bbob-biobj-mixint_f%03lu_i%02lu_d%03lu"
  | _ => str "%s_f%03lu_i%02lu_d%02lu"
  end.

(** The other arguments of coco_problem_set_id. *)
Definition template_args (s : suite_id) (f i d : N) : list arg :=
  match s with
  | BbobConstrained => [AStr (str "bbob-constrained")]
  | BbobConstrainedActive => [AStr (str "bbob-constrained-active-only")]
  | BbobConstrainedPlain => [AStr (str "bbob-constrained-no-disguise")]
  | _ => []
  end ++ [ANum f; ANum i; ANum d].

Definition suite_problem_id (s : suite_id) (f i d : N) : res cstr :=
  coco_problem_set_id (template s) (template_args s f i d).
