(** Specifications for the string functions, independent of the model's loops. *)
From Coq Require Import List Arith NArith ZArith Ascii String Bool.
From Verif Require Import CBase.
Import ListNotations.

(** [t] occurs in [s] at position [i]. *)
Definition occurs_at (s t : cstr) (i : nat) : Prop :=
  exists p q, s = p ++ t ++ q /\ List.length p = i.

Definition first_occurrence (s t : cstr) (i : nat) : Prop :=
  occurs_at s t i /\ forall j, occurs_at s t j -> i <= j.

(** White space around a string. *)
Definition blank (s : cstr) : Prop := Forall (fun c => isspace c = true) s.
Definition trimmed (t : cstr) : Prop :=
  (forall c r, t = c :: r -> isspace c = false) /\
  (forall l c, t = l ++ [c] -> isspace c = false).

(** Splitting at a delimiter, empty pieces dropped. *)
Inductive pieces (d : ascii) : cstr -> list cstr -> Prop :=
| pieces_end : forall ds, Forall (eq d) ds -> pieces d ds []
| pieces_cons : forall ds w rest toks,
    Forall (eq d) ds -> w <> [] -> ~ In d w ->
    (rest = [] \/ exists r, rest = d :: r) ->
    pieces d rest toks ->
    pieces d (ds ++ w ++ rest) (w :: toks).

(** Decimal value of a digit string. *)
Definition digits (s : cstr) : Prop := Forall (fun c => isdigit c = true) s.
Fixpoint pow10 (n : nat) : N := match n with O => 1 | S m => 10 * pow10 m end.
Fixpoint dec (s : cstr) : N :=
  match s with
  | [] => 0
  | c :: t => (N_of_ascii c - 48) * pow10 (List.length t) + dec t
  end.

(** The number a digit string stands for in the code: values beyond the range of [long] are read
    as the largest [long]. *)
Definition long_max : N := (2 ^ 63 - 1)%N.
Definition number (s : cstr) : N := N.min (dec s) long_max.

(** What one comma separated piece means: a closed interval given by an optional lower and an
    optional upper end, or nothing sensible (more than one dash). *)
Inductive meaning := Interval (lo hi : option N) | Malformed.

Inductive means : cstr -> meaning -> Prop :=
| means_single : forall p, p <> [] -> digits p ->
    means p (Interval (Some (number p)) (Some (number p)))
| means_range : forall a b, digits a -> digits b ->
    means (a ++ "-"%char :: b)
          (Interval (match a with [] => None | _ => Some (number a) end)
                    (match b with [] => None | _ => Some (number b) end))
| means_bad : forall a b c, means (a ++ "-"%char :: b ++ "-"%char :: c) Malformed.

(** Bounds: 0 stands for "no bound".  An open end is allowed only if there is a bound. *)
Definition bound (b : N) : option N := if (b =? 0)%N then None else Some b.

Definition interval_of (min max : N) (m : meaning) : option (N * N) :=
  match m with
  | Malformed => None
  | Interval lo hi =>
      let lo' := match lo with Some n => Some n | None => bound min end in
      let hi' := match hi with Some n => Some n | None => bound max end in
      match lo', hi' with
      | Some l, Some h =>
          let l' := N.max l min in
          let h' := if (max =? 0)%N then h else N.min h max in
          if (l' <=? h')%N then Some (l', h') else None
      | _, _ => None
      end
  end.

Definition numbers_between (lo hi : N) : list N :=
  map (fun k => (lo + N.of_nat k)%N) (seq 0 (N.to_nat (hi + 1 - lo))).

(** All numbers denoted by a list of pieces: reading stops at the first piece that denotes no
    non-empty interval. *)
Fixpoint denoted (min max : N) (ms : list meaning) : list N :=
  match ms with
  | [] => []
  | m :: ms' =>
      match interval_of min max m with
      | None => []
      | Some (l, h) => numbers_between l h ++ denoted min max ms'
      end
  end.

(** The array handed to the caller: the numbers, a 0, and unused cells. *)
Definition holds (buf : list (option N)) (l : list N) (size : nat) : Prop :=
  List.length buf = size /\ exists rest, buf = map Some l ++ Some 0%N :: rest.

(** Characters that may occur in a range string. *)
Definition range_string (s : cstr) : Prop :=
  Forall (fun c => c = "-"%char \/ c = ","%char \/ isdigit c = true) s.

(** The numbers a range string denotes: [l] is the list for the comma separated pieces. *)
Definition range_denotes (s : cstr) (min max : N) (l : list N) : Prop :=
  exists toks ms, pieces ","%char s toks /\ Forall2 means toks ms /\ l = denoted min max ms.

(** The bounds are usable: there is no upper bound (0) or it is not below the lower one. *)
Definition bounds_fine (min max : N) : Prop := max = 0%N \/ (min <= max)%N.

(** Strings the search function can handle: positions up to 1e9. *)
Definition small (s : cstr) : Prop := (N.of_nat (List.length s) <= 1000000000)%N.
