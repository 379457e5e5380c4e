(** What the suites contain. *)
From Coq Require Import List Arith NArith ZArith Ascii String Bool.
From Verif Require Import CBase StrSpec.
Import ListNotations.

Inductive suite_kind := Toy | Bbob | Boxed | Biobj | BiobjExt | Largescale | Constrained | Mixint | BiobjMixint | Noisy.
(** The names of the suites; any name that starts with bbob-constrained is accepted. *)
Definition called (name : cstr) (k : suite_kind) : Prop :=
  match k with
  | Toy => name = str "toy"
  | Bbob => name = str "bbob"
  | Boxed => name = str "bbob-boxed"
  | Biobj => name = str "bbob-biobj"
  | BiobjExt => name = str "bbob-biobj-ext"
  | Largescale => name = str "bbob-largescale"
  | Constrained => exists rest, name = str "bbob-constrained" ++ rest
  | Mixint => name = str "bbob-mixint"
  | BiobjMixint => name = str "bbob-biobj-mixint"
  | Noisy => name = str "bbob-noisy"
  end.

Definition from_to (a b : nat) : list N := map N.of_nat (seq a (b + 1 - a)).
Definition function_numbers (k : suite_kind) : list N :=
  match k with
  | Toy => from_to 1 6
  | Bbob | Boxed | Largescale | Mixint => from_to 1 24
  | Biobj => from_to 1 55
  | BiobjExt | BiobjMixint => from_to 1 92
  | Constrained => from_to 1 54
  | Noisy => from_to 101 130
  end.
Definition dimension_numbers (k : suite_kind) : list N :=
  match k with
  | Toy => [2; 3; 5; 10; 20]%N
  | Largescale => [20; 40; 80; 160; 320; 640]%N
  | Mixint | BiobjMixint => [5; 10; 20; 40; 80; 160]%N
  | _ => [2; 3; 5; 10; 20; 40]%N
  end.
Definition five_and_ten (a : nat) : list N := from_to 1 5 ++ from_to a (a + 9).
(** Without an instance string; the bbob suite uses the instances of 2018. *)
Definition default_numbers (k : suite_kind) : list N :=
  match k with
  | Toy => [1%N]
  | Bbob => five_and_ten 71
  | Boxed => five_and_ten 101
  | _ => from_to 1 15
  end.
(** From which to which year which instances; other years end the program. *)
Definition int_max : Z := 2147483647.
Definition years (k : suite_kind) : list (Z * Z * list N) :=
  match k with
  | Toy => []
  | Bbob => [(0, 0, five_and_ten 51); (2009, 2009, from_to 1 5 ++ from_to 1 5 ++ from_to 1 5); (2010, 2011, from_to 1 15);
             (2012, 2012, five_and_ten 21); (2013, 2014, five_and_ten 31); (2015, 2015, five_and_ten 41); (2016, 2016, five_and_ten 51);
             (2017, 2017, five_and_ten 61); (2018, 2020, five_and_ten 71); (2021, 2022, five_and_ten 91); (2023, int_max, five_and_ten 101)]
  | Boxed => [(0, 0, from_to 1 15); (2023, 2023, five_and_ten 101)]
  | Biobj | BiobjExt => [(0, 0, from_to 1 10); (1, 2015, from_to 1 15); (2016, 2016, from_to 1 10); (2017, int_max, from_to 1 15)]
  | Constrained | Largescale => [(0, 0, from_to 1 15); (2009, int_max, from_to 1 15)]
  | Mixint | BiobjMixint => [(0, int_max, from_to 1 15)]
  | Noisy => [(0, 2009, from_to 1 15)]
  end%Z.
Definition instances_of_year (k : suite_kind) (y : Z) : option (list N) :=
  option_map snd (find (fun r => (fst (fst r) <=? y) && (y <=? snd (fst r)))%Z (years k)).
(** A year with blanks around it, in decimal digits, and without leading zeros unless it is 0 *)
Definition year_text (v : cstr) (y : Z) : Prop :=
  exists b w e, v = b ++ w ++ e /\ blank b /\ blank e /\ digits w /\ w <> [] /\ y = Z.of_N (dec w) /\
    ((exists c w', w = c :: w' /\ c <> "0"%char) \/ Forall (eq "0"%char) w).
