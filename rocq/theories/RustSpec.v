(** What a Rust program has to observe beyond what the compiler checks. *)
From Coq Require Import String List Arith Ascii Bool.
Import ListNotations.
From Verif Require Import CBase HeapModel HeapSpec RustModel.
Local Notation length := List.length.

(** Names of problems of the suites do not look like names of observed problems. *)
Definition plain_name (n : cstr) : Prop := forall e s, n <> name_str e ++ open_paren :: s.
(** No problem that exists is observed by b. *)
Definition unused (h : heap) (b : addr) : Prop := forall w p l, problem_exists h w p -> p_logger p = Some l -> lg_observer l <> Some b.

(** The obligations: names fit, restarts are signalled for problems observed by an observer of this kind, observers are dropped after the
    problems they observe. *)
Definition careful (r : rust) (x : rop) : Prop :=
  match x with
  | RObserver _ => True
  | RProblem n _ => plain_name n
  | RNext n _ o => plain_name n /\ (o = None \/ length n + 12 <= 443)
  | RAdd i j => forall a p b o, look (r_problems r) i = Some a -> problem_exists (r_heap r) a p ->
                  look (r_observers r) j = Some b -> observer_exists (r_heap r) b o -> length (o_name o) + length (p_name p) + 2 <= 443
  | RRestart j i => forall a p b o, look (r_problems r) i = Some a -> problem_exists (r_heap r) a p ->
                  look (r_observers r) j = Some b -> observer_exists (r_heap r) b o -> cyclic (o_kind o) = true ->
                  exists l, p_logger p = Some l /\ lg_kind l = o_kind o
  | RDropObserver j => forall b, look (r_observers r) j = Some b -> unused (r_heap r) b
  | _ => True
  end.
Fixpoint all_careful (r : rust) (xs : list rop) : Prop :=
  match xs with
  | [] => True
  | x :: xs' => careful r x /\ forall r1, r_step r x = Some (Ok r1) -> all_careful r1 xs'
  end.
(** Every object in memory belongs to a variable: observers directly, problems as part of what the variable holds. *)
Definition owned (r : rust) : Prop :=
  (forall b o, observer_exists (r_heap r) b o -> exists j, look (r_observers r) j = Some b) /\
  (forall x p, problem_exists (r_heap r) x p -> exists i a, look (r_problems r) i = Some a /\ inside (r_heap r) a x).
