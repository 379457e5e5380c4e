(** What a client may do with observers and observed problems, and what the objects mean. *)
From Coq Require Import String List Arith Ascii Bool.
Import ListNotations.
From Verif Require Import CBase HeapModel.
Local Notation length := List.length.

(** The objects that exist. *)
Definition problem_exists (h : heap) (a : addr) (p : problem_cell) : Prop := nth_error h a = Some (Some (CProblem p)).
Definition observer_exists (h : heap) (b : addr) (o : observer_cell) : Prop := nth_error h b = Some (Some (CObserver o)).

(** w is a logger around the problem a. *)
Definition wraps (h : heap) (w a : addr) (l : logger) : Prop :=
  exists p, problem_exists h w p /\ p_logger p = Some l /\ lg_inner l = a.

(** The problem a client holds: no logger is around it. *)
Definition outermost (h : heap) (a : addr) : Prop :=
  (exists p, problem_exists h a p) /\ forall w l, ~ wraps h w a l.

(** The objects below a. *)
Inductive inside (h : heap) (a : addr) : addr -> Prop :=
| inside_self : inside h a a
| inside_down : forall w b l, inside h a w -> wraps h w b l -> inside h a b.

(** The observer b (of a kind that watches one problem at a time) watches w. *)
Definition watches (h : heap) (b w : addr) : Prop :=
  exists p l, problem_exists h w p /\ p_logger p = Some l /\ cyclic (lg_kind l) = true /\ lg_observer l = Some b.

(** The observers of the loggers of a problem that are needed: for an evaluation the file of a toy observer, and a
    bbob observer until the first evaluation. *)
Definition ready (h : heap) (l : logger) : Prop :=
  match lg_kind l with
  | KToy => exists b o, lg_observer l = Some b /\ observer_exists h b o
  | KBbob => lg_started l = false -> lg_observer l <> None
  | _ => True
  end.
(** For a recommendation also a bi-objective observer. *)
Definition ready_recommend (h : heap) (l : logger) : Prop :=
  ready h l /\ match lg_kind l with KBiobj => lg_observer l <> None | _ => True end.

Definition open_paren : ascii := "("%char.

(** What a client may do: never use a freed object, never use a problem that is wrapped in a logger except through the
    logger, and keep observers as long as they are needed. *)
Definition permitted (h : heap) (x : op) : Prop :=
  match x with
  | NewProblem _ _ => True
  | NewObserver n _ => ~ In open_paren n
  | Add None _ => True
  | Add (Some a) None => True
  | Add (Some a) (Some b) =>
      outermost h a /\
      exists o p, observer_exists h b o /\ problem_exists h a p /\ length (o_name o) + length (p_name p) + 2 <= 443
  | Remove _ None => True
  | Remove None (Some _) => False
  | Remove (Some a) (Some b) =>
      outermost h a /\
      exists o p, observer_exists h b o /\ problem_exists h a p /\
        (p_logger p = None -> forall s, p_name p <> o_name o ++ open_paren :: s)
  | FreeProblem a => outermost h a
  | FreeObserver None => True
  | FreeObserver (Some b) => exists o, observer_exists h b o
  | Evaluate a => outermost h a /\ forall w b l, inside h a w -> wraps h w b l -> ready h l
  | Recommend a => outermost h a /\ forall w b l, inside h a w -> wraps h w b l -> ready_recommend h l
  | Restart None _ => True
  | Restart (Some b) p =>
      exists o, observer_exists h b o /\
        (cyclic (o_kind o) = true -> exists a, p = Some a /\ exists q l, problem_exists h a q /\
           p_logger q = Some l /\ lg_kind l = o_kind o)
  end.

(** Every call of the history is permitted when it is made. *)
Fixpoint disciplined (h : heap) (xs : list op) : Prop :=
  match xs with
  | [] => True
  | x :: xs' => permitted h x /\ forall r h1, step h x = Ok (r, h1) -> disciplined h1 xs'
  end.

(** The states such a client can reach. *)
Definition leads (h h' : heap) : Prop := exists xs rs, disciplined h xs /\ run h xs = Ok (rs, h').
Definition reached (h : heap) : Prop := leads [] h.
