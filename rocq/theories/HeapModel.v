(** Model of observers and observed problems as objects in memory: src/coco_observer.c 430-492 and 804-903,
    src/observer_bbob.c, src/observer_biobj.c, src/observer_toy.c, src/observer_rw.c, the constructors and
    destructors of the four loggers, and the wrapping of problems in src/coco_problem.c 305-343, 795-874. *)
From Coq Require Import String List Arith Ascii Bool.
Import ListNotations.
From Verif Require Import CBase StrModel IdModel.
Local Notation length := List.length.

(** Objects live at addresses.  An address is never used again after it was freed (an allocator may do so, but
    then a stale pointer is already a mistake); using a freed object is undefined. *)
Definition addr := nat.

(** The loggers.  logger_bbob_old.c is not modelled. *)
Inductive kind := KBbob | KBiobj | KToy | KRw.

(** The data of a logger, as far as it concerns other objects.  lg_observer is the field observer of the bbob and
    the bi-objective logger (None: NULL).  For the toy logger it is the observer whose log file the logger writes to
    (logger_toy.c 92 copies the FILE pointer of the observer): the file is closed when the observer is freed
    (observer_toy.c 23-34).  The real-world logger has a file of its own and keeps no pointer (None).
    lg_started is is_initialized of the bbob logger. *)
Record logger := {
  lg_kind : kind;
  lg_inner : addr;
  lg_observer : option addr;
  lg_started : bool }.

(** A problem: p_logger is None for a problem that is not observed (a problem of a suite, all its transformations
    counted as one object). *)
Record problem_cell := { p_name : cstr; p_objectives : nat; p_logger : option logger }.

(** An observer.  o_observed is observed_problem of the data of the bbob and the bi-objective observer; the others have no such
    field (None).  is_active is 1 from the construction (coco_observer.c 457) until coco_observer_free sets it to 0 just
    before the memory is freed (line 464, 488): it is 1 for every observer in the heap. *)
Record observer_cell := { o_name : cstr; o_kind : kind; o_observed : option addr }.

Inductive cell := CProblem (p : problem_cell) | CObserver (o : observer_cell).

(** Cell number a; None if it was freed. *)
Definition heap := list (option cell).

Definition problem_at (h : heap) (a : addr) : res problem_cell :=
  match nth_error h a with Some (Some (CProblem p)) => Ok p | _ => UB end.
Definition observer_at (h : heap) (b : addr) : res observer_cell :=
  match nth_error h b with Some (Some (CObserver o)) => Ok o | _ => UB end.

(** The kinds whose observer points to the observed problem and whose logger points back. *)
Definition cyclic (k : kind) : bool := match k with KBbob | KBiobj => true | _ => false end.

Definition same_kind (k1 k2 : kind) : bool :=
  match k1, k2 with KBbob, KBbob | KBiobj, KBiobj | KToy, KToy | KRw, KRw => true | _, _ => false end.

Definition set_observed (o : observer_cell) (w : option addr) : observer_cell :=
  {| o_name := o_name o; o_kind := o_kind o; o_observed := w |}.
Definition set_logger (p : problem_cell) (l : logger) : problem_cell :=
  {| p_name := p_name p; p_objectives := p_objectives p; p_logger := Some l |}.

(** src/coco_problem.c 870 *)
Definition observed_name (observer_name name : cstr) : res cstr :=
  coco_vstrdupf (str "%s(%s)") [AStr observer_name; AStr name].

(** src/coco_observer.c 804-817; logger_bbob.c 664-737, logger_biobj.c 1019-1162, logger_toy.c 75-106,
    logger_rw.c 151-228.  Problems are assumed to have a suite and, for the bbob logger, a best value; opening
    and writing of files is not modelled here. *)
Definition coco_problem_add_observer (h : heap) (problem observer : option addr) : res (option addr * heap) :=
  match problem with
  | None => Ok (None, h)
  | Some a =>
    match observer with
    | None => Ok (Some a, h)
    | Some b =>
      do o <- observer_at h b;
      do p <- problem_at h a;
      if (match o_kind o with KBiobj => negb (p_objectives p =? 2) | _ => false end) then Err else
      if cyclic (o_kind o) && (match o_observed o with Some _ => true | None => false end) then Err else
      do name <- observed_name (o_name o) (p_name p);
      let w := length h in
      let l := {| lg_kind := o_kind o; lg_inner := a;
                  lg_observer := match o_kind o with KRw => None | _ => Some b end; lg_started := false |} in
      let h1 := h ++ [Some (CProblem {| p_name := name; p_objectives := p_objectives p; p_logger := Some l |})] in
      Ok (Some w, if cyclic (o_kind o) then upd h1 b (Some (CObserver (set_observed o (Some w)))) else h1)
    end
  end.

(** src/coco_problem.c 802-825 with the destructors logger_bbob.c 631-637, logger_biobj.c 979-985, logger_toy.c 33-44,
    logger_rw.c 126-137: the logger and the problem object w go, the inner problem stays. *)
Definition coco_problem_transformed_free_data (h : heap) (w : addr) : res heap :=
  do p <- problem_at h w;
  match p_logger p with
  | None => UB
  | Some l =>
    do h1 <- (if cyclic (lg_kind l)
              then match lg_observer l with
                   | None => Ok h
                   | Some b => do o <- observer_at h b; Ok (upd h b (Some (CObserver (set_observed o None))))
                   end
              else Ok h);
    Ok (upd h1 w None)
  end.

(** src/coco_problem.c 305-343, 830-842: the inner problem is freed first.  [fuel] bounds the depth of the wrapping. *)
Fixpoint coco_problem_free (fuel : nat) (h : heap) (a : addr) : res heap :=
  match fuel with
  | O => UB
  | S fuel' =>
    do p <- problem_at h a;
    match p_logger p with
    | None => Ok (upd h a None)
    | Some l => do h1 <- coco_problem_free fuel' h (lg_inner l); coco_problem_transformed_free_data h1 a
    end
  end.

(** src/coco_observer.c 828-859.  A problem that is not observed but whose name starts like that of an observed
    one would have its data read as those of a transformed problem. *)
Definition coco_problem_remove_observer (h : heap) (problem observer : option addr) : res (option addr * heap) :=
  match observer with
  | None => Ok (problem, h)
  | Some b =>
    do o <- observer_at h b;
    match problem with
    | None => UB
    | Some a =>
      do p <- problem_at h a;
      do prefix <- coco_remove_from_string (p_name p) (str "(") [];
      if negb (streq prefix (o_name o)) then Err else
      match p_logger p with
      | None => UB
      | Some l => do h1 <- coco_problem_transformed_free_data h a; Ok (Some (lg_inner l), h1)
      end
    end
  end.

(** src/coco_observer.c 461-492 with observer_bbob.c 36-64, observer_biobj.c 47-65, observer_toy.c 23-34 *)
Definition coco_observer_free (h : heap) (observer : option addr) : res heap :=
  match observer with
  | None => Ok h
  | Some b =>
    do o <- observer_at h b;
    do h1 <- (if cyclic (o_kind o)
              then match o_observed o with
                   | None => Ok h
                   | Some w =>
                     do p <- problem_at h w;
                     match p_logger p with
                     | None => UB
                     | Some l =>
                       Ok (upd h w (Some (CProblem (set_logger p {| lg_kind := lg_kind l; lg_inner := lg_inner l;
                                                                    lg_observer := None; lg_started := lg_started l |}))))
                     end
                   end
              else Ok h);
    Ok (upd h1 b None)
  end.

(** logger_bbob.c 378-380, 484-486, 289-357: the first evaluation or recommendation creates the files and reads the
    observer. *)
Definition logger_bbob_start (h : heap) (w : addr) (p : problem_cell) (l : logger) : res heap :=
  if lg_started l then Ok h
  else match lg_observer l with
       | None => UB
       | Some b => do _ <- observer_at h b;
                   Ok (upd h w (Some (CProblem (set_logger p {| lg_kind := lg_kind l; lg_inner := lg_inner l;
                                                                lg_observer := lg_observer l; lg_started := true |}))))
       end.

(** Which objects an evaluation touches: logger_bbob.c 363-471, logger_biobj.c 748-796, logger_toy.c 50-70 (the log file,
    line 69, also without a new target), logger_rw.c 56-121; values are not part of this model. *)
Fixpoint evaluate_touches (fuel : nat) (h : heap) (a : addr) : res heap :=
  match fuel with
  | O => UB
  | S fuel' =>
    do p <- problem_at h a;
    match p_logger p with
    | None => Ok h
    | Some l =>
      match lg_kind l with
      | KBbob => do h1 <- logger_bbob_start h a p l; evaluate_touches fuel' h1 (lg_inner l)
      | KToy => do h1 <- evaluate_touches fuel' h (lg_inner l);
                match lg_observer l with
                | None => UB
                | Some b => do _ <- observer_at h1 b; Ok h1
                end
      | _ => evaluate_touches fuel' h (lg_inner l)
      end
    end
  end.

(** The same for a recommendation: logger_bbob.c 477-553 and logger_biobj.c 803-854 (line 812 reads the observer) evaluate
    the inner problem, the toy and the real-world logger pass the call on (coco_problem.c 781-790). *)
Fixpoint recommend_touches (fuel : nat) (h : heap) (a : addr) : res heap :=
  match fuel with
  | O => UB
  | S fuel' =>
    do p <- problem_at h a;
    match p_logger p with
    | None => Ok h
    | Some l =>
      match lg_kind l with
      | KBbob => do h1 <- logger_bbob_start h a p l; evaluate_touches fuel' h1 (lg_inner l)
      | KBiobj => match lg_observer l with
                  | None => UB
                  | Some b => do _ <- observer_at h b; evaluate_touches fuel' h (lg_inner l)
                  end
      | _ => recommend_touches fuel' h (lg_inner l)
      end
    end
  end.

(** src/coco_observer.c 889-903 with logger_bbob.c 655-662, logger_biobj.c 1003-1010: the data of the problem are taken for those
    of a logger of the kind of the observer.  The flag itself is not part of this model. *)
Definition coco_observer_signal_restart (h : heap) (observer problem : option addr) : res heap :=
  match observer with
  | None => Ok h
  | Some b =>
    do o <- observer_at h b;
    if cyclic (o_kind o) then
      match problem with
      | None => UB
      | Some a =>
        do p <- problem_at h a;
        match p_logger p with
        | None => UB
        | Some l => if same_kind (lg_kind l) (o_kind o) then Ok h else UB
        end
      end
    else Ok h
  end.

(** What a client does.  [NewProblem] is a problem obtained from a suite, [NewObserver] an observer obtained from
    coco_observer. *)
Inductive op :=
| NewProblem (name : cstr) (objectives : nat)
| NewObserver (name : cstr) (k : kind)
| Add (problem observer : option addr)
| Remove (problem observer : option addr)
| FreeProblem (a : addr)
| FreeObserver (observer : option addr)
| Evaluate (a : addr)
| Recommend (a : addr)
| Restart (observer problem : option addr).

(** The result is the pointer returned, if any. *)
Definition step (h : heap) (x : op) : res (option addr * heap) :=
  match x with
  | NewProblem n m =>
    Ok (Some (length h), h ++ [Some (CProblem {| p_name := n; p_objectives := m; p_logger := None |})])
  | NewObserver n k =>
    Ok (Some (length h), h ++ [Some (CObserver {| o_name := n; o_kind := k; o_observed := None |})])
  | Add p o => coco_problem_add_observer h p o
  | Remove p o => coco_problem_remove_observer h p o
  | FreeProblem a => do h1 <- coco_problem_free (S (length h)) h a; Ok (None, h1)
  | FreeObserver o => do h1 <- coco_observer_free h o; Ok (None, h1)
  | Evaluate a => do h1 <- evaluate_touches (S (length h)) h a; Ok (None, h1)
  | Recommend a => do h1 <- recommend_touches (S (length h)) h a; Ok (None, h1)
  | Restart o p => do h1 <- coco_observer_signal_restart h o p; Ok (None, h1)
  end.

Fixpoint run (h : heap) (xs : list op) : res (list (option addr) * heap) :=
  match xs with
  | [] => Ok ([], h)
  | x :: xs' =>
    do (r, h1) <- step h x;
    do (rs, h2) <- run h1 xs';
    Ok (r :: rs, h2)
  end.
