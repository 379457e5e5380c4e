(** Model of src/logger_biobj.c: the bi-objective logger (archive tree, buffer tree, hypervolume
    indicator, files). *)
From Coq Require Import List Arith NArith ZArith Bool Lia Reals.
Import ListNotations.
From Verif Require Import CBase MoModel.
Open Scope Z_scope.

(** src/observer_biobj.c:13 *)
Inductive mode := NondomNone | NondomFinal | NondomAll | NondomRead.

(** src/logger_biobj.c:156-169.  [addr] is the address of the record; [data] stands for the printed
    objective values and variables, which are only copied. *)
Record item := {
  addr : nat; npt : point; data : cstr; feasible : bool; eval_no : nat;
  contribution : Z;               (* in units of 25e-28 *)
  within : bool }.

(** Lines 174-215; [k] are the rounded quotients of the objective values (see mo_normalize). *)
Definition node_create (a : nat) (k : Z * Z) (d : cstr) (feas : bool) (e : nat) : item :=
  let p := mo_normalize k in
  {| addr := a; npt := p; data := d; feasible := feas; eval_no := e; contribution := 0;
     within := mo_is_within_ROI p |}.

(** Lines 234-244 and 252-260 *)
Definition compare_obj (a b : item) : Z := compare_last (npt a) (npt b).
Definition compare_eval (a b : item) : Z :=
  if Nat.ltb (eval_no a) (eval_no b) then -1 else if Nat.ltb (eval_no b) (eval_no a) then 1 else 0.

(** The two trees as ordered sequences, the records freed so far, and the indicator's current_value.
    A contribution is only ever read from the archive tree; the copies of the records in [buffer]
    may hold an outdated one. *)
Record trees := {
  archive : list item;
  buffer : list item;
  freed : list nat;
  current_value : Z }.

(** Reading or freeing a freed record is UB. *)
Definition is_freed (f : list nat) (i : item) : bool := existsb (Nat.eqb (addr i)) f.
Definition touch (f : list nat) (i : item) : res unit := if is_freed f i then UB else Ok tt.
Definition touch_all (f : list nat) (l : list item) : res unit := if existsb (is_freed f) l then UB else Ok tt.
Definition free_item (f : list nat) (i : item) : res (list nat) := if is_freed f i then UB else Ok (addr i :: f).

Definition remove_node (n : item) (l : list item) : list item :=
  filter (fun i => negb (Nat.eqb (addr i) (addr n))) l.

(** Lines 333-340 and 360-368: a dominated node leaves both trees and is freed.  A search in the
    buffer tree may read any of its records. *)
Definition drop_node (compute : bool) (t : trees) (n : item) : res trees :=
  do _ <- touch (freed t) n;
  do _ <- touch_all (freed t) (buffer t);
  do f <- free_item (freed t) n;
  Ok {| archive := remove_node n (archive t);
        buffer := delete_item item compare_eval n (buffer t);
        freed := f;
        current_value := if compute then current_value t - contribution n else current_value t |}.

(** Lines 352-372 *)
Fixpoint drop_loop (compute : bool) (t : trees) (y : point) (next : list item) : res trees :=
  match next with
  | [] => Ok t
  | n :: next' =>
    do _ <- touch (freed t) n;
    if dominance y (npt n) =? 1 then do t1 <- drop_node compute t n; drop_loop compute t1 y next'
    else Ok t
  end.

Definition set_contribution (a : nat) (c : Z) (l : list item) : list item :=
  map (fun i => if Nat.eqb (addr i) a
                then {| addr := addr i; npt := npt i; data := data i; feasible := feasible i;
                        eval_no := eval_no i; contribution := c; within := within i |}
                else i) l.

(** new_node->prev and new_node->next *)
Fixpoint neighbours (a : nat) (prev : option item) (l : list item) : option item * option item :=
  match l with
  | [] => (None, None)
  | i :: l' => if Nat.eqb (addr i) a then (prev, nth_error l' 0) else neighbours a (Some i) l'
  end.

(** Lines 378-431: the new node x is within the ROI.  A negative contribution fails an assertion. *)
Definition contributions (x : item) (l : list item) (cur : Z) : res (list item * Z) :=
  let (prev, next) := neighbours (addr x) None l in
  do (l1, cur1) <-
    match next with
    | Some s =>
      if within s then
        let c := (fst (npt x) - fst (npt s)) * (one - snd (npt s)) in
        if 0 <=? c then Ok (set_contribution (addr s) c l, cur - contribution s + c) else UB
      else Ok (l, cur)
    | None => Ok (l, cur)
    end;
  let w := match prev with
           | Some p => if within p then fst (npt p) else one
           | None => one
           end in
  let c := (w - fst (npt x)) * (one - snd (npt x)) in
  if 0 <=? c then Ok (set_contribution (addr x) c l1, cur1 + c) else UB.

(** Lines 306-446; the result is trigger_update. *)
Definition tree_update (compute : bool) (t : trees) (x : item) : res (trees * bool) :=
  if negb (feasible x) then Ok (t, false) else
  do _ <- touch_all (freed t) (archive t);
  let (pre, post) := split_right item compare_obj x (archive t) in
  do (t1, trigger) <-
    match last_opt pre with
    | None => Ok (t, true)
    | Some n =>
      let d := dominance (npt x) (npt n) in
      if -1 <? d then
        if d =? 1 then do t1 <- drop_node compute t n; Ok (t1, true) else Ok (t, true)
      else Ok (t, false)
    end;
  if negb trigger then
    do f <- free_item (freed t1) x;
    Ok ({| archive := archive t1; buffer := buffer t1; freed := f; current_value := current_value t1 |}, false)
  else
    do t2 <- drop_loop compute t1 (npt x) post;
    do _ <- touch_all (freed t2) (archive t2);
    match insert item compare_obj x (archive t2) with
    | None => UB                  (* the assertion of line 375 *)
    | Some a =>
      do _ <- touch_all (freed t2) (buffer t2);
      let b := match insert item compare_eval x (buffer t2) with Some b => b | None => buffer t2 end in
      do (a1, cur) <- (if compute && within x then contributions x a (current_value t2)
                       else Ok (a, current_value t2));
      Ok ({| archive := a1; buffer := b; freed := freed t2; current_value := cur |}, true)
    end.

(** src/mo_utilities.c:137-156, as a real number. *)
Definition excess (v : Z) : R := (IZR (v - one) / IZR one)%R.
Definition distance_to_ROI (p : point) : R :=
  if mo_is_within_ROI p then 0%R
  else if (one <? fst p) && (one <? snd p)
       then sqrt (excess (fst p) ^ 2 + excess (snd p) ^ 2)
       else if one <? fst p then excess (fst p) else excess (snd p).

(** A line of one of the indicator's files: evaluation number and value (the third column of the .dat
    file, the target, is left out). *)
Notation line := (nat * R)%type.

Section Logger.
(** The indicator's best_value, and the triggers of src/coco_observer.c as unknown functions. *)
Variable best : R.
Variables TS ES : Type.
Variable targets_trigger : TS -> R -> bool * TS.
Variable evaluations_trigger : ES -> nat -> bool * ES.
(** src/coco.h:89 INFINITY_FOR_LOGGING *)
Definition infinity_for_logging : R := IZR (3 * 10 ^ 21).

(** Lines 86-112 without current_value; None stands for the initial DBL_MAX of the penalty. *)
Record indicator := {
  penalty : option R;
  overall : R;
  target_hit : bool;
  evaluation_logged : bool;
  tstate : TS;
  estate : ES;
  dat : list line;
  tdat : list line;
  rdat : list line }.

(** Lines 121-148; [adat] are the lines of the archive file (evaluation number and data),
    [mdat] those of the recommendations, [observer] whether the observer still exists. *)
Record logger := {
  log_mode : mode;
  compute_indicators : bool;
  observer : bool;
  evals : nat;
  previous_evals : nat;
  restarted : bool;
  next_addr : nat;
  tr : trees;
  ind : indicator;
  adat : list (nat * cstr);
  mdat : list (nat * cstr) }.

(** Lines 1019-1162 and 476-572 *)
Definition logger_biobj (m : mode) (c : bool) (ts : TS) (es : ES) : logger :=
  {| log_mode := m; compute_indicators := c; observer := true; evals := 0; previous_evals := 0;
     restarted := false; next_addr := 0;
     tr := {| archive := []; buffer := []; freed := []; current_value := 0 |};
     ind := {| penalty := None; overall := 0%R; target_hit := false; evaluation_logged := false;
               tstate := ts; estate := es; dat := []; tdat := []; rdat := [] |};
     adat := []; mdat := [] |}.

(** Lines 265-295: what is written for a tree. *)
Definition tree_output (l : list item) : list (nat * cstr) := map (fun i => (eval_no i, data i)) l.

(** coco_double_min of the penalty and a distance. *)
Definition penalty_min (p : option R) (d : R) : R := match p with None => d | Some q => Rmin q d end.

(** Lines 709-719: the evaluations between the previous and this one (mode READ). *)
Fixpoint gap_loop (es : ES) (js : list nat) (v : R) : bool * ES * list line :=
  match js with
  | [] => (false, es, [])
  | j :: js' =>
    let (b, es1) := evaluations_trigger es j in
    let '(b', es2, ls) := gap_loop es1 js' v in
    (b', es2, (if b then [(j, v)] else []) ++ ls)
  end.

(** Lines 661-742 for one indicator; the assertion of line 686 (penalty >= 0) is left out. *)
Definition indicator_output (m : mode) (evs prev_evs : nat) (rs : bool) (cur : Z) (f : list nat)
    (i : indicator) (update : bool) (x : item) : res indicator :=
  let previous_value := overall i in
  do (pen, ov, hit, ts) <-
    (if update then
       do pen <- (if almost_equal cur 0 (mo_precision * one)
                  then do _ <- touch f x; Ok (Some (penalty_min (penalty i) (distance_to_ROI (npt x))))
                  else Ok (Some 0%R));
       let ov := (best - IZR cur / (IZR one * IZR one) + match pen with Some p => p | None => 0 end)%R in
       let (hit, ts) := targets_trigger (tstate i) ov in
       Ok (pen, ov, hit, ts)
     else
       do special <- (if Nat.eqb evs 1 then do _ <- touch f x; Ok (negb (feasible x)) else Ok false);
       if special then
         let (hit, ts) := targets_trigger (tstate i) infinity_for_logging in
         Ok (penalty i, infinity_for_logging, hit, ts)
       else Ok (penalty i, overall i, false, tstate i));
  let dat1 := dat i ++ (if hit then [(evs, ov)] else []) in
  let '(_, es1, gap) :=
    match m with
    | NondomRead => gap_loop (estate i) (seq (S prev_evs) (evs - 1 - prev_evs)) previous_value
    | _ => (false, estate i, [])
    end in
  let (logged, es2) := evaluations_trigger es1 evs in
  Ok {| penalty := pen; overall := ov; target_hit := hit; evaluation_logged := logged;
        tstate := ts; estate := es2; dat := dat1;
        tdat := tdat i ++ gap ++ (if logged then [(evs, ov)] else []);
        rdat := rdat i ++ (if rs then [(evs, ov)] else []) |}.

Definition biobj_output (lg : logger) (update : bool) (x : item) : res logger :=
  do i <- (if compute_indicators lg
           then indicator_output (log_mode lg) (evals lg) (previous_evals lg) (restarted lg)
                  (current_value (tr lg)) (freed (tr lg)) (ind lg) update x
           else Ok (ind lg));
  Ok {| log_mode := log_mode lg; compute_indicators := compute_indicators lg; observer := observer lg;
        evals := evals lg; previous_evals := previous_evals lg; restarted := false; next_addr := next_addr lg;
        tr := tr lg; ind := i; adat := adat lg; mdat := mdat lg |}.

(** Lines 748-796; the environment determines the objective values k, the printed data and whether
    the constraints are satisfied. *)
Definition evaluate (lg : logger) (k : Z * Z) (d : cstr) (feas : bool) : res logger :=
  let evs := S (evals lg) in
  let x := node_create (next_addr lg) k d feas evs in
  do (t, update) <- tree_update (compute_indicators lg) (tr lg) x;
  do (t1, out) <-
    match log_mode lg with
    | NondomAll =>
      if update then
        do _ <- touch_all (freed t) (buffer t);
        Ok ({| archive := archive t; buffer := []; freed := freed t; current_value := current_value t |},
            tree_output (buffer t))
      else Ok (t, [])
    | _ => Ok (t, [])
    end;
  biobj_output {| log_mode := log_mode lg; compute_indicators := compute_indicators lg; observer := observer lg;
        evals := evs; previous_evals := previous_evals lg; restarted := restarted lg; next_addr := S (next_addr lg);
        tr := t1; ind := ind lg; adat := adat lg ++ out; mdat := mdat lg |} update x.

(** Lines 802-853: line 813 reads the data of the observer. *)
Definition recommend (lg : logger) (d : cstr) : res logger :=
  if observer lg then
    Ok {| log_mode := log_mode lg; compute_indicators := compute_indicators lg; observer := observer lg;
          evals := evals lg; previous_evals := previous_evals lg; restarted := restarted lg; next_addr := next_addr lg;
          tr := tr lg; ind := ind lg; adat := adat lg; mdat := mdat lg ++ [(evals lg, d)] |}
  else UB.

(** Lines 869-906 *)
Definition feed (lg : logger) (e : nat) (k : Z * Z) : res (logger * bool) :=
  match log_mode lg with
  | NondomRead =>
    if Nat.leb e (evals lg) then Err else
    let x := node_create (next_addr lg) k [] true e in
    do (t, update) <- tree_update (compute_indicators lg) (tr lg) x;
    do lg1 <- biobj_output {| log_mode := log_mode lg; compute_indicators := compute_indicators lg; observer := observer lg;
        evals := e; previous_evals := evals lg; restarted := restarted lg; next_addr := S (next_addr lg);
        tr := t; ind := ind lg; adat := adat lg; mdat := mdat lg |} update x;
    Ok (lg1, update)
  | _ => UB                       (* the assertion of line 881 *)
  end.

(** Lines 1003-1010 and 995-998 *)
Definition signal_restart (lg : logger) : logger :=
  {| log_mode := log_mode lg; compute_indicators := compute_indicators lg; observer := observer lg;
     evals := evals lg; previous_evals := previous_evals lg;
     restarted := if Nat.ltb 0 (evals lg) then true else restarted lg;
     next_addr := next_addr lg; tr := tr lg; ind := ind lg; adat := adat lg; mdat := mdat lg |}.
Definition nullify_observer (lg : logger) : logger :=
  {| log_mode := log_mode lg; compute_indicators := compute_indicators lg; observer := false;
     evals := evals lg; previous_evals := previous_evals lg; restarted := restarted lg;
     next_addr := next_addr lg; tr := tr lg; ind := ind lg; adat := adat lg; mdat := mdat lg |}.

(** Lines 919-928: re-sorting by evaluation number. *)
Definition resorted (l : list item) : list item :=
  fold_left (fun acc i => match insert item compare_eval i acc with Some a => a | None => acc end) l [].

(** Freeing all items of a tree (avl_tree_purge, src/mo_avl_tree.c:469-497). *)
Fixpoint free_all (f : list nat) (l : list item) : res (list nat) :=
  match l with
  | [] => Ok f
  | i :: l' => do f1 <- free_item f i; free_all f1 l'
  end.

(** The files and freed records after logger_biobj_free. *)
Record closed := {
  c_adat : list (nat * cstr); c_dat : list line; c_tdat : list line; c_rdat : list line; c_freed : list nat }.

(** Lines 942-988 and 577-595 *)
Definition logger_free (lg : logger) : res closed :=
  do _ <- touch_all (freed (tr lg)) (archive (tr lg));
  let final := match log_mode lg with NondomFinal => tree_output (resorted (archive (tr lg))) | _ => [] end in
  let i := ind lg in
  let c := compute_indicators lg in
  do f <- free_all (freed (tr lg)) (archive (tr lg));
  Ok {| c_adat := adat lg ++ final;
        c_dat := dat i ++ (if c && negb (target_hit i) then [(evals lg, overall i)] else []);
        c_tdat := tdat i ++ (if c && negb (evaluation_logged i) then [(evals lg, overall i)] else []);
        c_rdat := rdat i;
        c_freed := f |}.

(** Uses of an observed problem. *)
Inductive event := Evaluate (k : Z * Z) (d : cstr) (feas : bool) | Recommend (d : cstr) | Feed (e : nat) (k : Z * Z)
                 | Restart | FreeObserver.

Definition happen (lg : logger) (ev : event) : res logger :=
  match ev with
  | Evaluate k d feas => evaluate lg k d feas
  | Recommend d => recommend lg d
  | Feed e k => do (lg1, _) <- feed lg e k; Ok lg1
  | Restart => Ok (signal_restart lg)
  | FreeObserver => Ok (nullify_observer lg)
  end.

Fixpoint happen_all (lg : logger) (evs : list event) : res logger :=
  match evs with
  | [] => Ok lg
  | ev :: evs' => do lg1 <- happen lg ev; happen_all lg1 evs'
  end.
End Logger.

(** A logger is created, used and freed. *)
Definition session {TS ES : Type} (best : R) (tt : TS -> R -> bool * TS) (et : ES -> nat -> bool * ES)
    (m : mode) (c : bool) (ts0 : TS) (es0 : ES) (evs : list event) : res closed :=
  do lg <- happen_all best TS ES tt et (logger_biobj TS ES m c ts0 es0) evs; logger_free TS ES lg.
