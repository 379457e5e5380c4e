(** Model of src/coco_archive.c on top of ordered sequences. *)
From Coq Require Import List Arith NArith ZArith Bool Lia.
Import ListNotations.
From Verif Require Import CBase MoModel.
Open Scope Z_scope.

(** src/coco_archive.c:43-46; [id] stands for the address of the tree node. *)
Record item := { id : nat; ny : point; text : cstr }.

(** Lines 19-35.  [next_id] only serves to give nodes different addresses. *)
Record archive := {
  tree : list item;
  up_to_date : bool;
  number_of_solutions : nat;
  hypervolume : Z;                (* in units of 25e-28, the square of the unit of length *)
  current : option nat;
  extreme1 : option nat;
  extreme2 : option nat;
  extremes_returned : bool;
  next_id : nat }.

(** Lines 91-113 *)
Definition coco_archive_allocate : archive :=
  {| tree := []; up_to_date := false; number_of_solutions := 0; hypervolume := 0;
     current := None; extreme1 := None; extreme2 := None; extremes_returned := false; next_id := 0 |}.

(** Lines 77-86 *)
Definition item_compare (a b : item) : Z := compare_last (ny a) (ny b).

Definition is_node (o : option nat) (i : item) : bool :=
  match o with Some k => Nat.eqb k (id i) | None => false end.

(** avl_node_delete with the assertion of lines 199 and 222 (a failing assertion is UB). *)
Definition may_delete (a : archive) (i : item) : res unit :=
  if is_node (extreme1 a) i || is_node (extreme2 a) i then UB else Ok tt.

(** Lines 212-227: deletes successors while they are dominated. *)
Fixpoint delete_dominated (a : archive) (y : point) (l : list item) : res (list item) :=
  match l with
  | [] => Ok []
  | n :: l' => if dominance y (ny n) =? 1
               then do _ <- may_delete a n; delete_dominated a y l'
               else Ok l
  end.

(** Lines 171-239; the objective vector is given by its rounded quotients (see mo_normalize). *)
Definition coco_archive_add_solution (a : archive) (k : Z * Z) (txt : cstr) : res (archive * Z) :=
  let x := {| id := next_id a; ny := mo_normalize k; text := txt |} in
  let bump t u := {| tree := t; up_to_date := u; number_of_solutions := number_of_solutions a;
       hypervolume := hypervolume a; current := current a; extreme1 := extreme1 a;
       extreme2 := extreme2 a; extremes_returned := extremes_returned a; next_id := S (next_id a) |} in
  let (pre, post) := split_right item item_compare x (tree a) in
  do found <-
    match last_opt pre with
    | None => Ok (Some (pre, post))
    | Some n =>
      let d := dominance (ny x) (ny n) in
      if -1 <? d then
        if d =? 1 then do _ <- may_delete a n; Ok (Some (removelast pre, post))
        else Ok (Some (pre, post))
      else Ok None
    end;
  match found with
  | None => Ok (bump (tree a) (up_to_date a), 0)
  | Some (pre', post') =>
    do post'' <- delete_dominated a (ny x) post';
    match insert item item_compare x (pre' ++ post'') with
    | Some t => Ok (bump t false, 1)
    | None => Ok (bump (pre' ++ post'') false, 0)
    end
  end.

(** Lines 118-169: the archive of a problem after the two extreme solutions
    (nadir, ideal) and (ideal, nadir) are added; [t1], [t2] are their texts. *)
Definition coco_archive (t1 t2 : cstr) : res archive :=
  do (a1, u1) <- coco_archive_add_solution coco_archive_allocate (steps, 0) t1;
  do (a2, u2) <- coco_archive_add_solution a1 (0, steps) t2;
  match tree a2 with
  | [] => UB
  | h :: _ =>
    match last_opt (tree a2) with
    | None => UB
    | Some t =>
      if (u1 =? 1) && (u2 =? 1) && negb (Nat.eqb (id h) (id t)) then
        Ok {| tree := tree a2; up_to_date := up_to_date a2; number_of_solutions := number_of_solutions a2;
              hypervolume := hypervolume a2; current := current a2;
              extreme1 := Some (id h); extreme2 := Some (id t);
              extremes_returned := extremes_returned a2; next_id := next_id a2 |}
      else UB                     (* the assertions of lines 151, 156 and 160 *)
    end
  end.

(** Lines 259-275: the loop over neighbouring nodes; a negative term fails the assertion. *)
Fixpoint hyp_loop (node : item) (rest : list item) (hyp : Z) : res Z :=
  match rest with
  | [] => Ok hyp
  | left_node :: rest' =>
    let y := ny left_node in
    if mo_is_within_ROI y then
      let h := if mo_is_within_ROI (ny node) then (fst (ny node) - fst y) * (one - snd y)
               else (one - fst y) * (one - snd y) in
      if 0 <=? h then hyp_loop left_node rest' (hyp + h) else UB
    else hyp_loop left_node rest' hyp
  end.

(** Lines 244-281 *)
Definition coco_archive_update (a : archive) : res archive :=
  if up_to_date a then Ok a else
  match tree a with
  | [] => UB                      (* node->next with node = NULL *)
  | h :: r =>
    do hyp <- hyp_loop h r 0;
    Ok {| tree := tree a; up_to_date := true; number_of_solutions := List.length (tree a);
          hypervolume := hyp; current := None; extreme1 := extreme1 a; extreme2 := extreme2 a;
          extremes_returned := false; next_id := next_id a |}
  end.

(** Lines 326-334 *)
Definition coco_archive_get_number_of_solutions (a : archive) : res (nat * archive) :=
  do a1 <- coco_archive_update a; Ok (number_of_solutions a1, a1).
Definition coco_archive_get_hypervolume (a : archive) : res (Z * archive) :=
  do a1 <- coco_archive_update a; Ok (hypervolume a1, a1).

Definition node_of (a : archive) (k : nat) : option item := find (fun i => Nat.eqb k (id i)) (tree a).

Fixpoint next_of (l : list item) (k : nat) : option nat :=
  match l with
  | [] => None
  | i :: l' => if Nat.eqb k (id i) then option_map id (nth_error l' 0) else next_of l' k
  end.

Definition set_reading (a : archive) (c : option nat) (r : bool) : archive :=
  {| tree := tree a; up_to_date := up_to_date a; number_of_solutions := number_of_solutions a;
     hypervolume := hypervolume a; current := c; extreme1 := extreme1 a; extreme2 := extreme2 a;
     extremes_returned := r; next_id := next_id a |}.

Definition opt_eqb (a b : option nat) : bool :=
  match a, b with Some x, Some y => Nat.eqb x y | None, None => true | _, _ => false end.

(** Lines 283-324.  Reading a node that is not in the tree (freed) is UB; the result NULL of the
    last line is the text None.  [fuel] bounds the self-call (at most two in a row). *)
Fixpoint next_text (fuel : nat) (a0 : archive) : res (option cstr * archive) :=
  do a <- coco_archive_update a0;
  let read o := match o with Some k => match node_of a k with Some i => Ok (text i) | None => UB end | None => UB end in
  if negb (extremes_returned a) then
    match current a with
    | None => do t <- read (extreme1 a); Ok (Some t, set_reading a (extreme2 a) false)
    | Some c =>
      if opt_eqb (Some c) (extreme2 a)
      then do t <- read (extreme2 a); Ok (Some t, set_reading a (option_map id (nth_error (tree a) 0)) true)
      else Ok (None, a)
    end
  else
    match current a with
    | None => Ok (Some [], a)
    | Some c =>
      if opt_eqb (Some c) (extreme1 a) || opt_eqb (Some c) (extreme2 a) then
        match fuel with
        | O => UB
        | S fuel' => match node_of a c with
                     | None => UB
                     | Some _ => next_text fuel' (set_reading a (next_of (tree a) c) true)
                     end
        end
      else do t <- read (Some c); Ok (Some t, set_reading a (next_of (tree a) c) true)
    end.

Definition coco_archive_get_next_solution_text (a : archive) : res (option cstr * archive) := next_text 2 a.

(** Uses of an archive and their visible results. *)
Inductive use := Add (k : Z * Z) (txt : cstr) | Next | Count | Hyper.
Inductive seen := Added (r : Z) | Text (t : option cstr) | Number (n : nat) | Volume (v : Z).


Definition perform (a : archive) (u : use) : res (seen * archive) :=
  match u with
  | Add k txt => do (a1, r) <- coco_archive_add_solution a k txt; Ok (Added r, a1)
  | Next => do (t, a1) <- coco_archive_get_next_solution_text a; Ok (Text t, a1)
  | Count => do (n, a1) <- coco_archive_get_number_of_solutions a; Ok (Number n, a1)
  | Hyper => do (v, a1) <- coco_archive_get_hypervolume a; Ok (Volume v, a1)
  end.

Fixpoint perform_all (a : archive) (us : list use) : res (list seen * archive) :=
  match us with
  | [] => Ok ([], a)
  | u :: us' => do (o, a1) <- perform a u; do (os, a2) <- perform_all a1 us'; Ok (o :: os, a2)
  end.
