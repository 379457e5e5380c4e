(** Normalisation of objective vectors, dominance and the orderings of the archives in binary64 (mo_utilities.c,
    coco_archive.c, logger_biobj.c).  Warnings are left out; a failed assert is [UB].  MoModel.v is the same code on
    integers. *)
From Coq Require Import List ZArith Bool.
From Verif Require Import CBase DblModel.
Import ListNotations.
Open Scope Z_scope.

(** mo_utilities.c:18 and 25 *)
Definition mo_precision : double := ddec 1 13.
Definition mo_discretization : double := dmul (dint 5) (ddec 1 13).

(** The rounded quotient of mo_utilities.c:55-56, before it is multiplied *)
Definition step_number (y ideal nadir : double) : double :=
  coco_double_round (ddiv (ddiv (dsub y ideal) (dsub nadir ideal)) mo_discretization).
(** mo_utilities.c:53-61, one objective *)
Definition normalize_value (y ideal nadir : double) : res double :=
  if dlt mo_discretization (dsub nadir ideal) then
    let v := dmul (step_number y ideal nadir) mo_discretization in
    Ok (if dlt v dzero then dzero else v)
  else UB.

(** mo_utilities.c:48-72 mo_normalize for two objectives *)
Definition mo_normalize (y ideal nadir : double * double) : res (double * double) :=
  do n0 <- normalize_value (fst y) (fst ideal) (fst nadir);
  do n1 <- normalize_value (snd y) (snd ideal) (snd nadir);
  let n1 := if coco_double_almost_equal n0 dzero mo_precision && dlt n1 (dint 1) then dint 1 else n1 in
  let n0 := if coco_double_almost_equal n1 dzero mo_precision && dlt n0 (dint 1) then dint 1 else n0 in
  Ok (n0, n1).

(** mo_utilities.c:86-111 mo_get_dominance *)
Fixpoint dominance_flags (y1 y2 : list double) (flag1 flag2 : bool) : bool * bool :=
  match y1, y2 with
  | a :: y1', b :: y2' =>
    if coco_double_almost_equal a b mo_precision then dominance_flags y1' y2' flag1 flag2
    else if dlt a b then dominance_flags y1' y2' true flag2
    else if dlt b a then dominance_flags y1' y2' flag1 true
    else dominance_flags y1' y2' flag1 flag2
  | _, _ => (flag1, flag2)
  end.
Definition mo_get_dominance (y1 y2 : list double) : Z :=
  match dominance_flags y1 y2 false false with
  | (true, false) => 1
  | (false, true) => -1
  | (true, true) => 0
  | (false, false) => -2
  end.
Definition vec (p : double * double) : list double := [fst p; snd p].

(** mo_utilities.c:116-129 mo_is_within_ROI *)
Definition value_within (v : double) : bool :=
  coco_double_almost_equal v dzero mo_precision || coco_double_almost_equal v (dint 1) mo_precision ||
  (dlt dzero v && dlt v (dint 1)).
Definition mo_is_within_ROI (p : double * double) : bool := value_within (fst p) && value_within (snd p).

(** coco_archive.c:77-86 coco_archive_compare_by_last_objective, logger_biobj.c:234-243 *)
Definition compare_last (p q : double * double) : Z :=
  if coco_double_almost_equal (snd p) (snd q) mo_precision then 0
  else if dlt (snd p) (snd q) then -1 else 1.
