(** Specifications for paths and directories (C17-C19). *)
From Coq Require Import List Arith NArith ZArith Ascii String Bool Lia.
Import ListNotations.
From Verif Require Import CBase FsModel.

(** * C17: the components joined by a slash (no slash after an empty beginning). *)
Fixpoint joined (base : cstr) (comps : list cstr) : cstr :=
  match comps with
  | [] => base
  | c :: cs => joined (match base with [] => c | _ => base ++ "/"%char :: c end) cs
  end.

(** Every single component, added to the base alone, fits. *)
Definition each_fits (m : nat) (base : cstr) (comps : list cstr) : Prop :=
  forall c, In c comps -> List.length base + 1 + List.length c < m.

(** * C18 *)
(** Candidate k: the name itself, then the name with a dash and k as four decimal digits. *)
Definition decimal4 (k : nat) : cstr :=
  map (fun d => nth d (str "0123456789") "0"%char)
      [k / 1000 mod 10; k / 100 mod 10; k / 10 mod 10; k mod 10].
Definition candidate (name : cstr) (k : nat) : cstr :=
  match k with O => name | _ => name ++ str "-" ++ decimal4 k end.

(** A path without one trailing slash. *)
Definition without_slash (p q : cstr) : Prop :=
  p = q ++ str "/" \/ (p = q /\ q <> [] /\ forall q', q <> q' ++ str "/").

(** The form of a Windows drive, which is never created. *)
Definition drive (p : cstr) : Prop := exists c, p = [c; ":"%char].

(** The path of a directory that contains p. *)
Definition parent_of (s p : cstr) : Prop := exists t, s <> [] /\ p = s ++ str "/" ++ t.

Section Calls.
Variable K : Type.
Variable resolve : cstr -> K.

(** The last mkdir call found the file system f and had outcome o. *)
Definition last_call (w : world K) (p : cstr) (o : outcome) (f : files K) : Prop :=
  exists l, log K w = {| ev_path := p; ev_before := f; ev_outcome := o |} :: l.

(** Among the calls is one that found the name taken (or the name is never created). *)
Definition taken_in (l : list (event K)) (name : cstr) : Prop :=
  exists q, without_slash name q /\
    (drive q \/ exists f, In {| ev_path := q; ev_before := f; ev_outcome := Exists |} l /\ In (resolve q) (map fst f)).

(** The directory [name] was made by the last call and did not exist right before. *)
Definition made_new (name : cstr) (w' : world K) : Prop :=
  exists q f, without_slash name q /\ last_call w' q Created f /\ ~ In (resolve q) (map fst f) /\
    fs K w' = (resolve q, KDir) :: f.
End Calls.

(** * C19 *)
Inductive shape_of := SFile | SDir | SLink (target : path).
(** What is found at a path. *)
Definition shape (t : node) (p : path) : option shape_of :=
  match walk t p with
  | None => None
  | Some File => Some SFile
  | Some (Dir _) => Some SDir
  | Some (Link q) => Some (SLink q)
  end.

Definition below (p q : path) : Prop := exists s, q = p ++ s.

(** Entries of a directory have different names. *)
Definition proper_tree (t : node) : Prop :=
  forall p es, walk t p = Some (Dir es) -> NoDup (map fst es).

Definition no_links_below (t : node) (p : path) : Prop :=
  forall q target, shape t (p ++ q) <> Some (SLink target).

(** All path texts under p (whose own text has length len) fit the formatting buffer. *)
Definition texts_fit (t : node) (p : path) (len : nat) : Prop :=
  forall q, shape t (p ++ q) <> None -> text_length len q <= 441.
