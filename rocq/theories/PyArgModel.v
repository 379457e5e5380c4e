(** Model of args_to_dict, build/python/src/cocoex/utilities.py 27-109: the command line arguments "name=value" of a script
    as a dictionary. *)
From Coq Require Import List Arith NArith ZArith Ascii String Bool.
From Verif Require Import CBase StrModel.
Import ListNotations.
Local Open Scope nat_scope.

(** str.split(sep) with a separator of one character: n separators give n + 1 pieces. *)
Fixpoint split (sep : ascii) (s : cstr) : list cstr :=
  match s with
  | [] => [[]]
  | c :: s' =>
      if Ascii.eqb c sep then [] :: split sep s'
      else match split sep s' with p :: l => (c :: p) :: l | [] => [[c]] end
  end.

(** str.startswith *)
Definition startswith (s p : cstr) : bool := is_prefix p s.

Section Args.
(** Python values, the comparison ==, ast.literal_eval with the string itself when it fails (lines 68-72), and int of a
    string ([None] for ValueError) with its result as a value. *)
Variable V : Type.
Variable equal : V -> V -> bool.
Variable eval_value : cstr -> V.
Variable int_of : cstr -> option V.

Definition dict := list (cstr * V).
Fixpoint get (d : dict) (k : cstr) : option V :=
  match d with [] => None | (k', v) :: d' => if streq k' k then Some v else get d' k end.
Fixpoint set (d : dict) (k : cstr) (v : V) : dict :=
  match d with
  | [] => [(k, v)]
  | (k', v') :: d' => if streq k' k then (k', v) :: d' else (k', v') :: set d' k v
  end.

(** Lines 85-86: zip and int; [None] for ValueError *)
Fixpoint assign (ks vs : list cstr) (res : dict) : option dict :=
  match ks, vs with
  | k :: ks', v :: vs' => match int_of v with None => None | Some x => assign ks' vs' (set res k x) end
  | _, _ => Some res
  end.

(** Lines 78-90: the special argument "batch", whose value in specials is a list of names separated by slashes *)
Definition batch (names value : cstr) (res : dict) : option dict :=
  let ks := split "/" names in let vs := split "/" value in
  if List.length ks =? List.length vs then assign ks vs res else None.

(** Lines 91-103: the loop over the known names, and the "else" of line 104; known_names may be None *)
Fixpoint find_name (loop others : list cstr) (name value : cstr) (res : dict) : option dict :=
  match loop with
  | [] => None                                                             (* 104-108 *)
  | k :: loop' =>
      if startswith k name && (List.length (filter (fun o => startswith o name) others) =? 1) then
        match get res k with
        | Some x => if equal x (eval_value value) then Some res else None  (* 96-99 *)
        | None => Some (set res k (eval_value value))                      (* 101 *)
        end
      else find_name loop' others name value res
  end.

(** Lines 75-108: one argument; [None] for ValueError *)
Definition process (known : option (list cstr)) (specials : list (cstr * cstr)) (res : dict) (arg : cstr) : option dict :=
  match split "=" arg with
  | [name; value] =>
      match find (fun s => streq (fst s) name) specials with
      | Some (_, names) => if streq name (str "batch") then batch names value res else None
      | None =>
          let loop := match known with Some l => l | None => [name] end in
          let others := match known with Some (k :: l) => k :: l | _ => [name] end in   (* known_names or [name] *)
          find_name loop others name value res
      end
  | _ => None                                                              (* name, value = arg.split(split) *)
  end.

(** The result; [None] for ValueError. *)
Fixpoint run (known : option (list cstr)) (specials : list (cstr * cstr)) (args : list cstr) (res : dict) : option dict :=
  match args with
  | [] => Some res
  | a :: args' => match process known specials res a with None => None | Some r => run known specials args' r end
  end.
Definition args_to_dict (args : list cstr) (known : option (list cstr)) (specials : list (cstr * cstr)) : option dict :=
  run known specials args [].
End Args.
