(** Specification of the memory of problems: which requests are valid, which blocks are lost, and
    what it means that no pointer dangles.  Independent of how problems are built and freed. *)
From Coq Require Import List Arith Bool.
From Verif Require Import CBase MemModel MemSuiteModel.
Import ListNotations.
Local Open Scope nat_scope.

(** The pointers stored in a block. *)
Definition pointers (c : cell) : list ptr :=
  match c with
  | Block => []
  | Pointers _ l => l
  | ProblemCell q =>
    [smallest q; largest q; best_parameter q; best_value q; nadir q; name q; id q; type q; data q;
     initial q; noise_free q; versatile q]
  | TransformedCell i d _ => [i; d]
  | StackedCell a b => [a; b]
  end.

Definition live (h : heap) (a : addr) : Prop := exists c, nth_error h a = Some (Some c).

(** Every pointer stored in a block allocated since h0 leads to an allocated block. *)
Definition no_dangling (h0 h : heap) : Prop :=
  forall a c b, length h0 <= a -> nth_error h a = Some (Some c) -> In (Some b) (pointers c) ->
  live h b.

(** The number of blocks allocated since h0 and not freed. *)
Definition live_cells (l : heap) : nat :=
  length (filter (fun o => match o with Some _ => true | None => false end) l).
Definition live_since (h0 h : heap) : nat := live_cells (skipn (length h0) h).

(** Nothing that was there before has been changed or freed. *)
Definition untouched (h0 h : heap) : Prop := firstn (length h0) h = h0.

Definition between (a b n : nat) : Prop := a <= n <= b.

(** The functions of the suites. *)
Definition valid_check (c : nat * nat * nat) : Prop :=
  let '(d, f1, f2) := c in between 1 24 f1 /\ between 1 24 f2.
Definition valid_instance (i : option (nat * list (nat * nat * nat))) : Prop :=
  match i with None => True | Some (_, l) => Forall valid_check l end.
Definition valid (r : request) : Prop :=
  match r with
  | Toy f _ => between 1 6 f
  | Bbob f _ | Boxed f _ | Largescale f _ | Mixint f _ => between 1 24 f
  | Noisy f _ => between 101 130 f
  | Constrained k _ _ _ => between 1 9 k
  | Biobj f1 f2 _ i | BiobjMixint f1 f2 _ i =>
    between 1 24 f1 /\ between 1 24 f2 /\ valid_instance i
  end.

(** Constrained problems print a missing name. *)
Definition prints_null (r : request) : bool := match r with Constrained _ _ _ _ => true | _ => false end.
Definition two_objectives (r : request) : bool :=
  match r with Biobj _ _ _ _ | BiobjMixint _ _ _ _ => true | _ => false end.

(** The blocks lost by fetching a problem. *)
Definition lost_by_fetch (r : request) : nat :=
  match r with
  | Biobj _ _ _ (Some (n, _)) | BiobjMixint _ _ _ (Some (n, _)) => 1 + n
  | _ => 0
  end.

(** What a session has done to its problems: for each problem fetched, whether it has two
    objectives and how many loggers are attached; [None] once it is freed. *)
Definition status := list (option (bool * nat)).
Fixpoint set_status (l : status) (i : nat) (x : option (bool * nat)) : status :=
  match l, i with
  | [], _ => []
  | _ :: l', 0 => x :: l'
  | y :: l', S i' => y :: set_status l' i' x
  end.

(** One command: the status afterwards and the number of blocks lost; [None]: the command is not
    allowed (an invalid request, a problem that does not exist or has been freed, no logger to
    remove). *)
Definition allowed (null_ok : bool) (c : command) (s : status) : Prop :=
  match c with
  | Fetch r => valid r /\ (prints_null r = true -> null_ok = true)
  | Observe i _ | Free i => exists x, nth_error s i = Some (Some x)
  | Unobserve i => exists b n, nth_error s i = Some (Some (b, S n))
  end.
Definition next_status (c : command) (s : status) : status :=
  match c with
  | Fetch r => s ++ [Some (two_objectives r, 0)]
  | Observe i _ =>
    match nth_error s i with Some (Some (b, n)) => set_status s i (Some (b, S n)) | _ => s end
  | Unobserve i =>
    match nth_error s i with Some (Some (b, n)) => set_status s i (Some (b, n - 1)) | _ => s end
  | Free i => set_status s i None
  end.
Definition lost_by (c : command) (s : status) : nat :=
  match c with
  | Fetch r => lost_by_fetch r
  | Observe i _ => match nth_error s i with Some (Some (true, _)) => 1 | _ => 0 end
  | _ => 0
  end.

Fixpoint all_allowed (null_ok : bool) (cs : list command) (s : status) : Prop :=
  match cs with
  | [] => True
  | c :: cs' => allowed null_ok c s /\ all_allowed null_ok cs' (next_status c s)
  end.
Fixpoint final_status (cs : list command) (s : status) : status :=
  match cs with [] => s | c :: cs' => final_status cs' (next_status c s) end.
Fixpoint lost_in (cs : list command) (s : status) : nat :=
  match cs with [] => 0 | c :: cs' => lost_by c s + lost_in cs' (next_status c s) end.
