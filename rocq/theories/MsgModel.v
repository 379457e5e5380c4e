(** Model of messages and log levels: src/coco_runtime_c.c 16-79, src/coco_runtime_matlab.c 16-99 and src/coco_utilities.c 30-77.
    Formats have the conversions of IdModel.v only.  Writing to a stream always succeeds. *)
From Coq Require Import List Arith NArith Ascii String Bool.
From Verif Require Import CBase OptModel IdModel.
Import ListNotations.

(** src/coco.h 116-122 *)
Definition COCO_ERROR := 0. Definition COCO_WARNING := 1. Definition COCO_INFO := 2. Definition COCO_DEBUG := 3.
Inductive function := coco_error | coco_warning | coco_info | coco_info_partial | coco_debug.
(** Where it is written: mexPrintf in MATLAB *)
Inductive stream := StdErr | StdOut | Console.
Definition text := list (stream * cstr).
Inductive runtime := C | Matlab.
(** [exited]: the process has ended by exit *)
Record state := mk_state { coco_log_level : nat; written : text; exited : bool }.
(** coco_utilities.c line 33 *)
Definition start : state := mk_state COCO_INFO [] false.

Definition NEWLINE : cstr := ["010"%char].
Definition prefix (f : function) : cstr :=
  match f with
  | coco_error => str "COCO FATAL ERROR: " | coco_warning => str "COCO WARNING: " | coco_info => str "COCO INFO: "
  | coco_info_partial => [] | coco_debug => str "COCO DEBUG: "
  end.
Definition suffix (f : function) : cstr := match f with coco_info_partial => [] | _ => NEWLINE end.
(** The stream of coco_runtime_c.c *)
Definition stream_of (f : function) : stream := match f with coco_error | coco_warning => StdErr | _ => StdOut end.
(** The condition before anything is written *)
Definition enabled (f : function) (level : nat) : bool :=
  match f with
  | coco_error => true
  | coco_warning => COCO_WARNING <=? level
  | coco_info => COCO_INFO <=? level
  | coco_info_partial => COCO_INFO <=? level
  | coco_debug => COCO_DEBUG <=? level
  end.
(** coco_runtime_c.c: vfprintf; coco_runtime_matlab.c: vsprintf into 500 bytes, then the result as the format of mexPrintf, without arguments *)
Definition message (r : runtime) (f : function) (fmt : cstr) (args : list arg) : res text :=
  match r with
  | C => do t <- vsprintf fmt args; Ok [(stream_of f, prefix f ++ t ++ suffix f)]
  | Matlab =>
    do t <- vsprintf fmt args;
    if 500 <=? List.length t then UB else do u <- vsprintf t []; Ok [(Console, prefix f ++ u ++ suffix f)]
  end.
Definition call (r : runtime) (f : function) (fmt : cstr) (args : list arg) (s : state) : res state :=
  if enabled f (coco_log_level s) then
    do t <- message r f fmt args;
    Ok (mk_state (coco_log_level s) (written s ++ t) match f with coco_error => true | _ => false end)
  else Ok s.
(** coco_utilities.c 47-77; the level always is one of the four, so that line 74 is not reached (it ends the process). *)
Definition coco_set_log_level (r : runtime) (log_level : cstr) (s : state) : res (cstr * state) :=
  let previous_log_level := coco_log_level s in
  let to l := Ok (mk_state l (written s) (exited s)) in
  do s' <- (if streq log_level (str "error") then to COCO_ERROR
            else if streq log_level (str "warning") then to COCO_WARNING
            else if streq log_level (str "info") then to COCO_INFO
            else if streq log_level (str "debug") then to COCO_DEBUG
            else if streq log_level [] then Ok s
            else call r coco_warning (str "coco_set_log_level(): unknown level %s") [AStr log_level] s);
  if previous_log_level =? COCO_ERROR then Ok (str "error", s')
  else if previous_log_level =? COCO_WARNING then Ok (str "warning", s')
  else if previous_log_level =? COCO_INFO then Ok (str "info", s')
  else if previous_log_level =? COCO_DEBUG then Ok (str "debug", s')
  else do s'' <- call r coco_error (str "coco_set_log_level(): unknown previous log level") [] s'; Ok ([], s'').

(** A program as far as it writes messages *)
Inductive event := Level (name : cstr) | Say (f : function) (fmt : cstr) (args : list arg).
Definition step (r : runtime) (e : event) (s : state) : res state :=
  match e with
  | Level name => do (_, s') <- coco_set_log_level r name s; Ok s'
  | Say f fmt args => call r f fmt args s
  end.
Fixpoint run (r : runtime) (p : list event) (s : state) : res state :=
  match p with
  | [] => Ok s
  | e :: p' => if exited s then Ok s else do s' <- step r e s; run r p' s'
  end.
