(** Which messages are to be shown, independent of the state kept by the model. *)
From Coq Require Import List Arith Ascii String.
From Verif Require Import CBase OptModel IdModel MsgModel.
Import ListNotations.
Local Notation length := List.length.

(** Levels by name, from few messages to all *)
Definition names : list cstr := [str "error"; str "warning"; str "info"; str "debug"].
Definition known (name : cstr) : Prop := In name names.
(** The level after the events: that of the last known name, "info" if there is none *)
Inductive level_after (p : list event) : nat -> Prop :=
| never_set : (forall name, In (Level name) p -> ~ known name) -> level_after p 2
| last_set : forall a b name l, p = a ++ Level name :: b -> nth_error names l = Some name ->
    (forall other, In (Level other) b -> ~ known other) -> level_after p l.
Definition severity (f : function) : nat :=
  match f with coco_error => 0 | coco_warning => 1 | coco_info => 2 | coco_info_partial => 2 | coco_debug => 3 end.
(** How a message is shown *)
Definition line_of (f : function) (t : cstr) : stream * cstr :=
  match f with
  | coco_error => (StdErr, str "COCO FATAL ERROR: " ++ t ++ ["010"%char])
  | coco_warning => (StdErr, str "COCO WARNING: " ++ t ++ ["010"%char])
  | coco_info => (StdOut, str "COCO INFO: " ++ t ++ ["010"%char])
  | coco_info_partial => (StdOut, t)
  | coco_debug => (StdOut, str "COCO DEBUG: " ++ t ++ ["010"%char])
  end.
(** What a call shows, after the given events: the formatted message, if the level is high enough *)
Inductive shows (before : list event) : event -> text -> Prop :=
| shows_message : forall f fmt args l t, level_after before l -> severity f <= l -> vsprintf fmt args = Ok t ->
    shows before (Say f fmt args) [line_of f t]
| shows_none : forall f fmt args l, level_after before l -> l < severity f -> shows before (Say f fmt args) []
| shows_level : forall name, known name \/ name = [] -> shows before (Level name) []
| shows_unknown : forall name l, ~ known name -> name <> [] -> level_after before l -> 1 <= l ->
    shows before (Level name) [(StdErr, str "COCO WARNING: coco_set_log_level(): unknown level " ++ name ++ ["010"%char])]
| shows_unknown_none : forall name, ~ known name -> name <> [] -> level_after before 0 -> shows before (Level name) [].
Definition well_formed (e : event) : Prop := match e with Say f fmt args => exists t, vsprintf fmt args = Ok t | Level _ => True end.
Definition no_error (e : event) : Prop := match e with Say coco_error _ _ => False | _ => True end.
(** Messages that MATLAB can show: less than 500 characters, no percent sign *)
Definition plain (e : event) : Prop :=
  match e with
  | Say f fmt args => exists t, vsprintf fmt args = Ok t /\ length t < 500 /\ ~ In PERCENT t
  | Level name => length name < 464 /\ ~ In PERCENT name
  end.
