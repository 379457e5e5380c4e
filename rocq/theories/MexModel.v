(** Model of the gateway of the MATLAB/Octave interface, build/matlab/cocoCall.c: names of functions, handles of objects and integer
    results as bytes in memory. *)
From Coq Require Import String List Arith NArith Ascii Bool.
Import ListNotations.
From Verif Require Import CBase.
Local Notation length := List.length.
Local Open Scope nat_scope.

(** A size_t of w bytes (4 or 8, depending on the platform), little endian *)
Fixpoint bytes (w : nat) (v : N) : list N :=
  match w with O => [] | S w' => (v mod 256)%N :: bytes w' (v / 256)%N end.
Fixpoint value (b : list N) : N := match b with [] => 0%N | c :: b' => (c + 256 * value b')%N end.
(** *(size_t * )p = v, and reading it, where p points to a block of memory; behind its end this is undefined *)
Definition store (w : nat) (block : list N) (v : N) : res (list N) :=
  if length block <? w then UB else Ok (bytes w v ++ skipn w block).
Definition load (w : nat) (block : list N) : res N := if length block <? w then UB else Ok (value (firstn w block)).

(** Lines 130-133 (and 196-199, 560-563, 604-607, 649-652, 675-678): a new 1 x 1 matrix of class int64 holds the address *)
Definition new_handle (w : nat) (address : N) : res (list N) := store w (repeat 0%N 8) address.
(** Lines 26-28 and the same two lines in every function *)
Definition from_handle (w : nat) (handle : list N) : res N := load w handle.
(** Lines 522-535 *)
Definition cocoProblemIsValid (w : nat) (handle : list N) : res bool := do a <- from_handle w handle; Ok (negb (a =? 0)%N).
(** Lines 202-220, 238-256, 258-276, 278-296, 413-431, 433-451, 453-471: a new 1 x 1 array of class int32 is written through a pointer
    to size_t *)
Definition integer_result (w : nat) (v : N) : res (list N) := store w (repeat 0%N 4) v.

(** The functions behind the gateway with the number of arguments they require *)
Inductive mfun := EvaluateFunction | EvaluateConstraint | RecommendSolution | NewObserverF | ObserverFree | SignalRestart | AddObserver
  | FinalTargetHit | ProblemFree | GetDimension | GetEvaluations | GetEvaluationsConstraints | GetId | GetInitialSolution
  | GetLargestFValues | GetLargestValues | GetName | GetNumberOfObjectives | GetNumberOfConstraints | GetNumberOfIntegerVariables
  | GetSmallestValues | GetBestValue | IsValid | RemoveObserver | SetLogLevel | NewSuite | SuiteFree | GetNextProblem | GetProblem.
Definition arity (f : mfun) : nat :=
  match f with
  | EvaluateFunction | EvaluateConstraint | RecommendSolution | NewObserverF | SignalRestart | AddObserver | RemoveObserver
  | GetNextProblem | GetProblem => 2
  | NewSuite => 3
  | _ => 1
  end.
(** tolower in the C locale *)
Definition lower (c : ascii) : ascii :=
  let n := nat_of_ascii c in if (65 <=? n) && (n <=? 90) then ascii_of_nat (n + 32) else c.
(** Lines 702-766, the comparisons in their order *)
Definition table : list (cstr * mfun) :=
  [(str "cocoevaluatefunction", EvaluateFunction); (str "cocoevaluateconstraint", EvaluateConstraint);
   (str "cocorecommendsolution", RecommendSolution); (str "cocoobserver", NewObserverF); (str "cocoobserverfree", ObserverFree);
   (str "cocoobserversignalrestart", SignalRestart); (str "cocoproblemaddobserver", AddObserver);
   (str "cocoproblemfinaltargethit", FinalTargetHit); (str "cocoproblemfree", ProblemFree);
   (str "cocoproblemgetdimension", GetDimension); (str "cocoproblemgetevaluations", GetEvaluations);
   (str "cocoproblemgetevaluationsconstraints", GetEvaluationsConstraints); (str "cocoproblemgetid", GetId);
   (str "cocoproblemgetinitialsolution", GetInitialSolution);
   (str "cocoproblemgetlargestfvaluesofinterest", GetLargestFValues); (str "cocoproblemgetlargestvaluesofinterest", GetLargestValues);
   (str "cocoproblemgetname", GetName); (str "cocoproblemgetnumberofobjectives", GetNumberOfObjectives);
   (str "cocoproblemgetnumberofconstraints", GetNumberOfConstraints);
   (str "cocoproblemgetnumberofintegervariables", GetNumberOfIntegerVariables);
   (str "cocoproblemgetsmallestvaluesofinterest", GetSmallestValues); (str "cocoproblemgetbestvalue", GetBestValue);
   (str "cocoproblemisvalid", IsValid); (str "cocoproblemremoveobserver", RemoveObserver); (str "cocosetloglevel", SetLogLevel);
   (str "cocosuite", NewSuite); (str "cocosuitefree", SuiteFree); (str "cocosuitegetnextproblem", GetNextProblem);
   (str "cocosuitegetproblem", GetProblem)].
Fixpoint find_function (t : list (cstr * mfun)) (s : cstr) : option mfun :=
  match t with [] => None | (n, f) :: t' => if streq s n then Some f else find_function t' s end.
(** mexFunction, lines 687-769 (the result of cocoProblemGetBestValue is supposed to be used, see line 509): an error, a warning without result, or the function called *)
Inductive gateway := MexError | Unsupported | Calls (f : mfun).
Definition mexFunction (name : cstr) (arguments : nat) : gateway :=
  if S arguments <? 2 then MexError else
  match find_function table (map lower name) with
  | None => Unsupported
  | Some f => if arguments =? arity f then Calls f else MexError
  end.
