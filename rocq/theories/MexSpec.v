(** The names of the functions that come with the MATLAB interface. *)
From Coq Require Import String List Arith NArith Ascii Bool.
Import ListNotations.
From Verif Require Import CBase MexModel.

(** build/matlab/coco*.m: the name in cocoCall *)
Definition matlab_name (f : mfun) : cstr :=
  str match f with
  | EvaluateFunction => "cocoEvaluateFunction" | EvaluateConstraint => "cocoEvaluateConstraint"
  | RecommendSolution => "cocoRecommendSolution" | NewObserverF => "cocoObserver" | ObserverFree => "cocoObserverFree"
  | SignalRestart => "cocoObserverSignalRestart" | AddObserver => "cocoProblemAddObserver"
  | FinalTargetHit => "cocoProblemFinalTargetHit" | ProblemFree => "cocoProblemFree" | GetDimension => "cocoProblemGetDimension"
  | GetEvaluations => "cocoProblemGetEvaluations" | GetEvaluationsConstraints => "cocoProblemGetEvaluationsConstraints"
  | GetId => "cocoProblemGetId" | GetInitialSolution => "cocoProblemGetInitialSolution"
  | GetLargestFValues => "cocoProblemGetLargestFValuesOfInterest" | GetLargestValues => "cocoProblemGetLargestValuesOfInterest"
  | GetName => "cocoProblemGetName" | GetNumberOfObjectives => "cocoProblemGetNumberOfObjectives"
  | GetNumberOfConstraints => "cocoProblemGetNumberOfConstraints"
  | GetNumberOfIntegerVariables => "cocoProblemGetNumberOfIntegerVariables"
  | GetSmallestValues => "cocoProblemGetSmallestValuesOfInterest" | GetBestValue => "cocoProblemGetBestValue"
  | IsValid => "cocoProblemIsValid" | RemoveObserver => "cocoProblemRemoveObserver" | SetLogLevel => "cocoSetLogLevel"
  | NewSuite => "cocoSuite" | SuiteFree => "cocoSuiteFree" | GetNextProblem => "cocoSuiteGetNextProblem"
  | GetProblem => "cocoSuiteGetProblem" end.
(** The parameters of the function in the file of this name with .m, which calls cocoCall with its name and all of them *)
Definition parameters (f : mfun) : list cstr :=
  map str match f with
  | EvaluateFunction | EvaluateConstraint | RecommendSolution => ["problem"; "x"]
  | NewObserverF => ["observer_name"; "observer_options"]
  | ObserverFree => ["observer"]
  | SignalRestart => ["observer"; "problem"]
  | AddObserver | RemoveObserver => ["problem"; "observer"]
  | FinalTargetHit | ProblemFree | GetBestValue | GetDimension | GetEvaluations | GetEvaluationsConstraints | GetId | GetInitialSolution
  | GetLargestFValues | GetLargestValues | GetName | GetNumberOfConstraints | GetNumberOfIntegerVariables | GetNumberOfObjectives
  | GetSmallestValues | IsValid => ["problem"]
  | SetLogLevel => ["log_level"]
  | NewSuite => ["suite_name"; "suite_instance"; "suite_options"]
  | SuiteFree => ["suite"]
  | GetNextProblem => ["suite"; "observer"]
  | GetProblem => ["suite"; "problem_index"] end%string.
(** Equal but for the case of letters A to Z *)
Definition same_letter (a b : ascii) : Prop :=
  a = b \/ exists k, (k < 26)%nat /\ (nat_of_ascii a = 65 + k /\ nat_of_ascii b = 97 + k \/ nat_of_ascii a = 97 + k /\ nat_of_ascii b = 65 + k)%nat.
Definition same_word (s t : cstr) : Prop := Forall2 same_letter s t.
(** What MATLAB reads from four bytes of class int32 *)
Definition int32 (b : list N) (v : N) : Prop := value b = v /\ (v < 2 ^ 31)%N.
