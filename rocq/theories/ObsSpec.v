(** Specification of the options of observers. *)
From Coq Require Import String List Arith NArith ZArith Ascii Bool Reals.
From Verif Require Import CBase StrSpec OptModel OptSpec FsModel FsSpec DblModel LogsModel ObsModel.
Import ListNotations.
Local Notation length := List.length.
Open Scope nat_scope.

(** ** Option strings *)

Fixpoint lookup (l : list (cstr * cstr)) (k : cstr) : option cstr :=
  match l with
  | [] => None
  | (k', v) :: l' => if streq k' k then Some v else lookup l' k
  end.

(** The keys of all observers. *)
Definition all_keys : list cstr :=
  map str ["outer_folder"; "result_folder"; "algorithm_name"; "algorithm_info"; "number_target_triggers";
           "log_target_precision"; "lin_target_precision"; "number_evaluation_triggers"; "base_evaluation_triggers";
           "precision_x"; "precision_f"; "precision_g"; "log_discrete_as_int"; "file_name"; "prefix";
           "log_nondominated"; "log_decision_variables"; "compute_indicators"; "produce_all_data";
           "log_variables"; "log_constraints"; "low_dim_vars"; "low_dim_cons"; "log_only_better"; "log_time"]%string.

(** The keys that are valid for an observer. *)
Definition valid_keys (k : logger_kind) : list cstr :=
  map str ((["outer_folder"; "result_folder"; "algorithm_name"; "algorithm_info"; "number_target_triggers";
            "log_target_precision"; "lin_target_precision"; "number_evaluation_triggers"; "base_evaluation_triggers";
            "precision_x"; "precision_f"; "precision_g"; "log_discrete_as_int"]%string : list string) ++
           match k with
           | LToy => ["file_name"]
           | LBbob => ["prefix"]
           | LBbobOld => []
           | LBiobj => ["log_nondominated"; "log_decision_variables"; "compute_indicators"; "produce_all_data"]
           | LRw => ["log_variables"; "log_constraints"; "low_dim_vars"; "low_dim_cons"; "log_only_better"; "log_time"]
           end%string).

(** A text with something in it, either without quotation marks or one quotation. *)
Definition complete_text (v : cstr) : Prop :=
  ~ blank v /\
  (~ In """"%char v \/
   exists b t r, v = b ++ """"%char :: t ++ """"%char :: r /\ blank b /\ ~ In """"%char t).
(** Entries in which no key of an observer occurs inside another key or a text. *)
Definition entries_ok (l : list (cstr * cstr)) : Prop :=
  separated l /\ small (written l) /\
  Forall (fun e => key_like (fst e) /\ complete_text (snd e) /\
                   forall k, In k all_keys -> absent (snd e) k /\ (fst e = k \/ absent (fst e) k)) l.

(** ** Values *)

(** A string: a word, or a quotation that is not empty. *)
Definition string_written (v w : cstr) : Prop :=
  first_word v w /\ nth_error w 0 <> Some """"%char \/ quoted_text v w.

(** A decimal number with an optional sign, without leading zeros. *)
Definition decimal_written (v : cstr) (z : Z) : Prop :=
  exists b s d rest, v = b ++ s ++ d ++ rest /\ blank b /\ digits d /\
    (exists c d', d = c :: d' /\ (c <> "0"%char \/ d' = [] /\ forall x r, rest = x :: r -> x <> "x"%char /\ x <> "X"%char)) /\
    (forall c r, rest = c :: r -> isdigit c = false) /\
    (s = [] /\ z = Z.of_N (dec d) \/ s = ["+"%char] /\ z = Z.of_N (dec d) \/ s = ["-"%char] /\ z = (- Z.of_N (dec d))%Z).

(** A value is the one given if there is one and it is acceptable, else the default. *)
Definition string_setting (l : list (cstr * cstr)) (key : cstr) (default x : cstr) : Prop :=
  (lookup l key = None -> x = default) /\
  (forall v w, lookup l key = Some v -> string_written v w -> x = w).
Definition int_setting (l : list (cstr * cstr)) (key : cstr) (default lo hi x : Z) : Prop :=
  (lookup l key = None -> x = default) /\
  (forall v z, lookup l key = Some v -> decimal_written v z -> (INT_MIN <= z <= INT_MAX)%Z ->
     x = if ((lo <=? z) && (z <=? hi))%Z then z else default).
(** A size: negative numbers are taken modulo 2^64. *)
Definition size_setting (l : list (cstr * cstr)) (key : cstr) (default least x : N) : Prop :=
  (lookup l key = None -> x = default) /\
  (forall v z, lookup l key = Some v -> decimal_written v z -> (- 2 ^ 64 < z < 2 ^ 64)%Z ->
     let n := Z.to_N (z mod 2 ^ 64) in x = if (least <=? n)%N then n else default).
(** A positive number; a text is a number according to strtod. *)
Definition double_setting (strtod : cstr -> option double) (l : list (cstr * cstr)) (key : cstr) (default x : double) : Prop :=
  (lookup l key = None -> x = default) /\
  (forall v b s d, lookup l key = Some v -> v = b ++ s -> blank b -> (forall c r, s = c :: r -> isspace c = false) ->
     strtod s = Some d -> x = if dle d (dint 0) then default else d).
(** strtod does not look beyond white space *)
Definition strtod_local (strtod : cstr -> option double) : Prop :=
  forall c s t, isspace c = true -> strtod (s ++ c :: t) = strtod (s ++ [c]).

(** A word of a list *)
Definition mode_setting {A} (l : list (cstr * cstr)) (key : cstr) (words : list (cstr * A)) (default x : A) : Prop :=
  (lookup l key = None -> x = default) /\
  (forall v w, lookup l key = Some v -> string_written v w ->
     (forall a, In (w, a) words -> x = a) /\ ((forall a, ~ In (w, a) words) -> x = default)).

(** ** Observers *)

(** What the keys of the special observers set. *)
Definition mode_words : list (cstr * log_mode) := [(str "none", LOG_NEVER); (str "low_dim", LOG_LOW_DIM); (str "all", LOG_ALWAYS)].
Definition nondom_words : list (cstr * nondom_mode) :=
  [(str "none", LOG_NONDOM_NONE); (str "final", LOG_NONDOM_FINAL); (str "all", LOG_NONDOM_ALL); (str "read", LOG_NONDOM_READ)].
Definition special_settings (l : list (cstr * cstr)) (folder : cstr) (d : observer_data) (active : bool) : Prop :=
  match d with
  | ToyData file => active = true /\ exists name, string_setting l (str "file_name") (str "first_hitting_times.dat") name /\
      (length (joined folder [name]) < N.to_nat 4095 -> file = joined folder [name])
  | BbobData prefix => active = true /\ string_setting l (str "prefix") (str "bbobexp") prefix
  | BbobOldData => active = true
  | BiobjData nondom vars compute produce =>
      int_setting l (str "produce_all_data") 0 INT_MIN INT_MAX produce /\
      (produce <> 0%Z -> nondom = LOG_NONDOM_ALL /\ vars = LOG_LOW_DIM /\ compute = 1%Z) /\
      (produce = 0%Z -> mode_setting l (str "log_nondominated") nondom_words LOG_NONDOM_ALL nondom /\
         mode_setting l (str "log_decision_variables") mode_words LOG_LOW_DIM vars /\
         int_setting l (str "compute_indicators") 1 INT_MIN INT_MAX compute) /\
      (active = false <-> nondom = LOG_NONDOM_NONE /\ compute = 0%Z)
  | RwData d =>
      active = true /\
      mode_setting l (str "log_variables") mode_words LOG_ALWAYS (log_vars_mode d) /\
      mode_setting l (str "log_constraints") mode_words LOG_ALWAYS (log_cons_mode d) /\
      size_setting l (str "low_dim_vars") 10 0 (low_dim_vars d) /\
      size_setting l (str "low_dim_cons") 10 0 (low_dim_cons d) /\
      int_setting l (str "log_only_better") 0 INT_MIN INT_MAX (observer_only_better d) /\
      int_setting l (str "log_time") 0 INT_MIN INT_MAX (observer_log_time d)
  end.
Definition data_kind (d : observer_data) : logger_kind :=
  match d with ToyData _ => LToy | BbobData _ => LBbob | BbobOldData => LBbobOld | BiobjData _ _ _ _ => LBiobj | RwData _ => LRw end.

(** Texts that the reading functions can take: strings, and numbers that fit their types. *)
Definition string_keys : list cstr :=
  map str ["outer_folder"; "result_folder"; "algorithm_name"; "algorithm_info"; "base_evaluation_triggers"; "file_name";
           "prefix"; "log_nondominated"; "log_decision_variables"; "log_variables"; "log_constraints"]%string.
Definition int_keys : list cstr :=
  map str ["precision_x"; "precision_f"; "precision_g"; "log_discrete_as_int"; "compute_indicators"; "produce_all_data";
           "log_only_better"; "log_time"]%string.
Definition size_keys : list cstr :=
  map str ["number_target_triggers"; "number_evaluation_triggers"; "low_dim_vars"; "low_dim_cons"]%string.
Definition values_fit (l : list (cstr * cstr)) : Prop :=
  forall k v, lookup l k = Some v ->
    (In k string_keys -> exists w, string_written v w) /\
    (In k int_keys -> exists z, decimal_written v z /\ (INT_MIN <= z <= INT_MAX)%Z) /\
    (In k size_keys -> exists z, decimal_written v z /\ (- 2 ^ 64 < z < 2 ^ 64)%Z).

(** Values that are given but not accepted. *)
Definition rejected (strtod : cstr -> option double) (l : list (cstr * cstr)) (k : cstr) : Prop :=
  exists v, lookup l k = Some v /\
   ((k = str "number_evaluation_triggers" /\ exists z, decimal_written v z /\ (- 2 ^ 64 < z < 2 ^ 64)%Z /\ (z mod 2 ^ 64 < 4)%Z) \/
    ((k = str "log_target_precision" \/ k = str "lin_target_precision") /\
       exists b s d, v = b ++ s /\ blank b /\ (forall c r, s = c :: r -> isspace c = false) /\ strtod s = Some d /\ dle d (dint 0) = true) \/
    ((k = str "precision_x" \/ k = str "precision_f" \/ k = str "precision_g") /\
       exists z, decimal_written v z /\ (INT_MIN <= z <= INT_MAX)%Z /\ ~ (1 <= z <= 32)%Z) \/
    (k = str "log_discrete_as_int" /\ exists z, decimal_written v z /\ (INT_MIN <= z <= INT_MAX)%Z /\ ~ (0 <= z <= 1)%Z)).

Definition same_but_evaluation_triggers (o o' : observer) : Prop :=
  o' = {| result_folder := result_folder o; observer_name := observer_name o; algorithm_name := algorithm_name o;
          algorithm_info := algorithm_info o; number_target_triggers := number_target_triggers o;
          log_target_precision := log_target_precision o; lin_target_precision := lin_target_precision o;
          number_evaluation_triggers := number_evaluation_triggers o';
          base_evaluation_triggers := base_evaluation_triggers o; precision_x := precision_x o; precision_f := precision_f o;
          precision_g := precision_g o; log_discrete_as_int := log_discrete_as_int o; is_active := is_active o;
          observer_kind := observer_kind o; observer_special := observer_special o |}.

(** The observers by name; a name that starts with "bbob-constrained" is the bbob observer. *)
Definition observers : list (string * logger_kind) :=
  [("toy", LToy); ("rw", LRw); ("bbob", LBbob); ("bbob-boxed", LBbob); ("bbob-largescale", LBbob); ("bbob-mixint", LBbob);
   ("bbob-noisy", LBbob); ("bbob-old", LBbobOld); ("bbob-biobj", LBiobj); ("bbob-biobj-ext", LBiobj);
   ("bbob-biobj-mixint", LBiobj)]%string.
Definition observer_called (name : cstr) (k : logger_kind) : Prop :=
  (exists s, name = str s /\ In (s, k) observers) \/ (k = LBbob /\ exists t, name = str "bbob-constrained" ++ t).

(** The evaluation numbers documented for n per decade: floor(10^(i/n)). *)
Definition documented_number (n v : N) : Prop := exists i, (v ^ n <= 10 ^ i < (v + 1) ^ n)%N.
