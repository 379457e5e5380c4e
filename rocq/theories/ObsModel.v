(** Model of coco_observer (src/coco_observer.c 430-492, 565-792) and of the observers it can build (src/observer_bbob.c,
    observer_bbob_old.c, observer_biobj.c, observer_rw.c, observer_toy.c). *)
From Coq Require Import String List Arith NArith ZArith Ascii Bool.
From Verif Require Import CBase StrModel OptModel FsModel DblModel BbobModel LogsModel.
Import ListNotations.
Local Notation length := List.length.

(** ** Reading of numbers *)

(** sscanf with "%lu" (src/coco_utilities.c:802-804): an optional sign and decimal digits; a minus sign negates modulo 2^64.
    A number that does not fit is undefined behaviour. *)
Definition sscanf_size_t (s0 : cstr) : res (reading N) :=
  let s := skipn (leading_space s0) s0 in
  match s with
  | [] => Ok ((-1)%Z, None)
  | c :: s' =>
      let minus := Ascii.eqb c "-"%char in
      match scan_digits 10 (if minus || Ascii.eqb c "+"%char then s' else s) None with
      | None => Ok (0%Z, None)
      | Some v => if (v <? 2 ^ 64)%Z then Ok (1%Z, Some (Z.to_N ((if minus then - v else v) mod 2 ^ 64))) else UB
      end
  end.
Definition coco_options_read_size_t (options name : cstr) : res (reading N) :=
  do t <- value_text options name;
  match t with
  | None => Ok (0%Z, None)
  | Some s => sscanf_size_t s
  end.

(** Kinds of loggers *)
Inductive logger_kind := LToy | LBbob | LBbobOld | LBiobj | LRw.
Inductive nondom_mode := LOG_NONDOM_NONE | LOG_NONDOM_FINAL | LOG_NONDOM_ALL | LOG_NONDOM_READ.

(** The data of the observers; bookkeeping that the options do not influence is left out. *)
Inductive observer_data :=
| ToyData (file : cstr)                                                                (* observer_toy.c:16-18: the open file *)
| BbobData (prefix : cstr)                                                             (* observer_bbob.c:19-29 *)
| BbobOldData                                                                          (* observer_bbob_old.c:29 *)
| BiobjData (nondom : nondom_mode) (vars : log_mode) (compute_indicators produce_all_data : Z)  (* observer_biobj.c:24-40 *)
| RwData (data : observer_rw_data).

(** src/coco_internal.h: coco_observer_s; the function pointers are given by the kind. *)
Record observer := {
  result_folder : cstr;
  observer_name : cstr;
  algorithm_name : cstr;
  algorithm_info : cstr;
  number_target_triggers : N;
  log_target_precision : double;
  lin_target_precision : double;
  number_evaluation_triggers : N;
  base_evaluation_triggers : cstr;
  precision_x : Z;
  precision_f : Z;
  precision_g : Z;
  log_discrete_as_int : Z;
  is_active : bool;
  observer_kind : logger_kind;
  observer_special : observer_data }.

(** What is said to the user. *)
Inductive message :=
| EmptyName
| Unsuitable (key : cstr)
| UnknownObserver (name : cstr)
| IgnoredKeys (text : cstr).

(** "no assignment" gives the default.  A value of -1 (nothing behind the colon) leaves the buffer, which has not been
    initialised, as it is, and all these buffers are read afterwards. *)
Definition string_option (options key : cstr) (cap : nat) (default : cstr) : res cstr :=
  do (n, v) <- coco_options_read_string options key (N.of_nat cap);
  if (n =? 0)%Z then Ok default
  else match v with Some s => Ok s | None => UB end.

(** A variable that is initialised with the default, read, and reset with a warning when the return value is not 0 and the
    value unsuitable. *)
Definition checked_option {A} (r : res (reading A)) (key : cstr) (default : A) (suitable : A -> bool)
    : res (A * list message) :=
  do (n, v) <- r;
  let value := match v with Some z => z | None => default end in
  if negb (n =? 0)%Z then if suitable value then Ok (value, []) else Ok (default, [Unsuitable key]) else Ok (value, []).
Definition int_option (options key : cstr) (default lo hi : Z) : res (Z * list message) :=
  checked_option (coco_options_read_int options key) key default (fun v => negb ((v <? lo)%Z || (hi <? v)%Z)).

(** A variable in malloc'ed memory that is set to the default if the return value is 0 (observer_rw.c:88-98, observer_biobj.c:122-126);
    nothing behind the colon leaves it uninitialised, and it is read by the loggers. *)
Definition raw_option {A} (r : res (reading A)) (default : A) : res A :=
  do (n, v) <- r;
  if (n =? 0)%Z then Ok default else match v with Some z => Ok z | None => UB end.

(** observer_rw.c:69-86, observer_biobj.c:98-119: one of a list of words *)
Definition mode_option {A} (options key : cstr) (words : list (cstr * A)) (default : A) : res A :=
  do (n, v) <- coco_options_read_string options key (N.of_nat (S COCO_PATH_MAX));
  Ok (match v with
      | Some s => if (0 <? n)%Z then match find (fun w => streq s (fst w)) words with Some w => snd w | None => default end else default
      | None => default
      end).

(** coco_observer.c:580-592 *)
Definition known_observer_keys : list cstr :=
  map str ["outer_folder"; "result_folder"; "algorithm_name"; "algorithm_info"; "number_target_triggers";
           "log_target_precision"; "lin_target_precision"; "number_evaluation_triggers"; "base_evaluation_triggers";
           "precision_x"; "precision_f"; "precision_g"; "log_discrete_as_int"]%string.
(** observer_toy.c:49, observer_bbob.c:77, observer_bbob_old.c:34, observer_biobj.c:93, observer_rw.c:64-65 *)
Definition additional_keys (k : logger_kind) : list cstr :=
  map str match k with
  | LToy => ["file_name"]
  | LBbob => ["prefix"]
  | LBbobOld => []
  | LBiobj => ["log_nondominated"; "log_decision_variables"; "compute_indicators"; "produce_all_data"]
  | LRw => ["log_variables"; "log_constraints"; "low_dim_vars"; "low_dim_cons"; "log_only_better"; "log_time"]
  end%string.

(** coco_observer.c:732-759 *)
Definition dispatch (name : cstr) : option logger_kind :=
  if streq name (str "toy") then Some LToy
  else if streq name (str "bbob") then Some LBbob
  else if streq name (str "bbob-old") then Some LBbobOld
  else if streq name (str "bbob-boxed") then Some LBbob
  else if streq name (str "bbob-biobj") then Some LBiobj
  else if streq name (str "bbob-biobj-ext") then Some LBiobj
  else if streq (firstn 16 name) (str "bbob-constrained") then Some LBbob
  else if streq name (str "bbob-largescale") then Some LBbob
  else if streq name (str "bbob-mixint") then Some LBbob
  else if streq name (str "bbob-biobj-mixint") then Some LBiobj
  else if streq name (str "rw") then Some LRw
  else if streq name (str "bbob-noisy") then Some LBbob
  else None.

(** observer_bbob.c:72-103 *)
Definition observer_bbob (options : cstr) : res observer_data :=
  do prefix <- string_option options (str "prefix") (S COCO_PATH_MAX) (str "bbobexp"); Ok (BbobData prefix).

(** observer_biobj.c:86-152; is_active is cleared when nothing is to be logged. *)
Definition observer_biobj (options : cstr) : res (observer_data * bool) :=
  do nondom <- mode_option options (str "log_nondominated")
    [(str "none", LOG_NONDOM_NONE); (str "final", LOG_NONDOM_FINAL); (str "all", LOG_NONDOM_ALL); (str "read", LOG_NONDOM_READ)]
    LOG_NONDOM_ALL;
  do vars <- mode_option options (str "log_decision_variables")
    [(str "none", LOG_NEVER); (str "all", LOG_ALWAYS); (str "low_dim", LOG_LOW_DIM)] LOG_LOW_DIM;
  do compute <- raw_option (coco_options_read_int options (str "compute_indicators")) 1%Z;
  do produce <- raw_option (coco_options_read_int options (str "produce_all_data")) 0%Z;
  let all := negb (produce =? 0)%Z in
  let compute := if all then 1%Z else compute in
  let nondom := if all then LOG_NONDOM_ALL else nondom in
  let vars := if all then LOG_LOW_DIM else vars in
  Ok (BiobjData nondom vars compute produce,
      negb (match nondom with LOG_NONDOM_NONE => true | _ => false end && (compute =? 0)%Z)).

(** observer_rw.c:57-107 *)
Definition observer_rw (options : cstr) : res observer_data :=
  let words := [(str "none", LOG_NEVER); (str "all", LOG_ALWAYS); (str "low_dim", LOG_LOW_DIM)] in
  do vars <- mode_option options (str "log_variables") words LOG_ALWAYS;
  do constr <- mode_option options (str "log_constraints") words LOG_ALWAYS;
  do lv <- raw_option (coco_options_read_size_t options (str "low_dim_vars")) 10%N;
  do lc <- raw_option (coco_options_read_size_t options (str "low_dim_cons")) 10%N;
  do better <- raw_option (coco_options_read_int options (str "log_only_better")) 0%Z;
  do time <- raw_option (coco_options_read_int options (str "log_time")) 0%Z;
  Ok (RwData {| log_vars_mode := vars; log_cons_mode := constr; low_dim_vars := lv; low_dim_cons := lc;
                observer_only_better := better; observer_log_time := time |}).

Section World.
Variable K : Type.
Variable keq : K -> K -> bool.
Variable resolve : cstr -> K.
Variable others : nat -> FsModel.files K -> FsModel.files K.
Variable refuses : nat -> FsModel.files K -> K -> bool.
(** Whether fopen(path, "a") succeeds; the file system is not changed by it (only directories matter here). *)
Variable opens : world K -> cstr -> bool.
(** The number at the start of a text that does not start with white space, as read by "%lf"; None: not a number. *)
Variable strtod : cstr -> option double.

(** sscanf with "%lf" (src/coco_utilities.c:815-817) *)
Definition coco_options_read_double (options name : cstr) : res (reading double) :=
  do t <- value_text options name;
  match t with
  | None => Ok (0%Z, None)
  | Some [] => Ok ((-1)%Z, None)
  | Some s => Ok (match strtod s with Some v => (1%Z, Some v) | None => (0%Z, None) end)
  end.
(** coco_observer.c:641-660: rejected if v <= 0 *)
Definition precision_option (options key : cstr) (default : double) : res (double * list message) :=
  checked_option (coco_options_read_double options key) key default (fun v => negb (dle v (dint 0))).

(** observer_toy.c:41-79 *)
Definition observer_toy (folder options : cstr) (w : world K) : res (observer_data * world K) :=
  do name <- string_option options (str "file_name") (S COCO_PATH_MAX) (str "first_hitting_times.dat");
  do (_, w1) <- coco_create_directory K keq resolve others refuses folder w;
  do file <- coco_join_path (S COCO_PATH_MAX) COCO_PATH_MAX folder [name];
  if opens w1 file then Ok (ToyData file, w1) else Err.

(** coco_observer.c:565-792.  An observer name of NULL is dereferenced; options of NULL are as empty ones. *)
Definition coco_observer (name : option cstr) (options : cstr) (w : world K) : res (option observer * list message * world K) :=
  match name with
  | None => UB
  | Some name =>
    if streq name (str "no_observer") then Ok (None, [], w)
    else if (length name =? 0)%nat then Ok (None, [EmptyName], w)
    else
      do outer <- string_option options (str "outer_folder") (S COCO_PATH_MAX) (str "exdata");
      do inner <- string_option options (str "result_folder") (S COCO_PATH_MAX) (str "default");
      do path <- coco_join_path (S COCO_PATH_MAX) COCO_PATH_MAX outer [inner];
      do (folder, w1) <- coco_create_unique_directory K keq resolve others refuses path w;
      do alg <- string_option options (str "algorithm_name") (S COCO_PATH_MAX) (str "ALG");
      do info <- string_option options (str "algorithm_info") (5 * COCO_PATH_MAX) [];
      (* number_target_triggers < 0 is never true *)
      do (ntt, m1) <- checked_option (coco_options_read_size_t options (str "number_target_triggers"))
                        (str "number_target_triggers") 100%N (fun _ => true);
      do (logp, m2) <- precision_option options (str "log_target_precision") (ddec 1 8);
      do (linp, m3) <- precision_option options (str "lin_target_precision") (ddec 1 5);
      do (net, m4) <- checked_option (coco_options_read_size_t options (str "number_evaluation_triggers"))
                        (str "number_evaluation_triggers") 20%N (fun v => negb (v <? 4)%N);
      do base <- string_option options (str "base_evaluation_triggers") (S COCO_PATH_MAX) (str "1,2,5");
      do (px, m5) <- int_option options (str "precision_x") 8 1 32;
      do (pf, m6) <- int_option options (str "precision_f") 15 1 32;
      do (pg, m7) <- int_option options (str "precision_g") 3 1 32;
      do (asint, m8) <- int_option options (str "log_discrete_as_int") 0 0 1;
      let m := m1 ++ m2 ++ m3 ++ m4 ++ m5 ++ m6 ++ m7 ++ m8 in
      match dispatch name with
      | None => Ok (None, m ++ [UnknownObserver name], w1)
      | Some k =>
        do (data, active, w2) <-
          match k with
          | LToy => do (d, w2) <- observer_toy folder options w1; Ok (d, true, w2)
          | LBbob => do d <- observer_bbob options; Ok (d, true, w1)
          | LBbobOld => Ok (BbobOldData, true, w1)
          | LBiobj => do (d, a) <- observer_biobj options; Ok (d, a, w1)
          | LRw => do d <- observer_rw options; Ok (d, true, w1)
          end;
        do warning <- check_keys (option_keys_add known_observer_keys (additional_keys k)) options
                        (str "coco_observer(): Some keys in observer options were ignored:" ++ ["010"%char])
                        (str "Valid keys for observer options are:" ++ ["010"%char]);
        Ok (Some {| result_folder := folder; observer_name := name; algorithm_name := alg; algorithm_info := info;
                    number_target_triggers := ntt; log_target_precision := logp; lin_target_precision := linp;
                    number_evaluation_triggers := net; base_evaluation_triggers := base;
                    precision_x := px; precision_f := pf; precision_g := pg; log_discrete_as_int := asint;
                    is_active := active; observer_kind := k; observer_special := data |},
            m ++ match warning with Some t => [IgnoredKeys t] | None => [] end, w2)
      end
  end.
End World.

(** ** Loggers of an observer *)

(** logger_bbob.c:664-737: what the bbob logger takes from the observer (the optima of the suites of single-objective problems
    are known, suite_known_optima). *)
Definition bbob_options (o : observer) (optima : bool) : observer_options :=
  {| known_optima := optima; BbobModel.lin_target_precision := lin_target_precision o;
     BbobModel.number_target_triggers := number_target_triggers o;
     BbobModel.log_target_precision := log_target_precision o;
     BbobModel.base_evaluation_triggers := base_evaluation_triggers o;
     discrete_as_int := negb (log_discrete_as_int o =? 0)%Z |}.
