(** C50: the files of the toy and the real-world logger. *)
From Coq Require Import String List Arith NArith ZArith Reals Bool Lia.
From Flocq Require Import Core BinarySingleNaN.
Import ListNotations.
From Verif Require Import CBase OptModel DblModel DblSpec DblProofs TrigModel TrigSpec LogProofs ProbModel ProbSpec ProbProofs ProbProps
  BbobModel BbobSpec LogsModel LogsSpec LogsProofs.
Open Scope nat_scope.
Local Notation length := List.length.

(** The toy logger writes a line for exactly the evaluations that hit a new target: number of the evaluation, value,
    target, decision vector. *)
Theorem C50_toy : forall log10 pow10 n p,
  log10_accurate log10 -> log10_monotone log10 ->
  (2 <= n <= 1000000)%N -> fin p -> (bpow radix2 (-1000) <= val p)%R ->
  exists level, log_levels n p level /\ depths n p level /\
  forall (C : class) (p0 : problem C) cs ys q, sized (number_of_variables (head p0)) cs ->
    session (logger_toy log10 pow10 n p p0) cs = Ok (ys, q) ->
    Forall (fun e => fin (first_value e)) (entries 0 cs ys) ->
    logs (toy_logged level) (toy_line_is (hit pow10 n level)) (entries 0 cs ys) (t_lines (body q)).
Proof.
  intros log10 pow10 n p Ha Hm Hn Fp Hp. exists (level log10 n p). split; [|split].
  - split; [intros; now apply level_mono|]. split; [intros; now apply level_at|].
    split; [intros; now apply level_small|]. split; [intros; now apply zero_below_pos|].
    intros; now apply neg_below_zero.
  - exact (lev_depths log10 Ha n Hn p Fp Hp).
  - intros C p0 cs ys q Sz H F. exact (proj2 (proj2 (proj2 (proj2 (proj2 (toy_session log10 pow10 Ha n Hn p Fp Hp cs p0 ys q Sz H F)))))).
Qed.

(** The real-world logger writes a line for exactly the documented evaluations, with what the options ask for. *)
Theorem C50_rw : forall (C : class) (I : data C -> Prop) g o as_int (p0 : problem C) cs ys q,
  constraints_are C (number_of_variables (head p0)) I g -> I (body p0) -> sized (number_of_variables (head p0)) cs ->
  session (logger_rw o as_int p0) cs = Ok (ys, q) ->
  logs (rw_logged (negb (observer_only_better o =? 0)%Z) (number_of_objectives (head p0)))
       (rw_line_is o as_int (head p0) g)
       (entries (evaluations_constraints (head p0)) cs ys) (r_lines (body q)).
Proof.
  intros C I g o as_int p0 cs ys q HC HI Sz H.
  exact (proj2 (proj2 (proj2 (proj2 (proj2 (proj2 (proj2 (proj2 (proj2 (proj2 (rw_session C I g o as_int cs p0 ys q HC HI Sz H))))))))))).
Qed.

(** So without log_only_better, and for several objectives, there is a line for every evaluation. *)
Theorem C50_rw_all : forall (C : class) (I : data C -> Prop) g o as_int (p0 : problem C) cs ys q,
  constraints_are C (number_of_variables (head p0)) I g -> I (body p0) -> sized (number_of_variables (head p0)) cs ->
  session (logger_rw o as_int p0) cs = Ok (ys, q) ->
  observer_only_better o = 0%Z \/ number_of_objectives (head p0) <> 1 ->
  map r_function (r_lines (body q)) = map N.of_nat (seq 1 (counted_evaluations cs)).
Proof.
  intros C I g o as_int p0 cs ys q HC HI Sz H D.
  destruct (C50_rw C I g o as_int p0 cs ys q HC HI Sz H) as (bs & L & B & F).
  assert (LE : length (entries (evaluations_constraints (head p0)) cs ys) = counted_evaluations cs).
  { pose proof (session_length _ _ _ _ _ H) as Len. clear - Len. generalize (evaluations_constraints (head p0)) as c.
    revert ys Len. induction cs as [|d cs IH]; intros [|y ys] Len c; try discriminate Len; [reflexivity|].
    cbn in Len. unfold counted_evaluations in *. destruct d as [x|x|x]; cbn [entries filter]; try (apply IH; lia).
    destruct (regularb x); cbn [List.length]; rewrite IH by lia; reflexivity. }
  rewrite <- LE. clear LE. set (rs := entries (evaluations_constraints (head p0)) cs ys) in *.
  assert (T : bs = repeat true (length rs)).
  { rewrite <- L. clear - B L D. assert (A : forall b, In b bs -> b = true).
    { intros b I. apply In_nth_error in I as [i I]. assert (Li : i < length rs) by (rewrite <- L; apply nth_error_Some; congruence).
      destruct (nth_error rs i) as [r|] eqn:R; [|apply nth_error_None in R; lia].
      apply (B i r b R I). intros K1 K2. destruct D as [D|D]; [rewrite D in K1; discriminate K1|congruence]. }
    clear B L. induction bs as [|b bs IH]; [reflexivity|]. cbn. rewrite (A b) by (left; reflexivity). f_equal. apply IH.
    intros b' I. apply A. right. exact I. }
  subst bs. unfold chosen in F.
  assert (E : forall k, map fst (filter snd (combine (combine (seq k (length rs)) rs) (repeat true (length rs)))) = combine (seq k (length rs)) rs).
  { clear. induction rs as [|r rs IH]; intros k; [reflexivity|]. cbn. f_equal. apply IH. }
  rewrite E in F. clear - F. revert F. generalize 1 as k. generalize (r_lines (body q)) as ls. clear.
  induction rs as [|r rs IH]; intros ls k F; cbn in F; inversion F; subst; [reflexivity|].
  cbn [map]. cbn. f_equal; [|apply IH; assumption].
  destruct r as [[x y'] c]. cbn in H1. exact (proj1 H1).
Qed.

(** Without variables in the file, the header says "1 objectives" for a problem with one objective and several variables. *)
Theorem C50_rw_header_refuted : exists h, number_of_objectives h = 1 /\
  rw_header h false false false = str "% f-evaluations | g-evaluations | 1 objectives".
Proof. exists (coco_problem_allocate 2 1 0 0 None None). split; reflexivity. Qed.

(** The toy logger does not survive an infinite value: the C code converts an infinite double to int, which is undefined. *)
Definition unbounded : class :=
  {| data := unit; evaluate_function := fun _ d x => Ok ([dinf], d); evaluate_constraint := None;
     recommend_solution := None; last_noise_free := fun _ => None |}.
Definition unbounded_problem : problem unbounded := Build_problem unbounded (coco_problem_allocate 1 1 0 0 None None) tt.
Theorem C50_toy_infinite_refuted : forall log10 pow10, log10 dinf = dinf ->
  (exists q, session unbounded_problem [Evaluate [dint 1]] = Ok ([[dinf]], q)) /\
  session (logger_toy log10 pow10 100 (ddec 1 8) unbounded_problem) [Evaluate [dint 1]] = UB.
Proof.
  assert (F1 : first_inf 1 [dint 1] = Ok None) by (vm_compute; reflexivity).
  assert (F2 : coco_vector_contains_nan 1 [dint 1] = Ok false) by (vm_compute; reflexivity).
  assert (E : exists q, coco_evaluate_function unbounded_problem [dint 1] = Ok ([dinf], q)).
  { unfold coco_evaluate_function. change (coco_problem_get_dimension (head unbounded_problem)) with (Ok 1).
    cbn [bind]. rewrite F1. cbn [bind]. rewrite F2. cbn [bind].
    change (evaluate_function unbounded (head unbounded_problem) (body unbounded_problem) [dint 1]) with (Ok ([dinf], tt)).
    cbn [bind]. change (mget [dinf] 0) with (Ok dinf). cbn [bind]. 
    match goal with |- exists q, (if ?b then _ else _) = _ => replace b with false by (vm_compute; reflexivity) end.
    eexists. reflexivity. }
  destruct E as [q E].
  intros log10 pow10 Hi. split; [exists q; cbn [session perform]; rewrite E; reflexivity|].
  assert (T : log_targets_trigger log10 pow10 (new_log_targets 100 (ddec 1 8)) dinf = UB).
  { unfold log_targets_trigger. cbn [new_log_targets lt_triggers lt_precision].
    replace (dle dzero dinf) with true by (vm_compute; reflexivity).
    replace (deq dinf dzero) with false by (vm_compute; reflexivity).
    replace (dlt dinf (ddec 1 8)) with false by (vm_compute; reflexivity). cbv iota. rewrite Hi.
    replace (to_int (dceil (dmul dinf (dint (Z.of_N 100))))) with (@UB Z) by (vm_compute; reflexivity). reflexivity. }
  cbn [session perform]. unfold coco_evaluate_function at 1.
  change (head (logger_toy log10 pow10 100 (ddec 1 8) unbounded_problem)) with (coco_problem_allocate 1 1 0 0 None None).
  change (coco_problem_get_dimension (coco_problem_allocate 1 1 0 0 None None)) with (Ok 1). cbn [bind]. rewrite F1. cbn [bind]. rewrite F2.
  cbn [bind]. change (evaluate_function (logger_toy_class log10 pow10 unbounded)) with (@logger_toy_evaluate log10 pow10 unbounded).
  unfold logger_toy_evaluate. change (t_inner (body (logger_toy log10 pow10 100 (ddec 1 8) unbounded_problem))) with unbounded_problem.
  rewrite E. cbn [bind]. change (mget [dinf] 0) with (Ok dinf). cbn [bind].
  change (t_targets (body (logger_toy log10 pow10 100 (ddec 1 8) unbounded_problem))) with (new_log_targets 100 (ddec 1 8)).
  rewrite T. reflexivity.
Qed.

(** ** Examples *)

(** A file of the toy logger, with a crude logarithm: values 9, 1/4, 4, 4, 1. *)
Definition crude_log10 (v : double) : double :=
  if dlt v (ddec 1 1) then dopp (dint 2) else if dlt v (dint 1) then dopp (dint 1) else if dlt v (dint 10) then dzero else dint 1.
Definition numbers_of {C} (r : res (list (list double) * problem (logger_toy_class crude_log10 (fun v => v) C))) : option (list N) :=
  match r with Ok (_, q) => Some (map t_evaluation (t_lines (body q))) | _ => None end.
Example C50_toy_example :
  numbers_of (session (logger_toy crude_log10 (fun v => v) 10 (ddec 1 8) (square_problem 1)) some_calls) = Some [1; 2]%N.
Proof. vm_compute. reflexivity. Qed.

(** A file of the real-world logger that keeps improvements only: evaluation 2 is not feasible but has a line; the
    value of evaluation 3 is above it. *)
Definition rw_options (better : Z) : observer_rw_data :=
  {| log_vars_mode := LOG_LOW_DIM; log_cons_mode := LOG_ALWAYS; low_dim_vars := 10; low_dim_cons := 10;
     observer_only_better := better; observer_log_time := 0 |}.
Definition rw_numbers {C} (r : res (list (list double) * problem (logger_rw_class C))) : option (list (N * N * nat * nat)) :=
  match r with
  | Ok (_, q) => Some (map (fun l => (r_function l, r_constraint l, length (r_variables l), length (r_constraints l))) (r_lines (body q)))
  | _ => None
  end.
Example C50_rw_example : rw_numbers (session (logger_rw (rw_options 1) false (square_problem 1)) some_calls)
  = Some [(1, 0, 1%nat, 1%nat); (2, 1, 1%nat, 1%nat)]%N.
Proof. vm_compute. reflexivity. Qed.
Example C50_rw_all_example : rw_numbers (session (logger_rw (rw_options 0) false (square_problem 1)) some_calls)
  = Some [(1, 0, 1%nat, 1%nat); (2, 1, 1%nat, 1%nat); (3, 1, 1%nat, 1%nat); (4, 1, 1%nat, 1%nat)]%N.
Proof. vm_compute. reflexivity. Qed.
Example C50_assumptions : log10_accurate rounded_log10 /\ log10_monotone rounded_log10 /\
  constraints_are square 1 (fun _ => True) constraint_of.
Proof.
  split; [|split]; [apply rounded_log10_ok|apply rounded_log10_ok|exact square_constraints].
Qed.

Print Assumptions C50_toy.
Print Assumptions C50_rw.
Print Assumptions C50_rw_all.
Print Assumptions C50_rw_header_refuted.
Print Assumptions C50_toy_infinite_refuted.
