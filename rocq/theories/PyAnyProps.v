(** Theorems about benchmarking budget-dependent solvers (C77). *)
From Coq Require Import List Arith Bool Lia.
From Verif Require Import PyAnyModel PyAnySpec.
Import ListNotations.
Local Open Scope nat_scope.

Section Props.
Variables (X V : Type) (f : X -> V) (best : list X -> V) (differs : V -> V -> bool).
Notation state := (state X).
Notation run := (run X).
Notation call := (call X V f).
Notation calls := (calls X V f).
Notation one_run := (one_run X V f best differs).
Notation runs := (runs X V f best differs).
Notation after_run := (after_run X V f best differs).
Notation increasing := (increasing X).
Notation obs := (observed X).
Notation evals := (evaluations X).

(** During a run the counter is at most the number of observed solutions, and the observed problem is used only when
    they agree. *)
Definition during (st : state) : Prop :=
  evals st <= length (obs st) /\ (on_observed X st = true -> evals st = length (obs st)).

Lemma call_during : forall st x, during st -> exists st', call st x = Some (f x, st') /\ during st' /\
  evals st' = evals st + 1 /\
  obs st' = obs st ++ (if length (obs st) <=? evals st then [x] else []).
Proof.
  intros st x [L O]. unfold PyAnyModel.call. destruct (Nat.ltb_spec (length (obs st)) (evals st)) as [B|B]; [lia|].
  destruct (Nat.leb_spec (length (obs st)) (evals st)) as [C|C].
  - eexists. split; [reflexivity|]. cbn. split; [|auto]. split; cbn; rewrite app_length; cbn; lia.
  - assert (N : on_observed X st = false). { destruct (on_observed X st); auto. specialize (O eq_refl). lia. }
    rewrite N. eexists. split; [reflexivity|]. cbn. split; [|rewrite app_nil_r; auto]. split; cbn; [lia|discriminate].
Qed.

Lemma calls_during : forall xs st, during st -> exists st', calls st xs = Some (map f xs, st') /\ during st' /\
  evals st' = evals st + length xs /\
  obs st' = obs st ++ skipn (length (obs st) - evals st) xs.
Proof.
  induction xs as [|x xs IH]; intros st D; cbn [PyAnyModel.calls map].
  - exists st. rewrite skipn_nil, app_nil_r. split; [reflexivity|]. split; [auto|]. split; [cbn; lia|reflexivity].
  - destruct (call_during st x D) as (st1 & C & D1 & E1 & O1). rewrite C.
    destruct (IH st1 D1) as (st2 & C2 & D2 & E2 & O2). rewrite C2.
    exists st2. split; auto. split; auto. split; [rewrite E2, E1; cbn; lia|].
    rewrite O2, O1, E1. destruct (Nat.leb_spec (length (obs st)) (evals st)) as [L|L].
    + rewrite app_length. cbn [length]. destruct D as [D _].
      replace (length (obs st) + 1 - (evals st + 1)) with 0 by lia.
      replace (length (obs st) - evals st) with 0 by lia. cbn [skipn]. rewrite <- app_assoc. reflexivity.
    + rewrite app_nil_r. replace (length (obs st) - evals st) with (S (length (obs st) - (evals st + 1))) by lia.
      reflexivity.
Qed.

(** Calling the problem never fails and returns the objective value, in whatever number, as long as runs are closed by
    [delivered]: from the state at the beginning of any run, also the first. *)
Definition between (st : state) : Prop := evals st = 0 /\ (on_observed X st = true -> obs st = []).
Lemma between_during : forall st, between st -> during st.
Proof. intros st [E O]. split; [lia|]. intros B. rewrite (O B), E. reflexivity. Qed.

Lemma one_run_spec : forall st r, between st ->
  (length (obs st) <= length (evaluated X r) ->
     exists st', one_run st r = Some st' /\ between st' /\ obs st' = after_run (obs st) r) /\
  (length (evaluated X r) < length (obs st) -> one_run st r = None).
Proof.
  intros st r B. destruct (calls_during (evaluated X r) st (between_during st B)) as (st1 & C & D & E & O).
  destruct B as [B1 B2]. rewrite B1 in *. rewrite Nat.sub_0_r in O. cbn in E.
  unfold PyAnyModel.one_run. rewrite C. unfold delivered. rewrite E. split; intros L.
  - destruct (Nat.ltb_spec (length (evaluated X r)) (length (obs st1))) as [F|F].
    + rewrite O, app_length, skipn_length in F. lia.
    + eexists. split; [reflexivity|]. split; [split; cbn; [auto|discriminate]|]. cbn.
      unfold PyAnySpec.after_run. rewrite <- O. reflexivity.
  - rewrite skipn_all2 in O by lia. rewrite app_nil_r in O. rewrite O.
    destruct (Nat.ltb_spec (length (evaluated X r)) (length (obs st))); [auto|lia].
Qed.

Lemma runs_app : forall rs1 st rs2, runs st (rs1 ++ rs2) = match runs st rs1 with None => None | Some st' => runs st' rs2 end.
Proof. induction rs1 as [|r rs1 IH]; intros st rs2; auto. cbn. destruct (one_run st r); auto. Qed.

Lemma runs_between : forall rs st st', between st -> runs st rs = Some st' ->
  between st' /\ obs st' = fold_left after_run rs (obs st).
Proof.
  induction rs as [|r rs IH]; intros st st' B H.
  - cbn in H. injection H as <-. auto.
  - cbn in H. destruct (one_run_spec st r B) as [A1 A2].
    destruct (Nat.le_gt_cases (length (obs st)) (length (evaluated X r))) as [L|L].
    + destruct (A1 L) as (st1 & R1 & B1 & O1). rewrite R1 in H. destruct (IH st1 st' B1 H) as [B' O']. split; auto.
      rewrite O', O1. reflexivity.
    + rewrite (A2 L) in H. discriminate.
Qed.
Lemma initial_between : between (initial X).
Proof. split; auto. Qed.

(** The problem can be called any number of times in every run: no exception, and the objective values are returned. *)
Theorem C77_calls : forall rs st xs, runs (initial X) rs = Some st ->
  exists st', calls st xs = Some (map f xs, st').
Proof.
  intros rs st xs H. destruct (runs_between rs _ _ initial_between H) as [B _].
  destruct (calls_during xs st (between_during st B)) as (st' & C & _). eauto.
Qed.

(** The observed solutions are those of the specification. *)
Theorem C77_observed : forall rs st, runs (initial X) rs = Some st -> obs st = fold_left after_run rs [].
Proof. intros rs st H. apply (runs_between rs _ _ initial_between H). Qed.

(** A run with fewer evaluations than were observed before is rejected when its result is delivered, others are not. *)
Theorem C77_rejected : forall rs st r, runs (initial X) rs = Some st ->
  (runs (initial X) (rs ++ [r]) = None <-> length (evaluated X r) < length (fold_left after_run rs [])).
Proof.
  intros rs st r H. rewrite runs_app, H. destruct (runs_between rs _ _ initial_between H) as [B O]. cbn in O. rewrite <- O.
  cbn. destruct (one_run_spec st r B) as [A1 A2]. split.
  - intros E. destruct (Nat.lt_ge_cases (length (evaluated X r)) (length (obs st))) as [L|L]; auto.
    destruct (A1 L) as (st' & R' & _). rewrite R' in E. discriminate.
  - intros L. rewrite (A2 L). reflexivity.
Qed.

Lemma after_length : forall o r, length o <= length (evaluated X r) ->
  length (evaluated X r) <= length (after_run o r) <= length (evaluated X r) + 1.
Proof.
  intros o r L. unfold PyAnySpec.after_run.
  assert (E : length (o ++ skipn (length o) (evaluated X r)) = length (evaluated X r)) by (rewrite app_length, skipn_length; lia).
  destruct (differs _ _); [rewrite app_length; cbn|]; rewrite E; lia.
Qed.

(** Runs with increasing numbers of evaluations are all accepted. *)
Theorem C77_increasing : forall rs, increasing 0 rs -> exists st, runs (initial X) rs = Some st.
Proof.
  assert (G : forall rs st n, between st -> length (obs st) <= n -> increasing n rs -> exists st', runs st rs = Some st').
  { induction rs as [|r rs IH]; intros st n B L I; cbn; eauto. cbn in I. destruct I as [I1 I2].
    destruct (one_run_spec st r B) as [A1 _]. destruct (A1 ltac:(lia)) as (st1 & R1 & B1 & O1). rewrite R1.
    apply (IH st1 _ B1) with (2 := I2). rewrite O1. pose proof (after_length (obs st) r ltac:(lia)). lia. }
  intros rs I. apply (G rs (initial X) 0); auto using initial_between.
Qed.

(** Increasing runs: the evaluation numbers that were not observed before are observed in order, each at its own number;
    observed so far is never changed; after the run as many solutions are observed as it evaluated, plus its result if
    needed. *)
Theorem C77_positions : forall rs r st k, increasing 0 (rs ++ [r]) -> runs (initial X) (rs ++ [r]) = Some st ->
  let before := fold_left after_run rs [] in
  (k < length before -> nth_error (obs st) k = nth_error before k) /\
  (length before <= k < length (evaluated X r) -> nth_error (obs st) k = nth_error (evaluated X r) k) /\
  length (evaluated X r) <= length (obs st) <= length (evaluated X r) + 1 /\
  (length (obs st) = length (evaluated X r) + 1 -> nth_error (obs st) (length (evaluated X r)) = Some (returned X r)).
Proof.
  intros rs r st k I H before. pose proof (C77_observed _ _ H) as O. rewrite fold_left_app in O. cbn in O. fold before in O.
  destruct (runs (initial X) rs) as [st0|] eqn:R0.
  2:{ rewrite runs_app, R0 in H. discriminate. }
  assert (L : length before <= length (evaluated X r)).
  { apply Nat.le_ngt. intros C. apply (C77_rejected rs st0 r R0) in C. congruence. }
  pose proof (after_length before r L) as AL. rewrite O.
  assert (E : length (before ++ skipn (length before) (evaluated X r)) = length (evaluated X r)) by (rewrite app_length, skipn_length; lia).
  assert (P : forall j, j < length (evaluated X r) ->
     nth_error (after_run before r) j = nth_error (before ++ skipn (length before) (evaluated X r)) j).
  { intros j J. unfold PyAnySpec.after_run. destruct (differs _ _); auto. apply nth_error_app1. lia. }
  split; [|split; [|split; auto]].
  - intros K. rewrite P by lia. apply nth_error_app1. auto.
  - intros K. rewrite P by lia. rewrite nth_error_app2 by lia.
    rewrite <- (firstn_skipn (length before) (evaluated X r)) at 2. rewrite nth_error_app2; rewrite firstn_length; [|lia].
    f_equal. lia.
  - unfold PyAnySpec.after_run. destruct (differs _ _); [|lia]. intros _. rewrite nth_error_app2 by lia. rewrite E, Nat.sub_diag.
    reflexivity.
Qed.

(** After each accepted run, the value of its result is one of the observed values -- when != decides equality of values,
    the best value of observed solutions is one of their values, and the run evaluated a solution or its result differs
    from the best value of no solution. *)
Theorem C77_result_recorded : forall rs r st, (forall a b, differs a b = false -> a = b) ->
  (forall l, l <> [] -> In (best l) (map f l)) ->
  runs (initial X) (rs ++ [r]) = Some st -> (evaluated X r <> [] \/ f (returned X r) <> best []) ->
  In (f (returned X r)) (map f (obs st)).
Proof.
  intros rs r st Hd Hb H N. rewrite (C77_observed _ _ H), fold_left_app. cbn.
  set (before := fold_left after_run rs []). unfold PyAnySpec.after_run at 1.
  set (o := before ++ skipn (length before) (evaluated X r)).
  destruct (differs (f (returned X r)) (best o)) eqn:D.
  - rewrite map_app, in_app_iff. right. left. reflexivity.
  - apply Hd in D. rewrite D. destruct o as [|y l] eqn:O.
    + exfalso. unfold o in O. apply app_eq_nil in O. destruct O as [O1 O2]. rewrite O1 in O2. cbn in O2.
      destruct N as [N|N]; auto.
    + apply Hb. discriminate.
Qed.
End Props.

(** Values and solutions are numbers, the best value is the minimum. *)
Definition ex_f (x : nat) : nat := (x - 5) + (5 - x).
Definition ex_best (l : list nat) : nat := match map ex_f l with [] => 1000 | v :: vs => fold_left Nat.min vs v end.
Definition ex_differs (a b : nat) : bool := negb (a =? b).
Example C77_example :
  let rs := [mk_run nat [9; 8] 3; mk_run nat [9; 7; 6; 10] 6; mk_run nat [9; 8; 7; 6; 4; 5] 5] in
  increasing nat 0 rs /\
  runs nat nat ex_f ex_best ex_differs (initial nat) rs =
    Some (mk_state nat [9; 8; 3; 10; 6; 5] [3; 9; 7; 6; 6; 9; 8; 7; 6; 4; 5] false 0).
Proof.
  split; [|vm_compute; reflexivity].
  cbn [increasing length evaluated]. repeat split; lia.
Qed.

(** Increasing is not enough in the weak sense: two runs of the same number of evaluations are refused when the result of
    the first was recorded. *)
Theorem C77_equal_budgets_refuted : exists (rs : list (run nat)) (n : nat),
  (forall r, In r rs -> length (evaluated nat r) = n) /\ length rs = 2 /\
  runs nat nat ex_f ex_best ex_differs (initial nat) rs = None.
Proof.
  exists [mk_run nat [9; 8] 3; mk_run nat [7; 6] 6], 2. split; [|split; reflexivity].
  intros r [<-|[<-|[]]]; reflexivity.
Qed.

Print Assumptions C77_calls.
Print Assumptions C77_observed.
Print Assumptions C77_rejected.
Print Assumptions C77_increasing.
Print Assumptions C77_positions.
Print Assumptions C77_result_recorded.
Print Assumptions C77_equal_budgets_refuted.
