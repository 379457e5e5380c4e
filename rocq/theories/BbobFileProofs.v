(** The files of the bbob logger as functions of the history. *)
From Coq Require Import List Arith NArith ZArith Reals Bool Lia Lra.
From Flocq Require Import Core BinarySingleNaN.
Import ListNotations.
From Verif Require Import CBase DblModel DblSpec DblProofs TrigModel ProbModel ProbSpec ProbProofs
  BbobModel BbobSpec BbobProofs.
Open Scope nat_scope.

(** ** Histories *)

Lemma calls_of_app : forall a b, calls_of (a ++ b) = calls_of a ++ calls_of b.
Proof. intros. apply flat_map_app. Qed.

Lemma counted_app : forall a b, counted_evaluations (a ++ b) = counted_evaluations a + counted_evaluations b.
Proof. intros. unfold counted_evaluations. rewrite filter_app, app_length. reflexivity. Qed.
Lemma counted_c_app : forall a b, counted_constraints (a ++ b) = counted_constraints a + counted_constraints b.
Proof. intros. unfold counted_constraints. rewrite filter_app, app_length. reflexivity. Qed.

Lemma evaluated_app : forall a b, evaluated (a ++ b) = evaluated a ++ evaluated b.
Proof. intros. unfold evaluated. rewrite calls_of_app. apply flat_map_app. Qed.

Lemma evaluated_length : forall acts, length (evaluated acts) = counted_evaluations (calls_of acts).
Proof.
  intros acts. unfold evaluated, counted_evaluations. induction (calls_of acts) as [|c cs IH]; [reflexivity|].
  cbn [flat_map filter]. destruct c as [x|x|x]; [|exact IH|exact IH].
  destruct (regularb x); cbn [app length]; rewrite IH; reflexivity.
Qed.

(** The actions that are counted evaluations *)
Definition counts_eval (a : action) : bool :=
  match a with Call (Evaluate x) => regularb x | _ => false end.
Definition counts_cons (a : action) : bool :=
  match a with Call (Constrain x) => regularb x | _ => false end.

Lemma evaluated_one : forall a, counts_eval a = false -> evaluated [a] = [].
Proof. intros [[x|x|x]|] H; try reflexivity. cbn in *. rewrite H. reflexivity. Qed.
Lemma evaluated_eval : forall x, regular x -> evaluated [Call (Evaluate x)] = [x].
Proof. intros x R. cbn. rewrite (proj2 (regularb_spec x) R). reflexivity. Qed.

Lemma counted_one : forall a, counted_evaluations (calls_of [a]) = if counts_eval a then 1 else 0.
Proof. intros [[x|x|x]|]; try reflexivity. cbn. unfold counted_evaluations. cbn. destruct (regularb x); reflexivity. Qed.
Lemma counted_c_one : forall a, counted_constraints (calls_of [a]) = if counts_cons a then 1 else 0.
Proof. intros [[x|x|x]|]; try reflexivity. cbn. unfold counted_constraints. cbn. destruct (regularb x); reflexivity. Qed.

Lemma evaluation_at_extend : forall acts rest k before x,
  evaluation_at acts k before x -> evaluation_at (acts ++ rest) k before x.
Proof.
  intros acts rest k before x [after [-> [R E]]]. exists (after ++ rest). split; [|split; assumption].
  rewrite <- app_assoc. reflexivity.
Qed.

Lemma evaluation_at_range : forall acts k before x, evaluation_at acts k before x ->
  1 <= k <= length (evaluated acts) /\ nth_error (evaluated acts) (k - 1) = Some x.
Proof.
  intros acts k before x [after [-> [R E]]].
  replace (before ++ Call (Evaluate x) :: after) with (before ++ [Call (Evaluate x)] ++ after) by reflexivity.
  rewrite !evaluated_app, !app_length, (evaluated_eval x R), !evaluated_length. cbn [length].
  split; [lia|]. rewrite nth_error_app2; rewrite evaluated_length; [|lia].
  replace (k - 1 - counted_evaluations (calls_of before)) with 0 by lia. reflexivity.
Qed.

Lemma evaluation_at_last : forall acts x, regular x ->
  evaluation_at (acts ++ [Call (Evaluate x)]) (S (length (evaluated acts))) acts x.
Proof. intros acts x R. exists []. rewrite evaluated_length. auto. Qed.

Lemma app_inj_longer : forall A (a b c d : list A), a ++ b = c ++ d ->
  (exists e, a = c ++ e /\ d = e ++ b) \/ (exists e, c = a ++ e /\ b = e ++ d).
Proof.
  intros A. induction a as [|x a IH]; intros b c d H.
  - right. exists c. auto.
  - destruct c as [|y c].
    + left. exists (x :: a). auto.
    + cbn in H. injection H as -> H. apply IH in H as [[e [-> ->]]|[e [-> ->]]]; [left|right]; exists e; auto.
Qed.

Lemma evaluation_at_snoc : forall acts a k before x, evaluation_at (acts ++ [a]) k before x ->
  evaluation_at acts k before x \/
  (a = Call (Evaluate x) /\ regular x /\ before = acts /\ k = S (length (evaluated acts))).
Proof.
  intros acts a k before x [after [E [R K]]].
  destruct after as [|b after].
  - apply app_inj_tail in E as [-> ->]. right. rewrite evaluated_length. auto.
  - left. destruct (app_inj_longer _ _ _ _ _ E) as [[e [H1 H2]]|[e [H1 H2]]].
    + destruct e as [|d e].
      * rewrite app_nil_r in H1. cbn in H2. discriminate H2.
      * cbn in H2. injection H2 as <- H2. exists e. split; [exact H1|auto].
    + destruct e as [|d e]; [cbn in H2; discriminate H2|]. exfalso. cbn in H2. injection H2 as _ H2.
      destruct e; discriminate H2.
Qed.

(** The evaluation with a given number is unique. *)
Lemma evaluation_at_unique : forall acts k b1 x1 b2 x2,
  evaluation_at acts k b1 x1 -> evaluation_at acts k b2 x2 -> b1 = b2 /\ x1 = x2.
Proof.
  intros acts k b1 x1 b2 x2 [a1 [E1 [R1 K1]]] [a2 [E2 [R2 K2]]].
  rewrite E1 in E2. destruct (app_inj_longer _ _ _ _ _ E2) as [[e [H1 H2]]|[e [H1 H2]]].
  - destruct e as [|d e].
    + rewrite app_nil_r in H1. cbn in H2. injection H2 as ->. auto.
    + cbn in H2. injection H2 as <- H2. exfalso. subst b1.
      change (Call (Evaluate x2) :: e) with ([Call (Evaluate x2)] ++ e) in K1.
      rewrite !calls_of_app, !counted_app, counted_one in K1. cbn [counts_eval] in K1.
      rewrite (proj2 (regularb_spec x2) R2) in K1. lia.
  - destruct e as [|d e].
    + rewrite app_nil_r in H1. cbn in H2. injection H2 as ->. auto.
    + cbn in H2. injection H2 as <- H2. exfalso. subst b2.
      change (Call (Evaluate x1) :: e) with ([Call (Evaluate x1)] ++ e) in K2.
      rewrite !calls_of_app, !counted_app, counted_one in K2. cbn [counts_eval] in K2.
      rewrite (proj2 (regularb_spec x1) R1) in K2. lia.
Qed.

(** Restarts that wait for the next evaluation *)
Definition pending (acts : list action) : Prop :=
  exists a b, acts = a ++ Restart :: b /\ 0 < counted_evaluations (calls_of a) /\ counted_evaluations (calls_of b) = 0.

Lemma pending_nil : ~ pending [].
Proof. intros [a [b [E _]]]. destruct a; discriminate E. Qed.

Lemma pending_restart : forall acts,
  pending (acts ++ [Restart]) <-> 0 < counted_evaluations (calls_of acts).
Proof.
  intros acts. split.
  - intros [a [b [E [P Q]]]]. destruct b as [|c b].
    + apply app_inj_tail in E as [-> _]. exact P.
    + destruct (app_inj_longer _ _ _ _ _ E) as [[e [H1 H2]]|[e [H1 H2]]].
      * subst acts. rewrite calls_of_app, counted_app. lia.
      * destruct e as [|d e]; cbn in H2.
        -- discriminate H2.
        -- injection H2 as _ H2. destruct e; discriminate H2.
  - intros P. exists acts, []. auto.
Qed.

Lemma pending_eval : forall acts a, counts_eval a = true -> ~ pending (acts ++ [a]).
Proof.
  intros acts a R [u [v [E [P Q]]]]. destruct v as [|c v].
  - apply app_inj_tail in E as [_ ->]. discriminate R.
  - destruct (@exists_last _ (c :: v) ltac:(discriminate)) as [w [z W]]. rewrite W in E, Q.
    change (Restart :: w ++ [z]) with ((Restart :: w) ++ [z]) in E. rewrite app_assoc in E.
    apply app_inj_tail in E as [_ <-]. rewrite calls_of_app, counted_app, counted_one, R in Q. lia.
Qed.

Lemma pending_other : forall acts a, counts_eval a = false -> a <> Restart ->
  (pending (acts ++ [a]) <-> pending acts).
Proof.
  intros acts a R N. split.
  - intros [u [v [E [P Q]]]]. destruct v as [|c v].
    + apply app_inj_tail in E as [_ ->]. contradiction.
    + destruct (@exists_last _ (c :: v) ltac:(discriminate)) as [w [z W]]. rewrite W in E, Q.
      change (Restart :: w ++ [z]) with ((Restart :: w) ++ [z]) in E. rewrite app_assoc in E.
      apply app_inj_tail in E as [-> <-]. rewrite calls_of_app, counted_app in Q. exists u, w.
      split; [reflexivity|]. split; [exact P|lia].
  - intros [u [v [-> [P Q]]]]. exists u, (v ++ [a]). rewrite calls_of_app, counted_app, counted_one, R.
    split; [rewrite <- app_assoc; reflexivity|]. split; [exact P|lia].
Qed.

Lemma restart_before_snoc : forall acts a k, restart_before (acts ++ [a]) k <->
  restart_before acts k \/ (counts_eval a = true /\ pending acts /\ k = S (length (evaluated acts))).
Proof.
  intros acts a k. split.
  - intros [u [v [x [w [E [R [P [Q K]]]]]]]]. destruct w as [|z w].
    + right. change (u ++ Restart :: v ++ [Call (Evaluate x)]) with (u ++ (Restart :: v) ++ [Call (Evaluate x)]) in E.
      rewrite app_assoc in E. apply app_inj_tail in E as [-> ->].
      split; [apply regularb_spec; exact R|]. split; [exists u, v; auto|].
      rewrite evaluated_length, calls_of_app, counted_app. cbn [calls_of flat_map app].
      change (flat_map _ v) with (calls_of v). lia.
    + left. destruct (@exists_last _ (z :: w) ltac:(discriminate)) as [w' [y W]]. rewrite W in E.
      replace (u ++ Restart :: v ++ Call (Evaluate x) :: w' ++ [y])
        with ((u ++ Restart :: v ++ Call (Evaluate x) :: w') ++ [y]) in E
        by (rewrite <- app_assoc; cbn; rewrite <- app_assoc; reflexivity).
      apply app_inj_tail in E as [-> _]. exists u, v, x, w'. auto.
  - intros [[u [v [x [w [-> H]]]]]|[R [[u [v [-> [P Q]]]] ->]]].
    + exists u, v, x, (w ++ [a]). split; [|exact H]. rewrite <- app_assoc. cbn. rewrite <- app_assoc. reflexivity.
    + destruct a as [[x|x|x]|]; try discriminate R. exists u, v, x, []. cbn [counts_eval] in R.
      split; [rewrite <- app_assoc; reflexivity|]. split; [apply regularb_spec; exact R|].
      split; [exact P|]. split; [exact Q|].
      rewrite evaluated_length, calls_of_app, counted_app. cbn [calls_of flat_map app].
      change (flat_map _ v) with (calls_of v). lia.
Qed.

(** ** The best solution *)

Section Merit.
Variable m : list double -> double.
Hypothesis Mn : forall x, num (m x).

Lemma below_le : forall a b c, below a b -> num c -> ~ below c b -> below a c.
Proof.
  intros a b c [Na [Nb H]] Nc K. split; [exact Na|]. split; [exact Nc|].
  destruct (Rlt_or_le (val c) (val b)) as [L|L]; [|lra]. exfalso. apply K. split; [exact Nc|]. split; assumption.
Qed.

Lemma first_best_one : forall x, first_best m [x] x (m x).
Proof.
  intros x. exists 0. split; [reflexivity|]. split; [reflexivity|]. split.
  - intros y [<-|[]]. apply below_irrefl.
  - lia.
Qed.

Lemma first_best_better : forall xs b v x, first_best m xs b v -> dlt (m x) v = true ->
  first_best m (xs ++ [x]) x (m x) /\ improves m (xs ++ [x]) (S (length xs)).
Proof.
  intros xs b v x [i [Ei [Ev [A B]]]] D. apply below_dlt in D.
  assert (K : forall y, In y xs -> below (m x) (m y)).
  { intros y Hy. apply (below_le _ v); [exact D|apply Mn|apply A; exact Hy]. }
  split.
  - exists (length xs). split; [rewrite nth_error_app2, Nat.sub_diag; [reflexivity|lia]|]. split; [reflexivity|]. split.
    + intros y Hy. apply in_app_iff in Hy as [Hy|[<-|[]]]; [|apply below_irrefl].
      intros Q. apply (below_irrefl (m x)). apply (below_trans _ (m y)); auto.
    + intros j y Hj E. rewrite nth_error_app1 in E by exact Hj. apply K. eapply nth_error_In; eauto.
  - exists x. split; [lia|]. rewrite Nat.sub_succ, Nat.sub_0_r. split.
    + rewrite nth_error_app2, Nat.sub_diag; [reflexivity|lia].
    + intros j y Hj E. rewrite nth_error_app1 in E by exact Hj. apply K. eapply nth_error_In; eauto.
Qed.

Lemma first_best_same : forall xs b v x, first_best m xs b v -> dlt (m x) v = false ->
  first_best m (xs ++ [x]) b v /\ ~ improves m (xs ++ [x]) (S (length xs)).
Proof.
  intros xs b v x [i [Ei [Ev [A B]]]] D.
  assert (Hi : i < length xs) by (apply nth_error_Some; congruence).
  assert (D' : ~ below (m x) v) by (intros K; apply below_dlt in K; congruence).
  split.
  - exists i. split; [rewrite nth_error_app1; assumption|]. split; [exact Ev|]. split.
    + intros y Hy. apply in_app_iff in Hy as [Hy|[<-|[]]]; auto.
    + intros j y Hj E. rewrite nth_error_app1 in E by lia. eapply B; eauto.
  - intros [y [_ [E K]]]. rewrite Nat.sub_succ, Nat.sub_0_r in E, K.
    rewrite nth_error_app2, Nat.sub_diag in E by lia. cbn in E. assert (y = x) by congruence. subst y.
    apply D'. rewrite Ev. apply (K i b Hi). rewrite nth_error_app1; assumption.
Qed.

Lemma improves_extend : forall xs ys k, k <= length xs -> (improves m (xs ++ ys) k <-> improves m xs k).
Proof.
  intros xs ys k Hk. split; intros [x [P [E K]]]; exists x; (split; [exact P|]).
  - rewrite nth_error_app1 in E by lia. split; [exact E|]. intros j y Hj Ej. apply (K j y Hj).
    rewrite nth_error_app1 by lia. exact Ej.
  - split; [rewrite nth_error_app1 by lia; exact E|]. intros j y Hj Ej. apply (K j y Hj).
    rewrite nth_error_app1 in Ej by lia. exact Ej.
Qed.

Lemma improves_range : forall xs k, improves m xs k -> 1 <= k <= length xs.
Proof.
  intros xs k [x [P [E _]]]. assert (k - 1 < length xs) by (apply nth_error_Some; congruence). lia.
Qed.
End Merit.

(** ** Consultations *)

Lemma consult_snoc : forall (S V : Type) (tr : S -> V -> res (bool * S)) vs s v bs t b u,
  consult tr s vs = Ok (bs, t) -> tr t v = Ok (b, u) -> consult tr s (vs ++ [v]) = Ok (bs ++ [b], u).
Proof.
  intros S V tr. induction vs as [|w vs IH]; intros s v bs t b u H K; cbn [consult app] in *.
  - assert (bs = [] /\ t = s) as [-> ->] by (split; congruence). rewrite K. reflexivity.
  - apply bind_Ok in H as [[c s1] [E H]]. apply bind_Ok in H as [[cs s2] [E' H]].
    rewrite E. cbn [bind]. assert (bs = c :: cs) by congruence. apply Ok_pair_snd in H. subst bs s2.
    rewrite (IH _ _ _ _ _ _ E' K). reflexivity.
Qed.

Lemma consult_length : forall (S V : Type) (tr : S -> V -> res (bool * S)) vs s bs t,
  consult tr s vs = Ok (bs, t) -> length bs = length vs.
Proof.
  intros S V tr. induction vs as [|w vs IH]; intros s bs t H; cbn [consult] in *.
  - assert (bs = []) by congruence. subst bs. reflexivity.
  - apply bind_Ok in H as [[c s1] [E H]]. apply bind_Ok in H as [[cs s2] [E' H]].
    assert (bs = c :: cs) by congruence. subst bs. cbn. f_equal. eapply IH; eauto.
Qed.

(** ** Lists of numbers *)

Lemma Forall2_len : forall A B (R : A -> B -> Prop) l k, Forall2 R l k -> length l = length k.
Proof. intros A B R l k H. induction H; cbn; congruence. Qed.

Lemma pick_snoc : forall ks bs k b, length bs = length ks ->
  pick (ks ++ [k]) (bs ++ [b]) = pick ks bs ++ (if b then [k] else []).
Proof.
  intros ks bs k b L. unfold pick.
  assert (E : combine (ks ++ [k]) (bs ++ [b]) = combine ks bs ++ [(k, b)]).
  { revert bs L. induction ks as [|k' ks IH]; intros [|b' bs] L; try discriminate L; [reflexivity|].
    cbn in *. f_equal. apply IH. lia. }
  rewrite E, filter_app, map_app. cbn. destruct b; reflexivity.
Qed.

Lemma pick_in : forall ks bs k, In k (pick ks bs) -> In k ks.
Proof.
  intros ks bs k H. unfold pick in H. apply in_map_iff in H as [[k' b] [<- H]].
  apply filter_In in H as [H _]. apply in_combine_l in H. exact H.
Qed.

Lemma increasing_snoc : forall ks k, increasing ks -> (forall j, In j ks -> j < k) -> increasing (ks ++ [k]).
Proof.
  unfold increasing. induction ks as [|a ks IH]; intros k H B; cbn.
  - constructor; constructor.
  - inversion H; subst. constructor.
    + apply IH; [assumption|]. intros j Hj. apply B. right. exact Hj.
    + apply Forall_app. split; [assumption|]. constructor; [|constructor]. apply B. left. reflexivity.
Qed.

Lemma pick_increasing : forall ks bs, increasing ks -> increasing (pick ks bs).
Proof.
  unfold increasing. induction ks as [|a ks IH]; intros bs H; [constructor|].
  destruct bs as [|b bs]; [constructor|]. inversion H; subst. cbn. destruct b; cbn; [|apply IH; assumption].
  constructor; [apply IH; assumption|]. apply Forall_forall. intros k Hk.
  apply (proj1 (Forall_forall _ _) H3). eapply pick_in; exact Hk.
Qed.

Definition last_of (ks : list nat) : option N := match rev ks with [] => None | k :: _ => Some (N.of_nat k) end.
Lemma last_of_snoc : forall ks k, last_of (ks ++ [k]) = Some (N.of_nat k).
Proof. intros. unfold last_of. rewrite rev_app_distr. reflexivity. Qed.

(** ** One evaluation *)

Definition appended (b : bool) (o : res line) (old new : list line) : Prop :=
  if b then exists l, o = Ok l /\ new = old ++ [l] else new = old.

Section Files.
Variables log10 pow10 : double -> double.
Context {C : class}.
Variables (I : data C -> Prop) (f : list double -> double) (g : list double -> list double).
Variables (h0 : header) (k0 : settings) (T0 : targets) (E0 : TrigModel.evaluations).
Notation n := (number_of_variables h0).
Notation nc := (number_of_constraints h0).
Notation opt := (optimal_value k0).
Hypothesis HC : computes C n I f g.
Hypothesis Hn : variables k0 = n.
Hypothesis Hc : constraints k0 = nc.
Hypothesis Ho : fin opt.
Hypothesis H0 : evaluations_constraints h0 = 0%N.

Definition m (x : list double) : double := merit (is_opt_known h0) opt (f x) (firstn nc (g x)).
Definition eline := evaluation_line (integers k0) (log_discrete_as_int k0) nc opt f g m.

Lemma m_num : forall x, num (m x).
Proof. intros x. apply merit_num. exact Ho. Qed.

Definition values (x : list double) : option (list double) := if (nc =? 0)%nat then None else Some (g x).

Lemma evaluate_step : forall h (l : logger C) x y l1, static h0 h -> good n I (inner l) -> setting l = k0 ->
  length x = n -> regular x ->
  logger_bbob_evaluate log10 pow10 h l x = Ok (y, l1) ->
  let num := (num_func_evaluations l + 1)%N in
  let better := (num =? 1)%N || dlt (m x) (best_found_value l) in
  let best := if better then m x else best_found_value l in
  let cons := evaluations_constraints h in
  let o := logger_bbob_output k0 num cons (Some x) (logged (f x)) best (values x) in
  exists (bd bt : bool) f1,
    good n I (inner l1) /\ setting l1 = k0 /\ output l1 = Some f1 /\ algorithm_restarted l1 = false /\
    num_func_evaluations l1 = num /\ num_cons_evaluations l1 = cons /\
    best_found_value l1 = best /\ best_found_solution l1 = (if better then Some x else best_found_solution l) /\
    last_logged_eval_dat l1 = (if bd then Some num else last_logged_eval_dat l) /\
    last_logged_eval_tdat l1 = (if bt then Some num else last_logged_eval_tdat l) /\
    (if better then
       if (num =? 1)%N then bd = true /\ target_triggers l1 = target_triggers l
       else targets_trigger log10 pow10 (target_triggers l) (dsub best opt) = Ok (bd, target_triggers l1)
     else bd = false /\ target_triggers l1 = target_triggers l) /\
    evaluations_trigger pow10 (evaluation_triggers l) (num + cons) = Ok (bt, evaluation_triggers l1) /\
    appended bd o (dat (logger_bbob_initialize (output l))) (dat f1) /\
    appended bt o (tdat (logger_bbob_initialize (output l))) (tdat f1) /\
    appended (algorithm_restarted l) o (rdat (logger_bbob_initialize (output l))) (rdat f1) /\
    mdat f1 = mdat (logger_bbob_initialize (output l)) /\
    mdat_triggers l1 = mdat_triggers l /\
    last_logged_eval_mdat l1 = last_logged_eval_mdat l /\
    best_recommended_solution l1 = best_recommended_solution l /\
    best_recommended_value l1 = best_recommended_value l.
Proof.
  intros h l x y l1 St Gd Se Lx R H. cbv zeta.
  assert (Ek : is_opt_known h = is_opt_known h0) by (rewrite St; reflexivity).
  assert (Ec : number_of_constraints h = nc) by (rewrite St; reflexivity).
  assert (Ev : number_of_variables h = n) by (rewrite St; reflexivity).
  unfold logger_bbob_evaluate in H. rewrite Ec, Ev, Ek, Se in H.
  apply bind_Ok in H as [[fe p0] [F H]].
  pose proof (feasibility_good n I f g HC _ _ _ _ _ Gd Lx F) as G0.
  destruct (is_tainted h || is_tainted (head p0)); [discriminate H|].
  apply bind_Ok in H as [[y' p1] [E H]].
  pose proof (evaluate_good n I f g HC _ _ _ _ G0 Lx E) as G1.
  apply bind_Ok in H as [y0 [M H]]. apply bind_Ok in H as [cv [Cv H]].
  pose proof (evaluate_value n I f g HC _ _ _ _ _ _ G0 Lx R E M Cv) as Q. subst cv.
  destruct (is_opt_known h0 && fe && negb (dle opt (dadd (for_logging (f x)) SANITY))); [discriminate H|].
  apply bind_Ok in H as [[vs p2] [V H]].
  destruct (inner_constraints_good n I f g HC _ _ _ _ _ G1 Lx V) as [G2 Vs]. specialize (Vs R).
  apply bind_Ok in H as [s [Sm H]].
  assert (Mx : logged_merit (is_opt_known h0) opt (for_logging (f x)) s = m x).
  { unfold sum_of in Sm. rewrite Vs in Sm. unfold m.
    destruct (Nat.eqb_spec nc 0) as [Z|Z].
    - rewrite (merit_spec _ _ _ _ _ _ (fin_num _ Ho) Sm). rewrite Z. reflexivity.
    - exact (merit_spec _ _ _ _ _ _ (fin_num _ Ho) Sm). }
  rewrite Mx, for_logging_spec in H. fold (values x) in Vs. rewrite Vs in H. clear Mx Sm s Cv M.
  set (num := (num_func_evaluations l + 1)%N) in *.
  set (better := (num =? 1)%N || dlt (m x) (best_found_value l)) in *.
  set (best := if better then m x else best_found_value l) in *.
  apply bind_Ok in H as [[bd T] [ET H]]. apply bind_Ok in H as [D [ED H]].
  apply bind_Ok in H as [[bt W] [EW H]]. apply bind_Ok in H as [D' [ED' H]].
  apply bind_Ok in H as [D'' [ED'' H]]. apply Ok_pair_snd in H. subst l1.
  exists bd, bt. eexists.
  cbn [inner setting output algorithm_restarted num_func_evaluations num_cons_evaluations best_found_value
       best_found_solution last_logged_eval_dat last_logged_eval_tdat target_triggers evaluation_triggers
       mdat_triggers last_logged_eval_mdat best_recommended_solution best_recommended_value].
  split; [exact G2|]. split; [reflexivity|]. split; [reflexivity|]. split; [reflexivity|].
  split; [reflexivity|]. split; [reflexivity|]. split; [reflexivity|].
  split; [rewrite firstn_all2 by lia; reflexivity|]. split; [reflexivity|]. split; [reflexivity|].
  split.
  { destruct better; [destruct (num =? 1)%N|].
    - split; congruence.
    - exact ET.
    - split; congruence. }
  split; [exact EW|].
  assert (A : forall (b : bool) (r : res line) (old new : list line),
    (if b then do o <- r; Ok (old ++ [o]) else Ok old) = Ok new -> appended b r old new).
  { intros b r old new K. unfold appended. destruct b; [|congruence].
    apply bind_Ok in K as [o [K1 K2]]. exists o. split; [exact K1|congruence]. }
  split; [apply A; exact ED|]. split; [apply A; exact ED'|]. split; [apply A; exact ED''|].
  split; [reflexivity|]. split; [reflexivity|]. split; [reflexivity|]. split; reflexivity.
Qed.

(** ** The invariant *)

Definition some_best (acts : list action) (l : logger C) : Prop :=
  output l <> None /\
    (exists b, best_found_solution l = Some b /\ length b = n /\ first_best m (evaluated acts) b (best_found_value l)) /\
    (exists before x, evaluation_at acts (length (evaluated acts)) before x /\
      num_cons_evaluations l = N.of_nat (counted_constraints (calls_of before))).

Definition dat_is (acts : list action) (l : logger C) : Prop :=
  let file := dat (logger_bbob_initialize (output l)) in
  (evaluated acts = [] /\ file = [] /\ last_logged_eval_dat l = None /\ target_triggers l = T0)
  \/ (evaluated acts <> [] /\ exists ks vs bs, increasing ks /\
      (forall k, In k ks <-> 2 <= k /\ improves m (evaluated acts) k) /\
      gaps_are m opt (evaluated acts) ks vs /\
      consult (targets_trigger log10 pow10) T0 vs = Ok (bs, target_triggers l) /\
      Forall2 (eline acts) (1 :: pick ks bs) file /\
      last_logged_eval_dat l = last_of (1 :: pick ks bs)).

Definition tdat_is (acts : list action) (l : logger C) : Prop :=
  exists vs bs, totals_are acts vs /\
      consult (evaluations_trigger pow10) E0 vs = Ok (bs, evaluation_triggers l) /\
      Forall2 (eline acts) (pick (seq 1 (length (evaluated acts))) bs) (tdat (logger_bbob_initialize (output l))) /\
      last_logged_eval_tdat l = last_of (pick (seq 1 (length (evaluated acts))) bs).

Definition rdat_is (acts : list action) (l : logger C) : Prop :=
  exists ks, increasing ks /\ (forall k, In k ks <-> restart_before acts k) /\
      Forall2 (eline acts) ks (rdat (logger_bbob_initialize (output l))).

Record inv (acts : list action) (q : problem (logger_bbob_class log10 pow10 C)) : Prop := {
  i_static : static h0 (head q);
  i_cons : evaluations_constraints (head q) = N.of_nat (counted_constraints (calls_of acts));
  i_inner : good n I (inner (body q));
  i_setting : setting (body q) = k0;
  i_num : num_func_evaluations (body q) = N.of_nat (length (evaluated acts));
  i_restart : algorithm_restarted (body q) = true <-> pending acts;
  i_best : evaluated acts <> [] -> some_best acts (body q);
  i_dat : dat_is acts (body q);
  i_tdat : tdat_is acts (body q);
  i_rdat : rdat_is acts (body q) }.

Lemma firstn_evaluated : forall acts a k, k <= length (evaluated acts) ->
  firstn k (evaluated (acts ++ [a])) = firstn k (evaluated acts).
Proof. intros acts a k H. rewrite evaluated_app, firstn_app. replace (k - length (evaluated acts)) with 0 by lia.
  cbn [firstn]. apply app_nil_r. Qed.

Lemma eline_extend : forall acts a k l, eline acts k l -> eline (acts ++ [a]) k l.
Proof.
  intros acts a k l [before [x [b [v [E [F Q]]]]]]. exists before, x, b, v.
  split; [apply evaluation_at_extend; exact E|]. split; [|exact Q].
  rewrite firstn_evaluated; [exact F|]. apply evaluation_at_range in E as [E _]. lia.
Qed.

Lemma elines_extend : forall acts a ks ls, Forall2 (eline acts) ks ls -> Forall2 (eline (acts ++ [a])) ks ls.
Proof. intros acts a ks ls H. induction H; constructor; auto. apply eline_extend. assumption. Qed.

Lemma totals_extend : forall acts a vs, counts_eval a = false -> totals_are acts vs -> totals_are (acts ++ [a]) vs.
Proof.
  intros acts a vs E [L T]. unfold totals_are. rewrite evaluated_app, (evaluated_one a E), app_nil_r.
  split; [exact L|]. intros k before x v H. apply evaluation_at_snoc in H as [H|[-> [R _]]].
  - apply (T k before x v H).
  - cbn [counts_eval] in E. apply regularb_spec in R. congruence.
Qed.

(** Actions that are not counted evaluations *)
Lemma inv_keep : forall acts q a (q' : problem (logger_bbob_class log10 pow10 C)), inv acts q -> counts_eval a = false ->
  static h0 (head q') ->
  evaluations_constraints (head q') = N.of_nat (counted_constraints (calls_of (acts ++ [a]))) ->
  good n I (inner (body q')) -> setting (body q') = k0 ->
  num_func_evaluations (body q') = num_func_evaluations (body q) ->
  num_cons_evaluations (body q') = num_cons_evaluations (body q) ->
  (algorithm_restarted (body q') = true <-> pending (acts ++ [a])) ->
  (output (body q) <> None -> output (body q') <> None) ->
  dat (logger_bbob_initialize (output (body q'))) = dat (logger_bbob_initialize (output (body q))) ->
  tdat (logger_bbob_initialize (output (body q'))) = tdat (logger_bbob_initialize (output (body q))) ->
  rdat (logger_bbob_initialize (output (body q'))) = rdat (logger_bbob_initialize (output (body q))) ->
  best_found_solution (body q') = best_found_solution (body q) ->
  best_found_value (body q') = best_found_value (body q) ->
  last_logged_eval_dat (body q') = last_logged_eval_dat (body q) ->
  last_logged_eval_tdat (body q') = last_logged_eval_tdat (body q) ->
  target_triggers (body q') = target_triggers (body q) ->
  evaluation_triggers (body q') = evaluation_triggers (body q) ->
  inv (acts ++ [a]) q'.
Proof.
  intros acts q a q' [V1 V2 V3 V4 V5 V6 V7 V8 V9 V10] E S1 S2 S3 S4 N1 N2 Rs Ou Fd Ft Fr Bs Bv Ld Lt Td Te.
  assert (Ea : evaluated (acts ++ [a]) = evaluated acts).
  { rewrite evaluated_app, (evaluated_one a E). apply app_nil_r. }
  constructor; auto.
  - rewrite N1, Ea. exact V5.
  - rewrite Ea. intros Ne. destruct (V7 Ne) as [O [[b [B1 [B2 B3]]] [before [x [A1 A2]]]]]. split; [auto|]. split.
    + exists b. rewrite Bs, Bv, Ea. auto.
    + exists before, x. rewrite Ea, N2. split; [apply evaluation_at_extend; exact A1|exact A2].
  - unfold dat_is in *. rewrite Fd, Ld, Td, Ea. destruct V8 as [V8|[Ne [ks [vs [bs [K1 [K2 [K3 [K4 [K5 K6]]]]]]]]]]; [left; exact V8|right].
    split; [exact Ne|]. exists ks, vs, bs. split; [exact K1|]. split; [exact K2|]. split; [exact K3|].
    split; [exact K4|]. split; [apply elines_extend; exact K5|exact K6].
  - destruct V9 as [vs [bs [T1 [T2 [T3 T4]]]]]. exists vs, bs. rewrite Ft, Lt, Te, Ea.
    split; [apply totals_extend; assumption|]. split; [exact T2|]. split; [apply elines_extend; exact T3|exact T4].
  - destruct V10 as [ks [R1 [R2 R3]]]. exists ks. rewrite Fr. split; [exact R1|]. split; [|apply elines_extend; exact R3].
    intros k. rewrite restart_before_snoc, R2. split; [auto|]. intros [K|[K _]]; [exact K|congruence].
Qed.

Lemma inv_restart : forall acts q, inv acts q ->
  inv (acts ++ [Restart]) (Build_problem (logger_bbob_class log10 pow10 C) (head q) (logger_bbob_signal_restart (body q))).
Proof.
  intros acts q V. pose proof V as [V1 V2 V3 V4 V5 V6 V7 V8 V9 V10].
  assert (Pd : pending (acts ++ [Restart]) <-> 0 < length (evaluated acts)).
  { rewrite evaluated_length. apply pending_restart. }
  apply (inv_keep acts q Restart); auto; cbn [head body]; unfold logger_bbob_signal_restart;
    try (destruct (0 <? num_func_evaluations (body q))%N; reflexivity || assumption).
  - rewrite calls_of_app. cbn [calls_of flat_map app]. rewrite app_nil_r. exact V2.
  - destruct (N.ltb_spec 0 (num_func_evaluations (body q))) as [L|L]; cbn [algorithm_restarted].
    + rewrite Pd. split; intros; [lia|reflexivity].
    + rewrite V6, Pd. split; [|lia]. intros [a [b [K1 [K2 K3]]]]. subst acts.
      rewrite evaluated_length, calls_of_app, counted_app in *. lia.
  - intros O. destruct (0 <? num_func_evaluations (body q))%N; exact O.
Qed.

Lemma recommend_keeps : forall h (l : logger C) x l1, good n I (inner l) -> length x = n ->
  number_of_variables h = n ->
  logger_bbob_recommend log10 pow10 h l x = Ok l1 ->
  good n I (inner l1) /\ setting l1 = setting l /\ num_func_evaluations l1 = num_func_evaluations l /\
  num_cons_evaluations l1 = num_cons_evaluations l /\ algorithm_restarted l1 = algorithm_restarted l /\
  output l1 <> None /\
  dat (logger_bbob_initialize (output l1)) = dat (logger_bbob_initialize (output l)) /\
  tdat (logger_bbob_initialize (output l1)) = tdat (logger_bbob_initialize (output l)) /\
  rdat (logger_bbob_initialize (output l1)) = rdat (logger_bbob_initialize (output l)) /\
  best_found_solution l1 = best_found_solution l /\ best_found_value l1 = best_found_value l /\
  last_logged_eval_dat l1 = last_logged_eval_dat l /\ last_logged_eval_tdat l1 = last_logged_eval_tdat l /\
  target_triggers l1 = target_triggers l /\ evaluation_triggers l1 = evaluation_triggers l.
Proof.
  intros h l x l1 Gd Lx Hv H. unfold logger_bbob_recommend in H.
  apply bind_Ok in H as [[fe p0] [F H]].
  pose proof (feasibility_good n I f g HC _ _ _ _ _ Gd Lx F) as G0.
  apply bind_Ok in H as [[y' p1] [E H]].
  pose proof (evaluate_good n I f g HC _ _ _ _ G0 Lx E) as G1.
  apply bind_Ok in H as [y0 [M H]].
  match type of H with (if ?c then _ else _) = _ => destruct c; [discriminate H|] end.
  apply bind_Ok in H as [[vs p2] [V H]].
  destruct (inner_constraints_good n I f g HC _ _ _ _ _ G1 Lx V) as [G2 _].
  apply bind_Ok in H as [s [Sm H]]. apply bind_Ok in H as [[b T] [ET H]]. apply bind_Ok in H as [D [ED H]].
  match type of H with Ok ?r = _ => assert (Q : l1 = r) by congruence end. subst l1. clear H.
  cbn [inner setting output algorithm_restarted num_func_evaluations num_cons_evaluations best_found_value
       best_found_solution last_logged_eval_dat last_logged_eval_tdat target_triggers evaluation_triggers
       logger_bbob_initialize dat tdat rdat].
  split; [exact G2|]. do 4 (split; [reflexivity|]). split; [discriminate|].
  do 8 (split; [reflexivity|]). reflexivity.
Qed.

Lemma constrain_keeps : forall (l : logger C) x u vs l1, good n I (inner l) -> length x = n ->
  (do (vs, p) <- coco_evaluate_constraint_optional_update (inner l) x u; Ok (vs, set_inner l p)) = Ok (vs, l1) ->
  exists p, l1 = set_inner l p /\ good n I p.
Proof.
  intros l x u vs l1 Gd Lx H. apply bind_Ok in H as [[ws p] [E H]]. apply Ok_pair_snd in H. subst l1.
  exists p. split; [reflexivity|]. eapply constraint_good; eauto.
Qed.

(** A counted evaluation *)
Lemma eline_last : forall acts x b v o,
  length x = n -> regular x -> first_best m (evaluated (acts ++ [Call (Evaluate x)])) b v ->
  logger_bbob_output k0 (N.of_nat (length (evaluated acts)) + 1) (N.of_nat (counted_constraints (calls_of acts)))
    (Some x) (logged (f x)) v (values x) = Ok o ->
  eline (acts ++ [Call (Evaluate x)]) (S (length (evaluated acts))) o.
Proof.
  intros acts x b v o Lx R F O.
  apply output_spec in O; [|rewrite Hn; exact Lx]. destruct O as [O1 [O2 [O3 [O4 [O5 O6]]]]].
  exists acts, x, b, v. split; [apply evaluation_at_last; exact R|].
  split; [rewrite firstn_all2; [exact F|]; rewrite evaluated_app, app_length, (evaluated_eval x R); cbn [length]; lia|].
  split; [rewrite O1; lia|]. split; [exact O2|]. split; [exact O3|]. split; [exact O4|].
  split; [|exact O6]. rewrite O5. unfold values. rewrite Hc. destruct (nc =? 0)%nat; reflexivity.
Qed.

Lemma inv_counted : forall acts (q q' : problem (logger_bbob_class log10 pow10 C)) x y l1 p',
  inv acts q -> length x = n -> regular x ->
  logger_bbob_evaluate log10 pow10 (head q) (body q) x = Ok (y, l1) ->
  body q' = set_inner l1 p' -> good n I p' ->
  static h0 (head q') -> evaluations_constraints (head q') = evaluations_constraints (head q) ->
  inv (acts ++ [Call (Evaluate x)]) q'.
Proof.
  intros acts q q' x y l1 p' [V1 V2 V3 V4 V5 V6 V7 V8 V9 V10] Lx R H B' G' S' C'.
  destruct (evaluate_step _ _ _ _ _ V1 V3 V4 Lx R H) as
    (bd & bt & f1 & G1 & Se & Ou & Ar & Nf & Ncn & Bv & Bs & Ld & Lt & Td & Te & Ad & At & Ard & _).
  rewrite V5, V2 in *. clear H.
  set (xs := evaluated acts) in *.
  set (best := if (N.of_nat (length xs) + 1 =? 1)%N || dlt (m x) (best_found_value (body q)) then m x
               else best_found_value (body q)) in *.
  set (o := logger_bbob_output k0 (N.of_nat (length xs) + 1) (N.of_nat (counted_constraints (calls_of acts)))
              (Some x) (logged (f x)) best (values x)) in *.
  assert (Ex : evaluated (acts ++ [Call (Evaluate x)]) = xs ++ [x]).
  { rewrite evaluated_app, (evaluated_eval x R). reflexivity. }
  assert (First : (N.of_nat (length xs) + 1 =? 1)%N = match xs with [] => true | _ => false end).
  { destruct xs; [reflexivity|]. cbn [length]. apply N.eqb_neq. lia. }
  (* the best solution *)
  assert (Best : exists b, first_best m (xs ++ [x]) b best /\ length b = n /\
            (if (N.of_nat (length xs) + 1 =? 1)%N || dlt (m x) (best_found_value (body q)) then Some x
             else best_found_solution (body q)) = Some b /\
            (xs <> [] -> (improves m (xs ++ [x]) (S (length xs)) <-> dlt (m x) (best_found_value (body q)) = true))).
  { unfold best. rewrite First. destruct xs as [|x0 xs'] eqn:Exs.
    - cbn [orb app]. exists x. split; [apply first_best_one|]. split; [exact Lx|]. split; [reflexivity|congruence].
    - cbn [orb]. rewrite <- Exs. destruct (V7 ltac:(congruence)) as [_ [[b [B1 [B2 B3]]] _]].
      unfold xs in *. rewrite Exs in B3. rewrite <- Exs in B3.
      destruct (dlt (m x) (best_found_value (body q))) eqn:D.
      + destruct (first_best_better m m_num _ _ _ _ B3 D) as [P1 P2]. exists x. split; [exact P1|]. split; [exact Lx|].
        split; [reflexivity|]. intros _. split; auto.
      + destruct (first_best_same m _ _ _ _ B3 D) as [P1 P2]. exists b. split; [exact P1|]. split; [exact B2|].
        split; [exact B1|]. intros _. split; [contradiction|discriminate]. }
  destruct Best as [b [FB [Lb [Sb Imp]]]].
  assert (Line : forall l, o = Ok l -> eline (acts ++ [Call (Evaluate x)]) (S (length xs)) l).
  { intros l O. eapply eline_last; [exact Lx|exact R| |exact O]. fold xs. rewrite Ex. exact FB. }
  assert (Dat : dat (logger_bbob_initialize (output (body q'))) = dat f1) by (rewrite B'; cbn [set_inner output]; rewrite Ou; reflexivity).
  assert (Tdat : tdat (logger_bbob_initialize (output (body q'))) = tdat f1) by (rewrite B'; cbn [set_inner output]; rewrite Ou; reflexivity).
  assert (Rdat : rdat (logger_bbob_initialize (output (body q'))) = rdat f1) by (rewrite B'; cbn [set_inner output]; rewrite Ou; reflexivity).
  assert (Len : length (xs ++ [x]) = S (length xs)) by (rewrite app_length; cbn [length]; lia).
  constructor.
  - exact S'.
  - rewrite C', calls_of_app, counted_c_app, counted_c_one. cbn [counts_cons]. f_equal. lia.
  - rewrite B'. exact G'.
  - rewrite B'. exact Se.
  - rewrite B', Ex, Len. cbn [set_inner num_func_evaluations]. rewrite Nf. lia.
  - rewrite B'. cbn [set_inner algorithm_restarted]. rewrite Ar. split; [discriminate|].
    intros K. exfalso. revert K. apply pending_eval. cbn. apply regularb_spec. exact R.
  - intros _. rewrite B'. split; [cbn [set_inner output]; rewrite Ou; discriminate|]. split.
    + exists b. cbn [set_inner best_found_solution best_found_value]. rewrite Bs, Bv, Ex. auto.
    + exists acts, x. cbn [set_inner num_cons_evaluations]. rewrite Ex, Len. split; [apply evaluation_at_last; exact R|exact Ncn].
  - (* dat *)
    right. rewrite Dat, Ex, B'. cbn [set_inner last_logged_eval_dat target_triggers].
    split; [destruct xs; discriminate|].
    rewrite First in Td. destruct V8 as [[E [Fi [La Tr]]]|[Ne [ks [vs [bs [K1 [K2 [K3 [K4 [K5 K6]]]]]]]]]].
    + fold xs in E. rewrite E in *. cbn [orb] in Td. destruct Td as [-> Td]. cbn [appended] in Ad. destruct Ad as [l [O Ad]].
      exists [], [], []. split; [constructor|]. split.
      { intros k. split; [intros []|]. intros [K1 K2]. apply improves_range in K2. cbn [length app] in K2. lia. }
      split; [constructor|]. split; [cbn [consult]; rewrite Td, Tr; reflexivity|].
      split; [|rewrite Ld; reflexivity].
      rewrite Ad, Fi. cbn [pick combine filter map app]. constructor; [|constructor]. apply Line. exact O.
    + fold xs in Ne, K2, K3. assert (Fx : match xs with [] => true | _ => false end = false) by (destruct xs; [contradiction|reflexivity]).
      rewrite Fx in Td. cbn [orb] in Td. specialize (Imp Ne).
      assert (K3' : gaps_are m opt (xs ++ [x]) ks vs).
      { unfold gaps_are in *. revert K3. assert (KR : forall k, In k ks -> k <= length xs).
        { intros k Hk. apply K2 in Hk as [_ Hk]. apply improves_range in Hk. lia. }
        clear - KR Ne. intros K3. induction K3 as [|k v ks vs [x' [A B]] K3 IH]; constructor.
        - exists x'. split; [|exact B]. rewrite nth_error_app1; [exact A|]. apply nth_error_Some. congruence.
        - apply IH. intros k' Hk. apply KR. right. exact Hk. }
      unfold best in Td. rewrite First, Fx in Td. cbn [orb] in Td.
      destruct (dlt (m x) (best_found_value (body q))) eqn:D.
      * assert (Im : improves m (xs ++ [x]) (S (length xs))) by (apply Imp; reflexivity).
        exists (ks ++ [S (length xs)]), (vs ++ [dsub (m x) opt]), (bs ++ [bd]).
        assert (Lk : length bs = length ks).
        { rewrite (consult_length _ _ _ _ _ _ _ K4). symmetry. eapply Forall2_len; exact K3. }
        split; [apply increasing_snoc; [exact K1|]; intros j Hj; apply K2 in Hj as [_ Hj]; apply improves_range in Hj; lia|].
        split.
        { intros k. rewrite in_app_iff, K2. split.
          - intros [[P Q]|[<-|[]]].
            + split; [exact P|]. apply improves_extend; [|exact Q]. apply improves_range in Q. lia.
            + split; [|exact Im]. destruct xs; [contradiction|]. cbn [length]. lia.
          - intros [P Q]. pose proof (improves_range _ _ _ Q) as Rg. rewrite Len in Rg.
            destruct (Nat.eq_dec k (S (length xs))) as [->|Nk]; [right; left; reflexivity|left].
            split; [exact P|]. apply (improves_extend m xs [x] k); [lia|exact Q]. }
        split; [apply Forall2_app; [exact K3'|constructor; [|constructor]]; exists x; rewrite Nat.sub_succ, Nat.sub_0_r;
                rewrite nth_error_app2, Nat.sub_diag by lia; split; reflexivity|].
        split; [eapply consult_snoc; [exact K4|exact Td]|].
        rewrite pick_snoc by exact Lk. rewrite app_comm_cons. destruct bd; cbn [appended] in Ad.
        -- destruct Ad as [l [O Ad]]. rewrite Ad, Ld, last_of_snoc. split; [|f_equal; lia].
           apply Forall2_app; [apply elines_extend; exact K5|]. constructor; [apply Line; exact O|constructor].
        -- rewrite Ad, Ld, app_nil_r. split; [apply elines_extend; exact K5|exact K6].
      * destruct Td as [-> Td]. cbn [appended] in Ad. exists ks, vs, bs. split; [exact K1|]. split.
        { intros k. rewrite K2. split.
          - intros [P Q]. split; [exact P|]. apply improves_extend; [|exact Q]. apply improves_range in Q. lia.
          - intros [P Q]. split; [exact P|]. pose proof (improves_range _ _ _ Q) as Rg. rewrite Len in Rg.
            destruct (Nat.eq_dec k (S (length xs))) as [->|Nk].
            + apply Imp in Q. discriminate Q.
            + apply (improves_extend m xs [x] k); [lia|exact Q]. }
        split; [exact K3'|]. split; [rewrite Td; exact K4|]. rewrite Ad, Ld.
        split; [apply elines_extend; exact K5|exact K6].
  - (* tdat *)
    destruct V9 as [vs [bs [T1 [T2 [T3 T4]]]]]. fold xs in T3, T4.
    exists (vs ++ [(N.of_nat (length xs) + 1 + N.of_nat (counted_constraints (calls_of acts)))%N]), (bs ++ [bt]).
    destruct T1 as [L1 T1]. fold xs in L1.
    pose proof (consult_length _ _ _ _ _ _ _ T2) as L2.
    rewrite Tdat, Ex, Len, B'. cbn [set_inner last_logged_eval_tdat evaluation_triggers].
    split.
    { split; [rewrite Ex, !app_length; cbn [length]; lia|]. intros k before z v E Nv.
      apply evaluation_at_snoc in E as [E|[E [_ [-> ->]]]].
      - pose proof (proj1 (evaluation_at_range _ _ _ _ E)) as Rg. fold xs in Rg.
        rewrite nth_error_app1 in Nv by lia. eapply T1; eauto.
      - fold xs in Nv |- *. rewrite Nat.sub_succ, Nat.sub_0_r in Nv. rewrite nth_error_app2 in Nv by lia.
        rewrite L1, Nat.sub_diag in Nv. cbn in Nv. assert (v = (N.of_nat (length xs) + 1 + N.of_nat (counted_constraints (calls_of acts)))%N) by congruence.
        subst v. lia. }
    split; [eapply consult_snoc; [exact T2|exact Te]|].
    rewrite seq_S. cbn [Nat.add]. rewrite pick_snoc by (rewrite seq_length; lia).
    destruct bt; cbn [appended] in At.
    + destruct At as [l [O At]]. rewrite At, Lt, last_of_snoc. split; [|f_equal; lia].
      apply Forall2_app; [apply elines_extend; exact T3|]. constructor; [apply Line; exact O|constructor].
    + rewrite At, Lt, app_nil_r. split; [apply elines_extend; exact T3|exact T4].
  - (* rdat *)
    destruct V10 as [ks [R1 [R2 R3]]].
    assert (Rb : forall k, restart_before (acts ++ [Call (Evaluate x)]) k <->
                   In k ks \/ (algorithm_restarted (body q) = true /\ k = S (length xs))).
    { intros k. rewrite restart_before_snoc, R2, V6. cbn [counts_eval]. rewrite (proj2 (regularb_spec x) R).
      fold xs. tauto. }
    assert (Rk : forall k, In k ks -> k < S (length xs)).
    { intros k Hk. apply R2 in Hk as [a [b' [z [c [E [Rz [_ [K1 K2]]]]]]]].
      unfold xs. rewrite evaluated_length, E.
      change (a ++ Restart :: b' ++ Call (Evaluate z) :: c) with (a ++ [Restart] ++ b' ++ [Call (Evaluate z)] ++ c).
      rewrite !calls_of_app, !counted_app, !counted_one. cbn [counts_eval].
      rewrite (proj2 (regularb_spec z) Rz). lia. }
    unfold rdat_is. rewrite Rdat. destruct (algorithm_restarted (body q)); cbn [appended] in Ard.
    + destruct Ard as [l [O Ard]]. exists (ks ++ [S (length xs)]). rewrite Ard.
      split; [apply increasing_snoc; assumption|]. split.
      * intros k. rewrite Rb, in_app_iff. cbn [In]. intuition.
      * apply Forall2_app; [apply elines_extend; exact R3|]. constructor; [apply Line; exact O|constructor].
    + exists ks. rewrite Ard. split; [exact R1|]. split; [|apply elines_extend; exact R3].
      intros k. rewrite Rb. intuition congruence.
Qed.

Lemma set_inner_same : forall l : logger C, set_inner l (inner l) = l.
Proof. intros []. reflexivity. Qed.

Notation LC := (logger_bbob_class log10 pow10 C).

(** Any action *)
Lemma inv_act : forall acts (q q' : problem LC) a y, inv acts q ->
  match a with Call c => length (argument c) = n | Restart => True end ->
  act log10 pow10 q a = Ok (y, q') -> inv (acts ++ [a]) q'.
Proof.
  intros acts q q' a y V La H. pose proof V as [V1 V2 V3 V4 V5 V6 V7 V8 V9 V10].
  destruct a as [c|]; cbn [act] in H.
  2:{ apply Ok_pair_snd in H. subst q'. apply inv_restart. exact V. }
  assert (Nv : number_of_variables (head q) = n) by exact (static_nv _ _ V1).
  assert (Lc : length (argument c) = number_of_variables (head q)) by lia.
  destruct (perform_counts q c y q' Lc H) as [St [_ Cc]].
  pose proof (static_trans _ _ _ V1 St) as S'.
  assert (Cc' : evaluations_constraints (head q') = N.of_nat (counted_constraints (calls_of (acts ++ [Call c])))).
  { rewrite Cc, V2, calls_of_app, counted_c_app, counted_c_one. unfold weight_c, counts_cons.
    destruct c as [x|x|x]; try lia. destruct (regularb x); lia. }
  destruct c as [x|x|x]; cbn [argument perform] in *.
  - destruct (classify x) as [[R E]|[[R E]|[R E]]].
    + destruct (eval_regular q x y q' Lc R H) as [d [Ed [_ K]]]. cbv zeta in K.
      cbn [evaluate_function logger_bbob_class] in Ed.
      assert (G1 : exists p', body q' = set_inner d p' /\ good n I p').
      { destruct (evaluate_step _ _ _ _ _ V1 V3 V4 La R Ed) as [_ [_ [_ [G1 _]]]].
        destruct K as [[_ ->]|[_ [[_ ->]|[_ [e [vs [d' [b [Ee [Ev [_ ->]]]]]]]]]]]; cbn [body].
        - exists (inner d). split; [symmetry; apply set_inner_same|exact G1].
        - exists (inner d). split; [symmetry; apply set_inner_same|exact G1].
        - cbn [evaluate_constraint logger_bbob_class] in Ee. apply Some_inj in Ee. subst e. cbv beta in Ev.
          destruct (constrain_keeps _ _ _ _ _ G1 La Ev) as [p' [Q G']]. exists p'. split; [exact Q|exact G']. }
      destruct G1 as [p' [B' G']].
      eapply inv_counted; [exact V|exact La|exact R|exact Ed|exact B'|exact G'|exact S'|].
      rewrite Cc. cbn [weight_c]. apply N.add_0_r.
    + rewrite (eval_inf q x Lc R) in H. apply Ok_pair_snd in H. subst q'.
      apply (inv_keep acts q); auto. rewrite (pending_other acts (Call (Evaluate x)) E ltac:(discriminate)). exact V6.
    + rewrite (eval_nan q x Lc R) in H. apply Ok_pair_snd in H. subst q'.
      apply (inv_keep acts q); auto. rewrite (pending_other acts (Call (Evaluate x)) E ltac:(discriminate)). exact V6.
  - assert (Bq : exists p', body q' = set_inner (body q) p' /\ good n I p').
    { unfold coco_evaluate_constraint in H. destruct (classify x) as [[R E]|[[R E]|[R E]]].
      - destruct (cons_regular q x true y q' Lc R H) as [e [Ee [Ev _]]].
        cbn [evaluate_constraint logger_bbob_class] in Ee. apply Some_inj in Ee. subst e. cbv beta in Ev.
        destruct (constrain_keeps _ _ _ _ _ V3 La Ev) as [p' [Q G']]. exists p'. split; [exact Q|exact G'].
      - rewrite (cons_inf (C := LC) _ q x true eq_refl Lc R) in H. apply Ok_pair_snd in H. subst q'.
        exists (inner (body q)). split; [symmetry; apply set_inner_same|exact V3].
      - rewrite (cons_nan (C := LC) _ q x true eq_refl Lc R) in H. apply Ok_pair_snd in H. subst q'.
        exists (inner (body q)). split; [symmetry; apply set_inner_same|exact V3]. }
    destruct Bq as [p' [B' G']].
    apply (inv_keep acts q); auto; rewrite B'; auto.
    rewrite (pending_other acts (Call (Constrain x)) eq_refl ltac:(discriminate)). exact V6.
  - apply bind_Ok in H as [q1 [H1 H]]. apply Ok_pair_snd in H. subst q1.
    unfold coco_recommend_solution in H1. cbn [recommend_solution logger_bbob_class] in H1.
    apply bind_Ok in H1 as [l1 [H1 H]]. assert (Q : q' = set_body q l1) by congruence. subst q'.
    destruct (recommend_keeps _ _ _ _ V3 La Nv H1) as
      (R1 & R2 & R3 & R4 & R5 & R6 & R7 & R8 & R9 & R10 & R11 & R12 & R13 & R14 & R15).
    apply (inv_keep acts q); auto; cbn [set_body body].
    + rewrite R2. exact V4.
    + rewrite R5. rewrite (pending_other acts (Call (Recommend x)) eq_refl ltac:(discriminate)). exact V6.
Qed.

Definition sized_acts (acts : list action) : Prop := sized n (calls_of acts).

Lemma inv_observe : forall rest acts (q q' : problem LC) ys, inv acts q -> sized_acts rest ->
  observe log10 pow10 q rest = Ok (ys, q') -> inv (acts ++ rest) q'.
Proof.
  induction rest as [|a rest IH]; intros acts q q' ys V S H; cbn [observe] in H.
  - apply Ok_pair_snd in H. subst q'. rewrite app_nil_r. exact V.
  - apply bind_Ok in H as [[y q1] [A H]]. apply bind_Ok in H as [[ys' q2] [B H]].
    apply Ok_pair_snd in H. subst q2.
    replace (acts ++ a :: rest) with ((acts ++ [a]) ++ rest) by (rewrite <- app_assoc; reflexivity).
    unfold sized_acts, sized in *. cbn [calls_of flat_map] in S. change (flat_map _ rest) with (calls_of rest) in S.
    apply Forall_app in S as [S1 S2].
    eapply IH; [|exact S2|exact B]. eapply inv_act; [exact V| |exact A].
    destruct a as [c|]; [|exact Logic.I]. inversion S1; assumption.
Qed.

(** The start *)
Lemma inv_start : forall (q : problem LC), head q = h0 -> good n I (inner (body q)) -> setting (body q) = k0 ->
  output (body q) = None -> algorithm_restarted (body q) = false -> num_func_evaluations (body q) = 0%N ->
  last_logged_eval_dat (body q) = None -> last_logged_eval_tdat (body q) = None ->
  target_triggers (body q) = T0 -> evaluation_triggers (body q) = E0 -> inv [] q.
Proof.
  intros q Hh G Se Ou Ar Nf Ld Lt Td Te. constructor; auto.
  - rewrite Hh. apply static_refl.
  - rewrite Hh, H0. reflexivity.
  - rewrite Ar. split; [discriminate|]. intros K. destruct (pending_nil K).
  - intros K. exfalso. apply K. reflexivity.
  - left. rewrite Ou. auto.
  - exists [], []. rewrite Ou, Te. split; [split; [reflexivity|]|].
    + intros k before x v [after [E _]]. destruct before; discriminate E.
    + split; [reflexivity|]. split; [constructor|exact Lt].
  - exists []. rewrite Ou. split; [constructor|]. split; [|constructor].
    intros k. split; [intros []|]. intros [a [b [x [c [E _]]]]]. destruct a; discriminate E.
Qed.
End Files.



(** ** The end *)
Lemma last_in : forall ks N, increasing ks -> (forall k, In k ks -> k <= N) ->
  (last_of ks = Some (N.of_nat N) <-> In N ks).
Proof.
  intros ks N S B. unfold last_of. destruct ks as [|k ks] using rev_ind.
  - cbn. split; [discriminate|intros []].
  - clear IHks. rewrite rev_app_distr. cbn [rev app]. split.
    + intros E. assert (k = N) by (apply Nat2N.inj; congruence). subst. apply in_app_iff. right. left. reflexivity.
    + intros I. f_equal. f_equal. apply in_app_iff in I as [I|[->|[]]]; [|reflexivity]. exfalso.
      assert (k <= N) by (apply B, in_app_iff; right; left; reflexivity).
      enough (N < k) by lia. clear B. revert S I. induction ks as [|a ks IH]; intros S I; [destruct I|].
      unfold increasing in *. inversion S; subst. destruct I as [->|I]; [|apply IH; auto].
      apply (proj1 (Forall_forall _ _) H3). apply in_app_iff. right. left. reflexivity.
Qed.

Lemma consult_first : forall pow10 s dim E vs bs t v vs', coco_observer_evaluations s dim = Ok E ->
  vs = v :: vs' -> (1 <= v)%N -> consult (evaluations_trigger pow10) E vs = Ok (bs, t) ->
  exists bs', bs = true :: bs'.
Proof.
  intros pow10 s dim E vs bs t v vs' HE -> Hv H. cbn [consult] in H.
  apply bind_Ok in H as [[b s1] [H1 H]]. apply bind_Ok in H as [[bs' s2] [_ H]].
  assert (bs = b :: bs') by congruence. exists bs'. subst bs. f_equal.
  unfold coco_observer_evaluations in HE. apply bind_Ok in HE as [r [_ HE]]. destruct r as [ns|]; [|discriminate HE].
  apply bind_Ok in HE as [c [_ HE]]. apply bind_Ok in HE as [base [_ HE]]. apply bind_Ok in HE as [first [_ HE]].
  match type of HE with Ok ?r = _ => assert (Q : E = r) by congruence end. subst E. clear HE.
  unfold evaluations_trigger in H1. apply bind_Ok in H1 as [[b1 e1] [T1 H1]].
  apply bind_Ok in H1 as [[b2 e2] [_ H1]]. assert (b = b1 || b2) by congruence. subst b.
  unfold trigger_first in T1. cbn [ev_value1] in T1. destruct (N.leb_spec 1 v) as [_|L]; [|lia].
  apply bind_Ok in T1 as [e [_ T1]]. apply bind_Ok in T1 as [w [_ T1]]. assert (b1 = true) by congruence. subst b1. reflexivity.
Qed.

Section End_.
Variables log10 pow10 : double -> double.
Context {C : class}.
Variables (I : data C -> Prop) (f : list double -> double) (g : list double -> list double).
Variables (h0 : header) (k0 : settings) (T0 : targets) (E0 : TrigModel.evaluations).
Notation n := (number_of_variables h0).
Notation opt := (optimal_value k0).
Hypothesis Hn : variables k0 = n.
Notation m := (m f g h0 k0).
Notation eline := (eline f g h0 k0).
Definition cline := closing_line (integers k0) (log_discrete_as_int k0) opt m.
Notation inv := (inv log10 pow10 I f g h0 k0 T0 E0).

Lemma final_line_file : forall acts (q : problem (logger_bbob_class log10 pow10 C)) last ks file file',
  inv acts q -> evaluated acts <> [] -> increasing ks -> (forall k, In k ks -> k <= length (evaluated acts)) ->
  last = last_of ks -> Forall2 (eline acts) ks file -> final_line (body q) last file = Ok file' ->
  ks <> [] /\ file_is (eline acts) (cline acts) (length (evaluated acts)) ks file'.
Proof.
  intros acts q last ks file file' V Ne S B L Ls H. destruct V as [V1 V2 V3 V4 V5 V6 V7 V8 V9 V10].
  unfold final_line in H. destruct last as [z|]; [|discriminate H].
  split; [intros ->; discriminate L|].
  exists file. split; [exact Ls|]. pose proof (last_in ks _ S B) as Li. rewrite <- L in Li.
  destruct (N.eqb_spec (num_func_evaluations (body q)) z) as [E|E].
  - left. split; [apply Li; congruence|congruence].
  - right. split; [intros K; apply Li in K; congruence|].
    apply bind_Ok in H as [c [O H]]. exists c. split; [|congruence].
    destruct (V7 Ne) as [_ [[b [B1 [B2 B3]]] [before [x [A1 A2]]]]]. rewrite B1 in O.
    apply output_spec in O; [|rewrite V4, Hn; exact B2]. destruct O as [O1 [O2 [O3 [O4 [O5 O6]]]]].
    exists before, x, b, (best_found_value (body q)). rewrite V4 in *.
    split; [exact A1|]. split; [exact B3|]. split; [congruence|]. split; [congruence|]. auto.
Qed.
End End_.
