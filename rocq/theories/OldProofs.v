(** The old bbob logger does what the bbob logger does when its linear targets are switched off. *)
From Coq Require Import List Arith NArith ZArith Reals Bool Lia Lra.
From Flocq Require Import Core BinarySingleNaN.
Import ListNotations.
From Verif Require Import CBase DblModel DblSpec DblProofs TrigModel ProbModel ProbSpec ProbProofs BbobModel BbobSpec BbobProofs BbobFileProofs OldModel.
Local Open Scope nat_scope.

Definition rmap {A B : Type} (f : A -> B) (r : res A) : res B :=
  match r with Ok a => Ok (f a) | UB => UB | Err => Err end.

Lemma rmap_bind A B D (f : B -> D) (r : res A) (k : A -> res B) : rmap f (bind r k) = bind r (fun a => rmap f (k a)).
Proof. destruct r; reflexivity. Qed.
Lemma bind_rmap A B D (f : A -> B) (r : res A) (k : B -> res D) : bind (rmap f r) k = bind r (fun a => k (f a)).
Proof. destruct r; reflexivity. Qed.
Lemma bind_ext A B (r : res A) (k k' : A -> res B) : (forall a, r = Ok a -> k a = k' a) -> bind r k = bind r k'.
Proof. destruct r; intros H; cbn; [apply H|..]; reflexivity. Qed.

(** ** Classes that correspond *)
Section Morphism.
Variables (A B : class) (phi : data A -> data B) (J : header -> data A -> Prop).
Variables gA : header -> data A -> list double -> bool -> res (list double * data A).
Variables gB : header -> data B -> list double -> bool -> res (list double * data B).
Hypothesis HA : evaluate_constraint A = Some gA.
Hypothesis HB : evaluate_constraint B = Some gB.
Hypothesis Hf : forall h d x, J h d ->
  evaluate_function B h (phi d) x = rmap (fun r => (fst r, phi (snd r))) (evaluate_function A h d x).
Hypothesis Hg : forall h d x u, J h d -> gB h (phi d) x u = rmap (fun r => (fst r, phi (snd r))) (gA h d x u).
Hypothesis Jf : forall h d x y d', J h d -> evaluate_function A h d x = Ok (y, d') -> J h d'.
Hypothesis Jg : forall h d x u y d', J h d -> gA h d x u = Ok (y, d') -> J h d'.
Hypothesis Jh : forall h d e ec v ve, J h d -> J (with_counters h e ec v ve) d.

Definition lift (p : problem A) : problem B := Build_problem B (head p) (phi (body p)).
Definition lifted (r : list double * problem A) : list double * problem B := (fst r, lift (snd r)).
Definition keeps (p : problem A) : Prop := J (head p) (body p).

Lemma feasible_lift p x : keeps p ->
  coco_is_feasible (lift p) x = rmap (fun r => (fst r, lift (snd r))) (coco_is_feasible p x).
Proof using HA HB Hg.
  intros K. unfold coco_is_feasible. cbn [head body lift]. rewrite !rmap_bind. apply bind_ext. intros n _. rewrite !rmap_bind. apply bind_ext. intros b _.
  destruct (negb b); [reflexivity|]. destruct (number_of_constraints (head p) =? 0); [reflexivity|]. rewrite HA, HB, (Hg _ _ _ _ K), bind_rmap, rmap_bind.
  apply bind_ext. intros [vs d] _. cbn [fst snd]. rewrite rmap_bind. apply bind_ext. intros c _. reflexivity.
Qed.
Lemma feasible_keeps p x b q : keeps p -> coco_is_feasible p x = Ok (b, q) -> keeps q.
Proof using HA Jg.
  intros K. unfold coco_is_feasible. intros H. apply bind_Ok in H as [n [_ H]]. apply bind_Ok in H as [fi [_ H]].
  destruct (negb fi); [apply Ok_pair_snd in H; subst; exact K|]. destruct (number_of_constraints (head p) =? 0); [apply Ok_pair_snd in H; subst; exact K|].
  rewrite HA in H. apply bind_Ok in H as [[vs d] [E H]]. apply bind_Ok in H as [c [_ H]]. apply Ok_pair_snd in H. subst q. exact (Jg _ _ _ _ _ _ K E).
Qed.

Lemma function_lift p x : keeps p -> coco_evaluate_function (lift p) x = rmap lifted (coco_evaluate_function p x).
Proof using HA HB Hf Hg Jf Jh.
  intros K. unfold coco_evaluate_function. cbn [head body lift]. rewrite !rmap_bind. apply bind_ext. intros n _. rewrite !rmap_bind. apply bind_ext. intros i _.
  destruct i as [v|]; [reflexivity|]. rewrite rmap_bind. apply bind_ext. intros na _. destruct na; [reflexivity|].
  rewrite (Hf _ _ _ K), bind_rmap, rmap_bind. apply bind_ext. intros [y d] E. cbn [fst snd]. rewrite rmap_bind. apply bind_ext. intros y0 _.
  set (h1 := with_counters (head p) _ _ _ _). set (pA := {| head := h1; body := d |}). change {| head := h1; body := phi d |} with (lift pA).
  destruct (dlt y0 (best_observed_fvalue h1)); [|reflexivity]. rewrite rmap_bind.
  assert (K1 : keeps pA) by (apply Jh; exact (Jf _ _ _ _ _ K E)).
  destruct (0 <? number_of_constraints h1).
  - rewrite (feasible_lift pA x K1), bind_rmap. apply bind_ext. intros [b q] _. cbn [fst snd]. destruct b; reflexivity.
  - reflexivity.
Qed.
Lemma function_keeps p x y q : keeps p -> coco_evaluate_function p x = Ok (y, q) -> keeps q.
Proof using HA Jf Jg Jh.
  intros K. unfold coco_evaluate_function. intros H. apply bind_Ok in H as [n [_ H]]. apply bind_Ok in H as [i [_ H]].
  destruct i as [v|]; [apply Ok_pair_snd in H; subst; exact K|]. apply bind_Ok in H as [na [_ H]]. destruct na; [apply Ok_pair_snd in H; subst; exact K|].
  apply bind_Ok in H as [[y' d] [E H]]. apply bind_Ok in H as [y0 [_ H]].
  assert (K1 : J (with_counters (head p) (evaluations (head p) + 1) (evaluations_constraints (head p)) (best_observed_fvalue (head p)) (best_observed_evaluation (head p))) d)
    by (apply Jh; exact (Jf _ _ _ _ _ K E)).
  match type of H with (if ?c then _ else _) = _ => destruct c end; [|apply Ok_pair_snd in H; subst q; exact K1].
  apply bind_Ok in H as [[b q'] [F H]].
  assert (K2 : keeps q').
  { match type of F with (if ?c then _ else _) = _ => destruct c end; [apply feasible_keeps in F; [exact F|exact K1]|]. apply Ok_pair_snd in F. subst q'. exact K1. }
  destruct b; apply Ok_pair_snd in H; subst q; [apply Jh|]; exact K2.
Qed.

Lemma constraint_lift p x : keeps p -> coco_evaluate_constraint (lift p) x = rmap lifted (coco_evaluate_constraint p x).
Proof using HA HB Hg.
  intros K. unfold coco_evaluate_constraint, coco_evaluate_constraint_optional_update. cbn [head body lift]. rewrite HA, HB, rmap_bind. apply bind_ext. intros n _.
  rewrite rmap_bind. apply bind_ext. intros i _. destruct i as [v|]; [reflexivity|]. rewrite rmap_bind. apply bind_ext. intros na _. destruct na; [reflexivity|].
  rewrite (Hg _ _ _ _ K), bind_rmap, rmap_bind. apply bind_ext. intros [y d] E. reflexivity.
Qed.
Lemma constraint_keeps p x y q : keeps p -> coco_evaluate_constraint p x = Ok (y, q) -> keeps q.
Proof using HA Jg Jh.
  intros K. unfold coco_evaluate_constraint, coco_evaluate_constraint_optional_update. rewrite HA. intros H. apply bind_Ok in H as [n [_ H]]. apply bind_Ok in H as [i [_ H]].
  destruct i as [v|]; [apply Ok_pair_snd in H; subst; exact K|]. apply bind_Ok in H as [na [_ H]]. destruct na; [apply Ok_pair_snd in H; subst; exact K|].
  apply bind_Ok in H as [[y' d] [E H]]. apply Ok_pair_snd in H. subst q. apply Jh. exact (Jg _ _ _ _ _ _ K E).
Qed.
End Morphism.

(** ** Linear targets switched off *)
Definition no_linear (o : observer_options) : observer_options :=
  {| known_optima := true; lin_target_precision := B754_infinity false; number_target_triggers := number_target_triggers o;
     log_target_precision := log_target_precision o; base_evaluation_triggers := base_evaluation_triggers o;
     discrete_as_int := discrete_as_int o |}.

Lemma lin_never t v : li_precision t = B754_infinity false -> lin_targets_trigger t v = Ok (false, t).
Proof.
  intros E. unfold lin_targets_trigger, coco_double_round_up_with_precision. rewrite E.
  replace (dlt min_precision (B754_infinity false)) with true by reflexivity. cbn [negb].
  assert (Z : exists s, ddiv v (B754_infinity false) = B754_zero s \/ ddiv v (B754_infinity false) = B754_nan).
  { destruct v as [[]|[]| |[] m e H]; first [exists true; cbn; solve [auto]|exists false; cbn; solve [auto]]. }
  assert (N : dmul (dceil (ddiv v (B754_infinity false))) (B754_infinity false) = B754_nan) by (destruct Z as [s [-> | ->]]; [destruct s|]; reflexivity).
  assert (M : dmul (coco_double_round (ddiv v (B754_infinity false))) (B754_infinity false) = B754_nan).
  { destruct Z as [s [-> | ->]]; [destruct s|]; vm_compute; reflexivity. }
  rewrite N, M. cbn [bind].
  match goal with |- context [if dlt ?r _ then _ else _] => replace r with (B754_nan : double); [reflexivity|] end.
  destruct v as [s|s| |s m e H]; reflexivity.
Qed.

(** ** Values *)
Lemma old_for_logging_eq v : old_for_logging v = for_logging v.
Proof. reflexivity. Qed.
Lemma single_digit_eq c : single_digit_constraint_value c = logger_bbob_single_digit_constraint c.
Proof. reflexivity. Qed.

Lemma old_digits_eq n : forall i vs, old_digits n i (Some vs) = print_digits n vs.
Proof.
  induction n as [|n IH]; intros i vs; [reflexivity|]. cbn [old_digits print_digits]. destruct vs as [|v vs]; [reflexivity|]. rewrite IH. reflexivity.
Qed.

(** *** Sums that are not a negative zero *)
Definition plus_sign (s : double) : Prop := s = B754_nan \/ Bsign s = false.
Lemma dadd_plus_sign s v : plus_sign s -> dlt dzero v = true -> plus_sign (dadd s v).
Proof.
  intros P V. unfold plus_sign in *.
  destruct v as [sv|sv| |sv mv ev Hv]; try discriminate V.
  - destruct sv; [discriminate V|]. destruct P as [->|P]; [left; reflexivity|]. destruct s as [ss|ss| |ss m e H]; cbn in P; subst; right; reflexivity.
  - destruct sv; [discriminate V|]. destruct P as [->|P]; [left; reflexivity|]. destruct s as [ss|ss| |ss m e H]; cbn in P; subst; try (right; reflexivity).
    right. set (a := B754_finite false m e H) in *. set (b := B754_finite false mv ev Hv) in *.
    pose proof (Bplus_correct 53 1024 eq_refl eq_refl mode_NE a b eq_refl eq_refl) as K.
    assert (Pa : (0 < B2R a)%R) by (apply F2R_gt_0; reflexivity). assert (Pb : (0 < B2R b)%R) by (apply F2R_gt_0; reflexivity).
    change (Bplus mode_NE a b) with (dadd a b) in K.
    destruct (Rlt_bool _ _).
    + destruct K as [_ [_ K]]. rewrite K, Rcompare_Gt by lra. reflexivity.
    + destruct K as [K _]. destruct (dadd a b) as [x|x| |x y z t]; cbn in K; try discriminate K. cbn. congruence.
Qed.

Lemma positive_sum_sign n : forall vs s r, plus_sign s -> positive_sum n vs s = Ok r -> plus_sign r.
Proof.
  induction n as [|n IH]; intros vs s r P H; [cbn in H; congruence|]. destruct vs as [|v vs]; [discriminate H|]. cbn [positive_sum] in H.
  eapply IH; [|exact H]. destruct (dlt dzero v) eqn:V; [apply dadd_plus_sign; assumption|exact P].
Qed.

Lemma add_zeros a b s : Bsign s = false -> dadd (B754_zero a) s = dadd (B754_zero b) s.
Proof. intros H. destruct s as [x|x| |x m e B]; cbn in H; subst; destruct a, b; reflexivity. Qed.

Lemma logged_merit_eq opt y s n vs : fin opt -> positive_sum n vs dzero = Ok s ->
  dadd (if dlt opt (old_for_logging y) then old_for_logging y else opt) (old_for_logging (dmul s weight_constraints)) =
  logged_merit true opt (for_logging y) s.
Proof.
  intros Fo H. unfold logged_merit. change LOGGER_BBOB_WEIGHT_CONSTRAINTS with weight_constraints. rewrite !old_for_logging_eq.
  assert (P : Bsign (for_logging (dmul s weight_constraints)) = false).
  { change weight_constraints with (dint 1). rewrite dmul_one. assert (P : plus_sign s) by (apply (positive_sum_sign n vs dzero s); [right; reflexivity|exact H]).
    rewrite for_logging_spec.
    destruct P as [->|P]; [vm_compute; reflexivity|]. destruct s as [x|x| |x m e B]; cbn [logged]; try exact P; vm_compute; reflexivity. }
  set (t := for_logging (dmul s weight_constraints)) in *. rewrite for_logging_spec. pose proof (logged_fin y) as Fy. set (z := logged y) in *.
  unfold coco_double_max. pose proof (fin_num _ Fo) as No. pose proof (fin_num _ Fy) as Ny.
  destruct (dlt opt z) eqn:L.
  - assert (E : dle opt z = true) by (apply dle_val; [exact No|exact Ny|]; apply dlt_val in L; [lra|exact No|exact Ny]). rewrite E. reflexivity.
  - destruct (dle opt z) eqn:E; [|reflexivity]. apply dlt_false in L; [|exact No|exact Ny]. apply dle_val in E; [|exact No|exact Ny].
    assert (Q : B2R opt = B2R z). { unfold val in L, E. destruct opt, z; try discriminate Fo; try discriminate Fy; cbn in *; lra. }
    destruct opt as [a|a| |a m e B] eqn:Ho; try discriminate Fo; destruct z as [b|b| |b m' e' B'] eqn:Hz; try discriminate Fy.
    + apply add_zeros, P.
    + exfalso. cbn in Q. symmetry in Q. unfold F2R in Q. cbn in Q. apply Rmult_integral in Q as [Q|Q]; [|pose proof (bpow_gt_0 radix2 e'); lra]. destruct b; apply eq_IZR in Q; discriminate Q.
    + exfalso. cbn in Q. unfold F2R in Q. cbn in Q. apply Rmult_integral in Q as [Q|Q]; [|pose proof (bpow_gt_0 radix2 e); lra]. destruct a; apply eq_IZR in Q; discriminate Q.
    + f_equal. apply B2R_inj; [reflexivity|reflexivity|exact Q].
Qed.

(** ** The correspondence *)
Section Forget.
Variables log10 pow10 : double -> double.
Context {C : class}.
Hypothesis Quiet : forall d, last_noise_free C d = None.
Hypothesis Ignores : forall f h d x, recommend_solution C = Some f -> f h d x = Ok d.
Notation NewC := (logger_bbob_class log10 pow10 C).
Notation OldC := (logger_bbob_old_class log10 pow10 C).

Definition some_log (t : targets) : log_targets :=
  match logarithmic t with Some l => l | None => new_log_targets 0 dzero end.
Definition forget (l : logger C) : old_logger C :=
  {| old_inner := inner l; old_setting := setting l;
     old_output := option_map (fun f => (dat f, tdat f)) (output l);
     old_evaluations := num_func_evaluations l; old_constraints := num_cons_evaluations l;
     old_best := if (num_func_evaluations l =? 0)%N then None else Some (best_found_value l);
     old_written := match last_logged_eval_tdat l with Some n => (n =? num_func_evaluations l)%N | None => false end;
     old_solution := best_found_solution l;
     old_targets := some_log (target_triggers l); old_triggers := evaluation_triggers l |}.

Record fits (h : header) (l : logger C) : Prop := {
  f_tainted : is_tainted h = false;
  f_inner : is_tainted (head (inner l)) = false;
  f_known : is_opt_known h = true;
  f_log : logarithmic (target_triggers l) <> None;
  f_lin : li_precision (linear (target_triggers l)) = B754_infinity false;
  f_last : forall n, last_logged_eval_tdat l = Some n -> (n <= num_func_evaluations l)%N;
  f_restart : algorithm_restarted l = false;
  f_optimum : fin (optimal_value (setting l));
  f_constraints : constraints (setting l) = number_of_constraints h;
  f_integers : integers (setting l) <= variables (setting l);
  f_size : variables (setting l) < 22 \/ integers (setting l) = 0 }.

Lemma fits_counters h l e ec v ve : fits h l -> fits (with_counters h e ec v ve) l.
Proof. intros [A B D E F G H I J K L]. constructor; assumption. Qed.

Lemma fits_set_inner h l p : fits h l -> is_tainted (head p) = false -> fits h (set_inner l p).
Proof. intros [A B D E F G H I J K L] T. constructor; assumption. Qed.

Lemma sized_eq k : integers k <= variables k -> variables k < 22 \/ integers k = 0 ->
  (integers k <=? variables k) && (variables k - integers k <? 22) = (variables k <? 22).
Proof.
  intros L S. apply Nat.leb_le in L. rewrite L. cbn [andb]. destruct S as [S|S].
  - apply Nat.ltb_lt in S as S'. rewrite S'. apply Nat.ltb_lt. lia.
  - rewrite S, Nat.sub_0_r. reflexivity.
Qed.

Lemma write_eq k func cons fvalue best x values : integers k <= variables k -> variables k < 22 \/ integers k = 0 ->
  (values = None <-> constraints k = 0) ->
  logger_bbob_old_write_data k func cons fvalue best x values (constraints k) = logger_bbob_output k func cons x fvalue best values.
Proof.
  intros L S V. unfold logger_bbob_old_write_data, logger_bbob_output. rewrite (sized_eq k L S). f_equal.
  destruct values as [vs|].
  - destruct (0 <? constraints k); [rewrite old_digits_eq|]; reflexivity.
  - rewrite (proj1 V eq_refl). reflexivity.
Qed.
Lemma write_end k func cons best x : integers k <= variables k -> variables k < 22 \/ integers k = 0 ->
  logger_bbob_old_write_data k func cons best best x None 0 = logger_bbob_output k func cons x best best None.
Proof. intros L S. unfold logger_bbob_old_write_data, logger_bbob_output. rewrite (sized_eq k L S). reflexivity. Qed.

Lemma optional_head (p : problem C) x u r q : coco_evaluate_constraint_optional_update p x u = Ok (r, q) ->
  is_tainted (head q) = is_tainted (head p).
Proof.
  unfold coco_evaluate_constraint_optional_update. destruct (evaluate_constraint C); [|discriminate]. intros H. apply bind_Ok in H as [n [_ H]].
  apply bind_Ok in H as [i [_ H]]. destruct i; [apply Ok_pair_snd in H; subst; reflexivity|]. apply bind_Ok in H as [b [_ H]].
  destruct b; [apply Ok_pair_snd in H; subst; reflexivity|]. apply bind_Ok in H as [[y d] [_ H]]. apply Ok_pair_snd in H. subst q. destruct u; reflexivity.
Qed.
Lemma feasibility_head nc (p : problem C) x b q : feasibility nc p x = Ok (b, q) -> is_tainted (head q) = is_tainted (head p).
Proof.
  unfold feasibility. destruct (nc =? 0); [intros H; apply Ok_pair_snd in H; subst; reflexivity|]. unfold coco_is_feasible. intros H. apply bind_Ok in H as [n [_ H]].
  apply bind_Ok in H as [i [_ H]]. destruct (negb i); [apply Ok_pair_snd in H; subst; reflexivity|]. destruct (_ =? 0); [apply Ok_pair_snd in H; subst; reflexivity|].
  destruct (evaluate_constraint C); [|discriminate H]. apply bind_Ok in H as [[y d] [_ H]]. apply bind_Ok in H as [c [_ H]]. apply Ok_pair_snd in H. subst q. reflexivity.
Qed.
Lemma function_head (p : problem C) x y q : coco_evaluate_function p x = Ok (y, q) -> is_tainted (head q) = is_tainted (head p).
Proof.
  unfold coco_evaluate_function. intros H. apply bind_Ok in H as [n [_ H]]. apply bind_Ok in H as [i [_ H]].
  destruct i; [apply Ok_pair_snd in H; subst; reflexivity|]. apply bind_Ok in H as [b [_ H]].
  destruct b; [apply Ok_pair_snd in H; subst; reflexivity|]. apply bind_Ok in H as [[y' d] [_ H]]. apply bind_Ok in H as [y0 [_ H]].
  destruct (dlt _ _); [|apply Ok_pair_snd in H; subst q; reflexivity]. apply bind_Ok in H as [[b q'] [F H]].
  assert (T : is_tainted (head q') = is_tainted (head p)).
  { destruct (_ <? _).
    - apply (feasibility_head 1) in F. exact F.
    - apply Ok_pair_snd in F. subst q'. reflexivity. }
  destruct b; apply Ok_pair_snd in H; subst q; exact T.
Qed.
Lemma inner_constraints_head nc (p : problem C) x vs q : inner_constraints nc p x = Ok (vs, q) -> is_tainted (head q) = is_tainted (head p).
Proof.
  unfold inner_constraints. destruct (0 <? nc); [|intros H; apply Ok_pair_snd in H; subst; reflexivity].
  destruct (evaluate_constraint C); [|discriminate]. intros H. apply bind_Ok in H as [[y d] [_ H]]. apply Ok_pair_snd in H. subst q. reflexivity.
Qed.
Lemma inner_constraints_none nc (p : problem C) x vs q : inner_constraints nc p x = Ok (vs, q) -> (vs = None <-> nc = 0).
Proof.
  unfold inner_constraints. destruct (Nat.ltb_spec 0 nc) as [L|L].
  - destruct (evaluate_constraint C); [|discriminate]. intros H. apply bind_Ok in H as [[y d] [_ H]]. assert (vs = Some y) by congruence. subst vs. split; [discriminate|lia].
  - intros H. assert (vs = None) by congruence. subst vs. split; [lia|reflexivity].
Qed.

Lemma evaluate_forget h l x : fits h l ->
  logger_bbob_old_evaluate log10 pow10 h (forget l) x = rmap (fun r => (fst r, forget (snd r))) (logger_bbob_evaluate log10 pow10 h l x).
Proof using Quiet.
  intros [A B D E F G H I J K L]. unfold logger_bbob_old_evaluate, logger_bbob_evaluate.
  cbn [old_inner old_setting old_output old_evaluations old_best old_solution old_targets old_triggers forget].
  rewrite rmap_bind. apply bind_ext. intros [fe p0] Ef. rewrite A. apply feasibility_head in Ef. rewrite B in Ef. rewrite Ef. cbn [orb].
  rewrite rmap_bind. apply bind_ext. intros [y p1] Ey. rewrite rmap_bind. apply bind_ext. intros y0 _. rewrite Quiet. cbn [bind].
  rewrite D. cbn [andb]. change (old_for_logging y0) with (for_logging y0).
  destruct (fe && negb _); [reflexivity|]. rewrite rmap_bind. apply bind_ext. intros [vs p2] Ev. rewrite rmap_bind. apply bind_ext. intros s Es.
  pose proof (logged_merit_eq (optimal_value (setting l)) y0 s _ _ I Es) as M. change (old_for_logging y0) with (for_logging y0) in M. rewrite M. clear M.
  set (merit := logged_merit true (optimal_value (setting l)) (for_logging y0) s). set (num := (num_func_evaluations l + 1)%N).
  set (k := setting l) in *. rewrite <- J in *. apply inner_constraints_none in Ev.
  assert (W : forall b, logger_bbob_old_write_data k num (evaluations_constraints h) (for_logging y0) b (Some x) vs (constraints k) =
    logger_bbob_output k num (evaluations_constraints h) (Some x) (for_logging y0) b vs) by (intros b; apply write_eq; assumption).
  set (better := (num =? 1)%N || dlt merit (best_found_value l)).
  assert (Bt : (if (num =? 1)%N then Ok true else match (if (num_func_evaluations l =? 0)%N then None else Some (best_found_value l)) with Some b => Ok (dlt merit b) | None => UB end) = Ok better).
  { unfold better. destruct (N.eqb_spec num 1) as [N1|N1]; [reflexivity|]. destruct (N.eqb_spec (num_func_evaluations l) 0) as [N0|N0]; [unfold num in N1; lia|]. reflexivity. }
  rewrite Bt. cbn [bind].
  assert (Bb : (if better then Some merit else if (num_func_evaluations l =? 0)%N then None else Some (best_found_value l)) =
    Some (if better then merit else best_found_value l)).
  { destruct better eqn:Eb; [reflexivity|]. unfold better in Eb. apply orb_false_iff in Eb as [Eb _]. apply N.eqb_neq in Eb. destruct (N.eqb_spec (num_func_evaluations l) 0) as [N0|N0]; [unfold num in Eb; lia|reflexivity]. }
  rewrite Bb.
  set (best := if better then merit else best_found_value l).
  assert (T : (if better then if (num =? 1)%N then Ok (true, some_log (target_triggers l)) else log_targets_trigger log10 pow10 (some_log (target_triggers l)) (dsub merit (optimal_value k)) else Ok (false, some_log (target_triggers l)))
    = rmap (fun r => (fst r, some_log (snd r))) (if better then if (num =? 1)%N then Ok (true, target_triggers l) else targets_trigger log10 pow10 (target_triggers l) (dsub best (optimal_value k)) else Ok (false, target_triggers l))).
  { unfold best. destruct better; [|reflexivity]. destruct (num =? 1)%N; [reflexivity|]. unfold targets_trigger, some_log. destruct (logarithmic (target_triggers l)) as [lt|] eqn:Lg; [|congruence].
    destruct (log_targets_trigger log10 pow10 lt _) as [[b lt']| |]; cbn [bind rmap]; try reflexivity. rewrite (lin_never _ _ F). cbn [bind rmap fst snd logarithmic]. rewrite orb_false_r. reflexivity. }
  rewrite T, bind_rmap, rmap_bind. apply bind_ext. intros [dl ts] Et. cbn [fst snd].
  assert (MB : dl = true -> best = merit). { intros ->. unfold best. destruct better; [reflexivity|]. congruence. }
  set (old := match option_map (fun f => (dat f, tdat f)) (output l) with Some f => f | None => ([], []) end).
  assert (O : old = (dat (logger_bbob_initialize (output l)), tdat (logger_bbob_initialize (output l)))) by (unfold old; destruct (output l); reflexivity).
  rewrite O. cbn [fst snd]. clear old O. rewrite rmap_bind.
  replace (if dl then do o <- logger_bbob_old_write_data k num (evaluations_constraints h) (for_logging y0) merit (Some x) vs (constraints k); Ok (dat (logger_bbob_initialize (output l)) ++ [o]) else Ok (dat (logger_bbob_initialize (output l))))
    with (if dl then do o <- logger_bbob_output k num (evaluations_constraints h) (Some x) (for_logging y0) best vs; Ok (dat (logger_bbob_initialize (output l)) ++ [o]) else Ok (dat (logger_bbob_initialize (output l))))
    by (destruct dl; [rewrite W, (MB eq_refl)|]; reflexivity).
  apply bind_ext. intros df _. rewrite rmap_bind. apply bind_ext. intros [tl ev] _. rewrite rmap_bind. rewrite W. apply bind_ext. intros tf _.
  rewrite H. cbn [bind rmap fst snd]. f_equal. f_equal. unfold forget. cbn [inner setting output num_func_evaluations num_cons_evaluations best_found_value last_logged_eval_tdat best_found_solution target_triggers evaluation_triggers option_map dat tdat].
  f_equal.
  - unfold num. destruct (N.eqb_spec (num_func_evaluations l + 1) 0) as [Z|Z]; [lia|reflexivity].
  - destruct tl; [symmetry; apply N.eqb_refl|]. destruct (last_logged_eval_tdat l) as [n|]; [|reflexivity]. specialize (G n eq_refl). symmetry. apply N.eqb_neq. unfold num. lia.
Qed.

Lemma targets_trigger_keeps t v b t' : logarithmic t <> None -> li_precision (linear t) = B754_infinity false ->
  targets_trigger log10 pow10 t v = Ok (b, t') -> logarithmic t' <> None /\ li_precision (linear t') = B754_infinity false.
Proof.
  intros N L. unfold targets_trigger. destruct (logarithmic t) as [lt|]; [|congruence]. intros H. apply bind_Ok in H as [[b1 lg] [E H]].
  apply bind_Ok in E as [[b2 lt'] [_ E]]. assert (lg = Some lt') by congruence. subst lg. rewrite (lin_never _ _ L) in H. cbn [bind] in H. apply Ok_pair_snd in H. subst t'. split; [discriminate|exact L].
Qed.

Lemma evaluate_fits h l x y l1 : fits h l -> logger_bbob_evaluate log10 pow10 h l x = Ok (y, l1) -> fits h l1.
Proof.
  intros [A B D E F G H I J K L] R. unfold logger_bbob_evaluate in R. apply bind_Ok in R as [[fe p0] [Ef R]]. apply feasibility_head in Ef.
  destruct (is_tainted h || is_tainted (head p0)); [discriminate R|]. apply bind_Ok in R as [[y' p1] [Ey R]]. apply function_head in Ey.
  apply bind_Ok in R as [y0 [_ R]]. apply bind_Ok in R as [cv [_ R]]. destruct (is_opt_known h && fe && _); [discriminate R|].
  apply bind_Ok in R as [[vs p2] [Ev R]]. apply inner_constraints_head in Ev. apply bind_Ok in R as [s [_ R]]. apply bind_Ok in R as [[dl ts] [Et R]].
  apply bind_Ok in R as [df [_ R]]. apply bind_Ok in R as [[tl ev] [_ R]]. apply bind_Ok in R as [tf [_ R]]. apply bind_Ok in R as [rf [_ R]].
  apply Ok_pair_snd in R. subst l1.
  assert (T : logarithmic ts <> None /\ li_precision (linear ts) = B754_infinity false).
  { match type of Et with (if ?c then _ else _) = _ => destruct c end; [|apply Ok_pair_snd in Et; subst; split; assumption].
    match type of Et with (if ?c then _ else _) = _ => destruct c end; [apply Ok_pair_snd in Et; subst; split; assumption|]. exact (targets_trigger_keeps _ _ _ _ E F Et). }
  constructor; cbn [inner setting output num_func_evaluations target_triggers last_logged_eval_tdat algorithm_restarted]; try assumption; try apply T; try congruence.
  intros n Hn. destruct tl; [assert (n = (num_func_evaluations l + 1)%N) by congruence; lia|]. specialize (G n Hn). lia.
Qed.

(** ** Problems *)
Definition gN : header -> logger C -> list double -> bool -> res (list double * logger C) :=
  fun _ l x u => do (vs, p) <- coco_evaluate_constraint_optional_update (inner l) x u; Ok (vs, set_inner l p).
Definition gO : header -> old_logger C -> list double -> bool -> res (list double * old_logger C) :=
  fun _ l x u => do (vs, p) <- coco_evaluate_constraint_optional_update (old_inner l) x u; Ok (vs, old_set_inner l p).

Lemma constraint_forget h l x u : fits h l -> gO h (forget l) x u = rmap (fun r => (fst r, forget (snd r))) (gN h l x u).
Proof. intros _. unfold gO, gN. rewrite rmap_bind. cbn [old_inner forget]. apply bind_ext. intros [vs p] _. reflexivity. Qed.
Lemma constraint_fits h l x u y l1 : fits h l -> gN h l x u = Ok (y, l1) -> fits h l1.
Proof.
  intros K H. unfold gN in H. apply bind_Ok in H as [[vs p] [E H]]. apply Ok_pair_snd in H. subst l1. apply optional_head in E.
  apply fits_set_inner; [exact K|]. rewrite E. apply (f_inner _ _ K).
Qed.

Definition old_of (q : problem NewC) : problem OldC := Build_problem OldC (head q) (forget (body q)).
Definition fit (q : problem NewC) : Prop := fits (head q) (body q).

Lemma function_old q x : fit q -> coco_evaluate_function (old_of q) x = rmap (fun r => (fst r, old_of (snd r))) (coco_evaluate_function q x).
Proof using Quiet.
  exact (function_lift NewC OldC forget fits gN gO eq_refl eq_refl evaluate_forget constraint_forget evaluate_fits fits_counters q x).
Qed.
Lemma function_fit q x y q1 : fit q -> coco_evaluate_function q x = Ok (y, q1) -> fit q1.
Proof. exact (function_keeps NewC fits gN eq_refl evaluate_fits constraint_fits fits_counters q x y q1). Qed.
Lemma constraint_old q x : fit q -> coco_evaluate_constraint (old_of q) x = rmap (fun r => (fst r, old_of (snd r))) (coco_evaluate_constraint q x).
Proof. exact (constraint_lift NewC OldC forget fits gN gO eq_refl eq_refl constraint_forget q x). Qed.
Lemma constraint_fit q x y q1 : fit q -> coco_evaluate_constraint q x = Ok (y, q1) -> fit q1.
Proof. exact (constraint_keeps NewC fits gN eq_refl constraint_fits fits_counters q x y q1). Qed.

Lemma recommend_inner (p : problem C) x : coco_recommend_solution p x = Ok p.
Proof using Ignores.
  unfold coco_recommend_solution. destruct (recommend_solution C) as [r|] eqn:E; [|reflexivity]. rewrite (Ignores r _ _ _ eq_refl). cbn [bind]. unfold set_body. destruct p; reflexivity.
Qed.
Lemma recommend_old (q : problem OldC) x : coco_recommend_solution q x = Ok q.
Proof using Ignores.
  unfold coco_recommend_solution at 1. cbn [recommend_solution logger_bbob_old_class]. destruct q as [h [i s o n c b w z t e]]. cbn [body head old_inner].
  rewrite recommend_inner. reflexivity.
Qed.

(** Recommendations and restarts leave the old logger as it is; all other actions correspond. *)
Lemma observe_old acts : forall q, fit q ->
  rmap snd (old_observe log10 pow10 (old_of q) acts) = rmap (fun r => old_of (snd r)) (observe log10 pow10 q (evaluations_only acts)).
Proof using Quiet Ignores.
  induction acts as [|a acts IH]; intros q K; [reflexivity|]. cbn [old_observe]. rewrite rmap_bind. unfold evaluations_only. cbn [filter].
  destruct a as [[x|x|x]|].
  - cbn [old_act perform observe act]. rewrite (function_old q x K), bind_rmap, rmap_bind. apply bind_ext. intros [y q1] E. cbn [fst snd]. rewrite !rmap_bind.
    specialize (IH q1 (function_fit _ _ _ _ K E)). unfold evaluations_only in IH. destruct (old_observe _ _ _ _) as [[ys o]| |]; destruct (observe _ _ _ _) as [[ys' o']| |]; cbn in *; congruence.
  - cbn [old_act perform observe act]. rewrite (constraint_old q x K), bind_rmap, rmap_bind. apply bind_ext. intros [y q1] E. cbn [fst snd]. rewrite !rmap_bind.
    specialize (IH q1 (constraint_fit _ _ _ _ K E)). unfold evaluations_only in IH. destruct (old_observe _ _ _ _) as [[ys o]| |]; destruct (observe _ _ _ _) as [[ys' o']| |]; cbn in *; congruence.
  - cbn [old_act perform]. rewrite recommend_old. cbn [bind]. rewrite rmap_bind. specialize (IH q K). unfold evaluations_only in IH.
    destruct (old_observe _ _ _ _) as [[ys o]| |]; destruct (observe _ _ _ _) as [[ys' o']| |]; cbn in *; congruence.
  - cbn [old_act bind]. rewrite rmap_bind. specialize (IH q K). unfold evaluations_only in IH.
    destruct (old_observe _ _ _ _) as [[ys o]| |]; destruct (observe _ _ _ _) as [[ys' o']| |]; cbn in *; congruence.
Qed.

Lemma observe_fit acts : forall (q q1 : problem NewC) ys, Forall (fun a => match a with Call (Evaluate _) | Call (Constrain _) => True | _ => False end) acts -> fit q ->
  observe log10 pow10 q acts = Ok (ys, q1) -> fit q1.
Proof.
  induction acts as [|a acts IH]; intros q q1 ys Fa K H; [apply Ok_pair_snd in H; subst; exact K|]. cbn [observe] in H. inversion Fa as [|? ? Ha Fb]; subst.
  apply bind_Ok in H as [[y q2] [E H]]. apply bind_Ok in H as [[ys' q3] [R H]]. apply Ok_pair_snd in H. subst q3.
  destruct a as [[x|x|x]|]; try contradiction; cbn [act perform] in E; (eapply IH; [exact Fb| |exact R]); [exact (function_fit _ _ _ _ K E)|exact (constraint_fit _ _ _ _ K E)].
Qed.

(** The constructor *)
Lemma new_old o (p : problem C) v rest : best_value (head p) = Some (v :: rest) -> (0 < number_target_triggers o)%N ->
  logger_bbob_old log10 pow10 o p = rmap old_of (logger_bbob log10 pow10 (no_linear o) p).
Proof.
  intros B N. unfold logger_bbob_old, logger_bbob. rewrite B. cbn [mget nth_error bind]. rewrite rmap_bind.
  change (base_evaluation_triggers (no_linear o)) with (base_evaluation_triggers o). apply bind_ext. intros e _. cbn [rmap]. f_equal. unfold old_of. cbn [head body]. f_equal.
  unfold forget. cbn [inner setting output num_func_evaluations num_cons_evaluations last_logged_eval_tdat best_found_solution target_triggers evaluation_triggers option_map].
  f_equal. unfold some_log, new_targets. cbn [logarithmic no_linear known_optima number_target_triggers log_target_precision].
  apply N.ltb_lt in N. rewrite N. reflexivity.
Qed.
Lemma new_fit o (p : problem C) v rest q : best_value (head p) = Some (v :: rest) -> (0 < number_target_triggers o)%N ->
  fin v -> is_tainted (head p) = false -> is_opt_known (head p) = true -> number_of_integer_variables (head p) <= number_of_variables (head p) ->
  number_of_variables (head p) < 22 \/ number_of_integer_variables (head p) = 0 ->
  logger_bbob log10 pow10 (no_linear o) p = Ok q -> fit q.
Proof.
  intros B N Fv T Kn L S H. unfold logger_bbob in H. rewrite B in H. cbn [mget nth_error bind] in H. apply bind_Ok in H as [e [_ H]].
  match type of H with Ok ?r = _ => assert (Q : q = r) by congruence end. subst q. clear H. unfold fit. cbn [head body].
  constructor; cbn [inner setting num_func_evaluations last_logged_eval_tdat target_triggers algorithm_restarted optimal_value constraints integers variables]; try assumption; try reflexivity; try discriminate.
  unfold new_targets. cbn [logarithmic no_linear known_optima number_target_triggers log_target_precision]. apply N.ltb_lt in N. rewrite N. discriminate.
Qed.
End Forget.
