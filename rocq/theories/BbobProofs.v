(** Lemmas on the bbob logger: values and one evaluation. *)
From Coq Require Import List Arith NArith ZArith Reals Bool Lia Lra.
From Flocq Require Import Core BinarySingleNaN.
Import ListNotations.
From Verif Require Import CBase DblModel DblSpec DblProofs TrigModel ProbModel ProbSpec ProbProofs BbobModel BbobSpec.
Open Scope nat_scope.

(** ** Values *)

Lemma for_logging_spec : forall v, for_logging v = logged v.
Proof.
  intros v. unfold for_logging. rewrite is_nan_num, is_inf_spec. destruct v as [s|s| |s m e H]; reflexivity.
Qed.

Lemma logged_fin : forall v, fin (logged v).
Proof. intros [s|s| |s m e H]; try reflexivity; vm_compute; reflexivity. Qed.

Lemma one_form : exists m e H, dint 1 = B754_finite false m e H.
Proof.
  destruct (dint_val 1 ltac:(lia)) as [F V]. pose proof (sign_val (dint 1) F) as S.
  destruct (dint 1) as [s|s| |s m e H].
  - cbn in V. lra.
  - discriminate F.
  - discriminate F.
  - cbn [Bsign] in S. destruct s; [exfalso; lra|]. exists m, e, H. reflexivity.
Qed.

Lemma dmul_one : forall v, dmul v (dint 1) = v.
Proof.
  intros v. destruct (dint_val 1 ltac:(lia)) as [F1 V1].
  destruct (is_finite v) eqn:F.
  - assert (F' : fin v) by exact F.
    pose proof (Bmult_correct 53 1024 _ _ mode_NE v (dint 1)) as K.
    rewrite <- (val_fin v F'), <- (val_fin _ F1), V1, Rmult_1_r in K.
    change (round radix2 (SpecFloat.fexp 53 1024) (round_mode mode_NE) (val v)) with (rnd (val v)) in K.
    rewrite (rnd_val v F') in K.
    assert (B : Rlt_bool (Rabs (val v)) (bpow radix2 1024) = true).
    { apply Rlt_bool_true. apply Rabs_lt. exact (val_bound v F'). }
    rewrite B in K. destruct K as [K1 [K2 K3]].
    assert (Fm : is_finite (dmul v (dint 1)) = true).
    { unfold dmul. rewrite K2. unfold fin in F1. rewrite F, F1. reflexivity. }
    apply B2R_Bsign_inj; [exact Fm|exact F| |].
    + unfold dmul. rewrite K1. apply val_fin. exact F'.
    + unfold dmul. rewrite K3.
      * destruct one_form as [m1 [e1 [H1 ->]]]. cbn [Bsign]. apply xorb_false_r.
      * unfold dmul in Fm. destruct (Bmult mode_NE v (dint 1)); try reflexivity; discriminate Fm.
  - destruct one_form as [m1 [e1 [H1 ->]]]. destruct v as [s|s| |s m e H']; try discriminate F.
    + unfold dmul. cbn. destruct s; reflexivity.
    + reflexivity.
Qed.

Lemma positive_sum_spec : forall n vs s r, positive_sum n vs s = Ok r ->
  r = fold_left dadd (filter (fun v => dlt dzero v) (firstn n vs)) s.
Proof.
  induction n as [|n IH]; intros vs s r H; [cbn in *; congruence|].
  destruct vs as [|v vs]; [discriminate H|]. cbn [positive_sum firstn filter] in *.
  destruct (dlt dzero v); cbn [fold_left]; apply IH; exact H.
Qed.

Lemma positive_sum_ok : forall n vs s, n <= length vs -> exists r, positive_sum n vs s = Ok r.
Proof.
  induction n as [|n IH]; intros vs s H; [exists s; reflexivity|].
  destruct vs as [|v vs]; cbn [length] in H; [lia|]. cbn [positive_sum]. apply IH. lia.
Qed.

Lemma positive_sum_length : forall n vs s r, positive_sum n vs s = Ok r -> n <= length vs.
Proof.
  induction n as [|n IH]; intros vs s r H; [lia|].
  destruct vs as [|v vs]; [discriminate H|]. cbn [positive_sum length] in *. apply IH in H. lia.
Qed.

Lemma max_spec : forall y o, num y -> num o -> coco_double_max y o = if dlt y o then o else y.
Proof.
  intros y o Ny No. unfold coco_double_max. destruct (dle o y) eqn:A; destruct (dlt y o) eqn:B; try reflexivity.
  - pose proof (proj1 (dle_val o y No Ny) A). pose proof (proj1 (dlt_val y o Ny No) B). lra.
  - pose proof (proj1 (dle_false o y No Ny) A). pose proof (proj1 (dlt_false y o Ny No) B). lra.
Qed.

Lemma merit_spec : forall known opt y n vs s, num opt -> positive_sum n vs dzero = Ok s ->
  logged_merit known opt (for_logging y) s = merit known opt y (firstn n vs).
Proof.
  intros known opt y n vs s No H. apply positive_sum_spec in H. subst s.
  unfold logged_merit, merit, violation. change LOGGER_BBOB_WEIGHT_CONSTRAINTS with (dint 1).
  rewrite dmul_one, !for_logging_spec.
  rewrite max_spec by (try exact No; apply fin_num, logged_fin). reflexivity.
Qed.

(** Sums of two finite numbers are numbers. *)
Lemma dadd_num : forall a b, fin a -> fin b -> num (dadd a b).
Proof. intros a b A B. exact (proj1 (dadd_val a b A B)). Qed.

Lemma merit_num : forall known opt y gs, fin opt -> num (merit known opt y gs).
Proof.
  intros known opt y gs No. unfold merit. cbv zeta. apply dadd_num; [|apply logged_fin].
  destruct known.
  - destruct (dlt (logged y) opt); [exact No|apply logged_fin].
  - destruct (dlt dzero (violation gs)); [vm_compute; reflexivity|apply logged_fin].
Qed.

(** ** Lines *)

Lemma print_digits_spec : forall n vs ds, print_digits n vs = Ok ds ->
  ds = map logger_bbob_single_digit_constraint (firstn n vs).
Proof.
  induction n as [|n IH]; intros vs ds H; [cbn in *; congruence|].
  destruct vs as [|v vs]; [discriminate H|]. cbn [print_digits firstn map] in *.
  apply bind_Ok in H as [ds' [E H]]. apply IH in E. congruence.
Qed.

Lemma print_coordinates_spec : forall k n i x ps, length x = n -> print_coordinates n i k x = Ok ps ->
  length ps = n /\ forall j v p, nth_error x j = Some v -> nth_error ps j = Some p ->
    prints (integers k) (log_discrete_as_int k) (i + j) v p.
Proof.
  intros k. induction n as [|n IH]; intros i x ps L H; cbn [print_coordinates] in H.
  - assert (ps = []) by congruence. subst ps. split; [reflexivity|]. intros [|j] v p A B; discriminate B.
  - destruct x as [|v x]; [discriminate L|]. cbn [length] in L.
    apply bind_Ok in H as [c [E H]]. apply bind_Ok in H as [cs [E' H]].
    assert (ps = c :: cs) by congruence. subst ps. clear H.
    destruct (IH (S i) x cs ltac:(lia) E') as [Lc P]. split; [cbn [length]; lia|].
    intros [|j] w p A B; cbn [nth_error] in A, B.
    + assert (w = v) by congruence. assert (p = c) by congruence. subst w p. rewrite Nat.add_0_r.
      destruct (Nat.ltb_spec i (integers k)); cbn [andb] in E.
      * destruct (log_discrete_as_int k) eqn:D.
        -- apply bind_Ok in E as [z [E1 E2]]. assert (c = inl z) by congruence. subst c. cbn. auto.
        -- assert (c = inr v) by congruence. subst c. cbn. split; [intros [_ K]; discriminate K|reflexivity].
      * assert (c = inr v) by congruence. subst c. cbn. split; [lia|reflexivity].
    + replace (i + S j) with (S i + j) by lia. eapply P; eauto.
Qed.

Lemma output_spec : forall k func cons x cur best vs l,
  length x = variables k ->
  logger_bbob_output k func cons (Some x) cur best vs = Ok l ->
  f_evaluations l = func /\ g_evaluations l = cons /\ gap l = dsub best (optimal_value k) /\ measured l = cur /\
  fifth l = match vs with
            | Some v => if (constraints k =? 0)%nat then inr best
                        else inl (map logger_bbob_single_digit_constraint (firstn (constraints k) v))
            | None => inr best
            end /\
  prints_all (integers k) (log_discrete_as_int k) x (coordinates l).
Proof.
  intros k func cons x cur best vs l L H. unfold logger_bbob_output in H.
  apply bind_Ok in H as [fi [E1 H]]. apply bind_Ok in H as [cs [E2 H]].
  assert (Q : l = {| f_evaluations := func; g_evaluations := cons; gap := dsub best (optimal_value k);
                     measured := cur; fifth := fi; coordinates := cs |}) by congruence.
  subst l. clear H. cbn [f_evaluations g_evaluations gap measured fifth coordinates].
  split; [reflexivity|]. split; [reflexivity|]. split; [reflexivity|]. split; [reflexivity|]. split.
  - destruct vs as [v|].
    + destruct (Nat.ltb_spec 0 (constraints k)); destruct (Nat.eqb_spec (constraints k) 0); try lia.
      * apply bind_Ok in E1 as [ds [D E1]]. apply print_digits_spec in D. congruence.
      * congruence.
    + congruence.
  - unfold prints_all. rewrite L. destruct (variables k <? 22)%nat.
    + apply print_coordinates_spec in E2; [|exact L]. exact E2.
    + congruence.
Qed.

(** ** The inner problem *)

Section Inner.
Context {C : class}.
Variables (n : nat) (I : data C -> Prop) (f : list double -> double) (g : list double -> list double).
Hypothesis HC : computes C n I f g.

Definition good (p : problem C) : Prop := number_of_variables (head p) = n /\ I (body p).

Lemma feasibility_good : forall nc p x b q, good p -> length x = n ->
  feasibility nc p x = Ok (b, q) -> good q.
Proof.
  intros nc p x b q [V B] L H. unfold feasibility in H. destruct (nc =? 0)%nat.
  - apply Ok_pair_snd in H. subst q. split; assumption.
  - destruct HC as [[_ [_ Pc]] _]. unfold coco_is_feasible in H.
    apply bind_Ok in H as [n' [D H]]. apply dimension_ok in D as [-> P]. rewrite V, <- L in H.
    rewrite isfinite_spec in H. cbn [bind] in H.
    destruct (regularb x); cbn [negb] in H; [|apply Ok_pair_snd in H; subst q; split; assumption].
    destruct (Nat.eqb_spec (number_of_constraints (head p)) 0);
      [apply Ok_pair_snd in H; subst q; split; assumption|].
    destruct (evaluate_constraint C) as [e|] eqn:F; [|discriminate H].
    apply bind_Ok in H as [[vs d] [E H]]. apply bind_Ok in H as [b' [E' H]].
    apply Ok_pair_snd in H. subst q. split; [exact V|].
    exact (proj1 (Pc e eq_refl _ _ _ _ _ _ B V E)).
Qed.

Lemma evaluate_good : forall p x y q, good p -> length x = n ->
  coco_evaluate_function p x = Ok (y, q) -> good q.
Proof.
  intros p x y q [V B] L H. pose proof (eval_counts p x y q ltac:(lia) H) as [St _].
  split; [rewrite (static_nv _ _ St); exact V|].
  exact (perform_inv n I g p (Evaluate x) y q (proj1 HC) V L B H).
Qed.

Lemma constraint_good : forall p x u vs q, good p -> length x = n ->
  coco_evaluate_constraint_optional_update p x u = Ok (vs, q) -> good q.
Proof.
  intros p x u vs q [V B] L H. destruct HC as [[_ [_ Pc]] _].
  split.
  - pose proof (cons_counts p x u vs q ltac:(lia) H) as K. rewrite K. exact V.
  - destruct (classify x) as [[R E]|[[R E]|[R E]]].
    + destruct (cons_regular p x u vs q ltac:(lia) R H) as [e [Ee [Ev _]]].
      exact (proj1 (Pc e Ee _ _ _ _ _ _ B V Ev)).
    + destruct (evaluate_constraint C) as [e|] eqn:F.
      * rewrite (cons_inf e p x u F ltac:(lia) R) in H. apply Ok_pair_snd in H. subst q. exact B.
      * unfold coco_evaluate_constraint_optional_update in H. rewrite F in H. discriminate H.
    + destruct (evaluate_constraint C) as [e|] eqn:F.
      * rewrite (cons_nan e p x u F ltac:(lia) R) in H. apply Ok_pair_snd in H. subst q. exact B.
      * unfold coco_evaluate_constraint_optional_update in H. rewrite F in H. discriminate H.
Qed.

Lemma inner_constraints_good : forall nc p x vs q, good p -> length x = n ->
  inner_constraints nc p x = Ok (vs, q) ->
  good q /\ (regular x -> vs = if (nc =? 0)%nat then None else Some (g x)).
Proof.
  intros nc p x vs q [V B] L H. destruct HC as [[_ [_ Pc]] _]. unfold inner_constraints in H.
  destruct (Nat.ltb_spec 0 nc); destruct (Nat.eqb_spec nc 0); try lia.
  - destruct (evaluate_constraint C) as [e|] eqn:F; [|discriminate H].
    apply bind_Ok in H as [[ws d] [E H]].
    assert (vs = Some ws) by congruence. apply Ok_pair_snd in H. subst vs q.
    destruct (Pc e eq_refl _ _ _ _ _ _ B V E) as [B' G]. split; [split; [exact V|exact B']|].
    intros R. rewrite (G L R). reflexivity.
  - assert (vs = None) by congruence. apply Ok_pair_snd in H. subst vs q. split; [split; assumption|reflexivity].
Qed.

(** What an evaluation of the inner problem gives to the logger *)
Lemma evaluate_value : forall p x y q y0 v, good p -> length x = n -> regular x ->
  coco_evaluate_function p x = Ok (y, q) -> mget y 0 = Ok y0 ->
  match last_noise_free C (body q) with None => Ok y0 | Some vs => mget vs 0 end = Ok v -> v = f x.
Proof.
  intros p x y q y0 v [V B] L R H M K. destruct HC as [_ [Pf Pn]].
  destruct (eval_regular p x y q ltac:(lia) R H) as [d [E [_ D]]]. cbv zeta in D.
  pose proof (Pf _ _ _ _ _ B V L R E) as Q.
  assert (W : last_noise_free C (body q) = last_noise_free C d).
  { destruct D as [[_ ->]|[_ [[_ ->]|[_ [e [vs [d' [b [Ee [Ev [_ ->]]]]]]]]]]]; cbn [body]; try reflexivity.
    exact (Pn e Ee _ _ _ _ _ _ Ev). }
  rewrite W in K. destruct (last_noise_free C d) as [vs|].
  - unfold mget in K. rewrite Q in K. congruence.
  - unfold mget in M. rewrite Q in M. congruence.
Qed.
End Inner.
