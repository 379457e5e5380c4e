From Coq Require Import List Arith NArith ZArith Reals Bool Lia Lra.
From Flocq Require Import Core BinarySingleNaN.
Import ListNotations.
From Verif Require Import CBase DblModel DblSpec DblProofs ProbModel ProbSpec.
Open Scope nat_scope.

(** ** Classification of doubles *)

Lemma deq_refl : forall v : double, deq v v = negb (is_nan v).
Proof.
  intros v. destruct (is_nan v) eqn:N.
  - destruct v; try discriminate; reflexivity.
  - apply deq_val; auto.
Qed.

Lemma is_nan_num : forall v, coco_is_nan v = is_nan v.
Proof. intros v. unfold coco_is_nan. rewrite deq_refl. destruct (is_nan v); reflexivity. Qed.

Lemma is_inf_spec : forall v, coco_is_inf v = negb (is_nan v) && negb (is_finite v).
Proof. intros v. unfold coco_is_inf. rewrite is_nan_num. destruct v as [s|s| |s m e H]; try reflexivity; destruct s; reflexivity. Qed.

Lemma is_inf_infinite : forall v, coco_is_inf v = true <-> infinite v.
Proof.
  intros v. rewrite is_inf_spec, andb_true_iff, !negb_true_iff. unfold infinite, num, fin.
  destruct (is_finite v); intuition congruence.
Qed.

Lemma infinite_abs : forall v, infinite v -> dabs v = dinf.
Proof. intros [s|s| |s m e H] [N F]; unfold num, fin in *; simpl in *; try congruence; reflexivity. Qed.

Lemma below_dlt : forall a b, dlt a b = true <-> below a b.
Proof.
  intros a b. unfold below. split.
  - intros H. destruct (dlt_num a b H) as [Na Nb]. split; [assumption|]. split; [assumption|].
    apply (proj1 (dlt_val a b Na Nb) H).
  - intros [Na [Nb H]]. apply (proj2 (dlt_val a b Na Nb) H).
Qed.

Lemma below_trans : forall a b c, below a b -> below b c -> below a c.
Proof. intros a b c [A [B H]] [B' [D K]]. split; [assumption|]. split; [assumption|]. lra. Qed.

Lemma below_irrefl : forall a, ~ below a a.
Proof. intros a [_ [_ H]]. lra. Qed.

(** ** Vectors *)

Lemma classify : forall x, (regular x /\ regularb x = true) \/ (has_inf x /\ regularb x = false)
  \/ (has_nan_only x /\ regularb x = false).
Proof.
  induction x as [|v x IH].
  - left. split; [constructor|reflexivity].
  - unfold regularb in *. cbn [forallb].
    destruct (is_finite v) eqn:F; cbn [andb].
    + destruct IH as [[R E]|[[R E]|[[R E] E']]].
      * left. split; [constructor; assumption|assumption].
      * right. left. split; [apply Exists_cons_tl; assumption|assumption].
      * right. right. split; [|assumption]. split; [|apply Exists_cons_tl; assumption].
        intros K. apply R. inversion K as [? ? [_ K']|]; subst; [exfalso; apply K'; exact F|assumption].
    + destruct (is_nan v) eqn:N.
      * assert (D : has_inf x \/ ~ has_inf x).
        { destruct IH as [[R E]|[[R E]|[[R E] E']]]; auto.
          right. intros K. apply Exists_exists in K as [w [I [_ K]]]. apply K.
          exact (proj1 (Forall_forall fin x) R w I). }
        destruct D as [D|D].
        -- right. left. split; [apply Exists_cons_tl; assumption|reflexivity].
        -- right. right. split; [|reflexivity]. split.
           ++ intros K. inversion K as [? ? [K1 _]|]; subst; [unfold num in K1; congruence|contradiction].
           ++ apply Exists_cons_hd. unfold num. congruence.
      * right. left. split; [|reflexivity]. apply Exists_cons_hd. split; [exact N|unfold fin; congruence].
Qed.

Lemma regularb_spec : forall x, regularb x = true <-> regular x.
Proof. intros x. unfold regularb, regular. rewrite forallb_forall, Forall_forall. reflexivity. Qed.

Lemma first_inf_none : forall x, ~ has_inf x -> first_inf (length x) x = Ok None.
Proof.
  induction x as [|v x IH]; intros H; [reflexivity|]. cbn [length first_inf].
  destruct (coco_is_inf v) eqn:E.
  - exfalso. apply H. apply Exists_cons_hd. apply is_inf_infinite. exact E.
  - apply IH. intros K. apply H. apply Exists_cons_tl. exact K.
Qed.

Lemma first_inf_some : forall x, has_inf x -> exists v, first_inf (length x) x = Ok (Some v) /\ infinite v.
Proof.
  induction x as [|v x IH]; intros H; [inversion H|]. cbn [length first_inf].
  destruct (coco_is_inf v) eqn:E.
  - exists v. split; [reflexivity|]. apply is_inf_infinite. exact E.
  - apply IH. inversion H as [? ? K|]; subst; [|assumption].
    apply is_inf_infinite in K. congruence.
Qed.

Lemma contains_nan_spec : forall x, coco_vector_contains_nan (length x) x = Ok (existsb is_nan x).
Proof.
  induction x as [|v x IH]; [reflexivity|]. cbn [length coco_vector_contains_nan existsb].
  rewrite is_nan_num. destruct (is_nan v); [reflexivity|exact IH].
Qed.

Lemma isfinite_spec : forall x, coco_vector_isfinite (length x) x = Ok (regularb x).
Proof.
  induction x as [|v x IH]; [reflexivity|]. unfold regularb in *. cbn [length coco_vector_isfinite forallb].
  rewrite is_nan_num, is_inf_spec.
  replace (is_nan v || negb (is_nan v) && negb (is_finite v)) with (negb (is_finite v))
    by (destruct v; reflexivity).
  destruct (is_finite v); [exact IH|reflexivity].
Qed.

Lemma regular_no_inf : forall x, regular x -> ~ has_inf x.
Proof.
  intros x R K. apply Exists_exists in K as [w [I [_ K]]]. apply K.
  exact (proj1 (Forall_forall fin x) R w I).
Qed.

Lemma regular_no_nan : forall x, regular x -> existsb is_nan x = false.
Proof.
  intros x R. apply not_true_is_false. intros K. apply existsb_exists in K as [w [I K]].
  pose proof (proj1 (Forall_forall fin x) R w I) as F. apply fin_num in F. clear I. rename F into I. unfold num in I. congruence.
Qed.

Lemma has_nan_only_nan : forall x, has_nan_only x -> existsb is_nan x = true.
Proof.
  intros x [_ K]. apply Exists_exists in K as [w [I K]]. apply existsb_exists. exists w. split; [exact I|].
  unfold num in K. destruct (is_nan w); congruence.
Qed.

Lemma none_positive_spec : forall n vs b, none_positive n vs = Ok b ->
  (b = true <-> Forall (fun v => ~ (num v /\ (0 < val v)%R)) (firstn n vs)).
Proof.
  induction n as [|n IH]; intros vs b H.
  - cbn in H. assert (b = true) by congruence. subst b. cbn [firstn]. split; intros; [constructor|reflexivity].
  - destruct vs as [|v vs]; [discriminate H|]. cbn [none_positive] in H. cbn [firstn].
    destruct (dlt dzero v) eqn:E.
    + assert (b = false) by congruence. subst b. split; [intros K; discriminate K|].
      intros K. inversion K as [|? ? K1 K2]; subst. exfalso. apply K1.
      destruct (dlt_num _ _ E) as [_ Nv]. split; [exact Nv|].
      pose proof (proj1 (dlt_val dzero v eq_refl Nv) E) as L. exact L.
    + apply IH in H. rewrite H. split; intros K.
      * constructor; [|exact K]. intros [Nv L].
        assert (dlt dzero v = true) by (apply (proj2 (dlt_val dzero v eq_refl Nv)); exact L). congruence.
      * inversion K; assumption.
Qed.

Lemma none_positive_total : forall n vs, n <= length vs -> exists b, none_positive n vs = Ok b.
Proof.
  induction n as [|n IH]; intros vs H; [exists true; reflexivity|].
  destruct vs as [|v vs]; cbn [length] in H; [lia|]. cbn [none_positive].
  destruct (dlt dzero v); [exists false; reflexivity|]. apply IH. lia.
Qed.

(** ** One evaluation *)

Lemma Some_inj : forall A (a b : A), Some a = Some b -> a = b.
Proof. intros. congruence. Qed.

Lemma Ok_pair_snd : forall A B (a a' : A) (b b' : B), Ok (a, b) = Ok (a', b') -> b = b'.
Proof. intros. congruence. Qed.

Lemma dimension_ok : forall h n, coco_problem_get_dimension h = Ok n <-> n = number_of_variables h /\ 0 < n.
Proof.
  intros h n. unfold coco_problem_get_dimension. destruct (Nat.eqb_spec (number_of_variables h) 0); split.
  - intros K; discriminate K.
  - lia.
  - intros K. assert (number_of_variables h = n) by congruence. lia.
  - intros [-> _]. reflexivity.
Qed.

Section Step.
Context {C : class}.
Implicit Types (p q : problem C) (x : list double).

Lemma eval_inf : forall p x, length x = number_of_variables (head p) -> has_inf x ->
  coco_evaluate_function p x = Ok (repeat dinf (number_of_objectives (head p)), p).
Proof.
  intros p x L H. destruct (first_inf_some x H) as [v [E V]].
  unfold coco_evaluate_function.
  assert (D : coco_problem_get_dimension (head p) = Ok (length x)).
  { apply dimension_ok. split; [exact L|]. destruct x; [inversion H|cbn [length]; lia]. }
  rewrite D. cbn [bind]. rewrite E. cbn [bind]. rewrite (infinite_abs v V). reflexivity.
Qed.

Lemma eval_nan : forall p x, length x = number_of_variables (head p) -> has_nan_only x ->
  coco_evaluate_function p x = Ok (repeat dnan (number_of_objectives (head p)), p).
Proof.
  intros p x L H.
  unfold coco_evaluate_function.
  assert (D : coco_problem_get_dimension (head p) = Ok (length x)).
  { apply dimension_ok. split; [exact L|]. destruct H as [_ H]. destruct x; [inversion H|cbn [length]; lia]. }
  rewrite D. cbn [bind]. rewrite (first_inf_none x (proj1 H)). cbn [bind].
  rewrite contains_nan_spec, (has_nan_only_nan x H). reflexivity.
Qed.

Lemma cons_inf : forall f p x u, evaluate_constraint C = Some f ->
  length x = number_of_variables (head p) -> has_inf x ->
  coco_evaluate_constraint_optional_update p x u = Ok (repeat dinf (number_of_constraints (head p)), p).
Proof.
  intros f p x u F L H. destruct (first_inf_some x H) as [v [E V]].
  unfold coco_evaluate_constraint_optional_update. rewrite F.
  assert (D : coco_problem_get_dimension (head p) = Ok (length x)).
  { apply dimension_ok. split; [exact L|]. destruct x; [inversion H|cbn [length]; lia]. }
  rewrite D. cbn [bind]. rewrite E. cbn [bind]. rewrite (infinite_abs v V). reflexivity.
Qed.

Lemma cons_nan : forall f p x u, evaluate_constraint C = Some f ->
  length x = number_of_variables (head p) -> has_nan_only x ->
  coco_evaluate_constraint_optional_update p x u = Ok (repeat dnan (number_of_constraints (head p)), p).
Proof.
  intros f p x u F L H.
  unfold coco_evaluate_constraint_optional_update. rewrite F.
  assert (D : coco_problem_get_dimension (head p) = Ok (length x)).
  { apply dimension_ok. split; [exact L|]. destruct H as [_ H]. destruct x; [inversion H|cbn [length]; lia]. }
  rewrite D. cbn [bind]. rewrite (first_inf_none x (proj1 H)). cbn [bind].
  rewrite contains_nan_spec, (has_nan_only_nan x H). reflexivity.
Qed.

(** Feasibility of a regular point *)
Lemma feasible_step : forall p x b q, length x = number_of_variables (head p) -> regular x ->
  coco_is_feasible p x = Ok (b, q) ->
  head q = head p /\
  ((number_of_constraints (head p) = 0 /\ b = true /\ q = p) \/
   (0 < number_of_constraints (head p) /\ exists f vs, evaluate_constraint C = Some f /\
      f (head p) (body p) x false = Ok (vs, body q) /\
      none_positive (number_of_constraints (head p)) vs = Ok b)).
Proof.
  intros p x b q L R H. unfold coco_is_feasible in H.
  apply bind_Ok in H as [n [D H]]. apply dimension_ok in D as [-> P]. rewrite <- L in H.
  rewrite isfinite_spec in H. cbn [bind] in H. rewrite (proj2 (regularb_spec x) R) in H. cbn [negb] in H.
  destruct (Nat.eqb_spec (number_of_constraints (head p)) 0).
  - assert (b = true /\ q = p) as [-> ->] by (split; congruence). split; [reflexivity|]. left. auto.
  - destruct (evaluate_constraint C) as [f|] eqn:F; [|discriminate H].
    apply bind_Ok in H as [[vs d] [E H]]. apply bind_Ok in H as [b' [E' H]].
    assert (b' = b) by congruence. assert (q = set_body p d) by congruence. subst.
    split; [reflexivity|]. right. split; [lia|]. exists f, vs. auto.
Qed.

Definition bumped (h : header) (v : double) (k : N) : header :=
  with_counters h (evaluations h + 1) (evaluations_constraints h) v k.

(** A counted evaluation *)
Lemma eval_regular : forall p x y q, length x = number_of_variables (head p) -> regular x ->
  coco_evaluate_function p x = Ok (y, q) ->
  exists d, evaluate_function C (head p) (body p) x = Ok (y, d) /\ 0 < length y /\
  let h := head p in
  let y0 := hd dnan y in
  (dlt y0 (best_observed_fvalue h) = false /\
     q = Build_problem C (bumped h (best_observed_fvalue h) (best_observed_evaluation h)) d)
  \/ (dlt y0 (best_observed_fvalue h) = true /\
      ((number_of_constraints h = 0 /\
        q = Build_problem C (bumped h y0 (evaluations h + 1)) d) \/
       (0 < number_of_constraints h /\ exists f vs d' b,
         evaluate_constraint C = Some f /\
         f (bumped h (best_observed_fvalue h) (best_observed_evaluation h)) d x false = Ok (vs, d') /\
         none_positive (number_of_constraints h) vs = Ok b /\
         q = Build_problem C (if b : bool then bumped h y0 (evaluations h + 1)
                              else bumped h (best_observed_fvalue h) (best_observed_evaluation h)) d'))).
Proof.
  intros p x y q L R H. unfold coco_evaluate_function in H.
  apply bind_Ok in H as [n [D H]]. apply dimension_ok in D as [-> P]. rewrite <- L in H.
  rewrite (first_inf_none x (regular_no_inf x R)) in H. cbn [bind] in H.
  rewrite contains_nan_spec, (regular_no_nan x R) in H. cbn [bind] in H.
  apply bind_Ok in H as [[y' d] [E H]]. apply bind_Ok in H as [y0 [M H]].
  destruct y' as [|y1 yt]; [discriminate M|]. cbn [mget nth_error] in M.
  assert (y1 = y0) by (cbn in M; congruence). subst y1. clear M.
  exists d. cbn [with_counters best_observed_fvalue] in H.
  destruct (dlt y0 (best_observed_fvalue (head p))) eqn:Lt.
  - apply bind_Ok in H as [[b p2] [F H]].
    assert (Y : y = y0 :: yt) by (destruct b; congruence). subst y.
    split; [exact E|]. split; [cbn [length]; lia|]. cbv zeta. cbn [hd]. right. split; [exact Lt|].
    cbn [number_of_constraints with_counters] in F.
    destruct (Nat.ltb_spec 0 (number_of_constraints (head p))) as [Pc|Pc].
    + right. split; [exact Pc|].
      apply feasible_step in F; [|cbn; exact L|exact R].
      cbn [head body] in F. destruct F as [Hq [[Z _]|[_ [f [vs [Ef [Ev Np]]]]]]]; [cbn in Z; lia|].
      exists f, vs, (body p2), b. split; [exact Ef|]. split; [exact Ev|]. split; [exact Np|].
      destruct b.
      * assert (Q : q = set_head p2 (with_counters (head p2) (evaluations (head p2))
                   (evaluations_constraints (head p2)) y0 (evaluations (head p2)))) by congruence.
        rewrite Q. unfold set_head. rewrite Hq. reflexivity.
      * assert (Q : q = p2) by congruence. rewrite Q. destruct p2 as [h2 d2]. cbn [head body] in *. rewrite Hq. reflexivity.
    + left. split; [lia|]. assert (b = true) by congruence. subst b.
      assert (Q : p2 = Build_problem C (bumped (head p) (best_observed_fvalue (head p)) (best_observed_evaluation (head p))) d)
        by (unfold bumped; congruence).
      subst p2.
      apply Ok_pair_snd in H. rewrite <- H. reflexivity.
  - assert (Y : y = y0 :: yt) by congruence. subst y.
    split; [exact E|]. split; [cbn [length]; lia|]. cbv zeta. cbn [hd]. left. split; [exact Lt|]. unfold bumped. congruence.
Qed.

Lemma cons_regular : forall p x u y q, length x = number_of_variables (head p) -> regular x ->
  coco_evaluate_constraint_optional_update p x u = Ok (y, q) ->
  exists f, evaluate_constraint C = Some f /\ f (head p) (body p) x u = Ok (y, body q) /\
    head q = with_counters (head p) (evaluations (head p))
               (evaluations_constraints (head p) + (if u then 1 else 0)) (best_observed_fvalue (head p))
               (best_observed_evaluation (head p)).
Proof.
  intros p x u y q L R H. unfold coco_evaluate_constraint_optional_update in H.
  destruct (evaluate_constraint C) as [f|]; [|discriminate H]. exists f. split; [reflexivity|].
  apply bind_Ok in H as [n [D H]]. apply dimension_ok in D as [-> P]. rewrite <- L in H.
  rewrite (first_inf_none x (regular_no_inf x R)) in H. cbn [bind] in H.
  rewrite contains_nan_spec, (regular_no_nan x R) in H. cbn [bind] in H.
  apply bind_Ok in H as [[y' d] [E H]].
  assert (y' = y) by congruence. subst y'.
  destruct u.
  - assert (Q : q = Build_problem C (with_counters (head p) (evaluations (head p)) (evaluations_constraints (head p) + 1)
                               (best_observed_fvalue (head p)) (best_observed_evaluation (head p))) d) by congruence.
    subst q. split; [exact E|]. reflexivity.
  - assert (Q : q = Build_problem C (head p) d) by congruence.
    subst q. split; [exact E|]. rewrite N.add_0_r. cbn [head]. destruct (head p). reflexivity.
Qed.
End Step.

(** ** Sessions *)

Definition static (h h' : header) : Prop :=
  h' = with_counters h (evaluations h') (evaluations_constraints h') (best_observed_fvalue h')
         (best_observed_evaluation h').

Lemma static_refl : forall h, static h h.
Proof. intros []. reflexivity. Qed.

Lemma static_trans : forall a b c, static a b -> static b c -> static a c.
Proof. intros [] [] []. unfold static, with_counters. cbn. intros H K. congruence. Qed.

Lemma static_with : forall h a b c d, static h (with_counters h a b c d).
Proof. intros []. reflexivity. Qed.

Section Session.
Context {C : class}.
Implicit Types (p q : problem C) (x : list double).

Lemma eval_counts : forall p x y q, length x = number_of_variables (head p) ->
  coco_evaluate_function p x = Ok (y, q) ->
  static (head p) (head q) /\
  evaluations (head q) = (evaluations (head p) + (if regularb x then 1 else 0))%N /\
  evaluations_constraints (head q) = evaluations_constraints (head p).
Proof.
  intros p x y q L H. destruct (classify x) as [[R E]|[[R E]|[R E]]]; rewrite E.
  - destruct (eval_regular p x y q L R H) as [d [_ [_ K]]]. cbv zeta in K.
    destruct K as [[_ ->]|[_ [[_ ->]|[_ [f [vs [d' [b [_ [_ [_ ->]]]]]]]]]]]; cbn [head].
    1-2: split; [apply static_with|split; reflexivity].
    destruct b; (split; [apply static_with|split; reflexivity]).
  - rewrite (eval_inf p x L R) in H. apply Ok_pair_snd in H. subst q. rewrite N.add_0_r. split; [apply static_refl|auto].
  - rewrite (eval_nan p x L R) in H. apply Ok_pair_snd in H. subst q. rewrite N.add_0_r. split; [apply static_refl|auto].
Qed.

Lemma cons_counts : forall p x u y q, length x = number_of_variables (head p) ->
  coco_evaluate_constraint_optional_update p x u = Ok (y, q) ->
  head q = with_counters (head p) (evaluations (head p))
             (evaluations_constraints (head p) + (if u && regularb x then 1 else 0))
             (best_observed_fvalue (head p)) (best_observed_evaluation (head p)).
Proof.
  intros p x u y q L H.
  assert (S : exists f, evaluate_constraint C = Some f).
  { unfold coco_evaluate_constraint_optional_update in H. destruct (evaluate_constraint C); [eauto|discriminate H]. }
  destruct S as [f S].
  destruct (classify x) as [[R E]|[[R E]|[R E]]]; rewrite E.
  - destruct (cons_regular p x u y q L R H) as [f' [_ [_ K]]]. rewrite K. rewrite andb_true_r. reflexivity.
  - rewrite (cons_inf f p x u S L R) in H. apply Ok_pair_snd in H. subst q. rewrite andb_false_r, N.add_0_r. destruct (head p). reflexivity.
  - rewrite (cons_nan f p x u S L R) in H. apply Ok_pair_snd in H. subst q. rewrite andb_false_r, N.add_0_r. destruct (head p). reflexivity.
Qed.

Lemma static_nv : forall h h', static h h' -> number_of_variables h' = number_of_variables h.
Proof. intros h h' ->. reflexivity. Qed.

Lemma recommend_head : forall p x q, coco_recommend_solution p x = Ok q -> head q = head p.
Proof.
  intros p x q H. unfold coco_recommend_solution in H. destruct (recommend_solution C) as [f|].
  - apply bind_Ok in H as [d [_ H]]. assert (q = set_body p d) by congruence. subst q. reflexivity.
  - congruence.
Qed.

Definition weight_e (c : call) : N := match c with Evaluate x => if regularb x then 1 else 0 | _ => 0 end.
Definition weight_c (c : call) : N := match c with Constrain x => if regularb x then 1 else 0 | _ => 0 end.

Lemma perform_counts : forall p c y q, length (argument c) = number_of_variables (head p) ->
  perform p c = Ok (y, q) ->
  static (head p) (head q) /\
  evaluations (head q) = (evaluations (head p) + weight_e c)%N /\
  evaluations_constraints (head q) = (evaluations_constraints (head p) + weight_c c)%N.
Proof.
  intros p c y q L H. destruct c as [x|x|x]; cbn [argument perform weight_e weight_c] in *.
  - apply eval_counts in H; [|exact L]. rewrite N.add_0_r. exact H.
  - apply cons_counts in H; [|exact L]. cbn [andb] in H. rewrite N.add_0_r.
    split; [rewrite H; apply static_with|]. rewrite H. split; reflexivity.
  - apply bind_Ok in H as [q' [H K]]. apply Ok_pair_snd in K. subst q'. apply recommend_head in H. rewrite H.
    rewrite !N.add_0_r. split; [apply static_refl|auto].
Qed.

Lemma counted_e_cons : forall c cs, N.of_nat (counted_evaluations (c :: cs)) = (weight_e c + N.of_nat (counted_evaluations cs))%N.
Proof.
  intros c cs. unfold counted_evaluations. cbn [filter]. destruct c as [x|x|x]; cbn [weight_e]; try reflexivity.
  destruct (regularb x); [cbn [length]; lia|reflexivity].
Qed.
Lemma counted_c_cons : forall c cs, N.of_nat (counted_constraints (c :: cs)) = (weight_c c + N.of_nat (counted_constraints cs))%N.
Proof.
  intros c cs. unfold counted_constraints. cbn [filter]. destruct c as [x|x|x]; cbn [weight_c]; try reflexivity.
  destruct (regularb x); [cbn [length]; lia|reflexivity].
Qed.

Lemma session_counts : forall cs p ys q, sized (number_of_variables (head p)) cs ->
  session p cs = Ok (ys, q) ->
  static (head p) (head q) /\
  evaluations (head q) = (evaluations (head p) + N.of_nat (counted_evaluations cs))%N /\
  evaluations_constraints (head q) = (evaluations_constraints (head p) + N.of_nat (counted_constraints cs))%N /\
  length ys = length cs.
Proof.
  induction cs as [|c cs IH]; intros p ys q S H; cbn [session] in H.
  - assert (ys = [] /\ q = p) as [-> ->] by (split; congruence). cbn. rewrite !N.add_0_r. split; [apply static_refl|auto].
  - apply bind_Ok in H as [[y p1] [P H]]. apply bind_Ok in H as [[ys' p2] [P' H]].
    assert (ys = y :: ys') by congruence. apply Ok_pair_snd in H. subst ys p2.
    inversion S as [|? ? S1 S2]; subst.
    destruct (perform_counts p c y p1 S1 P) as [St [A B]].
    apply IH in P'; [|rewrite (static_nv _ _ St); exact S2].
    destruct P' as [St' [A' [B' L]]]. rewrite counted_e_cons, counted_c_cons.
    split; [exact (static_trans _ _ _ St St')|]. split; [lia|]. split; [lia|]. cbn [length]. lia.
Qed.

(** ** Best observed value *)

Lemma perform_inv : forall n I g p c y q, constraints_are C n I g ->
  number_of_variables (head p) = n -> length (argument c) = n -> I (body p) ->
  perform p c = Ok (y, q) -> I (body q).
Proof.
  intros n I g p c y q [Pe [Pr Pc]] V L B H. destruct c as [x|x|x]; cbn [argument perform] in *.
  - destruct (classify x) as [[R E]|[[R E]|[R E]]].
    + destruct (eval_regular p x y q (eq_trans L (eq_sym V)) R H) as [d [E1 [_ K]]]. cbv zeta in K.
      assert (Id : I d) by (eapply Pe; eauto).
      destruct K as [[_ ->]|[_ [[_ ->]|[_ [f [vs [d' [b [Ef [Ev [_ ->]]]]]]]]]]]; cbn [body]; auto.
      refine (proj1 (Pc f Ef _ _ _ _ _ _ Id _ Ev)). exact V.
    + rewrite (eval_inf p x (eq_trans L (eq_sym V)) R) in H. apply Ok_pair_snd in H. subst q. exact B.
    + rewrite (eval_nan p x (eq_trans L (eq_sym V)) R) in H. apply Ok_pair_snd in H. subst q. exact B.
  - unfold coco_evaluate_constraint in H.
    assert (S : exists f, evaluate_constraint C = Some f).
    { unfold coco_evaluate_constraint_optional_update in H. destruct (evaluate_constraint C); [eauto|discriminate H]. }
    destruct S as [f S].
    destruct (classify x) as [[R E]|[[R E]|[R E]]].
    + destruct (cons_regular p x true y q (eq_trans L (eq_sym V)) R H) as [f' [Ef [Ev _]]].
      exact (proj1 (Pc f' Ef _ _ _ _ _ _ B V Ev)).
    + rewrite (cons_inf f p x true S (eq_trans L (eq_sym V)) R) in H. apply Ok_pair_snd in H. subst q. exact B.
    + rewrite (cons_nan f p x true S (eq_trans L (eq_sym V)) R) in H. apply Ok_pair_snd in H. subst q. exact B.
  - apply bind_Ok in H as [q' [H K]]. apply Ok_pair_snd in K. subst q'.
    unfold coco_recommend_solution in H. destruct (recommend_solution C) as [f|] eqn:F.
    + apply bind_Ok in H as [d [E H]]. assert (q = set_body p d) by congruence. subst q. cbn [set_body body].
      exact (Pr f eq_refl _ _ _ _ B V E).
    + assert (q = p) by congruence. subst q. exact B.
Qed.

(** The records of one call *)
Definition record_of (c : call) (y : list double) : list (list double * double) :=
  match c with Evaluate x => if regularb x then [(x, hd dnan y)] else [] | _ => [] end.

Lemma observed_cons : forall c cs y ys, observed (c :: cs) (y :: ys) = record_of c y ++ observed cs ys.
Proof. intros [x|x|x] cs y ys; cbn [observed record_of]; try reflexivity. destruct (regularb x); reflexivity. Qed.

Lemma perform_best : forall n I g p c y q, constraints_are C n I g ->
  number_of_variables (head p) = n -> length (argument c) = n -> I (body p) ->
  perform p c = Ok (y, q) ->
  (forall x y0, In (x, y0) (record_of c y) ->
     let ok := feasible (number_of_constraints (head p)) g x in
     let better := dlt y0 (best_observed_fvalue (head p)) in
     (ok /\ better = true /\ best_observed_fvalue (head q) = y0 /\ best_observed_evaluation (head q) = (evaluations (head p) + 1)%N)
     \/ ((~ ok \/ better = false) /\ best_observed_fvalue (head q) = best_observed_fvalue (head p)
          /\ best_observed_evaluation (head q) = best_observed_evaluation (head p)))
  /\ (record_of c y = [] -> best_observed_fvalue (head q) = best_observed_fvalue (head p)
          /\ best_observed_evaluation (head q) = best_observed_evaluation (head p)).
Proof.
  intros n I g p c y q [Pe [Pr Pc]] V L B H. destruct c as [x|x|x]; cbn [argument perform record_of] in *.
  - destruct (classify x) as [[R E]|[[R E]|[R E]]]; rewrite E.
    + split; [|intros K; discriminate K].
      intros x' y0 [K|[]]. assert (x' = x) by congruence. assert (y0 = hd dnan y) by congruence. subst x' y0. clear K.
      destruct (eval_regular p x y q (eq_trans L (eq_sym V)) R H) as [d [E1 [_ K]]]. cbv zeta in *.
      assert (Id : I d) by (eapply Pe; eauto).
      destruct K as [[D ->]|[D [[Z ->]|[Z [f [vs [d' [b [Ef [Ev [Np ->]]]]]]]]]]]; cbn [head bumped with_counters best_observed_fvalue best_observed_evaluation].
      * right. split; [right; exact D|auto].
      * left. split; [left; exact Z|auto].
      * pose proof (fun v => Pc f Ef _ _ _ _ _ _ Id v Ev) as G0. destruct (G0 V) as [_ G]. specialize (G L R). subst vs.
        pose proof (none_positive_spec _ _ _ Np) as S.
        destruct b; cbn [with_counters best_observed_fvalue best_observed_evaluation bumped].
        -- left. split; [right; apply S; reflexivity|auto].
        -- right. split; [|auto]. left. intros [K|K]; [lia|]. apply S in K. discriminate K.
    + split; [intros x' y0 []|intros _].
      rewrite (eval_inf p x (eq_trans L (eq_sym V)) R) in H. apply Ok_pair_snd in H. subst q. auto.
    + split; [intros x' y0 []|intros _].
      rewrite (eval_nan p x (eq_trans L (eq_sym V)) R) in H. apply Ok_pair_snd in H. subst q. auto.
  - split; [intros x' y0 []|intros _].
    apply cons_counts in H; [|congruence]. rewrite H. auto.
  - split; [intros x' y0 []|intros _].
    apply bind_Ok in H as [q' [H K]]. apply Ok_pair_snd in K. subst q'. apply recommend_head in H. rewrite H. auto.
Qed.

Lemma is_best_nil : forall ok start s e, is_best ok start s e [] start s.
Proof. intros. left. split; [reflexivity|]. split; [reflexivity|]. intros x y []. Qed.

Lemma not_below_cases : forall a b, ~ below a b -> num a -> num b -> (val b <= val a)%R.
Proof. intros a b H Na Nb. apply Rnot_lt_le. intros K. apply H. split; [exact Na|]. split; [exact Nb|exact K]. Qed.

Lemma below_not_below : forall a b, below a b -> ~ below b a.
Proof. intros a b [_ [_ H]] [_ [_ K]]. lra. Qed.

(** A record that improves, then the rest *)
Lemma is_best_better : forall (ok : list double -> Prop) start s e x y rs v k, ok x -> below y start ->
  is_best ok y (e + 1) (e + 1) rs v k -> is_best ok start s e ((x, y) :: rs) v k.
Proof.
  intros ok start s e x y rs v k O Bl [[-> [-> A]]|[i [x' [-> [Nt [O' [B1 [A B2]]]]]]]].
  - right. exists 0, x. split; [lia|]. split; [reflexivity|]. split; [exact O|]. split; [exact Bl|]. split.
    + intros x' y' [K|K] Ok'; [|eapply A; eauto].
      assert (y' = y) by congruence. subst y'. apply below_irrefl.
    + intros j x' y' J. lia.
  - right. exists (S i), x'. split; [lia|]. split; [exact Nt|]. split; [exact O'|].
    split; [exact (below_trans _ _ _ B1 Bl)|]. split.
    + intros x2 y2 [K|K] Ok2; [|eapply A; eauto].
      assert (y2 = y) by congruence. subst y2. apply below_not_below. exact B1.
    + intros j x2 y2 J K Ok2. destruct j as [|j]; cbn [nth_error] in K.
      * assert (y2 = y) by congruence. subst y2. right. exact B1.
      * apply (B2 j x2 y2); [lia|exact K|exact Ok2].
Qed.

(** A record that is not feasible or does not improve, then the rest *)
Lemma is_best_worse : forall (ok : list double -> Prop) start s e x y rs v k, num start -> ~ ok x \/ ~ below y start ->
  is_best ok start s (e + 1) rs v k -> is_best ok start s e ((x, y) :: rs) v k.
Proof.
  intros ok start s e x y rs v k Ns W [[-> [-> A]]|[i [x' [-> [Nt [O' [B1 [A B2]]]]]]]].
  - left. split; [reflexivity|]. split; [reflexivity|]. intros x' y' [K|K] Ok'; [|eapply A; eauto].
    assert (y' = y /\ x' = x) as [-> ->] by (split; congruence). destruct W as [W|W]; [contradiction|exact W].
  - right. exists (S i), x'. split; [lia|]. split; [exact Nt|]. split; [exact O'|]. split; [exact B1|].
    assert (G : forall x2 y2, (x2, y2) = (x, y) -> ok x2 -> ~ num y2 \/ below v y2).
    { intros x2 y2 K Ok2. assert (y2 = y /\ x2 = x) as [-> ->] by (split; congruence).
      destruct W as [W|W]; [contradiction|]. destruct (is_nan y) eqn:Ny; [left; unfold num; congruence|].
      right. destruct B1 as [N1 [_ B1]]. split; [exact N1|]. split; [exact Ny|].
      pose proof (not_below_cases _ _ W Ny Ns). lra. }
    split.
    + intros x2 y2 [K|K] Ok2; [|eapply A; eauto].
      destruct (G x2 y2 (eq_sym K) Ok2) as [Q|Q]; [intros [Q' _]; contradiction|]. apply below_not_below. exact Q.
    + intros j x2 y2 J K Ok2. destruct j as [|j]; cbn [nth_error] in K.
      * apply (G x2 y2); [congruence|exact Ok2].
      * apply (B2 j x2 y2); [lia|exact K|exact Ok2].
Qed.

Lemma session_best : forall n I g cs p ys q, constraints_are C n I g ->
  number_of_variables (head p) = n -> sized n cs -> I (body p) -> num (best_observed_fvalue (head p)) ->
  session p cs = Ok (ys, q) ->
  is_best (feasible (number_of_constraints (head p)) g) (best_observed_fvalue (head p))
    (best_observed_evaluation (head p)) (evaluations (head p)) (observed cs ys)
    (best_observed_fvalue (head q)) (best_observed_evaluation (head q)).
Proof.
  intros n I g. induction cs as [|c cs IH]; intros p ys q CA V S B Nb H; cbn [session] in H.
  - assert (ys = [] /\ q = p) as [-> ->] by (split; congruence). apply is_best_nil.
  - apply bind_Ok in H as [[y p1] [P H]]. apply bind_Ok in H as [[ys' p2] [P' H]].
    assert (ys = y :: ys') by congruence. apply Ok_pair_snd in H. subst ys p2.
    inversion S as [|? ? S1 S2]; subst.
    destruct (perform_counts p c y p1 S1 P) as [St [A _]].
    pose proof (perform_inv _ _ _ _ _ _ _ CA eq_refl S1 B P) as B1.
    destruct (perform_best _ _ _ _ _ _ _ CA eq_refl S1 B P) as [F1 F2].
    assert (Nc : number_of_constraints (head p1) = number_of_constraints (head p)) by (rewrite St; reflexivity).
    specialize (IH p1 ys' q CA (static_nv _ _ St) S2 B1).
    rewrite observed_cons. rewrite Nc, A in IH.
    destruct c as [x|x|x]; cbn [record_of weight_e] in *.
    2,3: destruct (F2 eq_refl) as [G1 G2]; rewrite G1, G2, N.add_0_r in IH; exact (IH Nb P').
    destruct (regularb x).
    + destruct (F1 x (hd dnan y) (or_introl eq_refl)) as [[O [D [G1 G2]]]|[O [G1 G2]]]; cbn [app].
      * apply is_best_better; [exact O|apply below_dlt; exact D|]. rewrite G1, G2 in IH. apply IH; [|exact P'].
        exact (proj1 (dlt_num _ _ D)).
      * apply is_best_worse; [exact Nb| |rewrite G1, G2 in IH; exact (IH Nb P')].
        destruct O as [O|O]; [left; exact O|right]. intros K. apply below_dlt in K. congruence.
    + destruct (F2 eq_refl) as [G1 G2]; rewrite G1, G2, N.add_0_r in IH; exact (IH Nb P').
Qed.
End Session.

(** ** The final target *)

Lemma max_num : num DBL_MAX.
Proof. reflexivity. Qed.

Lemma final_hit_spec : forall h v0 vt, number_of_objectives h = 1 -> best_value h = Some (v0 :: vt) ->
  coco_problem_final_target_hit h =
  Ok (negb (evaluations h <? 1)%N && dle (best_observed_fvalue h) (dadd v0 (final_target_delta h))).
Proof.
  intros h v0 vt O B. unfold coco_problem_final_target_hit. rewrite O, B. cbn [Nat.eqb negb orb].
  destruct (evaluations h <? 1)%N; reflexivity.
Qed.

Lemma is_best_le : forall ok start s e rs v k, num start -> is_best ok start s e rs v k ->
  num v /\ (val v <= val start)%R.
Proof.
  intros ok start s e rs v k Ns [[-> _]|[i [x [_ [_ [_ [[Nv [_ B]] _]]]]]]].
  - split; [exact Ns|lra].
  - split; [exact Nv|lra].
Qed.

Lemma is_best_dle : forall (ok : list double -> Prop) start s e rs v k t, num start -> dle start t = false ->
  is_best ok start s e rs v k ->
  (dle v t = true <-> exists x y, In (x, y) rs /\ ok x /\ dle y t = true).
Proof.
  intros ok start s e rs v k t Ns D [[-> [_ A]]|[i [x [_ [Nt [O [B [A _]]]]]]]].
  - split; [congruence|]. intros [x [y [I [O L]]]]. exfalso. apply (A x y I O).
    destruct (dle_num _ _ L) as [Ny Nt]. split; [exact Ny|]. split; [exact Ns|].
    pose proof (proj1 (dle_val y t Ny Nt) L). pose proof (proj1 (dle_false start t Ns Nt) D). lra.
  - split.
    + intros L. exists x, v. split; [eapply nth_error_In; eauto|auto].
    + intros [x' [y [I [O' L]]]]. specialize (A x' y I O'). destruct (dle_num _ _ L) as [Ny Ntt].
      destruct B as [Nv _]. apply (proj2 (dle_val v t Nv Ntt)).
      pose proof (proj1 (dle_val y t Ny Ntt) L). pose proof (not_below_cases _ _ A Ny Nv). lra.
Qed.

Lemma observed_length : forall cs ys, length ys = length cs -> length (observed cs ys) = counted_evaluations cs.
Proof.
  induction cs as [|c cs IH]; intros [|y ys] L; cbn [length] in L; try lia; [reflexivity|].
  specialize (IH ys ltac:(lia)). unfold counted_evaluations in *.
  destruct c as [x|x|x]; cbn [observed filter]; [|exact IH|exact IH].
  destruct (regularb x); [cbn [length]; lia|exact IH].
Qed.

(** ** Layers *)

Definition inner_ok {C} (n : nat) (I : data C -> Prop) (q : problem C) : Prop :=
  number_of_variables (head q) = n /\ I (body q).

Section Layers.
Variables (C : class) (n : nat) (I : data C -> Prop) (g : list double -> list double).
Hypothesis CA : constraints_are C n I g.

Lemma first_inf_short : forall m x r, first_inf m x = Ok r -> r = None -> m <= length x.
Proof.
  induction m as [|m IH]; intros x r H N; [lia|]. destruct x as [|v x]; cbn [first_inf] in H; [discriminate H|].
  cbn [length]. destruct (coco_is_inf v); [congruence|]. apply IH in H; [lia|exact N].
Qed.

(** Without assumptions on the size of the vector *)
Lemma feasible_any : forall p x b q, inner_ok n I p -> @coco_is_feasible C p x = Ok (b, q) -> inner_ok n I q /\ head q = head p.
Proof.
  intros p x b q [V B] H. unfold coco_is_feasible in H.
  apply bind_Ok in H as [m [D H]]. apply bind_Ok in H as [f [_ H]].
  destruct f; cbn [negb] in H; [|assert (q = p) by congruence; subst q; repeat split; assumption].
  destruct (number_of_constraints (head p) =? 0); [assert (q = p) by congruence; subst q; repeat split; assumption|].
  destruct (evaluate_constraint C) as [f|] eqn:F; [|discriminate H].
  apply bind_Ok in H as [[vs d] [E H]]. apply bind_Ok in H as [b' [_ H]].
  assert (q = set_body p d) by congruence. subst q. split; [|reflexivity]. split; [exact V|].
  destruct CA as [_ [_ Pc]]. exact (proj1 (Pc f F _ _ _ _ _ _ B V E)).
Qed.

Lemma eval_any : forall p x y q, inner_ok n I p -> @coco_evaluate_function C p x = Ok (y, q) -> inner_ok n I q.
Proof.
  intros p x y q [V B] H. unfold coco_evaluate_function in H.
  apply bind_Ok in H as [m [D H]]. apply bind_Ok in H as [iv [_ H]].
  destruct iv as [v|]; [assert (q = p) by congruence; subst q; split; assumption|].
  apply bind_Ok in H as [nan [_ H]].
  destruct nan; [assert (q = p) by congruence; subst q; split; assumption|].
  apply bind_Ok in H as [[y' d] [E H]]. apply bind_Ok in H as [y0 [_ H]].
  assert (Id : I d) by (destruct CA as [Pe _]; eapply Pe; eauto).
  set (p1 := Build_problem C (with_counters (head p) (evaluations (head p) + 1) (evaluations_constraints (head p))
             (best_observed_fvalue (head p)) (best_observed_evaluation (head p))) d) in *.
  assert (K1 : inner_ok n I p1) by (split; [exact V|exact Id]).
  cbv zeta in H.
  destruct (dlt y0 _) in H.
  - apply bind_Ok in H as [[b p2] [F H]].
    assert (K2 : inner_ok n I p2).
    { destruct (0 <? _) in F; [exact (proj1 (feasible_any _ _ _ _ K1 F))|assert (p2 = p1) by congruence; subst p2; exact K1]. }
    destruct b; apply Ok_pair_snd in H; subst q; destruct K2 as [A A']; split; assumption.
  - apply Ok_pair_snd in H. subst q. exact K1.
Qed.

Lemma cons_any : forall p x u y q, inner_ok n I p -> @coco_evaluate_constraint_optional_update C p x u = Ok (y, q) ->
  inner_ok n I q.
Proof.
  intros p x u y q [V B] H. unfold coco_evaluate_constraint_optional_update in H.
  destruct (evaluate_constraint C) as [f|] eqn:F; [|discriminate H].
  apply bind_Ok in H as [m [D H]]. apply bind_Ok in H as [iv [_ H]].
  destruct iv as [v|]; [assert (q = p) by congruence; subst q; split; assumption|].
  apply bind_Ok in H as [nan [_ H]].
  destruct nan; [assert (q = p) by congruence; subst q; split; assumption|].
  apply bind_Ok in H as [[y' d] [E H]]. apply Ok_pair_snd in H. subst q.
  destruct CA as [_ [_ Pc]].
  pose proof (proj1 (Pc f F _ _ _ _ _ _ B V E)) as Id.
  split; [destruct u; exact V|exact Id].
Qed.

Lemma recommend_any : forall p x q, inner_ok n I p -> @coco_recommend_solution C p x = Ok q -> inner_ok n I q.
Proof.
  intros p x q [V B] H. unfold coco_recommend_solution in H. destruct (recommend_solution C) as [f|] eqn:F.
  - apply bind_Ok in H as [d [E H]]. assert (q = set_body p d) by congruence. subst q. split; [exact V|].
    destruct CA as [_ [Pr _]]. exact (Pr f F _ _ _ _ B V E).
  - assert (q = p) by congruence. subst q. split; assumption.
Qed.

Lemma transformed_constraints : constraints_are (transformed C) n (inner_ok n I) g.
Proof.
  split; [|split].
  - intros h d x y d' K V H. exact (eval_any _ _ _ _ K H).
  - intros f F h d x d' K V H. cbn [transformed recommend_solution] in F.
    apply Some_inj in F. subst f.
    exact (recommend_any _ _ _ K H).
  - intros f F h d x u vs d' K V H. cbn [transformed evaluate_constraint] in F.
    apply Some_inj in F. subst f.
    cbv beta in H. split; [exact (cons_any _ _ _ _ _ K H)|]. intros L R. destruct K as [V' B].
    destruct (cons_regular d x u vs d' (eq_trans L (eq_sym V')) R H) as [f' [Ef [Ev _]]].
    destruct CA as [_ [_ Pc]]. exact (proj2 (Pc f' Ef _ _ _ _ _ _ B V' Ev) L R).
Qed.
End Layers.

(** The counters of the inner problem follow those of the outer one. *)
Lemma transformed_counts : forall C cs (p : problem (transformed C)) ys q,
  number_of_variables (head (body p)) = number_of_variables (head p) ->
  sized (number_of_variables (head p)) cs -> session p cs = Ok (ys, q) ->
  evaluations (head (body q)) = (evaluations (head (body p)) + N.of_nat (counted_evaluations cs))%N /\
  evaluations_constraints (head (body q)) =
    (evaluations_constraints (head (body p)) + N.of_nat (counted_constraints cs))%N.
Proof.
  intros C. induction cs as [|c cs IH]; intros p ys q V S H; cbn [session] in H.
  - assert (q = p) by congruence. subst q. cbn. rewrite !N.add_0_r. auto.
  - apply bind_Ok in H as [[y p1] [P H]]. apply bind_Ok in H as [[ys' p2] [P' H]].
    apply Ok_pair_snd in H. subst p2. inversion S as [|? ? S1 S2]; subst.
    destruct (perform_counts p c y p1 S1 P) as [St _].
    assert (G : static (head (body p)) (head (body p1)) /\
      evaluations (head (body p1)) = (evaluations (head (body p)) + weight_e c)%N /\
      evaluations_constraints (head (body p1)) = (evaluations_constraints (head (body p)) + weight_c c)%N).
    { destruct c as [x|x|x]; cbn [argument perform weight_e weight_c] in *.
      - destruct (classify x) as [[R E]|[[R E]|[R E]]]; rewrite E, ?N.add_0_r.
        + destruct (eval_regular p x y p1 S1 R P) as [d [E1 [_ K]]]. cbv zeta in K.
          cbn [transformed evaluate_function] in E1.
          apply eval_counts in E1; [|rewrite V; exact S1]. rewrite E in E1.
          destruct K as [[_ ->]|[_ [[_ ->]|[_ [f [vs [d' [b [Ef [Ev [_ ->]]]]]]]]]]]; cbn [body]; auto.
          cbn [transformed evaluate_constraint] in Ef.
          apply Some_inj in Ef. subst f.
          cbv beta in Ev. destruct E1 as [A1 [A2 A3]].
          apply cons_counts in Ev; [|rewrite (static_nv _ _ A1), V; exact S1].
          cbn [andb] in Ev. rewrite N.add_0_r in Ev. rewrite Ev. cbn [evaluations evaluations_constraints with_counters].
          split; [exact (static_trans _ _ _ A1 (static_with _ _ _ _ _))|auto].
        + rewrite (eval_inf p x S1 R) in P. apply Ok_pair_snd in P. subst p1. split; [apply static_refl|auto].
        + rewrite (eval_nan p x S1 R) in P. apply Ok_pair_snd in P. subst p1. split; [apply static_refl|auto].
      - unfold coco_evaluate_constraint in P. rewrite N.add_0_r.
        destruct (classify x) as [[R E]|[[R E]|[R E]]]; rewrite E, ?N.add_0_r.
        + destruct (cons_regular p x true y p1 S1 R P) as [f [Ef [Ev _]]].
          cbn [transformed evaluate_constraint] in Ef.
          apply Some_inj in Ef. subst f.
          cbv beta in Ev. apply cons_counts in Ev; [|rewrite V; exact S1]. rewrite E in Ev. cbn [andb] in Ev.
          rewrite Ev. split; [apply static_with|]. split; reflexivity.
        + rewrite (cons_inf _ p x true eq_refl S1 R) in P. apply Ok_pair_snd in P. subst p1. split; [apply static_refl|auto].
        + rewrite (cons_nan _ p x true eq_refl S1 R) in P. apply Ok_pair_snd in P. subst p1. split; [apply static_refl|auto].
      - rewrite !N.add_0_r. apply bind_Ok in P as [q' [P K]]. apply Ok_pair_snd in K. subst q'.
        unfold coco_recommend_solution in P. cbn [transformed recommend_solution] in P.
        apply bind_Ok in P as [d [P K]]. assert (p1 = set_body p d) by congruence. subst p1. cbn [set_body body].
        apply recommend_head in P. rewrite P. split; [apply static_refl|auto]. }
    destruct G as [G1 [G2 G3]].
    apply IH in P'; [|rewrite (static_nv _ _ St), (static_nv _ _ G1); exact V|rewrite (static_nv _ _ St); exact S2].
    rewrite counted_e_cons, counted_c_cons. lia.
Qed.

(** The parts of a stacked problem *)
Definition part_weight (present : nat) (w : N) : N := if 0 <? present then w else 0.

Section Stacked.
Variables C1 C2 : class.

Definition parts_fit (h : header) (d : problem C1 * problem C2) : Prop :=
  number_of_variables (head (fst d)) = number_of_variables h /\
  number_of_variables (head (snd d)) = number_of_variables h.

Definition grown (e c : N) (d d' : problem C1 * problem C2) : Prop :=
  let grow {C : class} (p p' : problem C) :=
    static (head p) (head p') /\
    evaluations (head p') = (evaluations (head p) + part_weight (number_of_objectives (head p)) e)%N /\
    evaluations_constraints (head p') =
      (evaluations_constraints (head p) + part_weight (number_of_constraints (head p)) c)%N in
  grow (fst d) (fst d') /\ grow (snd d) (snd d').

Lemma part_weight_0 : forall n, part_weight n 0 = 0%N.
Proof. intros n. unfold part_weight. destruct (0 <? n); reflexivity. Qed.

Lemma grown_refl : forall d, grown 0 0 d d.
Proof. intros d. unfold grown. rewrite !part_weight_0, !N.add_0_r. repeat split; apply static_refl. Qed.

Lemma static_no : forall h h', static h h' -> number_of_objectives h' = number_of_objectives h.
Proof. intros h h' ->. reflexivity. Qed.
Lemma static_nc : forall h h', static h h' -> number_of_constraints h' = number_of_constraints h.
Proof. intros h h' ->. reflexivity. Qed.

Lemma part_weight_add : forall n a b, part_weight n (a + b) = (part_weight n a + part_weight n b)%N.
Proof. intros n a b. unfold part_weight. destruct (0 <? n); lia. Qed.

Lemma grown_trans : forall a b c d x y z, grown a b x y -> grown c d y z -> grown (a + c) (b + d) x z.
Proof.
  intros a b c d x y z [[A1 [A2 A3]] [A4 [A5 A6]]] [[B1 [B2 B3]] [B4 [B5 B6]]].
  rewrite (static_no _ _ A1) in B2. rewrite (static_nc _ _ A1) in B3.
  rewrite (static_no _ _ A4) in B5. rewrite (static_nc _ _ A4) in B6.
  split; (split; [eapply static_trans; eauto|]); rewrite !part_weight_add; split; lia.
Qed.

Lemma stacked_function_counts : forall h d x y d', parts_fit h d -> length x = number_of_variables h -> regularb x = true ->
  stacked_function C1 C2 h d x = Ok (y, d') -> grown 1 0 d d'.
Proof.
  intros h [p1 p2] x y d' [F1 F2] L R H. unfold stacked_function in H. cbn [fst snd] in *.
  destruct (negb _) in H; [discriminate H|].
  apply bind_Ok in H as [[y1 q1] [E1 H]]. apply bind_Ok in H as [[y2 q2] [E2 H]].
  apply Ok_pair_snd in H. subst d'. unfold grown. cbn [fst snd]. rewrite !part_weight_0, !N.add_0_r.
  unfold part_weight. split.
  - destruct (0 <? number_of_objectives (head p1)).
    + apply eval_counts in E1; [|rewrite F1; exact L]. rewrite R in E1. exact E1.
    + assert (q1 = p1) by congruence. subst q1. rewrite N.add_0_r. split; [apply static_refl|auto].
  - destruct (0 <? number_of_objectives (head p2)).
    + apply eval_counts in E2; [|rewrite F2; exact L]. rewrite R in E2. exact E2.
    + assert (q2 = p2) by congruence. subst q2. rewrite N.add_0_r. split; [apply static_refl|auto].
Qed.

Lemma stacked_constraint_counts : forall h d x u y d', parts_fit h d -> length x = number_of_variables h -> regularb x = true ->
  stacked_constraint C1 C2 h d x u = Ok (y, d') -> grown 0 (if u then 1 else 0) d d'.
Proof.
  intros h [p1 p2] x u y d' [F1 F2] L R H. unfold stacked_constraint in H. cbn [fst snd] in *.
  destruct (negb _) in H; [discriminate H|].
  apply bind_Ok in H as [[y1 q1] [E1 H]]. apply bind_Ok in H as [[y2 q2] [E2 H]].
  apply Ok_pair_snd in H. subst d'. unfold grown. cbn [fst snd]. rewrite !part_weight_0, !N.add_0_r.
  unfold part_weight. split.
  - destruct (0 <? number_of_constraints (head p1)).
    + apply cons_counts in E1; [|rewrite F1; exact L]. rewrite R, andb_true_r in E1. rewrite E1.
      split; [apply static_with|auto].
    + assert (q1 = p1) by congruence. subst q1. rewrite N.add_0_r. split; [apply static_refl|auto].
  - destruct (0 <? number_of_constraints (head p2)).
    + apply cons_counts in E2; [|rewrite F2; exact L]. rewrite R, andb_true_r in E2. rewrite E2.
      split; [apply static_with|auto].
    + assert (q2 = p2) by congruence. subst q2. rewrite N.add_0_r. split; [apply static_refl|auto].
Qed.

Lemma grown_fit : forall h e c d d', parts_fit h d -> grown e c d d' -> parts_fit h d'.
Proof.
  intros h e c d d' [F1 F2] [[A _] [B _]]. split; [rewrite (static_nv _ _ A)|rewrite (static_nv _ _ B)]; assumption.
Qed.

Lemma stacked_check_counts : forall h d x y d', parts_fit h d -> length x = number_of_variables h -> regularb x = true ->
  stacked_check C1 C2 h d x y = Ok d' -> grown 0 0 d d'.
Proof.
  intros h d x y d' F L R H. unfold stacked_check in H.
  destruct (0 <? number_of_constraints h); [|assert (d' = d) by congruence; subst d'; apply grown_refl].
  apply bind_Ok in H as [m [D H]]. apply dimension_ok in D as [-> _]. rewrite <- L in H.
  rewrite isfinite_spec in H. cbn [bind] in H. rewrite R in H. cbn [negb] in H.
  apply bind_Ok in H as [[vs d1] [E H]]. apply bind_Ok in H as [b [_ H]].
  apply stacked_constraint_counts in E; [|exact F|exact L|exact R].
  assert (d' = d1); [|subst d'; exact E].
  destruct b; [|congruence].
  apply bind_Ok in H as [y0 [_ H]]. destruct (best_value h); [|discriminate H].
  apply bind_Ok in H as [v0 [_ H]]. destruct (dle _ _) in H; [congruence|discriminate H].
Qed.

Lemma stacked_perform : forall (p : problem (stacked C1 C2)) c y q, parts_fit (head p) (body p) ->
  length (argument c) = number_of_variables (head p) -> perform p c = Ok (y, q) ->
  grown (weight_e c) (weight_c c) (body p) (body q).
Proof.
  intros p c y q F L H. destruct c as [x|x|x]; cbn [argument perform weight_e weight_c] in *.
  - destruct (classify x) as [[R E]|[[R E]|[R E]]]; rewrite E.
    + destruct (eval_regular p x y q L R H) as [d [E1 [_ K]]]. cbv zeta in K.
      cbn [stacked evaluate_function] in E1. apply bind_Ok in E1 as [[y' d1] [E1 E2]].
      apply bind_Ok in E2 as [d2 [E2 E3]]. assert (y' = y) by congruence. apply Ok_pair_snd in E3. subst d2 y'.
      apply stacked_function_counts in E1; [|exact F|exact L|exact E].
      pose proof (grown_fit _ _ _ _ _ F E1) as F1.
      apply stacked_check_counts in E2; [|exact F1|exact L|exact E].
      pose proof (grown_trans _ _ _ _ _ _ _ E1 E2) as G. cbn [N.add] in G.
      destruct K as [[_ ->]|[_ [[_ ->]|[_ [f [vs [d' [b [Ef [Ev [_ ->]]]]]]]]]]]; cbn [body]; auto.
      cbn [stacked evaluate_constraint] in Ef. apply Some_inj in Ef. subst f.
      apply stacked_constraint_counts in Ev; [|exact (grown_fit _ _ _ _ _ F G)|exact L|exact E].
      exact (grown_trans _ _ _ _ _ _ _ G Ev).
    + rewrite (eval_inf p x L R) in H. apply Ok_pair_snd in H. subst q. apply grown_refl.
    + rewrite (eval_nan p x L R) in H. apply Ok_pair_snd in H. subst q. apply grown_refl.
  - unfold coco_evaluate_constraint in H. destruct (classify x) as [[R E]|[[R E]|[R E]]]; rewrite E.
    + destruct (cons_regular p x true y q L R H) as [f [Ef [Ev _]]].
      cbn [stacked evaluate_constraint] in Ef. apply Some_inj in Ef. subst f.
      apply stacked_constraint_counts in Ev; [|exact F|exact L|exact E]. exact Ev.
    + rewrite (cons_inf _ p x true eq_refl L R) in H. apply Ok_pair_snd in H. subst q. apply grown_refl.
    + rewrite (cons_nan _ p x true eq_refl L R) in H. apply Ok_pair_snd in H. subst q. apply grown_refl.
  - apply bind_Ok in H as [q' [H K]]. apply Ok_pair_snd in K. subst q'. cbn in H.
    assert (q = p) by congruence. subst q. apply grown_refl.
Qed.

Lemma stacked_session : forall cs (p : problem (stacked C1 C2)) ys q, parts_fit (head p) (body p) ->
  sized (number_of_variables (head p)) cs -> session p cs = Ok (ys, q) ->
  grown (N.of_nat (counted_evaluations cs)) (N.of_nat (counted_constraints cs)) (body p) (body q).
Proof.
  induction cs as [|c cs IH]; intros p ys q F S H; cbn [session] in H.
  - assert (q = p) by congruence. subst q. apply grown_refl.
  - apply bind_Ok in H as [[y p1] [P H]]. apply bind_Ok in H as [[ys' p2] [P' H]].
    apply Ok_pair_snd in H. subst p2. inversion S as [|? ? S1 S2]; subst.
    destruct (perform_counts p c y p1 S1 P) as [St _].
    apply stacked_perform in P; [|exact F|exact S1].
    assert (F1 : parts_fit (head p1) (body p1)).
    { pose proof (grown_fit _ _ _ _ _ F P) as [A B]. split; [rewrite A|rewrite B]; rewrite (static_nv _ _ St); reflexivity. }
    apply IH in P'; [|exact F1|rewrite (static_nv _ _ St); exact S2].
    rewrite counted_e_cons, counted_c_cons. exact (grown_trans _ _ _ _ _ _ _ P P').
Qed.
End Stacked.

(** ** Sessions succeed *)

Lemma perform_total : forall C n no nc I (p : problem C) c, never_fails C n no nc I -> 0 < n -> 0 < no ->
  number_of_variables (head p) = n -> number_of_constraints (head p) = nc -> I (body p) ->
  length (argument c) = n -> (nc = 0 -> forall x, c <> Constrain x) ->
  exists y q, perform p c = Ok (y, q) /\ I (body q).
Proof.
  intros C n no nc I p c [Pe [Pr Pc]] Pn Po V Nc B L NC.
  assert (D : coco_problem_get_dimension (head p) = Ok n) by (apply dimension_ok; split; congruence).
  destruct c as [x|x|x]; cbn [argument perform] in *.
  1,2: assert (Fi : regular x -> first_inf n x = Ok None)
         by (intros R; rewrite <- L; exact (first_inf_none x (regular_no_inf x R)));
       assert (Fn : regular x -> coco_vector_contains_nan n x = Ok false)
         by (intros R; rewrite <- L, contains_nan_spec, (regular_no_nan x R); reflexivity);
       assert (Ff : regular x -> coco_vector_isfinite n x = Ok true)
         by (intros R; rewrite <- L, isfinite_spec, (proj2 (regularb_spec x) R); reflexivity).
  - destruct (classify x) as [[R E]|[[R E]|[R E]]].
    + destruct (Pe (head p) (body p) x B V L R) as [y [d [Ee [Id Ly]]]].
      assert (Hd : exists y0 yt, y = y0 :: yt) by (destruct y as [|y0 yt]; [cbn in Ly; lia|eauto]).
      destruct Hd as [y0 [yt ->]].
      unfold coco_evaluate_function. rewrite D. cbn [bind]. rewrite (Fi R). cbn [bind]. rewrite (Fn R). cbn [bind]. rewrite Ee. cbn [bind mget nth_error].
      cbv zeta. cbn [with_counters best_observed_fvalue number_of_constraints].
      destruct (dlt y0 _); [|eexists; eexists; split; [reflexivity|exact Id]].
      destruct (Nat.ltb_spec 0 (number_of_constraints (head p))) as [Q|Q].
      * destruct Pc as [Z|[f [Ef Pf]]]; [lia|].
        unfold coco_is_feasible at 1. cbn [head]. 
        match goal with |- context [coco_problem_get_dimension ?h] =>
          replace (coco_problem_get_dimension h) with (Ok n) by (symmetry; exact D) end.
        cbn [bind]. rewrite (Ff R). cbn [bind negb with_counters number_of_constraints].
        destruct (Nat.eqb_spec (number_of_constraints (head p)) 0); [lia|]. rewrite Ef. cbn [body].
        match goal with |- context [f ?h d x false] => destruct (Pf h d x false Id V L) as [vs [d' [Ev [Id' Lv]]]] end.
        rewrite Ev. cbn [bind]. destruct (none_positive_total (number_of_constraints (head p)) vs) as [b Np]; [lia|].
        rewrite Np. cbn [bind]. destruct b; eexists; eexists; (split; [reflexivity|exact Id']).
      * cbn [bind]. eexists; eexists; split; [reflexivity|exact Id].
    + exists (repeat dinf (number_of_objectives (head p))), p. split; [apply eval_inf; congruence|exact B].
    + exists (repeat dnan (number_of_objectives (head p))), p. split; [apply eval_nan; congruence|exact B].
  - destruct Pc as [Z|[f [Ef Pf]]]; [exfalso; apply (NC Z x); reflexivity|].
    unfold coco_evaluate_constraint.
    destruct (classify x) as [[R E]|[[R E]|[R E]]].
    + unfold coco_evaluate_constraint_optional_update. rewrite Ef, D. cbn [bind]. rewrite (Fi R). cbn [bind]. rewrite (Fn R). cbn [bind].
      destruct (Pf (head p) (body p) x true B V L) as [vs [d' [Ev [Id' Lv]]]]. rewrite Ev. cbn [bind].
      eexists; eexists; split; [reflexivity|exact Id'].
    + exists (repeat dinf (number_of_constraints (head p))), p. split; [eapply cons_inf; eauto; congruence|exact B].
    + exists (repeat dnan (number_of_constraints (head p))), p. split; [eapply cons_nan; eauto; congruence|exact B].
  - unfold coco_recommend_solution. destruct (recommend_solution C) as [f|] eqn:F.
    + destruct (Pr f eq_refl (head p) (body p) x B V L) as [d [E Id]]. rewrite E. cbn [bind].
      eexists; eexists; split; [reflexivity|exact Id].
    + cbn [bind]. eexists; eexists; split; [reflexivity|exact B].
Qed.

Lemma session_total : forall C n no nc I cs (p : problem C), never_fails C n no nc I -> 0 < n -> 0 < no ->
  number_of_variables (head p) = n -> number_of_constraints (head p) = nc -> I (body p) ->
  sized n cs -> (nc = 0 -> forall x, ~ In (Constrain x) cs) ->
  exists ys q, session p cs = Ok (ys, q).
Proof.
  intros C n no nc I. induction cs as [|c cs IH]; intros p NF Pn Po V Nc B S NC; cbn [session].
  - eexists; eexists; reflexivity.
  - inversion S as [|? ? S1 S2]; subst.
    destruct (perform_total C _ no _ I p c NF Pn Po eq_refl eq_refl B S1) as [y [q [P Bq]]].
    { intros Z x K. apply (NC Z x). left. auto. }
    rewrite P. cbn [bind]. destruct (perform_counts p c y q S1 P) as [St _].
    destruct (IH q) as [ys [q' P']]; auto.
    + apply static_nv; exact St.
    + apply static_nc; exact St.
    + intros Z x K. apply (NC Z x). right. exact K.
    + rewrite P'. cbn [bind]. eexists; eexists; reflexivity.
Qed.
