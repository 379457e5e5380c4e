(** One linear constraint, in exact arithmetic. *)

From Coq Require Import ZArith List Bool Reals Lra Lia.
From Verif Require Import CBase FunModel FunSpec FunProofs FunOptima FunDocSpec FunDocProofs ConsModel ConsSpec.
Import ListNotations.
Local Open Scope R_scope.

Ltac reals := change (num RA) with R in *.
Ltac rring := reals; apply Rminus_diag_uniq; ring.
Ltac rfield := reals; apply Rminus_diag_uniq; field.
Ltac rlra := reals; lra.
Ltac rnra := reals; nra.

Notation RC := (constraint RA).

Lemma nonzero_true x : nonzero RA x = true <-> x <> 0.
Proof.
  unfold nonzero. rewrite orb_true_iff, !lt_true, zero0. split; [rlra|]. intros H. change (num RA) with R in *.
  destruct (Rtotal_order x 0) as [L|[E|G]]; [left; exact L|contradiction|right; exact G].
Qed.
Lemma nonzero_false x : nonzero RA x = false <-> x = 0.
Proof.
  destruct (nonzero RA x) eqn:E.
  - apply nonzero_true in E. split; [discriminate|]. intros H; contradiction.
  - split; [|reflexivity]. intros _. destruct (Req_dec x 0) as [H|H]; [exact H|]. apply nonzero_true in H. congruence.
Qed.

Lemma le_false x y : FunModel.le RA x y = false <-> y < x.
Proof. cbn. destruct (Rle_dec x y); intuition (try congruence; rlra). Qed.

Lemma total_nonneg n f : (forall i, (i < n)%nat -> 0 <= f i) -> 0 <= total n f.
Proof. intros H. rewrite <- (Rmult_0_r (INR n)), <- total_const. apply total_le. exact H. Qed.

Lemma total_opp n f : total n (fun i => - f i) = - total n f.
Proof. rewrite (total_ext n _ (fun i => -1 * f i)) by (intros; rring). rewrite total_scale. rring. Qed.
Lemma total_minus n f g : total n (fun i => f i - g i) = total n f - total n g.
Proof. rewrite (total_ext n _ (fun i => f i + -1 * g i)) by (intros; rring). rewrite total_plus, total_scale. rring. Qed.

Section Dim.
Variable n : nat.

(** Squared length. *)
Definition sq (g : list R) : R := total n (fun i => g.[i] * g.[i]).
Definition prod (g x : list R) : R := total n (fun i => g.[i] * x.[i]).

Lemma sq_nonneg g : 0 <= sq g.
Proof. apply total_nonneg. intros. apply sq_pos. Qed.

Lemma sq_positive g : (exists i, (i < n)%nat /\ g.[i] <> 0) -> 0 < sq g.
Proof.
  intros (i & I & H). apply Rlt_le_trans with (g.[i] * g.[i]).
  - rnra.
  - apply (total_term n (fun i => g.[i] * g.[i])); [exact I|]. intros. apply sq_pos.
Qed.
Lemma sq_zero g : sq g = 0 -> forall i, (i < n)%nat -> g.[i] = 0.
Proof.
  intros H i I. destruct (Req_dec g.[i] 0) as [E|E]; [exact E|]. pose proof (sq_positive g (ex_intro _ i (conj I E))). rlra.
Qed.

Lemma norm_sqrt g : vector_norm RA n g = R_sqrt.sqrt (sq g).
Proof. unfold vector_norm, sq. lits. rewrite loop_total. f_equal. rlra. Qed.
Lemma norm_nonneg g : 0 <= vector_norm RA n g.
Proof. rewrite norm_sqrt. apply sqrt_pos. Qed.
Lemma norm_square g : vector_norm RA n g * vector_norm RA n g = sq g.
Proof. rewrite norm_sqrt. apply sqrt_sqrt, sq_nonneg. Qed.
Lemma norm_positive g : (exists i, (i < n)%nat /\ g.[i] <> 0) -> 0 < vector_norm RA n g.
Proof. intros H. rewrite norm_sqrt. apply sqrt_lt_R0, sq_positive, H. Qed.

Lemma product_prod x y : scalar_product RA n x y = prod x y.
Proof. unfold scalar_product, prod. lits. rewrite loop_total. rlra. Qed.

Lemma scale_at x nom denom i : (i < n)%nat -> (vector_scale RA n x nom denom).[i] = x.[i] * (if Req_EM_T denom 0 then nom else nom / denom).
Proof.
  intros I. unfold vector_scale. cbv zeta. rewrite vec_at by exact I. change (mul RA) with Rmult. f_equal.
  destruct (Req_EM_T denom 0) as [E|E].
  - apply nonzero_false in E. rewrite E. reflexivity.
  - apply nonzero_true in E. rewrite E. reflexivity.
Qed.

(** ** The evaluation of a constraint *)

Definition band : R := dead_band.
Lemma band_pos : 0 < band. Proof. unfold band, dead_band. apply Rinv_0_lt_compat. apply pow_lt. rlra. Qed.
Lemma band_lit : lit RA 1 11 = band.
Proof. unfold band, dead_band. lits. rewrite (pow_IZR 10 11). change (Z.pow 10 (Z.of_nat 11)) with 100000000000%Z. unfold Rdiv. rring. Qed.

(** The part of a summand that counts. *)
Definition part (t : R) : R := if Rlt_dec band t then t else if Rlt_dec t 0 then t else 0.

Lemma part_bounds t : part t <= t <= part t + band.
Proof. pose proof band_pos. unfold part. destruct (Rlt_dec band t); [rlra|]. destruct (Rlt_dec t 0); rlra. Qed.
Lemma part_neg t : t <= 0 -> part t = t.
Proof. intros H. pose proof band_pos. unfold part. destruct (Rlt_dec band t); [rlra|]. destruct (Rlt_dec t 0); rlra. Qed.
Lemma part_clear t : t <= 0 \/ band < t -> part t = t.
Proof. intros [H|H]; [apply part_neg; exact H|]. unfold part. destruct (Rlt_dec band t); rlra. Qed.
Lemma part_small t : t <= band -> part t <= 0.
Proof. intros H. unfold part. destruct (Rlt_dec band t); [rlra|]. destruct (Rlt_dec t 0); rlra. Qed.
Lemma part_shrink c t : 0 <= c <= 1 -> part (c * t) <= c * part t.
Proof.
  intros C. pose proof band_pos. unfold part.
  destruct (Rlt_dec band t), (Rlt_dec band (c * t)); try (destruct (Rlt_dec (c * t) 0)); try (destruct (Rlt_dec t 0)); rnra.
Qed.

Lemma sum_parts x : sum_variables RA n x = total n (fun i => part x.[i]).
Proof.
  unfold sum_variables. rewrite (loop_ext n _ (fun i y => y + part x.[i])).
  - rewrite loop_total, zero0. apply Rplus_0_l.
  - intros i t I. rewrite !lt_dec, band_lit, zero0. unfold part. change (add RA) with Rplus. change (num RA) with R in *.
    destruct (Rlt_dec band x.[i]); cbn [orb]; [reflexivity|]. destruct (Rlt_dec x.[i] 0); [reflexivity|]. symmetry; apply Rplus_0_r.
Qed.

(** The argument of the sum for coordinate i, and the exactly linear value. *)
Definition term (c : RC) (x : list R) (i : nat) : R :=
  (cgradient _ c).[i] * (x.[i] - cshift _ c / cnorm _ c * (cgradient _ c).[i]).
Definition linear (c : RC) (x : list R) : R :=
  prod (cgradient _ c) x - cshift _ c / cnorm _ c * sq (cgradient _ c).

Lemma single_parts c x : single_evaluate RA n c x = total n (fun i => part (term c x i)).
Proof.
  unfold single_evaluate. cbv zeta. rewrite sum_parts. apply total_ext. intros i I. rewrite vec_at by exact I. reflexivity.
Qed.

Lemma linear_terms c x : total n (term c x) = linear c x.
Proof.
  unfold linear, prod, sq, term. rewrite <- total_scale, <- total_minus. apply total_ext. intros i I. rring.
Qed.

Lemma single_upper c x : single_evaluate RA n c x <= linear c x.
Proof. rewrite single_parts, <- linear_terms. apply total_le. intros i I. apply part_bounds. Qed.
Lemma single_lower c x : linear c x <= single_evaluate RA n c x + INR n * band.
Proof.
  rewrite single_parts, <- linear_terms, <- total_const, <- total_plus. apply total_le. intros i I. apply part_bounds.
Qed.

(** ** Well-formed constraints *)

Definition wf (c : RC) : Prop := 0 < cnorm _ c /\ cnorm _ c * cnorm _ c = sq (cgradient _ c) /\ 0 <= cshift _ c.

Lemma origin_at i : (origin n : list (num RA)).[i] = 0.
Proof.
  unfold at_, origin. rewrite zero0. destruct (Nat.lt_ge_cases i n) as [I|I].
  - apply nth_repeat.
  - apply nth_overflow. rewrite repeat_length. exact I.
Qed.

Lemma at_origin c : wf c -> single_evaluate RA n c (origin n) = - (cshift _ c * cnorm _ c).
Proof.
  intros (P & Q & S). rewrite single_parts.
  assert (F : 0 <= cshift _ c / cnorm _ c). { apply Rmult_le_pos; [exact S|]. apply Rlt_le, Rinv_0_lt_compat, P. }
  rewrite (total_ext n _ (fun i => - (cshift _ c / cnorm _ c) * ((cgradient _ c).[i] * (cgradient _ c).[i]))).
  - rewrite total_scale. fold (sq (cgradient _ c)). rewrite <- Q. rfield. rlra.
  - intros i I. unfold term. rewrite origin_at.
    replace ((cgradient _ c).[i] * (0 - cshift _ c / cnorm _ c * (cgradient _ c).[i])) with
      (- (cshift _ c / cnorm _ c * ((cgradient _ c).[i] * (cgradient _ c).[i]))) by rring.
    rewrite part_neg; [rring|].
    pose proof (sq_pos (cgradient _ c).[i]). rnra.
Qed.

Lemma at_origin_active c : wf c -> cshift _ c = 0 -> single_evaluate RA n c (origin n) = 0.
Proof. intros W S. rewrite at_origin, S by exact W. rring. Qed.
Lemma at_origin_inactive c : wf c -> cshift _ c <> 0 -> single_evaluate RA n c (origin n) < 0.
Proof.
  intros W S. rewrite at_origin by exact W. destruct W as (P & Q & N). change (num RA) with R in *.
  assert (0 < cshift _ c) by rlra. rnra.
Qed.

(** A point on the segment from the origin to a feasible point is feasible. *)
Lemma shrink c x t : wf c -> 0 <= t <= 1 -> single_evaluate RA n c x <= 0 ->
  single_evaluate RA n c (vec n (fun i => t * x.[i])) <= 0.
Proof.
  intros (P & Q & S) T H. rewrite single_parts in *.
  apply Rle_trans with (t * total n (fun i => part (term c x i))).
  - rewrite <- total_scale. apply total_le. intros i I. eapply Rle_trans; [|apply part_shrink; exact T].
    unfold term. rewrite vec_at by exact I.
    set (k := cshift _ c / cnorm _ c). set (g := (cgradient _ c).[i]). set (y := x.[i]).
    assert (K : 0 <= k). { apply Rmult_le_pos; [exact S|]. apply Rlt_le, Rinv_0_lt_compat, P. }
    assert (E : g * (t * y - k * g) <= t * (g * (y - k * g))).
    { assert (0 <= k * (g * g)) by (apply Rmult_le_pos; [exact K|apply sq_pos]). rnra. }
    revert E. generalize (g * (t * y - k * g)) (t * (g * (y - k * g))). intros a b E. pose proof band_pos.
    unfold part. destruct (Rlt_dec band a), (Rlt_dec band b); try destruct (Rlt_dec a 0); try destruct (Rlt_dec b 0); rlra.
  - rnra.
Qed.

(** ** The creation of a constraint *)

Lemma orient_wf c d : wf c -> wf (guarantee_feasible RA n c d).
Proof.
  intros (P & Q & S). unfold guarantee_feasible. destruct (FunModel.lt RA _ _); [|repeat split; assumption].
  repeat split; cbn [cnorm cshift cgradient]; try assumption. rewrite Q. unfold sq. apply total_ext. intros i I.
  rewrite vec_at by exact I. lits. rfield.
Qed.

Lemma orient_gradient c d : exists e, (e = 1 \/ e = -1) /\ forall i, (i < n)%nat ->
  (cgradient _ (guarantee_feasible RA n c d)).[i] = e * (cgradient _ c).[i].
Proof.
  unfold guarantee_feasible. destruct (FunModel.lt RA _ _).
  - exists (-1). split; [right; reflexivity|]. intros i I. cbn [cgradient]. rewrite vec_at by exact I. lits. rfield.
  - exists 1. split; [left; reflexivity|]. intros i I. rring.
Qed.

Lemma orient_feasible c d : wf c -> single_evaluate RA n (guarantee_feasible RA n c d) d <= 0.
Proof.
  intros (P & Q & S). unfold guarantee_feasible. destruct (FunModel.lt RA _ _) eqn:E.
  - apply lt_true in E. rewrite zero0 in E.
    set (c' := Build_constraint RA _ _ _).
    assert (F : linear c' d = - linear c d - 2 * (cshift _ c / cnorm _ c * sq (cgradient _ c))).
    { unfold linear, c'. cbn [cgradient cshift cnorm].
      rewrite (total_ext n (fun i => _ * _) (fun i => (cgradient _ c).[i] * (cgradient _ c).[i])) || idtac.
      assert (A1 : prod (vec n (fun i => mul RA (cgradient _ c).[i] (lit RA (-1) 0))) d = - prod (cgradient _ c) d).
      { unfold prod. rewrite <- total_opp. apply total_ext. intros i I. rewrite vec_at by exact I. lits. rfield. }
      assert (A2 : sq (vec n (fun i => mul RA (cgradient _ c).[i] (lit RA (-1) 0))) = sq (cgradient _ c)).
      { unfold sq. apply total_ext. intros i I. rewrite vec_at by exact I. lits. rfield. }
      rewrite A1, A2. rring. }
    pose proof (single_upper c' d) as U. pose proof (single_upper c d) as U2. rewrite F in U.
    assert (0 <= cshift _ c / cnorm _ c * sq (cgradient _ c)).
    { apply Rmult_le_pos; [|apply sq_nonneg]. apply Rmult_le_pos; [exact S|]. apply Rlt_le, Rinv_0_lt_compat, P. }
    rlra.
  - apply lt_false in E. rewrite zero0 in E. exact E.
Qed.

(** Nothing lies in the dead band: the orientation is right for the exactly linear value. *)
Lemma orient_exact c d : wf c -> cshift _ c = 0 ->
  (forall i, (i < n)%nat -> (cgradient _ c).[i] * d.[i] <= 0 \/ band < (cgradient _ c).[i] * d.[i]) ->
  prod (cgradient _ (guarantee_feasible RA n c d)) d <= 0.
Proof.
  intros (P & Q & S) Z H.
  assert (E : single_evaluate RA n c d = prod (cgradient _ c) d).
  { rewrite single_parts. unfold prod. apply total_ext. intros i I. unfold term. rewrite Z.
    replace (_ * (_ - _)) with ((cgradient _ c).[i] * d.[i]) by (unfold Rdiv; rring). apply part_clear, H, I. }
  unfold guarantee_feasible. destruct (FunModel.lt RA _ _) eqn:C.
  - apply lt_true in C. rewrite zero0, E in C. cbn [cgradient].
    replace (prod _ d) with (- prod (cgradient _ c) d); [rlra|].
    unfold prod. rewrite <- total_opp. apply total_ext. intros i I. rewrite vec_at by exact I. lits. rfield.
  - apply lt_false in C. rewrite zero0, E in C. exact C.
Qed.

(** A constraint along the negative direction is never turned round. *)
Lemma orient_special (c : RC) (d : list R) (k : R) : 0 <= k -> cshift _ c = 0 -> (forall i, (i < n)%nat -> (cgradient _ c).[i] = - k * d.[i]) ->
  guarantee_feasible RA n c d = c.
Proof.
  intros K Z G. unfold guarantee_feasible. replace (FunModel.lt RA _ _) with false; [reflexivity|]. symmetry. apply lt_false.
  rewrite zero0, single_parts.
  assert (E : forall i, (i < n)%nat -> part (term c d i) <= 0).
  { intros i I. apply part_small. pose proof band_pos. unfold term. rewrite Z, G by exact I.
    replace (_ * (_ - _)) with (- (k * (d.[i] * d.[i]))) by (unfold Rdiv; rring).
    assert (0 <= k * (d.[i] * d.[i])) by (apply Rmult_le_pos; [exact K|apply sq_pos]). rlra. }
  apply Rle_trans with (total n (fun _ => 0)); [apply total_le; exact E|]. rewrite total_const. rlra.
Qed.

Lemma transform_ok g shift : (exists i, (i < n)%nat /\ g.[i] <> 0) -> 0 <= shift ->
  linear_transform RA n g shift = Ok {| cgradient := g; cshift := shift; cnorm := vector_norm RA n g |}.
Proof.
  intros H S. unfold linear_transform. cbv zeta. replace (FunModel.le RA _ _) with false; [reflexivity|].
  symmetry. apply le_false. rewrite zero0. apply norm_positive, H.
Qed.

Lemma transform_inv g shift c : linear_transform RA n g shift = Ok c ->
  c = {| cgradient := g; cshift := shift; cnorm := vector_norm RA n g |} /\ 0 < vector_norm RA n g.
Proof.
  unfold linear_transform. cbv zeta. destruct (FunModel.le RA _ _) eqn:E; [discriminate|].
  intros H. apply le_false in E. rewrite zero0 in E. split; [congruence|exact E].
Qed.

Lemma transform_wf g shift c : 0 <= shift -> linear_transform RA n g shift = Ok c -> wf c.
Proof. intros S H. apply transform_inv in H as (-> & P). repeat split; [exact P|apply norm_square|exact S]. Qed.

End Dim.
