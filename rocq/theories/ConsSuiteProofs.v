(** The problems of the constrained suite. *)

From Coq Require Import ZArith List Bool Reals Lra Lia.
From Verif Require Import CBase FunModel FunSpec FunProofs FunOptima FunDocSpec FunDocProofs ConsModel ConsSpec ConsProofs
  ConsBuildProofs ConsObjProofs.
Import ListNotations.
Local Open Scope R_scope.

(** ** Counting *)

Lemma values_count n (cs : list RC) : Forall (wf n) cs ->
  zeros_in (map (fun c => single_evaluate RA n c (origin n)) cs) = actives cs /\
  (negatives_in (map (fun c => single_evaluate RA n c (origin n)) cs) + actives cs = length cs)%nat.
Proof.
  intros H. induction H as [|c cs W H [IH1 IH2]]; [split; reflexivity|].
  unfold zeros_in, negatives_in in *. cbn [map how_many actives length].
  destruct (Req_EM_T (cshift RA c) 0) as [E|E].
  - rewrite (at_origin_active n c W E). destruct (Req_EM_T 0 0); [|lra]. destruct (Rlt_dec 0 0); [lra|]. split; lia.
  - pose proof (at_origin_inactive n c W E) as L. destruct (Req_EM_T _ 0); [lra|]. destruct (Rlt_dec _ 0); [|contradiction]. split; lia.
Qed.

(** ** The saddle point *)

Lemma weighted_mix n ws (cs : list RC) (z : point) t : 0 <= t -> length ws = length cs -> Forall (fun w => 0 <= w) ws ->
  (forall k c w, nth_error cs k = Some c -> nth_error ws k = Some w -> cshift _ c <> 0 -> w = 0) ->
  t * total n (fun i => mix ws cs i * z i) <=
  weighted_sum n (map (Rmult t) ws) (map (fun c => single_evaluate RA n c (vec n z)) cs).
Proof.
  intros T. revert cs. induction ws as [|w ws IH]; intros [|c cs] L P Z; cbn [length] in L; try discriminate.
  - cbn [mix map weighted_sum]. rewrite (total_ext n _ (fun _ => 0)) by (intros; ring). rewrite total_const. lra.
  - cbn [mix map weighted_sum]. inversion P as [|a l Pw Pws E1]. subst a l.
    specialize (IH cs ltac:(lia) Pws). rewrite (total_ext n _ (fun i => w * ((cgradient _ c).[i] * z i) + mix ws cs i * z i)) by (intros; rring).
    rewrite total_plus, total_scale, Rmult_plus_distr_l. apply Rplus_le_compat.
    + destruct (Req_dec (cshift _ c) 0) as [S|S].
      * pose proof (single_lower n c (vec n z)) as B. unfold linear in B. rewrite S in B. unfold Rdiv in B. rewrite !Rmult_0_l in B. fold dead_band.
        replace (prod n (cgradient RA c) (vec n z)) with (total n (fun i => (cgradient RA c).[i] * z i)) in B.
        -- unfold band in B. rewrite <- Rmult_assoc. apply Rmult_le_compat_l; [apply Rmult_le_pos; assumption|]. rlra.
        -- unfold prod. apply total_ext. intros i I. rewrite vec_at by exact I. reflexivity.
      * rewrite (Z 0%nat c w eq_refl eq_refl S). rlra.
    + apply IH. intros k c' w' Hc Hw. exact (Z (S k) c' w' Hc Hw).
Qed.

(** The Lagrange function with the multipliers of the construction has its minimum at y0. *)
Lemma saddle s function n instance m d left0 F (g y0 : point) (k : R) cs :
  supports n F g y0 -> 0 < k -> (forall i, (i < n)%nat -> d.[i] = k * g i) -> built s function n instance m d left0 cs ->
  exists w, length w = length cs /\ Forall (fun a => 0 <= a) w /\
    (forall j c a, nth_error cs j = Some c -> nth_error w j = Some a -> cshift _ c <> 0 -> a = 0) /\
    forall y, F y0 <= F y + weighted_sum n w (map (fun c => single_evaluate RA n c (vec n (fun i => y i - y0 i))) cs).
Proof.
  intros (t & T & H) K G B. destruct (b_kkt _ _ _ _ _ _ _ _ B) as (ws & W1 & W2 & W3 & W4).
  assert (TK : 0 < t / k) by (apply Rmult_lt_0_compat; [exact T|apply Rinv_0_lt_compat; exact K]).
  exists (map (Rmult (t / k)) ws). split; [rewrite map_length; exact W1|]. split.
  { rewrite Forall_map. apply Forall_impl with (2 := W2). intros a A. apply Rmult_le_pos; lra. }
  split.
  - intros j c a Hc Ha S. rewrite nth_error_map in Ha. destruct (nth_error ws j) as [b|] eqn:E; cbn [option_map] in Ha; [|discriminate].
    rewrite (W3 j c b Hc E S) in Ha. assert (a = t / k * 0) by congruence. lra.
  - intros y. specialize (H y).
    pose proof (weighted_mix n ws cs (fun i => y i - y0 i) (t / k) ltac:(lra) W1 W2 W3) as M. cbv beta in M.
    replace (t / k * total n (fun i => mix ws cs i * (y i - y0 i))) with (- (t * total n (fun i => g i * (y i - y0 i)))) in M; [lra|].
    rewrite <- !total_scale, <- total_opp. apply total_ext. intros i I.
    assert (E : mix ws cs i = - (k * g i)). { rewrite <- G by exact I. specialize (W4 i I). rlra. }
    rewrite E. field. lra.
Qed.

Lemma weighted_scale n s w v : weighted_sum n (map (Rmult s) w) v = s * weighted_sum n w v.
Proof. revert v. induction w as [|a w IH]; intros [|b v]; cbn [map weighted_sum]; try ring. rewrite IH. ring. Qed.

(** ** Transformations of constrained problems *)

Section Suite.
Variable n : nat.
Hypothesis N : (2 <= n)%nat.
Variable xo : list R.
Hypothesis X : length xo = n.
Hypothesis X4 : within 4 xo.

Definition fits (cs : list RC) (q : real_constrained) (Phi : point -> R) (psi : point -> point) : Prop :=
  computes n (objective _ q) Phi /\
  forall z, constraints _ q (vec n z) = map (fun c => single_evaluate RA n c (vec n (psi z))) cs.

Definition valued (q : real_constrained) (b : list R) : Prop :=
  best_parameter _ (objective _ q) = b /\ best_value _ (objective _ q) = evaluate _ (objective _ q) b.

Lemma fits_stack p F cs d : computes n p F -> fits cs (stack RA n p cs d) F (fun z => z) /\ valued (stack RA n p cs d) (zeros RA n).
Proof.
  intros (A & B & C). split; [split|].
  - split; [reflexivity|]. split; [split; reflexivity|]. exact C.
  - intros z. reflexivity.
  - split; reflexivity.
Qed.

Lemma fits_osz cs q Phi psi : fits cs q Phi psi -> fits cs (c_oscillate RA q) (fun z => Phi (Tosz z)) (fun z => psi (Tosz z)).
Proof.
  intros (C & H). split; [apply computes_osz; exact C|]. intros z. unfold c_oscillate. cbn [constraints]. rewrite (proj1 C).
  rewrite <- H. f_equal. apply vec_ext. intros i I. rewrite vec_at by exact I. rewrite !lt_dec, zero0. unfold Tosz. rewrite osz_eq.
  destruct (Rlt_dec 0 (z i)); [reflexivity|]. destruct (Rlt_dec (z i) 0); [reflexivity|]. cbn [orb].
  unfold osz, FunDocSpec.sign. destruct (Rlt_dec 0 (z i)); [lra|]. destruct (Rlt_dec (z i) 0); [lra|]. lra.
Qed.
Lemma valued_osz q : dimension _ (objective _ q) = n -> valued q (zeros RA n) -> valued (c_oscillate RA q) (zeros RA n).
Proof.
  intros D (A & B). split; [exact A|]. unfold c_oscillate. cbn [objective]. unfold vars_oscillate. rewrite evaluate_with.
  change (best_value RA (with_evaluate RA (objective RA q) _)) with (best_value RA (objective RA q)). rewrite B. f_equal.
  rewrite D. rewrite (zeros_vec n). apply vec_ext. intros i I. rewrite vec_at by exact I. unfold zero_point.
  rewrite !lt_dec, zero0. destruct (Rlt_dec 0 0); [lra|]. reflexivity.
Qed.

Lemma fits_asy cs q Phi psi b : fits cs q Phi psi -> fits cs (c_asymmetric RA q b) (fun z => Phi (Tasy n b z)) (fun z => psi (Tasy n b z)).
Proof.
  intros (C & H). split; [apply (computes_asy n N); exact C|]. intros z. unfold c_asymmetric. cbn [constraints]. rewrite (proj1 C).
  rewrite <- H. f_equal. apply vec_ext. intros i I. rewrite vec_at by exact I. rewrite lt_dec, zero0. unfold Tasy, share. destruct (Rlt_dec 0 (z i)) as [P|P]; [|reflexivity].
  lits. rewrite pow_pos by exact P. f_equal. rewrite <- (INR_n1 n N). pose proof (INR_n1_pos n N) as Q. rewrite <- (INR_n1 n N) in Q. field. lra.
Qed.
Lemma valued_asy q b : dimension _ (objective _ q) = n -> valued q (zeros RA n) -> valued (c_asymmetric RA q b) (zeros RA n).
Proof.
  intros D (A & B). split; [exact A|]. unfold c_asymmetric. cbn [objective]. unfold vars_asymmetric. rewrite evaluate_with.
  change (best_value RA (with_evaluate RA (objective RA q) _)) with (best_value RA (objective RA q)). rewrite B. f_equal.
  rewrite D. rewrite (zeros_vec n). apply vec_ext. intros i I. rewrite vec_at by exact I. unfold zero_point.
  rewrite lt_dec, zero0. destruct (Rlt_dec 0 0); [lra|]. reflexivity.
Qed.

Lemma fits_inverse cs q Phi psi fuel inv : fits cs q Phi psi -> fits cs (c_inverse RA fuel q inv xo) Phi psi.
Proof. exact (fun H => H). Qed.

Lemma zeros_plus (q : real_constrained) : dimension _ (objective _ q) = n -> best_parameter _ (objective _ q) = zeros RA n ->
  vec (dimension _ (objective _ q)) (fun i => add RA (best_parameter _ (objective _ q)).[i] (at_ RA xo i)) = xo.
Proof.
  intros D A. rewrite D, A. etransitivity; [|apply (list_vec xo n X)]. apply vec_ext. intros i I. rewrite zeros_at. apply Rplus_0_l.
Qed.

Lemma fits_shift cs q Phi psi : fits cs q Phi psi ->
  fits cs (c_shift RA q xo false) (fun z => Phi (minus z (coord xo))) (fun z => psi (minus z (coord xo))).
Proof.
  intros (C & H). split; [apply computes_shift; [exact C|reflexivity]|]. intros z. unfold c_shift. cbn [constraints]. rewrite (proj1 C).
  rewrite <- H. f_equal. apply vec_ext. intros i I. rewrite vec_at by exact I. rewrite coord_at. reflexivity.
Qed.
Lemma valued_shift q : dimension _ (objective _ q) = n -> valued q (zeros RA n) -> valued (c_shift RA q xo false) xo.
Proof.
  intros D (A & B). split.
  - unfold c_shift. cbv zeta. cbn [objective]. unfold vars_shift. cbn [with_best_parameter best_parameter]. apply zeros_plus; assumption.
  - unfold c_shift. cbv zeta. cbn [objective]. unfold vars_shift. cbn [with_best_parameter best_value evaluate with_evaluate]. rewrite no_nan, B. f_equal.
    rewrite D, (zeros_vec n). apply vec_ext. intros i I. unfold zero_point. lits. reals. rewrite coord_at. ring.
Qed.

Lemma fits_shift_only cs q Phi psi : fits cs q Phi psi ->
  fits cs (c_shift RA q xo true) Phi (fun z => psi (minus z (coord xo))).
Proof.
  intros (C & H). split; [apply computes_best; exact C|]. intros z. unfold c_shift. cbn [constraints]. rewrite (proj1 C).
  rewrite <- H. f_equal. apply vec_ext. intros i I. rewrite vec_at by exact I. rewrite coord_at. reflexivity.
Qed.

Lemma fits_scale cs q Phi psi (c : R) : fits cs q Phi psi -> fits cs (c_scale RA q c) (fun z => Phi z * c) psi.
Proof. intros (C & H). split; [|exact H]. apply computes_value. apply (computes_obj n _ Phi (fun y => y * c)). exact C. Qed.
Lemma valued_scale q (c : R) b : valued q b -> valued (c_scale RA q c) b.
Proof.
  intros (A & B). split; [exact A|]. unfold c_scale. cbn [objective with_best_value best_value evaluate with_evaluate]. rewrite no_nan, B. reflexivity.
Qed.

(** ** The result for one problem *)

Record solved (m inactive : nat) (q : real_constrained) : Prop := {
  s_dimension : dimension _ (objective _ q) = n;
  s_best : best_parameter _ (objective _ q) = xo;
  s_value : best_value _ (objective _ q) = evaluate _ (objective _ q) xo;
  s_number : forall x, length x = n -> length (constraints _ q x) = (m + inactive)%nat;
  s_active : zeros_in (constraints _ q xo) = m;
  s_inactive : negatives_in (constraints _ q xo) = inactive;
  s_saddle : exists w, multipliers w (constraints _ q xo) /\
    forall x, length x = n -> best_value _ (objective _ q) <= evaluate _ (objective _ q) x + weighted_sum n w (constraints _ q x);
  s_near : exists delta, 0 < delta /\ forall x, length x = n -> (forall i, (i < n)%nat -> Rabs (coord x i - coord xo i) <= delta) ->
    feasible (constraints _ q x) }.

(** Maps that bring points near the optimum near the origin. *)
Definition near (psi : point -> point) : Prop := forall e, 0 < e -> exists delta, 0 < delta /\
  forall z, (forall i, (i < n)%nat -> Rabs (z i - coord xo i) <= delta) -> forall i, (i < n)%nat -> Rabs (psi z i) <= e.

(** Around the origin a constraint is satisfied. *)
Lemma slack_one c : wf n c -> exists e, 0 < e /\ forall y, (forall i, (i < n)%nat -> Rabs (y i) <= e) -> single_evaluate RA n c (vec n y) <= 0.
Proof.
  intros (P & Q & S). pose proof band_pos as BP.
  assert (GB : forall i, (i < n)%nat -> Rabs (at_ RA (cgradient _ c) i) <= cnorm _ c).
  { intros i I. apply Rsqr_incr_0; [|apply Rabs_pos|apply Rlt_le, P]. rewrite <- Rsqr_abs. unfold Rsqr. rewrite Q. unfold sq.
    apply (total_term n (fun i => at_ RA (cgradient _ c) i * at_ RA (cgradient _ c) i)); [exact I|]. intros j J. apply sq_pos. }
  assert (TB : forall e, 0 < e -> forall y, (forall i, (i < n)%nat -> Rabs (y i) <= e) -> forall i, (i < n)%nat ->
    at_ RA (cgradient _ c) i * y i <= cnorm _ c * e).
  { intros e E y Y i I. eapply Rle_trans; [apply Rle_abs|]. rewrite Rabs_mult. apply Rmult_le_compat; try apply Rabs_pos; [apply GB, I|apply Y, I]. }
  destruct (Req_EM_T (cshift _ c) 0) as [Z|Z].
  - exists (band / cnorm _ c). assert (E : 0 < band / cnorm _ c) by (apply Rmult_lt_0_compat; [exact BP|apply Rinv_0_lt_compat, P]).
    split; [exact E|]. intros y Y. rewrite single_parts. rewrite <- (Rmult_0_r (INR n)), <- total_const. apply total_le. intros i I. apply part_small.
    unfold term. rewrite vec_at by exact I. rewrite Z. pose proof (TB _ E y Y i I) as T.
    replace (cnorm _ c * (band / cnorm _ c)) with band in T by (field; apply Rgt_not_eq, P).
    eapply Rle_trans; [right|exact T]. reals. unfold Rdiv. ring.
  - assert (SP : 0 < cshift _ c) by (destruct S as [S|S]; [exact S|symmetry in S; contradiction]).
    assert (NP : 0 < INR n) by (apply lt_0_INR; lia).
    exists (cshift _ c / INR n). assert (E : 0 < cshift _ c / INR n) by (apply Rmult_lt_0_compat; [exact SP|apply Rinv_0_lt_compat, NP]).
    split; [exact E|]. intros y Y. eapply Rle_trans; [apply single_upper|]. unfold linear. rewrite <- Q.
    assert (prod n (cgradient _ c) (vec n y) <= INR n * (cnorm _ c * (cshift _ c / INR n))).
    { unfold prod. rewrite <- total_const. apply total_le. intros i I. rewrite vec_at by exact I. apply (TB _ E y Y i I). }
    replace (INR n * (cnorm _ c * (cshift _ c / INR n))) with (cnorm _ c * cshift _ c) in H by (field; lra).
    replace (cshift _ c / cnorm _ c * (cnorm _ c * cnorm _ c)) with (cnorm _ c * cshift _ c) by (field; apply Rgt_not_eq, P). lra.
Qed.

Lemma slack cs : Forall (wf n) cs -> exists e, 0 < e /\ forall y, (forall i, (i < n)%nat -> Rabs (y i) <= e) ->
  feasible (map (fun c => single_evaluate RA n c (vec n y)) cs).
Proof.
  intros H. induction H as [|c cs W H (e & E & IH)].
  - exists 1. split; [lra|]. intros. constructor.
  - destruct (slack_one c W) as (e' & E' & K). exists (Rmin e e'). split; [apply Rmin_pos; assumption|].
    intros y Y. constructor; [apply K|apply IH]; intros i I; eapply Rle_trans; try apply (Y i I); [apply Rmin_r|apply Rmin_l].
Qed.

Lemma coord_vec (x : list R) : length x = n -> vec n (coord x) = x.
Proof. intros L. rewrite <- (list_vec x n L) at 2. apply vec_ext. intros i I. symmetry. apply coord_at. Qed.

(** [phi]: the argument of F, y0 its value at the optimum; [psi] the argument of the constraints. *)
Lemma solve s function instance m d left0 cs q F g y0 k (phi psi : point -> point) (c : R) :
  built s function n instance m d left0 cs -> supports n F g y0 -> 0 < k -> (forall i, (i < n)%nat -> d.[i] = k * g i) -> 0 < c ->
  fits cs q (fun z => F (phi z) * c) psi -> valued q xo ->
  (forall z i, (i < n)%nat -> psi z i = phi z i - y0 i) ->
  F (phi (coord xo)) = F y0 -> (forall i, (i < n)%nat -> psi (coord xo) i = 0) -> near psi ->
  solved m left0 q.
Proof.
  intros B S K G C (C1 & C2) (V1 & V2) E O O2 NE.
  assert (W : Forall (wf n) cs) by (apply Forall_impl with (2 := b_good _ _ _ _ _ _ _ _ B); intros a Ha; apply Ha).
  assert (AT : constraints _ q xo = map (fun c => single_evaluate RA n c (origin n)) cs).
  { rewrite <- (coord_vec xo X) at 1. rewrite C2. apply map_ext. intros a. f_equal. unfold origin. rewrite <- (vec_repeat 0 n). apply vec_ext. exact O2. }
  destruct (values_count n cs W) as [Q1 Q2]. rewrite (b_count _ _ _ _ _ _ _ _ B) in *. rewrite (b_length _ _ _ _ _ _ _ _ B) in Q2.
  constructor.
  - exact (proj1 C1).
  - exact V1.
  - exact V2.
  - intros x L. rewrite <- (coord_vec x L), C2, map_length. exact (b_length _ _ _ _ _ _ _ _ B).
  - rewrite AT. exact Q1.
  - rewrite AT. lia.
  - destruct (saddle s function n instance m d left0 F g y0 k cs S K G B) as (w & W1 & W2 & W3 & W4).
    exists (map (Rmult c) w). split.
    + rewrite AT. split; [rewrite !map_length; exact W1|]. split.
      { rewrite Forall_map. apply Forall_impl with (2 := W2). intros a A. apply Rmult_le_pos; lra. }
      intros j J L. rewrite map_length in J. unfold coord in *.
      destruct (nth_error w j) as [a|] eqn:Ea; [|apply nth_error_None in Ea; lia].
      destruct (nth_error cs j) as [cc|] eqn:Ec; [|apply nth_error_None in Ec; lia].
      rewrite (nth_error_nth _ _ 0 (map_nth_error (Rmult c) j w Ea)).
      rewrite (nth_error_nth _ _ 0 (map_nth_error (fun c => single_evaluate RA n c (origin n)) j cs Ec)) in L.
      rewrite (W3 j cc a Ec Ea); [ring|]. intros Z. rewrite at_origin_active in L; [lra| |exact Z].
      apply (proj1 (Forall_forall _ _) W). apply nth_error_In with j. exact Ec.
    + intros x L. rewrite V2, !(computes_list n _ _ _ C1) by assumption. rewrite O.
      rewrite weighted_scale. specialize (W4 (phi (coord x))).
      replace (constraints RA q x) with (map (fun c0 : RC => single_evaluate RA n c0 (vec n (fun i : nat => phi (coord x) i - y0 i))) cs); [nra|].
      transitivity (constraints RA q (vec n (coord x))); [|rewrite coord_vec by exact L; reflexivity]. rewrite C2. apply map_ext. intros a. f_equal. apply vec_ext. intros i I. symmetry. apply E, I.
  - destruct (slack cs W) as (e & E0 & SL). destruct (NE e E0) as (delta & D0 & D). exists delta. split; [exact D0|].
    intros x L Y. rewrite <- (coord_vec x L), C2. apply SL. apply D. exact Y.
Qed.

Lemma near_minus : near (fun z => minus z (coord xo)).
Proof. intros e E. exists e. split; [exact E|]. intros z Z i I. apply Z, I. Qed.

Lemma osz_bound x : Rabs (osz x) <= 2 * Rabs x.
Proof.
  destruct (Req_dec x 0) as [->|NZ].
  { unfold osz, FunDocSpec.sign. destruct (Rlt_dec 0 0); [lra|]. cbv zeta. rewrite Rmult_0_l, Rabs_R0. lra. }
  assert (P : 0 < Rabs x) by (apply Rabs_pos_lt, NZ).
  unfold osz. cbv zeta. rewrite Rabs_mult, (Rabs_right (Rtrigo_def.exp _)) by (apply Rle_ge, Rlt_le, exp_pos).
  replace (Rabs (FunDocSpec.sign x)) with 1.
  2:{ unfold FunDocSpec.sign. destruct (Rlt_dec 0 x); [rewrite Rabs_R1; reflexivity|]. destruct (Rlt_dec x 0); [|lra]. rewrite Rabs_left; lra. }
  rewrite Rmult_1_l. rewrite exp_plus, (exp_ln (Rabs x) P).
  set (a := Rtrigo_def.sin _). set (b := Rtrigo_def.sin _).
  assert (-1 <= a <= 1) by apply SIN_bound. assert (-1 <= b <= 1) by apply SIN_bound.
  assert (Rtrigo_def.exp (0.049 * (a + b)) <= 2); [|nra].
  pose proof (exp_ge (- (0.049 * (a + b)))) as G. rewrite exp_Ropp in G. pose proof (exp_pos (0.049 * (a + b))) as EP.
  set (t := Rtrigo_def.exp _) in *. assert (t * / t = 1) by (apply Rinv_r; lra). nra.
Qed.

Lemma near_osz (psi : point -> point) : near psi -> near (fun z => Tosz (psi z)).
Proof.
  intros H e E. destruct (H (e / 2) ltac:(lra)) as (delta & D0 & D). exists delta. split; [exact D0|]. intros z Z i I.
  specialize (D z Z i I). unfold Tosz. pose proof (osz_bound (psi z i)). lra.
Qed.

Lemma near_asy b (psi : point -> point) : 0 <= b -> near psi -> near (fun z => Tasy n b (psi z)).
Proof.
  intros B H e E. destruct (H (Rmin e 1)) as (delta & D0 & D); [apply Rmin_pos; lra|]. exists delta. split; [exact D0|]. intros z Z i I.
  specialize (D z Z i I). pose proof (Rmin_l e 1). pose proof (Rmin_r e 1). unfold Tasy. destruct (Rlt_dec 0 (psi z i)) as [P|P]; [|lra].
  rewrite Rabs_right in D by lra. rewrite Rabs_right by (apply Rle_ge, Rlt_le, exp_pos).
  apply Rle_trans with (psi z i); [|lra]. rewrite <- (Rpower_1 (psi z i)) at 3 by exact P. unfold Rpower.
  assert (L : ln (psi z i) <= 0). { rewrite <- ln_1. destruct (Req_dec (psi z i) 1) as [->|NE]; [lra|]. left. apply ln_increasing; lra. }
  assert (0 <= b * share n i * R_sqrt.sqrt (psi z i)).
  { apply Rmult_le_pos; [apply Rmult_le_pos; [exact B|apply share_nonneg; exact N]|apply sqrt_pos]. }
  assert (Q : (1 + b * share n i * R_sqrt.sqrt (psi z i)) * ln (psi z i) <= 1 * ln (psi z i)) by nra.
  destruct Q as [Q|Q]; [left; apply exp_increasing; exact Q|right; rewrite Q; reflexivity].
Qed.

(** The beginning of the constructors *)
Lemma start_sound v s function instance (nice : Prop) p y0 (q : real_inputs) :
  location _ q = xo -> stream _ q = s -> fair s -> 0 <= length_draw _ q <= 1 -> shaped n p y0 ->
  (1 <= nb_of_linear_constraints function n)%nat ->
  (nice -> regular s function n instance (nb_of_linear_constraints function n)) ->
  (nice -> (1 < nb_of_linear_constraints function n)%nat -> v <> NoDisguise ->
     forall d, set_length RA (gradient _ p (zeros RA n)) xo n (length_draw _ q) = Ok d -> clear s function n instance (nb_of_linear_constraints function n) d) ->
  sound nice (start RA v function n instance p q) (fun r => exists F g k d cs,
    computes n (function_of _ p) F /\ supports n F g y0 /\ 0 < k /\ (forall i, (i < n)%nat -> d.[i] = k * g i) /\
    (forall i, (i < n)%nat -> -5 <= d.[i] + coord xo i <= 5) /\
    built s function n instance (nb_of_linear_constraints function n) d (inactive_number v (nb_of_linear_constraints function n)) cs /\
    r = stack RA n (function_of _ p) cs d).
Proof.
  intros Lo St Fa Ld (F & g & C & G & S & Z) M NR NC. unfold start. rewrite Lo, St.
  destruct (set_length_ok n (gradient _ p (zeros RA n)) xo (length_draw _ q) X X4 Ld) as (d & k & E & K & D).
  { destruct Z as (i & I & H). exists i. split; [exact I|]. rewrite <- coord_at, G by exact I. exact H. }
  rewrite E. cbn [bind]. eapply sound_bind.
  - apply (allocate_sound v s function n instance _ d nice Fa M).
    + destruct Z as (i & I & H). exists i. split; [exact I|]. destruct (D i I) as [-> _]. rewrite <- coord_at, G by exact I.
      apply Rmult_integral_contrapositive_currified; [lra|exact H].
    + exact NR.
    + intros Y1 Y2 Y3. apply (NC Y1 Y2 Y3). exact E.
  - intros cs B. cbn [sound]. exists F, g, k, d, cs. split; [exact C|]. split; [exact S|]. split; [exact K|]. split.
    + intros i I. destruct (D i I) as [-> _]. rewrite <- coord_at, G by exact I. reflexivity.
    + split; [intros i I; apply D, I|]. split; [exact B|reflexivity].
Qed.

(** ** The initial solution *)

Lemma half_pow j : FunModel.pow RA (lit RA 5 1) (of_nat RA j) = (1/2) ^ j.
Proof. lits. rewrite pow_pos by lra. rewrite Rpower_pow by lra. f_equal. lra. Qed.

Lemma search_some fuel j inv (d sol : list R) : search RA fuel n j inv xo d = Some sol ->
  exists t, 0 <= t <= 1 /\ sol = vec n (fun i => inv i (d.[i] * t)) /\ forall i, (i < n)%nat -> -5 < sol.[i] + coord xo i < 5.
Proof.
  revert j. induction fuel as [|fuel IH]; intros j; cbn [search]; [discriminate|]. cbv zeta.
  set (v := vec n _). destruct (forallb _ (seq 0 n)) eqn:E.
  - intros H. assert (sol = v) by congruence. subst sol. exists ((1/2) ^ j). split.
    + split; [apply pow_le; lra|]. apply Rle_trans with (1 ^ j); [apply pow_incr; lra|rewrite pow1; lra].
    + split; [unfold v; rewrite half_pow; reflexivity|]. intros i I. rewrite forallb_forall in E.
      specialize (E i). rewrite andb_true_iff, !lt_true in E. rewrite <- coord_at. lits.
      assert (Q : -5 / 1 < v.[i] + xo.[i] /\ v.[i] + xo.[i] < 5 / 1) by (apply E, in_seq; lia). lra.
  - intros H. exact (IH (S j) H).
Qed.

Lemma search_ends fuel j j0 inv (d : list R) : (j <= j0)%nat -> (j0 - j < fuel)%nat ->
  (forall i, (i < n)%nat -> -5 < inv i (d.[i] * (1/2) ^ j0) + coord xo i < 5) ->
  search RA fuel n j inv xo d <> None.
Proof.
  revert j. induction fuel as [|fuel IH]; intros j J Fu H; [lia|]. cbn [search]. cbv zeta.
  set (v := vec n _). destruct (forallb _ (seq 0 n)) eqn:E; [discriminate|].
  destruct (Nat.eq_dec j j0) as [->|D]; [|apply IH; try lia; exact H].
  exfalso. assert (T : forallb (fun i => FunModel.lt RA (lit RA (-5) 0) (add RA v.[i] (at_ RA xo i)) && FunModel.lt RA (add RA v.[i] (at_ RA xo i)) (lit RA 5 0)) (seq 0 n) = true).
  { apply forallb_forall. intros i I. apply in_seq in I. rewrite andb_true_iff, !lt_true. specialize (H i ltac:(lia)).
    unfold v. rewrite vec_at by lia. rewrite half_pow, (coord_at xo). lits. lra. }
  congruence.
Qed.

Lemma xo_at i : (i < n)%nat -> -4 <= coord xo i <= 4.
Proof. intros I. unfold coord. pose proof X4 as W. unfold within in W. rewrite Forall_forall in W. apply W, nth_In. lia. Qed.

(** Preimages of small numbers are small. *)
Lemma osz_small x : Rabs (osz x) <= 0.81 -> Rabs x < 1.
Proof.
  intros H. destruct (Req_dec x 0) as [->|NZ]; [rewrite Rabs_R0; lra|].
  assert (P : 0 < Rabs x) by (apply Rabs_pos_lt, NZ).
  assert (B : Rabs x * Rtrigo_def.exp (- (98/1000)) <= Rabs (osz x)).
  { unfold osz. cbv zeta. rewrite Rabs_mult, (Rabs_right (Rtrigo_def.exp _)) by (apply Rle_ge, Rlt_le, exp_pos).
    replace (Rabs (FunDocSpec.sign x)) with 1.
    2:{ unfold FunDocSpec.sign. destruct (Rlt_dec 0 x); [rewrite Rabs_R1; reflexivity|]. destruct (Rlt_dec x 0); [|lra]. rewrite Rabs_left; lra. }
    rewrite Rmult_1_l. rewrite <- (exp_ln (Rabs x) P) at 1. rewrite <- exp_plus.
    set (a := Rtrigo_def.sin _). set (b := Rtrigo_def.sin _).
    assert (-1 <= a <= 1) by apply SIN_bound. assert (-1 <= b <= 1) by apply SIN_bound.
    assert (L : ln (Rabs x) + - (98/1000) <= ln (Rabs x) + 0.049 * (a + b)) by lra.
    destruct L as [L|L]; [left; apply exp_increasing; exact L|right; rewrite L; reflexivity]. }
  pose proof (exp_ge (- (98/1000))) as E. nra.
Qed.

Lemma Rpower_small x e : 0 < x < 1 -> e <= 2 -> x ^ 2 <= Rpower x e.
Proof.
  intros Hx He. replace (x ^ 2) with (Rpower x 2).
  - unfold Rpower. assert (L : ln x < 0) by (rewrite <- ln_1; apply ln_increasing; lra).
    assert (Q : 2 * ln x <= e * ln x) by nra. destruct Q as [Q|Q]; [left; apply exp_increasing; exact Q|right; rewrite Q; reflexivity].
  - replace 2 with (INR 2) at 1 by (cbn; lra). apply Rpower_pow. lra.
Qed.
Lemma Rpower_large x e : 1 <= x -> 0 <= e -> 1 <= Rpower x e.
Proof.
  intros Hx He. unfold Rpower. rewrite <- exp_0. assert (0 <= ln x). { rewrite <- ln_1. destruct Hx as [Hx|<-]; [left; apply ln_increasing; lra|right; reflexivity]. }
  assert (Q : 0 <= e * ln x) by nra. destruct Q as [Q|Q]; [left; apply exp_increasing; exact Q|right; rewrite <- Q; reflexivity].
Qed.

Lemma share_le i : (i < n)%nat -> 0 <= share n i <= 1.
Proof.
  intros I. split; [apply (share_nonneg n N)|]. unfold share. pose proof (INR_n1_pos n N). apply Rmult_le_reg_r with (INR (n - 1)); [lra|].
  unfold Rdiv. rewrite Rmult_assoc, Rinv_l by lra. rewrite Rmult_1_r, Rmult_1_l. apply le_INR. lia.
Qed.

Lemma asy_small (x : R) i : (i < n)%nat -> Rabs (Tasy n 0.2 (fun _ => x) i) <= 0.5625 -> Rabs x <= 0.81.
Proof.
  intros I. unfold Tasy. pose proof (share_le i I) as S. destruct (Rlt_dec 0 x) as [P|P]; [|lra].
  assert (SX : 0 <= R_sqrt.sqrt x) by apply sqrt_pos.
  rewrite (Rabs_right (Rpower _ _)) by (apply Rle_ge, Rlt_le, Rpower_gt0). rewrite (Rabs_right x) by lra. intros H.
  destruct (Rle_lt_dec 1 x) as [L|L].
  - exfalso. pose proof (Rpower_large x (1 + 0.2 * share n i * R_sqrt.sqrt x) L) as Q. assert (0 <= 1 + 0.2 * share n i * R_sqrt.sqrt x) by nra.
    specialize (Q H0). lra.
  - assert (S1 : R_sqrt.sqrt x <= 1). { rewrite <- sqrt_1. apply sqrt_le_1; lra. }
    pose proof (Rpower_small x (1 + 0.2 * share n i * R_sqrt.sqrt x) ltac:(lra)) as Q. assert (E : 1 + 0.2 * share n i * R_sqrt.sqrt x <= 2) by nra.
    specialize (Q E). nra.
Qed.

Definition begins (fuel : nat) (q : real_constrained) : Prop :=
  (forall x, initial _ q = Some x -> length x = n /\ within 5 x /\ feasible (constraints _ q x)) /\
  ((5 <= fuel)%nat -> initial _ q <> None).

Lemma feasible_on_ray s function instance m d left0 cs q Phi psi x t : built s function n instance m d left0 cs -> fits cs q Phi psi ->
  length x = n -> 0 <= t <= 1 -> (forall i, (i < n)%nat -> psi (coord x) i = t * at_ RA d i) -> feasible (constraints _ q x).
Proof.
  intros B (_ & C) L T E. rewrite <- (coord_vec x L), C. unfold feasible. rewrite Forall_map.
  apply Forall_impl with (2 := b_good _ _ _ _ _ _ _ _ B). intros c (W & H).
  replace (vec n (psi (coord x))) with (vec n (fun i => t * at_ RA d i)) by (apply vec_ext; intros; symmetry; apply E; assumption).
  apply shrink; assumption.
Qed.

Lemma within_vec (f : nat -> R) : (forall i, (i < n)%nat -> -5 <= f i <= 5) -> within 5 (vec n f).
Proof.
  intros H. unfold within. apply Forall_forall. intros v V. apply In_nth with (d := 0) in V as (i & I & <-).
  rewrite vec_length in I. rewrite (vec_nth n f 0 i I). apply H, I.
Qed.

(** A problem whose constraints are shifted only. *)
Lemma begins_plain s function instance m d left0 cs q Phi psi fuel : built s function n instance m d left0 cs -> fits cs q Phi psi ->
  initial _ q = Some (vec n (fun i => add RA (at_ RA d i) (at_ RA xo i))) -> (forall i, (i < n)%nat -> -5 <= at_ RA d i + coord xo i <= 5) ->
  (forall z i, (i < n)%nat -> psi z i = z i - coord xo i) -> begins fuel q.
Proof.
  intros B Fi I0 D P. split; [|intros _; rewrite I0; discriminate]. intros x E. rewrite I0 in E. assert (x = vec n (fun i => add RA (at_ RA d i) (at_ RA xo i))) by congruence. subst x.
  split; [apply vec_length|]. split.
  - apply within_vec. intros i I. rewrite (coord_at xo). apply D, I.
  - eapply feasible_on_ray with (t := 1); [exact B|exact Fi|apply vec_length|lra|]. intros i I. rewrite P by exact I.
    rewrite <- coord_at, vec_at by exact I. rewrite <- (coord_at xo). lits. rring.
Qed.

(** A problem with a transformation T of the coordinates. *)
Lemma begins_search s function instance m d left0 cs q Phi psi fuel inv (T : nat -> R -> R) :
  built s function n instance m d left0 cs -> fits cs q Phi psi ->
  initial _ q = match search RA fuel n 0 inv xo d with Some z => Some (vec n (fun i => add RA z.[i] (at_ RA xo i))) | None => None end ->
  (forall i, (i < n)%nat -> -5 <= at_ RA d i + coord xo i <= 5) ->
  (forall z i, (i < n)%nat -> psi z i = T i (z i - coord xo i)) ->
  (forall i y, (i < n)%nat -> T i (inv i y) = y) ->
  (forall i y, (i < n)%nat -> Rabs y <= 0.5625 -> Rabs (inv i y) < 1) ->
  begins fuel q.
Proof.
  intros B Fi I0 D P TI SM. split.
  - intros x E. rewrite I0 in E. destruct (search RA fuel n 0 inv xo d) as [z|] eqn:Z; [|discriminate].
    assert (x = vec n (fun i => add RA z.[i] (at_ RA xo i))) by congruence. subst x.
    apply search_some in Z as (t & Ht & Ez & Bz).
    split; [apply vec_length|]. split.
    + apply within_vec. intros i I. rewrite (coord_at xo). specialize (Bz i I). lits. lra.
    + eapply feasible_on_ray with (t := t); [exact B|exact Fi|apply vec_length|exact Ht|]. intros i I. rewrite P by exact I.
      rewrite <- coord_at, vec_at by exact I. rewrite <- (coord_at xo). rewrite Ez, vec_at by exact I.
      transitivity (T i (inv i (at_ RA d i * t))); [f_equal; lits; rring|]. rewrite TI by exact I. rring.
  - intros Fu. rewrite I0. pose proof (search_ends fuel 0 4 inv d ltac:(lia) ltac:(lia)) as Q.
    destruct (search RA fuel n 0 inv xo d); [discriminate|]. exfalso. apply Q; [|reflexivity]. intros i I.
    pose proof (xo_at i I) as Xi. specialize (D i I).
    assert (A : Rabs (inv i (at_ RA d i * (1/2) ^ 4)) < 1).
    { apply SM; [exact I|]. rewrite Rabs_mult, (Rabs_right ((1/2)^4)) by lra.
      assert (Rabs (at_ RA d i) <= 9) by (apply Rabs_le; rlra). lra. }
    apply Rabs_def2 in A. lra.
Qed.

(** Where the initial solution comes from: [T] is the transformation of the coordinates, [inv] what is used as its inverse. *)
Definition traced (fuel : nat) (q : real_constrained) (T inv : nat -> R -> R) : Prop :=
  exists d : list R, (forall i, (i < n)%nat -> -9 <= at_ RA d i <= 9) /\
  (forall x, initial _ q = Some x -> length x = n /\ within 5 x /\
     exists t, 0 <= t <= 1 /\ forall i, (i < n)%nat -> coord x i = coord xo i + inv i (at_ RA d i * t)) /\
  (forall x t, length x = n -> 0 <= t <= 1 -> (forall i, (i < n)%nat -> T i (coord x i - coord xo i) = t * at_ RA d i) ->
     feasible (constraints _ q x)) /\
  ((9 <= fuel)%nat -> (forall i y, (i < n)%nat -> Rabs y <= 9 / 2 ^ 8 -> Rabs (inv i y) < 1) -> initial _ q <> None).

Lemma traced_plain s function instance m d left0 cs q Phi psi fuel : built s function n instance m d left0 cs -> fits cs q Phi psi ->
  initial _ q = Some (vec n (fun i => add RA (at_ RA d i) (at_ RA xo i))) -> (forall i, (i < n)%nat -> -5 <= at_ RA d i + coord xo i <= 5) ->
  (forall z i, (i < n)%nat -> psi z i = z i - coord xo i) -> traced fuel q (fun _ y => y) (fun _ y => y).
Proof.
  intros B Fi I0 D P. exists d. split; [|split; [|split]].
  - intros i I. pose proof (xo_at i I). specialize (D i I). lits. lra.
  - intros x E. rewrite I0 in E. assert (x = vec n (fun i => add RA (at_ RA d i) (at_ RA xo i))) by congruence. subst x.
    split; [apply vec_length|]. split; [apply within_vec; intros i I; rewrite (coord_at xo); apply D, I|].
    exists 1. split; [lra|]. intros i I. rewrite <- coord_at, vec_at by exact I. rewrite <- (coord_at xo). lits. rring.
  - intros x t L T E. eapply feasible_on_ray with (t := t); [exact B|exact Fi|exact L|exact T|]. intros i I. rewrite P by exact I. apply E, I.
  - intros _ _. rewrite I0. discriminate.
Qed.

Lemma traced_search s function instance m d left0 cs q Phi psi fuel inv (T : nat -> R -> R) :
  built s function n instance m d left0 cs -> fits cs q Phi psi ->
  initial _ q = match search RA fuel n 0 inv xo d with Some z => Some (vec n (fun i => add RA z.[i] (at_ RA xo i))) | None => None end ->
  (forall i, (i < n)%nat -> -5 <= at_ RA d i + coord xo i <= 5) ->
  (forall z i, (i < n)%nat -> psi z i = T i (z i - coord xo i)) ->
  traced fuel q T inv.
Proof.
  intros B Fi I0 D P. exists d. split; [|split; [|split]].
  - intros i I. pose proof (xo_at i I). specialize (D i I). lits. lra.
  - intros x E. rewrite I0 in E. destruct (search RA fuel n 0 inv xo d) as [z|] eqn:Z; [|discriminate].
    assert (x = vec n (fun i => add RA z.[i] (at_ RA xo i))) by congruence. subst x.
    apply search_some in Z as (t & Ht & Ez & Bz).
    split; [apply vec_length|]. split.
    + apply within_vec. intros i I. rewrite (coord_at xo). specialize (Bz i I). lits. lra.
    + exists t. split; [exact Ht|]. intros i I. rewrite <- coord_at, vec_at by exact I. rewrite <- (coord_at xo). rewrite Ez, vec_at by exact I. lits. rring.
  - intros x t L Ht E. eapply feasible_on_ray with (t := t); [exact B|exact Fi|exact L|exact Ht|]. intros i I. rewrite P by exact I. apply E, I.
  - intros Fu SM. rewrite I0. pose proof (search_ends fuel 0 8 inv d ltac:(lia) ltac:(lia)) as Q.
    destruct (search RA fuel n 0 inv xo d); [discriminate|]. exfalso. apply Q; [|reflexivity]. intros i I.
    pose proof (xo_at i I) as Xi. specialize (D i I).
    assert (A : Rabs (inv i (at_ RA d i * (1/2) ^ 8)) < 1).
    { apply SM; [exact I|]. rewrite Rabs_mult, (Rabs_right ((1/2)^8)) by lra.
      assert (Rabs (at_ RA d i) <= 9) by (apply Rabs_le; rlra). lra. }
    apply Rabs_def2 in A. lra.
Qed.

Definition traceable (fuel : nat) (q : real_inputs) (p : real_constrained) : Prop :=
  exists T inv, traced fuel p T inv /\
    (T = (fun _ y => y) /\ inv = (fun _ y => y) \/
     T = (fun _ => osz) /\ inv = (fun _ => inverse_osz _ q) \/
     T = (fun i y => Tasy n 0.2 (fun _ => y) i) /\ inv = inverse_asy _ q \/
     T = (fun i y => Tasy n 0.2 (fun _ => osz y) i) /\ inv = (fun i y => inverse_osz _ q (inverse_asy _ q i y))).

End Suite.

Lemma computes_points n p F y z : computes n p F -> (forall i, (i < n)%nat -> y i = z i) -> F y = F z.
Proof. intros (_ & _ & C) H. rewrite <- !C. f_equal. apply vec_ext. exact H. Qed.

Lemma nb_positive function n : (1 <= nb_of_linear_constraints function n)%nat.
Proof. unfold nb_of_linear_constraints. destruct (Nat.modulo (function - 1) 6) as [|[|[|[|[|k]]]]]; lia. Qed.

Lemma nb_documented function n : nb_of_linear_constraints function n = active_number function n.
Proof.
  unfold nb_of_linear_constraints, active_number. pose proof (Nat.mod_upper_bound (function - 1) 6 ltac:(lia)) as H.
  destruct (Nat.modulo (function - 1) 6) as [|[|[|[|[|[|k]]]]]]; try reflexivity; lia.
Qed.

Lemma Tosz_zero : osz 0 = 0.
Proof. unfold osz, FunDocSpec.sign. destruct (Rlt_dec 0 0); [lra|]. cbv zeta. ring. Qed.
Lemma Tasy_zero n b z i : z i = 0 -> Tasy n b z i = 0.
Proof. intros E. unfold Tasy. rewrite E. destruct (Rlt_dec 0 0); [lra|reflexivity]. Qed.

Lemma get_sound v fuel function n instance (q : real_inputs) : (2 <= n)%nat -> (1 <= function <= 54)%nat -> sensible function n q ->
  sound (usable v function n instance q)
    (get_cons_bbob_problem RA v fuel function n instance q)
    (fun p => solved n (location _ q) (active_number function n) (inactive_number v (active_number function n)) p /\
              (exact_inverses n q -> begins n fuel p) /\ traceable n (location _ q) fuel q p).
Proof.
  intros N Fu (L & W4 & Lo & Z & I & M & Ld & Fa).
  set (nice := usable _ _ _ _ _).
  assert (NR : nice -> regular (stream _ q) function n instance (nb_of_linear_constraints function n)).
  { intros H. rewrite nb_documented. apply H. }
  assert (NC : nice -> (1 < nb_of_linear_constraints function n)%nat -> v <> NoDisguise -> forall d, direction_of function n q = Ok d ->
    clear (stream _ q) function n instance (nb_of_linear_constraints function n) d).
  { rewrite nb_documented. intros (_ & [H|[H|H]]) A B; [contradiction|lia|exact H]. }
  rewrite <- nb_documented.
  set (xo := location RA q) in *. set (m := nb_of_linear_constraints function n).
  unfold get_cons_bbob_problem. cbv zeta. fold xo.
  assert (Ty : (1 <= obj_function_type function <= 9)%nat).
  { unfold obj_function_type. split; [apply Nat.div_le_lower_bound; lia|]. apply Nat.lt_succ_r, Nat.div_lt_upper_bound; lia. }
  assert (B2 : 0 <= lit RA 2 1) by (lits; lra).
  assert (ZD : forall i, minus (coord xo) (coord xo) i = 0) by (intros; unfold minus; lra).
  assert (Osm : exact_inverses n q -> forall y, Rabs y <= 0.81 -> Rabs (inverse_osz RA q y) < 1).
  { intros (E & _) y Y. apply osz_small. rewrite E. exact Y. }
  assert (Asm : exact_inverses n q -> forall i y, (i < n)%nat -> Rabs y <= 0.5625 -> Rabs (inverse_asy RA q i y) <= 0.81).
  { intros (_ & E) i y J Y. apply (asy_small n N xo L _ i J). rewrite (E y i J). exact Y. }
  assert (Start : forall p y0, p = objective_of function n (drawn _ q) -> shaped n p y0 -> sound nice (start RA v function n instance p q) (fun r => exists F g k d cs,
    computes n (function_of _ p) F /\ supports n F g y0 /\ 0 < k /\ (forall i, (i < n)%nat -> d.[i] = k * g i) /\
    (forall i, (i < n)%nat -> -5 <= d.[i] + coord xo i <= 5) /\
    built (stream _ q) function n instance m d (inactive_number v m) cs /\
    r = stack RA n (function_of _ p) cs d)).
  { intros p y0 Op Sh. apply (start_sound n xo L W4); try assumption; try reflexivity; [apply nb_positive|]. intros A B C d D. apply (NC A B C).
    unfold direction_of, origin. rewrite <- Op. rewrite zeros_repeat in D. exact D. }
  assert (T1 : forall p c (C0 : 0 < c), p = objective_of function n (drawn _ q) -> shaped n p zero_point -> sound nice
     (do r <- start RA v function n instance p q; Ok (c_scale RA (c_shift RA r xo false) c))
     (fun p => solved n xo m (inactive_number v m) p /\ (exact_inverses n q -> begins n fuel p) /\ traceable n xo fuel q p)).
  { intros p c C0 Op Sh. eapply sound_bind; [apply (Start p zero_point Op Sh)|]. intros r (F & g & k & d & cs & C & S & K & G & D & B & ->). cbn [sound].
    destruct (fits_stack n (function_of RA p) F cs d C) as [F1 V1].
    assert (F2 := fits_scale n cs _ _ _ c (fits_shift n xo cs _ _ _ F1)). cbv beta in F2. split.
    - eapply (solve n N xo L) with (phi := fun z => minus z (coord xo)); [exact B|exact S|exact K|exact G|exact C0|exact F2| | | | |].
      + apply valued_scale. apply (valued_shift n xo L); [reflexivity|exact V1].
      + intros z i J. unfold zero_point. lra.
      + apply (computes_points n (function_of RA p)); [exact C|]. intros i J. apply ZD.
      + intros i J. apply ZD.
      + apply near_minus.
    - split; [|eexists _, _; split; [eapply (traced_plain n N xo L W4); [exact B|exact F2|reflexivity|exact D|]; reflexivity|left; split; reflexivity]].
      intros Ex. eapply (begins_plain n xo); [exact B|exact F2|reflexivity|exact D|]. reflexivity. }
  assert (T2 : forall p c (C0 : 0 < c), p = objective_of function n (drawn _ q) -> shaped n p zero_point -> sound nice
     (do r <- start RA v function n instance p q; Ok (c_scale RA (c_shift RA (c_inverse RA fuel (c_oscillate RA r) (fun _ => inverse_osz RA q) xo) xo false) c))
     (fun p => solved n xo m (inactive_number v m) p /\ (exact_inverses n q -> begins n fuel p) /\ traceable n xo fuel q p)).
  { intros p c C0 Op Sh. eapply sound_bind; [apply (Start p zero_point Op Sh)|]. intros r (F & g & k & d & cs & C & S & K & G & D & B & ->). cbn [sound].
    destruct (fits_stack n (function_of RA p) F cs d C) as [F1 V1].
    assert (F2 := fits_scale n cs _ _ _ c (fits_shift n xo cs _ _ _ (fits_inverse n xo cs _ _ _ fuel (fun _ => inverse_osz RA q) (fits_osz n cs _ _ _ F1)))).
    cbv beta in F2. split.
    - eapply (solve n N xo L) with (phi := fun z => Tosz (minus z (coord xo))); [exact B|exact S|exact K|exact G|exact C0|exact F2| | | | |].
      + apply valued_scale. apply (valued_shift n xo L); [reflexivity|]. exact (valued_osz n (stack RA n (function_of RA p) cs d) eq_refl V1).
      + intros z i J. unfold zero_point. lra.
      + apply (computes_points n (function_of RA p)); [exact C|]. intros i J. unfold Tosz. rewrite ZD. apply Tosz_zero.
      + intros i J. unfold Tosz. rewrite ZD. apply Tosz_zero.
      + apply near_osz, near_minus.
    - split; [|eexists _, _; split; [eapply (traced_search n N xo L W4) with (T := fun _ => osz); [exact B|exact F2|reflexivity|exact D|reflexivity]|right; left; split; reflexivity]].
      intros Ex. eapply (begins_search n N xo L W4) with (T := fun _ => osz); [exact B|exact F2|reflexivity|exact D|reflexivity| |].
      + intros i y J. apply Ex.
      + intros i y J Y. apply Osm; [exact Ex|lra]. }
  assert (T3 : forall p c (C0 : 0 < c), p = objective_of function n (drawn _ q) -> shaped n p zero_point -> sound nice
     (do r <- start RA v function n instance p q; Ok (c_scale RA (c_shift RA (c_inverse RA fuel (c_asymmetric RA r (lit RA 2 1)) (inverse_asy RA q) xo) xo false) c))
     (fun p => solved n xo m (inactive_number v m) p /\ (exact_inverses n q -> begins n fuel p) /\ traceable n xo fuel q p)).
  { intros p c C0 Op Sh. eapply sound_bind; [apply (Start p zero_point Op Sh)|]. intros r (F & g & k & d & cs & C & S & K & G & D & B & ->). cbn [sound].
    destruct (fits_stack n (function_of RA p) F cs d C) as [F1 V1].
    assert (F2 := fits_scale n cs _ _ _ c (fits_shift n xo cs _ _ _ (fits_inverse n xo cs _ _ _ fuel (inverse_asy RA q) (fits_asy n N cs _ _ _ (lit RA 2 1) F1)))).
    cbv beta in F2. split.
    - eapply (solve n N xo L) with (phi := fun z => Tasy n (lit RA 2 1) (minus z (coord xo))); [exact B|exact S|exact K|exact G|exact C0|exact F2| | | | |].
      + apply valued_scale. apply (valued_shift n xo L); [reflexivity|]. exact (valued_asy n (stack RA n (function_of RA p) cs d) (lit RA 2 1) eq_refl V1).
      + intros z i J. unfold zero_point. lra.
      + apply (computes_points n (function_of RA p)); [exact C|]. intros i J. apply Tasy_zero, ZD.
      + intros i J. apply Tasy_zero, ZD.
      + apply (near_asy n N); [exact B2|apply near_minus].
    - split; [|eexists _, _; split; [eapply (traced_search n N xo L W4) with (T := fun i y => Tasy n 0.2 (fun _ => y) i); [exact B|exact F2|reflexivity|exact D|]|right; right; left; split; reflexivity];
        intros z i J; unfold Tasy, minus; replace (lit RA 2 1) with 0.2 by (lits; lra); reflexivity].
      intros Ex. eapply (begins_search n N xo L W4) with (T := fun i y => Tasy n 0.2 (fun _ => y) i); [exact B|exact F2|reflexivity|exact D| | |].
      + intros z i J. unfold Tasy, minus. replace (lit RA 2 1) with 0.2 by (lits; lra). reflexivity.
      + intros i y J. apply (proj2 Ex), J.
      + intros i y J Y. specialize (Asm Ex i y J Y). lra. }
  assert (T4 : forall p c (C0 : 0 < c), p = objective_of function n (drawn _ q) -> shaped n p zero_point -> sound nice
     (do r <- start RA v function n instance p q; Ok (c_scale RA (c_shift RA (c_inverse RA fuel (c_oscillate RA (c_asymmetric RA r (lit RA 2 1)))
         (fun i y => inverse_osz RA q (inverse_asy RA q i y)) xo) xo false) c))
     (fun p => solved n xo m (inactive_number v m) p /\ (exact_inverses n q -> begins n fuel p) /\ traceable n xo fuel q p)).
  { intros p c C0 Op Sh. eapply sound_bind; [apply (Start p zero_point Op Sh)|]. intros r (F & g & k & d & cs & C & S & K & G & D & B & ->). cbn [sound].
    destruct (fits_stack n (function_of RA p) F cs d C) as [F1 V1].
    assert (F2 := fits_scale n cs _ _ _ c (fits_shift n xo cs _ _ _ (fits_inverse n xo cs _ _ _ fuel (fun i y => inverse_osz RA q (inverse_asy RA q i y))
      (fits_osz n cs _ _ _ (fits_asy n N cs _ _ _ (lit RA 2 1) F1))))).
    cbv beta in F2. split.
    - eapply (solve n N xo L) with (phi := fun z => Tasy n (lit RA 2 1) (Tosz (minus z (coord xo)))); [exact B|exact S|exact K|exact G|exact C0|exact F2| | | | |].
      + apply valued_scale. apply (valued_shift n xo L); [reflexivity|].
        exact (valued_osz n (c_asymmetric RA (stack RA n (function_of RA p) cs d) (lit RA 2 1)) eq_refl (valued_asy n (stack RA n (function_of RA p) cs d) (lit RA 2 1) eq_refl V1)).
      + intros z i J. unfold zero_point. lra.
      + apply (computes_points n (function_of RA p)); [exact C|]. intros i J. apply Tasy_zero. unfold Tosz. rewrite ZD. apply Tosz_zero.
      + intros i J. apply Tasy_zero. unfold Tosz. rewrite ZD. apply Tosz_zero.
      + apply (near_asy n N); [exact B2|apply near_osz, near_minus].
    - split; [|eexists _, _; split; [eapply (traced_search n N xo L W4) with (T := fun i y => Tasy n 0.2 (fun _ => osz y) i); [exact B|exact F2|reflexivity|exact D|]|right; right; right; split; reflexivity];
        intros z i J; unfold Tasy, Tosz, minus; replace (lit RA 2 1) with 0.2 by (lits; lra); reflexivity].
      intros Ex. eapply (begins_search n N xo L W4) with (T := fun i y => Tasy n 0.2 (fun _ => osz y) i); [exact B|exact F2|reflexivity|exact D| | |].
      + intros z i J. unfold Tasy, Tosz, minus. replace (lit RA 2 1) with 0.2 by (lits; lra). reflexivity.
      + intros i y J. cbv beta. rewrite (proj1 Ex). apply (proj2 Ex), J.
      + intros i y J Y. cbv beta. apply (Osm Ex). apply (Asm Ex i y J Y). }
  assert (C10 : 0 < lit RA 10 0) by (lits; lra). assert (C100 : 0 < lit RA 100 0) by (lits; lra). assert (C4 : 0 < lit RA 1 4) by (lits; lra).
  assert (MM : (8 <= obj_function_type function)%nat -> multimodal function).
  { unfold obj_function_type, multimodal. intros H. split; [|lia].
    assert (~ (function + 5 < 6 * 8)%nat); [|lia]. intros Q. apply Nat.div_lt_upper_bound in Q; lia. }
  assert (Od : obj_function_type function = S (Nat.div (function - 1) 6)).
  { unfold obj_function_type. replace (function + 5)%nat with (function - 1 + 1 * 6)%nat by lia. rewrite Nat.div_add by lia. lia. }
  unfold objective_of in T1, T2, T3, T4, Start. revert T1 T2 T3 T4 Start. rewrite Od in Ty, MM |- *.
  destruct (Nat.div (function - 1) 6) as [|[|[|[|[|[|[|[|[|t]]]]]]]]]; try lia; cbn [nth]; intros T1 T2 T3 T4 Start.
  - apply T1; [exact C10|reflexivity|]. apply (squares_shaped n _ (fun _ => 1)); [apply (sphere_d n N)|intros; lra|exact Z].
  - apply T2; [exact C4|reflexivity|]. apply (squares_shaped n _ (ellipsoid_weights n)); [apply (ellipsoid_d n N)|apply ellipsoid_pos|exact Z].
  - eapply sound_bind; [apply (Start _ (coord xo) eq_refl), (slope_shaped n _ xo N L W4)|].
    intros r (F & g & k & d & cs & C & S & K & G & D & B & ->). cbn [sound].
    destruct (fits_stack n (function_of RA (linear_slope_cons RA n (drawn RA q))) F cs d C) as [F1 V1].
    assert (F2 := fits_shift_only n xo cs _ _ _ F1). cbv beta in F2.
    set (r := c_shift RA _ xo true) in *.
    set (r' := Build_constrained RA _ _ _).
    assert (F3 : fits n cs r' F (fun z => minus z (coord xo))).
    { destruct F2 as (A & H). split; [apply computes_value; exact A|exact H]. }
    assert (F4 := fits_scale n cs _ _ _ (lit RA 10 0) F3). cbv beta in F4.
    assert (BP : best_parameter RA (objective RA r) = xo).
    { unfold r, c_shift. cbv zeta. cbn [objective with_best_parameter best_parameter]. apply (zeros_plus n xo L); reflexivity. }
    split.
    + eapply (solve n N xo L) with (phi := fun z => z); [exact B|exact S|exact K|exact G|exact C10|exact F4| | | | |].
      * apply valued_scale. split; [exact BP|]. unfold r'. cbn [objective with_best_value best_value evaluate]. rewrite BP. reflexivity.
      * intros z i J. reflexivity.
      * reflexivity.
      * intros i J. apply ZD.
      * apply near_minus.
    + split; [|eexists _, _; split; [eapply (traced_plain n N xo L W4); [exact B|exact F4|reflexivity|exact D|reflexivity]|left; split; reflexivity]].
      intros Ex. eapply (begins_plain n xo); [exact B|exact F4|reflexivity|exact D|reflexivity].
  - apply T2; [exact C4|reflexivity|]. apply (rotated_shaped n _ (ellipsoid_weights n)); [apply (ellipsoid_d n N)|apply ellipsoid_pos|exact Z|exact M].
  - apply T2; [exact C4|reflexivity|]. apply (rotated_shaped n _ discus_weights); [apply (discus_d n N)|apply discus_pos|exact Z|exact M].
  - apply T3; [exact C4|reflexivity|]. apply (rotated_shaped' n _ cigar_weights); [apply (cigar_d n N)|apply cigar_pos|exact Z|exact M].
  - apply T1; [exact C100|reflexivity|]. apply (powers_shaped n N); [exact Z|exact M].
  - apply T4; [exact C10|reflexivity|]. apply (rastrigin_shaped n N); [exact Z|]. apply I, MM. lia.
  - apply T4; [exact C10|reflexivity|]. apply (rastrigin_rotated_shaped n N); [exact Z| |exact M]. apply I, MM. lia.
Qed.
