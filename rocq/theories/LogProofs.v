(** Proofs about the logarithmic target trigger. *)
From Coq Require Import List Arith NArith ZArith Bool Lia Reals Lra Psatz.
From Flocq Require Import Core BinarySingleNaN.
Import ListNotations.
From Verif Require Import CBase OptModel DblModel DblSpec DblProofs TrigModel TrigSpec TrigProofs.
Open Scope R_scope.

Lemma ln10_pos : 1 < ln 10.
Proof.
  rewrite <- (ln_exp 1) at 1. apply ln_increasing; [apply exp_pos|]. pose proof exp_le_3. lra.
Qed.

Lemma lg_mono : forall a b, 0 < a -> a <= b -> lg a <= lg b.
Proof.
  intros a b Ha H. pose proof ln10_pos. unfold lg, Rdiv. apply Rmult_le_compat_r.
  - apply Rlt_le, Rinv_0_lt_compat. lra.
  - destruct H as [H| ->]; [|lra]. apply Rlt_le, ln_increasing; auto.
Qed.

Lemma lg_mult : forall a b, 0 < a -> 0 < b -> lg (a * b) = lg a + lg b.
Proof. intros. unfold lg. rewrite ln_mult; auto. field. pose proof ln10_pos. lra. Qed.

Lemma lg_10 : lg 10 = 1.
Proof. unfold lg. field. pose proof ln10_pos. lra. Qed.

Lemma lg_pow10 : forall a, lg (Rpower 10 a) = a.
Proof. intros. unfold lg, Rpower. rewrite ln_exp. field. pose proof ln10_pos. lra. Qed.

Lemma lg_one_plus : forall h, 0 <= h -> lg (1 + h) <= h.
Proof.
  intros h H. pose proof ln10_pos. unfold lg. apply Rmult_le_reg_r with (ln 10); [lra|].
  unfold Rdiv. rewrite Rmult_assoc, Rinv_l, Rmult_1_r by lra.
  apply Rle_trans with h; [|nra].
  rewrite <- (ln_exp h) at 2. destruct (Req_dec h 0) as [->|N].
  - rewrite Rplus_0_r, exp_0. lra.
  - apply Rlt_le, ln_increasing; [lra|]. apply exp_ineq1. lra.
Qed.

Lemma pow10_lt : forall a b, a < b -> Rpower 10 a < Rpower 10 b.
Proof. intros. apply Rpower_lt; lra. Qed.

Lemma pow10_le : forall a b, a <= b -> Rpower 10 a <= Rpower 10 b.
Proof. intros a b [H| ->]; [apply Rlt_le, pow10_lt; auto|lra]. Qed.

Lemma lg_inv : forall a, 0 < a -> Rpower 10 (lg a) = a.
Proof.
  intros a H. unfold Rpower, lg. replace (ln a / ln 10 * ln 10) with (ln a); [now apply exp_ln|].
  field. pose proof ln10_pos. lra.
Qed.

Lemma lg_bpow : forall e, lg (bpow radix2 e) = IZR e * lg 2.
Proof. intros. unfold lg. rewrite bpow_exp, ln_exp. simpl. field. pose proof ln10_pos. lra. Qed.

Lemma lg_2 : 0 < lg 2 <= / 3.
Proof.
  pose proof ln10_pos. pose proof (lg_mono (2 * 2 * 2) 10 ltac:(lra) ltac:(lra)) as H1.
  rewrite !lg_mult, lg_10 in H1 by lra.
  assert (0 < lg 2).
  { unfold lg. apply Rdiv_lt_0_compat; [|lra]. rewrite <- ln_1. apply ln_increasing; lra. }
  lra.
Qed.

(** Positive doubles have logarithms between -358 and 342. *)
Lemma lg_double : forall x, fin x -> 0 < val x -> Rabs (lg (val x)) <= 358.
Proof.
  intros x F H. pose proof lg_2 as L2. apply Rabs_le. split.
  - apply Rle_trans with (lg (bpow radix2 (-1074))).
    + rewrite lg_bpow. lra.
    + apply lg_mono; [apply bpow_gt_0|]. rewrite (val_fin x F) in H |- *.
      pose proof (generic_format_B2R 53 1024 x) as G.
      destruct (Rle_or_lt (bpow radix2 (-1074)) (B2R x)) as [|K]; auto. exfalso.
      pose proof (abs_B2R_ge_emin 53 1024 x) as A. rewrite Rabs_pos_eq in A by lra.
      destruct x as [s|s| |s m e He]; try (simpl in H; lra); try discriminate F.
      specialize (A eq_refl). unfold SpecFloat.emin in A. change (3 - 1024 - 53)%Z with (-1074)%Z in A. lra.
  - apply Rle_trans with (lg (bpow radix2 1024)).
    + apply lg_mono; auto. pose proof (val_bound x F). lra.
    + rewrite lg_bpow. lra.
Qed.

Lemma Zceil_shift : forall a b, a + 1 <= b -> (Zceil a + 1 <= Zceil b)%Z.
Proof.
  intros a b H. replace (Zceil a + 1)%Z with (Zceil (a + 1)).
  - now apply Zceil_le.
  - apply Zceil_imp. rewrite minus_IZR, plus_IZR. pose proof (Zceil_ub a). pose proof (Zceil_lb a). lra.
Qed.

Section LogTargets.
Variable log10 pow10 : double -> double.
Hypothesis Hacc : log10_accurate log10.
Hypothesis Hmon : log10_monotone log10.
Variable n : N.
Hypothesis Hn : (2 <= n <= 1000000)%N.
Variable p : double.
Hypothesis Fp : fin p.
Hypothesis Hp : bpow radix2 (-1000) <= val p.

Let nz : double := dint (Z.of_N n).
Let nr : R := IZR (Z.of_N n).

Lemma nz_val : fin nz /\ val nz = nr.
Proof. apply dint_val. lia. Qed.

Lemma nr_range : 2 <= nr <= 1000000.
Proof. unfold nr. split; apply IZR_le; lia. Qed.

Definition L (x : double) : R := val (dmul (log10 x) nz).

Lemma p_pos : 0 < val p.
Proof. pose proof (bpow_gt_0 radix2 (-1000)). lra. Qed.

Lemma L_val : forall x, fin x -> 0 < val x ->
  fin (dmul (log10 x) nz) /\ L x = rnd (val (log10 x) * nr) /\ Rabs (L x / nr - lg (val x)) <= bpow radix2 (-39).
Proof.
  intros x F H. destruct (Hacc x F H) as (Fl & Al). destruct nz_val as (Fn & Vn).
  pose proof nr_range as Hr. pose proof (lg_double x F H) as B.
  destruct (dmul_val (log10 x) nz Fl Fn) as (Nm & Vm). rewrite Vn in Vm.
  set (l := val (log10 x)) in *.
  assert (bpow radix2 (-40) <= / 100) as U40 by (simpl; lra).
  assert (Rabs l <= 359) as Bl.
  { replace l with ((l - lg (val x)) + lg (val x)) by ring. eapply Rle_trans; [apply Rabs_triang|]. lra. }
  pose proof (rnd_err (l * nr)) as E. rewrite Rabs_mult, (Rabs_pos_eq nr) in E by lra.
  assert (bpow radix2 (-1075) <= bpow radix2 (-53)) as Ueta by (apply bpow_le; lia).
  pose proof (bpow_gt_0 radix2 (-53)) as U53.
  assert (Rabs (rnd (l * nr) - l * nr) <= bpow radix2 (-53) * 512 * nr) as E2.
  { eapply Rle_trans; [exact E|]. apply Rle_trans with (bpow radix2 (-53) * (359 * nr) + bpow radix2 (-53)); [|nra].
    apply Rplus_le_compat; auto. apply Rmult_le_compat_l; [lra|]. apply Rmult_le_compat_r; lra. }
  replace 512 with (bpow radix2 9) in E2 by reflexivity. rewrite <- bpow_plus in E2.
  change (-53 + 9)%Z with (-44)%Z in E2.
  assert (bpow radix2 (-44) <= / 100) as U44 by (simpl; lra).
  pose proof (bpow_gt_0 radix2 (-44)) as U44'.
  assert (Rabs (rnd (l * nr)) <= 400000000) as Br.
  { replace (rnd (l * nr)) with ((rnd (l * nr) - l * nr) + l * nr) by ring. eapply Rle_trans; [apply Rabs_triang|].
    rewrite (Rabs_mult l), (Rabs_pos_eq nr) by lra. pose proof (Rabs_pos l). nra. }
  assert (400000000 < big) as Bb.
  { apply Rlt_trans with (bpow radix2 60); [simpl; lra|]. apply bpow_lt. lia. }
  assert (val (dmul (log10 x) nz) = rnd (l * nr)) as V.
  { rewrite Vm. apply clamp_id. lra. }
  split; [|split].
  - apply fin_val; auto. rewrite V. apply Rabs_lt_inv. lra.
  - exact V.
  - unfold L. rewrite V.
    replace (rnd (l * nr) / nr - lg (val x)) with ((rnd (l * nr) - l * nr) / nr + (l - lg (val x))) by (field; lra).
    eapply Rle_trans; [apply Rabs_triang|].
    assert (Rabs ((rnd (l * nr) - l * nr) / nr) <= bpow radix2 (-44)) as E3.
    { unfold Rdiv. rewrite Rabs_mult, (Rabs_pos_eq (/ nr)) by (apply Rlt_le, Rinv_0_lt_compat; lra).
      apply Rmult_le_reg_r with nr; [lra|]. rewrite Rmult_assoc, Rinv_l, Rmult_1_r by lra. exact E2. }
    assert (bpow radix2 (-44) <= bpow radix2 (-40)) by (apply bpow_le; lia).
    replace (bpow radix2 (-39)) with (2 * bpow radix2 (-40)); [lra|].
    replace 2 with (bpow radix2 1) by reflexivity. now rewrite <- bpow_plus.
Qed.

Lemma L_mono : forall x y, fin x -> fin y -> 0 < val x <= val y -> L x <= L y.
Proof.
  intros x y Fx Fy H. destruct (L_val x Fx) as (_ & -> & _); [lra|]. destruct (L_val y Fy) as (_ & -> & _); [lra|].
  apply rnd_mono, Rmult_le_compat_r; [pose proof nr_range; lra|]. now apply Hmon.
Qed.

Lemma L_bound : forall x, fin x -> 0 < val x -> Rabs (L x) <= 359 * nr.
Proof.
  intros x F H. destruct (L_val x F H) as (_ & _ & E). pose proof (lg_double x F H) as B. pose proof nr_range as Hr.
  assert (bpow radix2 (-39) <= 1) by (change 1 with (bpow radix2 0); apply bpow_le; lia).
  replace (L x) with ((L x / nr) * nr) by (field; lra). rewrite Rabs_mult, (Rabs_pos_eq nr) by lra.
  apply Rmult_le_compat_r; [lra|].
  replace (L x / nr) with ((L x / nr - lg (val x)) + lg (val x)) by ring.
  eapply Rle_trans; [apply Rabs_triang|]. lra.
Qed.

(** ceil and floor of it as ints *)
Lemma L_ceil : forall x, fin x -> 0 < val x ->
  to_int (dceil (dmul (log10 x) nz)) = Ok (Zceil (L x)) /\ (- 360000000 <= Zceil (L x) <= 360000000)%Z.
Proof.
  intros x F H. destruct (L_val x F H) as (Fm & _ & _). pose proof (L_bound x F H) as B. pose proof nr_range as Hr.
  apply Rabs_le_inv in B.
  assert (- 360000000 <= Zceil (L x) <= 360000000)%Z as R.
  { pose proof (Zceil_ub (L x)). pose proof (Zceil_lb (L x)). split; apply le_IZR; lra. }
  split; auto. destruct (dceil_fin _ Fm) as (Fc & Vc). apply to_int_fin; auto. unfold INT_MIN, INT_MAX. lia.
Qed.

Lemma L_floor : forall x, fin x -> 0 < val x ->
  to_int (dfloor (dmul (log10 x) nz)) = Ok (Zfloor (L x)) /\ (- 360000000 <= Zfloor (L x) <= 360000000)%Z.
Proof.
  intros x F H. destruct (L_val x F H) as (Fm & _ & _). pose proof (L_bound x F H) as B. pose proof nr_range as Hr.
  apply Rabs_le_inv in B.
  assert (- 360000000 <= Zfloor (L x) <= 360000000)%Z as R.
  { pose proof (Zfloor_lb (L x)). pose proof (Zfloor_ub (L x)). split; apply le_IZR; lra. }
  split; auto. destruct (dfloor_fin _ Fm) as (Fc & Vc). apply to_int_fin; auto. unfold INT_MIN, INT_MAX. lia.
Qed.

(** A tenth of the precision *)
Let p10 : double := ddiv p (dint 10).

Lemma p10_val : fin p10 /\ 0 < val p10 <= val p / 10 * (1 + bpow radix2 (-50)).
Proof.
  pose proof p_pos as P0. destruct (dint_val 10) as (F10 & V10); [lia|].
  destruct (ddiv_val p (dint 10) Fp ltac:(rewrite V10; lra) F10) as (N & V). rewrite V10 in V. fold p10 in N, V.
  pose proof (rnd_err (val p / 10)) as E. rewrite (Rabs_pos_eq (val p / 10)) in E by lra.
  set (u := bpow radix2 (-53)) in *.
  assert (bpow radix2 (-1075) <= val p / 10 * u) as Eta.
  { apply Rle_trans with (bpow radix2 (-1004) * u).
    - unfold u. rewrite <- bpow_plus. apply bpow_le. lia.
    - apply Rmult_le_compat_r; [apply bpow_ge_0|].
      replace (bpow radix2 (-1004)) with (bpow radix2 (-1000) * bpow radix2 (-4)) by (rewrite <- bpow_plus; reflexivity).
      replace (bpow radix2 (-4)) with (/ 16) by reflexivity. pose proof (bpow_gt_0 radix2 (-1000)). lra. }
  assert (0 < u) as U0 by apply bpow_gt_0.
  assert (u <= / 8) as U1 by (unfold u; simpl; lra).
  assert (bpow radix2 (-50) = 8 * u) as U2.
  { unfold u. replace 8 with (bpow radix2 3) by reflexivity. now rewrite <- bpow_plus. }
  apply Rabs_le_inv in E. pose proof (val_bound p Fp) as Bp.
  assert (0 < rnd (val p / 10) <= val p / 10 * (1 + bpow radix2 (-50))) as B by (rewrite U2; nra).
  assert (rnd (val p / 10) <= val p) as B2 by nra.
  assert (val p10 = rnd (val p / 10)) as V2.
  { rewrite V. apply clamp_id. rewrite Rabs_pos_eq; lra. }
  rewrite V2. split; auto. apply fin_val; auto. rewrite V2. lra.
Qed.

Lemma L_gap : L p10 + 1 <= L p.
Proof.
  destruct p10_val as (F10 & V1 & V2). pose proof p_pos as P0. pose proof nr_range as Hr.
  destruct (L_val p10 F10 V1) as (_ & _ & E1). destruct (L_val p Fp P0) as (_ & _ & E2).
  pose proof (lg_mono _ _ V1 V2) as M. pose proof (bpow_gt_0 radix2 (-50)) as U0.
  rewrite lg_mult in M by lra.
  pose proof (lg_one_plus (bpow radix2 (-50)) ltac:(lra)) as M2.
  assert (lg (val p / 10) = lg (val p) - 1) as M3.
  { pose proof (lg_mult (val p / 10) 10 ltac:(lra) ltac:(lra)) as K. rewrite lg_10 in K.
    replace (val p / 10 * 10) with (val p) in K by field. lra. }
  apply Rabs_le_inv in E1. apply Rabs_le_inv in E2.
  assert (bpow radix2 (-50) <= / 100) by (simpl; lra).
  assert (bpow radix2 (-39) <= / 100) by (simpl; lra).
  assert (L p10 / nr + / 2 <= L p / nr) as D by lra.
  replace (L p) with (L p / nr * nr) by (field; lra). replace (L p10) with (L p10 / nr * nr) by (field; lra). nra.
Qed.

(** The verified values *)
Definition above (v : double) : double := if deq v dzero then p10 else if dlt v p then p else v.
Definition below (v : double) : double := if dlt (dopp p) v then p else dopp v.

Definition level (v : double) : Z :=
  if dle dzero v then Zceil (L (above v))
  else (2 * Zceil (L p10) - Zfloor (L (below v)) - 1)%Z.

Lemma dzero_val : fin dzero /\ val dzero = 0.
Proof. split; reflexivity. Qed.

Lemma dle_zero : forall v, fin v -> (dle dzero v = true <-> 0 <= val v).
Proof. intros v F. rewrite (dle_val dzero v eq_refl (fin_num _ F)). reflexivity. Qed.

Lemma above_zero : forall v, fin v -> val v = 0 -> above v = p10.
Proof.
  intros v F V. unfold above. replace (deq v dzero) with true; auto. symmetry.
  apply (deq_val v dzero (fin_num _ F) eq_refl). exact V.
Qed.

Lemma above_pos : forall v, fin v -> 0 < val v -> above v = if dlt v p then p else v.
Proof.
  intros v F V. unfold above. destruct (deq v dzero) eqn:E; auto. exfalso.
  apply (deq_val v dzero (fin_num _ F) eq_refl) in E. change (val dzero) with 0 in E. lra.
Qed.

Lemma above_val : forall v, fin v -> 0 < val v -> fin (above v) /\ val (above v) = Rmax (val p) (val v).
Proof.
  intros v F V. rewrite above_pos by auto. destruct (dlt v p) eqn:E.
  - apply (dlt_val v p (fin_num _ F) (fin_num _ Fp)) in E. split; auto. rewrite Rmax_left; lra.
  - apply (dlt_false v p (fin_num _ F) (fin_num _ Fp)) in E. split; auto. rewrite Rmax_right; lra.
Qed.

Lemma below_val : forall v, fin v -> val v < 0 -> fin (below v) /\ val (below v) = Rmax (val p) (- val v).
Proof.
  intros v F V. unfold below. assert (fin (dopp p)) as Fo by now apply dopp_fin.
  destruct (dlt (dopp p) v) eqn:E.
  - apply (dlt_val _ v (fin_num _ Fo) (fin_num _ F)) in E. rewrite dopp_val in E. split; auto. rewrite Rmax_left; lra.
  - apply (dlt_false _ v (fin_num _ Fo) (fin_num _ F)) in E. rewrite dopp_val in E.
    split; [now apply dopp_fin|]. rewrite dopp_val, Rmax_right; lra.
Qed.

Lemma level_pos : forall v, fin v -> 0 < val v -> level v = Zceil (L (above v)).
Proof. intros v F V. unfold level. replace (dle dzero v) with true; auto. symmetry. apply dle_zero; auto. lra. Qed.

Lemma level_zero : forall v, fin v -> val v = 0 -> level v = Zceil (L p10).
Proof.
  intros v F V. unfold level. replace (dle dzero v) with true.
  - rewrite above_zero; auto.
  - symmetry. apply dle_zero; auto. lra.
Qed.

Lemma level_neg : forall v, fin v -> val v < 0 -> level v = (2 * Zceil (L p10) - Zfloor (L (below v)) - 1)%Z.
Proof.
  intros v F V. unfold level. destruct (dle dzero v) eqn:E; auto. apply dle_zero in E; auto. lra.
Qed.

Lemma L_p_le : forall v, fin v -> val p <= val v -> L p <= L v.
Proof. intros. apply L_mono; auto. pose proof p_pos. lra. Qed.

Lemma above_ge : forall v, fin v -> 0 < val v -> L p <= L (above v).
Proof. intros v F V. destruct (above_val v F V) as (Fa & Va). apply L_p_le; auto. rewrite Va. apply Rmax_l. Qed.

Lemma below_ge : forall v, fin v -> val v < 0 -> L p <= L (below v).
Proof. intros v F V. destruct (below_val v F V) as (Fa & Va). apply L_p_le; auto. rewrite Va. apply Rmax_l. Qed.

Lemma zero_below_pos : forall v w, fin v -> fin w -> val v = 0 -> 0 < val w -> (level v < level w)%Z.
Proof.
  intros v w Fv Fw V W. rewrite level_zero, level_pos by auto.
  pose proof (Zceil_shift (L p10) (L (above w))) as K. pose proof L_gap. pose proof (above_ge w Fw W). lia || (assert (L p10 + 1 <= L (above w)) by lra; specialize (K H1); lia).
Qed.

Lemma neg_below_zero : forall v w, fin v -> fin w -> val v < 0 -> val w = 0 -> (level v < level w)%Z.
Proof.
  intros v w Fv Fw V W. rewrite level_neg, level_zero by auto.
  assert (Zceil (L p10) <= Zfloor (L (below v)))%Z; [|lia].
  apply Zfloor_lub. pose proof (Zceil_lb (L p10)). pose proof L_gap. pose proof (below_ge v Fv V). lra.
Qed.

Lemma level_mono : forall v w, fin v -> fin w -> val v <= val w -> (level v <= level w)%Z.
Proof.
  intros v w Fv Fw H. destruct (Rtotal_order (val v) 0) as [V|[V|V]].
  - destruct (Rtotal_order (val w) 0) as [W|[W|W]].
    + rewrite !level_neg by auto. destruct (below_val v Fv V) as (F1 & V1). destruct (below_val w Fw W) as (F2 & V2).
      pose proof p_pos.
      assert (Zfloor (L (below w)) <= Zfloor (L (below v)))%Z; [|lia].
      apply Zfloor_le, L_mono; auto. rewrite V1, V2. split.
      * eapply Rlt_le_trans; [|apply Rmax_l]. auto.
      * apply Rmax_case; [apply Rmax_l|]. eapply Rle_trans; [|apply Rmax_r]. lra.
    + apply Z.lt_le_incl, neg_below_zero; auto.
    + pose proof (neg_below_zero v dzero Fv eq_refl V eq_refl).
      pose proof (zero_below_pos dzero w eq_refl Fw eq_refl W). lia.
  - destruct (Rtotal_order (val w) 0) as [W|[W|W]]; [lra| |].
    + rewrite !level_zero by auto. lia.
    + apply Z.lt_le_incl, zero_below_pos; auto.
  - assert (0 < val w) as W by lra. rewrite !level_pos by auto.
    destruct (above_val v Fv V) as (F1 & V1). destruct (above_val w Fw W) as (F2 & V2). pose proof p_pos.
    apply Zceil_le, L_mono; auto. rewrite V1, V2. split.
    + eapply Rlt_le_trans; [|apply Rmax_l]. auto.
    + apply Rmax_case; [apply Rmax_l|]. eapply Rle_trans; [|apply Rmax_r]. lra.
Qed.

Lemma slack_pos : 0 < slack.
Proof. apply exp_pos. Qed.

Lemma mult_slack : forall a, 0 < a -> a * slack = Rpower 10 (lg a + bpow radix2 (-39)).
Proof. intros a H. rewrite Rpower_plus, lg_inv; auto. Qed.

Lemma target_slack : forall k, target n k * slack = Rpower 10 (IZR k / nr + bpow radix2 (-39)).
Proof. intros. unfold target, slack. now rewrite Rpower_plus. Qed.

Lemma level_at : forall v, fin v -> val p <= val v -> at_level n (val v) (level v).
Proof.
  intros v F H. pose proof p_pos as P0. assert (0 < val v) as V by lra. rewrite level_pos by auto.
  assert (above v = v) as ->.
  { rewrite above_pos by auto. assert (dlt v p = false) as ->; auto.
    apply (dlt_false v p (fin_num _ F) (fin_num _ Fp)). lra. }
  destruct (L_val v F V) as (_ & _ & E). apply Rabs_le_inv in E. pose proof nr_range as Hr.
  pose proof (Zceil_ub (L v)) as C1. pose proof (Zceil_lb (L v)) as C2. set (k := Zceil (L v)) in *.
  assert (0 < / nr) as IR by (apply Rinv_0_lt_compat; lra).
  unfold at_level. rewrite mult_slack, target_slack by auto. unfold target. fold nr. split.
  - apply pow10_lt. apply Rlt_le_trans with (L v / nr); [|lra].
    apply Rmult_lt_compat_r; auto. rewrite minus_IZR. lra.
  - rewrite <- (lg_inv (val v)) at 1 by auto. apply pow10_le. apply Rle_trans with (L v / nr + bpow radix2 (-39)); [lra|].
    apply Rplus_le_compat_r. apply Rmult_le_compat_r; lra.
Qed.

Lemma level_small : forall v, fin v -> 0 < val v <= val p -> level v = level p.
Proof.
  intros v F H. pose proof p_pos as P0. rewrite !level_pos by (auto; lra).
  rewrite !above_pos by (auto; lra). replace (dlt p p) with false.
  2:{ symmetry. apply (dlt_false p p (fin_num _ Fp) (fin_num _ Fp)). lra. }
  destruct (dlt v p) eqn:E; auto. apply (dlt_false v p (fin_num _ F) (fin_num _ Fp)) in E.
  assert (L v = L p) as ->; auto. apply Rle_antisym; apply L_mono; auto; lra.
Qed.

Lemma level_depth_at : forall v, fin v -> val v <= - val p -> at_depth n (- val v) (2 * Zceil (L p10) - 1 - level v).
Proof.
  intros v F H. pose proof p_pos as P0. assert (val v < 0) as V by lra.
  rewrite level_neg by auto.
  replace (2 * Zceil (L p10) - 1 - (2 * Zceil (L p10) - Zfloor (L (below v)) - 1))%Z with (Zfloor (L (below v))) by lia.
  destruct (below_val v F V) as (Fb & Vb). rewrite Rmax_right in Vb by lra.
  destruct (L_val (below v) Fb) as (_ & _ & E); [lra|]. rewrite Vb in E. apply Rabs_le_inv in E. pose proof nr_range as Hr.
  pose proof (Zfloor_lb (L (below v))) as C1. pose proof (Zfloor_ub (L (below v))) as C2.
  set (k := Zfloor (L (below v))) in *.
  assert (0 < / nr) as IR by (apply Rinv_0_lt_compat; lra).
  unfold at_depth. rewrite mult_slack, target_slack by lra. unfold target. fold nr. split.
  - apply pow10_le. apply Rle_trans with (L (below v) / nr); [|lra].
    apply Rmult_le_compat_r; lra.
  - rewrite <- (lg_inv (- val v)) at 1 by lra. apply pow10_lt.
    apply Rle_lt_trans with (L (below v) / nr + bpow radix2 (-39)); [lra|].
    apply Rplus_lt_compat_r. apply Rmult_lt_compat_r; auto. rewrite plus_IZR. lra.
Qed.

Lemma level_depth : exists c, forall v, fin v -> val v <= - val p -> at_depth n (- val v) (c - level v).
Proof. eexists. exact level_depth_at. Qed.

Lemma level_shallow : forall v, fin v -> - val p <= val v < 0 -> level v = level (dopp p).
Proof.
  intros v F H. pose proof p_pos as P0. assert (fin (dopp p)) as Fo by now apply dopp_fin.
  rewrite !level_neg; auto; try lra. 2:{ rewrite dopp_val. lra. }
  destruct (below_val v F) as (F1 & V1); [lra|]. destruct (below_val (dopp p) Fo) as (F2 & V2); [rewrite dopp_val; lra|].
  rewrite dopp_val, Ropp_involutive, Rmax_left in V2 by lra. rewrite Rmax_left in V1 by lra.
  assert (L (below v) = L (below (dopp p))) as ->; auto. apply Rle_antisym; apply L_mono; auto; lra.
Qed.

Lemma level_range : forall v, fin v -> (- 1500000000 <= level v <= 1500000000)%Z.
Proof.
  intros v F. destruct p10_val as (F10 & V10 & _). destruct (L_ceil p10 F10 V10) as (_ & B). pose proof p_pos as P0.
  destruct (Rtotal_order (val v) 0) as [V|[V|V]].
  - rewrite level_neg by auto. destruct (below_val v F V) as (Fb & Vb).
    destruct (L_floor (below v) Fb) as (_ & B2). { rewrite Vb. eapply Rlt_le_trans; [|apply Rmax_l]. auto. } lia.
  - rewrite level_zero by auto. lia.
  - rewrite level_pos by auto. destruct (above_val v F V) as (Fb & Vb).
    destruct (L_ceil (above v) Fb) as (_ & B2). { rewrite Vb. eapply Rlt_le_trans; [|apply Rmax_l]. auto. } lia.
Qed.

Lemma log_step : forall s v, lt_triggers s = n -> lt_precision s = p -> fin v ->
  exists b s', log_targets_trigger log10 pow10 s v = Ok (b, s') /\ lt_triggers s' = n /\ lt_precision s' = p /\
    b = (level v <? lt_exponent s)%Z /\ lt_exponent s' = Z.min (lt_exponent s) (level v).
Proof.
  intros s v Es Ep F. unfold log_targets_trigger. rewrite Es, Ep. fold nz. fold p10. cbv zeta.
  fold (above v). fold (below v). pose proof (level_range v F) as LR.
  destruct p10_val as (F10 & V10 & _). destruct (L_ceil p10 F10 V10) as (E0 & B0). pose proof p_pos as P0.
  destruct (dle dzero v) eqn:D.
  - assert (to_int (dceil (dmul (log10 (above v)) nz)) = Ok (level v)) as ->.
    { apply dle_zero in D; auto. destruct (Req_dec (val v) 0) as [Z|NZ].
      - rewrite level_zero, above_zero by auto. exact E0.
      - rewrite level_pos by (auto; lra). destruct (above_val v F) as (Fb & Vb); [lra|]. apply L_ceil; auto.
        rewrite Vb. eapply Rlt_le_trans; [|apply Rmax_l]. auto. }
    cbn [bind]. destruct (Z.ltb_spec (level v) (lt_exponent s)).
    + eexists true, _. split; [reflexivity|]. cbn [lt_triggers lt_precision lt_exponent]. repeat split; auto. lia.
    + exists false, s. repeat split; auto. lia.
  - assert (val v < 0) as V.
    { destruct (Rlt_or_le (val v) 0); auto. apply dle_zero in H; auto. rewrite H in D. discriminate D. }
    pose proof (level_neg v F V) as LN. destruct (below_val v F V) as (Fb & Vb).
    destruct (L_floor (below v) Fb) as (E1 & B1). { rewrite Vb. eapply Rlt_le_trans; [|apply Rmax_l]. auto. }
    rewrite E1, E0. cbn [bind].
    assert (forall z, (-1500000000 <= z <= 1500000000)%Z -> int_range z = Ok z) as IR.
    { intros z Hz. unfold int_range. unfold INT_MIN, INT_MAX.
      destruct (Z.leb_spec (-2147483648) z); [|lia]. destruct (Z.leb_spec z 2147483647); [reflexivity|lia]. }
    rewrite (IR (2 * _)%Z) by lia. cbn [bind]. rewrite (IR (2 * _ - _)%Z) by lia. cbn [bind].
    rewrite IR by lia. cbn [bind]. rewrite <- LN.
    destruct (Z.ltb_spec (level v) (lt_exponent s)).
    + eexists true, _. split; [reflexivity|]. cbn [lt_triggers lt_precision lt_exponent]. repeat split; auto. lia.
    + exists false, s. repeat split; auto. lia.
Qed.

Lemma log_consult : forall vs, Forall fin vs -> exists bs t,
  consult (log_targets_trigger log10 pow10) (new_log_targets n p) vs = Ok (bs, t) /\
  marks (fun v => IZR (level v)) (IZR INT_MAX) vs bs.
Proof.
  intros vs G.
  destruct (consult_marks log_targets double (log_targets_trigger log10 pow10) (fun v => IZR (level v))
    (fun s => IZR (lt_exponent s)) (fun s => lt_triggers s = n /\ lt_precision s = p) fin)
    with (vs := vs) (s := new_log_targets n p) as (bs & t & E & _ & M); auto.
  - intros s v (E1 & E2) F. destruct (log_step s v E1 E2 F) as (b & s' & E & T1 & T2 & B & X).
    exists b, s'. split; auto. split; auto. split.
    + rewrite B. destruct (Z.ltb_spec (level v) (lt_exponent s)) as [K|K].
      * split; auto. intros _. now apply IZR_lt.
      * split; [intros Q; discriminate Q|]. intros Q. apply lt_IZR in Q. lia.
    + rewrite X. destruct (Z.le_ge_cases (lt_exponent s) (level v)) as [K|K].
      * rewrite Z.min_l by auto. symmetry. apply Rmin_left. now apply IZR_le.
      * rewrite Z.min_r by auto. symmetry. apply Rmin_right. now apply IZR_le.
  - exists bs, t. auto.
Qed.
End LogTargets.

(** The correctly rounded log10 meets the assumptions. *)
Definition nearest (r : R) : double :=
  binary_normalize 53 1024 _ _ mode_NE
    (ZnearestE (scaled_mantissa radix2 (FLT_exp (-1074) 53) r)) (cexp radix2 (FLT_exp (-1074) 53) r) false.

Lemma nearest_val : forall r, Rabs (rnd r) < big -> fin (nearest r) /\ val (nearest r) = rnd r.
Proof.
  intros r H. unfold nearest.
  pose proof (binary_normalize_correct 53 1024 _ _ mode_NE
    (ZnearestE (scaled_mantissa radix2 (FLT_exp (-1074) 53) r)) (cexp radix2 (FLT_exp (-1074) 53) r) false) as K.
  cbv zeta in K.
  change (F2R (Float radix2 (ZnearestE (scaled_mantissa radix2 (FLT_exp (-1074) 53) r))
    (cexp radix2 (FLT_exp (-1074) 53) r))) with (rnd r) in K.
  change (round radix2 (SpecFloat.fexp 53 1024) (round_mode mode_NE) (rnd r)) with (rnd (rnd r)) in K.
  assert (rnd (rnd r) = rnd r) as E.
  { unfold rnd at 1. apply round_generic; [auto with typeclass_instances|].
    apply generic_format_round; auto with typeclass_instances. }
  rewrite E in K. rewrite Rlt_bool_true in K by exact H. destruct K as (K1 & K2 & _).
  split; [exact K2|]. now rewrite (val_fin _ K2).
Qed.

Definition rounded_log10 (x : double) : double := nearest (lg (val x)).

Lemma rounded_log10_ok : log10_accurate rounded_log10 /\ log10_monotone rounded_log10.
Proof.
  assert (forall x, fin x -> 0 < val x -> Rabs (rnd (lg (val x)) - lg (val x)) <= bpow radix2 (-44)) as E.
  { intros x F H. pose proof (rnd_err (lg (val x))) as E. pose proof (lg_double x F H) as B.
    eapply Rle_trans; [exact E|]. assert (bpow radix2 (-1075) <= bpow radix2 (-53)) by (apply bpow_le; lia).
    pose proof (bpow_gt_0 radix2 (-53)).
    replace (bpow radix2 (-44)) with (bpow radix2 (-53) * 512); [nra|].
    replace 512 with (bpow radix2 9) by reflexivity. now rewrite <- bpow_plus. }
  assert (forall x, fin x -> 0 < val x -> fin (rounded_log10 x) /\ val (rounded_log10 x) = rnd (lg (val x))) as V.
  { intros x F H. apply nearest_val. pose proof (E x F H) as E1. pose proof (lg_double x F H) as B.
    assert (bpow radix2 (-44) <= 1) by (change 1 with (bpow radix2 0); apply bpow_le; lia).
    apply Rle_lt_trans with 512.
    - replace (rnd (lg (val x))) with ((rnd (lg (val x)) - lg (val x)) + lg (val x)) by ring.
      eapply Rle_trans; [apply Rabs_triang|]. lra.
    - replace 512 with (bpow radix2 9) by reflexivity. apply bpow_lt. lia. }
  split.
  - intros x F H. destruct (V x F H) as (F1 & ->). split; auto. eapply Rle_trans; [now apply E|]. apply bpow_le. lia.
  - intros x y Fx Fy H. destruct (V x Fx) as (_ & ->); [lra|]. destruct (V y Fy) as (_ & ->); [lra|].
    apply rnd_mono, lg_mono; lra.
Qed.
