(** C51: normalised objective vectors in binary64 arithmetic. *)
From Coq Require Import List ZArith Reals Lra Lia Bool.
From Flocq Require Import Core BinarySingleNaN.
From Verif Require MoModel.
From Verif Require Import CBase DblModel DblSpec DblProofs NormModel NormSpec NormProofs NormValueProofs NormCloseProofs.
Import ListNotations.
Open Scope R_scope.

(** For reference points that differ by more than 5e-13, every vector that is not a NaN is normalised, to values >= 0. *)
Theorem C51_defined : forall y ideal nadir, ranged ideal nadir -> num (fst y) -> num (snd y) ->
  exists p, mo_normalize y ideal nadir = Ok p /\ num (fst p) /\ num (snd p) /\ 0 <= val (fst p) /\ 0 <= val (snd p).
Proof. exact normalize_defined. Qed.

(** The extreme solutions are exactly (0, 1) and (1, 0) *)
Theorem C51_extremes : forall ideal nadir, ranged ideal nadir ->
  mo_normalize (fst ideal, snd nadir) ideal nadir = Ok (dzero, dint 1) /\
  mo_normalize (fst nadir, snd ideal) ideal nadir = Ok (dint 1, dzero).
Proof. intros. split; [now apply extreme_0|now apply extreme_1]. Qed.

(** and no normalised vector is better than one of them *)
Theorem C51_not_better : forall p, normalised p -> ~ pareto p (dzero, dint 1) /\ ~ pareto p (dint 1, dzero).
Proof.
  intros p N. destruct (normalised_grid p N) as (G0 & G1 & A & B).
  pose proof (grid_nonneg _ G0). pose proof (grid_nonneg _ G1). unfold pareto. cbn [fst snd]. rewrite zero_val, one_val. split.
  - intros (X & Y & Z). assert (val (fst p) = 0) as E by lra. specialize (A E). lra.
  - intros (X & Y & Z). assert (val (snd p) = 0) as E by lra. specialize (B E). lra.
Qed.

(** Up to 2^900 the result is finite, and each value is the exact relative position (0 below the ideal value) up to half
    a step of 5e-13 and 8 roundings, unless it was corrected to 1 because the other one is 0. *)
Theorem C51_close : forall y ideal nadir, moderate y -> moderate ideal -> moderate nadir -> ranged ideal nadir ->
  exists p, mo_normalize y ideal nadir = Ok p /\ normalised p /\
  (Rabs (val (fst p) - position (fst y) (fst ideal) (fst nadir)) <= 251 / 1000 * / 10 ^ 12 + / 2 ^ 50 * position (fst y) (fst ideal) (fst nadir) \/
   val (fst p) = 1 /\ val (snd p) = 0) /\
  (Rabs (val (snd p) - position (snd y) (snd ideal) (snd nadir)) <= 251 / 1000 * / 10 ^ 12 + / 2 ^ 50 * position (snd y) (snd ideal) (snd nadir) \/
   val (snd p) = 1 /\ val (fst p) = 0).
Proof.
  intros y i n (Y0 & Y1) (I0 & I1) (N0 & N1) (R0 & R1).
  destruct (normalize_value_close _ _ _ Y0 I0 N0 R0) as (a & A & FA & CA).
  destruct (normalize_value_close _ _ _ Y1 I1 N1 R1) as (b & B & FB & CB).
  pose proof (normalize_value_grid _ _ _ _ A FA) as GA. pose proof (normalize_value_grid _ _ _ _ B FB) as GB.
  unfold mo_normalize. rewrite A, B. cbn [bind]. eexists. split; [reflexivity|].
  set (b' := if _ && dlt b (dint 1) then dint 1 else b).
  assert (on_grid b' /\ (b' = b \/ b' = dint 1 /\ val a = 0)) as (GB' & EB).
  { unfold b'. destruct (coco_double_almost_equal a dzero mo_precision) eqn:Q; cbn [andb].
    - apply almost_equal_grid in Q; auto using zero_grid. rewrite zero_val in Q. destruct (dlt b (dint 1)); auto using one_grid.
    - auto. }
  set (a' := if _ && dlt a (dint 1) then dint 1 else a).
  assert (on_grid a' /\ (a' = a \/ a' = dint 1 /\ val b' = 0)) as (GA' & EA).
  { unfold a'. destruct (coco_double_almost_equal b' dzero mo_precision) eqn:Q; cbn [andb].
    - apply almost_equal_grid in Q; auto using zero_grid. rewrite zero_val in Q. destruct (dlt a (dint 1)); auto using one_grid.
    - auto. }
  split.
  - split; [apply GA'|]. split; [apply GB'|]. exists y, i, n. unfold mo_normalize. rewrite A, B. reflexivity.
  - cbn [fst snd]. split.
    + destruct EA as [->|(-> & Z)]; [left; exact CA|right; rewrite one_val; auto].
    + destruct EB as [->|(EB & Z)]; [left; exact CB|right]. split; [now rewrite EB, one_val|].
      destruct EA as [->|(_ & Z')]; [exact Z|]. rewrite EB, one_val in Z'. lra.
Qed.

(** Larger objective values do not get smaller normalised ones, as long as nothing had to be corrected. *)
Theorem C51_monotone : forall y y' ideal nadir p p', ranged ideal nadir ->
  num (fst y) -> num (snd y) -> num (fst y') -> num (snd y') ->
  val (fst y) <= val (fst y') -> val (snd y) <= val (snd y') ->
  mo_normalize y ideal nadir = Ok p -> mo_normalize y' ideal nadir = Ok p' ->
  fin (fst p) -> fin (snd p) -> fin (fst p') -> fin (snd p') -> 0 < val (fst p) -> 0 < val (snd p) ->
  val (fst p) <= val (fst p') /\ val (snd p) <= val (snd p').
Proof. exact normalize_mono. Qed.

(** The ordering of the archives is the order of the second values: two of them count as equal exactly when they are. *)
Theorem C51_order : forall p q, normalised p -> normalised q ->
  (compare_last p q = 0%Z <-> val (snd p) = val (snd q)) /\ (compare_last p q = (-1)%Z <-> val (snd p) < val (snd q)) /\
  (compare_last p q = 1%Z <-> val (snd q) < val (snd p)).
Proof. intros p q A B. apply compare_grid; [apply (normalised_grid p A)|apply (normalised_grid q B)]. Qed.

(** so it is a strict total order *)
Corollary C51_total : forall p q r, normalised p -> normalised q -> normalised r ->
  compare_last p q = (- compare_last q p)%Z /\
  (compare_last p q = (-1)%Z -> compare_last q r = (-1)%Z -> compare_last p r = (-1)%Z) /\
  (compare_last p q = 0%Z -> compare_last q r = compare_last p r).
Proof.
  intros p q r A B C. pose proof (C51_order p q A B) as (X0 & X1 & X2). pose proof (C51_order q p B A) as (Y0 & Y1 & Y2).
  pose proof (C51_order q r B C) as (U0 & U1 & U2). pose proof (C51_order p r A C) as (V0 & V1 & V2).
  split; [|split].
  - destruct (Rtotal_order (val (snd p)) (val (snd q))) as [L|[L|L]].
    + rewrite (proj2 X1 L), (proj2 Y2 L). reflexivity.
    + rewrite (proj2 X0 L), (proj2 Y0 (eq_sym L)). reflexivity.
    + rewrite (proj2 X2 L), (proj2 Y1 L). reflexivity.
  - intros H K. apply V1. apply X1 in H. apply U1 in K. lra.
  - intros H. apply X0 in H. destruct (Rtotal_order (val (snd q)) (val (snd r))) as [L|[L|L]].
    + rewrite (proj2 U1 L). symmetry. apply V1. lra.
    + rewrite (proj2 U0 L). symmetry. apply V0. lra.
    + rewrite (proj2 U2 L). symmetry. apply V2. lra.
Qed.

(** mo_get_dominance decides Pareto dominance of the values *)
Theorem C51_dominance : forall p q, normalised p -> normalised q ->
  (mo_get_dominance (vec p) (vec q) = 1%Z <-> pareto p q) /\ (mo_get_dominance (vec p) (vec q) = (-1)%Z <-> pareto q p) /\
  (mo_get_dominance (vec p) (vec q) = (-2)%Z <-> same p q) /\
  (mo_get_dominance (vec p) (vec q) = 0%Z <-> ~ pareto p q /\ ~ pareto q p /\ ~ same p q).
Proof.
  intros p q A B. destruct (normalised_grid p A) as (A0 & A1 & _). destruct (normalised_grid q B) as (B0 & B1 & _). now apply dominance_grid.
Qed.

(** and mo_is_within_ROI whether both values are at most 1 *)
Theorem C51_within : forall p, normalised p -> (mo_is_within_ROI p = true <-> val (fst p) <= 1 /\ val (snd p) <= 1).
Proof.
  intros p A. destruct (normalised_grid p A) as (A0 & A1 & _). unfold mo_is_within_ROI. rewrite andb_true_iff, !within_grid by assumption. reflexivity.
Qed.

(** The integer model used for the archives agrees with the doubles for normalised values up to 1000 (2e15 steps). *)
Theorem C51_integers : forall y ideal nadir p k l, mo_normalize y ideal nadir = Ok p ->
  fin (step_number (fst y) (fst ideal) (fst nadir)) -> val (step_number (fst y) (fst ideal) (fst nadir)) = IZR k -> (Z.abs k <= 2000000000000000)%Z ->
  fin (step_number (snd y) (snd ideal) (snd nadir)) -> val (step_number (snd y) (snd ideal) (snd nadir)) = IZR l -> (Z.abs l <= 2000000000000000)%Z ->
  stands_for p (MoModel.mo_normalize (k, l)) /\ below_1000 (MoModel.mo_normalize (k, l)).
Proof. exact normalize_stands. Qed.

Theorem C51_integers_compare : forall p q m m', stands_for p m -> stands_for q m' -> below_1000 m -> below_1000 m' ->
  compare_last p q = MoModel.compare_last m m' /\ mo_get_dominance (vec p) (vec q) = MoModel.dominance m m' /\
  mo_is_within_ROI p = MoModel.mo_is_within_ROI m.
Proof.
  intros p q m m' A B C E. destruct (stands_compare p q m m' A B C E). split; [assumption|]. split; [assumption|]. now apply stands_within.
Qed.

(** Deviation: a finite vector far outside the region of interest is normalised to an infinite value, and it is then not
    equal to itself in the ordering. *)
Definition unit_ideal : double * double := (dint 0, dint 0).
Definition unit_nadir : double * double := (dint 1, dint 1).
Lemma unit_ranged : ranged unit_ideal unit_nadir.
Proof.
  assert (ranged1 (dint 0) (dint 1)) as R.
  { split; [reflexivity|]. split; [exact one_fin|].
    assert (dsub (dint 1) (dint 0) = dint 1) as -> by (apply B2SF_inj; vm_compute; reflexivity).
    split; [exact one_fin|]. rewrite one_val, disc_val. lra. }
  split; exact R.
Qed.
Theorem C51_overflow_refuted : exists y ideal nadir p, ranged ideal nadir /\ fin (fst y) /\ fin (snd y) /\
  mo_normalize y ideal nadir = Ok p /\ compare_last p p = 1%Z.
Proof.
  exists (dint 0, dint (10 ^ 308)), unit_ideal, unit_nadir.
  destruct (C51_defined (dint 0, dint (10 ^ 308)) unit_ideal unit_nadir unit_ranged) as (p & E & _); [reflexivity|vm_compute; reflexivity|].
  exists p. split; [exact unit_ranged|]. split; [reflexivity|]. split; [vm_compute; reflexivity|]. split; [exact E|].
  assert (match mo_normalize (dint 0, dint (10 ^ 308)) unit_ideal unit_nadir with Ok q => compare_last q q = 1%Z | _ => False end) as Q by (vm_compute; reflexivity).
  rewrite E in Q. exact Q.
Qed.

(** A NaN compares as greater both ways. *)
Theorem C51_nan : forall p x, compare_last (x, dnan) p = 1%Z /\ compare_last p (x, dnan) = 1%Z.
Proof.
  intros (a & b) x. unfold compare_last, coco_double_almost_equal. cbn [snd].
  destruct b as [s|s| |s m e H]; split; reflexivity.
Qed.

(** Examples *)
Definition half_way : double * double := (dint 2, dint 4).
Definition ref_ideal : double * double := (dint 1, dint 2).
Definition ref_nadir : double * double := (dint 3, dint 10).
Lemma small_moderate k : (Z.abs k <= 2 ^ 53)%Z -> moderate1 (dint k).
Proof.
  intros K. destruct (dint_val k K) as (F & V). split; [exact F|]. rewrite V, <- abs_IZR.
  apply Rle_trans with (IZR (2 ^ 53)); [now apply IZR_le|]. change (2 ^ 53)%Z with (Zpower radix2 53). rewrite IZR_Zpower by lia. apply bpow_le. lia.
Qed.
Example C51_ex_ranged : ranged ref_ideal ref_nadir.
Proof.
  split; (split; [vm_compute; reflexivity|]; split; [vm_compute; reflexivity|]; split; [vm_compute; reflexivity|]).
  - change (D < val (dsub (dint 3) (dint 1))).
    assert (dsub (dint 3) (dint 1) = dint 2) as -> by (apply B2SF_inj; vm_compute; reflexivity).
    rewrite (proj2 (dint_val 2 ltac:(lia))), disc_val. lra.
  - change (D < val (dsub (dint 10) (dint 2))).
    assert (dsub (dint 10) (dint 2) = dint 8) as -> by (apply B2SF_inj; vm_compute; reflexivity).
    rewrite (proj2 (dint_val 8 ltac:(lia))), disc_val. lra.
Qed.
Example C51_ex_moderate : moderate half_way /\ moderate ref_ideal /\ moderate ref_nadir.
Proof. repeat apply conj; apply small_moderate; lia. Qed.
(** (2, 4) between (1, 2) and (3, 10) is (0.5, 0.25), 10^12 and 5 * 10^11 steps *)
Example C51_ex_value : exists p, mo_normalize half_way ref_ideal ref_nadir = Ok p /\ normalised p /\
  B2SF (fst p) = B2SF (ddec 5 1) /\ B2SF (snd p) = B2SF (ddec 25 2) /\ mo_is_within_ROI p = true /\ compare_last p p = 0%Z /\
  stands_for p (MoModel.mo_normalize (1000000000000, 500000000000)%Z).
Proof.
  destruct C51_ex_moderate as (A & B & C). destruct (C51_close _ _ _ A B C C51_ex_ranged) as (p & E & N & _). exists p.
  split; [exact E|]. split; [exact N|].
  assert (match mo_normalize half_way ref_ideal ref_nadir with
          | Ok q => B2SF (fst q) = B2SF (ddec 5 1) /\ B2SF (snd q) = B2SF (ddec 25 2) /\ mo_is_within_ROI q = true /\ compare_last q q = 0%Z
          | _ => False end) as Q by (vm_compute; auto).
  rewrite E in Q. destruct Q as (Q1 & Q2 & Q3 & Q4). split; [exact Q1|]. split; [exact Q2|]. split; [exact Q3|]. split; [exact Q4|].
  assert (step_number (dint 2) (dint 1) (dint 3) = dint 1000000000000) as S0 by (apply B2SF_inj; vm_compute; reflexivity).
  assert (step_number (dint 4) (dint 2) (dint 10) = dint 500000000000) as S1 by (apply B2SF_inj; vm_compute; reflexivity).
  apply (C51_integers half_way ref_ideal ref_nadir p 1000000000000 500000000000 E); cbn [fst snd half_way ref_ideal ref_nadir]; rewrite ?S0, ?S1; try apply dint_val; lia.
Qed.
(** below the ideal value the other one is corrected: (0, 4) becomes (0, 1) *)
Example C51_ex_corrected : match mo_normalize (dint 0, dint 4) ref_ideal ref_nadir with
  | Ok q => B2SF (fst q) = B2SF dzero /\ B2SF (snd q) = B2SF (dint 1) | _ => False end.
Proof. vm_compute. auto. Qed.

(** The step of the grid and the tolerance are 5e-13 and 1e-13. *)
Theorem C51_step : Rabs (val mo_discretization - 5 / 10 ^ 13) <= / 10 ^ 28 /\ Rabs (val mo_precision - 1 / 10 ^ 13) <= / 10 ^ 28.
Proof.
  rewrite (sf_val mo_discretization 4951760157141521 (-93)) by (vm_compute; reflexivity). rewrite (sf_val mo_precision 7922816251426434 (-96)) by (vm_compute; reflexivity).
  unfold F2R. cbn [Fnum Fexp]. change (-93)%Z with (- (93))%Z. change (-96)%Z with (- (96))%Z. rewrite !bpow_opp, <- !(IZR_Zpower radix2) by discriminate.
  change (radix2 ^ 93)%Z with 9903520314283042199192993792%Z. change (radix2 ^ 96)%Z with 79228162514264337593543950336%Z.
  split; apply Rabs_le; split; lra.
Qed.

Print Assumptions C51_extremes.
Print Assumptions C51_close.
Print Assumptions C51_order.
Print Assumptions C51_integers.
Print Assumptions C51_defined.
Print Assumptions C51_not_better.
Print Assumptions C51_monotone.
Print Assumptions C51_total.
Print Assumptions C51_dominance.
Print Assumptions C51_within.
Print Assumptions C51_integers_compare.
Print Assumptions C51_overflow_refuted.
Print Assumptions C51_nan.
Print Assumptions C51_step.
