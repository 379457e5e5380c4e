(** C23-C25, C30, C52: triggers, constraint digit, integer logging. *)
From Coq Require Import List Arith NArith ZArith Bool Lia Reals Lra Ascii String.
From Flocq Require Import Core BinarySingleNaN.
Import ListNotations.
From Verif Require Import CBase StrModel StrSpec OptModel DblModel DblSpec DblProofs TrigModel TrigSpec TrigProofs LogProofs EvProofs DigitProofs.
Open Scope R_scope.

Lemma Some_inj : forall (A : Type) (a b : A), Some a = Some b -> a = b.
Proof. congruence. Qed.

(** ** C23: logarithmic targets *)
Theorem C23_log_targets : forall log10 pow10 n p,
  log10_accurate log10 -> log10_monotone log10 ->
  (2 <= n <= 1000000)%N -> fin p -> bpow radix2 (-1000) <= val p ->
  exists level : double -> Z,
    (* better values never have worse levels *)
    (forall v w, fin v -> fin w -> val v <= val w -> (level v <= level w)%Z) /\
    (* the levels are the targets 10^(k/n) *)
    (forall v, fin v -> val p <= val v -> at_level n (val v) (level v)) /\
    (forall v, fin v -> 0 < val v <= val p -> level v = level p) /\
    (* zero is below all positive values, negative values are below zero *)
    (forall v w, fin v -> fin w -> val v = 0 -> 0 < val w -> (level v < level w)%Z) /\
    (forall v w, fin v -> fin w -> val v < 0 -> val w = 0 -> (level v < level w)%Z) /\
    (exists c, forall v, fin v -> val v <= - val p -> at_depth n (- val v) (c - level v)) /\
    (forall v, fin v -> - val p <= val v < 0 -> level v = level (dopp p)) /\
    (forall v, fin v -> (level v < INT_MAX)%Z) /\
    (* a consultation says yes exactly at the values with a level below all earlier ones *)
    (forall vs, Forall fin vs -> exists bs t,
       consult (log_targets_trigger log10 pow10) (new_log_targets n p) vs = Ok (bs, t) /\
       marks (fun v => IZR (level v)) (IZR INT_MAX) vs bs).
Proof.
  intros log10 pow10 n p Ha Hm Hn Fp Hp. exists (level log10 n p).
  split; [intros; now apply level_mono|]. split; [intros; now apply level_at|].
  split; [intros; now apply level_small|]. split; [intros; now apply zero_below_pos|].
  split; [intros; now apply neg_below_zero|]. split; [now apply level_depth|].
  split; [intros; now apply level_shallow|].
  split; [|intros; now apply log_consult].
  intros v F. pose proof (level_range log10 Ha n Hn p Fp Hp v F). unfold INT_MAX. lia.
Qed.

(** Such a log10 exists: the correctly rounded one. *)
Example C23_assumptions : log10_accurate rounded_log10 /\ log10_monotone rounded_log10.
Proof. exact rounded_log10_ok. Qed.

(** 100 targets per decade, precision 1e-8: the second 1 is silent, 0 and -1 are new. *)
Example C23_example : exists t,
  consult (log_targets_trigger rounded_log10 rounded_pow10) (new_log_targets 100 (ddec 1 8))
    [dint 1; dint 1; dzero; dopp (dint 1)] = Ok ([true; false; true; true], t).
Proof.
  destruct rounded_log10_ok as (Ha & Hm).
  assert (fin (ddec 1 8)) as Fp by (vm_compute; reflexivity).
  assert (bpow radix2 (-1000) <= val (ddec 1 8)) as Hp.
  { destruct (ddec_inv 8 ltac:(lia)) as (_ & ->).
    assert (bpow radix2 (-1000) = rnd (bpow radix2 (-1000))) as ->.
    { symmetry. apply round_generic; [auto with typeclass_instances|]. apply generic_format_bpow. unfold FLT_exp. lia. }
    apply rnd_mono. apply Rle_trans with (bpow radix2 (-27)); [apply bpow_le; lia|].
    change (/ IZR (10 ^ 8)) with (/ 100000000). simpl. lra. }
  destruct (C23_log_targets rounded_log10 rounded_pow10 100 (ddec 1 8) Ha Hm ltac:(lia) Fp Hp)
    as (lv & Mono & _ & _ & Z1 & Z2 & _ & _ & Top & C).
  destruct (dint_val 1 ltac:(lia)) as (F1 & V1).
  assert (fin (dopp (dint 1))) as Fm by now apply dopp_fin.
  assert (val (dopp (dint 1)) < 0) as Vm by (rewrite dopp_val, V1; lra).
  destruct (C [dint 1; dint 1; dzero; dopp (dint 1)]) as (bs & t & E & (Len & M)).
  { repeat constructor; auto. }
  exists t. rewrite E. f_equal. f_equal.
  pose proof (Top _ F1) as T1. pose proof (Top dzero eq_refl) as T0. pose proof (Top _ Fm) as Tm.
  pose proof (Z1 dzero (dint 1) eq_refl F1 eq_refl ltac:(rewrite V1; lra)) as L1.
  pose proof (Z2 (dopp (dint 1)) dzero Fm eq_refl Vm eq_refl) as L2.
  destruct bs as [|b0 [|b1 [|b2 [|b3 [|]]]]]; try discriminate Len.
  pose proof (M 0%nat _ _ eq_refl eq_refl) as M0. pose proof (M 1%nat _ _ eq_refl eq_refl) as M1.
  pose proof (M 2%nat _ _ eq_refl eq_refl) as M2. pose proof (M 3%nat _ _ eq_refl eq_refl) as M3.
  f_equal; [|f_equal; [|f_equal; [|f_equal]]].
  - apply M0. split; [now apply IZR_lt|]. intros j w Hj. lia.
  - destruct b1; auto. exfalso. destruct (proj1 M1 eq_refl) as (_ & K). specialize (K 0%nat _ ltac:(lia) eq_refl). lra.
  - apply M2. split; [now apply IZR_lt|]. intros j w Hj Ew.
    apply IZR_lt. destruct j as [|[|j]]; try lia; cbn [nth_error] in Ew; apply Some_inj in Ew; rewrite <- Ew; lia.
  - apply M3. split; [now apply IZR_lt|]. intros j w Hj Ew.
    apply IZR_lt. destruct j as [|[|[|j]]]; try lia; cbn [nth_error] in Ew; apply Some_inj in Ew; rewrite <- Ew; lia.
Qed.

(** ** C24: linear targets *)
Theorem C24_lin_targets : forall p, fin p -> val (ddec 1 12) < val p ->
  exists up : double -> double,
    (forall x, num x -> num (up x)) /\
    (* rounding up is monotone *)
    (forall x y, num x -> num y -> val x <= val y -> val (up x) <= val (up y)) /\
    (* to a multiple of the precision, at most 1e-12 below and one step above, up to rounding errors *)
    (forall x, fin x -> Rabs (val x) + val p <= bpow radix2 900 -> fin (up x)) /\
    (forall x, fin x -> fin (up x) ->
       (exists k, val (up x) = rnd (IZR k * val p)) /\
       val x - val (ddec 1 12) - bpow radix2 (-51) * (Rabs (val x) + val p) <= val (up x)
         <= val x + val p + bpow radix2 (-51) * (Rabs (val x) + val p)) /\
    (* a consultation says yes exactly at the values rounded below all earlier ones *)
    (forall vs, exists bs t,
       consult lin_targets_trigger (new_lin_targets p) vs = Ok (bs, t) /\
       marks (rounded_key up) (val DBL_MAX) vs bs).
Proof.
  intros p Fp H. assert (dlt min_precision p = true) as Hp.
  { apply dlt_val; [apply fin_num, min_precision_val|now apply fin_num|exact H]. }
  exists (up p). split; [intros; now apply up_num|]. split; [intros; now apply up_mono|].
  split; [intros; now apply up_fin|]. split; [intros; now apply up_bounds|].
  intros vs. exact (lin_consult p Fp Hp vs).
Qed.

(** A yes means a strict improvement. *)
Theorem C24_strict_improvement : forall p, fin p -> val (ddec 1 12) < val p ->
  forall vs bs t, consult lin_targets_trigger (new_lin_targets p) vs = Ok (bs, t) ->
  forall i j v w, nth_error bs i = Some true -> nth_error vs i = Some v ->
    (j < i)%nat -> nth_error vs j = Some w -> num v /\ (num w -> val v < val w).
Proof.
  intros p Fp H vs bs t E i j v w Eb Ev Hj Ew.
  destruct (C24_lin_targets p Fp H) as (up & _ & Mono & _ & _ & C). destruct (C vs) as (bs' & t' & E' & (_ & M)).
  rewrite E in E'. injection E' as <- <-. pose proof (proj1 (M i v true Ev Eb) eq_refl) as (K1 & K2).
  specialize (K2 j w Hj Ew). unfold rounded_key in K1, K2. assert (num v) as Nv.
  { unfold num. destruct (is_nan v); auto. exfalso. pose proof (val_range DBL_MAX). lra. }
  split; auto. intros Nw. unfold num in Nv, Nw. rewrite Nv, Nw in K2.
  destruct (Rlt_or_le (val v) (val w)) as [|L]; auto. pose proof (Mono w v Nw Nv L). lra.
Qed.

Example C24_example :
  answers (consult lin_targets_trigger (new_lin_targets (ddec 1 5))
    [dint 3; dnan; dint 4; ddec 25 1; ddec 2499991 6; dint 2; dinf]) =
    Some [true; false; false; true; false; true; false] /\
  fin (ddec 1 5) /\ dlt (ddec 1 12) (ddec 1 5) = true.
Proof. vm_compute. repeat split; reflexivity. Qed.

(** The observer accepts every positive precision, but the trigger aborts for small ones. *)
Theorem C24_tiny_precision_refuted : exists p, fin p /\ 0 < val p /\
  forall v, lin_targets_trigger (new_lin_targets p) v = UB.
Proof.
  exists (ddec 1 13). split; [vm_compute; reflexivity|]. split.
  - apply (dlt_val dzero (ddec 1 13)); vm_compute; reflexivity.
  - intros v. unfold lin_targets_trigger, coco_double_round_up_with_precision. cbn [li_precision new_lin_targets].
    replace (negb (dlt min_precision (ddec 1 13))) with true by (vm_compute; reflexivity). reflexivity.
Qed.

(** ** C25: evaluation numbers *)
Theorem C25_evaluation_numbers : forall pow10 s l dim, pow10_accurate pow10 ->
  s <> [] -> range_string s -> range_denotes s 1 0 l -> (1 <= List.length l < 1000)%nat -> within_decade l ->
  (1 <= dim)%N -> (forall b, In b l -> (dim * b < 2 ^ 64)%N) ->
  exists ev, coco_observer_evaluations s dim = Ok ev /\
  forall m, (N.of_nat m < 10 ^ 11)%N ->
  exists bs ev', consult (evaluations_trigger pow10) ev (counts m) = Ok (bs, ev') /\ List.length bs = m /\
    forall i b, nth_error bs i = Some b ->
      (b = true <-> power_number (N.of_nat (i + 1)) \/ base_number dim l (N.of_nat (i + 1))).
Proof. exact consult_evaluations. Qed.

Example C25_assumptions : pow10_accurate rounded_pow10.
Proof. exact rounded_pow10_ok. Qed.

(** The default base numbers in dimension 10; 11 = floor(10^(21/20)) and 50 are documented, 9 is not. *)
Example C25_example :
  range_denotes (str "1,2,5") 1 0 [1; 2; 5]%N /\ within_decade [1; 2; 5]%N /\
  power_number 11 /\ base_number 10 [1; 2; 5]%N 50 /\ ~ power_number 9.
Proof.
  split; [exact denotes_125|]. split; [apply fine_125|]. split; [|split; [|apply not_power_9_13]].
  - exists 21%nat. vm_compute. split; [discriminate|reflexivity].
  - exists 5%N, 0%N. split; [simpl; auto|reflexivity].
Qed.

(** When numbers are skipped (constraint evaluations count as well), numbers that are not documented
    fire while the trigger catches up. *)
Theorem C25_skipping_refuted : forall pow10, pow10_accurate pow10 ->
  exists ev ev', coco_observer_evaluations (str "1,2,5") 40 = Ok ev /\
    consult (evaluations_trigger pow10) ev [1; 9; 13]%N = Ok ([true; true; true], ev') /\
    (forall v, In v [9; 13]%N -> ~ power_number v /\ ~ base_number 40 [1; 2; 5]%N v).
Proof.
  intros pow10 HA. destruct (skipping pow10 HA) as (ev & ev' & E1 & E2). exists ev, ev'. split; auto. split; auto.
  destruct not_power_9_13 as (P9 & P13).
  assert (forall v, (v < 40)%N -> ~ base_number 40 [1; 2; 5]%N v) as NB.
  { intros v Hv (b & e & I & E). pose proof (N.pow_nonzero 10 e ltac:(lia)) as Hp.
    assert (1 <= 10 ^ e)%N as H1 by lia. set (q := (10 ^ e)%N) in *. simpl in I. lia. }
  intros v [<-|[<-|[]]]; split; auto; apply NB; lia.
Qed.

(** ** C30: constraint digit *)
Theorem C30_digit : forall c d, num c -> (logger_bbob_single_digit_constraint c = d <-> is_digit (val c) d).
Proof.
  intros c d N. split; [intros <-; now apply digit_ok|]. intros H. apply (digit_unique (val c)); auto. now apply digit_ok.
Qed.

Theorem C30_satisfied : forall c, num c -> (logger_bbob_single_digit_constraint c = 0%Z <-> val c <= 0).
Proof.
  intros c N. rewrite C30_digit by auto. unfold is_digit, digit_limit. simpl. split; [intros (_ & _ & H); apply H; lia|].
  intros H. split; [lia|]. split; [lia|]. auto.
Qed.

Theorem C30_monotone : forall c c', num c -> num c' -> val c <= val c' ->
  (logger_bbob_single_digit_constraint c <= logger_bbob_single_digit_constraint c')%Z.
Proof. intros c c' N N' H. apply (digit_mono (val c) (val c')); auto using digit_ok. Qed.

Theorem C30_nan : forall c, is_nan c = true -> logger_bbob_single_digit_constraint c = 9%Z.
Proof. exact digit_nan. Qed.

Example C30_example :
  map logger_bbob_single_digit_constraint [dopp dinf; dzero; ddec 1 9; ddec 5 4; ddec 1 1; dint 1; dinf; dnan] =
    [0; 0; 1; 5; 7; 8; 9; 9]%Z.
Proof. vm_compute. reflexivity. Qed.

(** ** C52: integer logging *)
Theorem C52_to_int : forall x k, fin x -> val x = IZR k -> (INT_MIN <= k <= INT_MAX)%Z ->
  coco_double_to_int x = Ok (if (k <? 0)%Z then (k + 1)%Z else k).
Proof. exact to_int_integer. Qed.

Theorem C52_negative_refuted : exists x k, fin x /\ val x = IZR k /\ (INT_MIN <= k <= INT_MAX)%Z /\
  coco_double_to_int x <> Ok k.
Proof.
  destruct (dint_val (-5) ltac:(lia)) as (F & V). exists (dint (-5)), (-5)%Z. split; auto. split; auto.
  split; [unfold INT_MIN, INT_MAX; lia|]. vm_compute. discriminate.
Qed.

Example C52_example : map coco_double_to_int [dint 7; dzero; dint (-5)] = [Ok 7; Ok 0; Ok (-4)]%Z.
Proof. vm_compute. reflexivity. Qed.

Print Assumptions C23_log_targets.
Print Assumptions C24_lin_targets.
Print Assumptions C24_strict_improvement.
Print Assumptions C24_tiny_precision_refuted.
Print Assumptions C25_evaluation_numbers.
Print Assumptions C25_skipping_refuted.
Print Assumptions C30_digit.
Print Assumptions C30_monotone.
Print Assumptions C52_to_int.
Print Assumptions C30_satisfied.
Print Assumptions C30_nan.
Print Assumptions C52_negative_refuted.
