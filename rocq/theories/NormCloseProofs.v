(** Accuracy of the normalised values and the link with the integers of MoModel.v. *)
From Coq Require Import List ZArith Reals Lra Lia Psatz Bool.
From Flocq Require Import Core BinarySingleNaN.
From Verif Require MoModel.
From Verif Require Import CBase DblModel DblSpec DblProofs NormModel NormSpec NormProofs NormValueProofs.
Import ListNotations.
Open Scope R_scope.
Local Notation big := (bpow radix2 1024).
Local Notation u := (bpow radix2 (-53)).
Local Notation eta := (bpow radix2 (-1075)).

(** ** No overflow *)
Lemma rnd_bpow r e : (-1074 <= e)%Z -> Rabs r <= bpow radix2 e -> Rabs (rnd r) <= bpow radix2 e.
Proof.
  intros E H. apply abs_round_le_generic; auto with typeclass_instances. apply generic_format_bpow. unfold FLT_exp. lia.
Qed.
Lemma plain r e : (-1074 <= e)%Z -> (e < 1024)%Z -> Rabs r <= bpow radix2 e -> clamp (rnd r) = rnd r /\ Rabs (rnd r) <= bpow radix2 e /\ - big < rnd r < big.
Proof.
  intros E F H. pose proof (rnd_bpow r e E H) as B. pose proof (bpow_lt radix2 e 1024 F) as L.
  split; [apply clamp_id; lra|]. split; [exact B|]. apply Rabs_le_inv in B. lra.
Qed.
Lemma bpow_double e : 2 * bpow radix2 e = bpow radix2 (e + 1).
Proof. rewrite Z.add_comm, bpow_plus. reflexivity. Qed.

Lemma disc_lower : bpow radix2 (-41) < D.
Proof. rewrite disc_val. change (bpow radix2 (-41)) with (/ 2199023255552). lra. Qed.
Lemma div_bound x y a : Rabs x <= bpow radix2 a -> bpow radix2 (-41) < y -> Rabs (x / y) <= bpow radix2 (a + 41).
Proof.
  intros X Y. pose proof (bpow_gt_0 radix2 (-41)) as Q. unfold Rdiv. rewrite Rabs_mult, bpow_plus.
  apply Rmult_le_compat; auto using Rabs_pos. rewrite Rabs_inv, Rabs_pos_eq by lra.
  change (bpow radix2 41) with (bpow radix2 (- -41)). rewrite bpow_opp. apply Rinv_le; lra.
Qed.

Lemma half_val : val (ddec 5 1) = 1 / 2.
Proof. rewrite (sf_val (ddec 5 1) 4503599627370496 (-53)) by (vm_compute; reflexivity). change (bpow radix2 (-53)) with (/ 9007199254740992). lra. Qed.

Section Value.
Variables y i n : double.
Hypothesis (MY : moderate1 y) (MI : moderate1 i) (MN : moderate1 n) (R : ranged1 i n).
Local Notation a := (val y - val i).
Local Notation b := (val n - val i).
Local Notation A := (rnd a).
Local Notation B := (rnd b).
Local Notation t := (rnd (A / B)).
Local Notation s := (rnd (t / D)).
Local Notation w := (rnd (s + 1 / 2)).
Local Notation r := (IZR (Zfloor w)).

Lemma chain : fin (dmul (step_number y i n) mo_discretization) /\ val (dmul (step_number y i n) mo_discretization) = rnd (r * D) /\
  D < B /\ val (step_number y i n) = r /\ fin (step_number y i n).
Proof.
  destruct MY as (FY & YB), MI as (FI & IB), MN as (FN & NB). destruct R as (_ & _ & FB & L).
  assert (Rabs a <= bpow radix2 901) as BA.
  { change 901%Z with (900 + 1)%Z. rewrite <- bpow_double. apply Rabs_le_inv in YB, IB. apply Rabs_le. lra. }
  assert (Rabs b <= bpow radix2 901) as BB.
  { change 901%Z with (900 + 1)%Z. rewrite <- bpow_double. apply Rabs_le_inv in NB, IB. apply Rabs_le. lra. }
  destruct (plain a 901 ltac:(lia) ltac:(lia) BA) as (CA & BA' & FA').
  destruct (plain b 901 ltac:(lia) ltac:(lia) BB) as (CB & BB' & _).
  destruct (dsub_val y i FY FI) as (NA & VA). rewrite CA in VA.
  assert (fin (dsub y i)) as FA by (apply fin_val; [exact NA|]; now rewrite VA).
  destruct (dsub_val n i FN FI) as (_ & VB). rewrite CB in VB. rewrite VB in L.
  pose proof D_pos as DP. pose proof disc_lower as DL.
  assert (val (dsub n i) <> 0) as NZ by (rewrite VB; lra).
  destruct (ddiv_val (dsub y i) (dsub n i) FA NZ FB) as (NT & VT). rewrite VA, VB in VT.
  destruct (plain (A / B) 942 ltac:(lia) ltac:(lia)) as (CT & BT & FT'); [apply (div_bound A B 901 BA'); lra|].
  rewrite CT in VT. assert (fin (ddiv (dsub y i) (dsub n i))) as FT by (apply fin_val; [exact NT|]; now rewrite VT).
  assert (D <> 0) as DZ by lra.
  destruct (ddiv_val _ mo_discretization FT DZ disc_fin) as (NS & VS). rewrite VT in VS.
  destruct (plain (t / D) 983 ltac:(lia) ltac:(lia)) as (CS & BS & FS'); [apply (div_bound t D 942 BT); lra|].
  rewrite CS in VS. set (sd := ddiv (ddiv (dsub y i) (dsub n i)) mo_discretization) in *.
  assert (fin sd) as FS by (apply fin_val; [exact NS|]; now rewrite VS).
  destruct (dadd_val sd (ddec 5 1) FS half_fin) as (NW & VW). rewrite VS, half_val in VW.
  destruct (plain (s + 1 / 2) 984 ltac:(lia) ltac:(lia)) as (CW & BW & FW').
  { change 984%Z with (983 + 1)%Z. rewrite <- bpow_double. pose proof (bpow_le radix2 0 983 ltac:(lia)) as Q. change (bpow radix2 0) with 1 in Q.
    apply Rabs_le_inv in BS. apply Rabs_le. lra. }
  rewrite CW in VW. assert (fin (dadd sd (ddec 5 1))) as FW by (apply fin_val; [exact NW|]; now rewrite VW).
  destruct (dfloor_fin _ FW) as (FR & VR). rewrite VW in VR.
  assert (step_number y i n = dfloor (dadd sd (ddec 5 1))) as ES by reflexivity. rewrite ES.
  destruct (dmul_val _ _ FR disc_fin) as (NV & VV). rewrite VR in VV.
  assert (Rabs r <= bpow radix2 985) as BR.
  { change 985%Z with (984 + 1)%Z. rewrite <- bpow_double. pose proof (bpow_le radix2 0 984 ltac:(lia)) as Q. change (bpow radix2 0) with 1 in Q.
    pose proof (Zfloor_lb w). pose proof (Zfloor_ub w). apply Rabs_le_inv in BW. apply Rabs_le. lra. }
  destruct (plain (r * D) 985 ltac:(lia) ltac:(lia)) as (CV & BV & FV').
  { rewrite Rabs_mult, (Rabs_pos_eq D) by lra. assert (D <= 1) by (rewrite disc_val; lra). pose proof (Rabs_pos r). nra. }
  rewrite CV in VV. split; [apply fin_val; [exact NV|]; now rewrite VV|]. auto.
Qed.

Lemma close : Rabs (rnd (r * D) - a / b) <= 251 / 1000 * / 1000000000000 + 8 * u * Rabs (a / b).
Proof.
  destruct chain as (_ & _ & BD & _). pose proof D_pos as DP. pose proof tiny as (E0 & E1).
  assert (49 / 100000000000000 < D < 501 / 1000000000000000) as DV by (rewrite disc_val; lra).
  rewrite bp53.
  pose proof (rnd_err a) as EA. pose proof (rnd_err b) as EB. pose proof (rnd_err (A / B)) as ET. pose proof (rnd_err (t / D)) as ES.
  pose proof (rnd_err (s + 1 / 2)) as EW. pose proof (rnd_err (r * D)) as EV. rewrite bp53 in *.
  pose proof (Zfloor_lb w) as FL. pose proof (Zfloor_ub w) as FU.
  set (q := a / b) in *.
  set (wr := IZR (Zfloor w)) in *. set (w0 := w) in *. set (s0 := s) in *. set (t0 := t) in *. set (B0 := B) in *. set (A0 := A) in *.
  set (e := eta) in *.
  assert (0 < b) as BP.
  { destruct (Rle_dec b 0) as [Q|Q]; [|lra]. exfalso. assert (B0 <= 0) by (unfold B0; rewrite <- rnd_0; now apply rnd_mono). lra. }
  rewrite (Rabs_pos_eq b) in EB by lra. apply Rabs_le_inv in EB.
  assert (b <= 1001 / 1000 * B0) as BB by lra.
  assert (a = q * b) as QA by (unfold q; field; lra).
  assert (Rabs a = Rabs q * b) as QB by (rewrite QA, Rabs_mult, (Rabs_pos_eq b); lra).
  assert (Rabs (A0 - a + q * (b - B0)) <= Rabs q * (2002 / 1000 * / 9007199254740992 * B0 + e) + e) as NUM.
  { eapply Rle_trans; [apply Rabs_triang|]. rewrite Rabs_mult.
    assert (Rabs (b - B0) <= / 9007199254740992 * b + e) as X by (apply Rabs_le; lra).
    rewrite QB in EA. pose proof (Rabs_pos q) as QP.
    assert (Rabs q * Rabs (b - B0) <= Rabs q * (/ 9007199254740992 * b + e)) by (now apply Rmult_le_compat_l).
    assert (Rabs q * b <= Rabs q * (1001 / 1000 * B0)) by (now apply Rmult_le_compat_l). lra. }
  assert (A0 / B0 - q = (A0 - a + q * (b - B0)) / B0) as EQ by (rewrite QA at 1; field; lra).
  assert (/ B0 < 3000000000000) as IB.
  { apply Rlt_trans with (/ (49 / 100000000000000)); [apply Rinv_lt_contravar; nra|]. lra. }
  assert (0 < / B0) as IP by (apply Rinv_0_lt_compat; lra).
  assert (e * / B0 <= / 1000000000000000000000000000000) as EI by nra.
  assert (Rabs (A0 / B0 - q) <= 201 / 100 * / 9007199254740992 * Rabs q + / 1000000000000000000000000000000) as C1.
  { rewrite EQ. unfold Rdiv. rewrite Rabs_mult, (Rabs_pos_eq (/ B0)) by lra.
    eapply Rle_trans; [apply Rmult_le_compat_r; [lra|exact NUM]|].
    replace ((Rabs q * (2002 / 1000 * / 9007199254740992 * B0 + e) + e) * / B0) with
      (Rabs q * (2002 * / 1000 * / 9007199254740992) + (Rabs q + 1) * (e * / B0)) by (field; lra).
    assert (Rabs q * (e * / B0) <= Rabs q * / 1000000000000000000000000000000) by (apply Rmult_le_compat_l; [apply Rabs_pos|exact EI]).
    pose proof (Rabs_pos q). lra. }
  set (T := A0 / B0) in *.
  assert (Rabs T <= Rabs q + Rabs (T - q)) as T1 by (replace T with (q + (T - q)) at 1 by ring; apply Rabs_triang).
  assert (Rabs (t0 - q) <= Rabs (t0 - T) + Rabs (T - q)) as T2 by (replace (t0 - q) with ((t0 - T) + (T - q)) by ring; apply Rabs_triang).
  pose proof (Rabs_pos q) as QP.
  assert (Rabs (t0 - q) <= 302 / 100 * / 9007199254740992 * Rabs q + 3 * / 1000000000000000000000000000000) as C2 by lra.
  assert (Rabs t0 <= Rabs q + Rabs (t0 - q)) as T3 by (replace t0 with (q + (t0 - q)) at 1 by ring; apply Rabs_triang).
  assert (forall x z k, Rabs (x - z / D) <= k -> Rabs (x * D - z) <= k * D) as SC.
  { intros x z k H. replace (x * D - z) with ((x - z / D) * D) by (field; lra). rewrite Rabs_mult, (Rabs_pos_eq D) by lra. apply Rmult_le_compat_r; lra. }
  apply SC in ES. assert (Rabs (t0 / D) * D = Rabs t0) as TD by (unfold Rdiv; rewrite Rabs_mult, Rabs_inv, (Rabs_pos_eq D) by lra; field; lra).
  rewrite Rmult_plus_distr_r, Rmult_assoc, TD in ES.
  assert (e * D <= / 1000000000000000000000000000000000000) as ED by nra.
  set (sD := s0 * D) in *.
  assert (Rabs (sD - q) <= Rabs (sD - t0) + Rabs (t0 - q)) as T4 by (replace (sD - q) with ((sD - t0) + (t0 - q)) by ring; apply Rabs_triang).
  assert (Rabs (sD - q) <= 403 / 100 * / 9007199254740992 * Rabs q + 5 * / 1000000000000000000000000000000) as C3 by lra.
  assert (Rabs sD <= Rabs q + Rabs (sD - q)) as T5 by (replace sD with (q + (sD - q)) at 1 by ring; apply Rabs_triang).
  assert (Rabs (w0 * D - sD - D / 2) <= / 9007199254740992 * (Rabs sD + D / 2) + e * D) as C4.
  { unfold sD. replace (w0 * D - s0 * D - D / 2) with ((w0 - (s0 + 1 / 2)) * D) by field. rewrite Rabs_mult, (Rabs_pos_eq D) by lra.
    eapply Rle_trans; [apply Rmult_le_compat_r; [lra|exact EW]|]. rewrite Rmult_plus_distr_r.
    assert (Rabs (s0 + 1 / 2) * D <= Rabs (s0 * D) + D / 2).
    { replace (Rabs (s0 + 1 / 2) * D) with (Rabs (s0 * D + D / 2)) by (replace (s0 * D + D / 2) with ((s0 + 1 / 2) * D) by field; rewrite Rabs_mult, (Rabs_pos_eq D); lra).
      eapply Rle_trans; [apply Rabs_triang|]. rewrite (Rabs_pos_eq (D / 2)) by lra. lra. }
    rewrite Rmult_assoc. lra. }
  assert (w0 * D - D <= wr * D <= w0 * D) as C5 by (split; nra).
  assert (Rabs (wr * D - sD) <= D / 2 + Rabs (w0 * D - sD - D / 2)) as C6.
  { replace (wr * D - sD) with ((wr * D - w0 * D + D / 2) + (w0 * D - sD - D / 2)) by ring. eapply Rle_trans; [apply Rabs_triang|].
    apply Rplus_le_compat_r. apply Rabs_le. lra. }
  set (v := rnd (wr * D)) in *.
  assert (Rabs (v - q) <= Rabs (v - wr * D) + Rabs (wr * D - sD) + Rabs (sD - q)) as C7.
  { replace (v - q) with ((v - wr * D) + (wr * D - sD) + (sD - q)) by ring. eapply Rle_trans; [apply Rabs_triang|]. apply Rplus_le_compat_r, Rabs_triang. }
  assert (Rabs (wr * D) <= Rabs sD + Rabs (wr * D - sD)) as C8 by (replace (wr * D) with (sD + (wr * D - sD)) at 1 by ring; apply Rabs_triang).
  assert (D / 2 <= 2505 / 10000 * / 1000000000000) as DH by (rewrite disc_val; lra).
  lra.
Qed.
End Value.

Lemma normalize_value_close y i n : moderate1 y -> moderate1 i -> moderate1 n -> ranged1 i n ->
  exists v, normalize_value y i n = Ok v /\ fin v /\ Rabs (val v - position y i n) <= 251 / 1000 * / 10 ^ 12 + / 2 ^ 50 * position y i n.
Proof.
  intros MY MI MN R. destruct (normalize_value_max y i n R (fin_num _ (proj1 MY))) as (v & E & N & V).
  exists v. split; [exact E|]. destruct (chain y i n MY MI MN R) as (F & W & _). pose proof (close y i n MY MI MN R) as C.
  rewrite <- W in C. set (x := val (dmul _ _)) in *. rewrite bp53 in C.
  split.
  - apply fin_val; [exact N|]. rewrite V. pose proof (val_bound _ F) as VB. fold x in VB. pose proof big_pos. unfold Rmax. destruct (Rle_dec 0 x); lra.
  - rewrite V. unfold position. set (q := (val y - val i) / (val n - val i)) in *.
    replace (10 ^ 12) with 1000000000000 by ring. replace (2 ^ 50) with 1125899906842624 by ring.
    destruct (Rle_dec 0 q) as [Q|Q].
    + rewrite (Rmax_right 0 q) by lra. rewrite (Rabs_pos_eq q) in C by lra. apply Rabs_le_inv in C. apply Rabs_le. unfold Rmax. destruct (Rle_dec 0 x); lra.
    + rewrite (Rmax_left 0 q) by lra. 
      assert (x <= 0) as X.
      { (* at the ideal value the result is 0 *)
        destruct R as (FI & FN & FB & L). destruct (mono_pre i n (conj FI (conj FN (conj FB L)))) as (_ & M).
        assert (0 < val n - val i) as BP.
        { destruct (Rle_dec (val n - val i) 0) as [Z|Z]; [|lra]. exfalso. pose proof D_pos.
          assert (val (dsub n i) <= 0); [|lra]. rewrite (proj2 (dsub_val n i FN FI)).
          replace 0 with (clamp (rnd 0)) by (rewrite rnd_0; apply clamp_id; rewrite Rabs_R0; pose proof big_pos; lra).
          now apply clamp_mono, rnd_mono. }
        assert (val y <= val i) as YI.
        { apply Rnot_lt_le. intros Z. apply Q. unfold q. apply Rlt_le, Rdiv_lt_0_compat; lra. }
        pose proof (M y i (fin_num _ (proj1 MY)) (fin_num _ FI) YI) as Z. cbn beta in Z. fold x in Z.
        destruct (normalize_value_max i i n (conj FI (conj FN (conj FB L))) (fin_num _ FI)) as (z & EZ & _ & VZ).
        rewrite (normalize_ideal i n (conj FI (conj FN (conj FB L)))) in EZ. assert (dzero = z) as <- by congruence. rewrite zero_val in VZ.
        pose proof (Rmax_r 0 (val (dmul (step_number i i n) mo_discretization))). lra. }
      rewrite Rmax_left by exact X. rewrite Rminus_0_r, Rabs_R0. lra.
Qed.

(** ** The integers of MoModel.v *)
Lemma grid_eq a b : (0 <= a)%Z -> (0 <= b)%Z -> (a <= 2000000000000000)%Z -> (b <= 2000000000000000)%Z ->
  (grid a = grid b -> a = b) /\ (grid a < grid b -> (a < b)%Z).
Proof.
  intros A B LA LB. pose proof P_pos as PP. split.
  - intros E. destruct (Z.lt_trichotomy a b) as [L|[L|L]]; auto; exfalso.
    + pose proof (grid_strict a b A L LB). lra.
    + pose proof (grid_strict b a B L LA). lra.
  - intros E. apply Z.nle_gt. intros L. pose proof (grid_mono b a L). lra.
Qed.
Lemma compare_int a b : (0 <= a)%Z -> (0 <= b)%Z -> (a <= 2000000000000000)%Z -> (b <= 2000000000000000)%Z ->
  forall x y, fin x -> fin y -> val x = grid a -> val y = grid b ->
  coco_double_almost_equal x y mo_precision = MoModel.almost_equal (10 * a) (10 * b) MoModel.mo_precision /\
  dlt x y = (10 * a <? 10 * b)%Z.
Proof.
  intros A B LA LB x y FX FY VX VY.
  assert (on_grid x) as GX by (split; [exact FX|eauto]). assert (on_grid y) as GY by (split; [exact FY|eauto]).
  pose proof (grid_eq a b A B LA LB) as (I1 & I2).
  split.
  - unfold MoModel.almost_equal, MoModel.mo_precision. destruct (coco_double_almost_equal x y mo_precision) eqn:E.
    + apply almost_equal_grid in E; auto. rewrite VX, VY in E. rewrite (I1 E). symmetry. apply Z.ltb_lt. lia.
    + apply almost_equal_grid_false in E; auto. symmetry. apply Z.ltb_ge.
      assert (a <> b) by (intros ->; apply E; congruence). lia.
  - destruct (dlt x y) eqn:E.
    + apply dlt_val in E; auto using fin_num. rewrite VX, VY in E. apply I2 in E. symmetry. apply Z.ltb_lt. lia.
    + apply dlt_false in E; auto using fin_num. rewrite VX, VY in E. symmetry. apply Z.ltb_ge.
      apply Z.nlt_ge. intros L. pose proof (grid_strict a b A ltac:(lia) LB). pose proof P_pos. lra.
Qed.

Lemma stands_compare p q m m' : stands_for p m -> stands_for q m' -> below_1000 m -> below_1000 m' ->
  compare_last p q = MoModel.compare_last m m' /\ mo_get_dominance (vec p) (vec q) = MoModel.dominance m m'.
Proof.
  intros (F0 & F1 & a & b & -> & A & B & V0 & V1) (G0 & G1 & a' & b' & -> & A' & B' & W0 & W1) (L0 & L1) (L0' & L1').
  cbn [fst snd] in *. fold (grid a) in V0. fold (grid b) in V1. fold (grid a') in W0. fold (grid b') in W1.
  destruct (compare_int a a' A A' ltac:(lia) ltac:(lia) _ _ F0 G0 V0 W0) as (E0 & E0').
  destruct (compare_int b b' B B' ltac:(lia) ltac:(lia) _ _ F1 G1 V1 W1) as (E1 & E1').
  destruct (compare_int a' a A' A ltac:(lia) ltac:(lia) _ _ G0 F0 W0 V0) as (_ & E2).
  destruct (compare_int b' b B' B ltac:(lia) ltac:(lia) _ _ G1 F1 W1 V1) as (_ & E3).
  split.
  - unfold compare_last, MoModel.compare_last. cbn [fst snd]. rewrite E1, E1'. reflexivity.
  - unfold mo_get_dominance, MoModel.dominance, MoModel.mo_get_dominance, vec, MoModel.vec. cbn [fst snd dominance_flags MoModel.dominance_flags].
    rewrite E0, E0', E1, E1', E2, E3. reflexivity.
Qed.

Lemma stands_within p m : stands_for p m -> below_1000 m -> mo_is_within_ROI p = MoModel.mo_is_within_ROI m.
Proof.
  intros (F0 & F1 & a & b & -> & A & B & V0 & V1) (L0 & L1). cbn [fst snd] in *. fold (grid a) in V0. fold (grid b) in V1.
  assert (forall x k, fin x -> val x = grid k -> (0 <= k)%Z -> (10 * k <= 20000000000000000)%Z -> value_within x = MoModel.value_within (10 * k)) as W.
  { intros x k F V K L. unfold value_within, MoModel.value_within.
    assert (val dzero = grid 0) as Z0 by (now rewrite grid_0). assert (val (dint 1) = grid 2000000000000) as Z1 by (now rewrite grid_steps, one_val).
    destruct (compare_int k 0 K ltac:(lia) ltac:(lia) ltac:(lia) _ _ F zero_fin V Z0) as (E0 & _).
    destruct (compare_int k 2000000000000 K ltac:(lia) ltac:(lia) ltac:(lia) _ _ F one_fin V Z1) as (E1 & E1').
    destruct (compare_int 0 k ltac:(lia) K ltac:(lia) ltac:(lia) _ _ zero_fin F Z0 V) as (_ & E2).
    rewrite E0, E1, E1', E2. reflexivity. }
  unfold mo_is_within_ROI, MoModel.mo_is_within_ROI. cbn [fst snd]. rewrite (W (fst p) a), (W (snd p) b); auto.
Qed.

Lemma value_int y i n v k : normalize_value y i n = Ok v -> fin (step_number y i n) -> val (step_number y i n) = IZR k -> (Z.abs k <= 2000000000000000)%Z ->
  fin v /\ val v = grid (Z.max 0 k).
Proof.
  unfold normalize_value. destruct (dlt mo_discretization (dsub n i)); [|discriminate]. cbv zeta. intros E FR VR K.
  destruct (dmul_val _ _ FR disc_fin) as (NV & VV). rewrite VR in VV.
  assert (Rabs (IZR k * D) <= bpow radix2 10) as BK.
  { rewrite Rabs_mult, (Rabs_pos_eq D) by (pose proof D_pos; lra). rewrite <- abs_IZR. apply IZR_le in K.
    apply Rle_trans with (2000000000000000 * D); [apply Rmult_le_compat_r; [pose proof D_pos; lra|exact K]|]. rewrite bp10, disc_val. lra. }
  destruct (plain (IZR k * D) 10 ltac:(lia) ltac:(lia) BK) as (C & _ & B). rewrite C in VV.
  assert (fin (dmul (step_number y i n) mo_discretization)) as F by (apply fin_val; [exact NV|]; rewrite VV; exact B).
  destruct (dlt (dmul (step_number y i n) mo_discretization) dzero) eqn:L.
  - assert (dzero = v) as <- by congruence. split; [reflexivity|]. apply dlt_val in L; [|exact NV|reflexivity]. rewrite zero_val, VV in L.
    fold (grid k) in L. replace (Z.max 0 k) with 0%Z; [now rewrite grid_0|].
    symmetry. apply Z.max_l. apply Z.nlt_ge. intros Q. pose proof (grid_mono 0 k ltac:(lia)) as M. rewrite grid_0 in M. lra.
  - assert (dmul (step_number y i n) mo_discretization = v) as <- by congruence. split; [exact F|]. apply dlt_false in L; [|exact NV|reflexivity]. rewrite zero_val, VV in L.
    fold (grid k) in L. rewrite VV. fold (grid k). replace (Z.max 0 k) with k; [reflexivity|].
    symmetry. apply Z.max_r. apply Z.nlt_ge. intros Q. pose proof (grid_mono k (-1) ltac:(lia)) as M.
    assert (grid (-1) = - D) as X. { rewrite <- grid_1. unfold grid. rewrite <- rnd_opp. f_equal. lra. }
    pose proof D_pos. lra.
Qed.

Lemma normalize_stands y i n p k l : mo_normalize y i n = Ok p ->
  fin (step_number (fst y) (fst i) (fst n)) -> val (step_number (fst y) (fst i) (fst n)) = IZR k -> (Z.abs k <= 2000000000000000)%Z ->
  fin (step_number (snd y) (snd i) (snd n)) -> val (step_number (snd y) (snd i) (snd n)) = IZR l -> (Z.abs l <= 2000000000000000)%Z ->
  stands_for p (MoModel.mo_normalize (k, l)) /\ below_1000 (MoModel.mo_normalize (k, l)).
Proof.
  intros H FK VK BK FL VL BL. destruct (mo_normalize_inv _ _ _ _ H) as (a & b & A & B & E1 & E0). cbv zeta in E1, E0. rewrite <- E1 in E0.
  destruct (value_int _ _ _ _ k A FK VK BK) as (FA & VA). destruct (value_int _ _ _ _ l B FL VL BL) as (FB & VB).
  assert (val dzero = grid 0) as Z0 by (now rewrite grid_0). assert (val (dint 1) = grid 2000000000000) as Z1 by (now rewrite grid_steps, one_val).
  assert (forall z, (if (z * MoModel.mo_discretization <? 0)%Z then 0 else z * MoModel.mo_discretization)%Z = (10 * Z.max 0 z)%Z) as MX.
  { intros z. unfold MoModel.mo_discretization. destruct (Z.ltb_spec (z * 10) 0); lia. }
  set (b' := if MoModel.almost_equal (10 * Z.max 0 k) 0 MoModel.mo_precision && (10 * Z.max 0 l <? MoModel.one)%Z then 2000000000000%Z else Z.max 0 l).
  assert (fin (snd p) /\ val (snd p) = grid b') as (F1 & V1).
  { rewrite E1. unfold b'.
    destruct (compare_int (Z.max 0 k) 0 ltac:(lia) ltac:(lia) ltac:(lia) ltac:(lia) _ _ FA zero_fin VA Z0) as (Q & _).
    destruct (compare_int (Z.max 0 l) 2000000000000 ltac:(lia) ltac:(lia) ltac:(lia) ltac:(lia) _ _ FB one_fin VB Z1) as (_ & Q').
    change (10 * 0)%Z with 0%Z in Q. change (10 * 2000000000000)%Z with MoModel.one in Q'. rewrite Q, Q'.
    destruct (MoModel.almost_equal (10 * Z.max 0 k) 0 MoModel.mo_precision && (10 * Z.max 0 l <? MoModel.one)%Z); split; auto using one_fin. }
  assert (0 <= b' <= 2000000000000000)%Z as BB by (unfold b'; clear -BK BL; destruct (MoModel.almost_equal (10 * Z.max 0 k) 0 MoModel.mo_precision && (10 * Z.max 0 l <? MoModel.one)%Z); lia).
  set (a' := if MoModel.almost_equal (10 * b') 0 MoModel.mo_precision && (10 * Z.max 0 k <? MoModel.one)%Z then 2000000000000%Z else Z.max 0 k).
  assert (fin (fst p) /\ val (fst p) = grid a') as (F0 & V0).
  { rewrite E0. unfold a'.
    destruct (compare_int b' 0 ltac:(lia) ltac:(lia) ltac:(lia) ltac:(lia) _ _ F1 zero_fin V1 Z0) as (Q & _).
    destruct (compare_int (Z.max 0 k) 2000000000000 ltac:(lia) ltac:(lia) ltac:(lia) ltac:(lia) _ _ FA one_fin VA Z1) as (_ & Q').
    change (10 * 0)%Z with 0%Z in Q. change (10 * 2000000000000)%Z with MoModel.one in Q'. rewrite Q, Q'.
    destruct (MoModel.almost_equal (10 * b') 0 MoModel.mo_precision && (10 * Z.max 0 k <? MoModel.one)%Z); split; auto using one_fin. }
  assert (0 <= a' <= 2000000000000000)%Z as AA by (unfold a'; clear -BK BL; destruct (MoModel.almost_equal (10 * b') 0 MoModel.mo_precision && (10 * Z.max 0 k <? MoModel.one)%Z); lia).
  assert (MoModel.mo_normalize (k, l) = (10 * a', 10 * b')%Z) as ->.
  { unfold MoModel.mo_normalize. cbn [fst snd]. rewrite !MX.
    assert ((if MoModel.almost_equal (10 * Z.max 0 k) 0 MoModel.mo_precision && (10 * Z.max 0 l <? MoModel.one)%Z then MoModel.one else (10 * Z.max 0 l)%Z) = (10 * b')%Z) as ->.
    { unfold b'. destruct (MoModel.almost_equal (10 * Z.max 0 k) 0 MoModel.mo_precision && (10 * Z.max 0 l <? MoModel.one)%Z); reflexivity. }
    unfold a'. destruct (MoModel.almost_equal (10 * b') 0 MoModel.mo_precision && (10 * Z.max 0 k <? MoModel.one)%Z); reflexivity. }
  split.
  - split; [exact F0|]. split; [exact F1|]. exists a', b'. split; [reflexivity|]. split; [lia|]. split; [lia|]. split; [exact V0|exact V1].
  - split; cbn [fst snd]; lia.
Qed.
