(** Proofs about mixed-integer problems. *)
From Coq Require Import List Arith NArith ZArith Reals Bool Lia Lra Psatz.
From Flocq Require Import Core BinarySingleNaN.
Import ListNotations.
From Verif Require Import CBase OptModel DblModel DblSpec DblProofs ProbModel ProbSpec ProbProofs MixModel MixSpec.
From Verif Require DigitProofs.
From Flocq Require Plus_error.
Open Scope R_scope.

(** ** Rounding errors *)
Definition u : R := bpow radix2 (-53).
Lemma u_val : u = / 9007199254740992.
Proof. reflexivity. Qed.
Lemma u_pos : 0 < u < / 9000000000000000.
Proof. rewrite u_val. lra. Qed.

Lemma small_rnd : forall r M, Rabs r <= M -> M <= 1000000000000 ->
  clamp (rnd r) = rnd r /\ Rabs (rnd r) < big /\ Rabs (rnd r - r) <= u * (M + / 1000).
Proof.
  intros r M H HM. pose proof (rnd_err r) as E. pose proof u_pos as U. fold u in E.
  assert (T : bpow radix2 (-1075) <= u * / 1000).
  { apply Rle_trans with (bpow radix2 (-53) * bpow radix2 (-10)).
    - rewrite <- bpow_plus. apply bpow_le. lia.
    - fold u. apply Rmult_le_compat_l; [lra|]. change (bpow radix2 (-10)) with (/ 1024). lra. }
  assert (E' : Rabs (rnd r - r) <= u * (M + / 1000)) by nra.
  assert (B : Rabs (rnd r) < big).
  { apply Rle_lt_trans with (M + 1).
    - replace (rnd r) with ((rnd r - r) + r) by ring. eapply Rle_trans; [apply Rabs_triang|]. nra.
    - apply Rlt_trans with (IZR (2 ^ 53)); [|apply big_53]. apply Rle_lt_trans with (1000000000001); [lra|]. apply IZR_lt. reflexivity. }
  split; [apply clamp_id; lra|]. split; assumption.
Qed.

Lemma near_fin : forall z r M, num z -> val z = clamp (rnd r) -> Rabs r <= M -> M <= 1000000000000 ->
  fin z /\ Rabs (val z - r) <= u * (M + / 1000).
Proof.
  intros z r M N V H HM. destruct (small_rnd r M H HM) as (C & B & E). rewrite C in V. split.
  - apply fin_val; [exact N|]. rewrite V. apply Rabs_def2 in B. lra.
  - rewrite V. exact E.
Qed.
Lemma add_near : forall x y M, fin x -> fin y -> Rabs (val x + val y) <= M -> M <= 1000000000000 ->
  fin (dadd x y) /\ Rabs (val (dadd x y) - (val x + val y)) <= u * (M + / 1000).
Proof. intros x y M Fx Fy H HM. destruct (dadd_val x y Fx Fy) as [N V]. eapply near_fin; eauto. Qed.
Lemma sub_near : forall x y M, fin x -> fin y -> Rabs (val x - val y) <= M -> M <= 1000000000000 ->
  fin (dsub x y) /\ Rabs (val (dsub x y) - (val x - val y)) <= u * (M + / 1000).
Proof. intros x y M Fx Fy H HM. destruct (dsub_val x y Fx Fy) as [N V]. eapply near_fin; eauto. Qed.
Lemma mul_near : forall x y M, fin x -> fin y -> Rabs (val x * val y) <= M -> M <= 1000000000000 ->
  fin (dmul x y) /\ Rabs (val (dmul x y) - (val x * val y)) <= u * (M + / 1000).
Proof. intros x y M Fx Fy H HM. destruct (dmul_val x y Fx Fy) as [N V]. eapply near_fin; eauto. Qed.
Lemma div_near : forall x y M, fin x -> fin y -> val y <> 0 -> Rabs (val x / val y) <= M -> M <= 1000000000000 ->
  fin (ddiv x y) /\ Rabs (val (ddiv x y) - (val x / val y)) <= u * (M + / 1000).
Proof. intros x y M Fx Fy Ny H HM. destruct (ddiv_val x y Fx Ny Fy) as [N V]. eapply near_fin; eauto. Qed.

(** Integers are exact *)
Lemma exact_int : forall z r, num z -> val z = clamp (rnd r) -> forall k, r = IZR k -> (Z.abs k <= 2 ^ 53)%Z -> fin z /\ val z = IZR k.
Proof.
  intros z r N V k -> B. rewrite rnd_int in V by exact B.
  assert (A : Rabs (IZR k) < big) by (rewrite <- abs_IZR; apply IZR_le in B; pose proof big_53; lra).
  rewrite clamp_lt in V by exact A. split; [|exact V]. apply fin_val; [exact N|]. rewrite V. apply Rabs_def2 in A. lra.
Qed.

(** ** Rounding to an integer *)
Definition half : double := ddec 5 1.
Lemma half_val : fin half /\ val half = 1/2.
Proof.
  unfold half, ddec. destruct (dint_val 5 ltac:(lia)) as [F5 V5]. destruct (dint_val (10 ^ 1) ltac:(lia)) as [F10 V10].
  change (10 ^ 1)%Z with 10%Z in *. destruct (ddiv_val (dint 5) (dint 10) F5 ltac:(rewrite V10; lra) F10) as [N V].
  rewrite V5, V10 in V. replace (5 / 10) with (1 / 2) in V by lra.
  assert (R : rnd (1/2) = 1/2).
  { apply round_generic; [auto with typeclass_instances|]. replace (1/2) with (bpow radix2 (-1)) by (cbn; lra).
    apply generic_format_bpow. cbn. lia. }
  rewrite R in V. assert (A : Rabs (1/2) < big) by (rewrite Rabs_pos_eq by lra; pose proof big_53; apply Rlt_trans with (IZR (2 ^ 53)); [apply Rlt_trans with 1; [lra|apply IZR_lt; reflexivity]|assumption]).
  rewrite clamp_lt in V by exact A. split; [|exact V]. apply fin_val; [exact N|]. rewrite V. apply Rabs_def2 in A. lra.
Qed.

Lemma format_val : forall x, fin x -> generic_format radix2 (FLT_exp (-1074) 53) (val x).
Proof. intros x F. rewrite val_fin by auto. apply (generic_format_B2R 53 1024 x). Qed.

Lemma format_half : forall k, (0 <= k <= 2 ^ 51)%Z -> generic_format radix2 (FLT_exp (-1074) 53) (IZR k + 1/2).
Proof.
  intros k H. apply generic_format_FLT. exists (Float radix2 (2 * k + 1) (-1)).
  - unfold F2R. cbn [Fnum Fexp]. rewrite plus_IZR, mult_IZR. cbn. lra.
  - cbn [Fnum]. change (Zpower radix2 53) with (2 ^ 53)%Z. lia.
  - cbn. lia.
Qed.

(** The double before k + 1/2, plus 1/2, is less than k + 1. *)
Lemma pred_half : forall k r, (1 <= k <= 2 ^ 51)%Z -> generic_format radix2 (FLT_exp (-1074) 53) r -> r < IZR k + 1/2 -> rnd (r + 1/2) < IZR k + 1.
Proof.
  intros k r Hk Fr Lr.
  pose proof (format_half k ltac:(lia)) as Fk.
  set (e := (mag radix2 (IZR k + 1/2) - 53)%Z : Z).
  assert (P0 : 0 < IZR k + 1/2) by (assert (1 <= IZR k) by (apply IZR_le; lia); lra).
  assert (He : (-52 <= e <= -1)%Z).
  { assert (L1 : (1 <= mag radix2 (IZR k + 1/2))%Z).
    { apply mag_ge_bpow. cbn. rewrite Rabs_pos_eq by lra. assert (1 <= IZR k) by (apply IZR_le; lia). lra. }
    assert (L2 : (mag radix2 (IZR k + 1/2) <= 52)%Z).
    { apply mag_le_bpow; [lra|]. rewrite Rabs_pos_eq by lra. change (bpow radix2 52) with (IZR (2 ^ 52)).
      assert (IZR k <= IZR (2 ^ 51)) by (apply IZR_le; lia). assert (IZR (2 ^ 51) + 1 <= IZR (2 ^ 52)) by (rewrite <- plus_IZR; apply IZR_le; lia). lra. }
    unfold e. lia. }
  assert (U : ulp radix2 (FLT_exp (-1074) 53) (IZR k + 1/2) = bpow radix2 e).
  { rewrite ulp_neq_0 by lra. unfold cexp, FLT_exp. f_equal. fold e. lia. }
  assert (Lp : r <= pred radix2 (FLT_exp (-1074) 53) (IZR k + 1/2)).
  { apply pred_ge_gt; auto with typeclass_instances. }
  assert (Pk : IZR k + 1/2 < bpow radix2 (e + 53)).
  { replace (e + 53)%Z with (mag radix2 (IZR k + 1/2) : Z) by (unfold e; lia). rewrite <- (Rabs_pos_eq (IZR k + 1/2)) at 1 by lra. apply bpow_mag_gt. }
  assert (Pk1 : IZR k + 1 <= bpow radix2 (e + 53)).
  { rewrite <- (IZR_Zpower radix2 (e + 53)) in * by lia. rewrite <- plus_IZR. apply IZR_le.
    assert (IZR k < IZR (Zpower radix2 (e + 53))) by lra. apply lt_IZR in H. lia. }
  assert (Pr : pred radix2 (FLT_exp (-1074) 53) (IZR k + 1/2) <= IZR k + 1/2 - bpow radix2 e).
  { rewrite pred_eq_pos by lra. unfold pred_pos. case Req_bool_spec; intros Q.
    - exfalso.
      assert (Q2 : (IZR (2 * k + 1) = IZR (Zpower radix2 (e + 53)))%R).
      { rewrite IZR_Zpower by lia. rewrite plus_IZR, mult_IZR. replace (e + 53)%Z with ((mag radix2 (IZR k + 1/2) - 1) + 1)%Z by (unfold e; lia).
        rewrite bpow_plus, <- Q. cbn. lra. }
      apply eq_IZR in Q2. replace (e + 53)%Z with (1 + (e + 52))%Z in Q2 by lia. rewrite Zpower_plus in Q2 by lia.
      change (Zpower radix2 1) with 2%Z in Q2. lia.
    - rewrite U. lra. }
  apply Rle_lt_trans with (IZR k + 1 - bpow radix2 e); [|pose proof (bpow_gt_0 radix2 e); lra].
  assert (Fm : generic_format radix2 (FLT_exp (-1074) 53) (IZR k + 1 - bpow radix2 e)).
  { apply generic_format_FLT. exists (Float radix2 ((k + 1) * Zpower radix2 (- e) - 1) e).
    - unfold F2R. cbn [Fnum Fexp]. rewrite minus_IZR, mult_IZR, plus_IZR, IZR_Zpower by lia.
      rewrite Rmult_minus_distr_r, Rmult_assoc, <- bpow_plus. replace (- e + e)%Z with 0%Z by lia. cbn [bpow]. lra.
    - cbn [Fnum]. assert (G : ((k + 1) * Zpower radix2 (- e) <= Zpower radix2 53)%Z).
      { apply le_IZR. rewrite mult_IZR, plus_IZR, !IZR_Zpower by lia. replace 53%Z with ((e + 53) + - e)%Z by lia. rewrite bpow_plus.
        apply Rmult_le_compat_r; [apply bpow_ge_0|]. lra. }
      assert (1 <= (k + 1) * Zpower radix2 (- e))%Z.
      { pose proof (Zpower_gt_0 radix2 (- e) ltac:(lia)). nia. }
      rewrite Z.abs_eq by lia. lia.
    - cbn. lia. }
  rewrite <- (round_generic radix2 (FLT_exp (-1074) 53) ZnearestE _ Fm). apply rnd_mono. lra.
Qed.

Lemma pred_half_0 : forall r, generic_format radix2 (FLT_exp (-1074) 53) r -> r < 1/2 -> r <> below_half -> rnd (r + 1/2) < 1.
Proof.
  intros r Fr Lr Nr.
  assert (E : pred radix2 (FLT_exp (-1074) 53) (1/2) = below_half).
  { unfold below_half. replace (1/2) with (bpow radix2 (-1)) by (cbn; lra). rewrite pred_bpow. reflexivity. }
  assert (Fb : generic_format radix2 (FLT_exp (-1074) 53) below_half).
  { rewrite <- E. apply generic_format_pred; auto with typeclass_instances. replace (1/2) with (bpow radix2 (-1)) by (cbn; lra).
    apply generic_format_bpow. cbn. lia. }
  assert (L : r <= below_half).
  { rewrite <- E. apply pred_ge_gt; auto with typeclass_instances. replace (1/2) with (bpow radix2 (-1)) by (cbn; lra).
    apply generic_format_bpow. cbn. lia. }
  assert (L2 : r < below_half) by lra.
  assert (E2 : pred radix2 (FLT_exp (-1074) 53) below_half = 1/2 - bpow radix2 (-53)).
  { assert (P : 0 < below_half) by (unfold below_half; cbn; lra).
    assert (M : mag radix2 below_half = (-1)%Z :> Z).
    { apply mag_unique. rewrite Rabs_pos_eq by lra. unfold below_half. cbn. lra. }
    rewrite pred_eq_pos by lra. unfold pred_pos. rewrite M. case Req_bool_spec; intros Q.
    - unfold below_half in Q. cbn in Q. lra.
    - rewrite ulp_neq_0 by lra. unfold cexp. rewrite M. unfold below_half. cbn. lra. }
  assert (L3 : r <= 1/2 - bpow radix2 (-53)).
  { rewrite <- E2. apply pred_ge_gt; auto with typeclass_instances. }
  apply Rle_lt_trans with (1 - bpow radix2 (-53)); [|cbn; lra].
  assert (Fm : generic_format radix2 (FLT_exp (-1074) 53) (1 - bpow radix2 (-53))).
  { apply generic_format_FLT. exists (Float radix2 (2 ^ 53 - 1) (-53)).
    - unfold F2R. cbn [Fnum Fexp]. rewrite minus_IZR. change (IZR (2 ^ 53)) with (bpow radix2 53). rewrite Rmult_minus_distr_r, <- bpow_plus. cbn [bpow Z.add]. 
      replace (53 + -53)%Z with 0%Z by lia. cbn. lra.
    - cbn [Fnum]. change (Zpower radix2 53) with (2 ^ 53)%Z. lia.
    - cbn. lia. }
  rewrite <- (round_generic radix2 (FLT_exp (-1074) 53) ZnearestE _ Fm). apply rnd_mono. lra.
Qed.

Lemma int_below_big : forall j, (Z.abs j <= 2 ^ 53)%Z -> Rabs (IZR j) < big.
Proof. intros j H. rewrite <- abs_IZR. apply IZR_le in H. pose proof big_53. lra. Qed.

Lemma sum_ge : forall x j, fin x -> (0 <= j <= 2 ^ 50)%Z -> IZR j - 1/2 <= val x -> IZR j <= val (dadd x half).
Proof.
  intros x j F Hj H. destruct half_val as [Fh Vh]. destruct (dadd_val x half F Fh) as [_ V]. rewrite V, Vh.
  rewrite <- (clamp_lt (IZR j)) by (apply int_below_big; lia). apply clamp_mono.
  rewrite <- (rnd_int j) by lia. apply rnd_mono. lra.
Qed.
Lemma sum_lt : forall x j, fin x -> (0 <= j <= 2 ^ 50)%Z -> val x < IZR j + 1/2 -> (j = 0%Z -> val x <> below_half) -> val (dadd x half) < IZR j + 1.
Proof.
  intros x j F Hj H Nb. destruct half_val as [Fh Vh]. destruct (dadd_val x half F Fh) as [_ V]. rewrite V, Vh.
  assert (L : rnd (val x + 1/2) < IZR j + 1).
  { destruct (Z.eq_dec j 0) as [->|Nj].
    - replace (IZR 0 + 1) with 1 by lra. apply pred_half_0; [apply format_val; auto|lra|auto].
    - apply pred_half; [lia|apply format_val; auto|exact H]. }
  assert (0 <= IZR j) by (apply IZR_le; lia). pose proof big_pos. unfold clamp. unfold Rmax, Rmin. repeat destruct Rle_dec; lra.
Qed.

Lemma floor_cases : forall s, num s -> num (dfloor s) /\
  ((fin s /\ fin (dfloor s) /\ val (dfloor s) = IZR (Zfloor (val s))) \/
   (~ fin s /\ dfloor s = s /\ (val s = big \/ val s = - big))).
Proof.
  intros s N. split; [apply dfloor_num; auto|]. destruct (is_finite s) eqn:E.
  - left. split; [exact E|]. apply dfloor_fin. exact E.
  - right. assert (Q : ~ fin s) by (unfold fin; congruence). split; [exact Q|]. split; [apply dfloor_inf; auto|apply inf_val; auto].
Qed.

Lemma round_ge : forall x j, fin x -> (0 <= j <= 2 ^ 50)%Z -> IZR j - 1/2 <= val x -> IZR j <= val (coco_double_round x).
Proof.
  intros x j F Hj H. pose proof (sum_ge x j F Hj H) as S. unfold coco_double_round. fold half.
  destruct half_val as [Fh _]. destruct (dadd_val x half F Fh) as [N _].
  destruct (floor_cases _ N) as [_ [(_ & _ & ->)|(_ & -> & _)]]; [|exact S]. apply IZR_le. apply Zfloor_lub. exact S.
Qed.
Lemma round_le : forall x j, fin x -> (0 <= j <= 2 ^ 50)%Z -> val x < IZR j + 1/2 -> (j = 0%Z -> val x <> below_half) ->
  val (coco_double_round x) <= IZR j.
Proof.
  intros x j F Hj H Nb. pose proof (sum_lt x j F Hj H Nb) as S. unfold coco_double_round. fold half.
  destruct half_val as [Fh _]. destruct (dadd_val x half F Fh) as [N _].
  destruct (floor_cases _ N) as [_ [(_ & _ & ->)|(_ & -> & B)]].
  - apply IZR_le. apply Z.lt_succ_r. apply lt_IZR. rewrite succ_IZR. eapply Rle_lt_trans; [apply Zfloor_lb|exact S].
  - pose proof (int_below_big (j + 1) ltac:(lia)) as Q. rewrite plus_IZR in Q. apply Rabs_def2 in Q.
    assert (0 <= IZR j) by (apply IZR_le; lia). pose proof big_pos. lra.
Qed.
Lemma round_int : forall x, fin x -> num (coco_double_round x) /\
  (fin (coco_double_round x) /\ (exists z, val (coco_double_round x) = IZR z) \/ Rabs (val (coco_double_round x)) = big).
Proof.
  intros x F. unfold coco_double_round. fold half. destruct half_val as [Fh _]. destruct (dadd_val x half F Fh) as [N _].
  destruct (floor_cases _ N) as [Nf [(Fs & Ff & E)|(_ & E & B)]]; (split; [exact Nf|]).
  - left. split; [exact Ff|]. eexists. exact E.
  - right. rewrite E. pose proof big_pos. destruct B as [->| ->]; [rewrite Rabs_pos_eq; lra|rewrite Rabs_left1; lra].
Qed.

Lemma zero_fin : fin dzero /\ val dzero = 0.
Proof. split; reflexivity. Qed.

Lemma round_spec : forall n b x, integer_variable n b -> (2 <= n <= 2 ^ 50)%Z -> fin x ->
  let v := respect b (coco_double_round x) in
  fin v /\ exists k, val v = IZR k /\ (0 <= k < n)%Z /\ (k = (n - 1)%Z \/ val x < IZR k + 1/2) /\
    (k = 0%Z \/ IZR k - 1/2 <= val x \/ (k = 1%Z /\ val x = below_half)).
Proof.
  intros n b x (Fil & Fiu & Fou & Vil & Viu & Eol & Vou) Hn F. cbv zeta. unfold respect. rewrite Eol.
  destruct zero_fin as [Fz Vz]. destruct (round_int x F) as [Nf Cf]. pose proof big_pos as BP.
  set (f := coco_double_round x) in *.
  assert (Ge : forall j, (0 <= j <= 2 ^ 50)%Z -> IZR j - 1/2 <= val x -> IZR j <= val f) by (intros; apply round_ge; auto).
  assert (Le : forall j, (0 <= j <= 2 ^ 50)%Z -> val x < IZR j + 1/2 -> (j = 0%Z -> val x <> below_half) -> val f <= IZR j) by (intros; apply round_le; auto).
  assert (HH : below_half < 1/2) by (unfold below_half; pose proof (bpow_gt_0 radix2 (-54)); lra).
  assert (B1 : val x = below_half -> val f <= 1).
  { intros E. replace 1 with (IZR 1) by reflexivity. apply Le; [lia|rewrite E; cbn; lra|lia]. }
  destruct (dlt f dzero) eqn:L0.
  - apply dlt_val in L0; [|auto|reflexivity]. rewrite Vz in L0.
    assert (L1 : dlt (outer_high b) dzero = false).
    { apply dlt_false; [apply fin_num; auto|reflexivity|]. rewrite Vz, Vou. apply IZR_le. lia. }
    rewrite L1. split; [reflexivity|]. exists 0%Z. split; [reflexivity|]. split; [lia|]. split; [|left; reflexivity].
    right. destruct (Rlt_le_dec (val x) (IZR 0 + 1/2)) as [?|Q]; [assumption|]. exfalso. specialize (Ge 1%Z ltac:(lia) ltac:(cbn; cbn in Q; lra)). lra.
  - apply dlt_false in L0; [|auto|reflexivity]. rewrite Vz in L0.
    destruct (dlt (outer_high b) f) eqn:L1.
    + apply dlt_val in L1; [|apply fin_num; auto|auto]. rewrite Vou in L1. split; [exact Fou|]. exists (n - 1)%Z.
      split; [exact Vou|]. split; [lia|]. split; [left; reflexivity|].
      destruct (Rlt_le_dec (val x) (IZR (n - 1) - 1/2)) as [Q|Q]; [|right; left; exact Q]. exfalso.
      assert (V2 : IZR (n - 1) = IZR (n - 2) + 1) by (rewrite <- plus_IZR; f_equal; lia).
      destruct (Req_dec (val x) below_half) as [E|E].
      * apply B1 in E. assert (IZR 1 <= IZR (n - 1)) by (apply IZR_le; lia). lra.
      * specialize (Le (n - 2)%Z ltac:(lia) ltac:(lra) (fun _ => E)). lra.
    + apply dlt_false in L1; [|apply fin_num; auto|auto]. rewrite Vou in L1.
      destruct Cf as [[Ff [z Ez]]|Cf].
      * split; [exact Ff|]. exists z. split; [exact Ez|]. rewrite Ez in L0, L1. apply le_IZR in L0. apply le_IZR in L1.
        split; [lia|]. split.
        -- destruct (Z.eq_dec z (n - 1)) as [?|Nz]; [left; auto|right]. destruct (Rlt_le_dec (val x) (IZR z + 1/2)) as [?|Q]; [assumption|]. exfalso.
           specialize (Ge (z + 1)%Z ltac:(lia)). rewrite plus_IZR in Ge. specialize (Ge ltac:(lra)). lra.
        -- destruct (Z.eq_dec z 0) as [?|Nz]; [left; auto|right]. destruct (Rlt_le_dec (val x) (IZR z - 1/2)) as [Q|Q]; [|left; lra].
           destruct (Req_dec (val x) below_half) as [E|E].
           ++ right. split; [|exact E]. apply B1 in E. rewrite Ez in E. apply le_IZR in E. lia.
           ++ exfalso. specialize (Le (z - 1)%Z ltac:(lia)). rewrite minus_IZR in Le. specialize (Le ltac:(lra) (fun _ => E)). lra.
      * exfalso. rewrite Rabs_pos_eq in Cf by lra. pose proof (int_below_big (n - 1) ltac:(lia)) as Q. apply Rabs_def2 in Q. lra.
Qed.

(** ** The same value is the same double *)
Lemma fin_eq : forall a b : double, fin a -> fin b -> val a = val b -> Bsign a = Bsign b -> a = b.
Proof.
  intros a b Fa Fb V S. rewrite (val_fin a Fa), (val_fin b Fb) in V. apply (B2R_Bsign_inj 53 1024); auto.
Qed.
Lemma floor_zero_sign : forall s, fin s -> Bsign (dfloor s) = Bsign s.
Proof.
  intros s F. destruct (Bnearbyint_correct 53 1024 eq_refl mode_DN s) as (_ & _ & S). apply S.
  destruct (dfloor_fin s F) as [Ff _]. apply fin_num in Ff. exact Ff.
Qed.
Lemma round_sign : forall x, fin x -> fin (coco_double_round x) -> val (coco_double_round x) = 0 -> Bsign (coco_double_round x) = false.
Proof.
  intros x F Fr V. unfold coco_double_round in *. fold half in *. destruct half_val as [Fh Vh].
  destruct (dadd_val x half F Fh) as [N E]. destruct (floor_cases _ N) as [_ [(Fs & _ & Ef)|(Nf & E2 & _)]].
  2:{ exfalso. rewrite E2 in Fr. contradiction. }
  rewrite floor_zero_sign by exact Fs. rewrite Ef in V. apply eq_IZR in V.
  pose proof (Zfloor_lb (val (dadd x half))) as L. rewrite V in L.
  pose proof (Bplus_correct 53 1024 eq_refl eq_refl mode_NE x half F Fh) as P. fold (dadd x half) in P.
  assert (A : Rabs (rnd (B2R x + B2R half)) < big).
  { rewrite <- (val_fin x F), <- (val_fin half Fh). rewrite Vh in *.
    destruct (Rlt_le_dec (Rabs (rnd (val x + 1/2))) big) as [?|Q]; [assumption|]. exfalso.
    pose proof (val_bound _ Fs) as B. rewrite E in B. unfold clamp in B. revert B Q. unfold Rabs, Rmax, Rmin. pose proof big_pos. repeat destruct Rle_dec; destruct Rcase_abs; intros; lra. }
  change (round radix2 (SpecFloat.fexp 53 1024) (round_mode mode_NE) (B2R x + B2R half)) with (rnd (B2R x + B2R half)) in P.
  change (bpow radix2 1024) with big in P. rewrite Rlt_bool_true in P by exact A. destruct P as (V2 & _ & S).
  change (Bplus mode_NE x half) with (dadd x half) in *. rewrite S.
  assert (G : 0 <= B2R x + B2R half).
  { destruct (Rle_lt_dec 0 (B2R x + B2R half)) as [?|Q]; [assumption|]. exfalso.
    assert (Z : rnd (B2R x + B2R half) <> 0).
    { apply Plus_error.round_plus_neq_0; auto with typeclass_instances; try apply (generic_format_B2R 53 1024). lra. }
    assert (rnd (B2R x + B2R half) <= 0) by (rewrite <- rnd_0; apply rnd_mono; lra).
    rewrite (val_fin _ Fs) in L. change (IZR 0) with 0 in L. rewrite V2 in L. lra. }
  case Rcompare_spec; intros Q; try reflexivity; [lra|].
  unfold half. vm_compute (Bsign (ddec 5 1)). apply andb_false_r.
Qed.

Lemma respect_sign : forall n b x, integer_variable n b -> (2 <= n <= 2 ^ 50)%Z -> fin x ->
  Bsign (respect b (coco_double_round x)) = false.
Proof.
  intros n b x I Hn F. destruct (round_spec n b x I Hn F) as [Fv (k & V & Hk & _)]. revert Fv V.
  destruct I as (Fil & Fiu & Fou & Vil & Viu & Eol & Vou).
  assert (Pos : forall a : double, fin a -> 0 < val a -> Bsign a = false).
  { intros a Fa L. pose proof (sign_val a Fa) as S. destruct (Bsign a); [lra|reflexivity]. }
  unfold respect. rewrite Eol. destruct (dlt (coco_double_round x) dzero) eqn:L0.
  - destruct (dlt (outer_high b) dzero) eqn:L1; [|reflexivity]. intros Fv V. apply Pos; [exact Fou|]. rewrite Vou. apply IZR_lt. lia.
  - destruct (dlt (outer_high b) (coco_double_round x)) eqn:L1; intros Fv V.
    + apply Pos; [exact Fou|]. rewrite Vou. apply IZR_lt. lia.
    + destruct (Z.eq_dec k 0) as [->|Nk].
      * apply round_sign; auto.
      * apply Pos; [auto|]. rewrite V. apply IZR_lt. lia.
Qed.

Lemma round_same : forall n b x x' k k', integer_variable n b -> (2 <= n <= 2 ^ 50)%Z -> fin x -> fin x' ->
  val (respect b (coco_double_round x)) = IZR k -> val (respect b (coco_double_round x')) = IZR k' -> k = k' ->
  respect b (coco_double_round x) = respect b (coco_double_round x').
Proof.
  intros n b x x' k k' I Hn F F' V V' E. destruct (round_spec n b x I Hn F) as [Fv _]. destruct (round_spec n b x' I Hn F') as [Fv' _].
  apply fin_eq; auto; [congruence|]. rewrite (respect_sign n b x), (respect_sign n b x'); auto.
Qed.

Lemma nearest_unique : forall n x k k', nearest n k x -> nearest n k' x -> k = k'.
Proof.
  assert (H : forall n x k k', nearest n k x -> nearest n k' x -> (k <= k')%Z).
  { intros n x k k' (H1 & A & B) (H1' & A' & B'). destruct (Z_le_gt_dec k k') as [?|G]; [assumption|exfalso].
    destruct A as [->|A]; [lia|]. destruct B' as [->|B']; [lia|]. assert (IZR (k' + 1) <= IZR k) by (apply IZR_le; lia). rewrite plus_IZR in *. lra. }
  intros n x k k' A B. apply Z.le_antisymm; eapply H; eauto.
Qed.
Lemma round_nearest : forall n b x, integer_variable n b -> (2 <= n <= 2 ^ 50)%Z -> fin x -> val x <> below_half ->
  fin (respect b (coco_double_round x)) /\ exists k, val (respect b (coco_double_round x)) = IZR k /\ nearest n k (val x).
Proof.
  intros n b x I Hn F Nb. destruct (round_spec n b x I Hn F) as [Fv (k & V & Hk & A & B)]. split; [exact Fv|].
  exists k. split; [exact V|]. split; [exact Hk|]. split; [|exact A]. destruct B as [?|[?|[_ ?]]]; [left; auto|right; auto|contradiction].
Qed.
Lemma round_of : forall n b x k, integer_variable n b -> (2 <= n <= 2 ^ 50)%Z -> fin x -> val x <> below_half -> nearest n k (val x) ->
  val (respect b (coco_double_round x)) = IZR k.
Proof.
  intros n b x k I Hn F Nb H. destruct (round_nearest n b x I Hn F Nb) as [_ (k' & V & H')]. rewrite V. f_equal. eapply nearest_unique; eauto.
Qed.

(** ** The points *)
Lemma grid_0 : forall n, (2 <= n)%Z -> grid n 0 = -4 + 8 / (IZR n + 1).
Proof. intros n H. unfold grid. rewrite !plus_IZR. assert (2 <= IZR n) by (apply IZR_le; lia). field. lra. Qed.
Lemma grid_last : forall n, (2 <= n)%Z -> grid n (n - 1) = 4 - 8 / (IZR n + 1).
Proof. intros n H. unfold grid. replace (n - 1 + 1)%Z with n by lia. rewrite plus_IZR. assert (2 <= IZR n) by (apply IZR_le; lia). field. lra. Qed.
Lemma grid_line : forall n k, (2 <= n)%Z -> grid n k = grid n 0 + (grid n (n - 1) - grid n 0) * IZR k / (IZR n - 1).
Proof.
  intros n k H. rewrite grid_0, grid_last by auto. unfold grid. rewrite !plus_IZR. assert (2 <= IZR n) by (apply IZR_le; lia). field. lra.
Qed.
Lemma Rabs_def2b : forall r M, Rabs r <= M -> - M <= r <= M.
Proof. intros r M H. apply Rabs_le_inv. exact H. Qed.
Lemma step_bound : forall n, (2 <= n)%Z -> 0 < 8 / (IZR n + 1) <= 8 / 3.
Proof.
  intros n H. assert (2 <= IZR n) by (apply IZR_le; lia). split; [apply Rdiv_lt_0_compat; lra|]. unfold Rdiv. apply Rmult_le_compat_l; [lra|]. apply Rinv_le; lra.
Qed.

Lemma points_near : forall n b, integer_variable n b -> (2 <= n <= 2 ^ 20)%Z ->
  exists il iu, inner_points b = Ok (il, iu) /\ fin il /\ fin iu /\ Rabs (val il - grid n 0) <= 8 * u /\ Rabs (val iu - grid n (n - 1)) <= 8 * u.
Proof.
  intros n b (Fil & Fiu & Fou & Vil & Viu & Eol & Vou) Hn. unfold inner_points. rewrite Eol.
  rewrite (DigitProofs.to_int_integer (outer_high b) (n - 1)) by (auto; unfold INT_MIN, INT_MAX; lia).
  rewrite (DigitProofs.to_int_integer dzero 0) by (try reflexivity; unfold INT_MIN, INT_MAX; lia).
  cbn [bind]. replace (n - 1 <? 0)%Z with false by (symmetry; apply Z.ltb_ge; lia). change (0 <? 0)%Z with false. cbv iota.
  replace (n - 1 - 0 + 1)%Z with n by lia. replace (n - 1 - 0)%Z with (n - 1)%Z by lia.
  replace (((INT_MIN <=? n - 1) && (n - 1 <=? INT_MAX) && (n + 1 <=? INT_MAX))%Z) with true
    by (symmetry; rewrite !andb_true_iff, !Z.leb_le; unfold INT_MIN, INT_MAX; lia).
  replace (1 <? n)%Z with true by (symmetry; apply Z.ltb_lt; lia). cbn [negb]. cbv zeta.
  destruct (dint_val (n + 1) ltac:(lia)) as [Fn Vn]. rewrite plus_IZR in Vn.
  destruct (dsub_val _ _ Fiu Fil) as [N8 V8]. destruct (exact_int _ _ N8 V8 8%Z ltac:(lra) ltac:(lia)) as [F8 E8]. clear N8 V8.
  pose proof (step_bound n ltac:(lia)) as W. rewrite grid_0, grid_last by lia. set (w := 8 / (IZR n + 1)) in *.
  assert (N2 : 2 <= IZR n) by (apply IZR_le; lia). pose proof u_pos as U.
  destruct (div_near (dsub (inner_high b) (inner_low b)) (dint (n + 1)) 3 F8 Fn ltac:(rewrite Vn; lra)
    ltac:(rewrite E8, Vn; fold w; rewrite Rabs_pos_eq; lra) ltac:(lra)) as [Fw Ew].
  rewrite E8, Vn in Ew. fold w in Ew. apply Rabs_def2b in Ew.
  set (wd := ddiv (dsub (inner_high b) (inner_low b)) (dint (n + 1))) in *.
  destruct (add_near (inner_low b) wd (41/10) Fil Fw ltac:(rewrite Vil; apply Rabs_le; lra) ltac:(lra)) as [F1 E1].
  destruct (sub_near (inner_high b) wd (41/10) Fiu Fw ltac:(rewrite Viu; apply Rabs_le; lra) ltac:(lra)) as [F2 E2].
  rewrite Vil in E1. rewrite Viu in E2. apply Rabs_def2b in E1. apply Rabs_def2b in E2.
  eexists _, _. split; [reflexivity|]. split; [exact F1|]. split; [exact F2|]. split; apply Rabs_le; lra.
Qed.

Lemma grid_range : forall n k, (2 <= n)%Z -> (0 <= k < n)%Z -> -4 <= grid n k <= 4.
Proof.
  intros n k H Hk. unfold grid. rewrite !plus_IZR. assert (2 <= IZR n) by (apply IZR_le; lia).
  assert (0 <= IZR k) by (apply IZR_le; lia). assert (IZR k + 1 <= IZR n) by (rewrite <- plus_IZR; apply IZR_le; lia).
  assert (A : 0 <= 8 * (IZR k + 1) / (IZR n + 1) <= 8).
  { split; [apply Rmult_le_pos; [lra|]; left; apply Rinv_0_lt_compat; lra|].
    apply Rmult_le_reg_r with (IZR n + 1); [lra|]. unfold Rdiv. rewrite Rmult_assoc, Rinv_l, Rmult_1_r by lra. nra. }
  lra.
Qed.

(** A product divided by one of its factors' bound *)
Lemma scale_err : forall d d0 k m e, 1 <= m -> 0 <= k <= m -> Rabs (d - d0) <= e -> Rabs (d * k / m - d0 * k / m) <= e.
Proof.
  intros d d0 k m e Hm Hk H. replace (d * k / m - d0 * k / m) with ((d - d0) * (k / m)) by (field; lra).
  rewrite Rabs_mult. assert (Q : 0 <= k / m <= 1).
  { split; [apply Rmult_le_pos; [lra|]; left; apply Rinv_0_lt_compat; lra|]. apply Rmult_le_reg_r with m; [lra|]. unfold Rdiv. rewrite Rmult_assoc, Rinv_l by lra. lra. }
  rewrite (Rabs_pos_eq (k / m)) by lra. pose proof (Rabs_pos (d - d0)). nra.
Qed.

Lemma inner_value_near : forall n b il iu v k, integer_variable n b -> (2 <= n <= 2 ^ 20)%Z -> inner_points b = Ok (il, iu) ->
  fin v -> val v = IZR k -> (0 <= k < n)%Z ->
  fin (inner_value b il iu v) /\ Rabs (val (inner_value b il iu v) - grid n k) <= 64 * u.
Proof.
  intros n b il iu v k I Hn P Fv Vv Hk. destruct (points_near n b I Hn) as (il' & iu' & P' & Fl & Fu & El & Eu).
  rewrite P in P'. assert (il' = il /\ iu' = iu) as [-> ->] by (split; congruence). clear P P'.
  destruct I as (_ & _ & Fou & _ & _ & Eol & Vou). unfold inner_value. rewrite Eol. destruct zero_fin as [Fz Vz].
  pose proof u_pos as U. pose proof (step_bound n ltac:(lia)) as W. rewrite grid_line by lia.
  rewrite grid_0, grid_last in * by lia. set (w := 8 / (IZR n + 1)) in *.
  assert (N2 : 2 <= IZR n <= 1048576) by (split; apply IZR_le; lia).
  assert (K : 0 <= IZR k <= IZR n - 1) by (rewrite <- minus_IZR; split; apply IZR_le; lia).
  apply Rabs_def2b in El. apply Rabs_def2b in Eu.
  destruct (sub_near iu il (81/10) Fu Fl ltac:(apply Rabs_le; lra) ltac:(lra)) as [Fd Ed]. apply Rabs_def2b in Ed.
  destruct (dsub_val v dzero Fv Fz) as [Nk Vk]. destruct (exact_int _ _ Nk Vk k ltac:(rewrite Vv, Vz; lra) ltac:(lia)) as [Fk Ek]. clear Nk Vk.
  destruct (dsub_val (outer_high b) dzero Fou Fz) as [Nm Vm]. destruct (exact_int _ _ Nm Vm (n - 1)%Z ltac:(rewrite Vou, Vz; lra) ltac:(lia)) as [Fm Em]. clear Nm Vm.
  rewrite minus_IZR in Em. set (d := dsub iu il) in *. set (kk := dsub v dzero) in *. set (m := dsub (outer_high b) dzero) in *.
  assert (Bd : Rabs (val d - (4 - w - (-4 + w))) <= 25 * u) by (apply Rabs_le; lra).
  pose proof (Rabs_def2b _ _ Bd) as Bd'.
  destruct (mul_near d kk (81/10 * (IZR n - 1)) Fd Fk) as [Fp Ep].
  { rewrite Ek, Rabs_mult, (Rabs_pos_eq (IZR k)) by lra. apply Rmult_le_compat; try lra; [apply Rabs_pos|]. apply Rabs_le. lra. }
  { nra. }
  rewrite Ek in Ep. set (p := dmul d kk) in *.
  pose proof (scale_err (val d) (4 - w - (-4 + w)) (IZR k) (IZR n - 1) (25 * u) ltac:(lra) K Bd) as S1.
  assert (S2 : Rabs (val p / (IZR n - 1) - val d * IZR k / (IZR n - 1)) <= 9 * u).
  { replace (val p / (IZR n - 1) - val d * IZR k / (IZR n - 1)) with ((val p - val d * IZR k) / (IZR n - 1)) by (field; lra).
    unfold Rdiv. rewrite Rabs_mult, (Rabs_pos_eq (/ (IZR n - 1))) by (left; apply Rinv_0_lt_compat; lra).
    apply Rmult_le_reg_r with (IZR n - 1); [lra|]. rewrite Rmult_assoc, Rinv_l, Rmult_1_r by lra.
    eapply Rle_trans; [exact Ep|]. nra. }
  assert (S3 : Rabs ((4 - w - (-4 + w)) * IZR k / (IZR n - 1)) <= 8).
  { pose proof (scale_err (4 - w - (-4 + w)) 0 (IZR k) (IZR n - 1) 8 ltac:(lra) K ltac:(apply Rabs_le; lra)) as S.
    replace (0 * IZR k / (IZR n - 1)) with 0 in S by (field; lra). rewrite Rminus_0_r in S. exact S. }
  assert (S3' : 0 <= (4 - w - (-4 + w)) * IZR k / (IZR n - 1) <= 8 - 2 * w).
  { pose proof (scale_err (4 - w - (-4 + w)) 0 (IZR k) (IZR n - 1) (8 - 2 * w) ltac:(lra) K ltac:(apply Rabs_le; lra)) as S.
    replace (0 * IZR k / (IZR n - 1)) with 0 in S by (field; lra). rewrite Rminus_0_r in S. apply Rabs_def2b in S. split; [|lra].
    apply Rmult_le_pos; [apply Rmult_le_pos; lra|left; apply Rinv_0_lt_compat; lra]. }
  apply Rabs_def2b in S1. apply Rabs_def2b in S2.
  set (q0 := (4 - w - (-4 + w)) * IZR k / (IZR n - 1)) in *.
  destruct (div_near p m (81/10) Fp Fm ltac:(lra)) as [Fq Eq].
  { rewrite Em. apply Rabs_le. lra. }
  { lra. }
  rewrite Em in Eq. apply Rabs_def2b in Eq.
  destruct (add_near il (ddiv p m) (41/10) Fl Fq) as [Fr Er].
  { apply Rabs_le. lra. }
  { lra. }
  apply Rabs_def2b in Er. split; [exact Fr|]. apply Rabs_le. lra.
Qed.

Lemma discretize_near : forall n b off x, integer_variable n b -> (2 <= n <= 2 ^ 20)%Z -> fin x -> fin off -> Rabs (val off) <= 16 ->
  exists z k, discretize b off x = Ok z /\ fin z /\ val (respect b (coco_double_round x)) = IZR k /\ (0 <= k < n)%Z /\
    Rabs (val z - (grid n k - val off)) <= 128 * u.
Proof.
  intros n b off x I Hn F Fo Bo. destruct (round_spec n b x I ltac:(lia) F) as [Fv (k & V & Hk & _)].
  destruct (points_near n b I Hn) as (il & iu & P & _). unfold discretize. rewrite P. cbn [bind].
  destruct (inner_value_near n b il iu _ k I Hn P Fv V Hk) as [Fi Ei]. pose proof u_pos as U.
  pose proof (grid_range n k ltac:(lia) Hk) as G. apply Rabs_def2b in Ei. apply Rabs_def2b in Bo.
  destruct (sub_near _ off 21 Fi Fo ltac:(apply Rabs_le; lra) ltac:(lra)) as [Fz Ez]. apply Rabs_def2b in Ez.
  eexists _, k. split; [reflexivity|]. split; [exact Fz|]. split; [exact V|]. split; [exact Hk|]. apply Rabs_le. lra.
Qed.

(** ** The alignment *)
Lemma tiny_val : fin (ddec 1 7) /\ 9/100000000 <= val (ddec 1 7) <= 11/100000000.
Proof.
  unfold ddec. destruct (dint_val 1 ltac:(lia)) as [F1 V1]. destruct (dint_val (10 ^ 7) ltac:(lia)) as [F7 V7].
  change (10 ^ 7)%Z with 10000000%Z in *.
  destruct (div_near (dint 1) (dint 10000000) 1 F1 F7 ltac:(rewrite V7; lra) ltac:(rewrite V1, V7; apply Rabs_le; lra) ltac:(lra)) as [F E].
  rewrite V1, V7 in E. apply Rabs_def2b in E. pose proof u_pos. split; [exact F|]. lra.
Qed.

Lemma quotient_err : forall p t0 d d0 u, 0 < u < / 1000000 -> Rabs (p - t0) <= 28 * u -> Rabs t0 <= 9 -> Rabs (d - d0) <= 25 * u -> 8/3 <= d0 ->
  Rabs (p / d - t0 / d0) <= 46 * u.
Proof.
  intros p t0 d d0 e U P T D D0. apply Rabs_def2b in D.
  replace (p / d - t0 / d0) with ((p - t0) / d + t0 * (d0 - d) / (d * d0)) by (field; split; lra).
  eapply Rle_trans; [apply Rabs_triang|]. replace (46 * e) with (12 * e + 34 * e) by ring. apply Rplus_le_compat.
  - unfold Rdiv. rewrite Rabs_mult, (Rabs_pos_eq (/ d)) by (left; apply Rinv_0_lt_compat; lra).
    apply Rmult_le_reg_r with d; [lra|]. rewrite Rmult_assoc, Rinv_l, Rmult_1_r by lra. nra.
  - assert (Q : 0 < d * d0) by nra. unfold Rdiv. rewrite Rabs_mult, (Rabs_pos_eq (/ (d * d0))) by (left; apply Rinv_0_lt_compat; lra).
    apply Rmult_le_reg_r with (d * d0); [lra|]. rewrite Rmult_assoc, Rinv_l, Rmult_1_r by lra.
    rewrite Rabs_mult. assert (Rabs (d0 - d) <= 25 * e) by (apply Rabs_le; lra).
    apply Rle_trans with (9 * (25 * e)); [apply Rmult_le_compat; auto; apply Rabs_pos|]. assert (7 <= d * d0) by nra. nra.
Qed.

Lemma align_near : forall n b xopt, integer_variable n b -> (2 <= n <= 2 ^ 20)%Z -> fin xopt -> Rabs (val xopt) <= 5 ->
  exists best off k y, align b xopt = Ok (best, off) /\ fin best /\ Bsign best = false /\ val best = IZR k /\
    position n (val xopt) <= y <= position n (val xopt) + 3/10000000 /\ nearest n k y /\
    fin off /\ Rabs (val off - (grid n k - val xopt)) <= 80 * u /\
    exists z, discretize b off best = Ok z /\ fin z /\ Rabs (val z - val xopt) <= 16 * u.
Proof.
  intros n b xopt I Hn F B. destruct (points_near n b I Hn) as (il & iu & P & Fl & Fu & El & Eu).
  pose proof I as (_ & _ & Fou & _ & _ & Eol & Vou).
  unfold align. rewrite P. cbn [bind]. destruct zero_fin as [Fz Vz].
  pose proof u_pos as U. pose proof (step_bound n ltac:(lia)) as W.
  assert (N2 : 2 <= IZR n <= 1048576) by (split; apply IZR_le; lia).
  assert (PosE : position n (val xopt) = (IZR n - 1) * ((val xopt - grid n 0) / (grid n (n - 1) - grid n 0))).
  { rewrite grid_0, grid_last by lia. unfold position. rewrite plus_IZR. field. split; lra. }
  rewrite grid_0, grid_last in * by lia. set (w := 8 / (IZR n + 1)) in *.
  apply Rabs_def2b in El. apply Rabs_def2b in Eu. apply Rabs_def2b in B.
  destruct (dsub_val (outer_high b) dzero Fou Fz) as [Nm Vm]. destruct (exact_int _ _ Nm Vm (n - 1)%Z ltac:(rewrite Vou, Vz; lra) ltac:(lia)) as [Fm Em]. clear Nm Vm.
  rewrite minus_IZR in Em. rewrite Eol. set (m := dsub (outer_high b) dzero) in *.
  destruct (sub_near iu il (81/10) Fu Fl ltac:(apply Rabs_le; lra) ltac:(lra)) as [Fd Ed]. apply Rabs_def2b in Ed.
  destruct (sub_near xopt il (91/10) F Fl ltac:(apply Rabs_le; lra) ltac:(lra)) as [Ft Et]. apply Rabs_def2b in Et.
  set (d := dsub iu il) in *. set (t := dsub xopt il) in *.
  set (d0 := 4 - w - (-4 + w)) in *. set (t0 := val xopt - (-4 + w)) in *.
  assert (Bd : Rabs (val d - d0) <= 25 * u) by (apply Rabs_le; unfold d0; lra).
  assert (Bt : Rabs (val t - t0) <= 18 * u) by (apply Rabs_le; unfold t0; lra).
  assert (T0 : Rabs t0 <= 9) by (apply Rabs_le; unfold t0; lra).
  assert (D0 : 8/3 <= d0) by (unfold d0; lra).
  apply Rabs_def2b in Bt. pose proof (Rabs_def2b _ _ T0) as T0'.
  destruct (mul_near m t (91/10 * (IZR n - 1)) Fm Ft) as [Fp Ep].
  { rewrite Em, Rabs_mult, (Rabs_pos_eq (IZR n - 1)), Rmult_comm by lra. apply Rmult_le_compat_r; [lra|]. apply Rabs_le. lra. }
  { nra. }
  rewrite Em in Ep. set (p := dmul m t) in *.
  assert (Ep' : Rabs (val p / (IZR n - 1) - t0) <= 28 * u).
  { replace (val p / (IZR n - 1) - t0) with ((val p - (IZR n - 1) * val t) / (IZR n - 1) + (val t - t0)) by (field; lra).
    eapply Rle_trans; [apply Rabs_triang|]. replace (28 * u) with (10 * u + 18 * u) by ring. apply Rplus_le_compat; [|apply Rabs_le; lra].
    unfold Rdiv. rewrite Rabs_mult, (Rabs_pos_eq (/ (IZR n - 1))) by (left; apply Rinv_0_lt_compat; lra).
    apply Rmult_le_reg_r with (IZR n - 1); [lra|]. rewrite Rmult_assoc, Rinv_l, Rmult_1_r by lra.
    eapply Rle_trans; [exact Ep|]. nra. }
  pose proof (quotient_err (val p / (IZR n - 1)) t0 (val d) d0 u ltac:(lra) Ep' T0 Bd D0) as Q.
  pose proof (Rabs_def2b _ _ Bd) as Bd'.
  assert (C0 : Rabs (t0 / d0) <= 27/8).
  { unfold Rdiv. rewrite Rabs_mult, (Rabs_pos_eq (/ d0)) by (left; apply Rinv_0_lt_compat; lra).
    apply Rmult_le_reg_r with d0; [lra|]. rewrite Rmult_assoc, Rinv_l, Rmult_1_r by lra. lra. }
  apply Rabs_def2b in C0. apply Rabs_def2b in Q.
  assert (QE : val p / val d = (IZR n - 1) * (val p / (IZR n - 1) / val d)) by (field; split; lra).
  set (q1 := val p / (IZR n - 1) / val d) in *.
  destruct (div_near p d (35/10 * (IZR n - 1)) Fp Fd ltac:(lra)) as [Fq Eq].
  { rewrite QE, Rabs_mult, (Rabs_pos_eq (IZR n - 1)), Rmult_comm by lra. apply Rmult_le_compat_r; [lra|]. apply Rabs_le. lra. }
  { nra. }
  rewrite QE in Eq. apply Rabs_def2b in Eq. set (q := ddiv p d) in *.
  assert (Bq : Rabs (val q - position n (val xopt)) <= 52 * u * IZR n).
  { rewrite PosE. apply Rabs_le. assert (- (46 * u) * (IZR n - 1) <= (q1 - t0 / d0) * (IZR n - 1) <= 46 * u * (IZR n - 1)) by (split; apply Rmult_le_compat_r; lra). nra. }
  assert (Bp : Rabs (position n (val xopt)) <= 35/10 * IZR n).
  { rewrite PosE. apply Rabs_le. assert (- (27/8) * (IZR n - 1) <= (t0 / d0) * (IZR n - 1) <= 27/8 * (IZR n - 1)) by (split; apply Rmult_le_compat_r; lra). lra. }
  apply Rabs_def2b in Bq. apply Rabs_def2b in Bp. set (c := position n (val xopt)) in *.
  assert (UN : u * IZR n <= / 8000000000).
  { apply Rle_trans with (/ 9000000000000000 * 1048576); [apply Rmult_le_compat; lra|lra]. }
  destruct (add_near dzero q (4 * IZR n) Fz Fq ltac:(rewrite Vz; apply Rabs_le; lra) ltac:(lra)) as [Fv Ev].
  rewrite Vz in Ev. apply Rabs_def2b in Ev. destruct tiny_val as [Fe Ve].
  destruct (add_near (dadd dzero q) (ddec 1 7) (4 * IZR n + 1) Fv Fe ltac:(apply Rabs_le; lra) ltac:(lra)) as [Fw Ew].
  apply Rabs_def2b in Ew. set (v := dadd (dadd dzero q) (ddec 1 7)) in *.
  assert (Bv : c <= val v <= c + 2/10000000) by (split; lra).
  assert (Sb : Bsign (respect b (coco_double_round v)) = false) by (apply respect_sign with n; auto; lia).
  destruct (round_spec n b v I ltac:(lia) Fw) as [Fb (k & Vb & Hk & A1 & A2)].
  set (best := respect b (coco_double_round v)) in *.
  destruct (inner_value_near n b il iu best k I Hn P Fb Vb Hk) as [Fi Ei].
  pose proof (grid_range n k ltac:(lia) Hk) as G. apply Rabs_def2b in Ei.
  destruct (sub_near (inner_value b il iu best) xopt 10 Fi F ltac:(apply Rabs_le; lra) ltac:(lra)) as [Fo Eo]. apply Rabs_def2b in Eo.
  assert (Y : exists y, c <= y <= c + 3/10000000 /\ nearest n k y).
  { assert (BH : val v = below_half -> 1/2 - / 100000000 <= val v < 1/2).
    { intros ->. unfold below_half. change (bpow radix2 (-54)) with (/ 18014398509481984). lra. }
    destruct A2 as [->|[A2|[-> A2]]].
    - exists (val v). split; [lra|]. split; [exact Hk|]. split; [left; reflexivity|exact A1].
    - exists (val v). split; [lra|]. split; [exact Hk|]. split; [right; exact A2|exact A1].
    - apply BH in A2. exists (1/2). split; [lra|]. split; [exact Hk|]. split; [right; lra|]. right. lra. }
  destruct Y as (y & Hy & Ny). exists best, (dsub (inner_value b il iu best) xopt), k, y.
  split; [reflexivity|]. split; [exact Fb|]. split; [exact Sb|]. split; [exact Vb|]. split; [exact Hy|]. split; [exact Ny|]. split; [exact Fo|].
  split; [apply Rabs_le; lra|].
  assert (Rb : respect b (coco_double_round best) = best).
  { assert (Nk : nearest n k (val best)) by (rewrite Vb; split; [exact Hk|]; split; right; lra).
    assert (Nb : val best <> below_half).
    { rewrite Vb. unfold below_half. change (bpow radix2 (-54)) with (/ 18014398509481984). intros E.
      assert (0 < IZR k < 1) as [K1 K2] by lra. apply lt_IZR in K1. apply lt_IZR in K2. lia. }
    pose proof (round_of n b best k I ltac:(lia) Fb Nb Nk) as V2.
    apply fin_eq; [destruct (round_spec n b best I ltac:(lia) Fb) as [X _]; exact X|exact Fb|congruence|].
    rewrite Sb. apply respect_sign with n; auto. lia. }
  unfold discretize. rewrite P. cbn [bind]. rewrite Rb. eexists. split; [reflexivity|].
  destruct (sub_near (inner_value b il iu best) (dsub (inner_value b il iu best) xopt) (51/10) Fi Fo ltac:(apply Rabs_le; lra) ltac:(lra)) as [Fr Er].
  apply Rabs_def2b in Er. split; [exact Fr|]. apply Rabs_le. lra.
Qed.

(** ** What nearest means for the points *)
Lemma nearest_closest : forall n k y j, nearest n k y -> (0 <= j < n)%Z -> Rabs (IZR k - y) <= Rabs (IZR j - y).
Proof.
  intros n k y j (Hk & A & B) Hj. destruct (Z.eq_dec j k) as [->|N]; [lra|].
  destruct (Z_lt_ge_dec j k) as [L|L].
  - assert (IZR (j + 1) <= IZR k) by (apply IZR_le; lia). rewrite plus_IZR in *. destruct A as [->|A]; [lia|].
    unfold Rabs. repeat destruct Rcase_abs; lra.
  - assert (IZR (k + 1) <= IZR j) by (apply IZR_le; lia). rewrite plus_IZR in *. destruct B as [->|B]; [lia|].
    unfold Rabs. repeat destruct Rcase_abs; lra.
Qed.
Lemma grid_position : forall n k x, (2 <= n)%Z -> grid n k - x = 8 / (IZR n + 1) * (IZR k - position n x).
Proof. intros n k x H. assert (2 <= IZR n) by (apply IZR_le; lia). unfold grid, position. rewrite !plus_IZR. field. lra. Qed.
Lemma grid_diff : forall n k j, (2 <= n)%Z -> grid n k - grid n j = 8 / (IZR n + 1) * (IZR k - IZR j).
Proof. intros n k j H. assert (2 <= IZR n) by (apply IZR_le; lia). unfold grid. rewrite !plus_IZR. field. lra. Qed.

Lemma best_closest : forall n k x y j, (2 <= n)%Z -> position n x <= y <= position n x + 3/10000000 -> nearest n k y -> (0 <= j < n)%Z ->
  Rabs (grid n k - x) <= Rabs (grid n j - x) + / 500000.
Proof.
  intros n k x y j Hn Hy H Hj. pose proof (nearest_closest n k y j H Hj) as D. rewrite !grid_position by auto.
  pose proof (step_bound n Hn) as W. set (w := 8 / (IZR n + 1)) in *. set (c := position n x) in *.
  rewrite !Rabs_mult, !(Rabs_pos_eq w) by lra.
  assert (E : Rabs (IZR k - c) <= Rabs (IZR j - c) + 6/10000000) by (revert D; unfold Rabs; repeat destruct Rcase_abs; lra).
  nra.
Qed.
Lemma best_inside : forall n k x y j, (2 <= n)%Z -> position n x <= y <= position n x + 3/10000000 -> nearest n k y -> (0 <= j < n)%Z ->
  Rabs x <= 4 -> Rabs (x + 8 / IZR (n + 1) * (IZR j - IZR k)) <= 4 + / 1000000.
Proof.
  intros n k x y j Hn Hy (Hk & A & B) Hj Bx. apply Rabs_def2b in Bx. pose proof (step_bound n Hn) as W. rewrite plus_IZR.
  assert (N2 : 2 <= IZR n) by (apply IZR_le; lia).
  assert (X : x = -4 + 8 / (IZR n + 1) * (position n x + 1)) by (unfold position; rewrite plus_IZR; field; lra).
  assert (F : 4 = -4 + 8 / (IZR n + 1) * (IZR n + 1)) by (field; lra).
  set (w := 8 / (IZR n + 1)) in *. set (c := position n x) in *.
  assert (C : -1 <= c <= IZR n) by (split; nra).
  assert (K : -1 - 3/10000000 <= IZR k - c <= 1 + 3/10000000).
  { split.
    - destruct B as [->|B]; [rewrite minus_IZR; lra|lra].
    - destruct A as [->|A]; [cbn; lra|lra]. }
  assert (J : 0 <= IZR j <= IZR n - 1) by (rewrite <- minus_IZR; split; apply IZR_le; lia).
  assert (E : -1 - 3/10000000 <= c + (IZR j - IZR k) <= IZR n + 3/10000000) by lra.
  apply Rabs_le. set (s := c + (IZR j - IZR k)) in *.
  replace (x + w * (IZR j - IZR k)) with (-4 + w * (s + 1)) by (unfold s; rewrite X at 1; ring).
  assert (w * (-1 - 3/10000000 + 1) <= w * (s + 1)) by (apply Rmult_le_compat_l; lra).
  assert (w * (s + 1) <= w * (IZR n + 3/10000000 + 1)) by (apply Rmult_le_compat_l; lra).
  split; lra.
Qed.

(** ** Lists of variables *)
Inductive aligned : list Z -> list bounds -> list double -> list double -> list double -> Prop :=
| al_nil : forall bs best os, aligned [] bs best best os
| al_cons : forall c cs b bs v best w ws o os, integer_variable c b -> (2 <= c <= 2 ^ 20)%Z -> fin v -> Rabs (val v) <= 5 ->
    align b v = Ok (w, o) -> aligned cs bs best ws os -> aligned (c :: cs) (b :: bs) (v :: best) (w :: ws) (o :: os).

Lemma ivars_tail : forall c cs b bs, integer_variables (c :: cs) (b :: bs) -> integer_variables cs bs.
Proof. intros c cs b bs H i c' E. exact (H (S i) c' E). Qed.
Lemma ivars_head : forall c cs bs, integer_variables (c :: cs) bs -> exists b bs', bs = b :: bs' /\ integer_variable c b /\ (2 <= c <= 2 ^ 20)%Z.
Proof.
  intros c cs bs H. destruct (H 0%nat c eq_refl) as (Hc & b & E & I). destruct bs as [|b' bs']; [discriminate|]. cbn in E.
  exists b', bs'. split; [reflexivity|]. assert (b' = b) as -> by congruence. auto.
Qed.

Lemma align_length : forall bs n best r, align_all n bs best = Ok r ->
  length bs = length best /\ length (fst r) = length best /\ length (snd r) = length best.
Proof.
  induction bs as [|b bs IH]; intros n [|v best] r H; try discriminate.
  - cbn in H. inversion H. auto.
  - cbn [align_all] in H. destruct (dlt (outer_low b) (outer_high b)); cbn [negb] in H; [|discriminate].
    destruct (match n with O => Ok (v, dint 0) | S _ => align b v end) as [[w o]| |]; try discriminate. cbn [bind] in H.
    destruct (align_all (Nat.pred n) bs best) as [[ws os]| |] eqn:E; try discriminate. cbn [bind] in H.
    destruct (IH _ _ _ E) as (A & B & D). cbn [fst snd] in *. assert (r = (w :: ws, o :: os)) as -> by congruence. cbn [fst snd length]. lia.
Qed.
Lemma align_0 : forall bs best r, align_all 0 bs best = Ok r -> fst r = best.
Proof.
  induction bs as [|b bs IH]; intros [|v best] r H; try discriminate.
  - cbn in H. inversion H. auto.
  - cbn [align_all] in H. destruct (dlt (outer_low b) (outer_high b)); cbn [negb] in H; [|discriminate]. cbn [bind Nat.pred] in H.
    destruct (align_all 0 bs best) as [[ws os]| |] eqn:E; try discriminate. cbn [bind] in H.
    pose proof (IH best _ E) as A. cbn [fst snd] in *. assert (r = (v :: ws, dint 0 :: os)) as -> by congruence. cbn [fst snd length]. congruence.
Qed.
Lemma align_aligned : forall cs bs best ws os, integer_variables cs bs -> Forall (fun v => fin v /\ Rabs (val v) <= 5) best ->
  align_all (length cs) bs best = Ok (ws, os) -> aligned cs bs best ws os.
Proof.
  induction cs as [|c cs IH]; intros bs best ws os I F H.
  - cbn [length] in H. pose proof (align_0 _ _ _ H) as A. cbn in A. rewrite A. constructor.
  - destruct (ivars_head _ _ _ I) as (b & bs' & -> & Ib & Hc). destruct best as [|v best]; [discriminate|].
    cbn [length align_all] in H. destruct (dlt (outer_low b) (outer_high b)); cbn [negb] in H; [|discriminate].
    destruct (align b v) as [[w o]| |] eqn:Ea; try discriminate. cbn [bind Nat.pred] in H.
    destruct (align_all (length cs) bs' best) as [[ws' os']| |] eqn:E; try discriminate. cbn [bind] in H.
    assert (ws = w :: ws' /\ os = o :: os') as [-> ->] by (split; congruence).
    apply Forall_cons_iff in F. destruct F as [[F1 F2] F]. apply ivars_tail in I. constructor; auto.
Qed.
Lemma align_exists : forall cs bs best, integer_variables cs bs -> Forall (fun v => fin v /\ Rabs (val v) <= 5) best -> length bs = length best ->
  Forall (fun b => dlt (outer_low b) (outer_high b) = true) bs -> exists r, align_all (length cs) bs best = Ok r.
Proof.
  intros cs bs. revert cs. induction bs as [|b bs IH]; intros cs [|v best] I F L O; try discriminate.
  - destruct cs as [|c cs]; [eexists; reflexivity|]. destruct (ivars_head _ _ _ I) as (b & bs' & E & _). discriminate.
  - apply Forall_cons_iff in F. destruct F as [[F1 F2] F]. apply Forall_cons_iff in O. destruct O as [O1 O].
    cbn [align_all]. rewrite O1. cbn [negb length] in *. destruct cs as [|c cs].
    + cbn [length bind Nat.pred]. destruct (IH [] best) as [[ws os] E]; auto; [intros i c Hc; destruct i; discriminate|].
      cbn [length] in E. rewrite E. cbn [bind]. eexists. reflexivity.
    + destruct (ivars_head _ _ _ I) as (b' & bs' & Eb & Ib & Hc). assert (b' = b) as -> by congruence.
      destruct (align_near c b v Ib Hc F1 F2) as (w & o & _ & _ & Ea & _). cbn [length Nat.pred]. rewrite Ea. cbn [bind].
      apply ivars_tail in I. destruct (IH cs best) as [[ws os] E]; auto. rewrite E. cbn [bind]. eexists. reflexivity.
Qed.


Lemma discretize_all_spec : forall cs bs best ws os, aligned cs bs best ws os -> forall x, Forall fin x -> length x = length best ->
  exists z, discretize_all (length cs) bs os x = Ok z /\ length z = length x /\ Forall fin z /\
    (forall i, (length cs <= i)%nat -> nth_error z i = nth_error x i) /\
    (forall i c v w a, nth_error cs i = Some c -> nth_error best i = Some v -> nth_error ws i = Some w -> nth_error x i = Some a ->
       exists zi k k', nth_error z i = Some zi /\ val w = IZR k' /\ (0 <= k < c)%Z /\ (0 <= k' < c)%Z /\
         (val a <> below_half -> nearest c k (val a)) /\ Rabs (val zi - (val v + 8 / IZR (c + 1) * (IZR k - IZR k'))) <= 256 * u).
Proof.
  intros cs bs best ws os A. induction A as [bs best os|c cs b bs v best w ws o os I Hc Fv Bv Ea A IH]; intros x F L.
  - exists x. split; [reflexivity|]. split; [reflexivity|]. split; [exact F|]. split; [reflexivity|]. intros i c v w a H. destruct i; discriminate.
  - destruct x as [|a x]; [discriminate|]. apply Forall_cons_iff in F. destruct F as [Fa F]. cbn [length] in L.
    destruct (IH x F ltac:(lia)) as (z & Ez & Lz & Fz & Z1 & Z2).
    destruct (align_near c b v I Hc Fv Bv) as (w' & o' & k' & y & Ea' & Fw & _ & Vw & Hy & Ny & Fo & Eo & _).
    assert (w' = w /\ o' = o) as [-> ->] by (split; congruence).
    pose proof Ny as (Hk' & _). pose proof (grid_range c k' ltac:(lia) Hk') as G. pose proof u_pos as U.
    apply Rabs_def2b in Eo. apply Rabs_def2b in Bv.
    destruct (discretize_near c b o a I Hc Fa Fo ltac:(apply Rabs_le; lra)) as (zi & k & Ed & Fzi & Vk & Hk & Ezi).
    apply Rabs_def2b in Ezi. cbn [length discretize_all]. rewrite Ed. cbn [bind]. rewrite Ez. cbn [bind].
    exists (zi :: z). split; [reflexivity|]. cbn [length]. split; [lia|]. split; [constructor; auto|]. split.
    + intros [|i] Hi; [lia|]. cbn [nth_error]. apply Z1. lia.
    + intros [|i] c0 v0 w0 a0 H1 H2 H3 H4; cbn [nth_error] in *; [|eapply Z2; eauto].
      assert (c0 = c) as -> by congruence. assert (v0 = v) as -> by congruence. assert (w0 = w) as -> by congruence. assert (a0 = a) as -> by congruence.
      exists zi, k, k'. split; [reflexivity|]. split; [exact Vw|]. split; [exact Hk|]. split; [exact Hk'|]. split.
      * intros Nb. destruct (round_nearest c b a I ltac:(lia) Fa Nb) as [_ (k2 & V2 & N2)]. rewrite Vk in V2. apply eq_IZR in V2. subst k2. exact N2.
      * pose proof (grid_diff c k k' ltac:(lia)) as GD. rewrite plus_IZR. apply Rabs_le. lra.
Qed.

Lemma discretize_all_best : forall cs bs best ws os, aligned cs bs best ws os -> 
  exists z, discretize_all (length cs) bs os ws = Ok z /\ length z = length best /\
    (forall i, (length cs <= i)%nat -> nth_error z i = nth_error best i /\ nth_error ws i = nth_error best i) /\
    (forall i c v w, nth_error cs i = Some c -> nth_error best i = Some v -> nth_error ws i = Some w ->
       fin w /\ (exists k y, val w = IZR k /\ position c (val v) <= y <= position c (val v) + 3/10000000 /\ nearest c k y) /\
       exists zi, nth_error z i = Some zi /\ Rabs (val zi - val v) <= 16 * u).
Proof.
  intros cs bs best ws os A. induction A as [bs best os|c cs b bs v best w ws o os I Hc Fv Bv Ea A IH].
  - exists best. split; [reflexivity|]. split; [reflexivity|]. split; [auto|]. intros i c v w H. destruct i; discriminate.
  - destruct IH as (z & Ez & Lz & Z1 & Z2).
    destruct (align_near c b v I Hc Fv Bv) as (w' & o' & k' & y & Ea' & Fw & _ & Vw & Hy & Ny & Fo & Eo & zi & Ed & Fzi & Ezi).
    assert (w' = w /\ o' = o) as [-> ->] by (split; congruence).
    cbn [length discretize_all]. rewrite Ed. cbn [bind]. rewrite Ez. cbn [bind].
    exists (zi :: z). split; [reflexivity|]. cbn [length]. split; [lia|]. split.
    + intros [|i] Hi; [lia|]. cbn [nth_error]. apply Z1. lia.
    + intros [|i] c0 v0 w0 H1 H2 H3; cbn [nth_error] in *; [|eapply Z2; eauto].
      assert (c0 = c) as -> by congruence. assert (v0 = v) as -> by congruence. assert (w0 = w) as -> by congruence.
      split; [exact Fw|]. split; [exists k', y; auto|]. exists zi. auto.
Qed.
Lemma aligned_fin : forall cs bs best ws os, aligned cs bs best ws os -> Forall fin best -> Forall fin ws /\ length ws = length best.
Proof.
  intros cs bs best ws os A. induction A as [bs best os|c cs b bs v best w ws o os I Hc Fv Bv Ea A IH]; intros F; [auto|].
  apply Forall_cons_iff in F. destruct F as [F1 F]. destruct (IH F) as [F2 L]. cbn [length]. split; [|lia]. constructor; auto.
  destruct (align_near c b v I Hc Fv Bv) as (w' & o' & k' & y & Ea' & Fw & _). assert (w' = w) as -> by congruence. exact Fw.
Qed.

Lemma discretize_all_same : forall cs bs os x x', integer_variables cs bs -> Forall fin x -> Forall fin x' -> same_point cs x x' ->
  discretize_all (length cs) bs os x = discretize_all (length cs) bs os x'.
Proof.
  induction cs as [|c cs IH]; intros bs os x x' I F F' [L S].
  - cbn [length discretize_all]. f_equal. clear I F F'. revert x' L S. induction x as [|a x IH]; intros [|a' x'] L S; try discriminate; [reflexivity|].
    f_equal; [apply (S 0%nat a a'); reflexivity|]. apply IH; [cbn in L; lia|]. intros i b b' E E'. destruct (S (Datatypes.S i) b b' E E') as [_ G].
    split; [intros c Hc; destruct i; discriminate|]. intros _. apply G. reflexivity.
  - destruct (ivars_head _ _ _ I) as (b & bs' & -> & Ib & Hc). destruct x as [|a x], x' as [|a' x']; try discriminate; [reflexivity|].
    apply Forall_cons_iff in F. destruct F as [Fa F]. apply Forall_cons_iff in F'. destruct F' as [Fa' F'].
    cbn [length discretize_all]. destruct os as [|o os]; [reflexivity|].
    destruct (S 0%nat a a' eq_refl eq_refl) as [S1 _]. destruct (S1 c eq_refl) as (k & N1 & N2 & B1 & B2).
    assert (E : discretize b o a = discretize b o a').
    { unfold discretize. rewrite (round_same c b a a' k k Ib ltac:(lia) Fa Fa'); auto; apply round_of with c; auto; lia. }
    rewrite E. rewrite (IH bs' os x x'); auto.
    + apply ivars_tail in I. exact I.
    + split; [cbn in L; lia|]. intros i d d' E1 E2. exact (S (Datatypes.S i) d d' E1 E2).
Qed.

(** ** Evaluations *)
Section Evaluations.
Context {C : class}.

Lemma evaluate_at : forall (P : problem (discretize_class C)) x z, number_of_constraints (head P) = 0%nat ->
  number_of_variables (head P) = length x -> (0 < length x)%nat -> Forall fin x ->
  discretize_all (number_of_integer_variables (head P)) (d_bounds (body P)) (d_offset (body P)) x = Ok z -> evaluates_at P x z.
Proof.
  intros P x z Nc L L0 F D y R Ny E. unfold coco_evaluate_function, coco_problem_get_dimension. rewrite L.
  replace (length x =? 0)%nat with false by (symmetry; apply Nat.eqb_neq; lia). cbn [bind].
  rewrite (first_inf_none x (regular_no_inf x F)). cbn [bind]. rewrite contains_nan_spec, (regular_no_nan x F). cbn [bind].
  cbn [evaluate_function discretize_class]. unfold coco_problem_get_dimension. rewrite L.
  replace (length x =? 0)%nat with false by (symmetry; apply Nat.eqb_neq; lia). cbn [bind].
  rewrite contains_nan_spec, (regular_no_nan x F). cbn [bind]. rewrite firstn_all, D. cbn [bind]. rewrite E. cbn [bind].
  destruct y as [|y0 y]; [contradiction|]. unfold mget. cbn [nth_error bind].
  cbn [head number_of_constraints with_counters]. rewrite Nc. change (0 <? 0)%nat with false. cbv iota. cbn [bind].
  destruct (dlt y0 _); eexists; (split; [reflexivity|]); reflexivity.
Qed.

(** What evaluations do not change *)
Definition static (P Q : problem (discretize_class C)) : Prop :=
  number_of_variables (head Q) = number_of_variables (head P) /\ number_of_constraints (head Q) = number_of_constraints (head P) /\
  number_of_objectives (head Q) = number_of_objectives (head P) /\
  number_of_integer_variables (head Q) = number_of_integer_variables (head P) /\
  d_bounds (body Q) = d_bounds (body P) /\ d_offset (body Q) = d_offset (body P).
Lemma static_refl : forall P, static P P.
Proof. intros P. repeat split. Qed.
Lemma static_trans : forall P Q R, static P Q -> static Q R -> static P R.
Proof. intros P Q R (A1 & A2 & A3 & A4 & A5 & A6) (B1 & B2 & B3 & B4 & B5 & B6). repeat split; congruence. Qed.

Lemma evaluate_static : forall (P Q : problem (discretize_class C)) x y, coco_evaluate_function P x = Ok (y, Q) -> static P Q.
Proof.
  intros P Q x y H. unfold coco_evaluate_function in H.
  destruct (coco_problem_get_dimension (head P)) as [n| |]; try discriminate. cbn [bind] in H.
  destruct (first_inf n x) as [[v|]| |]; try discriminate; cbn [bind] in H; [injection H as _ <-; apply static_refl|].
  destruct (coco_vector_contains_nan n x) as [[|]| |]; try discriminate; cbn [bind] in H; [injection H as _ <-; apply static_refl|].
  destruct (evaluate_function (discretize_class C) (head P) (body P) x) as [[y' d]| |] eqn:E; try discriminate. cbn [bind] in H.
  assert (D : d_bounds d = d_bounds (body P) /\ d_offset d = d_offset (body P)).
  { cbn [evaluate_function discretize_class] in E.
    destruct (coco_problem_get_dimension (head P)) as [m| |]; try discriminate. cbn [bind] in E.
    destruct (coco_vector_contains_nan m x) as [[|]| |]; try discriminate; cbn [bind] in E; [injection E as _ <-; auto|].
    destruct (discretize_all _ _ _ _) as [z| |]; try discriminate. cbn [bind] in E.
    destruct (coco_evaluate_function _ z) as [[y2 p2]| |]; try discriminate. cbn [bind] in E. injection E as _ <-. auto. }
  destruct (mget y' 0) as [y0| |]; try discriminate. cbn [bind] in H.
  set (p1 := {| head := with_counters (head P) (evaluations (head P) + 1) (evaluations_constraints (head P)) (best_observed_fvalue (head P)) (best_observed_evaluation (head P)); body := d |}) in *.
  assert (S1 : static P p1) by (destruct D as [D1 D2]; repeat split; assumption).
  destruct (dlt y0 _); [|injection H as _ <-; exact S1].
  assert (G : forall f p2, (if (0 <? number_of_constraints (with_counters (head P) (evaluations (head P) + 1) (evaluations_constraints (head P)) (best_observed_fvalue (head P)) (best_observed_evaluation (head P))))%nat then coco_is_feasible p1 x else Ok (true, p1)) = Ok (f, p2) -> static P p2).
  { intros f p2 E2. destruct (0 <? _)%nat; [|injection E2 as _ <-; exact S1]. unfold coco_is_feasible in E2.
    destruct (coco_problem_get_dimension _) as [m| |]; try discriminate. cbn [bind] in E2.
    destruct (coco_vector_isfinite m x) as [[|]| |]; try discriminate; cbn [bind negb] in E2; [|injection E2 as _ <-; exact S1].
    destruct (_ =? 0)%nat; [injection E2 as _ <-; exact S1|]. cbn [evaluate_constraint discretize_class] in E2. discriminate. }
  destruct (if (0 <? _)%nat then _ else _) as [[f p2]| |]; try discriminate. specialize (G f p2 eq_refl). cbn [bind] in H.
  destruct f; injection H as _ <-; exact G.
Qed.
Lemma session_static : forall cs (P Q : problem (discretize_class C)) ys, session P cs = Ok (ys, Q) -> static P Q.
Proof.
  induction cs as [|c cs IH]; intros P Q ys H; cbn [session] in H; [injection H as _ <-; apply static_refl|].
  destruct (perform P c) as [[y P1]| |] eqn:E; try discriminate. cbn [bind] in H.
  destruct (session P1 cs) as [[ys' P2]| |] eqn:E2; try discriminate. cbn [bind] in H. injection H as _ <-.
  apply static_trans with P1; [|eapply IH; eauto]. destruct c as [x|x|x]; cbn [perform] in E.
  - eapply evaluate_static; eauto.
  - unfold coco_evaluate_constraint, coco_evaluate_constraint_optional_update in E. cbn [evaluate_constraint discretize_class] in E. discriminate.
  - destruct (coco_recommend_solution P x) as [q| |] eqn:R; try discriminate. cbn [bind] in E. injection E as _ <-.
    unfold coco_recommend_solution in R. cbn [recommend_solution discretize_class] in R.
    destruct (coco_recommend_solution (d_inner (body P)) x) as [p| |]; try discriminate. cbn [bind] in R. injection R as <-. repeat split.
Qed.

Lemma evaluate_same : forall (P : problem (discretize_class C)) cs x x', number_of_integer_variables (head P) = length cs ->
  integer_variables cs (d_bounds (body P)) -> number_of_variables (head P) = length x -> Forall fin x -> Forall fin x' -> same_point cs x x' ->
  coco_evaluate_function P x = coco_evaluate_function P x'.
Proof.
  intros P cs x x' Ni I L F F' S. pose proof S as [L' _]. unfold coco_evaluate_function, coco_problem_get_dimension. rewrite L.
  destruct (length x =? 0)%nat; [reflexivity|]. cbn [bind]. rewrite (first_inf_none x (regular_no_inf x F)), contains_nan_spec, (regular_no_nan x F).
  rewrite L'. rewrite (first_inf_none x' (regular_no_inf x' F')), contains_nan_spec, (regular_no_nan x' F'). cbn [bind].
  assert (E : evaluate_function (discretize_class C) (head P) (body P) x = evaluate_function (discretize_class C) (head P) (body P) x').
  { cbn [evaluate_function discretize_class]. unfold coco_problem_get_dimension. rewrite L. destruct (length x =? 0)%nat; [reflexivity|]. cbn [bind].
    rewrite contains_nan_spec, (regular_no_nan x F). rewrite L'. rewrite contains_nan_spec, (regular_no_nan x' F'). cbn [bind].
    rewrite <- L' at 1. rewrite !firstn_all. rewrite Ni, (discretize_all_same cs _ _ x x'); auto. }
  rewrite E. destruct (evaluate_function (discretize_class C) (head P) (body P) x') as [[y d]| |]; try reflexivity. cbn [bind].
  destruct (mget y 0) as [y0| |]; try reflexivity. cbn [bind]. destruct (dlt y0 _); [|reflexivity].
  destruct (0 <? _)%nat; [|reflexivity]. unfold coco_is_feasible. cbn [evaluate_constraint discretize_class head]. unfold coco_problem_get_dimension.
  cbn [number_of_variables with_counters]. rewrite L. destruct (length x =? 0)%nat; [reflexivity|]. cbn [bind].
  rewrite isfinite_spec, (proj2 (regularb_spec x) F). rewrite L'. rewrite isfinite_spec, (proj2 (regularb_spec x') F'). reflexivity.
Qed.

Lemma transform_ok : forall (inner : problem C) bs n P, transform_vars_discretize inner bs n = Ok P ->
  exists best ws os, best_parameter (head inner) = Some best /\ align_all n bs best = Ok (ws, os) /\ best_parameter (head P) = Some ws /\
    number_of_variables (head P) = number_of_variables (head inner) /\ number_of_constraints (head P) = 0%nat /\
    number_of_objectives (head P) = number_of_objectives (head inner) /\
    number_of_integer_variables (head P) = n /\ d_inner (body P) = inner /\ d_bounds (body P) = bs /\ d_offset (body P) = os /\ n <> 0%nat.
Proof.
  intros inner bs n P H. unfold transform_vars_discretize in H. destruct (n =? 0)%nat eqn:E0; [discriminate|]. apply Nat.eqb_neq in E0.
  destruct (best_parameter (head inner)) as [best|]; [|discriminate].
  destruct (align_all n bs best) as [[ws os]| |] eqn:E; try discriminate. cbn [bind] in H.
  destruct (0 <? number_of_constraints (head inner))%nat eqn:Ec; [discriminate|]. apply Nat.ltb_ge in Ec. injection H as <-.
  exists best, ws, os. cbn [head body best_parameter number_of_variables number_of_constraints number_of_objectives number_of_integer_variables d_inner d_bounds d_offset].
  repeat (split; [exact E || reflexivity || lia|]). exact E0.
Qed.
End Evaluations.

(** ** The suites *)
Lemma cards_nth : forall (l : list Z) m i, (1 <= m)%nat -> nth_error (flat_map (fun c => repeat c m) l) i = nth_error l (i / m).
Proof.
  induction l as [|c l IH]; intros m i Hm; [destruct i; destruct (_ / m)%nat; reflexivity|].
  cbn [flat_map]. destruct (Nat.lt_ge_cases i m) as [L|L].
  - rewrite nth_error_app1 by (rewrite repeat_length; lia). rewrite Nat.div_small by lia. cbn [nth_error]. apply nth_error_repeat. lia.
  - rewrite nth_error_app2 by (rewrite repeat_length; lia). rewrite repeat_length, IH by lia.
    replace i with ((i - m) + 1 * m)%nat at 2 by lia. rewrite Nat.div_add by lia. rewrite Nat.add_1_r. reflexivity.
Qed.
Lemma cards_length : forall m, length (cardinalities m) = (4 * m)%nat.
Proof. intros m. unfold cardinalities. cbn [flat_map]. rewrite !app_length, !repeat_length. cbn [length]. lia. Qed.

Lemma card_index : forall m i, (1 <= m)%nat -> (i < 5 * m)%nat -> (5 * m / 5 = m)%nat /\ (i / m < 5)%nat.
Proof. intros m i H L. split; [rewrite Nat.mul_comm; apply Nat.div_mul; lia|apply Nat.div_lt_upper_bound; lia]. Qed.

Definition variable_bounds (half c : Z) (low high : double) : bounds :=
  if (c =? 0)%Z then {| inner_low := low; inner_high := high; outer_low := dint (- half); outer_high := dint half |}
  else {| inner_low := dint (-4); inner_high := dint 4; outer_low := dint 0; outer_high := dsub (dint c) (dint 1) |}.
Lemma bounds_ok : forall m half low high i, (1 <= m)%nat -> (i < 5 * m)%nat ->
  exists c, nth_error variable_cardinality (i / m) = Some c /\ mixint_bounds (5 * m) half low high i = Ok (variable_bounds half c low high).
Proof.
  intros m half low high i Hm L. destruct (card_index m i Hm L) as [E D]. unfold mixint_bounds. rewrite E. unfold mget.
  destruct (nth_error variable_cardinality (i / m)) as [c|] eqn:Ec; [|apply nth_error_None in Ec; cbn in Ec; lia].
  exists c. split; [reflexivity|]. cbn [bind]. unfold variable_bounds. destruct (c =? 0)%Z; reflexivity.
Qed.
Lemma region_ok : forall m half roi i, (1 <= m)%nat -> (i + length roi <= 5 * m)%nat ->
  exists bs, mixint_region (5 * m) half roi i = Ok bs /\ length bs = length roi /\
    forall j b, nth_error bs j = Some b -> exists c low high, nth_error variable_cardinality ((i + j) / m) = Some c /\ b = variable_bounds half c low high.
Proof.
  intros m half. induction roi as [|[low high] roi IH]; intros i Hm L.
  - exists []. split; [reflexivity|]. split; [reflexivity|]. intros [|j] b H; discriminate.
  - cbn [length] in L. destruct (bounds_ok m half low high i Hm ltac:(lia)) as (c & Ec & Eb).
    destruct (IH (S i) Hm ltac:(lia)) as (bs & Er & Lb & Hb). cbn [mixint_region]. rewrite Eb. cbn [bind]. rewrite Er. cbn [bind].
    eexists. split; [reflexivity|]. cbn [length]. split; [lia|]. intros [|j] b H.
    + cbn [nth_error] in H. exists c, low, high. rewrite Nat.add_0_r. split; [exact Ec|congruence].
    + cbn [nth_error] in H. destruct (Hb j b H) as (c' & l' & h' & E1 & E2). exists c', l', h'. rewrite Nat.add_succ_r. split; assumption.
Qed.
Lemma integers_ok : forall m fuel i, (1 <= m)%nat -> (i <= 4 * m)%nat -> (i + fuel = 5 * m)%nat -> mixint_integers (5 * m) fuel i = Ok (4 * m)%nat.
Proof.
  intros m. induction fuel as [|fuel IH]; intros i Hm L E; [lia|]. cbn [mixint_integers].
  destruct (card_index m i Hm ltac:(lia)) as [-> D]. unfold mget.
  destruct (Nat.eq_dec i (4 * m)) as [->|N].
  - rewrite Nat.div_mul by lia. reflexivity.
  - assert (D4 : (i / m < 4)%nat) by (apply Nat.div_lt_upper_bound; lia).
    assert (X : exists c, nth_error variable_cardinality (i / m) = Some c /\ (c =? 0)%Z = false).
    { destruct (i / m)%nat as [|[|[|[|]]]]; try lia; eexists; split; reflexivity. }
    destruct X as (c & -> & X). cbn [bind]. rewrite X. apply IH; lia.
Qed.

Lemma integer_bounds : forall half c low high, (2 <= c <= 2 ^ 20)%Z -> integer_variable c (variable_bounds half c low high).
Proof.
  intros half c low high H. unfold variable_bounds. replace (c =? 0)%Z with false by (symmetry; apply Z.eqb_neq; lia).
  destruct (dint_val (-4) ltac:(lia)) as [F1 V1]. destruct (dint_val 4 ltac:(lia)) as [F2 V2].
  destruct (dint_val c ltac:(lia)) as [F3 V3]. destruct (dint_val 1 ltac:(lia)) as [F4 V4].
  destruct (dsub_val _ _ F3 F4) as [N V]. rewrite V3, V4 in V. destruct (exact_int _ _ N V (c - 1)%Z ltac:(rewrite minus_IZR; reflexivity) ltac:(lia)) as [F5 V5].
  unfold integer_variable. cbn [inner_low inner_high outer_low outer_high]. repeat (split; [assumption|]). split; [reflexivity|exact V5].
Qed.
Lemma ordered_bounds : forall half c low high, (0 < half <= 2 ^ 53)%Z -> (c = 0 \/ 2 <= c <= 2 ^ 20)%Z ->
  let b := variable_bounds half c low high in dlt (outer_low b) (outer_high b) = true.
Proof.
  intros half c low high Hh [->|Hc]; cbv zeta.
  - unfold variable_bounds. change (0 =? 0)%Z with true. cbv iota. cbn [outer_low outer_high].
    destruct (dint_val (- half) ltac:(lia)) as [F1 V1]. destruct (dint_val half ltac:(lia)) as [F2 V2].
    apply dlt_val; [apply fin_num; auto|apply fin_num; auto|]. rewrite V1, V2. apply IZR_lt. lia.
  - destruct (integer_bounds half c low high Hc) as (_ & _ & F & _ & _ & E & V). rewrite E. apply dlt_val; [reflexivity|apply fin_num; auto|].
    rewrite V. destruct zero_fin as [_ ->]. apply IZR_lt. lia.
Qed.

Lemma suite_ok : forall C half (inner : problem C) roi best m, (0 < half <= 2 ^ 53)%Z -> (1 <= m)%nat -> inner_optimum inner best ->
  number_of_constraints (head inner) = 0%nat -> number_of_variables (head inner) = (5 * m)%nat -> length roi = (5 * m)%nat ->
  exists bs P, coco_get_bbob_mixint_problem half inner roi = Ok P /\ transform_vars_discretize inner bs (length (cardinalities m)) = Ok P /\
    integer_variables (cardinalities m) bs /\ length bs = (5 * m)%nat /\
    forall i b, (4 * m <= i)%nat -> nth_error bs i = Some b -> val (outer_low b) = - IZR half /\ val (outer_high b) = IZR half.
Proof.
  intros C half inner roi best m Hh Hm (B1 & B2 & B3) Nc Nv Lr. unfold coco_get_bbob_mixint_problem. cbv zeta. rewrite Nv.
  replace ((5 * m) mod 5 =? 0)%nat with true by (symmetry; apply Nat.eqb_eq; rewrite Nat.mul_comm; apply Nat.mod_mul; lia). cbn [negb].
  destruct (region_ok m half roi 0 Hm ltac:(lia)) as (bs & -> & Lb & Hb). cbn [bind]. rewrite integers_ok by lia. cbn [bind].
  assert (I : integer_variables (cardinalities m) bs).
  { intros i c Hc. assert (Li : (i < 4 * m)%nat) by (rewrite <- cards_length; apply nth_error_Some; congruence).
    unfold cardinalities in Hc. rewrite cards_nth in Hc by lia. assert (D4 : (i / m < 4)%nat) by (apply Nat.div_lt_upper_bound; lia).
    destruct (nth_error bs i) as [b|] eqn:Eb; [|apply nth_error_None in Eb; lia].
    destruct (Hb i b Eb) as (c' & low & high & Ec' & ->). cbn [Nat.add] in Ec'.
    assert (c' = c /\ (2 <= c <= 2 ^ 20)%Z) as [-> Hc2].
    { destruct (i / m)%nat as [|[|[|[|]]]]; try lia; cbn in Hc, Ec'; split; try congruence; assert (c <= 16 /\ 2 <= c)%Z by (injection Hc as <-; lia); lia. }
    split; [exact Hc2|]. eexists. split; [reflexivity|]. apply integer_bounds. exact Hc2. }
  assert (O : Forall (fun b => dlt (outer_low b) (outer_high b) = true) bs).
  { apply Forall_forall. intros b Hin. apply In_nth_error in Hin. destruct Hin as [i Eb].
    destruct (Hb i b Eb) as (c & low & high & Ec & ->). apply ordered_bounds; [exact Hh|]. apply nth_error_In in Ec. cbn in Ec.
    assert (c = 0 \/ 2 <= c <= 16)%Z by lia. lia. }
  destruct (align_exists _ bs best I B3 ltac:(lia) O) as [[ws os] Ea].
  rewrite cards_length in Ea |- *.
  assert (T : exists P, transform_vars_discretize inner bs (4 * m) = Ok P).
  { unfold transform_vars_discretize. rewrite B1. replace (4 * m =? 0)%nat with false by (symmetry; apply Nat.eqb_neq; lia).
    rewrite Ea. cbn [bind]. rewrite Nc. change (0 <? 0)%nat with false. cbv iota. eexists. reflexivity. }
  destruct T as [P T]. exists bs, P. split; [exact T|]. split; [exact T|].
  split; [exact I|]. split; [lia|]. intros i b Hi Eb. destruct (Hb i b Eb) as (c & low & high & Ec & ->). cbn [Nat.add] in Ec.
  assert (Li : (i < 5 * m)%nat) by (rewrite <- Lr, <- Lb; apply nth_error_Some; congruence).
  assert (D : (i / m = 4)%nat).
  { assert (i / m < 5)%nat by (apply Nat.div_lt_upper_bound; lia). assert (4 <= i / m)%nat by (apply Nat.div_le_lower_bound; lia). lia. }
  rewrite D in Ec. cbn in Ec. injection Ec as <-. unfold variable_bounds. change (0 =? 0)%Z with true. cbv iota. cbn [outer_low outer_high].
  destruct (dint_val (- half) ltac:(lia)) as [_ V1]. destruct (dint_val half ltac:(lia)) as [_ V2]. rewrite V1, V2, opp_IZR. auto.
Qed.
