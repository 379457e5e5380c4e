(** Errors of the numbers that ascetime prints. *)
From Coq Require Import ZArith Reals Lra Lia Bool.
From Flocq Require Import Core BinarySingleNaN Relative Sterbenz.
From Verif Require Import CBase DblModel DblSpec DblProofs TimeModel.
Open Scope R_scope.

Lemma format_val : forall x, fin x -> generic_format radix2 (FLT_exp (-1074) 53) (val x).
Proof. intros x F. rewrite val_fin by exact F. apply generic_format_B2R. Qed.
Lemma trunc_val : forall x, fin x -> 0 <= val x -> Btrunc x = Zfloor (val x).
Proof.
  intros x F P. apply eq_IZR. rewrite Btrunc_correct, round_FIX, <- val_fin by (exact F || exact eq_refl). f_equal. apply Ztrunc_floor. exact P.
Qed.
Lemma fin_of : forall x, num x -> Rabs (val x) < big -> fin x.
Proof. intros x N B. apply fin_val; [exact N|]. apply Rabs_lt_inv in B. exact B. Qed.

Lemma mod1_val : forall x, fin x -> 0 <= val x -> fin (mod1 x) /\ val (mod1 x) = val x - IZR (Zfloor (val x)).
Proof.
  intros x F P. destruct (dfloor_fin x F) as [Ff Vf]. destruct (dsub_val x (dfloor x) F Ff) as [N V]. rewrite Vf in V.
  pose proof (Zfloor_lb (val x)) as L. pose proof (Zfloor_ub (val x)) as U.
  assert (R : rnd (val x - IZR (Zfloor (val x))) = val x - IZR (Zfloor (val x))).
  { apply round_generic; [auto with typeclass_instances|]. assert (Z0 : (0 <= Zfloor (val x))%Z) by (apply Zfloor_lub; exact P).
    destruct (Z.eq_dec (Zfloor (val x)) 0) as [E|E]; [rewrite E, Rminus_0_r; apply format_val; exact F|].
    assert (1 <= IZR (Zfloor (val x))) by (apply IZR_le; lia).
    apply sterbenz; [auto with typeclass_instances|auto with typeclass_instances|apply format_val; exact F|rewrite <- Vf; apply format_val; exact Ff|lra]. }
  rewrite R in V. assert (B : 1 < big) by (change 1 with (bpow radix2 0); apply bpow_lt; lia).
  rewrite clamp_lt in V by (rewrite Rabs_pos_eq; lra). split; [|exact V]. apply fin_of; [exact N|]. unfold mod1. rewrite V, Rabs_pos_eq; lra.
Qed.

Definition below_one : double := ddiv (dint 9007199254740991) (dint 9007199254740992).
Lemma below_one_val : fin below_one /\ val below_one = 1 - bpow radix2 (-53).
Proof. split; [reflexivity|]. unfold val. change (match below_one with B754_infinity s => if s then - big else big | _ => B2R below_one end) with (B2R below_one).
  replace (B2R below_one) with (F2R (Float radix2 9007199254740991 (-53))) by (vm_compute; reflexivity). unfold F2R. cbn [Fnum Fexp].
  change (bpow radix2 (-53)) with (/ IZR 9007199254740992). field. Qed.
Lemma sixty : fin (dint 60) /\ val (dint 60) = 60.
Proof. apply (dint_val 60). discriminate. Qed.

(** Sixty times a fraction is below sixty. *)
Lemma times60 : forall x, fin x -> 0 <= val x < 1 ->
  fin (dmul (dint 60) x) /\ 0 <= val (dmul (dint 60) x) < 60 /\ Rabs (val (dmul (dint 60) x) - 60 * val x) <= 61 * bpow radix2 (-53).
Proof.
  intros x F [P L]. destruct sixty as [F6 V6]. destruct (dmul_val (dint 60) x F6 F) as [N V]. rewrite V6 in V.
  destruct below_one_val as [F1 V1].
  assert (LE : val x <= val below_one).
  { rewrite V1. replace (1 - bpow radix2 (-53)) with (pred radix2 (FLT_exp (-1074) 53) (bpow radix2 0)) by (rewrite pred_bpow by auto with typeclass_instances; reflexivity).
    apply pred_ge_gt; [auto with typeclass_instances|apply format_val; exact F| |exact L]. apply generic_format_bpow. vm_compute. discriminate. }
  destruct (dmul_val (dint 60) below_one F6 F1) as [N1 W]. rewrite V6 in W.
  assert (T : val (dmul (dint 60) below_one) < val (dint 60)) by (apply dlt_val; [exact N1|reflexivity|vm_compute; reflexivity]). rewrite V6 in T.
  assert (S6 : rnd 60 = 60) by (apply (rnd_int 60); discriminate).
  assert (M0 : 0 <= rnd (60 * val x)) by (rewrite <- rnd_0; apply rnd_mono; lra).
  assert (M1 : rnd (60 * val x) <= 60) by (eapply Rle_trans; [apply (rnd_mono _ 60); lra|rewrite S6; lra]).
  assert (M2 : rnd (60 * val below_one) <= 60) by (eapply Rle_trans; [apply (rnd_mono _ 60); rewrite V1; pose proof (bpow_gt_0 radix2 (-53)); lra|rewrite S6; lra]).
  assert (M3 : rnd (60 * val x) <= rnd (60 * val below_one)) by (apply rnd_mono; lra).
  assert (B : 64 < big) by (change 64 with (bpow radix2 6); apply bpow_lt; lia).
  rewrite clamp_lt in V by (rewrite Rabs_pos_eq; lra). rewrite clamp_lt in W by (rewrite Rabs_pos_eq; lra).
  split; [apply fin_of; [exact N|rewrite V, Rabs_pos_eq; lra]|]. rewrite V. split; [lra|].
  eapply Rle_trans; [apply rnd_err|]. rewrite Rabs_pos_eq by lra.
  assert (bpow radix2 (-1075) <= bpow radix2 (-53)) by (apply bpow_le; lia). pose proof (bpow_gt_0 radix2 (-53)). nra.
Qed.

Lemma fields_ok : forall sec, fin sec -> 0 <= val sec -> exists h m s, fields sec = (h, m, s) /\
  (0 <= h)%Z /\ (0 <= m <= 59)%Z /\ (0 <= s <= 59)%Z /\
  (val sec <= IZR 4294967296 -> - / 1000000 < val sec - IZR (3600 * h + 60 * m + s) < 1 + / 1000000).
Proof.
  intros sec F P. unfold fields. destruct (dint_val 3600 ltac:(discriminate)) as [F36 V36].
  destruct (ddiv_val sec (dint 3600) F ltac:(rewrite V36; lra) F36) as [Nh Vh]. rewrite V36 in Vh. set (h := ddiv sec (dint 3600)) in *.
  pose proof (val_bound sec F) as Bd.
  assert (R0 : 0 <= rnd (val sec / 3600)) by (rewrite <- rnd_0; apply rnd_mono; lra).
  assert (R1 : rnd (val sec / 3600) <= val sec) by (rewrite <- (rnd_val sec F) at 2; apply rnd_mono; lra).
  rewrite clamp_lt in Vh by (rewrite Rabs_pos_eq; lra).
  assert (Fh : fin h) by (apply fin_of; [exact Nh|rewrite Vh, Rabs_pos_eq; lra]).
  assert (E1 : Rabs (val h - val sec / 3600) <= bpow radix2 (-53) * (val sec / 3600) + bpow radix2 (-53)).
  { rewrite Vh. eapply Rle_trans; [apply rnd_err|]. rewrite Rabs_pos_eq by lra. assert (bpow radix2 (-1075) <= bpow radix2 (-53)) by (apply bpow_le; lia). lra. }
  assert (Ph : 0 <= val h) by (rewrite Vh; exact R0). clear Vh R0 R1. clearbody h.
  destruct (mod1_val h Fh Ph) as [Fa Va]. pose proof (Zfloor_lb (val h)) as L1. pose proof (Zfloor_ub (val h)) as U1.
  destruct (times60 (mod1 h) Fa ltac:(rewrite Va; lra)) as (Fm & Pm & E2). set (m := dmul (dint 60) (mod1 h)) in *. clearbody m.
  destruct (mod1_val m Fm ltac:(lra)) as [Fb Vb]. pose proof (Zfloor_lb (val m)) as L2. pose proof (Zfloor_ub (val m)) as U2.
  destruct (times60 (mod1 m) Fb ltac:(rewrite Vb; lra)) as (Fs & Ps & E3). set (s := dmul (dint 60) (mod1 m)) in *. clearbody s.
  pose proof (Zfloor_lb (val s)) as L3. pose proof (Zfloor_ub (val s)) as U3.
  exists (Zfloor (val h)), (Zfloor (val m)), (Zfloor (val s)). rewrite !trunc_val by (assumption || lra).
  assert (G : forall x, 0 <= x < 60 -> (0 <= Zfloor x <= 59)%Z).
  { intros x [X0 X1]. split; [apply Zfloor_lub; exact X0|]. assert (Zfloor x < 60)%Z; [|lia]. apply lt_IZR. eapply Rle_lt_trans; [apply Zfloor_lb|exact X1]. }
  split; [reflexivity|]. split; [apply Zfloor_lub; exact Ph|]. split; [apply G; exact Pm|]. split; [apply G; exact Ps|]. intros B.
  rewrite Va in E2. rewrite Vb in E3. rewrite !plus_IZR, !mult_IZR.
  change (bpow radix2 (-53)) with (/ IZR 9007199254740992) in *. apply Rabs_le_inv in E1, E2, E3.
  assert (Q : / IZR 9007199254740992 * (val sec / 3600) <= / IZR 9007199254740992 * (4294967296 / 3600)) by (apply Rmult_le_compat_l; lra).
  lra.
Qed.
