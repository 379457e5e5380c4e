(** Proofs about the location of the optimum and the optimal value. *)
From Coq Require Import List Arith NArith ZArith Reals Bool Lia Lra Psatz ZifyBool ZifyNat ZifyN.
From Flocq Require Import Core BinarySingleNaN.
From Verif Require Import CBase OptModel DblModel DblSpec DblProofs TrigProofs DigitProofs PairModel RandModel RandSpec RandProofs LegacyProofs OptimumSpec.
Import ListNotations.
Open Scope R_scope.

Lemma rnd_abs_le : forall r m, (0 <= m <= 2 ^ 53)%Z -> Rabs r <= IZR m -> Rabs (rnd r) <= IZR m.
Proof.
  intros r m H L. apply Rabs_le_inv in L. apply Rabs_le. split.
  - rewrite <- opp_IZR in *. rewrite <- (rnd_int (- m)) by lia. apply rnd_mono. lra.
  - rewrite <- (rnd_int m) by lia. apply rnd_mono. lra.
Qed.
Lemma small_op : forall z r m, num z /\ val z = clamp (rnd r) -> (0 <= m <= 2 ^ 53)%Z -> Rabs r <= IZR m -> fin z /\ val z = rnd r.
Proof.
  intros z r m [N E] H L. apply rnd_abs_le in L; [|exact H]. rewrite (small_clamp _ m) in E by (try lia; exact L).
  split; [|exact E]. apply (small_fin _ m); [lia|exact N|rewrite E; exact L].
Qed.
Lemma eps53 : 0 < bpow radix2 (-53) <= / 10 ^ 12.
Proof.
  split; [apply bpow_gt_0|]. change (-53)%Z with (- (53))%Z. rewrite bpow_opp. apply Rinv_le; [lra|].
  rewrite <- IZR_Zpower by lia. rewrite pow_IZR. apply IZR_le. vm_compute. discriminate.
Qed.
Lemma eps1075 : 0 < bpow radix2 (-1075) <= / 10 ^ 12.
Proof. split; [apply bpow_gt_0|]. apply Rle_trans with (bpow radix2 (-53)); [apply bpow_le; lia|apply eps53]. Qed.
Lemma rnd_close : forall r, Rabs r <= 200 -> Rabs (rnd r - r) <= / 10 ^ 9.
Proof.
  intros r H. pose proof (rnd_err r) as E. pose proof eps53. pose proof eps1075. pose proof (Rabs_pos r).
  apply Rle_trans with (1 := E). assert (bpow radix2 (-53) * Rabs r <= / 10 ^ 12 * 200) by nra. lra.
Qed.

(** The grid. *)
Lemma grid_range : forall offset k, (1 <= offset <= 100)%Z -> (0 <= k <= 9999)%Z -> k <> 5000%Z ->
  - IZR offset <= grid_point offset k < IZR offset /\ grid_point offset k <> 0 /\
  Rabs (grid_point offset k - (IZR (2 * offset) * IZR k / 10000 - IZR offset)) <= / 10 ^ 8.
Proof.
  intros o k Ho Hk Nk. unfold grid_point. set (r := IZR (2 * o * k) / 10000).
  assert (O1 : 1 <= IZR o <= 100) by (split; apply IZR_le; lia). assert (K1 : 0 <= IZR k <= 9999) by (split; apply IZR_le; lia).
  assert (R : r = IZR (2 * o) * IZR k / 10000) by (unfold r; rewrite mult_IZR; reflexivity).
  assert (O2 : IZR (2 * o) = 2 * IZR o) by (rewrite mult_IZR; reflexivity). rewrite O2 in *.
  assert (Rb : 0 <= r <= 200) by (rewrite R; split; nra).
  pose proof (rnd_close r ltac:(rewrite Rabs_pos_eq; lra)) as C. apply Rabs_le_inv in C.
  assert (Y : 0 <= rnd r) by (rewrite <- rnd_0; apply rnd_mono; lra).
  pose proof (rnd_close (rnd r - IZR o) ltac:(apply Rabs_le; lra)) as C2. apply Rabs_le_inv in C2.
  assert (S : IZR k <= 4999 \/ 5001 <= IZR k).
  { destruct (Z_lt_le_dec k 5000) as [L|L]; [left|right]; apply IZR_le; lia. }
  assert (S' : r - IZR o <= - (IZR o / 5000) \/ IZR o / 5000 <= r - IZR o).
  { rewrite R. destruct S as [S|S]; [left|right]; nra. }
  assert (Up : r - IZR o <= IZR o - IZR o / 5000) by (rewrite R; nra).
  split; [split|split].
  - rewrite <- opp_IZR, <- (rnd_int (- o)) by lia. apply rnd_mono. rewrite opp_IZR. lra.
  - lra.
  - intros Z. destruct S' as [S'|S']; lra.
  - rewrite <- R. apply Rabs_le. lra.
Qed.

Lemma minus_1e5 : fin (dopp (ddec 1 5)) /\ val (dopp (ddec 1 5)) = - rnd (/ 100000) /\ / 200000 <= rnd (/ 100000) <= / 50000.
Proof.
  destruct (ddec_inv 5 ltac:(lia)) as [N V]. change (10 ^ 5)%Z with 100000%Z in V.
  assert (B : / 200000 <= rnd (/ 100000) <= / 50000).
  { pose proof (rnd_close (/ 100000) ltac:(rewrite Rabs_pos_eq; lra)) as C. apply Rabs_le_inv in C. lra. }
  split; [apply dopp_fin; apply (small_fin _ 1); [lia|exact N|rewrite V, Rabs_pos_eq; lra]|]. rewrite dopp_val, V. split; [reflexivity|exact B].
Qed.

Lemma coordinate_ok : forall o u, (1 <= o <= 100)%Z -> fin u -> 0 < val u <= 1 - bpow radix2 (-31) ->
  is_coordinate o u (xopt_coordinate (2 * o) o u).
Proof.
  intros o u Ho Fu Hu. unfold xopt_coordinate. cbv zeta.
  destruct (dint_val 10000 ltac:(lia)) as [F4 V4]. destruct (dint_val (2 * o) ltac:(lia)) as [Fs Vs]. destruct (dint_val o ltac:(lia)) as [Fo Vo].
  destruct (dint_val 0 ltac:(lia)) as [F0 V0].
  pose proof (bpow_gt_0 radix2 (-31)) as P31.
  pose proof (dmul_val (dint 10000) u F4 Fu) as M. rewrite V4 in M. apply (small_op _ _ 10000) in M; [|lia|rewrite Rabs_pos_eq; nra]. destruct M as [Fm Vm].
  destruct (dfloor_fin _ Fm) as [Ff Vf]. rewrite Vm in Vf. set (k := Zfloor (rnd (10000 * val u))) in *.
  assert (K : (0 <= k <= 9999)%Z).
  { split.
    - apply Zfloor_lub. rewrite <- rnd_0. apply rnd_mono. nra.
    - assert (U : rnd (10000 * val u) < IZR 10000).
      { apply Rle_lt_trans with (F2R (Float radix2 (10000 * 2 ^ 18 - 1) (-18))).
        - apply rnd_le_format; [|reflexivity|lia]. unfold F2R. cbn [Fnum Fexp]. change (10000 * 2 ^ 18 - 1)%Z with 2621439999%Z.
          assert (B : bpow radix2 (-31) = bpow radix2 (-18) * / 8192) by (change (-31)%Z with (-18 + -13)%Z; rewrite bpow_plus; f_equal; simpl; lra).
          assert (B' : bpow radix2 (-18) = / 262144) by (simpl; lra). rewrite B' in *. rewrite B in Hu. lra.
        - unfold F2R. cbn [Fnum Fexp]. change (10000 * 2 ^ 18 - 1)%Z with 2621439999%Z. replace (bpow radix2 (-18)) with (/ 262144) by (simpl; lra). lra. }
      pose proof (Zfloor_lb (rnd (10000 * val u))) as L. fold k in L. assert (k < 10000)%Z by (apply lt_IZR; lra). lia. }
  assert (K1 : 0 <= IZR k <= 9999) by (split; apply IZR_le; lia). assert (O1 : 1 <= IZR o <= 100) by (split; apply IZR_le; lia).
  pose proof (dmul_val (dint (2 * o)) _ Fs Ff) as M. rewrite Vs, Vf in M. rewrite <- mult_IZR in M.
  apply (small_op _ _ 2000000) in M; [|lia|rewrite <- abs_IZR; apply IZR_le; nia]. destruct M as [Fp Vp].
  rewrite rnd_int in Vp by nia.
  assert (O2 : IZR (2 * o * k) = 2 * IZR o * IZR k) by (rewrite !mult_IZR; reflexivity).
  assert (P4 : 0 < 10000) by lra.
  assert (Rb : 0 <= IZR (2 * o * k) / 10000 <= 200) by (rewrite O2; split; [unfold Rdiv; nra|]; apply (Rmult_le_reg_r 10000); [lra|]; unfold Rdiv; rewrite Rmult_assoc, Rinv_l by lra; nra).
  pose proof (ddiv_val _ (dint 10000) Fp ltac:(rewrite V4; lra) F4) as D. rewrite Vp, V4 in D.
  apply (small_op _ _ 200) in D; [|lia|rewrite Rabs_pos_eq; lra]. destruct D as [Fd Vd].
  assert (Y : Rabs (rnd (IZR (2 * o * k) / 10000)) <= 200) by (apply (rnd_abs_le _ 200); [lia|rewrite Rabs_pos_eq; lra]). apply Rabs_le_inv in Y.
  pose proof (dsub_val _ (dint o) Fd Fo) as D. rewrite Vd, Vo in D.
  apply (small_op _ _ 300) in D; [|lia|apply Rabs_le; lra]. destruct D as [Fx Vx].
  change (rnd (rnd (IZR (2 * o * k) / 10000) - IZR o)) with (grid_point o k) in Vx.
  set (x := dsub _ (dint o)) in *. destruct (deq x (dint 0)) eqn:Q.
  - apply deq_val in Q; [|apply fin_num; assumption|apply fin_num; assumption]. rewrite V0, Vx in Q.
    destruct minus_1e5 as [F5 [V5 _]]. split; [exact F5|]. exists k. split; [exact K|]. split; [reflexivity|].
    split; [|intros _; exact V5]. intros Nk. exfalso. apply (grid_range o k Ho K Nk). exact Q.
  - split; [exact Fx|]. exists k. split; [exact K|]. split; [reflexivity|]. split; [intros _; exact Vx|].
    intros E. exfalso. assert (T : deq x (dint 0) = true); [|congruence].
    apply deq_val; [apply fin_num; exact Fx|apply fin_num; exact F0|]. rewrite Vx, V0. unfold grid_point. rewrite E.
    replace (IZR (2 * o * 5000) / 10000) with (IZR o) by (rewrite !mult_IZR; lra). rewrite (rnd_int o) by lia.
    replace (IZR o - IZR o) with 0 by ring. apply rnd_0.
Qed.

Lemma xopt_all : forall o dim seed, (1 <= o <= 100)%Z -> (- legacy_limit < seed < legacy_limit)%Z ->
  exists us, bbob2009_unif dim seed = Ok us /\ length us = dim /\ (forall u, In u us -> fin u /\ 0 < val u <= 1 - bpow radix2 (-31)) /\
    (do u <- bbob2009_unif dim seed; Ok (map (xopt_coordinate (2 * o) o) u)) = Ok (map (xopt_coordinate (2 * o) o) us) /\
    Forall2 (is_coordinate o) us (map (xopt_coordinate (2 * o) o) us).
Proof.
  intros o dim seed Ho H. destruct (unif_ok dim seed H) as [ps [E [L _]]]. eexists. split; [exact E|]. rewrite E. cbn [bind].
  assert (A : forall u, In u (map (fun p => uniform_of (lcg (effective_seed seed) p)) ps) -> fin u /\ 0 < val u <= 1 - bpow radix2 (-31)).
  { intros u Hu. apply in_map_iff in Hu as [p [<- _]]. destruct (uniform_spec (lcg (effective_seed seed) p) (lcg_range _ _)) as [[F _] R]. split; assumption. }
  split; [rewrite map_length; exact L|]. split; [exact A|]. split; [reflexivity|]. clear E L. revert A. generalize (map (fun p => uniform_of (lcg (effective_seed seed) p)) ps).
  induction l as [|u us IH]; intros A; cbn [map]; constructor.
  - destruct (A u (or_introl eq_refl)). apply coordinate_ok; assumption.
  - apply IH. intros v Hv. apply A. right. exact Hv.
Qed.

Lemma coordinate_range : forall o u x, (1 <= o <= 100)%Z -> is_coordinate o u x -> - IZR o <= val x < IZR o /\ val x <> 0.
Proof.
  intros o u x Ho [F [k [K [_ [A B]]]]]. destruct (Z.eq_dec k 5000) as [E|E].
  - rewrite (B E). destruct minus_1e5 as [_ [_ R]]. assert (1 <= IZR o) by (apply IZR_le; lia). lra.
  - rewrite (A E). destruct (grid_range o k Ho K E) as [R [Z _]]. split; assumption.
Qed.

(** ** The optimal value *)
Lemma dsqrt_val : forall x, fin x -> 0 <= val x -> fin (dsqrt x) /\ val (dsqrt x) = rnd (sqrt (val x)).
Proof.
  intros x F P. destruct (Bsqrt_correct 53 1024 _ _ mode_NE x) as (V & G & _).
  assert (K : fin (dsqrt x)).
  { unfold fin, dsqrt. rewrite G. destruct x as [s|s| |s m e H]; [reflexivity|discriminate F|discriminate F|]. destruct s; [|reflexivity].
    exfalso. assert (N : val (B754_finite true m e H) < 0) by (rewrite (val_fin _ F); cbn [B2R]; apply F2R_lt_0; reflexivity). lra. }
  split; [exact K|]. rewrite (val_fin _ K), (val_fin _ F). exact V.
Qed.

Lemma two_pi : fin (dmul (dint 2) coco_pi) /\ val (dmul (dint 2) coco_pi) = IZR (2 * 7074237752028440) / IZR (2 ^ 51) /\ 
  0 < IZR (2 * 7074237752028440) / IZR (2 ^ 51) < 7.
Proof.
  assert (B : 0 < IZR (2 * 7074237752028440) / IZR (2 ^ 51) < 7).
  { assert (0 < IZR (2 ^ 51)) by (apply IZR_lt; reflexivity). split; [apply Rdiv_lt_0_compat; [apply IZR_lt; reflexivity|assumption]|].
    apply (Rmult_lt_reg_r (IZR (2 ^ 51))); [assumption|]. unfold Rdiv. rewrite Rmult_assoc, Rinv_l by lra. rewrite Rmult_1_r, <- mult_IZR. apply IZR_lt. reflexivity. }
  pose proof (binary_normalize_correct 53 1024 _ _ mode_NE 7074237752028440 (-51) false) as K. cbv zeta in K.
  assert (G : forall e, (-51 <= e)%Z -> round radix2 (SpecFloat.fexp 53 1024) (round_mode mode_NE) (F2R (Float radix2 7074237752028440 e)) = F2R (Float radix2 7074237752028440 e)).
  { intros e He. apply round_generic; [auto with typeclass_instances|]. apply generic_format_FLT. exists (Float radix2 7074237752028440 e); [reflexivity|reflexivity|].
    change (-1074 <= e)%Z. lia. }
  rewrite (G (-51)%Z) in K by lia.
  assert (V : F2R (Float radix2 7074237752028440 (-50)) = IZR (2 * 7074237752028440) / IZR (2 ^ 51)).
  { unfold F2R. cbn [Fnum Fexp]. rewrite mult_IZR. change (2 ^ 51)%Z with (radix2 ^ 51)%Z. rewrite IZR_Zpower by lia. change (51)%Z with (1 + 50)%Z. rewrite bpow_plus.
    change (-50)%Z with (- (50))%Z. rewrite bpow_opp. change (bpow radix2 1) with 2. field. apply Rgt_not_eq, bpow_gt_0. }
  assert (V' : 2 * F2R (Float radix2 7074237752028440 (-51)) = F2R (Float radix2 7074237752028440 (-50))).
  { unfold F2R. cbn [Fnum Fexp]. change (-50)%Z with (1 + -51)%Z. rewrite bpow_plus. change (bpow radix2 1) with 2. ring. }
  rewrite Rlt_bool_true in K.
  - destruct K as (W & F & _). change (fin coco_pi) in F. change (B2R coco_pi = F2R (Float radix2 7074237752028440 (-51))) in W. rewrite <- (val_fin _ F) in W.
    destruct (dint_val 2 ltac:(lia)) as [F2 V2]. pose proof (dmul_val (dint 2) coco_pi F2 F) as M. rewrite V2, W, V' in M.
    apply (small_op _ _ 7) in M; [|lia|rewrite V, Rabs_pos_eq; lra]. destruct M as [M1 M2]. split; [exact M1|]. split; [|exact B].
    rewrite M2. unfold rnd. rewrite <- V. apply (G (-50)%Z). lia.
  - rewrite Rabs_pos_eq by lra. apply Rlt_trans with (bpow radix2 3); [|apply bpow_lt; reflexivity]. change (bpow radix2 3) with 8. lra.
Qed.

Lemma gauss_ok : forall log cos u1 u2, libm_ok log cos -> fin u1 -> 0 < val u1 < 1 -> fin u2 -> 0 < val u2 < 1 ->
  is_gaussian log cos u1 u2 (gauss_value log cos u1 u2) /\ val (gauss_value log cos u1 u2) <> 0 /\ Rabs (val (gauss_value log cos u1 u2)) <= 100.
Proof.
  intros log cos u1 u2 [Hl Hc] F1 B1 F2 B2. destruct (Hl u1 F1 B1) as [Fl Bl]. destruct (dint_val (-2) ltac:(lia)) as [Fm Vm].
  destruct two_pi as [Fp [Vp Bp]].
  pose proof (dmul_val (dmul (dint 2) coco_pi) u2 Fp F2) as M. rewrite Vp in M. apply (small_op _ _ 7) in M; [|lia|rewrite Rabs_pos_eq; nra]. destruct M as [Fw Vw].
  destruct (Hc _ Fw) as [Fc Bc].
  pose proof (dmul_val (dint (-2)) (log u1) Fm Fl) as M. rewrite Vm in M. apply (small_op _ _ 2000) in M; [|lia|rewrite Rabs_pos_eq; lra]. destruct M as [Fq Vq].
  assert (Q0 : 0 <= rnd (-2 * val (log u1)) <= 2000).
  { split; [rewrite <- rnd_0; apply rnd_mono; lra|]. apply Rle_trans with (Rabs (rnd (-2 * val (log u1)))); [apply Rle_abs|]. apply (rnd_abs_le _ 2000); [lia|]. rewrite Rabs_pos_eq; lra. }
  destruct (dsqrt_val _ Fq ltac:(rewrite Vq; lra)) as [Fs Vs]. rewrite Vq in Vs.
  assert (S0 : 0 <= rnd (sqrt (rnd (-2 * val (log u1)))) <= 50).
  { split; [rewrite <- rnd_0; apply rnd_mono, sqrt_pos|]. apply Rle_trans with (Rabs (rnd (sqrt (rnd (-2 * val (log u1)))))); [apply Rle_abs|].
    apply (rnd_abs_le _ 50); [lia|]. rewrite Rabs_pos_eq by apply sqrt_pos. replace 50 with (sqrt (50 * 50)) by (apply sqrt_square; lra). apply sqrt_le_1; lra. }
  pose proof (dmul_val _ _ Fs Fc) as M. rewrite Vs in M.
  assert (Pb : Rabs (rnd (sqrt (rnd (-2 * val (log u1)))) * val (cos (dmul (dmul (dint 2) coco_pi) u2))) <= 50).
  { rewrite Rabs_mult, (Rabs_pos_eq (rnd _)) by lra. pose proof (Rabs_pos (val (cos (dmul (dmul (dint 2) coco_pi) u2)))). nra. }
  apply (small_op _ _ 50) in M; [|lia|exact Pb]. destruct M as [Fg Vg]. apply (rnd_abs_le _ 50) in Pb; [|lia]. rewrite <- Vg in Pb.
  change (dmul (dsqrt (dmul (dint (-2)) (log u1))) (cos (dmul (dmul (dint 2) coco_pi) u2))) with (box_muller log cos u1 u2) in *.
  destruct (dint_val 0 ltac:(lia)) as [F0 V0]. destruct tiny_val as [Ft Vt].
  assert (T : 0 < rnd (/ IZR (10 ^ 99)) <= 1).
  { assert (P99 : 0 < IZR (10 ^ 99)) by (apply IZR_lt; reflexivity). split.
    - apply Rlt_le_trans with (F2R (Float radix2 1 (-330))); [apply F2R_gt_0; reflexivity|]. apply rnd_ge_format; [|reflexivity|lia]. unfold F2R. cbn [Fnum Fexp]. rewrite Rmult_1_l. change (-330)%Z with (- (330))%Z. rewrite bpow_opp.
      apply Rinv_le; [exact P99|]. rewrite <- IZR_Zpower by lia. apply IZR_le. vm_compute. discriminate.
    - rewrite <- rnd_1. apply rnd_mono. rewrite <- Rinv_1. apply Rinv_le; [lra|]. apply IZR_le. vm_compute. discriminate. }
  unfold gauss_value. cbv zeta. destruct (deq (box_muller log cos u1 u2) (dint 0)) eqn:D.
  - apply deq_val in D; [|apply fin_num; exact Fg|apply fin_num; exact F0]. rewrite V0 in D. split; [|split].
    + split; [exact Ft|]. eexists. split; [exact Fw|]. split; [exact Vw|]. cbv zeta. rewrite <- Vg. split; [intros K; contradiction|intros _; exact Vt].
    + rewrite Vt. lra.
    + rewrite Vt, Rabs_pos_eq; lra.
  - assert (Ne : val (box_muller log cos u1 u2) <> 0).
    { intros K. assert (deq (box_muller log cos u1 u2) (dint 0) = true); [|congruence]. apply deq_val; [apply fin_num; exact Fg|apply fin_num; exact F0|]. rewrite V0. exact K. }
    split; [|split].
    + split; [exact Fg|]. eexists. split; [exact Fw|]. split; [exact Vw|]. cbv zeta. rewrite <- Vg. split; [intros _; reflexivity|intros K; contradiction].
    + exact Ne.
    + lra.
Qed.

Lemma gauss_one : forall log cos seed, libm_ok log cos -> (- legacy_limit < seed < legacy_limit)%Z ->
  exists u1 u2 g, bbob2009_unif 2 seed = Ok [u1; u2] /\ bbob2009_gauss log cos 1 seed = Ok [g] /\
    is_gaussian log cos u1 u2 g /\ val g <> 0 /\ Rabs (val g) <= 100.
Proof.
  intros log cos seed Hm H. destruct (xopt_all 1 2 seed ltac:(lia) H) as [us [E [L [A _]]]].
  destruct us as [|u1 [|u2 [|]]]; try (cbn in L; lia). exists u1, u2, (gauss_value log cos u1 u2). split; [exact E|].
  pose proof (bpow_gt_0 radix2 (-31)). destruct (A u1 ltac:(left; reflexivity)) as [F1 B1]. destruct (A u2 ltac:(right; left; reflexivity)) as [F2 B2].
  split; [|apply gauss_ok; auto; lra].
  unfold bbob2009_gauss. change (Z.of_nat (2 * 1) <? 6000)%Z with true. cbv iota. change (2 * 1)%nat with 2%nat. rewrite E. reflexivity.
Qed.

Lemma hundredth : forall x z, fin x -> val x = IZR z -> fin (ddiv x (dint 100)) /\ val (ddiv x (dint 100)) = rnd (IZR z / 100).
Proof.
  intros x z F V. destruct (dint_val 100 ltac:(lia)) as [Fh Vh].
  destruct (ddiv_val x (dint 100) F ltac:(rewrite Vh; lra) Fh) as [N E]. rewrite Vh, V in E.
  assert (B : Rabs (rnd (IZR z / 100)) <= Rabs (val x)).
  { rewrite <- (rnd_val x F), V. pose proof (rnd_mono) as Mo. destruct (Rle_or_lt 0 (IZR z)) as [S|S].
    - rewrite !Rabs_pos_eq by (rewrite <- rnd_0; apply rnd_mono; lra). apply rnd_mono. lra.
    - rewrite !Rabs_left1 by (rewrite <- rnd_0; apply rnd_mono; lra). apply Ropp_le_contravar. apply rnd_mono. lra. }
  pose proof (val_bound x F) as Bx. apply Rabs_lt in Bx. assert (L : Rabs (rnd (IZR z / 100)) < bpow radix2 1024) by (eapply Rle_lt_trans; [exact B|exact Bx]).
  rewrite (clamp_lt _ L) in E. split; [|exact E]. apply fin_val; [exact N|]. rewrite E. apply Rabs_lt_inv. exact L.
Qed.

(** fmin(1000, fmax(-1000, x)) for every number x *)
Lemma limited : forall x, num x -> let y := bbob2009_fmin (dint 1000) (bbob2009_fmax (dint (-1000)) x) in
  fin y /\ val y = Rmax (-1000) (Rmin 1000 (val x)).
Proof.
  intros x N. cbv zeta. destruct (dint_val 1000 ltac:(lia)) as [F1 V1]. destruct (dint_val (-1000) ltac:(lia)) as [F2 V2].
  unfold bbob2009_fmin, bbob2009_fmax. destruct (dlt x (dint (-1000))) eqn:D.
  - apply dlt_val in D; [|exact N|apply fin_num; exact F2]. rewrite V2 in D.
    assert (Q : dlt (dint 1000) (dint (-1000)) = false) by (apply dlt_false; [apply fin_num; exact F1|apply fin_num; exact F2|rewrite V1, V2; lra]).
    rewrite Q. split; [exact F2|]. rewrite V2. rewrite Rmin_right, Rmax_left by lra. reflexivity.
  - apply dlt_false in D; [|exact N|apply fin_num; exact F2]. rewrite V2 in D. destruct (dlt (dint 1000) x) eqn:Q.
    + apply dlt_val in Q; [|apply fin_num; exact F1|exact N]. rewrite V1 in Q. split; [exact F1|]. rewrite V1, Rmin_left, Rmax_right by lra. reflexivity.
    + apply dlt_false in Q; [|apply fin_num; exact F1|exact N]. rewrite V1 in Q. split.
      * apply fin_val; [exact N|]. assert (1000 < big) by (apply Rlt_trans with (IZR (2 ^ 53)); [apply IZR_lt; reflexivity|exact big_53]). lra.
      * rewrite Rmin_right, Rmax_right by lra. reflexivity.
Qed.

Lemma limit_hundredths : forall z, Rmax (-1000) (Rmin 1000 (rnd (IZR z / 100))) = rnd (IZR (Z.max (-100000) (Z.min 100000 z)) / 100).
Proof.
  intros z. assert (U : rnd (IZR 100000 / 100) = 1000) by (replace (IZR 100000 / 100) with (IZR 1000) by lra; apply rnd_int; lia).
  assert (D : rnd (IZR (-100000) / 100) = -1000) by (replace (IZR (-100000) / 100) with (IZR (-1000)) by lra; apply rnd_int; lia).
  destruct (Z_le_gt_dec 100000 z) as [A|A].
  - rewrite Z.min_l, Z.max_r, U by lia. rewrite Rmin_left, Rmax_right; [reflexivity|lra|]. rewrite <- U. apply rnd_mono. apply IZR_le in A. lra.
  - rewrite Z.min_r by lia. assert (rnd (IZR z / 100) <= 1000) by (rewrite <- U; apply rnd_mono; assert (IZR z <= 100000) by (apply IZR_le; lia); lra).
    rewrite Rmin_right by assumption. destruct (Z_le_gt_dec (-100000) z) as [B|B].
    + rewrite Z.max_r by lia. apply Rmax_right. rewrite <- D. apply rnd_mono. apply IZR_le in B. lra.
    + rewrite Z.max_l, D by lia. apply Rmax_left. rewrite <- D. apply rnd_mono. assert (IZR z <= -100000) by (apply IZR_le; lia). lra.
Qed.

(** The optimal value from two finite Gaussian numbers. *)
Lemma value_ok : forall g g2, fin g -> Rabs (val g) <= 100 -> fin g2 -> val g2 <> 0 ->
  let r := bbob2009_fmin (dint 1000) (bbob2009_fmax (dint (-1000)) (ddiv (bbob2009_round (ddiv (dmul (dmul (dint 100) (dint 100)) g) g2)) (dint 100))) in
  fin r /\ val r = rnd (IZR (hundredths (val g) (val g2)) / 100).
Proof.
  intros g g2 Fg Bg F2 N2. cbv zeta. destruct (dint_val 100 ltac:(lia)) as [Fh Vh].
  pose proof (dmul_val (dint 100) (dint 100) Fh Fh) as M. rewrite Vh in M. apply (small_op _ _ 10000) in M; [|lia|rewrite Rabs_pos_eq; lra]. destruct M as [Fk Vk].
  replace (100 * 100) with (IZR 10000) in Vk by lra. rewrite rnd_int in Vk by lia.
  pose proof (dmul_val _ g Fk Fg) as M. rewrite Vk in M. 
  apply (small_op _ _ 1000000) in M; [|lia|rewrite Rabs_mult, (Rabs_pos_eq 10000) by lra; lra]. destruct M as [Fm Vm].
  destruct (ddiv_val _ g2 Fm N2 F2) as [Nq Eq]. rewrite Vm in Eq.
  set (m := dmul (dmul (dint 100) (dint 100)) g) in *. set (q := ddiv m g2) in *. set (R := rnd (rnd (10000 * val g) / val g2)) in *.
  destruct half_val as [F5 V5]. unfold hundredths. fold R. rewrite <- limit_hundredths.
  assert (Cases : fin q \/ ~ fin q) by (unfold fin; destruct (is_finite q); [left; reflexivity|right; discriminate]).
  destruct Cases as [Fq|Nf].
  - (* a finite quotient *)
    pose proof (val_bound q Fq) as Bq. assert (VR : val q = R).
    { rewrite Eq. unfold clamp in Eq |- *. unfold Rmax, Rmin in *. destruct (Rle_dec big R); destruct (Rle_dec _ _); lra. }
    assert (Fa : fin (dadd q (ddec 5 1)) /\ val (dadd q (ddec 5 1)) = rnd (val q + / 2) \/ (IZR 200000 <= rnd (val q + / 2) /\ (val (dadd q (ddec 5 1)) = big) /\ num (dadd q (ddec 5 1)) /\ ~ fin (dadd q (ddec 5 1)))).
    { destruct (dadd_val q (ddec 5 1) Fq F5) as [Na Ea]. rewrite V5 in Ea.
      assert (Fn : fin (dadd q (ddec 5 1)) \/ ~ fin (dadd q (ddec 5 1))) by (unfold fin; destruct (is_finite (dadd q (ddec 5 1))); [left; reflexivity|right; discriminate]).
      pose proof big_53 as B53. assert (B200 : 200000 < IZR (2 ^ 53)) by (apply IZR_lt; reflexivity).
      destruct Fn as [Ff|Ff].
      - left. split; [exact Ff|]. pose proof (val_bound _ Ff) as Bf. rewrite Ea. unfold clamp in Ea |- *. unfold Rmax, Rmin in *. destruct (Rle_dec big _); destruct (Rle_dec _ _); lra.
      - right. destruct (inf_val _ Na Ff) as [I|I].
        + split; [|split; [exact I|split; assumption]]. rewrite I in Ea. unfold clamp, Rmax, Rmin in Ea. pose proof big_pos. destruct (Rle_dec big _) in Ea; destruct (Rle_dec _ _) in Ea; lra.
        + exfalso. assert (L : val q <= rnd (val q + / 2)) by (rewrite <- (rnd_val q Fq) at 1; apply rnd_mono; lra).
          rewrite I in Ea. unfold clamp, Rmax, Rmin in Ea. destruct (Rle_dec big _) in Ea; destruct (Rle_dec _ _) in Ea; pose proof big_pos; lra. }
    rewrite <- VR. destruct Fa as [[Ff Vf]|[Big [I [Na Nf]]]].
    + destruct (dfloor_fin _ Ff) as [Fz Vz]. rewrite Vf in Vz. destruct (hundredth _ _ Fz Vz) as [Fd Vd].
      unfold bbob2009_round. destruct (limited _ (fin_num _ Fd)) as [L1 L2]. split; [exact L1|]. rewrite L2, Vd. reflexivity.
    + unfold bbob2009_round. rewrite (dfloor_inf _ Na Nf). 
      assert (D : num (ddiv (dadd q (ddec 5 1)) (dint 100)) /\ val (ddiv (dadd q (ddec 5 1)) (dint 100)) = big).
      { destruct (dadd q (ddec 5 1)) as [s|s| |s mm e H]; try (elim Nf; reflexivity); try discriminate Na. destruct s; [cbn in I; pose proof big_pos; lra|]. split; reflexivity. }
      destruct D as [D1 D2]. destruct (limited _ D1) as [L1 L2]. split; [exact L1|]. rewrite L2, D2.
      assert (B1 : 1000 < big) by (apply Rlt_trans with (IZR (2 ^ 53)); [apply IZR_lt; reflexivity|exact big_53]).
      rewrite Rmin_left, Rmax_right by lra. symmetry.
      assert (Z2 : (200000 <= Zfloor (rnd (val q + / 2)))%Z) by (apply Zfloor_lub; exact Big).
      assert (1000 <= rnd (IZR (Zfloor (rnd (val q + / 2))) / 100)).
      { rewrite <- (rnd_int 1000) by lia. apply rnd_mono. apply IZR_le in Z2. lra. }
      rewrite Rmin_left, Rmax_right by lra. reflexivity.
  - (* the quotient is infinite *)
    assert (B53 : IZR (2 ^ 53) < big) by exact big_53. assert (B200 : 200000 < IZR (2 ^ 53)) by (apply IZR_lt; reflexivity).
    destruct (inf_val _ Nq Nf) as [I|I].
    + assert (Rb : big <= R) by (rewrite I in Eq; unfold clamp, Rmax, Rmin in Eq; pose proof big_pos; destruct (Rle_dec big R) in Eq; destruct (Rle_dec _ _) in Eq; lra).
      assert (Sq : q = B754_infinity false) by (destruct q as [s|s| |s mm e H]; try (elim Nf; reflexivity); try discriminate Nq; destruct s; [cbn in I; pose proof big_pos; lra|reflexivity]).
      unfold bbob2009_round. rewrite Sq. replace (dadd (B754_infinity false) (ddec 5 1)) with (B754_infinity false : double) by (vm_compute; reflexivity).
      change (ddiv (dfloor (B754_infinity false)) (dint 100)) with (B754_infinity false : double).
      destruct (limited (B754_infinity false) eq_refl) as [L1 L2]. split; [exact L1|]. rewrite L2. change (val (B754_infinity false)) with big.
      rewrite Rmin_left, Rmax_right by lra. symmetry.
      assert (Z2 : (100000 <= Zfloor (rnd (R + / 2)))%Z).
      { apply Zfloor_lub. rewrite <- (rnd_int 100000) by lia. apply rnd_mono. lra. }
      assert (1000 <= rnd (IZR (Zfloor (rnd (R + / 2))) / 100)) by (rewrite <- (rnd_int 1000) by lia; apply rnd_mono; apply IZR_le in Z2; lra).
      rewrite Rmin_left, Rmax_right by lra. reflexivity.
    + assert (Rb : R <= - big) by (rewrite I in Eq; unfold clamp, Rmax, Rmin in Eq; pose proof big_pos; destruct (Rle_dec big R) in Eq; destruct (Rle_dec _ _) in Eq; lra).
      assert (Sq : q = B754_infinity true) by (destruct q as [s|s| |s mm e H]; try (elim Nf; reflexivity); try discriminate Nq; destruct s; [reflexivity|cbn in I; pose proof big_pos; lra]).
      unfold bbob2009_round. rewrite Sq. replace (dadd (B754_infinity true) (ddec 5 1)) with (B754_infinity true : double) by (vm_compute; reflexivity).
      change (ddiv (dfloor (B754_infinity true)) (dint 100)) with (B754_infinity true : double).
      destruct (limited (B754_infinity true) eq_refl) as [L1 L2]. split; [exact L1|]. rewrite L2. change (val (B754_infinity true)) with (- big).
      rewrite Rmin_right, Rmax_left by lra. symmetry.
      assert (Z2 : rnd (R + / 2) <= -100000) by (rewrite <- (rnd_int (-100000)) by lia; apply rnd_mono; lra).
      assert (Z3 : IZR (Zfloor (rnd (R + / 2))) <= -100000) by (pose proof (Zfloor_lb (rnd (R + / 2))); lra).
      assert (rnd (IZR (Zfloor (rnd (R + / 2))) / 100) <= -1000) by (rewrite <- (rnd_int (-1000)) by lia; apply rnd_mono; lra).
      rewrite Rmin_right, Rmax_left by lra. reflexivity.
Qed.
