(** Proofs about the values of noisy problems. *)
From Coq Require Import List Arith NArith ZArith Reals Bool Lia Lra Psatz.
From Flocq Require Import Core BinarySingleNaN.
Import ListNotations.
From Verif Require Import CBase OptModel DblModel DblSpec DblProofs ProbModel ProbSpec ProbProofs PairModel RandModel RandSpec LegacyProofs
  OptimumSpec OptimumProofs NoiseModel NoiseSpec.
From Verif Require MixProofs.
From Verif Require Import NoiseProofs NoiseRunProofs.
Open Scope R_scope.

(** ** The offset *)
Lemma offset_val : fin offset /\ 10099/1000000000000 <= val offset <= 10101/1000000000000.
Proof.
  destruct (dint_val 101 ltac:(lia)) as [F101 V101]. destruct (dint_val 100 ltac:(lia)) as [F100 V100].
  destruct (dint_val 1 ltac:(lia)) as [F1 V1]. destruct (dint_val 100000000 ltac:(lia)) as [F8 V8].
  assert (U : MixProofs.u < / 9000000000000000) by apply MixProofs.u_pos. assert (U0 : 0 < MixProofs.u) by apply MixProofs.u_pos.
  pose proof (MixProofs.div_near (dint 101) (dint 100) 2 F101 F100 ltac:(rewrite V100; lra) ltac:(rewrite V101, V100; apply Rabs_le; lra) ltac:(lra)) as [Fa Va].
  rewrite V101, V100 in Va. apply Rabs_le_inv in Va.
  pose proof (MixProofs.div_near (dint 1) (dint 100000000) (/ 1000) F1 F8 ltac:(rewrite V8; lra) ltac:(rewrite V1, V8; apply Rabs_le; lra) ltac:(lra)) as [Fb Vb].
  rewrite V1, V8 in Vb. apply Rabs_le_inv in Vb.
  change (ddec 101 2) with (ddiv (dint 101) (dint 100)) in *. change (ddec 1 8) with (ddiv (dint 1) (dint 100000000)).
  set (a := ddiv (dint 101) (dint 100)) in *. set (b := ddiv (dint 1) (dint 100000000)) in *.
  assert (P : 10099/1000000000000 + / 1000000000000000 <= val a * val b <= 10101/1000000000000 - / 1000000000000000) by nra.
  pose proof (MixProofs.mul_near a b (/ 1000) Fa Fb ltac:(apply Rabs_le; lra) ltac:(lra)) as [Fc Vc]. apply Rabs_le_inv in Vc.
  change offset with (dmul a b). split; [exact Fc|]. nra.
Qed.

Lemma big_large : 1000000000000 <= big.
Proof. apply Rle_trans with (IZR (2 ^ 53)); [apply IZR_le; vm_compute; discriminate|]. pose proof big_53. lra. Qed.

(** What every noisy value reaches *)
Notation reach := above.

Lemma floor_ok : forall fopt a, fin fopt -> Rabs (val fopt) <= 1000 -> val fopt + val offset <= a -> val fopt + 1005 / 100000000000 <= clamp (rnd a).
Proof.
  intros fopt a F B H. destruct offset_val as [Fo Vo]. assert (U : MixProofs.u < / 9000000000000000) by apply MixProofs.u_pos. assert (U0 : 0 < MixProofs.u) by apply MixProofs.u_pos.
  destruct (MixProofs.small_rnd (val fopt + val offset) 1001) as [C [_ E]].
  - eapply Rle_trans; [apply Rabs_triang|]. rewrite (Rabs_pos_eq (val offset)); lra.
  - lra.
  - apply Rle_trans with (clamp (rnd (val fopt + val offset))); [|apply clamp_mono, rnd_mono, H]. rewrite C. apply Rabs_le_inv in E. nra.
Qed.

Lemma reach_penalty : forall fopt v p, fin fopt -> Rabs (val fopt) <= 1000 -> reach fopt v -> num p -> 0 <= val p -> reach fopt (dadd v p).
Proof.
  intros fopt v p F B [N V] Np Vp. pose proof big_large. apply Rabs_le_inv in B.
  destruct (add_ge v p N Np ltac:(lra) Vp) as [N2 V2]. split; [exact N2|lra].
Qed.

(** A factor that is not negative *)
Lemma scaled_reach : forall f fopt e p, fin f -> fin fopt -> Rabs (val fopt) <= 1000 -> val fopt <= val f -> fin e -> 0 < val e -> num p -> 0 <= val p ->
  reach fopt (dadd (dadd (dadd (dmul (dsub f fopt) e) offset) fopt) p).
Proof.
  intros f fopt e p Ff Fo B L Fe Ve Np Vp. apply reach_penalty; auto. pose proof big_large as BL. destruct offset_val as [Foff Voff].
  destruct (dsub_val f fopt Ff Fo) as [Nd Vd]. assert (D0 : 0 <= val (dsub f fopt)) by (rewrite Vd; apply clamp_nonneg, rnd_nonneg; lra).
  set (d := dsub f fopt) in *. clearbody d.
  assert (M : num (dmul d e) /\ 0 <= val (dmul d e)).
  { destruct (fin_dec d) as [Fd|Fd].
    - destruct (dmul_val d e Fd Fe) as [N V]. split; [exact N|]. rewrite V. apply clamp_nonneg, rnd_nonneg. nra.
    - rewrite (not_fin_pos d Nd Fd D0). destruct (mul_inf e (fin_num _ Fe) Ve) as [_ E]. rewrite E. split; [reflexivity|]. change (val dinf) with big. lra. }
  destruct M as [Nm Vm]. destruct (add_nn (dmul d e) offset Nm (fin_num _ Foff) Vm ltac:(lra)) as [Na Va].
  assert (A : val offset <= val (dadd (dmul d e) offset)).
  { rewrite Va. rewrite <- (rnd_val offset Foff) at 1. rewrite <- (clamp_eq (rnd (val offset))); [apply clamp_mono, rnd_mono; lra|]. rewrite rnd_val by exact Foff. lra. }
  set (a := dadd (dmul d e) offset) in *. clearbody a. destruct (fin_dec a) as [Fa|Fa].
  - destruct (dadd_val a fopt Fa Fo) as [N V]. split; [exact N|]. rewrite V. apply floor_ok; auto. lra.
  - rewrite (not_fin_pos a Na Fa ltac:(lra)). destruct (add_inf fopt (fin_num _ Fo)) as [_ E]; [pose proof (val_bound fopt Fo); lra|]. rewrite E. split; [reflexivity|].
    change (val dinf) with big. apply Rabs_le_inv in B. lra.
Qed.

Lemma added_reach : forall f fopt c p, fin f -> fin fopt -> Rabs (val fopt) <= 1000 -> val fopt <= val f -> num c -> 0 <= val c -> num p -> 0 <= val p ->
  reach fopt (dadd (dadd (dadd f c) offset) p).
Proof.
  intros f fopt c p Ff Fo B L Nc Vc Np Vp. apply reach_penalty; auto. pose proof big_large as BL. destruct offset_val as [Foff Voff].
  destruct (add_ge f c (fin_num _ Ff) Nc ltac:(pose proof (val_bound f Ff); lra) Vc) as [Na Va]. set (a := dadd f c) in *. clearbody a.
  destruct (fin_dec a) as [Fa|Fa].
  - destruct (dadd_val a offset Fa Foff) as [N V]. split; [exact N|]. rewrite V. apply floor_ok; auto. lra.
  - pose proof (val_bound f Ff) as Bf. assert (V0 : 0 <= val a) by (destruct (inf_val a Na Fa); lra). rewrite (not_fin_pos a Na Fa V0).
    destruct (add_inf offset (fin_num _ Foff)) as [_ E]; [lra|]. rewrite E. split; [reflexivity|]. change (val dinf) with big. apply Rabs_le_inv in B. lra.
Qed.

(** ** The noise *)
Lemma at_least_0_ok : forall c, num (at_least_0 c) /\ 0 <= val (at_least_0 c).
Proof.
  intros c. unfold at_least_0. destruct (dlt dzero c) eqn:E; [|split; [reflexivity|cbn; lra]].
  destruct (dlt_num _ _ E) as [_ N]. split; [exact N|]. apply (dlt_val dzero c) in E; [|reflexivity|exact N]. change (val dzero) with 0 in E. lra.
Qed.

Section Libm.
Variable log cos exp : double -> double.
Variable pow : double -> double -> double.
Hypothesis libm : sane_libm log cos exp pow.

Lemma uniform_unit : forall k u, uniform_sample k u -> unit_number u.
Proof. intros k u H. destruct (uniform_sample_exists k) as [w [S U]]. unfold uniform_sample in *. assert (w = u) as -> by congruence. exact U. Qed.
Lemma gaussian_bound : forall k g, gaussian_sample log cos k g -> fin g /\ Rabs (val g) <= 100.
Proof.
  intros k g H. destruct (gaussian_sample_exists log cos k) as [u [w [_ [[Fu Vu] [[Fw Vw] S]]]]]. unfold gaussian_sample in *.
  assert (g = gauss_value log cos u w) as -> by congruence. pose proof (bpow_gt_0 radix2 (-31)).
  destruct libm as [L _]. destruct (gauss_ok log cos u w L Fu ltac:(lra) Fw ltac:(lra)) as [[F _] [_ B]]. split; assumption.
Qed.

Lemma pow222 : IZR (10 ^ 111) * IZR (10 ^ 111) < IZR (10 ^ 223) /\ IZR (10 ^ 223) < big.
Proof. split; [rewrite <- mult_IZR|change big with (IZR (2 ^ 1024))]; apply IZR_lt; vm_compute; reflexivity. Qed.

Lemma mul_unit : forall a b, fin a -> fin b -> 0 <= val a <= 1 -> 0 <= val b <= 1 -> fin (dmul a b) /\ 0 <= val (dmul a b) <= 1.
Proof.
  intros a b Fa Fb Va Vb. destruct (dmul_val a b Fa Fb) as [N V]. pose proof big_large.
  assert (R : 0 <= rnd (val a * val b) <= 1). { split; [apply rnd_nonneg; nra|]. rewrite <- (rnd_int 1) by lia. apply rnd_mono. nra. }
  rewrite clamp_eq in V by lra. rewrite V. split; [|exact R]. apply fin_val; [exact N|]. rewrite V. lra.
Qed.

Lemma scaling_ok : forall d a, num d -> 0 <= val d -> fin a -> 0 <= val a <= 1 ->
  let s := at_least_1 (pow (ddiv (dint 1000000000) (dadd d tiny)) a) in fin s /\ 1 <= val s <= IZR (10 ^ 111).
Proof.
  intros d a Nd Vd Fa Va. cbv zeta. destruct tiny_val as [Ft Vt]. pose proof big_large as BL.
  assert (T : / IZR (10 ^ 100) <= val tiny <= 1).
  { rewrite Vt. assert (P99 : 0 < IZR (10 ^ 99)) by (apply IZR_lt; reflexivity).
    assert (P : 0 < / IZR (10 ^ 99)) by (apply Rinv_0_lt_compat; exact P99).
    assert (L : bpow radix2 (-1022) <= / IZR (10 ^ 99)).
    { change (-1022)%Z with (- (1022))%Z. rewrite bpow_opp. apply Rinv_le; [exact P99|]. rewrite <- IZR_Zpower by lia. apply IZR_le. vm_compute. discriminate. }
    pose proof (rnd_rel _ L) as R. pose proof u_small as U. split.
    - eapply Rle_trans; [|apply R]. change (10 ^ 100)%Z with (10 * 10 ^ 99)%Z. rewrite mult_IZR, Rinv_mult. nra.
    - assert (/ IZR (10 ^ 99) <= / 10) by (apply Rinv_le; [lra|apply IZR_le; vm_compute; discriminate]). nra. }
  assert (P100 : 0 < / IZR (10 ^ 100)) by (apply Rinv_0_lt_compat, IZR_lt; reflexivity).
  destruct (add_nn d tiny Nd (fin_num _ Ft) Vd ltac:(lra)) as [Nn Vn].
  assert (D : / IZR (10 ^ 100) <= val (dadd d tiny)).
  { rewrite Vn. eapply Rle_trans; [apply T|]. rewrite <- (rnd_val tiny Ft) at 1. rewrite <- (clamp_eq (rnd (val tiny))); [apply clamp_mono, rnd_mono; lra|]. rewrite rnd_val by exact Ft. lra. }
  set (n := dadd d tiny) in *. clearbody n. destruct (dint_val 1000000000 ltac:(lia)) as [F9 V9].
  assert (Q : fin (ddiv (dint 1000000000) n) /\ 0 <= val (ddiv (dint 1000000000) n) <= IZR (10 ^ 109 + 10 ^ 107)).
  { destruct (fin_dec n) as [Fn|Fn].
    - destruct (ddiv_val (dint 1000000000) n F9 ltac:(lra) Fn) as [N V]. rewrite V9 in V.
      assert (B : 0 <= 1000000000 / val n <= IZR (10 ^ 109)).
      { split; [apply Rmult_le_pos; [lra|apply Rlt_le, Rinv_0_lt_compat; lra]|]. change (10 ^ 109)%Z with (1000000000 * 10 ^ 100)%Z. rewrite mult_IZR. apply Rmult_le_compat_l; [lra|].
        rewrite <- (Rinv_inv (IZR (10 ^ 100))). apply Rinv_le; lra. }
      assert (W : bpow radix2 (-1022) <= IZR (10 ^ 109)) by (apply Rle_trans with 1; [change 1 with (bpow radix2 0); apply bpow_le; lia|apply IZR_le; vm_compute; discriminate]).
      pose proof (rnd_rel _ W) as R. pose proof u_small as U.
      assert (R1 : 0 <= rnd (1000000000 / val n) <= IZR (10 ^ 109 + 10 ^ 107)).
      { split; [apply rnd_nonneg; lra|]. eapply Rle_trans; [apply rnd_mono, B|]. eapply Rle_trans; [apply R|]. rewrite plus_IZR. change (10 ^ 109)%Z with (100 * 10 ^ 107)%Z. rewrite mult_IZR.
        assert (0 < IZR (10 ^ 107)) by (apply IZR_lt; reflexivity). nra. }
      assert (W2 : IZR (10 ^ 109 + 10 ^ 107) < big) by (change big with (IZR (2 ^ 1024)); apply IZR_lt; vm_compute; reflexivity).
      rewrite clamp_eq in V by lra. rewrite V. split; [|exact R1]. apply fin_val; [exact N|]. rewrite V. lra.
    - rewrite (not_fin_pos n Nn Fn ltac:(lra)). replace (ddiv (dint 1000000000) dinf) with dzero.
      + split; [reflexivity|]. change (val dzero) with 0. split; [lra|apply IZR_le; vm_compute; discriminate].
      + destruct (dint 1000000000) as [s|s| |s m e H] eqn:E; try discriminate F9.
        * exfalso. assert (val (B754_zero s) = 1000000000) by (rewrite <- V9; reflexivity). cbn in H. lra.
        * destruct s; [|reflexivity]. exfalso. assert (K : val (B754_finite true m e H) = 1000000000) by (rewrite <- V9; reflexivity).
          pose proof (sign_val (B754_finite true m e H) F9) as S. cbn [Bsign] in S. lra. }
  destruct libm as [_ [_ HP]]. destruct Q as [Fq Vq].
  assert (W : IZR (10 ^ 109 + 10 ^ 107) <= IZR (10 ^ 110)) by (apply IZR_le; vm_compute; discriminate).
  destruct (HP _ a Fq Fa ltac:(lra) Va) as [Fp [Vp _]]. destruct (dint_val 1 ltac:(lia)) as [F1 V1]. unfold at_least_1.
  destruct (dlt (dint 1) _) eqn:E.
  - apply (dlt_val _ _ (fin_num _ F1) (fin_num _ Fp)) in E. rewrite V1 in E. split; [exact Fp|lra].
  - split; [exact F1|]. rewrite V1. split; [lra|apply IZR_le; vm_compute; discriminate].
Qed.

Lemma noisy_reach : forall k u g fopt f p v, moderate k -> fin fopt -> Rabs (val fopt) <= 1000 -> fin f -> val fopt <= val f -> num p -> 0 <= val p ->
  noisy_value log cos exp pow k u g fopt f p v -> reach fopt v.
Proof.
  intros k u g fopt f p v M Fo B Ff L Np Vp H. destruct k as [beta|alpha beta|alpha q]; cbn [noisy_value] in H.
  - destruct H as [N [S ->]]. destruct M as [Fb Vb]. destruct (gaussian_bound _ _ S) as [Fg Vg]. pose proof big_large as BL.
    destruct (dmul_val beta N Fb Fg) as [Nm Vm].
    assert (A : Rabs (rnd (val beta * val N)) <= 100).
    { apply Rabs_le_inv in Vg. apply Rabs_le. split.
      - apply Rle_trans with (rnd (IZR (-100))); [rewrite rnd_int by lia; lra|]. apply rnd_mono. nra.
      - rewrite <- (rnd_int 100) by lia. apply rnd_mono. nra. }
    pose proof (Rabs_le_inv _ _ A) as A2. rewrite (proj1 (MixProofs.small_rnd (val beta * val N) 100 ltac:(apply Rabs_le_inv in Vg; apply Rabs_le; nra) ltac:(lra))) in Vm.
    assert (Fm : fin (dmul beta N)) by (apply fin_val; [exact Nm|rewrite Vm; lra]).
    destruct libm as [_ [HE _]]. destruct (HE (dmul beta N) Fm ltac:(rewrite Vm; exact A)) as [Fe Ve]. apply scaled_reach; auto.
  - destruct H as [U1 [U2 [S1 [S2 ->]]]]. destruct M as [Fa [Fb [Va Vb]]]. destruct (uniform_unit _ _ S1) as [F1 V1]. destruct (uniform_unit _ _ S2) as [F2 V2].
    pose proof (bpow_gt_0 radix2 (-31)) as P31. pose proof pow222 as [P1 P2].
    destruct (dsub_val f fopt Ff Fo) as [Nd Vd]. assert (D0 : 0 <= val (dsub f fopt)) by (rewrite Vd; apply clamp_nonneg, rnd_nonneg; lra).
    destruct (mul_unit alpha U2 Fa F2 Va ltac:(lra)) as [Fm Vm]. destruct (scaling_ok (dsub f fopt) (dmul alpha U2) Nd D0 Fm Vm) as [Fs Vs].
    set (s := at_least_1 _) in *. destruct libm as [_ [_ HP]].
    assert (O : 1 <= IZR (10 ^ 110)) by (apply IZR_le; vm_compute; discriminate).
    destruct (HP U1 beta F1 Fb ltac:(lra) Vb) as [Fp [Vp1 Vp2]]. specialize (Vp2 ltac:(lra)).
    destruct (dmul_val (pow U1 beta) s Fp Fs) as [Nq Vq].
    assert (R : val (pow U1 beta) * 1 <= val (pow U1 beta) * val s <= IZR (10 ^ 223)).
    { split; [apply Rmult_le_compat_l; lra|]. eapply Rle_trans; [apply Rmult_le_compat; [lra|lra|apply Vp1|apply Vs]|lra]. }
    assert (R2 : rnd (val (pow U1 beta) * val s) <= IZR (2 ^ 742)).
    { replace (IZR (2 ^ 742)) with (F2R (Float radix2 1 742)) by (unfold F2R; cbn [Fnum Fexp]; rewrite <- (IZR_Zpower radix2) by lia; rewrite <- mult_IZR; reflexivity).
      apply rnd_le_format; [|reflexivity|lia]. eapply Rle_trans; [apply R|]. unfold F2R. cbn [Fnum Fexp]. rewrite <- (IZR_Zpower radix2) by lia. rewrite <- mult_IZR.
      apply IZR_le. vm_compute. discriminate. }
    assert (R3 : val (pow U1 beta) <= rnd (val (pow U1 beta) * val s)). { rewrite <- (rnd_val _ Fp) at 1. apply rnd_mono. lra. }
    assert (R4 : IZR (2 ^ 742) < big) by (change big with (IZR (2 ^ 1024)); apply IZR_lt; vm_compute; reflexivity).
    rewrite clamp_eq in Vq by lra. assert (Fe : fin (dmul (pow U1 beta) s)) by (apply fin_val; [exact Nq|rewrite Vq; lra]).
    apply scaled_reach; auto. rewrite Vq. lra.
  - destruct H as [U [N1 [N2 [_ [_ [_ ->]]]]]]. destruct (at_least_0_ok (dmul alpha (if dlt U q then dadd (dint 1000) (ddiv N1 (dabs (dadd N2 tiny199))) else dint 1000))) as [Nc Vc].
    apply added_reach; auto.
Qed.

(** ** Processes *)
Context {C : class}.
Notation nclass := (noise_class log cos exp pow C).
Notation process := (process log cos exp pow C).
Implicit Types st : process.

Lemma target_val : forall fopt, fin fopt -> Rabs (val fopt) <= 1000 -> num (dadd fopt (ddec 1 8)) /\ val (dadd fopt (ddec 1 8)) < val fopt + 1005 / 100000000000.
Proof.
  intros fopt F B. destruct (dint_val 1 ltac:(lia)) as [F1 V1]. destruct (dint_val 100000000 ltac:(lia)) as [F8 V8].
  assert (U : MixProofs.u < / 9000000000000000) by apply MixProofs.u_pos. assert (U0 : 0 < MixProofs.u) by apply MixProofs.u_pos.
  pose proof (MixProofs.div_near (dint 1) (dint 100000000) (/ 1000) F1 F8 ltac:(rewrite V8; lra) ltac:(rewrite V1, V8; apply Rabs_le; lra) ltac:(lra)) as [Fb Vb].
  rewrite V1, V8 in Vb. apply Rabs_le_inv in Vb. change (ddec 1 8) with (ddiv (dint 1) (dint 100000000)). set (b := ddiv (dint 1) (dint 100000000)) in *.
  apply Rabs_le_inv in B.
  pose proof (MixProofs.add_near fopt b 1001 F Fb ltac:(apply Rabs_le; lra) ltac:(lra)) as [Fc Vc]. apply Rabs_le_inv in Vc. split; [apply fin_num, Fc|]. lra.
Qed.

(** What holds of the problems of a process all the time *)
Definition holds (I : data C -> Prop) (fopt : double) (P : problem nclass) : Prop :=
  I (body (n_inner (body P))) /\ best_value (head P) = Some [fopt] /\ best_value (head (n_inner (body P))) = Some [fopt] /\
  fin fopt /\ Rabs (val fopt) <= 1000 /\ moderate (n_noise (body P)) /\ Forall domain (n_roi (body P)) /\
  length (n_roi (body P)) = number_of_variables (head P) /\ number_of_constraints (head P) = 0%nat /\
  final_target_delta (head P) = ddec 1 8 /\ above fopt (best_observed_fvalue (head P)).

Lemma new_holds : forall I fopt P, new_problem I fopt P -> holds I fopt P.
Proof.
  intros I fopt P (H1 & H2 & H3 & H4 & H5 & H6 & H7 & H8 & H9 & H10 & H11 & H12 & H13). unfold holds. repeat (split; [assumption|]).
  rewrite H12. split; [apply max_num|]. assert (M : IZR (2 ^ 1023) <= val DBL_MAX).
  { unfold val, DBL_MAX. cbn. unfold F2R. cbn. rewrite <- mult_IZR. apply IZR_le. vm_compute. discriminate. }
  assert (M2 : 1001 <= IZR (2 ^ 1023)) by (apply IZR_le; vm_compute; discriminate). apply Rabs_le_inv in H5. lra.
Qed.

Lemma regular_fin : forall x, regular x -> Forall fin x.
Proof.
  intros x R. unfold regular in R. eapply Forall_impl; [|exact R]. intros v. unfold fin, is_finite. destruct v; cbn; intuition congruence.
Qed.

Lemma step_value : forall st n i x y st' P, simple st -> nth_error (p_problems st) i = Some P -> length x = number_of_variables (head P) -> regular x ->
  Forall domain (n_roi (body P)) -> length (n_roi (body P)) = number_of_variables (head P) ->
  p_seeds st = seeds_at n -> step log cos exp pow st (Eval i x) = Ok (y, st') ->
  exists f rest d fopt penalty v Q, evaluate_function C (head (n_inner (body P))) (body (n_inner (body P))) x = Ok (f :: rest, d) /\
    (match n_noise (body P) with Cauchy _ _ => True | _ => exists w, best_value (head (n_inner (body P))) = Some w /\ nth_error w 0 = Some fopt end) /\
    coco_boundary_handling (length x) (n_roi (body P)) x = Ok penalty /\ num penalty /\ 0 <= val penalty /\
    y = v :: rest /\ (forall fopt', match n_noise (body P) with Cauchy _ _ => True | _ => fopt' = fopt end -> noisy_value log cos exp pow (n_noise (body P)) (fst n) (snd n) fopt' f penalty v) /\
    p_problems st' = upd (p_problems st) i Q /\ kept log cos exp pow P Q /\
    n_inner (body Q) = {| head := head (n_inner (body P)); body := d |} /\ n_free (body Q) = firstn (number_of_objectives (head P)) (f :: rest) /\
    evaluations (head Q) = (evaluations (head P) + 1)%N /\
    best_observed_fvalue (head Q) = (if dlt v (best_observed_fvalue (head P)) then v else best_observed_fvalue (head P)).
Proof.
  intros st n i x y st' P S EP L R D LR H0 H. cbn [step] in H. unfold mget in H. rewrite EP in H. cbn [bind] in H.
  destruct (evaluate_with log cos exp pow (p_seeds st) P x) as [[[y1 Q] s]| |] eqn:E; try discriminate H. cbn [bind] in H.
  assert (st' = {| p_seeds := s; p_problems := upd (p_problems st) i Q |}) as -> by congruence. assert (y1 = y) as -> by congruence. clear H.
  assert (NC : number_of_constraints (head P) = 0%nat) by (apply nth_error_In in EP; unfold simple in S; rewrite Forall_forall in S; apply S; exact EP).
  destruct (evaluate_regular log cos exp pow _ _ _ _ _ _ L R NC E) as [d [E1 [_ [EB [K [y0 [Y0 [Ev BO]]]]]]]].
  apply noise_evaluate_inv in E1 as [f [rest [b [n1 [n2 [fopt [penalty [F1 [F2 [F3 [F4 [F5 F6]]]]]]]]]]]].
  cbn [with_seeds n_inner n_noise n_roi n_seeds] in F1, F2, F3, F4, F5. rewrite H0 in F2. destruct (draw_ok log cos exp pow (n_noise (body P)) n) as [m1 [m2 [E3 V]]].
  rewrite E3 in F2. assert (m1 = n1) as -> by congruence. assert (m2 = n2) as -> by congruence.
  destruct (penalty_ok x (n_roi (body P)) D (regular_fin x R) ltac:(congruence)) as [q [Eq [Nq [_ Vq]]]].
  rewrite <- L, Eq in F4. assert (q = penalty) as -> by congruence.
  exists f, rest, b, fopt, penalty, (disturb pow (n_noise (body P)) n1 n2 fopt f penalty), Q.
  split; [exact F1|]. split; [exact F3|]. split; [exact Eq|]. split; [exact Nq|]. split; [exact Vq|]. split; [exact F5|].
  split; [|split; [reflexivity|split; [exact K|]]].
  - intros fopt' Hf. specialize (V fopt' f penalty). destruct (n_noise (body P)); [rewrite <- Hf; exact V|rewrite <- Hf; exact V|exact V].
  - rewrite EB, F6. cbn [n_inner n_free with_seeds]. split; [reflexivity|]. split; [reflexivity|]. split; [exact Ev|].
    rewrite F5 in Y0. cbn [nth_error] in Y0. assert (disturb pow (n_noise (body P)) n1 n2 fopt f penalty = y0) as -> by congruence. exact BO.
Qed.

Lemma above_min : forall fopt v b, above fopt v -> above fopt b -> above fopt (if dlt v b then v else b).
Proof. intros fopt v b H K. destruct (dlt v b); assumption. Qed.

Definition all_hold (I : data C -> Prop) (fopts : list double) st : Prop := Forall2 (holds I) fopts (p_problems st).

Lemma Forall2_nth : forall A B (R : A -> B -> Prop) l l', Forall2 R l l' -> forall i b, nth_error l' i = Some b -> exists a, nth_error l i = Some a /\ R a b.
Proof. intros A B R l l' H. induction H as [|a b l l' HR H IH]; intros [|i] c E; cbn in *; try discriminate E; [|apply IH, E]. exists a. split; [reflexivity|congruence]. Qed.
Lemma Forall2_upd : forall A B (R : A -> B -> Prop) l l', Forall2 R l l' -> forall i a c, nth_error l i = Some a -> R a c -> Forall2 R l (upd l' i c).
Proof. intros A B R l l' H. induction H as [|a b l l' HR H IH]; intros [|i] a' c E K; cbn in *; try discriminate E; constructor; auto; [congruence|eapply IH; eauto]. Qed.

Lemma step_holds : forall (I : data C -> Prop) fopts st n e y st', (forall fopt, In fopt fopts -> never_below C I fopt) ->
  all_hold I fopts st -> simple st -> fits st [e] -> p_seeds st = seeds_at n -> step log cos exp pow st e = Ok (y, st') -> all_hold I fopts st'.
Proof.
  intros I fopts st n [i x|] y st' NB A S F H0 H.
  - destruct (Forall_inv F) as [P [EP L]]. destruct (Forall2_nth _ _ _ _ _ A i P EP) as [fopt [Ef HP]].
    pose proof HP as (H1 & H2 & H3 & H4 & H5 & H6 & H7 & H8 & H9 & H10 & H11).
    destruct (regularb x) eqn:R.
    + apply regularb_spec in R. destruct (step_value st n i x y st' P S EP L R H7 H8 H0 H)
        as (f & rest & d & fo & p & v & Q & E1 & E2 & E3 & Np & Vp & E4 & NV & E5 & K & E6 & E7 & E8 & E9).
      destruct (NB fopt (nth_error_In _ _ Ef) _ _ _ _ _ H1 E1) as [Id [f' [Ey [Ff Lf]]]]. assert (f' = f /\ rest = []) as [-> ->] by (split; congruence).
      assert (V : above fopt v).
      { eapply noisy_reach; [exact H6|exact H4|exact H5|exact Ff|exact Lf|exact Np|exact Vp|]. apply NV. destruct (n_noise (body P)); auto; destruct E2 as [w [W1 W2]]; rewrite H3 in W1; 
          assert (w = [fopt]) as -> by congruence; cbn in W2; congruence. }
      unfold all_hold. rewrite E5. eapply Forall2_upd; [exact A|exact Ef|]. destruct K as (K1 & K2 & K3 & K4 & K5 & K6 & K7 & K8). unfold holds.
      rewrite E6. cbn [head body]. rewrite K1, K2, K4, K5, K7, K8. repeat (split; [assumption|]). rewrite E9. apply above_min; assumption.
    + cbn [step] in H. unfold mget in H. rewrite EP in H. cbn [bind] in H. destruct (evaluate_irregular log cos exp pow (p_seeds st) P x L R) as [y2 E2]. rewrite E2 in H. cbn [bind] in H.
      assert (st' = {| p_seeds := p_seeds st; p_problems := upd (p_problems st) i (set_body P (with_seeds (p_seeds st) (body P) : data nclass)) |}) as -> by congruence.
      unfold all_hold. cbn [p_problems]. eapply Forall2_upd; [exact A|exact Ef|]. exact HP.
  - cbn [step] in H. assert (st' = {| p_seeds := reset_seeds; p_problems := p_problems st |}) as -> by congruence. exact A.
Qed.

Lemma holds_simple : forall I fopts st, all_hold I fopts st -> simple st.
Proof.
  intros I fopts st A. unfold simple. induction A as [|? ? ? ? H A IH]; constructor; [|exact IH]. apply H.
Qed.

Lemma run_holds : forall (I : data C -> Prop) fopts es st n ys st', (forall fopt, In fopt fopts -> never_below C I fopt) ->
  all_hold I fopts st -> fits st es -> p_seeds st = seeds_at n -> run log cos exp pow st es = Ok (ys, st') -> all_hold I fopts st'.
Proof.
  intros I fopts es. induction es as [|e es IH]; intros st n ys st' NB A F H0 H; cbn [run] in H.
  - assert (st' = st) as -> by congruence. exact A.
  - destruct (step log cos exp pow st e) as [[y st1]| |] eqn:E; try discriminate H. cbn [bind] in H.
    destruct (run log cos exp pow st1 es) as [[ys2 st2]| |] eqn:E2; try discriminate H. cbn [bind] in H.
    assert (st' = st2) as -> by congruence. inversion F as [|? ? Fe Fes]. subst.
    assert (F1 : fits st [e]) by (constructor; [exact Fe|constructor]). pose proof (holds_simple _ _ _ A) as S.
    destruct (step_related log cos exp pow _ _ _ _ S F1 E) as [R [S1 [_ K1]]]. pose proof (step_seeds log cos exp pow _ _ _ _ n S F1 H0 E) as P1.
    eapply IH; [exact NB| |eapply fits_related; eassumption|exact P1|exact E2]. eapply step_holds; eassumption.
Qed.

Lemma holds_target : forall I fopt P, holds I fopt P -> coco_problem_final_target_hit (head P) = Ok false.
Proof.
  intros I fopt P (H1 & H2 & H3 & H4 & H5 & H6 & H7 & H8 & H9 & H10 & [Nb Vb]). unfold coco_problem_final_target_hit. rewrite H2, H10.
  destruct (_ || _)%bool; [reflexivity|]. unfold mget. cbn [nth_error bind]. f_equal.
  destruct (target_val fopt H4 H5) as [Nt Vt]. apply (dle_false _ _ Nb Nt). lra.
Qed.
End Libm.
