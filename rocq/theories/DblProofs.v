(** Order and arithmetic of doubles through their values. *)
From Coq Require Import ZArith Reals Lra Lia Bool.
From Flocq Require Import Core BinarySingleNaN Relative.
From Verif Require Import CBase OptModel DblModel DblSpec.
Open Scope R_scope.

Notation big := (bpow radix2 1024).

Lemma big_pos : 0 < big.
Proof. apply bpow_gt_0. Qed.

Lemma fin_num : forall x, fin x -> num x.
Proof. intros [s|s| |s m e H]; unfold fin, num; simpl; congruence. Qed.

Lemma val_fin : forall x, fin x -> val x = B2R x.
Proof. intros [s|s| |s m e H]; unfold fin; simpl; auto; discriminate. Qed.

Lemma val_bound : forall x, fin x -> - big < val x < big.
Proof.
  intros x H. rewrite (val_fin x H). apply Rabs_lt_inv, abs_B2R_lt_emax.
Qed.

Lemma val_range : forall x, - big <= val x <= big.
Proof.
  intros x. destruct x as [s|s| |s m e H].
  - pose proof (val_bound (B754_zero s) eq_refl). lra.
  - pose proof big_pos. destruct s; simpl; lra.
  - simpl. pose proof big_pos. lra.
  - pose proof (val_bound (B754_finite s m e H) eq_refl). lra.
Qed.

Lemma fin_val : forall x, num x -> (fin x <-> - big < val x < big).
Proof.
  intros x N; split; [apply val_bound|].
  pose proof big_pos as P. destruct x as [s|s| |s m e H]; try reflexivity; [|discriminate].
  destruct s; cbn [val]; lra.
Qed.

Lemma inf_val : forall x, num x -> ~ fin x -> val x = big \/ val x = - big.
Proof.
  intros [s|s| |s m e H]; unfold num, fin; simpl; intros N F; try congruence.
  destruct s; auto.
Qed.

(** Comparisons. *)
Lemma dlt_val : forall x y, num x -> num y -> (dlt x y = true <-> val x < val y).
Proof.
  intros x y Nx Ny. pose proof big_pos as P.
  destruct (is_finite x) eqn:Fx; destruct (is_finite y) eqn:Fy.
  - rewrite !val_fin by assumption. unfold dlt. rewrite Bltb_correct by assumption.
    case Rlt_bool_spec; split; intros; auto; try discriminate; lra.
  - pose proof (val_bound x Fx). destruct y as [s|s| |s m e H0]; try discriminate.
    destruct x as [s'|s'| |s' m e B]; try discriminate; destruct s; try destruct s'; cbn [val] in *;
      (split; [intros K; first [discriminate K | lra]
              | intros K; first [reflexivity | exfalso; lra]]).
  - pose proof (val_bound y Fy). destruct x as [s|s| |s m e H0]; try discriminate.
    destruct y as [s'|s'| |s' m e B]; try discriminate; destruct s; try destruct s'; cbn [val] in *;
      (split; [intros K; first [discriminate K | lra]
              | intros K; first [reflexivity | exfalso; lra]]).
  - destruct x as [s|s| |s m e H0]; try discriminate. destruct y as [s'|s'| |s' m e B]; try discriminate.
    destruct s, s'; simpl; (split; [intros K; first [discriminate K | lra]
              | intros K; first [reflexivity | exfalso; lra]]).
Qed.

Lemma dle_val : forall x y, num x -> num y -> (dle x y = true <-> val x <= val y).
Proof.
  intros x y Nx Ny. pose proof big_pos as P.
  destruct (is_finite x) eqn:Fx; destruct (is_finite y) eqn:Fy.
  - rewrite !val_fin by assumption. unfold dle. rewrite Bleb_correct by assumption.
    case Rle_bool_spec; split; intros; auto; try discriminate; lra.
  - pose proof (val_bound x Fx). destruct y as [s|s| |s m e H0]; try discriminate.
    destruct x as [s'|s'| |s' m e B]; try discriminate; destruct s; try destruct s'; cbn [val] in *;
      (split; [intros K; first [discriminate K | lra]
              | intros K; first [reflexivity | exfalso; lra]]).
  - pose proof (val_bound y Fy). destruct x as [s|s| |s m e H0]; try discriminate.
    destruct y as [s'|s'| |s' m e B]; try discriminate; destruct s; try destruct s'; cbn [val] in *;
      (split; [intros K; first [discriminate K | lra]
              | intros K; first [reflexivity | exfalso; lra]]).
  - destruct x as [s|s| |s m e H0]; try discriminate. destruct y as [s'|s'| |s' m e B]; try discriminate.
    destruct s, s'; simpl; (split; [intros K; first [discriminate K | lra]
              | intros K; first [reflexivity | exfalso; lra]]).
Qed.

Lemma deq_dle : forall x y, deq x y = dle x y && dle y x.
Proof.
  intros x y. unfold deq, dle, Beqb, Bleb, SpecFloat.SFeqb, SpecFloat.SFleb.
  pose proof (Bcompare_swap 53 1024 x y) as S. unfold Bcompare in S. rewrite S.
  destruct (SpecFloat.SFcompare (B2SF x) (B2SF y)) as [[]|]; reflexivity.
Qed.

Lemma deq_val : forall x y, num x -> num y -> (deq x y = true <-> val x = val y).
Proof.
  intros x y Nx Ny. rewrite deq_dle, andb_true_iff, dle_val, dle_val by assumption. lra.
Qed.

Lemma dlt_num : forall x y, dlt x y = true -> num x /\ num y.
Proof.
  intros [s|s| |s m e H] [s'|s'| |s' m' e' H']; unfold num; simpl; try discriminate; auto.
  all: destruct s; try discriminate; auto.
Qed.

Lemma dle_num : forall x y, dle x y = true -> num x /\ num y.
Proof.
  intros [s|s| |s m e H] [s'|s'| |s' m' e' H']; unfold num; simpl; try discriminate; auto.
  all: destruct s; try discriminate; auto.
Qed.

Lemma dlt_false : forall x y, num x -> num y -> (dlt x y = false <-> val y <= val x).
Proof.
  intros x y Nx Ny. pose proof (dlt_val x y Nx Ny). destruct (dlt x y); split; intros; try discriminate; auto.
  - assert (val x < val y) by (apply H; auto). lra.
  - apply Rnot_lt_le. intro K. apply H in K. discriminate.
Qed.

Lemma dle_false : forall x y, num x -> num y -> (dle x y = false <-> val y < val x).
Proof.
  intros x y Nx Ny. pose proof (dle_val x y Nx Ny). destruct (dle x y); split; intros; try discriminate; auto.
  - assert (val x <= val y) by (apply H; auto). lra.
  - apply Rnot_le_lt. intro K. apply H in K. discriminate.
Qed.

(** Overflow. *)
Lemma clamp_id : forall r, Rabs r <= big -> clamp r = r.
Proof.
  intros r H. unfold clamp. apply Rabs_le_inv in H. pose proof big_pos.
  rewrite Rmin_right, Rmax_right; lra.
Qed.

Lemma clamp_mono : forall a b, a <= b -> clamp a <= clamp b.
Proof.
  intros a b H. unfold clamp. unfold Rmax, Rmin.
  repeat destruct Rle_dec; lra.
Qed.

Lemma clamp_opp : forall a, clamp (- a) = - clamp a.
Proof. intros a. pose proof big_pos. unfold clamp, Rmax, Rmin. repeat destruct Rle_dec; lra. Qed.

Lemma overflow_val : forall (z : double) s r,
  B2SF z = binary_overflow 53 1024 mode_NE s -> big <= Rabs r -> (if s then r <= 0 else 0 <= r) ->
  num z /\ val z = clamp r.
Proof.
  intros z s r H K L. pose proof big_pos.
  destruct z as [s'|s'| |s' m e B]; cbv in H; try discriminate. injection H as ->.
  split; [reflexivity|]. unfold clamp. destruct s; cbn [val].
  - rewrite Rabs_left1 in K by assumption. rewrite Rmin_right by lra. rewrite Rmax_left; lra.
  - rewrite Rabs_pos_eq in K by assumption. rewrite Rmin_left by lra. rewrite Rmax_right; lra.
Qed.

Lemma rnd_mono : forall a b, a <= b -> rnd a <= rnd b.
Proof. intros. apply round_le; auto with typeclass_instances. Qed.

Lemma rnd_val : forall x, fin x -> rnd (val x) = val x.
Proof.
  intros x F. rewrite val_fin by assumption. apply round_generic; [auto with typeclass_instances|].
  apply generic_format_B2R.
Qed.

Lemma rnd_0 : rnd 0 = 0.
Proof. apply round_0. auto with typeclass_instances. Qed.

Lemma rnd_opp : forall r, rnd (- r) = - rnd r.
Proof. intros. apply round_NE_opp. Qed.

Lemma sign_val : forall x, fin x -> if Bsign x then val x <= 0 else 0 <= val x.
Proof.
  intros [s|s| |s m e H] F; try discriminate; cbn [Bsign val B2R].
  - destruct s; lra.
  - destruct s; cbn [cond_Zopp].
    + apply F2R_le_0. simpl. lia.
    + apply F2R_ge_0. simpl. lia.
Qed.

Lemma clamp_lt : forall r, Rabs r < big -> clamp r = r.
Proof. intros. apply clamp_id. lra. Qed.

Lemma dadd_val : forall x y, fin x -> fin y ->
  num (dadd x y) /\ val (dadd x y) = clamp (rnd (val x + val y)).
Proof.
  intros x y Fx Fy. pose proof (Bplus_correct 53 1024 _ _ mode_NE x y Fx Fy) as H.
  pose proof (sign_val x Fx) as Sx. pose proof (sign_val y Fy) as Sy.
  rewrite (val_fin x Fx), (val_fin y Fy) in *.
  change (round radix2 (SpecFloat.fexp 53 1024) (round_mode mode_NE) (B2R x + B2R y)) with (rnd (B2R x + B2R y)) in H.
  revert H. case Rlt_bool_spec; intros C H.
  - destruct H as (V & F & _). split; [apply fin_num, F|]. unfold dadd. rewrite (val_fin _ F), V.
    symmetry. now apply clamp_lt.
  - destruct H as (V & E). apply (overflow_val _ (Bsign x)); auto.
    rewrite <- E in Sy. destruct (Bsign x).
    + rewrite <- rnd_0. apply rnd_mono. lra.
    + rewrite <- rnd_0. apply rnd_mono. lra.
Qed.

Lemma dopp_val : forall x, val (dopp x) = - val x.
Proof.
  intros [s|s| |s m e H]; cbn [dopp Bopp val].
  - simpl. lra.
  - destruct s; simpl negb; cbv iota; lra.
  - simpl. lra.
  - unfold dopp. change (B2R (Bopp (B754_finite s m e H)) = - B2R (B754_finite s m e H)). apply B2R_Bopp.
Qed.

Lemma dopp_num : forall x, num (dopp x) <-> num x.
Proof. intros. unfold num, dopp. rewrite is_nan_Bopp. tauto. Qed.

Lemma dopp_fin : forall x, fin (dopp x) <-> fin x.
Proof. intros. unfold fin, dopp. rewrite is_finite_Bopp. tauto. Qed.

Lemma dabs_val : forall x, val (dabs x) = Rabs (val x).
Proof.
  intros [s|s| |s m e H]; cbn [dabs Babs val].
  - simpl. now rewrite Rabs_R0.
  - pose proof big_pos. unfold dabs. cbn [Babs val]. destruct s; [rewrite Rabs_left1; lra|rewrite Rabs_pos_eq; lra].
  - simpl. now rewrite Rabs_R0.
  - unfold dabs. change (B2R (Babs (B754_finite s m e H)) = Rabs (B2R (B754_finite s m e H))). apply B2R_Babs.
Qed.

Lemma dabs_num : forall x, num (dabs x) <-> num x.
Proof. intros. unfold num, dabs. rewrite is_nan_Babs. tauto. Qed.

Lemma dsub_val : forall x y, fin x -> fin y ->
  num (dsub x y) /\ val (dsub x y) = clamp (rnd (val x - val y)).
Proof.
  intros x y Fx Fy. pose proof (Bminus_correct 53 1024 _ _ mode_NE x y Fx Fy) as H.
  pose proof (sign_val x Fx) as Sx. pose proof (sign_val y Fy) as Sy.
  rewrite (val_fin x Fx), (val_fin y Fy) in *.
  change (round radix2 (SpecFloat.fexp 53 1024) (round_mode mode_NE) (B2R x - B2R y)) with (rnd (B2R x - B2R y)) in H.
  revert H. case Rlt_bool_spec; intros C H.
  - destruct H as (V & F & _). split; [apply fin_num, F|]. unfold dsub. rewrite (val_fin _ F), V.
    symmetry. now apply clamp_lt.
  - destruct H as (V & E). apply (overflow_val _ (Bsign x)); auto.
    rewrite E in Sx |- *. destruct (Bsign y); simpl in *.
    + rewrite <- rnd_0. apply rnd_mono. lra.
    + rewrite <- rnd_0. apply rnd_mono. lra.
Qed.

Lemma dmul_val : forall x y, fin x -> fin y ->
  num (dmul x y) /\ val (dmul x y) = clamp (rnd (val x * val y)).
Proof.
  intros x y Fx Fy. pose proof (Bmult_correct 53 1024 _ _ mode_NE x y) as H.
  pose proof (sign_val x Fx) as Sx. pose proof (sign_val y Fy) as Sy.
  rewrite (val_fin x Fx), (val_fin y Fy) in *.
  change (round radix2 (SpecFloat.fexp 53 1024) (round_mode mode_NE) (B2R x * B2R y)) with (rnd (B2R x * B2R y)) in H.
  revert H. case Rlt_bool_spec; intros C H.
  - destruct H as (V & F & _). rewrite Fx, Fy in F. split; [apply fin_num, F|]. unfold dmul.
    rewrite (val_fin _ F), V. symmetry. now apply clamp_lt.
  - apply (overflow_val _ _ _ H C).
    destruct (Bsign x), (Bsign y); simpl.
    all: rewrite <- rnd_0; apply rnd_mono; nra.
Qed.

Lemma ddiv_val : forall x y, fin x -> val y <> 0 -> fin y ->
  num (ddiv x y) /\ val (ddiv x y) = clamp (rnd (val x / val y)).
Proof.
  intros x y Fx Ny Fy. rewrite (val_fin y Fy) in Ny. pose proof (Bdiv_correct 53 1024 _ _ mode_NE x y Ny) as H.
  pose proof (sign_val x Fx) as Sx. pose proof (sign_val y Fy) as Sy.
  rewrite (val_fin x Fx), (val_fin y Fy) in *.
  change (round radix2 (SpecFloat.fexp 53 1024) (round_mode mode_NE) (B2R x / B2R y)) with (rnd (B2R x / B2R y)) in H.
  revert H. case Rlt_bool_spec; intros C H.
  - destruct H as (V & F & _). rewrite Fx in F. split; [apply fin_num, F|]. unfold ddiv.
    rewrite (val_fin _ F), V. symmetry. now apply clamp_lt.
  - apply (overflow_val _ _ _ H C). unfold Rdiv.
    destruct (Bsign x), (Bsign y); simpl.
    + assert (/ B2R y < 0) by (apply Rinv_lt_0_compat; lra). rewrite <- rnd_0; apply rnd_mono; nra.
    + assert (0 < / B2R y) by (apply Rinv_0_lt_compat; lra). rewrite <- rnd_0; apply rnd_mono; nra.
    + assert (/ B2R y < 0) by (apply Rinv_lt_0_compat; lra). rewrite <- rnd_0; apply rnd_mono; nra.
    + assert (0 < / B2R y) by (apply Rinv_0_lt_compat; lra). rewrite <- rnd_0; apply rnd_mono; nra.
Qed.

(** ceil and floor. *)
Lemma round_FIX : forall f (r : R), round radix2 (FIX_exp 0) f r = IZR (f r).
Proof.
  intros f r. unfold round, scaled_mantissa, cexp, FIX_exp, F2R. simpl. now rewrite !Rmult_1_r.
Qed.

Lemma dceil_num : forall x, num x -> num (dceil x).
Proof.
  intros x N. unfold dceil. destruct x as [s|s| |s m e H]; try (exact N || reflexivity).
  apply fin_num. unfold fin. now rewrite (proj1 (proj2 (Bnearbyint_correct 53 1024 _ mode_UP (B754_finite s m e H)))).
Qed.

Lemma dfloor_num : forall x, num x -> num (dfloor x).
Proof.
  intros x N. unfold dfloor. destruct x as [s|s| |s m e H]; try (exact N || reflexivity).
  apply fin_num. unfold fin. now rewrite (proj1 (proj2 (Bnearbyint_correct 53 1024 _ mode_DN (B754_finite s m e H)))).
Qed.

Lemma dceil_fin : forall x, fin x -> fin (dceil x) /\ val (dceil x) = IZR (Zceil (val x)).
Proof.
  intros x F. destruct (Bnearbyint_correct 53 1024 _ mode_UP x) as (V & G & _).
  assert (fin (dceil x)) as K by (unfold fin, dceil; now rewrite G).
  split; auto. rewrite (val_fin _ K), (val_fin _ F). unfold dceil. rewrite V. apply round_FIX.
Qed.

Lemma dfloor_fin : forall x, fin x -> fin (dfloor x) /\ val (dfloor x) = IZR (Zfloor (val x)).
Proof.
  intros x F. destruct (Bnearbyint_correct 53 1024 _ mode_DN x) as (V & G & _).
  assert (fin (dfloor x)) as K by (unfold fin, dfloor; now rewrite G).
  split; auto. rewrite (val_fin _ K), (val_fin _ F). unfold dfloor. rewrite V. apply round_FIX.
Qed.

Lemma dceil_inf : forall x, num x -> ~ fin x -> dceil x = x.
Proof. intros [s|s| |s m e H] N F; auto. elim F; reflexivity. Qed.
Lemma dfloor_inf : forall x, num x -> ~ fin x -> dfloor x = x.
Proof. intros [s|s| |s m e H] N F; auto. elim F; reflexivity. Qed.

Lemma to_int_fin : forall x k, fin x -> val x = IZR k -> (INT_MIN <= k <= INT_MAX)%Z -> to_int x = Ok k.
Proof.
  intros x k F V B. unfold to_int. red in F. rewrite F.
  assert (Btrunc x = k) as ->.
  { apply eq_IZR. rewrite Btrunc_correct, round_FIX by reflexivity. f_equal. rewrite <- (val_fin x F), V. apply Ztrunc_IZR. }
  destruct (Z.leb_spec INT_MIN k); [|lia]. destruct (Z.leb_spec k INT_MAX); [|lia]. reflexivity.
Qed.

Lemma to_int_inv : forall x k, to_int x = Ok k -> fin x /\ k = Ztrunc (val x) /\ (INT_MIN <= k <= INT_MAX)%Z.
Proof.
  intros x k H. unfold to_int in H. destruct (is_finite x) eqn:F; [|discriminate].
  destruct (Z.leb_spec INT_MIN (Btrunc x)); [|discriminate].
  destruct (Z.leb_spec (Btrunc x) INT_MAX); [|discriminate]. injection H as <-.
  split; [exact F|]. split; [|lia].
  apply eq_IZR. rewrite Btrunc_correct, round_FIX by reflexivity. now rewrite (val_fin x F).
Qed.

(** Integers up to 2^53 and multiples are exact. *)
Lemma rnd_int : forall z, (Z.abs z <= 2 ^ 53)%Z -> rnd (IZR z) = IZR z.
Proof.
  intros z H. apply round_generic; [auto with typeclass_instances|].
  destruct (Z.eq_dec (Z.abs z) (2 ^ 53)) as [E|E].
  - assert (z = 2 ^ 53 \/ z = - 2 ^ 53)%Z as [->| ->] by lia.
    + replace (IZR (2 ^ 53)) with (bpow radix2 53) by (rewrite <- IZR_Zpower by lia; reflexivity).
      apply generic_format_bpow. unfold FLT_exp. lia.
    + rewrite opp_IZR. apply generic_format_opp.
      replace (IZR (2 ^ 53)) with (bpow radix2 53) by (rewrite <- IZR_Zpower by lia; reflexivity).
      apply generic_format_bpow. unfold FLT_exp. lia.
  - apply generic_format_FLT. exists (Float radix2 z 0); simpl; try lia.
    unfold F2R. simpl. lra.
Qed.

Lemma big_53 : IZR (2 ^ 53) < big.
Proof.
  replace (IZR (2 ^ 53)) with (bpow radix2 53) by (rewrite <- IZR_Zpower by lia; reflexivity).
  apply bpow_lt. lia.
Qed.

Lemma dint_val : forall z, (Z.abs z <= 2 ^ 53)%Z -> fin (dint z) /\ val (dint z) = IZR z.
Proof.
  intros z H. pose proof (binary_normalize_correct 53 1024 _ _ mode_NE z 0 false) as K. cbv zeta in K.
  replace (F2R (Float radix2 z 0)) with (IZR z) in K by (unfold F2R; simpl; lra).
  change (round radix2 (SpecFloat.fexp 53 1024) (round_mode mode_NE) (IZR z)) with (rnd (IZR z)) in K.
  rewrite rnd_int in K by assumption. rewrite Rlt_bool_true in K.
  - destruct K as (V & F & _). split; [exact F|]. unfold dint. now rewrite (val_fin _ F), V.
  - rewrite <- abs_IZR. apply IZR_le in H. pose proof big_53. lra.
Qed.

(** Relative and absolute error of rounding. *)
Lemma rnd_err : forall r, Rabs (rnd r - r) <= bpow radix2 (-53) * Rabs r + bpow radix2 (-1075).
Proof.
  intros r. destruct (error_N_FLT radix2 (-1074) 53 eq_refl (fun n => negb (Z.even n)) r) as (e & d & He & Hd & _ & H).
  unfold rnd. unfold rnd in *. change ZnearestE with (Znearest (fun n => negb (Z.even n))). rewrite H.
  replace (r * (1 + e) + d - r) with (r * e + d) by ring.
  eapply Rle_trans; [apply Rabs_triang|]. rewrite Rabs_mult.
  assert (/ 2 * bpow radix2 (- (53) + 1) = bpow radix2 (-53)) as E1 by (simpl; lra).
  assert (/ 2 * bpow radix2 (-1074) = bpow radix2 (-1075)) as E2.
  { replace (/2) with (bpow radix2 (-1)) by (simpl; lra). rewrite <- bpow_plus. reflexivity. }
  rewrite E1 in He. rewrite E2 in Hd. pose proof (Rabs_pos r). nra.
Qed.
