(** Proofs about the location of the optimum of mixed-integer problems. *)
From Coq Require Import List Arith NArith ZArith Reals Bool Lia Lra.
From Flocq Require Import Core BinarySingleNaN.
Import ListNotations.
From Verif Require Import CBase OptModel DblModel DblSpec DblProofs ProbModel MixModel MixSpec MixProofs OptimumSpec.
Open Scope R_scope.

(** ** Multiples of powers of 2 *)
Lemma format_int : forall z e, (Z.abs z <= 2 ^ 53)%Z -> (-1074 <= e)%Z -> generic_format radix2 (FLT_exp (-1074) 53) (IZR z * bpow radix2 e).
Proof.
  intros z e Hz He. destruct (Z.eq_dec (Z.abs z) (2 ^ 53)) as [E|N].
  - assert (F : generic_format radix2 (FLT_exp (-1074) 53) (bpow radix2 (53 + e))) by (apply generic_format_bpow; unfold FLT_exp; lia).
    assert (P : bpow radix2 (53 + e) = IZR (2 ^ 53) * bpow radix2 e) by (rewrite bpow_plus; reflexivity).
    destruct (Z.abs_eq_or_opp z) as [A|A]; rewrite A in E.
    + rewrite E, <- P. exact F.
    + replace z with (- 2 ^ 53)%Z by lia. rewrite opp_IZR, Ropp_mult_distr_l_reverse, <- P. apply generic_format_opp. exact F.
  - apply generic_format_FLT. exists (Float radix2 z e); [reflexivity| |exact He]. cbn [Fnum]. change (Zpower radix2 53) with (2 ^ 53)%Z. lia.
Qed.
Lemma fine_big : forall r, generic_format radix2 (FLT_exp (-1074) 53) r -> 2 <= Rabs r -> fine r.
Proof.
  intros r F H. unfold generic_format in F. set (e := cexp radix2 (FLT_exp (-1074) 53) r) in *. set (m := Ztrunc (scaled_mantissa radix2 (FLT_exp (-1074) 53) r)) in *.
  assert (He : (-51 <= e)%Z).
  { unfold e, cexp, FLT_exp. assert (2 <= mag radix2 r)%Z; [|lia]. apply mag_ge_bpow. exact H. }
  exists (m * 2 ^ (e + 51))%Z. rewrite F. unfold F2R. cbn [Fnum Fexp]. rewrite mult_IZR. change (2 ^ (e + 51))%Z with (Zpower radix2 (e + 51)).
  rewrite IZR_Zpower by lia. rewrite Rmult_assoc, <- bpow_plus. f_equal. f_equal. lia.
Qed.

(** The coordinates of the location of the optimum *)
Lemma grid_fine : forall k, (0 <= k <= 9999)%Z -> fine (grid_point 4 k).
Proof.
  intros k Hk. unfold grid_point. set (q0 := IZR (2 * 4 * k) / 10000).
  assert (Q0 : 0 <= q0 <= 8). { unfold q0. assert (0 <= IZR (2 * 4 * k) <= 80000) by (split; apply IZR_le; lia). lra. }
  assert (Q : 0 <= rnd q0 <= 8).
  { split; [rewrite <- rnd_0; apply rnd_mono; lra|]. rewrite <- (rnd_int 8) by lia. apply rnd_mono. lra. }
  assert (Fq : generic_format radix2 (FLT_exp (-1074) 53) (rnd q0)) by (apply generic_format_round; auto with typeclass_instances).
  destruct (Rle_lt_dec 2 (rnd q0)) as [L|L].
  - destruct (fine_big (rnd q0) Fq) as [z Ez]; [rewrite Rabs_pos_eq; lra|].
    assert (E : rnd q0 - IZR 4 = IZR (z - 4 * 2 ^ 51) * bpow radix2 (-51)).
    { rewrite minus_IZR, mult_IZR, Ez, Rmult_minus_distr_r. f_equal. change (2 ^ 51)%Z with (Zpower radix2 51). rewrite IZR_Zpower by lia.
      rewrite Rmult_assoc, <- bpow_plus. change (51 + -51)%Z with 0%Z. cbn [bpow]. lra. }
    exists (z - 4 * 2 ^ 51)%Z. rewrite E. apply round_generic; [auto with typeclass_instances|]. apply format_int; [|lia].
    apply le_IZR. rewrite abs_IZR. apply Rmult_le_reg_r with (bpow radix2 (-51)); [apply bpow_gt_0|].
    rewrite <- (Rabs_pos_eq (bpow radix2 (-51))) at 1 by apply bpow_ge_0. rewrite <- Rabs_mult, <- E.
    change (2 ^ 53)%Z with (Zpower radix2 53). rewrite IZR_Zpower by lia. rewrite <- bpow_plus. change (53 + -51)%Z with 2%Z. change (bpow radix2 2) with 4. apply Rabs_le. lra.
  - apply fine_big; [apply generic_format_round; auto with typeclass_instances|].
    assert (rnd (rnd q0 - IZR 4) <= -2). { rewrite <- (rnd_int (-2)) by lia. apply rnd_mono. lra. }
    rewrite Rabs_left by lra. lra.
Qed.

(** ** The points of the suites *)
Definition dyadic (a : double) : Z * Z := match a with B754_finite s m e _ => (SpecFloat.cond_Zopp s (Zpos m), e) | _ => (0, 0)%Z end.
Lemma dyadic_val : forall a, fin a -> val a = IZR (fst (dyadic a)) * bpow radix2 (snd (dyadic a)).
Proof. intros a F. rewrite (val_fin a F). destruct a; try discriminate; cbn; [lra|reflexivity]. Qed.
Definition scaled (a : double) (e : Z) : option Z :=
  let (m, e') := dyadic a in
  if (e <=? e')%Z then Some (m * 2 ^ (e' - e))%Z else if (m mod 2 ^ (e - e') =? 0)%Z then Some (m / 2 ^ (e - e'))%Z else None.
Lemma scaled_val : forall a e m, fin a -> scaled a e = Some m -> val a = IZR m * bpow radix2 e.
Proof.
  intros a e m F H. pose proof (dyadic_val a F) as D. unfold scaled in H. destruct (dyadic a) as [m' e']. cbn [fst snd] in D.
  destruct (Z.leb_spec e e') as [L|L].
  - injection H as <-. rewrite D, mult_IZR. change (2 ^ (e' - e))%Z with (Zpower radix2 (e' - e)). rewrite IZR_Zpower by lia.
    rewrite Rmult_assoc, <- bpow_plus. f_equal. f_equal. lia.
  - destruct (Z.eqb_spec (m' mod 2 ^ (e - e')) 0) as [E|E]; [|discriminate]. injection H as <-. rewrite D.
    assert (X : m' = (m' / 2 ^ (e - e') * 2 ^ (e - e'))%Z).
    { rewrite Z.mul_comm. pose proof (Z.div_mod m' (2 ^ (e - e')) ltac:(apply Z.pow_nonzero; lia)). lia. }
    rewrite X at 1. rewrite mult_IZR. change (2 ^ (e - e'))%Z with (Zpower radix2 (e - e')) at 2. rewrite IZR_Zpower by lia.
    rewrite Rmult_assoc, <- bpow_plus. f_equal. f_equal. lia.
Qed.

Lemma sub_exact : forall a x e m m', fin a -> fin x -> (-1074 <= e <= 0)%Z -> val a = IZR m * bpow radix2 e -> val x = IZR m' * bpow radix2 e ->
  Rabs (val a - val x) <= bpow radix2 (e + 53) -> fin (dsub a x) /\ val (dsub a x) = IZR (m - m') * bpow radix2 e.
Proof.
  intros a x e m m' Fa Fx He Va Vx B. destruct (dsub_val a x Fa Fx) as [N V].
  assert (E : val a - val x = IZR (m - m') * bpow radix2 e) by (rewrite minus_IZR, Va, Vx; ring).
  assert (R : rnd (val a - val x) = val a - val x).
  { apply round_generic; [auto with typeclass_instances|]. rewrite E. apply format_int; [|lia].
    apply le_IZR. rewrite abs_IZR. apply Rmult_le_reg_r with (bpow radix2 e); [apply bpow_gt_0|].
    rewrite <- (Rabs_pos_eq (bpow radix2 e)) at 1 by apply bpow_ge_0. rewrite <- Rabs_mult, <- E.
    change (2 ^ 53)%Z with (Zpower radix2 53). rewrite IZR_Zpower by lia. rewrite <- bpow_plus. rewrite Z.add_comm. exact B. }
  rewrite R in V. assert (Bb : Rabs (val a - val x) < big).
  { eapply Rle_lt_trans; [exact B|]. apply bpow_lt. lia. }
  rewrite clamp_lt in V by exact Bb. split; [|congruence]. apply fin_val; [exact N|]. rewrite V. apply Rabs_def2 in Bb. lra.
Qed.
Lemma fine_scaled : forall x e, fine x -> (e <= -51)%Z -> exists m, x = IZR m * bpow radix2 e.
Proof.
  intros x e [z ->] He. exists (z * 2 ^ (-51 - e))%Z. rewrite mult_IZR. change (2 ^ (-51 - e))%Z with (Zpower radix2 (-51 - e)).
  rewrite IZR_Zpower by lia. rewrite Rmult_assoc, <- bpow_plus. f_equal. f_equal. lia.
Qed.
Lemma back_exact : forall a x e m, fin a -> fin x -> (-1074 <= e <= -51)%Z -> scaled a e = Some m -> fine (val x) ->
  Rabs (val a - val x) <= bpow radix2 (e + 53) -> fin (dsub a (dsub a x)) /\ val (dsub a (dsub a x)) = val x.
Proof.
  intros a x e m Fa Fx He Sa Fi B. pose proof (scaled_val a e m Fa Sa) as Va. destruct (fine_scaled (val x) e Fi ltac:(lia)) as [m' Vx].
  destruct (sub_exact a x e m m' Fa Fx ltac:(lia) Va Vx B) as [F1 V1]. destruct (dsub_val a (dsub a x) Fa F1) as [N V].
  assert (E : val a - val (dsub a x) = val x) by (rewrite V1, Va, Vx, minus_IZR; ring). rewrite E, rnd_val in V by exact Fx.
  pose proof (val_bound x Fx) as Bx. rewrite clamp_id in V by (apply Rabs_le; lra). split; [|exact V]. apply fin_val; [exact N|]. rewrite V. exact Bx.
Qed.

Definition suite_bounds (c : Z) : bounds := {| inner_low := dint (-4); inner_high := dint 4; outer_low := dzero; outer_high := dint (c - 1) |}.
Lemma int_eq : forall a z, fin a -> val a = IZR z -> (0 < Z.abs z <= 2 ^ 53)%Z -> a = dint z.
Proof.
  intros a z F V Hz. destruct (dint_val z ltac:(lia)) as [F2 V2]. apply fin_eq; auto; [congruence|].
  pose proof (sign_val a F) as S1. pose proof (sign_val _ F2) as S2. rewrite V in S1. rewrite V2 in S2.
  assert (IZR z <> 0) by (apply not_0_IZR; lia). destruct (Bsign a), (Bsign (dint z)); auto; lra.
Qed.
Lemma integer_suite : forall c b, integer_variable c b -> (2 <= c <= 2 ^ 20)%Z -> b = suite_bounds c.
Proof.
  intros c [il iu ol ou] (F1 & F2 & F3 & V1 & V2 & E & V3) H. cbn [inner_low inner_high outer_low outer_high] in *. unfold suite_bounds.
  rewrite (int_eq il (-4) F1 V1 ltac:(lia)), (int_eq iu 4 F2 V2 ltac:(lia)), E, (int_eq ou (c - 1) F3 V3 ltac:(lia)). reflexivity.
Qed.

Definition point (c k : Z) : double :=
  match inner_points (suite_bounds c) with Ok (il, iu) => inner_value (suite_bounds c) il iu (dint k) | _ => dnan end.
(** A power of 2 that divides the point *)
Definition exponent (c k : Z) : Z := if (c =? 2)%Z then (-51)%Z else Z.min (-51) (snd (dyadic (point c k))).
Definition point_check (c k : Z) : bool :=
  let e := exponent c k in
  match scaled (point c k) e with
  | Some _ => if (k =? 0)%Z || (k =? c - 1)%Z then (e =? -51)%Z else ((-60 <=? e) && (41 * 2 ^ 7 <=? 10 * (c + 1) * 2 ^ (e + 60)))%Z
  | None => false
  end.
Lemma all_points : forallb (fun c => forallb (fun k => point_check c (Z.of_nat k)) (seq 0 (Z.to_nat c))) [2; 4; 8; 16]%Z = true.
Proof. vm_compute. reflexivity. Qed.
Lemma suite_integer : forall c, (2 <= c <= 2 ^ 20)%Z -> integer_variable c (suite_bounds c).
Proof.
  intros c H. destruct (dint_val (-4) ltac:(lia)) as [F1 V1]. destruct (dint_val 4 ltac:(lia)) as [F2 V2]. destruct (dint_val (c - 1) ltac:(lia)) as [F3 V3].
  unfold integer_variable, suite_bounds. cbn [inner_low inner_high outer_low outer_high]. repeat (split; [assumption|]). split; [reflexivity|assumption].
Qed.
Lemma point_near : forall c k, (2 <= c <= 2 ^ 20)%Z -> (0 <= k < c)%Z -> fin (point c k) /\ Rabs (val (point c k) - grid c k) <= 64 * u.
Proof.
  intros c k Hc Hk. pose proof (suite_integer c Hc) as I. destruct (points_near c _ I Hc) as (il & iu & P & _). unfold point. rewrite P.
  destruct (dint_val k ltac:(lia)) as [F V]. apply inner_value_near with (n := c); auto.
Qed.
Lemma case_bound : forall c k e x y, (2 <= c <= 16)%Z -> (0 <= k < c)%Z -> Rabs x <= 5 ->
  position c x <= y <= position c x + 3/10000000 -> nearest c k y ->
  (((k = 0 \/ k = c - 1)%Z /\ 4 <= bpow radix2 (e + 53)) \/ ((0 < k < c - 1)%Z /\ 41/10 <= bpow radix2 (e + 53) * IZR (c + 1))) ->
  Rabs (val (point c k) - x) <= bpow radix2 (e + 53).
Proof.
  intros c k e x y Hc Hk Bx Hy (_ & A & B) H. destruct (point_near c k ltac:(lia) Hk) as [_ E]. pose proof u_pos as U.
  apply Rabs_def2b in E. apply Rabs_def2b in Bx.
  assert (C2 : 2 <= IZR c <= 16) by (split; apply IZR_le; lia). assert (K : 0 <= IZR k <= IZR c - 1) by (rewrite <- minus_IZR; split; apply IZR_le; lia).
  pose proof (step_bound c ltac:(lia)) as W. pose proof (grid_position c k x ltac:(lia)) as G. set (w := 8 / (IZR c + 1)) in *.
  pose proof (bpow_gt_0 radix2 (e + 53)) as BP. set (t := bpow radix2 (e + 53)) in *.
  assert (Wc : w * (IZR c + 1) = 8) by (unfold w; field; lra).
  assert (X : x = -4 + w * (position c x + 1)) by (unfold position, w; rewrite plus_IZR; field; lra).
  set (p := position c x) in *.
  destruct H as [[Hb Ht]|[Hb Ht]].
  - assert (Z : Rabs (grid c k - x) <= 39/10); [|apply Rabs_def2b in Z; apply Rabs_le; lra].
    apply Rabs_le. rewrite G. destruct Hb as [->| ->].
    + cbn in G |- *. split.
      * destruct B as [B|B].
        -- exfalso. lia.
        -- cbn in B. assert (p <= 1/2) by lra. nra.
      * nra.
    + rewrite minus_IZR in *. split.
      * nra.
      * destruct A as [A|A]; [exfalso; lia|]. assert (IZR c - 1 - p <= 1/2 + 3/10000000) by lra. nra.
  - rewrite plus_IZR in Ht. destruct A as [A|A]; [exfalso; lia|]. destruct B as [B|B]; [exfalso; lia|].
    assert (T : 5125/10000 * w <= t). { apply Rmult_le_reg_r with (IZR c + 1); [lra|]. rewrite Rmult_assoc, Wc. lra. }
    assert (W8 : 8/17 <= w). { unfold w, Rdiv. apply Rmult_le_compat_l; [lra|]. apply Rinv_le; lra. }
    assert (K1 : -1/2 - 3/10000000 <= IZR k - p <= 1/2 + 3/10000000) by lra.
    assert (w * (-1/2 - 3/10000000) <= w * (IZR k - p) <= w * (1/2 + 3/10000000)) by (split; apply Rmult_le_compat_l; lra).
    apply Rabs_le. lra.
Qed.

Lemma suite_exponent : forall c k, In c [2; 4; 8; 16]%Z -> (0 <= k < c)%Z ->
  exists e m, (-1074 <= e <= -51)%Z /\ scaled (point c k) e = Some m /\
   (((k = 0 \/ k = c - 1)%Z /\ 4 <= bpow radix2 (e + 53)) \/ ((0 < k < c - 1)%Z /\ 41/10 <= bpow radix2 (e + 53) * IZR (c + 1))).
Proof.
  intros c k Hc Hk.
  assert (P : point_check c k = true).
  { pose proof all_points as A. rewrite forallb_forall in A. specialize (A c Hc). cbv beta in A. rewrite forallb_forall in A.
    specialize (A (Z.to_nat k)). rewrite Z2Nat.id in A by lia. apply A. apply in_seq. lia. }
  unfold point_check in P. destruct (scaled (point c k) (exponent c k)) as [m|] eqn:S; [|discriminate].
  exists (exponent c k), m. assert (E : (exponent c k <= -51)%Z) by (unfold exponent; destruct (c =? 2)%Z; lia).
  set (e := exponent c k) in *. destruct ((k =? 0)%Z || (k =? c - 1)%Z) eqn:B.
  - apply Z.eqb_eq in P. rewrite P in *. split; [lia|]. split; [exact S|]. left. split; [lia|]. change (bpow radix2 (-51 + 53)) with 4. lra.
  - apply andb_true_iff in P. destruct P as [P1 P2]. apply Z.leb_le in P1. apply Z.leb_le in P2. split; [lia|]. split; [exact S|]. right.
    apply orb_false_iff in B. split; [lia|]. apply IZR_le in P2. rewrite !mult_IZR in P2. change (2 ^ (e + 60))%Z with (Zpower radix2 (e + 60)) in P2.
    rewrite IZR_Zpower in P2 by lia. replace (e + 60)%Z with ((e + 53) + 7)%Z in P2 by lia. rewrite bpow_plus in P2.
    change (bpow radix2 7) with 128 in P2. change (IZR (2 ^ 7)) with 128 in P2. lra.
Qed.

Lemma align_exact : forall c b x best off, In c [2; 4; 8; 16]%Z -> integer_variable c b -> fin x -> Rabs (val x) <= 5 -> fine (val x) -> val x <> 0 ->
  align b x = Ok (best, off) -> discretize b off best = Ok x.
Proof.
  intros c b x best off Hc I F B Fi N0 E. assert (H16 : (2 <= c <= 16)%Z) by (cbn in Hc; lia).
  destruct (align_near c b x I ltac:(lia) F B) as (best' & off' & k & y & E' & Fb & Sb & Vb & Hy & Ny & _ & _ & z & D & Fz & _).
  assert (best' = best) as -> by congruence. assert (off' = off) as -> by congruence.
  rewrite D. f_equal. pose proof Ny as (Hk & _).
  assert (Rb : respect b (coco_double_round best) = best).
  { assert (Nk : nearest c k (val best)) by (rewrite Vb; split; [exact Hk|]; split; right; lra).
    assert (Nb : val best <> below_half).
    { rewrite Vb. unfold below_half. change (bpow radix2 (-54)) with (/ 18014398509481984). intros Q.
      assert (0 < IZR k < 1) as [K1 K2] by lra. apply lt_IZR in K1. apply lt_IZR in K2. lia. }
    pose proof (round_of c b best k I ltac:(lia) Fb Nb Nk) as V2.
    apply fin_eq; [destruct (round_spec c b best I ltac:(lia) Fb) as [X _]; exact X|exact Fb|congruence|].
    rewrite Sb. apply respect_sign with c; auto. lia. }
  assert (Eb : best = dint k).
  { destruct (dint_val k ltac:(lia)) as [Fk Vk]. apply fin_eq; auto; [congruence|]. rewrite Sb. pose proof (sign_val _ Fk) as S.
    destruct (Z.eq_dec k 0) as [->|Nk]; [reflexivity|]. destruct (Bsign (dint k)); [|reflexivity]. rewrite Vk in S. apply le_IZR in S. lia. }
  pose proof (integer_suite c b I ltac:(lia)) as Es. 
  unfold align in E. unfold discretize in D. rewrite Rb in D.
  assert (A : exists il iu, inner_points b = Ok (il, iu) /\ inner_value b il iu best = point c k /\ off = dsub (point c k) x).
  { destruct (inner_points b) as [[il iu]| |] eqn:P; try discriminate. exists il, iu. split; [reflexivity|].
    assert (Q : inner_value b il iu best = point c k).
    { unfold point. rewrite <- Es, P, Eb. reflexivity. }
    split; [exact Q|]. cbn [bind] in E. cbv zeta in E.
    set (best2 := respect b (coco_double_round (dadd (dadd (outer_low b) (ddiv (dmul (dsub (outer_high b) (outer_low b)) (dsub x il)) (dsub iu il))) (ddec 1 7)))) in *.
    assert (best2 = best) as Eq2 by congruence. rewrite Eq2, Q in E. congruence. }
  destruct A as (il & iu & P & Q & O). rewrite P in D. cbn [bind] in D. rewrite Q in D.
  destruct (suite_exponent c k Hc Hk) as (e & m & He & Se & Be).
  destruct (point_near c k ltac:(lia) Hk) as [Fp _].
  destruct (back_exact (point c k) x e m Fp F He Se Fi (case_bound c k e (val x) y H16 Hk B Hy Ny Be)) as [Fr Vr].
  rewrite <- O in Fr, Vr. assert (z = dsub (point c k) off) as -> by congruence.
  apply fin_eq; auto. pose proof (sign_val _ Fr) as S1. pose proof (sign_val _ F) as S2. rewrite Vr in S1.
  destruct (Bsign (dsub (point c k) off)), (Bsign x); auto; lra.
Qed.

Lemma aligned_exact : forall cs bs best ws os, aligned cs bs best ws os -> Forall (fun c => In c [2; 4; 8; 16]%Z) cs ->
  Forall (fun v => fine (val v) /\ val v <> 0) (firstn (length cs) best) -> discretize_all (length cs) bs os ws = Ok best.
Proof.
  intros cs bs best ws os A. induction A as [bs best os|c cs b bs v best w ws o os I Hc Fv Bv Ea A IH]; intros H G; [reflexivity|].
  cbn [length firstn] in G. apply Forall_cons_iff in H. destruct H as [H1 H]. apply Forall_cons_iff in G. destruct G as [[G1 G2] G].
  cbn [length discretize_all]. rewrite (align_exact c b v w o H1 I Fv Bv G1 G2 Ea). cbn [bind]. rewrite IH by auto. reflexivity.
Qed.
