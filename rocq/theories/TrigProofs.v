(** Linear target triggers. *)
From Coq Require Import List Arith NArith ZArith Reals Lra Lia Bool.
From Flocq Require Import Core BinarySingleNaN Relative.
Import ListNotations.
From Verif Require Import CBase StrModel OptModel DblModel DblSpec DblProofs TrigModel TrigSpec.
Open Scope R_scope.

(** ** A trigger that remembers the smallest key *)
Lemma consult_marks : forall (S V : Type) (trigger : S -> V -> res (bool * S)) (key : V -> R) (th : S -> R)
    (inv : S -> Prop) (good : V -> Prop),
  (forall s v, inv s -> good v -> exists b s', trigger s v = Ok (b, s') /\ inv s' /\
     (b = true <-> key v < th s) /\ th s' = Rmin (th s) (key v)) ->
  forall vs s, inv s -> Forall good vs ->
  exists bs s', consult trigger s vs = Ok (bs, s') /\ inv s' /\ marks key (th s) vs bs.
Proof.
  intros S V trigger key th inv good H. induction vs as [|v vs IH]; intros s I G.
  - exists [], s. split; [reflexivity|]. split; auto. split; [reflexivity|].
    intros [|i] v b E; discriminate.
  - inversion G; subst. destruct (H s v I H2) as (b & s1 & E1 & I1 & B & T).
    destruct (IH s1 I1 H3) as (bs & s2 & E2 & I2 & (L & M)).
    exists (b :: bs), s2. split; [simpl; rewrite E1; simpl; rewrite E2; reflexivity|]. split; auto.
    split; [simpl; congruence|].
    intros [|i] w c Hw Hc; simpl in Hw, Hc.
    + injection Hw as <-. injection Hc as <-. rewrite B. split; [intros K; split; auto; intros; lia|tauto].
    + rewrite (M i w c Hw Hc), T. split.
      * intros (K1 & K2). assert (key w < th s /\ key w < key v) as (A1 & A2).
        { pose proof (Rmin_l (th s) (key v)). pose proof (Rmin_r (th s) (key v)). lra. }
        split; auto. intros [|j] u Lj Hu; simpl in Hu.
        -- injection Hu as <-. exact A2.
        -- apply (K2 j); auto. lia.
      * intros (K1 & K2). split.
        -- apply Rmin_glb_lt; auto. apply (K2 0%nat); [lia|reflexivity].
        -- intros j u Lj Hu. apply (K2 (Datatypes.S j)); [lia|exact Hu].
Qed.

(** ** Rounding up *)
Lemma half_val : fin (ddec 5 1) /\ val (ddec 5 1) = / 2.
Proof.
  split; [reflexivity|]. rewrite val_fin by reflexivity.
  replace (ddec 5 1) with (ddec 5 1) by reflexivity.
  pose proof (dint_val 5 ltac:(lia)) as (F5 & V5). pose proof (dint_val (10 ^ 1) ltac:(lia)) as (F1 & V1).
  assert (val (ddec 5 1) = clamp (rnd (5 / 10))) as E.
  { unfold ddec. destruct (ddiv_val (dint 5) (dint (10 ^ 1)) F5 ltac:(rewrite V1; simpl; lra) F1) as (_ & E).
    rewrite E, V5, V1. reflexivity. }
  rewrite <- val_fin by reflexivity. rewrite E.
  replace (5 / 10) with (bpow radix2 (-1)) by (simpl; lra).
  assert (rnd (bpow radix2 (-1)) = bpow radix2 (-1)) as ->.
  { apply round_generic; [auto with typeclass_instances|]. apply generic_format_bpow. unfold FLT_exp. lia. }
  rewrite clamp_id; [simpl; lra|]. rewrite Rabs_pos_eq by apply bpow_ge_0. apply bpow_le. lia.
Qed.

Lemma rnd_near : forall z d, fin d -> Rabs (rnd z - z) <= Rabs (val d - z).
Proof.
  intros z d F. destruct (round_N_pt radix2 (FLT_exp (-1074) 53) (fun n => negb (Z.even n)) z) as (_ & H).
  apply H. rewrite (val_fin d F). apply generic_format_B2R.
Qed.

Lemma val_max : forall x, fin x -> val x <= big - bpow radix2 971.
Proof.
  intros x F. rewrite (val_fin x F). pose proof (abs_B2R_le_emax_minus_prec 53 1024 _ x) as H.
  pose proof (Rle_abs (B2R x)). simpl in H |- *. lra.
Qed.

Lemma round_half : forall q, fin q ->
  exists F, fin (coco_double_round q) /\ val (coco_double_round q) = IZR F /\
    F = Zfloor (rnd (val q + / 2)) /\ val q <= rnd (val q + / 2) <= val q + 1.
Proof.
  intros q Fq. destruct half_val as (Fh & Vh).
  destruct (dadd_val q (ddec 5 1) Fq Fh) as (N & V). rewrite Vh in V.
  pose proof (rnd_near (val q + / 2) q Fq) as H.
  replace (val q - (val q + / 2)) with (- / 2) in H by lra.
  rewrite Rabs_Ropp, (Rabs_pos_eq (/ 2)) in H by lra. apply Rabs_le_inv in H.
  pose proof (val_max q Fq) as M. pose proof (val_bound q Fq) as B.
  assert (1 < bpow radix2 971) as P by (replace 1 with (bpow radix2 0) by reflexivity; apply bpow_lt; lia).
  rewrite clamp_id in V by (apply Rabs_le; lra).
  assert (fin (dadd q (ddec 5 1))) as Fa by (apply fin_val; auto; rewrite V; lra).
  destruct (dfloor_fin _ Fa) as (Ff & Vf). rewrite V in Vf.
  exists (Zfloor (rnd (val q + / 2))). split; [exact Ff|]. split; [exact Vf|]. split; [reflexivity|]. lra.
Qed.

Lemma almost_equal_fin : forall a b e, fin a -> fin b -> num e ->
  (coco_double_almost_equal a b e = true <-> Rabs (clamp (rnd (val a - val b))) < val e).
Proof.
  intros a b e Fa Fb Ne. unfold coco_double_almost_equal.
  destruct (dsub_val a b Fa Fb) as (N & V).
  rewrite dlt_val by (rewrite ?dabs_num; auto). rewrite dabs_val, V. tauto.
Qed.

Lemma dsub_inf : forall a b, num a -> num b -> ~ (fin a /\ fin b) ->
  is_nan (dsub a b) = true \/ (num (dsub a b) /\ ~ fin (dsub a b)).
Proof.
  intros [s|s| |s m e H] [s'|s'| |s' m' e' H'] Na Nb F; try discriminate;
    try (exfalso; apply F; split; reflexivity).
  all: try (right; split; [reflexivity|discriminate]).
  unfold dsub; cbn [Bminus]. destruct s, s'; cbn; auto. all: right; split; [reflexivity|discriminate].
Qed.

Lemma almost_equal_inf : forall a b e, num a -> num b -> ~ (fin a /\ fin b) -> fin e ->
  coco_double_almost_equal a b e = false.
Proof.
  intros a b e Na Nb F Fe. unfold coco_double_almost_equal.
  destruct (dsub_inf a b Na Nb F) as [H|(N & H)].
  - destruct (dsub a b); try discriminate. reflexivity.
  - apply dlt_false; [now apply dabs_num| now apply fin_num|]. rewrite dabs_val.
    pose proof (val_bound e Fe). pose proof big_pos.
    destruct (inf_val _ N H) as [-> | ->]; [rewrite Rabs_pos_eq|rewrite Rabs_left1]; lra.
Qed.

Lemma min_precision_val : fin min_precision /\ Rabs (val min_precision - / 1000000000000) <= bpow radix2 (-90).
Proof.
  split; [reflexivity|].
  pose proof (dint_val 1 ltac:(lia)) as (F5 & V5). pose proof (dint_val (10 ^ 12) ltac:(lia)) as (F1 & V1).
  assert (val min_precision = clamp (rnd (/ 1000000000000))) as E.
  { unfold min_precision, ddec.
    assert (val (dint (10 ^ 12)) = 1000000000000) as V2 by (rewrite V1; reflexivity).
    destruct (ddiv_val (dint 1) (dint (10 ^ 12)) F5 ltac:(rewrite V2; lra) F1) as (_ & E).
    rewrite E, V5, V2. f_equal. f_equal. lra. }
  pose proof (rnd_err (/ 1000000000000)) as H. rewrite (Rabs_pos_eq (/ _)) in H by lra.
  assert (/ 1000000000000 <= bpow radix2 (-39)).
  { simpl. apply Rinv_le; lra. }
  assert (bpow radix2 (-53) * / 1000000000000 <= bpow radix2 (-92)).
  { replace (-92)%Z with (-53 + -39)%Z by lia. rewrite bpow_plus. apply Rmult_le_compat_l; [apply bpow_ge_0|lra]. }
  assert (bpow radix2 (-1075) <= bpow radix2 (-92)) by (apply bpow_le; lia).
  assert (bpow radix2 (-90) = 4 * bpow radix2 (-92)).
  { replace 4 with (bpow radix2 2) by reflexivity. rewrite <- bpow_plus. reflexivity. }
  pose proof (bpow_gt_0 radix2 (-92)).
  assert (bpow radix2 (-92) < 1) by (replace 1 with (bpow radix2 0) by reflexivity; apply bpow_lt; lia).
  assert (1 < big - 2).
  { pose proof big_53. assert (4 <= IZR (2 ^ 53)) by (apply IZR_le; lia). lra. }
  rewrite clamp_id in E.
  - rewrite E. lra.
  - apply Rabs_le_inv in H. apply Rabs_le. lra.
Qed.

#[local] Opaque min_precision ddec.

Section RoundUp.
Variable p : double.
Hypothesis Fp : fin p.
Hypothesis Hp : dlt min_precision p = true.

Let P := val p.

Lemma P_pos : 0 < P.
Proof.
  destruct min_precision_val as (Fm & E). apply Rabs_le_inv in E.
  pose proof (proj1 (dlt_val min_precision p (fin_num _ Fm) (fin_num _ Fp)) Hp) as L.
  assert (bpow radix2 (-90) < / 1000000000000).
  { replace (bpow radix2 (-90)) with (/ IZR (2 ^ 90)) by reflexivity. apply Rinv_lt_contravar; [|apply IZR_lt; reflexivity].
    apply Rmult_lt_0_compat; [lra|]. apply IZR_lt. reflexivity. }
  unfold P. lra.
Qed.

Definition ru (q : double) : double := dmul (dceil q) p.
Definition r0 (q : double) : double := dmul (coco_double_round q) p.
Definition b1 (q : double) : bool := coco_double_almost_equal (r0 q) (ru q) p.
Definition near (x q : double) : bool := coco_double_almost_equal (dsub x (r0 q)) dzero min_precision.
Definition up (x : double) : double :=
  let q := ddiv x p in if b1 q then ru q else if near x q then r0 q else ru q.

Lemma round_up_eq : forall x, coco_double_round_up_with_precision x p = Ok (up x).
Proof. intros. unfold coco_double_round_up_with_precision. rewrite Hp. reflexivity. Qed.

(** The quotient. *)
Lemma q_val : forall x, num x ->
  let q := ddiv x p in
  num q /\ (fin x -> val q = clamp (rnd (val x / P))) /\ (~ fin x -> val q = val x /\ ~ fin q).
Proof.
  intros x N q. pose proof P_pos as HP. destruct (is_finite x) eqn:Fx.
  - destruct (ddiv_val x p Fx ltac:(unfold P in HP; lra) Fp) as (Nq & V). split; [exact Nq|].
    split; [intros _; exact V|]. intros K. elim K. exact Fx.
  - assert (exists s, x = B754_infinity s) as (s & ->) by (destruct x; try discriminate Fx; try discriminate N; eauto).
    assert (q = B754_infinity s) as E.
    { unfold q, ddiv. unfold P in HP. pose proof (sign_val p Fp) as S.
      destruct p as [s'|s'| |s' m e H]; try discriminate Fp; cbn [Bdiv].
      - simpl in HP. lra.
      - cbn [Bsign] in S. destruct s'; [lra|]. now rewrite xorb_false_r. }
    rewrite E. split; [reflexivity|]. split; [discriminate|]. intros _. split; [reflexivity|discriminate].
Qed.

Lemma mul_inf : forall q, num q -> ~ fin q -> num (dmul q p) /\ val (dmul q p) = val q /\ ~ fin (dmul q p).
Proof.
  intros q N F. pose proof P_pos as HP.
  assert (exists s, q = B754_infinity s) as (s & ->) by (destruct q as [s|s| |s m e H]; try discriminate N; try (elim F; reflexivity); eauto).
  assert (dmul (B754_infinity s) p = B754_infinity s) as ->.
  { unfold dmul. unfold P in HP. pose proof (sign_val p Fp) as S.
    destruct p as [s'|s'| |s' m e H]; try discriminate Fp; cbn [Bmult].
    - simpl in HP. lra.
    - cbn [Bsign] in S. destruct s'; [lra|]. now rewrite xorb_false_r. }
  repeat split; discriminate.
Qed.

Lemma up_inf : forall x, num x -> ~ fin (ddiv x p) -> num (up x) /\ val (up x) = val (ddiv x p).
Proof.
  intros x N F. destruct (q_val x N) as (Nq & _). set (q := ddiv x p) in *.
  destruct (mul_inf q Nq F) as (N1 & V1 & F1).
  assert (ru q = dmul q p) as E1 by (unfold ru; now rewrite dceil_inf).
  assert (coco_double_round q = q) as E2.
  { unfold coco_double_round. destruct q as [s|s| |s m e H]; try discriminate Nq; try (elim F; reflexivity).
    destruct half_val as (Fh & _). unfold dadd. destruct (ddec 5 1) eqn:E; try discriminate Fh; reflexivity. }
  assert (r0 q = dmul q p) as E3 by (unfold r0; now rewrite E2).
  unfold up. fold q. replace (near x q) with false.
  - replace (if b1 q then ru q else ru q) with (ru q) by (destruct (b1 q); auto). rewrite E1. auto.
  - symmetry. unfold near. rewrite E3.
    destruct (dsub_inf x (dmul q p) N N1 ltac:(tauto)) as [H|(H1 & H2)].
    + destruct (dsub x (dmul q p)); try discriminate H. reflexivity.
    + apply almost_equal_inf; [assumption|reflexivity| |exact (proj1 min_precision_val)]. intros (A & _). contradiction.
Qed.

(** A finite quotient: both candidates are rounded multiples. *)
Record cell (q : double) (K F : Z) : Prop := {
  cell_K : K = Zceil (val q);
  cell_F : F = Zfloor (rnd (val q + / 2));
  cell_ru : num (ru q) /\ val (ru q) = clamp (rnd (IZR K * P));
  cell_r0 : num (r0 q) /\ val (r0 q) = clamp (rnd (IZR F * P));
  cell_h : val q <= rnd (val q + / 2) <= val q + 1 }.

Lemma cell_exists : forall q, fin q -> cell q (Zceil (val q)) (Zfloor (rnd (val q + / 2))).
Proof.
  intros q Fq. destruct (dceil_fin q Fq) as (Fc & Vc). destruct (round_half q Fq) as (F & Fr & Vr & -> & B).
  constructor; auto.
  - destruct (dmul_val (dceil q) p Fc Fp) as (N & V). rewrite Vc in V. auto.
  - destruct (dmul_val (coco_double_round q) p Fr Fp) as (N & V). rewrite Vr in V. auto.
Qed.

Lemma dsub_zero_val : forall d, num d -> val (dsub d dzero) = val d /\ num (dsub d dzero).
Proof.
  intros d N. destruct (is_finite d) eqn:F.
  - destruct (dsub_val d dzero F eq_refl) as (N1 & V). split; auto. rewrite V.
    change (val dzero) with 0. rewrite Rminus_0_r, rnd_val by assumption. apply clamp_id. apply Rabs_le.
    apply val_range.
  - destruct d as [s|s| |s m e H]; try discriminate F; try discriminate N. split; reflexivity.
Qed.

Lemma near_val : forall x q, fin x -> num (r0 q) ->
  (near x q = true <-> fin (r0 q) /\ Rabs (rnd (val x - val (r0 q))) < val min_precision).
Proof.
  intros x q Fx N. unfold near. destruct min_precision_val as (Fm & Em).
  destruct (is_finite (r0 q)) eqn:F.
  - destruct (dsub_val x (r0 q) Fx F) as (N1 & V1). unfold coco_double_almost_equal.
    destruct (dsub_zero_val _ N1) as (V2 & N2).
    rewrite dlt_val by (rewrite ?dabs_num; auto using fin_num). rewrite dabs_val, V2, V1.
    assert (val min_precision < big) as B by (apply val_bound; auto).
    split; [intros H|intros (_ & H)].
    + split; auto. revert H. unfold clamp, Rmin, Rmax. pose proof big_pos.
      repeat destruct Rle_dec; intros H0; auto; exfalso.
      all: first [rewrite Rabs_pos_eq in H0 by lra; lra | rewrite Rabs_left1 in H0 by lra; lra].
    + rewrite clamp_id; auto. lra.
  - split; [|intros (K & _); unfold fin in K; congruence].
    intros H. exfalso. revert H.
    destruct (dsub_inf x (r0 q) (fin_num _ Fx) N) as [H|(H1 & H2)].
    + intros (_ & K). unfold fin in K. congruence.
    + destruct (dsub x (r0 q)); try discriminate H. discriminate.
    + rewrite almost_equal_inf; [discriminate|auto|reflexivity| |assumption]. intros (A & _). contradiction.
Qed.

Lemma b1_val : forall q K F, cell q K F -> forall q' , cell q' K F -> b1 q = b1 q'.
Proof.
  intros q K F C q' C'. unfold b1.
  destruct (cell_ru _ _ _ C) as (N1 & V1). destruct (cell_r0 _ _ _ C) as (N2 & V2).
  destruct (cell_ru _ _ _ C') as (N3 & V3). destruct (cell_r0 _ _ _ C') as (N4 & V4).
  assert (fin (ru q) <-> fin (ru q')) as E1 by (rewrite !fin_val by assumption; rewrite V1, V3; tauto).
  assert (fin (r0 q) <-> fin (r0 q')) as E2 by (rewrite !fin_val by assumption; rewrite V2, V4; tauto).
  destruct (is_finite (ru q)) eqn:F1.
  - destruct (is_finite (r0 q)) eqn:F2.
    + assert (fin (ru q')) by (apply E1; exact F1). assert (fin (r0 q')) by (apply E2; exact F2).
      pose proof (almost_equal_fin (r0 q) (ru q) p F2 F1 (fin_num _ Fp)) as A.
      pose proof (almost_equal_fin (r0 q') (ru q') p H0 H (fin_num _ Fp)) as B.
      rewrite V1, V2 in A. rewrite V3, V4 in B.
      destruct (coco_double_almost_equal (r0 q) (ru q) p), (coco_double_almost_equal (r0 q') (ru q') p); auto.
      * symmetry. apply B. apply A. reflexivity.
      * apply A. apply B. reflexivity.
    + rewrite !almost_equal_inf; auto.
      * rewrite <- E2. unfold fin. intros (K1 & _). congruence.
      * unfold fin. intros (K1 & _). congruence.
  - rewrite !almost_equal_inf; auto.
    * rewrite <- E1. unfold fin. intros (_ & K1). congruence.
    * unfold fin. intros (_ & K1). congruence.
Qed.

Lemma up_cell : forall x K F, fin x -> cell (ddiv x p) K F ->
  num (up x) /\ (val (up x) = clamp (rnd (IZR K * P)) \/ val (up x) = clamp (rnd (IZR F * P))).
Proof.
  intros x K F Fx C. destruct (cell_ru _ _ _ C) as (N1 & V1). destruct (cell_r0 _ _ _ C) as (N2 & V2).
  unfold up. destruct b1; auto. destruct near; auto.
Qed.

(** Integers between doubles. *)
Lemma fin_rnd_le : forall q k, fin q -> (Z.abs k <= 2 ^ 53)%Z -> forall r, rnd r = val q ->
  IZR k < val q -> IZR k < r.
Proof.
  intros q k Fq Hk r E H. apply Rnot_le_lt. intros K. apply rnd_mono in K. rewrite rnd_int in K by assumption. lra.
Qed.
Lemma fin_rnd_ge : forall q k, fin q -> (Z.abs k <= 2 ^ 53)%Z -> forall r, rnd r = val q ->
  val q < IZR k -> r < IZR k.
Proof.
  intros q k Fq Hk r E H. apply Rnot_le_lt. intros K. apply rnd_mono in K. rewrite rnd_int in K by assumption. lra.
Qed.

(** A double that is not an integer is below 2^52. *)
Lemma non_integer_small : forall q, fin q -> (forall k, val q <> IZR k) -> Rabs (val q) < IZR (2 ^ 52).
Proof.
  intros q Fq H. apply Rnot_le_lt. intros K.
  assert (exists k, val q = IZR k) as (k & E); [|now apply (H k)].
  rewrite (val_fin q Fq) in *. pose proof (generic_format_B2R 53 1024 q) as G.
  unfold generic_format in G. rewrite G. unfold F2R. simpl Fnum. simpl Fexp.
  set (e := cexp radix2 (SpecFloat.fexp 53 1024) (B2R q)) in *.
  assert (0 <= e)%Z as He.
  { unfold e, cexp. assert (53 <= mag radix2 (B2R q))%Z.
    { apply mag_ge_bpow. replace (bpow radix2 (53 - 1)) with (IZR (2 ^ 52)) by reflexivity. exact K. }
    unfold SpecFloat.fexp, SpecFloat.emin. lia. }
  exists (Ztrunc (scaled_mantissa radix2 (SpecFloat.fexp 53 1024) (B2R q)) * Zpower radix2 e)%Z.
  rewrite mult_IZR, IZR_Zpower by assumption. reflexivity.
Qed.

(** The two candidates of a finite quotient. *)
Lemma cell_cases : forall x K F, fin x -> fin (ddiv x p) -> cell (ddiv x p) K F ->
  (F = K) \/
  ((F = K - 1)%Z /\ IZR F < val (ddiv x p) < IZR K /\ val (r0 (ddiv x p)) <= val x) \/
  ((F = K + 1)%Z /\ val (ddiv x p) = IZR K /\ val x <= val (r0 (ddiv x p)) /\
   forall d, fin d -> val (ddiv x p) < val d -> IZR F <= val d).
Proof.
  intros x K F Fx Fq C. set (q := ddiv x p) in *. pose proof P_pos as HP.
  destruct (q_val x (fin_num _ Fx)) as (Nq & Vq & _). specialize (Vq Fx). fold q in Nq, Vq.
  assert (rnd (val x / P) = val q) as Rq.
  { revert Vq. pose proof (val_bound q Fq). unfold clamp, Rmin, Rmax. repeat destruct Rle_dec; intros; lra. }
  destruct (cell_r0 _ _ _ C) as (N0 & V0). pose proof (cell_K _ _ _ C) as EK. pose proof (cell_F _ _ _ C) as EF.
  pose proof (cell_h _ _ _ C) as Hh.
  pose proof (Zfloor_lb (rnd (val q + / 2))) as L1. pose proof (Zfloor_ub (rnd (val q + / 2))) as L2.
  rewrite <- EF in L1, L2. pose proof (Zceil_ub (val q)) as L3. rewrite <- EK in L3.
  assert (IZR K < val q + 1) as L4.
  { rewrite EK. pose proof (Zceil_lb (val q)) as L. lra. }
  destruct (Req_dec (val q) (IZR K)) as [Ei|Ni].
  - (* an integer *)
    assert (F = K \/ F = K + 1)%Z as [->|E].
    { assert (K < F + 1)%Z by (apply lt_IZR; rewrite plus_IZR; lra).
      assert (F <= K + 1)%Z by (apply le_IZR; rewrite plus_IZR; lra). lia. }
    + left; reflexivity.
    + right; right. split; [exact E|]. split; [exact Ei|].
      assert (rnd (val q + / 2) = IZR F) as ER.
      { rewrite E, plus_IZR in L1 |- *. lra. }
      assert (forall d, fin d -> val q < val d -> IZR F <= val d) as Hd.
      { intros d Fd Hd. apply Rnot_lt_le. intros Hd2.
        pose proof (rnd_near (val q + / 2) d Fd) as Hn. rewrite ER, E, plus_IZR in Hn. rewrite E, plus_IZR in Hd2.
        rewrite <- Ei in Hn, Hd2. replace (val q + 1 - (val q + / 2)) with (/ 2) in Hn by lra.
        rewrite (Rabs_pos_eq (/ 2)) in Hn by lra.
        assert (Rabs (val d - (val q + / 2)) < / 2) by (apply Rabs_lt; lra). lra. }
      split; [|exact Hd].
      rewrite V0. assert (val x = clamp (rnd (val x))) as -> .
      { rewrite rnd_val by assumption. symmetry. apply clamp_id, Rabs_le, val_range. }
      apply clamp_mono, rnd_mono.
      assert (val x / P < IZR F) as Hlt.
      { apply Rnot_le_lt. intros Hle. apply rnd_mono in Hle. rewrite Rq in Hle.
        assert (rnd (IZR F) = IZR F) as EE.
        { rewrite <- ER. apply round_generic; [auto with typeclass_instances|]. apply generic_format_round; auto with typeclass_instances. }
        rewrite EE, E, plus_IZR in Hle. lra. }
      apply Rlt_le. replace (val x) with (val x / P * P) by (field; lra). apply Rmult_lt_compat_r; lra.
  - (* not an integer *)
    assert (Rabs (val q) < IZR (2 ^ 52)) as Hs.
    { apply non_integer_small; auto. intros k Ek. apply Ni.
      rewrite EK, Ek. rewrite Zceil_IZR. reflexivity. }
    apply Rabs_lt_inv in Hs.
    assert (F = K \/ F = K - 1)%Z as [->|E].
    { assert (F <= K)%Z. { assert (F < K + 1)%Z; [apply lt_IZR; rewrite plus_IZR; lra|lia]. }
      assert (K - 1 < F + 1)%Z by (apply lt_IZR; rewrite minus_IZR, plus_IZR; lra). lia. }
    + left; reflexivity.
    + right; left. split; [exact E|].
      assert (IZR F < val q) as HFq by (rewrite E, minus_IZR; lra).
      split; [lra|]. rewrite V0. assert (val x = clamp (rnd (val x))) as -> .
      { rewrite rnd_val by assumption. symmetry. apply clamp_id, Rabs_le, val_range. }
      apply clamp_mono, rnd_mono.
      assert (IZR F < val x / P) as Hlt.
      { apply (fin_rnd_le q F Fq); auto.
        assert (- 2 ^ 52 - 1 < F)%Z by (apply lt_IZR; rewrite minus_IZR, opp_IZR; rewrite E, minus_IZR; lra).
        assert (F < 2 ^ 52)%Z by (apply lt_IZR; lra). lia. }
      apply Rlt_le. replace (val x) with (val x / P * P) by (field; lra). apply Rmult_lt_compat_r; lra.
Qed.

Lemma q_mono : forall x y, num x -> num y -> val x <= val y -> val (ddiv x p) <= val (ddiv y p).
Proof.
  intros x y Nx Ny H. pose proof P_pos as HP.
  destruct (q_val x Nx) as (Nqx & Fx & Ix). destruct (q_val y Ny) as (Nqy & Fy & Iy).
  destruct (is_finite x) eqn:Ex.
  - rewrite (Fx Ex). destruct (is_finite y) eqn:Ey.
    + rewrite (Fy Ey). apply clamp_mono, rnd_mono. apply Rmult_le_compat_r; auto. apply Rlt_le, Rinv_0_lt_compat; auto.
    + assert (~ fin y) as K by (unfold fin; congruence). destruct (Iy K) as (-> & _).
      destruct (inf_val y Ny K) as [E|E].
      * rewrite E. rewrite <- (Fx Ex). apply val_range.
      * pose proof (val_bound x Ex). lra.
  - assert (~ fin x) as K by (unfold fin; congruence). destruct (Ix K) as (E0 & _). rewrite E0.
    destruct (inf_val x Nx K) as [E|E].
    + assert (val y = big) as E1 by (pose proof (val_range y); lra).
      assert (~ fin y) as K2 by (rewrite fin_val by auto; lra). destruct (Iy K2) as (-> & _). lra.
    + rewrite E. apply val_range.
Qed.

Lemma up_same_cell : forall x y K F, fin x -> fin y -> fin (ddiv x p) -> fin (ddiv y p) -> val x <= val y ->
  cell (ddiv x p) K F -> cell (ddiv y p) K F -> val (up x) <= val (up y).
Proof.
  intros x y K F Fx Fy Fqx Fqy H Cx Cy.
  pose proof (b1_val _ _ _ Cx _ Cy) as EB. unfold up. rewrite EB.
  destruct (cell_ru _ _ _ Cx) as (_ & Rx). destruct (cell_ru _ _ _ Cy) as (_ & Ry).
  destruct (cell_r0 _ _ _ Cx) as (Nx & R0x). destruct (cell_r0 _ _ _ Cy) as (Ny & R0y).
  pose proof (near_val x (ddiv x p) Fx Nx) as NX. pose proof (near_val y (ddiv y p) Fy Ny) as NY.
  assert (fin (r0 (ddiv x p)) <-> fin (r0 (ddiv y p))) as EF by (rewrite !fin_val by assumption; rewrite R0x, R0y; tauto).
  rewrite R0x in NX. rewrite R0y in NY.
  destruct (b1 (ddiv y p)); [lra|].
  pose proof P_pos as HP.
  destruct (cell_cases x K F Fx Fqx Cx) as [->|[(E & _ & Hx)|(E & _ & Hx & _)]].
  - destruct (near x _), (near y _); lra.
  - assert (clamp (rnd (IZR F * P)) <= clamp (rnd (IZR K * P))) as HL.
    { apply clamp_mono, rnd_mono. apply Rmult_le_compat_r; [lra|]. apply IZR_le. lia. }
    destruct (near x _) eqn:Ex; destruct (near y _) eqn:Ey; try lra.
    exfalso. rewrite R0x in Hx. destruct NY as (NY & _). destruct (NY eq_refl) as (F1 & F2).
    assert (false = true); [|discriminate]. apply NX. split; [now apply EF|].
    eapply Rle_lt_trans; [|exact F2].
    assert (0 <= rnd (val x - clamp (rnd (IZR F * P)))) by (rewrite <- rnd_0; apply rnd_mono; lra).
    assert (rnd (val x - clamp (rnd (IZR F * P))) <= rnd (val y - clamp (rnd (IZR F * P)))) by (apply rnd_mono; lra).
    rewrite !Rabs_pos_eq; lra.
  - assert (clamp (rnd (IZR K * P)) <= clamp (rnd (IZR F * P))) as HL.
    { apply clamp_mono, rnd_mono. apply Rmult_le_compat_r; [lra|]. apply IZR_le. lia. }
    destruct (cell_cases y K F Fy Fqy Cy) as [->|[(E' & _)|(_ & _ & Hy & _)]]; [lia|lia|].
    destruct (near x _) eqn:Ex; destruct (near y _) eqn:Ey; try lra.
    exfalso. rewrite R0y in Hy. destruct NX as (NX & _). destruct (NX eq_refl) as (F1 & F2).
    assert (false = true); [|discriminate]. apply NY. split; [now apply EF|].
    eapply Rle_lt_trans; [|exact F2].
    assert (rnd (val y - clamp (rnd (IZR F * P))) <= 0) by (rewrite <- rnd_0; apply rnd_mono; lra).
    assert (rnd (val x - clamp (rnd (IZR F * P))) <= rnd (val y - clamp (rnd (IZR F * P)))) by (apply rnd_mono; lra).
    rewrite !Rabs_left1; lra.
Qed.

Lemma up_num : forall x, num x -> num (up x).
Proof.
  intros x N. destruct (q_val x N) as (Nq & _ & Ix). destruct (is_finite (ddiv x p)) eqn:Fq.
  - assert (fin x) as Fx.
    { destruct (is_finite x) eqn:E; auto. destruct Ix as (_ & K); [unfold fin; congruence|]. contradiction. }
    apply (up_cell x _ _ Fx (cell_exists _ Fq)).
  - apply up_inf; auto. unfold fin. congruence.
Qed.

Lemma up_mono : forall x y, num x -> num y -> val x <= val y -> val (up x) <= val (up y).
Proof.
  intros x y Nx Ny H. pose proof P_pos as HP. pose proof (q_mono x y Nx Ny H) as Hq.
  destruct (q_val x Nx) as (Nqx & _ & Ix). destruct (q_val y Ny) as (Nqy & _ & Iy).
  destruct (is_finite (ddiv x p)) eqn:Fqx.
  2:{ assert (~ fin (ddiv x p)) as Kx by (unfold fin; congruence).
      destruct (up_inf x Nx Kx) as (_ & ->). destruct (inf_val _ Nqx Kx) as [E|E].
      - assert (val (ddiv y p) = big) as E1 by (pose proof (val_range (ddiv y p)); lra).
        assert (~ fin (ddiv y p)) as Ky by (rewrite fin_val by auto; lra).
        destruct (up_inf y Ny Ky) as (_ & ->). lra.
      - rewrite E. apply val_range. }
  destruct (is_finite (ddiv y p)) eqn:Fqy.
  2:{ assert (~ fin (ddiv y p)) as Ky by (unfold fin; congruence).
      destruct (up_inf y Ny Ky) as (_ & ->). destruct (inf_val _ Nqy Ky) as [E|E].
      - rewrite E. apply val_range.
      - pose proof (val_bound _ Fqx). lra. }
  assert (fin x) as Fx.
  { destruct (is_finite x) eqn:E; auto. destruct Ix as (_ & K); [unfold fin; congruence|]. contradiction. }
  assert (fin y) as Fy.
  { destruct (is_finite y) eqn:E; auto. destruct Iy as (_ & K); [unfold fin; congruence|]. contradiction. }
  pose proof (cell_exists _ Fqx) as Cx. pose proof (cell_exists _ Fqy) as Cy.
  set (K := Zceil (val (ddiv x p))) in *. set (F := Zfloor (rnd (val (ddiv x p) + / 2))) in *.
  set (K' := Zceil (val (ddiv y p))) in *. set (F' := Zfloor (rnd (val (ddiv y p) + / 2))) in *.
  assert (K <= K')%Z as HK by (apply Zceil_le; exact Hq).
  assert (F <= F')%Z as HF by (apply Zfloor_le, rnd_mono; lra).
  assert ((K = K' /\ F = F') \/ Z.max K F <= Z.min K' F')%Z as [(-> & EF)|HM].
  { destruct (cell_cases x K F Fx Fqx Cx) as [E|[(E & _)|(E & Eq & _ & Hd)]].
    - right. lia.
    - destruct (cell_cases y K' F' Fy Fqy Cy) as [E'|[(E' & _)|(E' & _)]]; lia.
    - destruct (Req_dec (val (ddiv x p)) (val (ddiv y p))) as [EE|NE].
      + left. unfold K', F'. rewrite <- EE. auto.
      + right. assert (F <= K')%Z; [|lia]. apply le_IZR.
        apply Rle_trans with (val (ddiv y p)); [apply Hd; auto; lra|]. apply Zceil_ub. }
  - rewrite <- EF in Cy. apply (up_same_cell x y K' F); auto.
  - destruct (up_cell x K F Fx Cx) as (_ & Ux). destruct (up_cell y K' F' Fy Cy) as (_ & Uy).
    assert (forall a b : Z, (a <= b)%Z -> clamp (rnd (IZR a * P)) <= clamp (rnd (IZR b * P))) as HL.
    { intros a b Hab. apply clamp_mono, rnd_mono. apply Rmult_le_compat_r; [lra|]. now apply IZR_le. }
    destruct Ux as [-> | ->], Uy as [-> | ->]; apply HL; lia.
Qed.

(** Distance to the value. *)
Lemma up_bounds : forall x, fin x -> fin (up x) ->
  (exists k, val (up x) = rnd (IZR k * P)) /\
  val x - val min_precision - bpow radix2 (-51) * (Rabs (val x) + P) <= val (up x)
    <= val x + P + bpow radix2 (-51) * (Rabs (val x) + P).
Proof.
  intros x Fx Fu. pose proof P_pos as HP. destruct min_precision_val as (Fm & Em).
  destruct (q_val x (fin_num _ Fx)) as (Nq & Vq & _). specialize (Vq Fx).
  assert (fin (ddiv x p)) as Fq.
  { destruct (is_finite (ddiv x p)) eqn:E; auto. exfalso.
    assert (~ fin (ddiv x p)) as Kx by (unfold fin; congruence).
    destruct (up_inf x (fin_num _ Fx) Kx) as (_ & V). pose proof (val_bound _ Fu).
    destruct (inf_val _ Nq Kx); lra. }
  pose proof (cell_exists _ Fq) as C. set (q := ddiv x p) in *.
  set (K := Zceil (val q)) in *. set (F := Zfloor (rnd (val q + / 2))) in *.
  assert (forall k r, val r = clamp (rnd (IZR k * P)) -> fin r -> val r = rnd (IZR k * P)) as UC.
  { intros k r E Fr. pose proof (val_bound r Fr) as B. rewrite E in B |- *.
    revert B. unfold clamp, Rmin, Rmax. repeat destruct Rle_dec; intros; lra. }
  assert (val min_precision > 0) as Mpos.
  { apply Rabs_le_inv in Em. assert (bpow radix2 (-90) < / 1000000000000).
    { replace (bpow radix2 (-90)) with (/ IZR (2 ^ 90)) by reflexivity. apply Rinv_lt_contravar; [|apply IZR_lt; reflexivity].
      apply Rmult_lt_0_compat; [lra|]. apply IZR_lt. reflexivity. }
    lra. }
  pose proof (bpow_gt_0 radix2 (-51)) as U51. pose proof (Rabs_pos (val x)) as AX.
  assert (val (up x) = val (ru q) \/ (near x q = true /\ val (up x) = val (r0 q))) as [E|(E & E2)].
  { unfold up. fold q. destruct (b1 q); auto. destruct (near x q); auto. }
  - destruct (cell_ru _ _ _ C) as (N1 & V1). rewrite <- E in V1.
    pose proof (UC K (up x) V1 Fu) as V2. split; [exists K; exact V2|].
    assert (rnd (val x / P) = val q) as Rq.
    { revert Vq. fold q. pose proof (val_bound q Fq). unfold clamp, Rmin, Rmax. repeat destruct Rle_dec; intros; lra. }
    pose proof (rnd_err (val x / P)) as E1. rewrite Rq in E1.
    assert (Rabs (val q * P - val x) <= bpow radix2 (-53) * Rabs (val x) + bpow radix2 (-1075) * P) as E3.
    { replace (val q * P - val x) with ((val q - val x / P) * P) by (field; lra).
      rewrite Rabs_mult, (Rabs_pos_eq P) by lra.
      replace (bpow radix2 (-53) * Rabs (val x) + bpow radix2 (-1075) * P)
        with ((bpow radix2 (-53) * Rabs (val x / P) + bpow radix2 (-1075)) * P).
      - apply Rmult_le_compat_r; lra.
      - unfold Rdiv. rewrite Rabs_mult, (Rabs_pos_eq (/ P)) by (apply Rlt_le, Rinv_0_lt_compat; lra). field. lra. }
    pose proof (rnd_err (IZR K * P)) as E4. rewrite <- V2 in E4.
    pose proof (Zceil_ub (val q)) as L3. pose proof (Zceil_lb (val q)) as L4. fold K in L3, L4.
    assert (IZR K * P <= val q * P + P) by nra.
    assert (val q * P <= IZR K * P) by nra.
    set (u := bpow radix2 (-53)) in *. set (eta := bpow radix2 (-1075)) in *.
    assert (bpow radix2 (-51) = 4 * u) as Eu.
    { unfold u. replace 4 with (bpow radix2 2) by reflexivity. rewrite <- bpow_plus. reflexivity. }
    assert (0 < u) as Hu by apply bpow_gt_0. assert (0 < eta) as Heta by apply bpow_gt_0.
    assert (u <= / 1024) as Hu2.
    { unfold u. replace (/ 1024) with (bpow radix2 (-10)) by (simpl; lra). apply bpow_le. lia. }
    assert (eta <= u * u) as He.
    { unfold eta, u. rewrite <- bpow_plus. apply bpow_le. lia. }
    assert (eta <= u * / 1000000000000 / 1000) as He2.
    { apply Rle_trans with (u * bpow radix2 (-1022)).
      - unfold eta, u. rewrite <- bpow_plus. apply bpow_le. lia.
      - unfold Rdiv. rewrite Rmult_assoc. apply Rmult_le_compat_l; [lra|].
        apply Rle_trans with (bpow radix2 (-50)); [apply bpow_le; lia|]. simpl. lra. }
    assert (/ 1000000000000 / 1000 <= P) as HP2.
    { pose proof (proj1 (dlt_val min_precision p (fin_num _ Fm) (fin_num _ Fp)) Hp) as L.
      apply Rabs_le_inv in Em. assert (bpow radix2 (-90) < / 2000000000000).
      { replace (bpow radix2 (-90)) with (/ IZR (2 ^ 90)) by reflexivity. apply Rinv_lt_contravar; [|apply IZR_lt; reflexivity].
        apply Rmult_lt_0_compat; [lra|]. apply IZR_lt. reflexivity. }
      unfold P. lra. }
    assert (eta <= u * P) as He3 by nra.
    apply Rabs_le_inv in E3. apply Rabs_le_inv in E4.
    assert (Rabs (IZR K * P) <= Rabs (val x) + u * Rabs (val x) + eta * P + P) as E5.
    { apply Rabs_le. pose proof (Rle_abs (val x)). pose proof (Rle_abs (- val x)) as A2. rewrite Rabs_Ropp in A2. nra. }
    assert (u * Rabs (IZR K * P) + eta <= u * (Rabs (val x) + u * Rabs (val x) + eta * P + P) + u * P) as E6 by nra.
    assert (eta * P <= u * u * P) by nra.
    assert (u * u <= u * / 1024) by nra.
    rewrite Eu.
    assert (u * (u * Rabs (val x)) <= u * / 1024 * Rabs (val x)) by nra.
    assert (u * (eta * P) <= u * (u * u * P)) by (apply Rmult_le_compat_l; lra).
    assert (u * (u * u * P) <= u * P * / 1024).
    { replace (u * (u * u * P)) with (u * P * (u * u)) by ring. apply Rmult_le_compat_l; nra. }
    assert (u * u * P <= u * / 1024 * P) by (apply Rmult_le_compat_r; lra).
    assert (0 <= u * Rabs (val x)) by nra. assert (0 <= u * P) by nra. lra.
  - destruct (cell_r0 _ _ _ C) as (N1 & V1). rewrite <- E2 in V1.
    split; [exists F; now apply UC|].
    apply (near_val x q Fx) in E; [|now destruct (cell_r0 _ _ _ C)]. destruct E as (_ & E).
    rewrite <- E2 in E.
    assert (Rabs (val x - val (up x)) < val min_precision) as D.
    { apply Rnot_le_lt. intros Hle. apply Rlt_not_le in E. apply E.
      assert (rnd (Rabs (val x - val (up x))) = Rabs (rnd (val x - val (up x)))) as <-.
      { unfold rnd. apply round_NE_abs. auto with typeclass_instances. }
      rewrite <- (rnd_val _ Fm). now apply rnd_mono. }
    apply Rabs_lt_inv in D.
    pose proof (proj1 (dlt_val min_precision p (fin_num _ Fm) (fin_num _ Fp)) Hp) as L. fold P in L. nra.
Qed.

Lemma P_low : bpow radix2 (-40) <= P.
Proof.
  destruct min_precision_val as (Fm & Em).
  pose proof (proj1 (dlt_val min_precision p (fin_num _ Fm) (fin_num _ Fp)) Hp) as L. fold P in L.
  apply Rabs_le_inv in Em.
  assert (bpow radix2 (-90) < / 100000000000000).
  { replace (bpow radix2 (-90)) with (/ IZR (2 ^ 90)) by reflexivity. apply Rinv_lt_contravar; [|apply IZR_lt; reflexivity].
    apply Rmult_lt_0_compat; [lra|]. apply IZR_lt. reflexivity. }
  assert (bpow radix2 (-40) < / 1000000000000 - / 100000000000000).
  { replace (bpow radix2 (-40)) with (/ 1099511627776) by reflexivity. lra. }
  lra.
Qed.

Lemma up_fin : forall x, fin x -> Rabs (val x) + P <= bpow radix2 900 -> fin (up x).
Proof.
  intros x Fx H. pose proof P_pos as HP. pose proof P_low as PL.
  destruct (q_val x (fin_num _ Fx)) as (Nq & Vq & _). specialize (Vq Fx).
  pose proof (rnd_err (val x / P)) as E1.
  assert (0 < / P) as IP by (apply Rinv_0_lt_compat; auto).
  assert (Rabs (val x / P) * P = Rabs (val x)) as EX.
  { unfold Rdiv. rewrite Rabs_mult, (Rabs_pos_eq (/ P)) by lra. field. lra. }
  pose proof (Rabs_pos (val x / P)) as AX.
  assert (bpow radix2 (-53) <= / 2) as U53.
  { replace (/ 2) with (bpow radix2 (-1)) by reflexivity. apply bpow_le. lia. }
  assert (bpow radix2 (-1075) <= / 2) as Ueta.
  { replace (/ 2) with (bpow radix2 (-1)) by reflexivity. apply bpow_le. lia. }
  pose proof (bpow_gt_0 radix2 (-53)). pose proof (bpow_gt_0 radix2 (-1075)).
  assert (Rabs (rnd (val x / P)) <= 2 * Rabs (val x / P) + 1) as B1.
  { replace (rnd (val x / P)) with ((rnd (val x / P) - val x / P) + val x / P) by ring.
    eapply Rle_trans; [apply Rabs_triang|]. nra. }
  assert (Rabs (val x / P) <= bpow radix2 940) as B2.
  { apply Rmult_le_reg_r with P; auto. rewrite EX.
    apply Rle_trans with (bpow radix2 900); [lra|].
    replace (bpow radix2 900) with (bpow radix2 940 * bpow radix2 (-40)) by (rewrite <- bpow_plus; reflexivity).
    apply Rmult_le_compat_l; auto. apply bpow_ge_0. }
  assert (2 * bpow radix2 940 + 1 < big) as B3.
  { apply Rlt_le_trans with (bpow radix2 1 * bpow radix2 940 + bpow radix2 941).
    - replace (bpow radix2 1) with 2 by reflexivity. apply Rplus_lt_compat_l.
      change 1 with (bpow radix2 0). apply bpow_lt. lia.
    - rewrite <- bpow_plus. replace (bpow radix2 (1 + 940) + bpow radix2 941) with (bpow radix2 1 * bpow radix2 941).
      + rewrite <- bpow_plus. apply bpow_le. lia.
      + replace (bpow radix2 1) with 2 by reflexivity. replace (1 + 940)%Z with 941%Z by lia. ring. }
  assert (val (ddiv x p) = rnd (val x / P)) as Eq.
  { rewrite Vq. apply clamp_id. lra. }
  assert (fin (ddiv x p)) as Fq.
  { apply fin_val; auto. rewrite Eq. apply Rabs_lt_inv. lra. }
  pose proof (cell_exists _ Fq) as C. set (q := ddiv x p) in *.
  destruct (up_cell x _ _ Fx C) as (Nu & Hu).
  apply fin_val; auto. apply Rabs_lt_inv.
  assert (forall k : Z, Rabs (IZR k) <= Rabs (val q) + 2 -> Rabs (clamp (rnd (IZR k * P))) < big) as Hk.
  { intros k Bk. rewrite Eq in Bk.
    assert (Rabs (IZR k * P) <= 5 * bpow radix2 900) as B4.
    { rewrite Rabs_mult, (Rabs_pos_eq P) by lra.
      apply Rle_trans with ((2 * Rabs (val x / P) + 3) * P); [apply Rmult_le_compat_r; lra|].
      pose proof (Rabs_pos (val x)). nra. }
    pose proof (rnd_err (IZR k * P)) as E4.
    assert (1 <= bpow radix2 900) as B5 by (change 1 with (bpow radix2 0); apply bpow_le; lia).
    assert (Rabs (rnd (IZR k * P)) <= 16 * bpow radix2 900) as B6.
    { replace (rnd (IZR k * P)) with ((rnd (IZR k * P) - IZR k * P) + IZR k * P) by ring.
      eapply Rle_trans; [apply Rabs_triang|]. pose proof (Rabs_pos (IZR k * P)). nra. }
    assert (16 * bpow radix2 900 < big) as B7.
    { change 16 with (bpow radix2 4). rewrite <- bpow_plus. apply bpow_lt. lia. }
    rewrite clamp_id; lra. }
  assert (Rabs (IZR (Zceil (val q))) <= Rabs (val q) + 2) as BK.
  { pose proof (Zceil_ub (val q)). pose proof (Zceil_lb (val q)). pose proof (Rle_abs (val q)).
    pose proof (Rle_abs (- val q)) as A2. rewrite Rabs_Ropp in A2. apply Rabs_le. lra. }
  destruct Hu as [-> | ->]; apply Hk; auto.
  set (F := Zfloor (rnd (val q + / 2))) in *.
  pose proof (Zceil_ub (val q)) as L1. pose proof (Zceil_lb (val q)) as L2.
  set (K := Zceil (val q)) in *.
  assert (val q - 1 <= IZR F <= val q + 2) as B8.
  { destruct (cell_cases x K F Fx Fq C) as [E|[(E & _)|(E & _)]]; rewrite E; rewrite ?minus_IZR, ?plus_IZR; lra. }
  pose proof (Rle_abs (val q)). pose proof (Rle_abs (- val q)) as A2. rewrite Rabs_Ropp in A2. apply Rabs_le. lra.
Qed.

Lemma up_nan : forall x, is_nan x = true -> is_nan (up x) = true.
Proof.
  intros x Nx. destruct x; try discriminate Nx. unfold up.
  assert (ddiv (B754_nan : double) p = B754_nan) as E by (destruct p; reflexivity). rewrite E.
  destruct (b1 _); [destruct p; reflexivity|]. destruct (near _ _); destruct p; reflexivity.
Qed.

(** The key of a value of the linear trigger: a NaN is above everything. *)
Definition lin_key (x : double) : R := if is_nan x then big else val (up x).

Lemma lin_consult : forall vs, exists bs t,
  consult lin_targets_trigger (new_lin_targets p) vs = Ok (bs, t) /\
  marks lin_key (val DBL_MAX) vs bs.
Proof.
  intros vs.
  destruct (consult_marks lin_targets double lin_targets_trigger lin_key (fun s => val (li_value s))
    (fun s => li_precision s = p /\ num (li_value s)) (fun _ => True)) with (vs := vs) (s := new_lin_targets p)
    as (bs & t & E & _ & M).
  - intros s v (Es & Ns) _. unfold lin_targets_trigger. rewrite Es, round_up_eq. cbn [bind].
    unfold lin_key. destruct (is_nan v) eqn:Ev.
    + pose proof (up_nan v Ev) as U. assert (dlt (up v) (li_value s) = false) as ->.
      { destruct (up v); try discriminate U. reflexivity. }
      exists false, s. split; [reflexivity|]. split; [split; assumption|]. split.
      * split; [intros K; discriminate K|]. intros K. pose proof (val_range (li_value s)). lra.
      * symmetry. apply Rmin_left. apply val_range.
    + assert (num (up v)) as Nu by (apply up_num; unfold num; auto).
      destruct (dlt (up v) (li_value s)) eqn:D.
      * apply dlt_val in D; auto. eexists true, _. split; [reflexivity|]. cbn [li_value li_precision].
        split; [split; auto|]. split; [split; auto|]. symmetry. apply Rmin_right. lra.
      * apply dlt_false in D; auto. exists false, s. split; [reflexivity|]. split; [split; auto|]. split.
        { split; [intros K; discriminate K|]. intros. lra. }
        symmetry. apply Rmin_left. lra.
  - split; reflexivity.
  - induction vs; auto.
  - exists bs, t. split; auto.
Qed.
End RoundUp.
