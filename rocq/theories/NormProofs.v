(** Proofs about the normalisation in binary64. *)
From Coq Require Import List ZArith Reals Lra Lia Psatz Bool.
From Flocq Require Import Core BinarySingleNaN.
From Verif Require Import CBase DblModel DblSpec DblProofs NormModel NormSpec.
Import ListNotations.
Open Scope R_scope.

Notation D := (val mo_discretization).
Notation P := (val mo_precision).
Local Notation big := (bpow radix2 1024).

(** The two constants: 5e-13 = m * 2^-93 and 1e-13 = m * 2^-96 *)
Lemma disc_fin : fin mo_discretization. Proof. vm_compute. reflexivity. Qed.
Lemma prec_fin : fin mo_precision. Proof. vm_compute. reflexivity. Qed.
Lemma one_fin : fin (dint 1). Proof. vm_compute. reflexivity. Qed.
Lemma zero_fin : fin dzero. Proof. reflexivity. Qed.
Lemma zero_val : val dzero = 0. Proof. reflexivity. Qed.
Lemma one_val : val (dint 1) = 1. Proof. apply (dint_val 1). lia. Qed.

Lemma sf_val x m e : B2SF x = SpecFloat.S754_finite false m e -> val x = IZR (Zpos m) * bpow radix2 e.
Proof.
  intros E. assert (F : fin x) by (unfold fin; destruct x; cbn [B2SF] in E; congruence || reflexivity).
  rewrite (val_fin _ F), <- (SF2R_B2SF 53 1024), E. reflexivity.
Qed.
Lemma disc_val : D = 4951760157141521 * / 9903520314283042199192993792.
Proof. rewrite (sf_val mo_discretization 4951760157141521 (-93)) by (vm_compute; reflexivity). reflexivity. Qed.
Lemma prec_val : P = 7922816251426434 * / 79228162514264337593543950336.
Proof. rewrite (sf_val mo_precision 7922816251426434 (-96)) by (vm_compute; reflexivity). reflexivity. Qed.

Lemma P_pos : 0 < P. Proof. rewrite prec_val. lra. Qed.
Lemma D_pos : 0 < D. Proof. rewrite disc_val. lra. Qed.
Lemma P_D : 4 * P < D. Proof. rewrite prec_val, disc_val. lra. Qed.

Lemma fin_eq x y : fin x -> fin y -> val x = val y -> val x <> 0 -> x = y.
Proof.
  intros F G E N. rewrite (val_fin _ F), (val_fin _ G) in E. rewrite (val_fin _ F) in N.
  apply B2R_inj; auto.
  - destruct x; try reflexivity; try discriminate F. elim N; reflexivity.
  - rewrite E in N. destruct y; try reflexivity; try discriminate G. elim N; reflexivity.
Qed.

Lemma fin_mul_l x y : fin (dmul x y) -> fin x.
Proof.
  unfold fin, dmul. destruct x as [s|s| |s m e H], y as [s'|s'| |s' m' e' H']; cbn [Bmult is_finite]; intros F; auto; discriminate F.
Qed.
Lemma fin_floor x : fin (dfloor x) -> fin x.
Proof. unfold fin, dfloor. destruct (Bnearbyint_correct 53 1024 _ mode_DN x) as (_ & G & _). now rewrite G. Qed.

Lemma clamp_fin r : - big < clamp r < big -> clamp r = r.
Proof. unfold clamp, Rmax, Rmin. repeat destruct Rle_dec; lra. Qed.

(** Multiples of 5e-13, rounded *)
Definition grid (k : Z) : R := rnd (IZR k * D).
Lemma grid_0 : grid 0 = 0.
Proof. unfold grid. rewrite Rmult_0_l. apply rnd_0. Qed.
Lemma grid_mono a b : (a <= b)%Z -> grid a <= grid b.
Proof. intros H. apply rnd_mono. apply Rmult_le_compat_r; [pose proof D_pos; lra|]. now apply IZR_le. Qed.
Lemma grid_1 : grid 1 = D.
Proof. unfold grid. rewrite Rmult_1_l. apply rnd_val, disc_fin. Qed.
Lemma one_disc : dmul (dint 2000000000000) mo_discretization = dint 1.
Proof. apply B2SF_inj. vm_compute. reflexivity. Qed.
Lemma two12 : fin (dint 2000000000000) /\ val (dint 2000000000000) = 2000000000000.
Proof. apply dint_val. vm_compute. discriminate. Qed.
Lemma grid_steps : grid 2000000000000 = 1.
Proof.
  destruct two12 as (F & V).
  pose proof (proj2 (dmul_val _ _ F disc_fin)) as W. rewrite one_disc, V in W.
  rewrite clamp_fin in W by (rewrite <- W; apply val_bound, one_fin).
  rewrite one_val in W. symmetry. exact W.
Qed.

(** Doubles from 2^9 on are multiples of 2^-43 *)
Lemma format_multiple x : generic_format radix2 (FLT_exp (-1074) 53) x -> bpow radix2 9 <= x ->
  exists m, x = IZR m * bpow radix2 (-43).
Proof.
  intros G L.
  assert (10 <= mag radix2 x)%Z as M by (apply mag_ge_bpow; rewrite Rabs_pos_eq; [exact L|pose proof (bpow_gt_0 radix2 9); lra]).
  assert (-43 <= cexp radix2 (FLT_exp (-1074) 53) x)%Z as C by (unfold cexp, FLT_exp; lia).
  rewrite G. unfold F2R. cbn [Fnum Fexp].
  set (c := cexp radix2 (FLT_exp (-1074) 53) x) in *. set (z := Ztrunc _).
  exists (z * 2 ^ (c + 43))%Z. rewrite mult_IZR. change (2 ^ (c + 43))%Z with (Zpower radix2 (c + 43)).
  rewrite IZR_Zpower by lia. rewrite Rmult_assoc, <- bpow_plus. do 2 f_equal. lia.
Qed.
Lemma rnd_format r : generic_format radix2 (FLT_exp (-1074) 53) (rnd r).
Proof. apply generic_format_round; auto with typeclass_instances. Qed.

Lemma bp10 : bpow radix2 10 = 1024. Proof. reflexivity. Qed.
Lemma bp9 : bpow radix2 9 = 512. Proof. reflexivity. Qed.
Lemma bp43 : bpow radix2 (-43) = / 8796093022208. Proof. reflexivity. Qed.
Lemma bp53 : bpow radix2 (-53) = / 9007199254740992. Proof. reflexivity. Qed.
Lemma tiny : 0 < bpow radix2 (-1075) < / 1000000000000000000000000000000000000000000000000.
Proof.
  split; [apply bpow_gt_0|]. apply Rlt_trans with (bpow radix2 (-400)); [apply bpow_lt; lia|].
  change (bpow radix2 (-400)) with (/ IZR (Zpower_pos 2 400)).
  apply Rinv_lt_contravar.
  - apply Rmult_lt_0_compat; apply IZR_lt; reflexivity.
  - apply IZR_lt. reflexivity.
Qed.

Lemma rnd_int_512 : rnd 512 = 512. Proof. apply (rnd_int 512). lia. Qed.
Lemma rnd_int_1024 : rnd 1024 = 1024. Proof. apply (rnd_int 1024). lia. Qed.

Lemma grid_apart a b : (0 <= a)%Z -> (a < b)%Z -> grid a = grid b \/ grid a + P < grid b.
Proof.
  intros A0 AB.
  assert (IZR a + 1 <= IZR b) as I by (rewrite <- (plus_IZR a 1); apply IZR_le; lia).
  pose proof (IZR_le 0 a A0) as I0. cbn in I0.
  pose proof D_pos as DP. pose proof P_D as PD. pose proof P_pos as PP.
  assert (0 <= IZR a * D) as XA by (apply Rmult_le_pos; lra).
  assert (IZR a * D + D <= IZR b * D) as XB by nra.
  destruct (Rle_dec (IZR b * D) 1024) as [L|L].
  - right. unfold grid. pose proof (rnd_err (IZR a * D)) as EA. pose proof (rnd_err (IZR b * D)) as EB.
    rewrite Rabs_pos_eq with (x := IZR a * D) in EA by lra. rewrite Rabs_pos_eq with (x := IZR b * D) in EB by lra.
    rewrite bp53 in EA, EB. pose proof tiny as T.
    assert (D > 49/100000000000000) by (rewrite disc_val; lra). assert (P < 101/1000000000000000) by (rewrite prec_val; lra).
    apply Rabs_le_inv in EA, EB. lra.
  - apply Rnot_le_lt in L.
    assert (1024 <= grid b) as GB by (unfold grid; rewrite <- rnd_int_1024; apply rnd_mono; lra).
    assert (P < 1) as P1 by (rewrite prec_val; lra).
    destruct (Rle_dec (IZR a * D) 512) as [K|K].
    + right. assert (grid a <= 512) by (unfold grid; rewrite <- rnd_int_512; apply rnd_mono; lra). lra.
    + apply Rnot_le_lt in K. assert (512 <= grid a) as GA by (unfold grid; rewrite <- rnd_int_512; apply rnd_mono; lra).
      destruct (format_multiple (grid a) (rnd_format _)) as (m & M); [rewrite bp9; lra|].
      destruct (format_multiple (grid b) (rnd_format _)) as (n & N); [rewrite bp9; lra|].
      pose proof (grid_mono a b ltac:(lia)) as G. rewrite M, N in *. rewrite bp43 in *.
      destruct (Z.eq_dec m n) as [->|NE]; [left; reflexivity|right].
      assert (m < n)%Z as MN. { apply Z.nle_gt. intros Q. apply IZR_le in Q. apply NE. apply eq_IZR. lra. }
      assert (IZR m + 1 <= IZR n) by (rewrite <- (plus_IZR m 1); apply IZR_le; lia).
      assert (P < / 8796093022208) by (rewrite prec_val; lra). lra.
Qed.

(** Below 1000 all steps are different *)
Lemma grid_strict a b : (0 <= a)%Z -> (a < b)%Z -> (b <= 2000000000000000)%Z -> grid a + P < grid b.
Proof.
  intros A0 AB B.
  assert (IZR a + 1 <= IZR b) as I by (rewrite <- (plus_IZR a 1); apply IZR_le; lia).
  pose proof (IZR_le 0 a A0) as I0. cbn in I0. apply IZR_le in B.
  pose proof D_pos as DP.
  assert (0 <= IZR a * D) as XA by (apply Rmult_le_pos; lra).
  assert (IZR a * D + D <= IZR b * D) as XB by nra.
  assert (IZR b * D <= 1024).
  { apply Rle_trans with (2000000000000000 * D); [apply Rmult_le_compat_r; lra|]. rewrite disc_val. lra. }
  unfold grid. pose proof (rnd_err (IZR a * D)) as EA. pose proof (rnd_err (IZR b * D)) as EB.
  rewrite Rabs_pos_eq with (x := IZR a * D) in EA by lra. rewrite Rabs_pos_eq with (x := IZR b * D) in EB by lra.
  rewrite bp53 in EA, EB. pose proof tiny as T.
  assert (D > 49/100000000000000) by (rewrite disc_val; lra). assert (P < 101/1000000000000000) by (rewrite prec_val; lra).
  apply Rabs_le_inv in EA, EB. lra.
Qed.

(** A double on the grid *)
Definition on_grid (v : double) : Prop := fin v /\ exists k, (0 <= k)%Z /\ val v = grid k.

Lemma zero_grid : on_grid dzero.
Proof. split; [reflexivity|]. exists 0%Z. split; [lia|]. now rewrite grid_0. Qed.
Lemma one_grid : on_grid (dint 1).
Proof. split; [exact one_fin|]. exists 2000000000000%Z. split; [lia|]. now rewrite grid_steps, one_val. Qed.

Lemma grid_sep u v : on_grid u -> on_grid v -> val u = val v \/ val u + P < val v \/ val v + P < val u.
Proof.
  intros (_ & a & A & ->) (_ & b & B & ->). destruct (Z.lt_trichotomy a b) as [L|[->|L]]; auto.
  - destruct (grid_apart a b A L); auto.
  - destruct (grid_apart b a B L); auto.
Qed.

Lemma almost_equal_sep u v : fin u -> fin v -> (val u = val v \/ val u + P < val v \/ val v + P < val u) ->
  coco_double_almost_equal u v mo_precision = true <-> val u = val v.
Proof.
  intros F G S. unfold coco_double_almost_equal.
  destruct (dsub_val u v F G) as (N & V). rewrite dlt_val; [|now apply dabs_num|apply fin_num, prec_fin].
  rewrite dabs_val, V. pose proof P_pos as PP. pose proof (val_bound _ prec_fin) as PB. pose proof big_pos as BP.
  assert (forall r, P <= r -> P <= clamp (rnd r)) as UP.
  { intros r H. rewrite <- (clamp_id P) by (rewrite Rabs_pos_eq; lra). apply clamp_mono.
    rewrite <- (rnd_val _ prec_fin). now apply rnd_mono. }
  split.
  - intros H. destruct S as [E|[E|E]]; auto; exfalso.
    + assert (P <= clamp (rnd (val v - val u))) as U by (apply UP; lra).
      replace (val u - val v) with (- (val v - val u)) in H by ring.
      rewrite rnd_opp, clamp_opp, Rabs_Ropp, Rabs_pos_eq in H; lra.
    + assert (P <= clamp (rnd (val u - val v))) as U by (apply UP; lra).
      rewrite Rabs_pos_eq in H; lra.
  - intros E. rewrite E, Rminus_diag_eq by reflexivity. rewrite rnd_0, clamp_id, Rabs_R0 by (rewrite Rabs_R0; lra). lra.
Qed.
Lemma almost_equal_grid u v : on_grid u -> on_grid v -> (coco_double_almost_equal u v mo_precision = true <-> val u = val v).
Proof. intros A B. apply almost_equal_sep; [apply A|apply B|now apply grid_sep]. Qed.
Lemma almost_equal_grid_false u v : on_grid u -> on_grid v -> (coco_double_almost_equal u v mo_precision = false <-> val u <> val v).
Proof. intros A B. pose proof (almost_equal_grid u v A B) as E. destruct (coco_double_almost_equal u v mo_precision); split; intros H; auto; try discriminate H; try tauto. intros X. apply E in X. discriminate X. Qed.

(** What is computed for one objective *)
Lemma round_step s r : coco_double_round s = r -> fin r -> exists k, val r = IZR k.
Proof.
  intros <- F. unfold coco_double_round in *. apply fin_floor in F. destruct (dfloor_fin _ F) as (_ & V). eauto.
Qed.

Lemma normalize_value_grid y i n v : normalize_value y i n = Ok v -> fin v -> on_grid v.
Proof.
  unfold normalize_value. destruct (dlt mo_discretization (dsub n i)); [|discriminate]. cbv zeta.
  set (r := step_number y i n). intros E F. assert (fin (dmul r mo_discretization) -> dlt (dmul r mo_discretization) dzero = false -> on_grid (dmul r mo_discretization)) as K.
  { intros G N. assert (fin r) as FR by (now apply fin_mul_l in G).
    destruct (round_step _ r eq_refl FR) as (k & V). destruct (dmul_val r _ FR disc_fin) as (_ & W).
    rewrite clamp_fin in W by (rewrite <- W; now apply val_bound). rewrite V in W.
    split; [exact G|]. exists k. split; [|exact W].
    apply dlt_false in N; [|now apply fin_num|reflexivity]. rewrite zero_val, W in N.
    apply Z.nlt_ge. intros L. pose proof (grid_mono k (-1) ltac:(lia)) as M.
    assert (grid (-1) = - D) as X. { rewrite <- grid_1. unfold grid. rewrite <- rnd_opp. f_equal. lra. }
    unfold grid in M at 1. pose proof D_pos. lra. }
  destruct (dlt (dmul r mo_discretization) dzero) eqn:N.
  - assert (dzero = v) as <- by congruence. exact zero_grid.
  - assert (dmul r mo_discretization = v) as <- by congruence. auto.
Qed.

Lemma mo_normalize_inv y i n p : mo_normalize y i n = Ok p -> exists a b,
  normalize_value (fst y) (fst i) (fst n) = Ok a /\ normalize_value (snd y) (snd i) (snd n) = Ok b /\
  let b' := if coco_double_almost_equal a dzero mo_precision && dlt b (dint 1) then dint 1 else b in
  snd p = b' /\ fst p = if coco_double_almost_equal b' dzero mo_precision && dlt a (dint 1) then dint 1 else a.
Proof.
  unfold mo_normalize. destruct (normalize_value (fst y) _ _) as [a| |] eqn:A; [|discriminate..]. cbn [bind].
  destruct (normalize_value (snd y) _ _) as [b| |] eqn:B; [|discriminate..]. cbn [bind].
  intros H. exists a, b. split; [reflexivity|]. split; [reflexivity|]. cbv zeta. 
  assert (forall X Y : double, Ok (X, Y) = Ok p -> snd p = Y /\ fst p = X) as Q by (intros X Y Z; assert ((X, Y) = p) as <- by congruence; auto).
  apply Q, H.
Qed.

Lemma dlt_one_fin y i n b : normalize_value y i n = Ok b -> dlt b (dint 1) = true -> fin b.
Proof.
  unfold normalize_value. destruct (dlt mo_discretization (dsub n i)); [|discriminate]. cbv zeta. intros E L.
  destruct (dlt_num _ _ L) as (N & _).
  apply dlt_val in L; [|exact N|apply fin_num, one_fin]. rewrite one_val in L.
  apply fin_val; auto. pose proof big_53. pose proof big_pos.
  assert (0 <= val b).
  { destruct (dlt (dmul (step_number y i n) mo_discretization) dzero) eqn:Q.
    - assert (dzero = b) as <- by congruence. rewrite zero_val. lra.
    - assert (dmul (step_number y i n) mo_discretization = b) as X by congruence. rewrite X in Q.
      apply dlt_false in Q; [|exact N|reflexivity]. now rewrite zero_val in Q. }
  assert (1 < IZR (2 ^ 53)) by (apply IZR_lt; lia). lra.
Qed.

(** Both components of a finite normalised vector are on the grid, and neither value is 0 unless the other is at least 1 *)
Lemma normalised_grid p : normalised p -> on_grid (fst p) /\ on_grid (snd p) /\
  (val (fst p) = 0 -> 1 <= val (snd p)) /\ (val (snd p) = 0 -> 1 <= val (fst p)).
Proof.
  intros (F0 & F1 & y & i & n & H). destruct (mo_normalize_inv _ _ _ _ H) as (a & b & A & B & E1 & E0).
  cbv zeta in E1, E0. rewrite <- E1 in E0.
  assert (fin b) as FB.
  { destruct (coco_double_almost_equal a dzero mo_precision && dlt b (dint 1)) eqn:Q; [|now rewrite <- E1].
    apply andb_true_iff in Q. eapply dlt_one_fin; [exact B|apply Q]. }
  assert (fin a) as FA.
  { destruct (coco_double_almost_equal (snd p) dzero mo_precision && dlt a (dint 1)) eqn:Q; [|now rewrite <- E0].
    apply andb_true_iff in Q. eapply dlt_one_fin; [exact A|apply Q]. }
  pose proof (normalize_value_grid _ _ _ _ A FA) as GA. pose proof (normalize_value_grid _ _ _ _ B FB) as GB.
  assert (on_grid (snd p)) as G1 by (rewrite E1; destruct (coco_double_almost_equal a dzero mo_precision && dlt b (dint 1)); [exact one_grid|exact GB]).
  assert (on_grid (fst p)) as G0 by (rewrite E0; destruct (coco_double_almost_equal (snd p) dzero mo_precision && dlt a (dint 1)); [exact one_grid|exact GA]).
  split; [exact G0|]. split; [exact G1|].
  assert (num a) as NA by now apply fin_num. assert (num b) as NB by now apply fin_num.
  assert (num (dint 1)) as N1 by (apply fin_num, one_fin).
  split; intros Z.
  - assert (fst p = a) as E0'.
    { destruct (coco_double_almost_equal (snd p) dzero mo_precision && dlt a (dint 1)); [|exact E0]. rewrite E0, one_val in Z. lra. }
    rewrite E0' in Z. rewrite (proj2 (almost_equal_grid a dzero GA zero_grid)) in E1 by (now rewrite zero_val).
    cbn [andb] in E1. rewrite E1. destruct (dlt b (dint 1)) eqn:L; [rewrite one_val; lra|].
    apply dlt_false in L; auto. now rewrite one_val in L.
  - rewrite (proj2 (almost_equal_grid (snd p) dzero G1 zero_grid)) in E0 by (now rewrite zero_val).
    cbn [andb] in E0. rewrite E0. destruct (dlt a (dint 1)) eqn:L; [rewrite one_val; lra|].
    apply dlt_false in L; auto. now rewrite one_val in L.
Qed.

Lemma grid_nonneg v : on_grid v -> 0 <= val v.
Proof. intros (_ & k & K & ->). rewrite <- grid_0. now apply grid_mono. Qed.

(** ** The comparisons *)
Lemma compare_grid p q : on_grid (snd p) -> on_grid (snd q) ->
  (compare_last p q = 0%Z <-> val (snd p) = val (snd q)) /\ (compare_last p q = (-1)%Z <-> val (snd p) < val (snd q)) /\
  (compare_last p q = 1%Z <-> val (snd q) < val (snd p)).
Proof.
  intros A B. unfold compare_last.
  assert (num (snd p)) by (apply fin_num, A). assert (num (snd q)) by (apply fin_num, B).
  destruct (coco_double_almost_equal (snd p) (snd q) mo_precision) eqn:E.
  - apply almost_equal_grid in E; auto. split; [tauto|]. split; split; intros X; try discriminate X; lra.
  - apply almost_equal_grid_false in E; auto. destruct (dlt (snd p) (snd q)) eqn:L.
    + apply dlt_val in L; auto. split; [|split]; split; intros X; try discriminate X; try lra; auto.
    + apply dlt_false in L; auto. split; [|split]; split; intros X; try discriminate X; try lra; auto.
Qed.

Lemma flag_grid u v : on_grid u -> on_grid v -> forall f g l l',
  dominance_flags (u :: l) (v :: l') f g = dominance_flags l l' (if Rlt_dec (val u) (val v) then true else f) (if Rlt_dec (val v) (val u) then true else g).
Proof.
  intros A B f g l l'. cbn [dominance_flags]. assert (num u) by (apply fin_num, A). assert (num v) by (apply fin_num, B).
  destruct (coco_double_almost_equal u v mo_precision) eqn:E.
  - apply almost_equal_grid in E; auto. destruct (Rlt_dec (val u) (val v)); [lra|]. destruct (Rlt_dec (val v) (val u)); [lra|]. reflexivity.
  - apply almost_equal_grid_false in E; auto. destruct (dlt u v) eqn:L.
    + apply dlt_val in L; auto. destruct (Rlt_dec (val u) (val v)); [|lra]. destruct (Rlt_dec (val v) (val u)); [lra|]. reflexivity.
    + apply dlt_false in L; auto. destruct (Rlt_dec (val u) (val v)); [lra|]. destruct (dlt v u) eqn:M.
      * apply dlt_val in M; auto. destruct (Rlt_dec (val v) (val u)); [|lra]. reflexivity.
      * apply dlt_false in M; auto. destruct (Rlt_dec (val v) (val u)); [lra|]. reflexivity.
Qed.
Lemma dominance_grid p q : on_grid (fst p) -> on_grid (snd p) -> on_grid (fst q) -> on_grid (snd q) ->
  (mo_get_dominance (vec p) (vec q) = 1%Z <-> pareto p q) /\ (mo_get_dominance (vec p) (vec q) = (-1)%Z <-> pareto q p) /\
  (mo_get_dominance (vec p) (vec q) = (-2)%Z <-> same p q) /\
  (mo_get_dominance (vec p) (vec q) = 0%Z <-> ~ pareto p q /\ ~ pareto q p /\ ~ same p q).
Proof.
  intros A B C E. unfold mo_get_dominance, vec, pareto, same. rewrite !flag_grid by assumption. cbn [dominance_flags].
  destruct (Rlt_dec (val (fst p)) (val (fst q))); destruct (Rlt_dec (val (fst q)) (val (fst p)));
  destruct (Rlt_dec (val (snd p)) (val (snd q))); destruct (Rlt_dec (val (snd q)) (val (snd p)));
  try (exfalso; lra);
  (split; [|split; [|split]]; split; intros X; try discriminate X; try reflexivity; lra).
Qed.

Lemma within_grid v : on_grid v -> (value_within v = true <-> val v <= 1).
Proof.
  intros G. pose proof (grid_nonneg v G) as N. assert (num v) by (apply fin_num, G).
  assert (num (dint 1)) by (apply fin_num, one_fin). assert (num dzero) by reflexivity.
  unfold value_within. rewrite !orb_true_iff, andb_true_iff, (almost_equal_grid v dzero G zero_grid), (almost_equal_grid v (dint 1) G one_grid).
  rewrite !dlt_val, zero_val, one_val by assumption. lra.
Qed.
