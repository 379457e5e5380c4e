(** The value computed for one objective: extremes, monotonicity, accuracy; the link with the integers of MoModel.v. *)
From Coq Require Import List ZArith Reals Lra Lia Psatz Bool.
From Flocq Require Import Core BinarySingleNaN.
From Verif Require Import CBase DblModel DblSpec DblProofs MoModel NormModel NormSpec NormProofs.
Import ListNotations.
Open Scope R_scope.
Local Notation big := (bpow radix2 1024).

(** ** The extremes *)
Lemma ranged_ok i n : ranged1 i n -> dlt mo_discretization (dsub n i) = true.
Proof. intros (_ & _ & F & L). apply dlt_val; auto using fin_num, disc_fin. Qed.

Lemma round_zero s : coco_double_round (ddiv (B754_zero s) mo_discretization) = dzero.
Proof. destruct s; apply B2SF_inj; vm_compute; reflexivity. Qed.
Lemma zero_disc : dmul dzero mo_discretization = dzero.
Proof. apply B2SF_inj; vm_compute; reflexivity. Qed.
Lemma round_one : coco_double_round (ddiv (dint 1) mo_discretization) = dint 2000000000000.
Proof. apply B2SF_inj; vm_compute; reflexivity. Qed.

Lemma zero_double x : fin x -> val x = 0 -> exists s, x = B754_zero s.
Proof.
  intros F V. rewrite (val_fin _ F) in V. destruct x as [s|s| |s m e H]; try discriminate F; eauto.
  exfalso. cbn [B2R] in V. apply eq_0_F2R in V. destruct s; discriminate V.
Qed.
Lemma normalize_ideal i n : ranged1 i n -> normalize_value i i n = Ok dzero.
Proof.
  intros R. pose proof (ranged_ok i n R) as O. unfold normalize_value. rewrite O.
  destruct R as (FI & FN & FB & L). cbv zeta. unfold step_number.
  destruct (dsub_val i i FI FI) as (N & V). rewrite Rminus_diag_eq, rnd_0, clamp_id in V; [|rewrite Rabs_R0; apply bpow_ge_0|reflexivity].
  assert (fin (dsub i i)) as F by (apply fin_val; [exact N|]; rewrite V; pose proof big_pos; lra).
  destruct (zero_double _ F V) as (s & ->).
  pose proof D_pos as DP. assert (val (dsub n i) <> 0) as NZ by lra.
  assert (exists s', ddiv (B754_zero s) (dsub n i) = B754_zero s') as (s' & ->).
  { destruct (dsub n i) as [t|t| |t m e H]; try discriminate FB; [elim NZ; reflexivity|]. unfold ddiv. cbn [Bdiv]. eauto. }
  rewrite round_zero, zero_disc. reflexivity.
Qed.
Lemma normalize_nadir i n : ranged1 i n -> normalize_value n i n = Ok (dint 1).
Proof.
  intros R. pose proof (ranged_ok i n R) as O. unfold normalize_value. rewrite O.
  destruct R as (FI & FN & FB & L). cbv zeta. unfold step_number.
  pose proof D_pos as DP. assert (val (dsub n i) <> 0) as NZ by lra.
  destruct (ddiv_val (dsub n i) (dsub n i) FB NZ FB) as (N & V).
  replace (val (dsub n i) / val (dsub n i)) with (val (dint 1)) in V by (rewrite one_val; field; exact NZ).
  rewrite (rnd_val _ one_fin), clamp_id in V by (pose proof (val_bound _ one_fin); apply Rabs_le; lra).
  assert (fin (ddiv (dsub n i) (dsub n i))) as F by (apply fin_val; [exact N|]; rewrite V; apply val_bound, one_fin).
  rewrite (fin_eq _ (dint 1) F one_fin V) by (rewrite V, one_val; lra).
  rewrite round_one, one_disc.
  assert (dlt (dint 1) dzero = false) as -> by (vm_compute; reflexivity). reflexivity.
Qed.

Lemma extreme_0 ideal nadir : ranged ideal nadir -> mo_normalize (fst ideal, snd nadir) ideal nadir = Ok (dzero, dint 1).
Proof.
  intros (R0 & R1). unfold mo_normalize. cbn [fst snd]. rewrite (normalize_ideal _ _ R0), (normalize_nadir _ _ R1). cbn [bind].
  assert (coco_double_almost_equal dzero dzero mo_precision && dlt (dint 1) (dint 1) = false) as -> by (vm_compute; reflexivity).
  assert (coco_double_almost_equal (dint 1) dzero mo_precision && dlt dzero (dint 1) = false) as -> by (vm_compute; reflexivity).
  reflexivity.
Qed.
Lemma extreme_1 ideal nadir : ranged ideal nadir -> mo_normalize (fst nadir, snd ideal) ideal nadir = Ok (dint 1, dzero).
Proof.
  intros (R0 & R1). unfold mo_normalize. cbn [fst snd]. rewrite (normalize_nadir _ _ R0), (normalize_ideal _ _ R1). cbn [bind].
  assert (coco_double_almost_equal (dint 1) dzero mo_precision && dlt dzero (dint 1) = false) as -> by (vm_compute; reflexivity).
  assert (coco_double_almost_equal dzero dzero mo_precision && dlt (dint 1) (dint 1) = false) as -> by (vm_compute; reflexivity).
  reflexivity.
Qed.

(** ** Monotonicity *)
Definition mono_op (f : double -> double) : Prop :=
  (forall x, num x -> num (f x)) /\ (forall x y, num x -> num y -> val x <= val y -> val (f x) <= val (f y)).
Lemma num_cases x : num x -> fin x \/ x = dinf \/ x = dopp dinf.
Proof. destruct x as [s|[]| |s m e H]; intros N; auto; try (left; reflexivity); try discriminate N. Qed.
Lemma inf_val_pos : val dinf = big. Proof. reflexivity. Qed.
Lemma inf_val_neg : val (dopp dinf) = - big. Proof. reflexivity. Qed.
Lemma mk_mono f : f dinf = dinf -> f (dopp dinf) = dopp dinf -> (forall x, fin x -> num (f x)) ->
  (forall x y, fin x -> fin y -> val x <= val y -> val (f x) <= val (f y)) -> mono_op f.
Proof.
  intros P N F M. split.
  - intros x X. destruct (num_cases x X) as [A|[->| ->]]; auto; [rewrite P; reflexivity|rewrite N; reflexivity].
  - intros x y X Y L. pose proof big_pos as BP. destruct (num_cases x X) as [A|[->| ->]].
    + destruct (num_cases y Y) as [B|[->| ->]]; auto.
      * rewrite P, inf_val_pos. apply val_range.
      * exfalso. pose proof (val_bound x A). rewrite inf_val_neg in L. lra.
    + destruct (num_cases y Y) as [B|[->| ->]]; [|lra|].
      * exfalso. pose proof (val_bound y B). rewrite inf_val_pos in L. lra.
      * exfalso. rewrite inf_val_pos, inf_val_neg in L. lra.
    + rewrite N, inf_val_neg. apply val_range.
Qed.
Lemma mono_sub c : fin c -> mono_op (fun x => dsub x c).
Proof.
  intros F. apply mk_mono.
  - destruct c as [s|s| |s m e H]; try discriminate F; reflexivity.
  - destruct c as [s|s| |s m e H]; try discriminate F; reflexivity.
  - intros x X. apply (dsub_val x c X F).
  - intros x y X Y L. rewrite (proj2 (dsub_val x c X F)), (proj2 (dsub_val y c Y F)). apply clamp_mono, rnd_mono. lra.
Qed.
Lemma mono_add c : fin c -> mono_op (fun x => dadd x c).
Proof.
  intros F. apply mk_mono.
  - destruct c as [s|s| |s m e H]; try discriminate F; reflexivity.
  - destruct c as [s|s| |s m e H]; try discriminate F; reflexivity.
  - intros x X. apply (dadd_val x c X F).
  - intros x y X Y L. rewrite (proj2 (dadd_val x c X F)), (proj2 (dadd_val y c Y F)). apply clamp_mono, rnd_mono. lra.
Qed.
Lemma pos_double c : fin c -> 0 < val c -> exists m e H, c = B754_finite false m e H.
Proof.
  intros F L. rewrite (val_fin _ F) in L. destruct c as [s|s| |[] m e H]; try discriminate F; eauto.
  - cbn in L. lra.
  - exfalso. cbn [B2R cond_Zopp] in L. assert (F2R (Float radix2 (Z.neg m) e) < 0) by (now apply F2R_lt_0). cbn in *. lra.
Qed.
Lemma mono_div c : fin c -> 0 < val c -> mono_op (fun x => ddiv x c).
Proof.
  intros F L. destruct (pos_double c F L) as (m & e & H & E). apply mk_mono.
  - rewrite E. reflexivity.
  - rewrite E. reflexivity.
  - intros x X. apply (ddiv_val x c X); [lra|exact F].
  - intros x y X Y K. assert (val c <> 0) as NZ by lra.
    rewrite (proj2 (ddiv_val x c X NZ F)), (proj2 (ddiv_val y c Y NZ F)). apply clamp_mono, rnd_mono.
    apply Rmult_le_compat_r; [|exact K]. left. now apply Rinv_0_lt_compat.
Qed.
Lemma mono_mul c : fin c -> 0 < val c -> mono_op (fun x => dmul x c).
Proof.
  intros F L. destruct (pos_double c F L) as (m & e & H & E). apply mk_mono.
  - rewrite E. reflexivity.
  - rewrite E. reflexivity.
  - intros x X. apply (dmul_val x c X F).
  - intros x y X Y K. rewrite (proj2 (dmul_val x c X F)), (proj2 (dmul_val y c Y F)). apply clamp_mono, rnd_mono.
    apply Rmult_le_compat_r; [|exact K]. lra.
Qed.
Lemma mono_floor : mono_op dfloor.
Proof.
  apply mk_mono; [reflexivity..| |].
  - intros x X. apply fin_num, (dfloor_fin x X).
  - intros x y X Y L. rewrite (proj2 (dfloor_fin x X)), (proj2 (dfloor_fin y Y)). apply IZR_le. now apply Zfloor_le.
Qed.
Lemma half_fin : fin (ddec 5 1). Proof. vm_compute. reflexivity. Qed.
Lemma mono_comp f g : mono_op f -> mono_op g -> mono_op (fun x => g (f x)).
Proof. intros (A & B) (C & E). split; auto. Qed.
Lemma mono_pre i n : ranged1 i n -> mono_op (fun y => dmul (step_number y i n) mo_discretization).
Proof.
  intros (FI & FN & FB & L). pose proof D_pos as DP. unfold step_number, coco_double_round.
  apply (mono_comp (fun y => dfloor (dadd (ddiv (ddiv (dsub y i) (dsub n i)) mo_discretization) (ddec 5 1))) (fun x => dmul x mo_discretization)); [|apply mono_mul; [exact disc_fin|lra]].
  apply (mono_comp (fun y => dadd (ddiv (ddiv (dsub y i) (dsub n i)) mo_discretization) (ddec 5 1)) dfloor); [|exact mono_floor].
  apply (mono_comp (fun y => ddiv (ddiv (dsub y i) (dsub n i)) mo_discretization) (fun x => dadd x (ddec 5 1))); [|apply mono_add, half_fin].
  apply (mono_comp (fun y => ddiv (dsub y i) (dsub n i)) (fun x => ddiv x mo_discretization)); [|apply mono_div; [exact disc_fin|lra]].
  apply (mono_comp (fun y => dsub y i) (fun x => ddiv x (dsub n i))); [|apply mono_div; [exact FB|lra]].
  now apply mono_sub.
Qed.

Lemma normalize_value_max y i n : ranged1 i n -> num y -> exists v, normalize_value y i n = Ok v /\ num v /\
  val v = Rmax 0 (val (dmul (step_number y i n) mo_discretization)).
Proof.
  intros R N. unfold normalize_value. rewrite (ranged_ok i n R). cbv zeta. destruct (mono_pre i n R) as (M & _). specialize (M y N). cbn beta in M.
  destruct (dlt (dmul (step_number y i n) mo_discretization) dzero) eqn:E.
  - exists dzero. split; [reflexivity|]. split; [reflexivity|]. apply dlt_val in E; [|exact M|reflexivity]. rewrite zero_val in *. rewrite Rmax_left; lra.
  - eexists. split; [reflexivity|]. split; [exact M|]. apply dlt_false in E; [|exact M|reflexivity]. rewrite zero_val in E. now rewrite Rmax_right by lra.
Qed.
Lemma normalize_value_mono y y' i n v v' : ranged1 i n -> num y -> num y' -> val y <= val y' ->
  normalize_value y i n = Ok v -> normalize_value y' i n = Ok v' -> val v <= val v'.
Proof.
  intros R N N' L E E'. destruct (normalize_value_max y i n R N) as (w & W & _ & V). destruct (normalize_value_max y' i n R N') as (w' & W' & _ & V').
  assert (w = v) as <- by congruence. assert (w' = v') as <- by congruence. rewrite V, V'.
  apply Rle_max_compat_l. now apply (proj2 (mono_pre i n R)).
Qed.

(** A vector is normalised for all reference points that differ enough *)
Lemma normalize_defined y i n : ranged i n -> num (fst y) -> num (snd y) -> exists p, mo_normalize y i n = Ok p /\ num (fst p) /\ num (snd p) /\ 0 <= val (fst p) /\ 0 <= val (snd p).
Proof.
  intros (R0 & R1) N0 N1. destruct (normalize_value_max _ _ _ R0 N0) as (a & A & NA & VA). destruct (normalize_value_max _ _ _ R1 N1) as (b & B & NB & VB).
  unfold mo_normalize. rewrite A, B. cbn [bind]. eexists. split; [reflexivity|]. cbn [fst snd].
  assert (num (dint 1)) as X by (apply fin_num, one_fin).
  assert (0 <= val a) by (rewrite VA; apply Rmax_l). assert (0 <= val b) by (rewrite VB; apply Rmax_l). pose proof one_val.
  set (b' := if _ && dlt b (dint 1) then dint 1 else b).
  assert (num b' /\ 0 <= val b') as (Q1 & Q2) by (unfold b'; destruct (_ && dlt b (dint 1)); split; auto; lra).
  destruct (_ && dlt a (dint 1)); split; auto; split; auto; split; auto; lra.
Qed.

(** When both results are positive nothing was corrected *)
Lemma positive_plain y i n p : mo_normalize y i n = Ok p -> fin (fst p) -> fin (snd p) -> 0 < val (fst p) -> 0 < val (snd p) ->
  normalize_value (fst y) (fst i) (fst n) = Ok (fst p) /\ normalize_value (snd y) (snd i) (snd n) = Ok (snd p).
Proof.
  intros H F0 F1 P0 P1. assert (normalised p) as NP by (split; auto; split; auto; eauto).
  destruct (normalised_grid p NP) as (G0 & G1 & _). destruct (mo_normalize_inv _ _ _ _ H) as (a & b & A & B & E1 & E0).
  cbv zeta in E1, E0. rewrite <- E1 in E0.
  assert (coco_double_almost_equal (snd p) dzero mo_precision = false) as Q.
  { apply almost_equal_grid_false; auto using zero_grid. rewrite zero_val. lra. }
  rewrite Q in E0. cbn [andb] in E0. subst a.
  assert (coco_double_almost_equal (fst p) dzero mo_precision = false) as Q0.
  { apply almost_equal_grid_false; auto using zero_grid. rewrite zero_val. lra. }
  rewrite Q0 in E1. cbn [andb] in E1. subst b. auto.
Qed.
Lemma normalize_mono y y' i n p p' : ranged i n -> num (fst y) -> num (snd y) -> num (fst y') -> num (snd y') ->
  val (fst y) <= val (fst y') -> val (snd y) <= val (snd y') -> mo_normalize y i n = Ok p -> mo_normalize y' i n = Ok p' ->
  fin (fst p) -> fin (snd p) -> fin (fst p') -> fin (snd p') -> 0 < val (fst p) -> 0 < val (snd p) ->
  val (fst p) <= val (fst p') /\ val (snd p) <= val (snd p').
Proof.
  intros (R0 & R1) N0 N1 N0' N1' L0 L1 E E' F0 F1 F0' F1' P0 P1.
  destruct (positive_plain _ _ _ _ E F0 F1 P0 P1) as (A & B).
  destruct (mo_normalize_inv _ _ _ _ E') as (a & b & A' & B' & E1 & E0). cbv zeta in E1, E0. rewrite <- E1 in E0.
  pose proof (normalize_value_mono _ _ _ _ _ _ R0 N0 N0' L0 A A') as M0. pose proof (normalize_value_mono _ _ _ _ _ _ R1 N1 N1' L1 B B') as M1.
  assert (num a /\ num b) as (NA & NB).
  { destruct (normalize_value_max _ _ _ R0 N0') as (w & W & X & _). destruct (normalize_value_max _ _ _ R1 N1') as (w' & W' & X' & _). split; congruence. }
  assert (num (dint 1)) as X by (apply fin_num, one_fin).
  assert (val b <= val (snd p')) as U1.
  { rewrite E1. destruct (_ && _) eqn:Q; [|lra]. apply andb_true_iff in Q. apply proj2, dlt_val in Q; auto. lra. }
  assert (val a <= val (fst p')) as U0.
  { rewrite E0. destruct (coco_double_almost_equal (snd p') dzero mo_precision && dlt a (dint 1)) eqn:Q; [|lra]. apply andb_true_iff in Q. apply proj2, dlt_val in Q; auto. lra. }
  lra.
Qed.
