(** Proofs about the constraint digit and about double to int conversion. *)
From Coq Require Import List Arith NArith ZArith Bool Lia Reals Lra.
From Flocq Require Import Core BinarySingleNaN.
Import ListNotations.
From Verif Require Import CBase OptModel DblModel DblSpec DblProofs TrigModel TrigSpec TrigProofs.
Open Scope R_scope.

Lemma ddec_inv : forall e, (0 <= e <= 15)%Z -> num (ddec 1 e) /\ val (ddec 1 e) = rnd (/ IZR (10 ^ e)).
Proof.
  intros e He. pose proof (Z.pow_le_mono_r 10 e 15 ltac:(lia) ltac:(lia)) as B.
  pose proof (Z.pow_pos_nonneg 10 e ltac:(lia) ltac:(lia)) as P.
  assert (Z.abs (10 ^ e) <= 2 ^ 53)%Z as B2 by (rewrite Z.abs_eq by lia; eapply Z.le_trans; [exact B|]; vm_compute; discriminate).
  destruct (dint_val 1 ltac:(lia)) as (F1 & V1). destruct (dint_val (10 ^ e) B2) as (Fe & Ve).
  apply IZR_lt in P. destruct (ddiv_val (dint 1) (dint (10 ^ e)) F1 ltac:(rewrite Ve; lra) Fe) as (N & V).
  fold (ddec 1 e) in N, V. rewrite V1, Ve in V. split; auto. rewrite V.
  replace (1 / IZR (10 ^ e)) with (/ IZR (10 ^ e)) by (field; lra). apply clamp_id.
  assert (1 <= IZR (10 ^ e)) as L by (apply IZR_le; lia).
  assert (0 < / IZR (10 ^ e) <= 1) as (A1 & A2).
  { split; [apply Rinv_0_lt_compat; lra|]. rewrite <- Rinv_1. apply Rinv_le; lra. }
  assert (rnd (/ IZR (10 ^ e)) <= rnd 1) as M by (apply rnd_mono; lra).
  assert (0 <= rnd (/ IZR (10 ^ e))) as M0 by (rewrite <- rnd_0; apply rnd_mono; lra).
  rewrite (rnd_int 1) in M by lia. rewrite Rabs_pos_eq by auto.
  apply Rle_trans with (bpow radix2 0); [simpl; lra|]. apply bpow_le. lia.
Qed.

Lemma limits_val : forall i, (0 <= i <= 8)%Z -> exists l, nth_error digit_limits (Z.to_nat i) = Some l /\
  num l /\ val l = digit_limit i.
Proof.
  intros i Hi.
  assert (i = 0 \/ i = 1 \/ i = 2 \/ i = 3 \/ i = 4 \/ i = 5 \/ i = 6 \/ i = 7 \/ i = 8)%Z as C by lia.
  destruct C as [->|[->|[->|[->|[->|[->|[->|[->| ->]]]]]]]].
  1: exists dzero; split; [reflexivity|]; split; reflexivity.
  8:{ exists (dint 1). split; [reflexivity|]. destruct (dint_val 1 ltac:(lia)) as (F & V). split; [now apply fin_num|].
      rewrite V. unfold digit_limit. cbn [Z.eqb]. change (10 ^ (8 - 8))%Z with 1%Z. rewrite Rinv_1. symmetry. apply rnd_int. lia. }
  all: match goal with |- context [Z.to_nat ?k] => exists (ddec 1 (8 - k)); split; [reflexivity|]; apply (ddec_inv (8 - k)); lia end.
Qed.

Lemma digit_limit_mono : forall i j, (0 <= i <= j)%Z -> (j <= 8)%Z -> digit_limit i <= digit_limit j.
Proof.
  intros i j H Hj. unfold digit_limit. destruct (Z.eqb_spec i 0) as [->|Ni].
  - destruct (Z.eqb_spec j 0); [lra|]. rewrite <- rnd_0. apply rnd_mono. apply Rlt_le, Rinv_0_lt_compat.
    apply IZR_lt. apply Z.pow_pos_nonneg; lia.
  - destruct (Z.eqb_spec j 0); [lia|]. apply rnd_mono. apply Rinv_le.
    + apply IZR_lt. apply Z.pow_pos_nonneg; lia.
    + apply IZR_le. apply Z.pow_le_mono_r; lia.
Qed.

Lemma digit_loop_ok : forall c, num c -> forall ls i, (0 <= i)%Z -> ls = skipn (Z.to_nat i) digit_limits ->
  (i + Z.of_nat (length ls) = 9)%Z -> ((0 < i)%Z -> digit_limit (i - 1) < val c) ->
  is_digit (val c) (digit_loop c i ls).
Proof.
  intros c N. induction ls as [|l ls IH]; intros i Hi E Len Hlow.
  - cbn [length Z.of_nat] in Len. cbn [digit_loop]. assert (i = 9)%Z as -> by lia. split; [lia|]. split; auto. lia.
  - cbn [digit_loop]. cbn [length] in Len.
    destruct (limits_val i ltac:(lia)) as (l' & E1 & N1 & V1).
    assert (nth_error (l :: ls) 0 = Some l') as E2.
    { rewrite E. rewrite <- E1. generalize (Z.to_nat i), digit_limits. clear. induction n; intros [|x xs]; auto.
      apply (IHn xs). }
    injection E2 as ->. destruct (dle c l') eqn:D.
    + apply (dle_val c l' N N1) in D. rewrite V1 in D. split; [lia|]. split; auto.
    + apply (dle_false c l' N N1) in D. rewrite V1 in D. apply IH; try lia.
      * replace (Z.to_nat (i + 1)) with (S (Z.to_nat i)) by lia.
        revert E. generalize (Z.to_nat i), digit_limits. clear. intros n. induction n; intros [|x xs] E; try discriminate E.
        { injection E as _ <-. reflexivity. }
        { exact (IHn xs E). }
      * intros _. replace (i + 1 - 1)%Z with i by lia. exact D.
Qed.

Lemma digit_ok : forall c, num c -> is_digit (val c) (logger_bbob_single_digit_constraint c).
Proof.
  intros c N. unfold logger_bbob_single_digit_constraint. apply digit_loop_ok; auto; try lia; reflexivity.
Qed.

Lemma digit_mono : forall a b d d', a <= b -> is_digit a d -> is_digit b d' -> (d <= d')%Z.
Proof.
  intros a b d d' H (R & L & _) (R' & _ & U'). destruct (Z.le_gt_cases d d') as [|K]; auto. exfalso.
  specialize (L ltac:(lia)). specialize (U' ltac:(lia)).
  pose proof (digit_limit_mono d' (d - 1) ltac:(lia) ltac:(lia)). lra.
Qed.

Lemma digit_unique : forall a d d', is_digit a d -> is_digit a d' -> d = d'.
Proof.
  intros a d d' H H'. pose proof (digit_mono a a d d' (Rle_refl _) H H'). pose proof (digit_mono a a d' d (Rle_refl _) H' H). lia.
Qed.

Lemma digit_nan : forall c, is_nan c = true -> logger_bbob_single_digit_constraint c = 9%Z.
Proof. intros [s|s| |s m e H] E; try discriminate E. reflexivity. Qed.

(** ** (int)(number + 0.5) *)
Lemma rnd_half_any : forall z, (Z.abs z < 2 ^ 52)%Z -> rnd (IZR z + / 2) = IZR z + / 2.
Proof.
  intros z H. apply round_generic; [auto with typeclass_instances|].
  apply generic_format_FLT. exists (Float radix2 (2 * z + 1) (-1)).
  - unfold F2R. cbn [Fnum Fexp]. replace (bpow radix2 (-1)) with (/ 2) by reflexivity.
    rewrite plus_IZR, mult_IZR. field.
  - cbn [Fnum]. change (Zpower radix2 53) with (2 * 2 ^ 52)%Z. lia.
  - simpl. lia.
Qed.

Lemma to_int_integer : forall x k, fin x -> val x = IZR k -> (INT_MIN <= k <= INT_MAX)%Z ->
  coco_double_to_int x = Ok (if (k <? 0)%Z then (k + 1)%Z else k).
Proof.
  intros x k F V B. unfold coco_double_to_int. change INT_MIN with (-2147483648)%Z in *. change INT_MAX with 2147483647%Z in *.
  destruct (dint_val 2147483647 ltac:(lia)) as (F1 & V1). destruct (dint_val (-2147483648) ltac:(lia)) as (F2 & V2).
  assert (dlt (dint 2147483647) x = false) as ->.
  { apply (dlt_false _ _ (fin_num _ F1) (fin_num _ F)). rewrite V1, V. apply IZR_le. lia. }
  assert (dlt x (dint (-2147483648)) = false) as ->.
  { apply (dlt_false _ _ (fin_num _ F) (fin_num _ F2)). rewrite V2, V. apply IZR_le. lia. }
  destruct half_val as (Fh & Vh). destruct (dadd_val x (ddec 5 1) F Fh) as (N & E).
  rewrite Vh, V, rnd_half_any in E by lia.
  assert (Rabs (IZR k + / 2) < big) as Bb.
  { assert (Rabs (IZR k) <= 2147483648) by (rewrite <- abs_IZR; apply IZR_le; lia). apply Rabs_le_inv in H.
    apply Rle_lt_trans with 4294967296; [apply Rabs_le; lra|].
    apply Rle_lt_trans with (bpow radix2 32); [simpl; lra|]. apply bpow_lt. lia. }
  rewrite clamp_id in E by lra.
  assert (fin (dadd x (ddec 5 1))) as Fa.
  { apply fin_val; auto. rewrite E. now apply Rabs_lt_inv. }
  unfold to_int. red in Fa. rewrite Fa.
  assert (Btrunc (dadd x (ddec 5 1)) = if (k <? 0)%Z then (k + 1)%Z else k) as ->.
  { apply eq_IZR. rewrite Btrunc_correct, round_FIX by reflexivity. f_equal. rewrite <- (val_fin _ Fa), E.
    destruct (Z.ltb_spec k 0) as [L|L].
    - assert (IZR k <= -1) by (apply IZR_le; lia). rewrite Ztrunc_ceil by lra. apply Zceil_imp. rewrite minus_IZR, plus_IZR. lra.
    - apply IZR_le in L. rewrite Ztrunc_floor by lra. apply Zfloor_imp. rewrite plus_IZR. lra. }
  change INT_MIN with (-2147483648)%Z. change INT_MAX with 2147483647%Z.
  destruct (Z.ltb_spec k 0);
  destruct (Z.leb_spec (-2147483648) (k + 1)); destruct (Z.leb_spec (k + 1) 2147483647);
  destruct (Z.leb_spec (-2147483648) k); destruct (Z.leb_spec k 2147483647); try lia; reflexivity.
Qed.
