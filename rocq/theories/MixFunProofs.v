From Coq Require Import ZArith NArith List Bool Reals Lra Lia.
From Verif Require Import CBase FunModel FunSpec FunProofs FunOptima FunOptima2 FunOptima3 FunOptima4 FunProps FunDocSpec FunDocProofs FunDocAll FunDocProps LargeModel LargeSpec LargeProofs LargeDoc LargeOptima LargeProps StackModel StackSpec MixFunModel MixFunSpec.
Import ListNotations.
Local Open Scope R_scope.
Local Notation RA := real_arith.

(** ** The variables *)

Lemma fifth n : (n mod 5 = 0)%nat -> n = (5 * (n / 5))%nat.
Proof. intros H. pose proof (Nat.div_mod n 5 ltac:(lia)). lia. Qed.

Lemma cardinality_values n i : (5 <= n)%nat -> (n mod 5 = 0)%nat -> (i < n)%nat -> cardinality n i = values n i.
Proof.
  intros N M I. unfold cardinality, values. cbv zeta. pose proof (fifth n M) as F. set (m := (n / 5)%nat) in *.
  assert (1 <= m)%nat by lia.
  pose proof (Nat.div_mod i m ltac:(lia)) as D. pose proof (Nat.mod_upper_bound i m ltac:(lia)) as U. set (q := (i / m)%nat) in *.
  assert (q < 5)%nat by nia.
  destruct q as [|[|[|[|[|q]]]]]; [..|lia]; cbn [nth];
    repeat match goal with |- context [Nat.ltb ?a ?b] => destruct (Nat.ltb_spec a b) end; lia.
Qed.

Lemma values_integer n i : values n i <> 0%nat <-> (i < 4 * (n / 5))%nat.
Proof. unfold values. cbv zeta. repeat match goal with |- context [Nat.ltb ?a ?b] => destruct (Nat.ltb_spec a b) end; lia. Qed.

Lemma values_cases n i : values n i = 2%nat \/ values n i = 4%nat \/ values n i = 8%nat \/ values n i = 16%nat \/ values n i = 0%nat.
Proof. unfold values. cbv zeta. repeat match goal with |- context [Nat.ltb ?a ?b] => destruct (Nat.ltb_spec a b) end; lia. Qed.

Lemma integers n : (5 <= n)%nat -> (n mod 5 = 0)%nat -> num_integer n = (4 * (n / 5))%nat.
Proof.
  intros N M. pose proof (fifth n M) as F.
  assert (H : forall k, (k <= n)%nat -> loop k (fun i k => if Nat.eqb (cardinality n i) 0 && Nat.eqb k n then i else k) n = if (k <=? 4 * (n / 5))%nat then n else (4 * (n / 5))%nat).
  { intros k. induction k as [|k IH]; intros K; [reflexivity|]. cbn [loop]. rewrite IH by lia. rewrite cardinality_values by lia.
    pose proof (values_integer n k) as V.
    destruct (Nat.leb_spec k (4 * (n / 5))) as [A|A]; destruct (Nat.leb_spec (S k) (4 * (n / 5))) as [B|B]; try lia.
    - destruct (Nat.eqb_spec (values n k) 0); [lia|]. reflexivity.
    - destruct (Nat.eqb_spec (values n k) 0); [|lia]. rewrite Nat.eqb_refl. cbn [andb]. lia.
    - destruct (Nat.eqb_spec (4 * (n / 5)) n); [lia|]. rewrite andb_false_r. reflexivity. }
  unfold num_integer. rewrite H by lia. destruct (Nat.leb_spec n (4 * (n / 5))); lia.
Qed.

Lemma outer_low half n i : (5 <= n)%nat -> (n mod 5 = 0)%nat -> (i < n)%nat ->
  at_ RA (outer_smallest RA half n) i = if (values n i =? 0)%nat then - IZR half else 0.
Proof.
  intros N M I. unfold outer_smallest. rewrite vec_at by exact I. rewrite cardinality_values by assumption.
  destruct (values n i =? 0)%nat; [rewrite lit1; apply opp_IZR|apply zero0].
Qed.

Lemma outer_high half n i : (5 <= n)%nat -> (n mod 5 = 0)%nat -> (i < n)%nat ->
  at_ RA (outer_largest RA half n) i = if (values n i =? 0)%nat then IZR half else INR (values n i) - 1.
Proof.
  intros N M I. unfold outer_largest. rewrite vec_at by exact I. rewrite cardinality_values by assumption.
  destruct (values n i =? 0)%nat; [apply lit1|]. rewrite lit1. reflexivity.
Qed.

(** ** Rounding *)

Lemma nearest_IZR z : nearest (IZR z) = IZR z.
Proof.
  unfold nearest. f_equal. unfold Int_part. rewrite <- (up_tech (IZR z + 1/2) z); [lia|lra|rewrite plus_IZR; lra].
Qed.

Lemma nearest_bounds v : exists z, nearest v = IZR z /\ v - 1/2 < IZR z <= v + 1/2.
Proof. exists (Int_part (v + 1/2)). split; [reflexivity|]. destruct (base_Int_part (v + 1/2)). lra. Qed.

Lemma bounded_snap c v : (1 <= c)%nat -> bounded RA 0 (INR c - 1) (double_round RA v) = snap c v.
Proof.
  intros C. rewrite round_nearest. unfold bounded, snap. cbv zeta. assert (1 <= INR c) by (change 1 with (INR 1); apply le_INR; exact C).
  rewrite !lt_dec. destruct (Rlt_dec (nearest v) 0) as [A|A].
  - destruct (Rlt_dec (INR c - 1) 0); [lra|]. rewrite Rmin_right, Rmax_left by lra. reflexivity.
  - destruct (Rlt_dec (INR c - 1) (nearest v)) as [B|B].
    + rewrite Rmin_left, Rmax_right by lra. reflexivity.
    + rewrite Rmin_right, Rmax_right by lra. reflexivity.
Qed.

Lemma snap_value c v : (1 <= c)%nat -> exists k, (k < c)%nat /\ snap c v = INR k.
Proof.
  intros C. destruct (nearest_bounds v) as (z & E & _). unfold snap. rewrite E.
  destruct (Z_lt_le_dec z 0) as [L|L].
  - exists 0%nat. split; [lia|]. pose proof (IZR_lt _ _ L). assert (1 <= INR c) by (change 1 with (INR 1); apply le_INR; exact C).
    rewrite Rmin_right, Rmax_left by lra. reflexivity.
  - pose proof (IZR_le _ _ L). destruct (Z_lt_le_dec (Z.of_nat c - 1) z) as [G|G].
    + exists (c - 1)%nat. split; [lia|]. apply IZR_lt in G. rewrite minus_IZR, <- INR_IZR_INZ in G. rewrite minus_INR by lia.
      assert (1 <= INR c) by (change 1 with (INR 1); apply le_INR; exact C). rewrite Rmin_left, Rmax_right by lra. reflexivity.
    + exists (Z.to_nat z). split; [lia|]. apply IZR_le in G. rewrite minus_IZR, <- INR_IZR_INZ in G.
      rewrite Rmin_right, Rmax_right by lra. rewrite INR_IZR_INZ, Z2Nat.id by lia. reflexivity.
Qed.

Lemma snap_self c k : (k < c)%nat -> snap c (INR k) = INR k.
Proof.
  intros K. unfold snap. rewrite (INR_IZR_INZ k), nearest_IZR, <- (INR_IZR_INZ k). pose proof (pos_INR k).
  assert (INR k <= INR c - 1). { apply le_INR in K. rewrite S_INR in K. lra. }
  rewrite Rmin_right, Rmax_right by lra. reflexivity.
Qed.

(** ** The places *)

Section Places.
Variable c : nat.
Hypothesis C : (2 <= c)%nat.

Lemma c_real : 2 <= INR c. Proof. change 2 with (INR 2). apply le_INR. exact C. Qed.

Lemma spacing_pos : 0 < spacing c.
Proof. pose proof c_real. unfold spacing. apply Rdiv_lt_0_compat; lra. Qed.
Lemma spacing_all : spacing c * (INR c + 1) = 8.
Proof. pose proof c_real. unfold spacing. field. lra. Qed.

Lemma values_of_bounds : number_of_values RA 0 (INR c - 1) = INR c.
Proof.
  unfold number_of_values. rewrite !round_nearest, lit1. change (sub RA) with Rminus. change (add RA) with Rplus.
  assert (E : nearest 0 = 0) by exact (nearest_IZR 0). rewrite E.
  rewrite INR_IZR_INZ. replace (IZR (Z.of_nat c) - 1) with (IZR (Z.of_nat c - 1)) by (rewrite minus_IZR; reflexivity).
  rewrite nearest_IZR, minus_IZR. lra.
Qed.

Lemma inner_l_place : inner_l RA (-4) 4 0 (INR c - 1) = -4 + spacing c.
Proof. unfold inner_l. rewrite values_of_bounds, lit1. unfold spacing. cbn [add sub div RA real_arith]. change (@eq (num RA)) with (@eq R). pose proof c_real. field. lra. Qed.
Lemma inner_u_place : inner_u RA (-4) 4 0 (INR c - 1) = 4 - spacing c.
Proof. unfold inner_u. rewrite values_of_bounds, lit1. unfold spacing. cbn [add sub div RA real_arith]. change (@eq (num RA)) with (@eq R). pose proof c_real. field. lra. Qed.

Lemma inner_coordinate_place v : inner_coordinate RA (-4) 4 0 (INR c - 1) v = place c v.
Proof.
  unfold inner_coordinate. cbv zeta. rewrite inner_l_place, inner_u_place. unfold place, spacing. cbn [add sub mul div RA real_arith]. change (@eq (num RA)) with (@eq R). pose proof c_real. field. lra.
Qed.

(** The position of the optimum in the coordinates of the outer problem *)
Definition position (o : R) : R := (o + 4) / spacing c - 1.

Lemma outer_xopt_snap o : outer_xopt RA (-4) 4 0 (INR c - 1) o = snap c (position o + 1 / 10 ^ 7).
Proof.
  unfold outer_xopt. cbv zeta. rewrite inner_l_place, inner_u_place. rewrite bounded_snap by lia. f_equal.
  replace (lit RA 1 7) with (1 / 10 ^ 7) by (cbn [lit RA real_arith]; change (10 ^ 7)%Z with 10000000%Z; field).
  change (add RA) with Rplus. apply Rplus_eq_compat_r. unfold position, spacing. cbn [add sub mul div RA real_arith]. change (@eq (num RA)) with (@eq R). pose proof c_real. field. lra.
Qed.

Lemma place_position o : place c (position o) = o.
Proof. unfold place, position. pose proof spacing_pos. field. lra. Qed.

Lemma place_diff a b : place c a - place c b = spacing c * (a - b).
Proof. unfold place. ring. Qed.

Lemma snap_close u k : (k < c)%nat -> Rabs (u - snap c (u + 1 / 10 ^ 7)) <= Rabs (u - INR k) + 2 / 10 ^ 7.
Proof.
  intros K. unfold snap. destruct (nearest_bounds (u + 1 / 10 ^ 7)) as (z & E & B). rewrite E. clear E.
  assert (KC : 0 <= INR k <= INR c - 1). { split; [apply pos_INR|]. apply le_INR in K. rewrite S_INR in K. lra. }
  assert (EP : 1 / 10 ^ 7 = 1 / 10000000) by field. assert (EP2 : 2 / 10 ^ 7 = 2 / 10000000) by field. rewrite EP in B. rewrite EP2.
  destruct (Z_lt_le_dec z 0) as [L|L].
  { assert (IZR z <= -1) by (apply IZR_le; lia). rewrite Rmin_right, Rmax_left by lra.
    rewrite Rabs_left1 by lra. unfold Rabs. destruct (Rcase_abs _); lra. }
  apply IZR_le in L.
  destruct (Z_lt_le_dec (Z.of_nat c - 1) z) as [G|G].
  { assert (Z : INR c <= IZR z). { rewrite INR_IZR_INZ. apply IZR_le. lia. } rewrite Rmin_left, Rmax_right by lra.
    unfold Rabs. destruct (Rcase_abs _); destruct (Rcase_abs _); lra. }
  apply IZR_le in G. rewrite minus_IZR, <- INR_IZR_INZ in G. rewrite Rmin_right, Rmax_right by lra.
  destruct (Z.eq_dec z (Z.of_nat k)) as [->|NE].
  { rewrite <- INR_IZR_INZ. lra. }
  assert (D : 1 <= Rabs (IZR z - INR k)).
  { rewrite (INR_IZR_INZ k), <- minus_IZR. rewrite <- abs_IZR. apply IZR_le. lia. }
  revert D. unfold Rabs. repeat destruct (Rcase_abs _); lra.
Qed.

Lemma closest o k : (k < c)%nat ->
  Rabs (o - place c (outer_xopt RA (-4) 4 0 (INR c - 1) o)) <= Rabs (o - place c (INR k)) + 2 / 10 ^ 7 * spacing c.
Proof.
  intros K. rewrite outer_xopt_snap. rewrite <- (place_position o) at 1 3. rewrite !place_diff, !Rabs_mult, (Rabs_pos_eq (spacing c)) by (pose proof spacing_pos; lra).
  pose proof (snap_close (position o) k K). pose proof spacing_pos. nra.
Qed.

Lemma inside o k : -4 <= o <= 4 -> (k < c)%nat ->
  -4 <= o + spacing c * (INR k - outer_xopt RA (-4) 4 0 (INR c - 1) o) <= 4.
Proof.
  intros O K. rewrite outer_xopt_snap. rewrite <- (place_position o) at 1 3. set (u := position o).
  assert (U : -1 <= u <= INR c).
  { unfold u, position. pose proof spacing_pos as S. pose proof spacing_all as T. split.
    - assert (0 <= (o + 4) / spacing c) by (apply Rmult_le_pos; [lra|left; apply Rinv_0_lt_compat; exact S]). lra.
    - assert ((o + 4) / spacing c <= INR c + 1); [|lra]. apply (Rmult_le_reg_r (spacing c)); [exact S|]. unfold Rdiv. rewrite Rmult_assoc, Rinv_l by lra. lra. }
  assert (KC : 0 <= INR k <= INR c - 1). { split; [apply pos_INR|]. apply le_INR in K. rewrite S_INR in K. lra. }
  assert (W : -1 <= u + INR k - snap c (u + 1 / 10 ^ 7) <= INR c).
  { assert (EP : 1 / 10 ^ 7 = 1 / 10000000) by field. rewrite EP.
    unfold snap. destruct (nearest_bounds (u + 1 / 10000000)) as (z & E & B). rewrite E. clear E.
    pose proof c_real. unfold Rmax, Rmin. repeat destruct (Rle_dec _ _); lra. }
  unfold place. pose proof spacing_pos as S. pose proof spacing_all as T. nra.
Qed.
End Places.

(** ** Overwriting the region of interest *)

Lemma overwrite_low n p i : (5 <= n)%nat -> (n mod 5 = 0)%nat -> box n p -> (i < n)%nat ->
  at_ RA (smallest _ (overwrite RA n p)) i = if (values n i =? 0)%nat then -5 else -4.
Proof.
  intros N M (B1 & B2) I. unfold overwrite, with_region, inner_smallest. cbn [smallest]. rewrite vec_at by exact I. rewrite cardinality_values by assumption.
  rewrite B1, repeat_at by exact I. destruct (values n i =? 0)%nat; apply lit1.
Qed.
Lemma overwrite_high n p i : (5 <= n)%nat -> (n mod 5 = 0)%nat -> box n p -> (i < n)%nat ->
  at_ RA (largest _ (overwrite RA n p)) i = if (values n i =? 0)%nat then 5 else 4.
Proof.
  intros N M (B1 & B2) I. unfold overwrite, with_region, inner_largest. cbn [largest]. rewrite vec_at by exact I. rewrite cardinality_values by assumption.
  rewrite B2, repeat_at by exact I. destruct (values n i =? 0)%nat; apply lit1.
Qed.

(** What the overwritten problem q has to do with the problem p.  [strict]: its evaluation depends on its region. *)
Definition inside_box (n : nat) (x : list R) : Prop := forall i, (i < n)%nat -> values n i <> 0%nat -> -4 <= coord x i <= 4.
Definition overwritten (strict : bool) (n : nat) (p q : real_problem) : Prop :=
  dimension _ q = n /\ best_parameter _ q = best_parameter _ p /\ best_value _ q = best_value _ p /\
  (forall i, (i < n)%nat -> at_ RA (smallest _ q) i = if (values n i =? 0)%nat then -5 else -4) /\
  (forall i, (i < n)%nat -> at_ RA (largest _ q) i = if (values n i =? 0)%nat then 5 else 4) /\
  (forall x, length x = n -> evaluate _ p x <= evaluate _ q x) /\
  (forall x, length x = n -> (strict = true -> inside_box n x) -> evaluate _ q x = evaluate _ p x).

Lemma overwrite_plain n p : (5 <= n)%nat -> (n mod 5 = 0)%nat -> dimension _ p = n -> box n p -> overwritten false n p (overwrite RA n p).
Proof.
  intros N M D B. unfold overwritten. split; [exact D|]. split; [reflexivity|]. split; [reflexivity|].
  split; [intros i I; apply overwrite_low; assumption|]. split; [intros i I; apply overwrite_high; assumption|].
  split; [intros x X; apply Rle_refl|]. intros x X _. reflexivity.
Qed.

Lemma loop_two n (f g : nat -> R -> R) s : (forall i a b, (i < n)%nat -> a <= b -> f i a <= g i b) -> loop n f s <= loop n g s.
Proof. intros H. induction n as [|n IH]; cbn [loop]; [lra|]. apply H; [lia|]. apply IH. intros. apply H; [lia|assumption]. Qed.

Lemma overwrite_penalty n p c : (5 <= n)%nat -> (n mod 5 = 0)%nat -> 0 <= c -> dimension _ p = n -> box n p ->
  overwritten true n (obj_penalize RA p c) (obj_penalize RA (overwrite RA n p) c).
Proof.
  intros N M C D B. unfold overwritten. split; [exact D|]. split; [reflexivity|]. split; [reflexivity|].
  split; [intros i I; apply overwrite_low; assumption|]. split; [intros i I; apply overwrite_high; assumption|].
  unfold obj_penalize. split.
  - intros x X. rewrite !evaluate_with. cbv zeta. change (dimension RA (overwrite RA n p)) with (dimension RA p). change (evaluate RA (overwrite RA n p) x) with (evaluate RA p x).
    change (add RA) with Rplus. change (mul RA) with Rmult. change (sub RA) with Rminus. apply Rplus_le_compat_l, Rmult_le_compat_l; [exact C|].
    rewrite D. apply loop_two. intros i a b I L. rewrite overwrite_low, overwrite_high by assumption.
    rewrite (proj1 B), (proj2 B), !repeat_at by exact I. rewrite !lt_dec, zero0, !lit1. set (v := at_ RA x i).
    destruct (values n i =? 0)%nat;
      repeat match goal with |- context [if ?b then true else false] => destruct b end; try lra; nra.
  - intros x X IB. specialize (IB eq_refl). rewrite !evaluate_with. cbv zeta. change (dimension RA (overwrite RA n p)) with (dimension RA p). change (evaluate RA (overwrite RA n p) x) with (evaluate RA p x).
    change (add RA) with Rplus. change (mul RA) with Rmult. change (sub RA) with Rminus. apply Rplus_eq_compat_l, Rmult_eq_compat_l.
    rewrite D. apply loop_ext. intros i s I. rewrite overwrite_low, overwrite_high by assumption.
    rewrite (proj1 B), (proj2 B), !repeat_at by exact I. specialize (IB i I). rewrite <- coord_at in IB. rewrite !lt_dec, zero0, !lit1. set (v := at_ RA x i) in *.
    destruct (Nat.eqb_spec (values n i) 0) as [E|E].
    + reflexivity.
    + specialize (IB E). repeat match goal with |- context [if ?b then true else false] => destruct b end; lra.
Qed.

(** The functions concerned *)
Definition strict_bbob (f : nat) : bool := match f with 4 | 16 | 17 | 18 | 23 => true | _ => false end.
Definition strict_large (f : nat) : bool := match f with 4 => true | _ => false end.

Lemma bbob_overwritten f n d q : (5 <= n)%nat -> (n mod 5 = 0)%nat -> overwritten_bbob RA f n d = Some q ->
  exists p, get_bbob_problem RA f n false d = Some p /\ overwritten (strict_bbob f) n p q.
Proof.
  intros N M E.
  assert (X : exists p, get_bbob_problem RA f n false d = Some p).
  { destruct (get_bbob_problem RA f n false d) as [p|] eqn:E2; [exists p; reflexivity|]. exfalso. revert E.
    unfold overwritten_bbob. rewrite E2. do 24 (destruct f as [|f]; try discriminate). }
  destruct X as (p & E2). exists p. split; [exact E2|].
  destruct (all_documented n ltac:(lia) d f false p E2) as (D & B & _).
  assert (PL : strict_bbob f = false -> overwritten (strict_bbob f) n p q).
  { intros S. rewrite S. assert (Q : q = overwrite RA n p).
    { revert E S. unfold overwritten_bbob. rewrite E2. do 24 (destruct f as [|f]; try discriminate; try (cbn [option_map]; congruence)). }
    rewrite Q. apply overwrite_plain; assumption. }
  assert (PE : forall p0 c, 0 <= c -> obj_penalize RA p0 c = p -> obj_penalize RA (overwrite RA n p0) c = q -> overwritten true n p q).
  { intros p0 c C Ep Eq. rewrite <- Ep, <- Eq. rewrite <- Ep in D, B. apply overwrite_penalty; assumption. }
  assert (NP : 0 < INR n) by (apply lt_0_INR; lia).
  destruct (strict_bbob f) eqn:S; [|apply PL; reflexivity].
  assert (F : f = 4%nat \/ f = 16%nat \/ f = 17%nat \/ f = 18%nat \/ f = 23%nat).
  { revert S. unfold strict_bbob. do 24 (destruct f as [|f]; try discriminate; try (intros; lia)). }
  destruct F as [-> | [-> | [-> | [-> | ->]]]]; cbn [overwritten_bbob] in E; cbn [get_bbob_problem] in E2.
  - apply (PE (unpenalised_bueche RA n false d) (lit RA 100 0)); [rewrite lit1; lra|apply (f_equal (fun o => match o with Some v => v | None => p end)) in E2; exact E2|congruence].
  - apply (PE (unpenalised_weierstrass RA n d) (div RA (lit RA 10 0) (of_nat RA n))); [rewrite lit1; apply Rlt_le; apply Rdiv_lt_0_compat; [lra|exact NP]|apply (f_equal (fun o => match o with Some v => v | None => p end)) in E2; exact E2|congruence].
  - apply (PE (unpenalised_schaffers RA n (lit RA 10 0) d) (lit RA 10 0)); [rewrite lit1; lra|apply (f_equal (fun o => match o with Some v => v | None => p end)) in E2; exact E2|congruence].
  - apply (PE (unpenalised_schaffers RA n (lit RA 1000 0) d) (lit RA 10 0)); [rewrite lit1; lra|apply (f_equal (fun o => match o with Some v => v | None => p end)) in E2; exact E2|congruence].
  - apply (PE (unpenalised_katsuura RA n d) (lit RA 1 0)); [rewrite lit1; lra|apply (f_equal (fun o => match o with Some v => v | None => p end)) in E2; exact E2|congruence].
Qed.

Lemma large_overwritten f n e q : (5 <= n)%nat -> (n mod 5 = 0)%nat -> plausible_large n e -> plausible_order f e ->
  overwritten_largescale RA f n e = Some q ->
  exists p, get_largescale_problem RA f n e = Some p /\ overwritten (strict_large f) n p q.
Proof.
  intros N M P O E.
  assert (X : exists p, get_largescale_problem RA f n e = Some p).
  { destruct (get_largescale_problem RA f n e) as [p|] eqn:E2; [exists p; reflexivity|]. exfalso. revert E.
    unfold overwritten_largescale. rewrite E2. do 24 (destruct f as [|f]; try discriminate). }
  destruct X as (p & E2). exists p. split; [exact E2|].
  destruct (all_large_documented n ltac:(lia) e P f p O E2) as (D & B & _).
  destruct (Nat.eq_dec f 4) as [->|F].
  - cbn [overwritten_largescale] in E. cbn [get_largescale_problem] in E2. apply (f_equal (fun o => match o with Some v => v | None => p end)) in E2. cbv beta iota in E2.
    assert (Ep : obj_penalize RA (unpenalised_bueche RA n true (plain_draws RA e)) (lit RA 100 0) = p) by exact E2.
    assert (Q : obj_penalize RA (overwrite RA n (unpenalised_bueche RA n true (plain_draws RA e))) (lit RA 100 0) = q) by congruence.
    rewrite <- Ep, <- Q. rewrite <- Ep in D, B. apply (overwrite_penalty n _ _ N M); [rewrite lit1; lra|exact D|exact B].
  - assert (S : strict_large f = false) by (do 5 (destruct f as [|f]; try reflexivity; try lia)). rewrite S.
    assert (Q : q = overwrite RA n p).
    { revert E. unfold overwritten_largescale. rewrite E2. do 5 (destruct f as [|f]; try lia; try (cbn [option_map]; congruence)). }
    rewrite Q. apply overwrite_plain; assumption.
Qed.

(** ** The discretised problem *)

Definition best_of (n : nat) (o : list R) (i : nat) : R :=
  match values n i with O => coord o i | c => outer_xopt RA (-4) 4 0 (INR c - 1) (coord o i) end.

Lemma values_ge2 n i k : values n i = S k -> (2 <= S k)%nat.
Proof. intros E. pose proof (values_cases n i). lia. Qed.

Section Discretised.
Variables (half : Z) (n : nat) (strict : bool) (p q : real_problem).
Hypotheses (N : (5 <= n)%nat) (M : (n mod 5 = 0)%nat) (O : overwritten strict n p q).
Let z := vars_discretize RA (outer_smallest RA half n) (outer_largest RA half n) (num_integer n) q.

Lemma discretised_best : length (best_parameter _ z) = n /\ forall i, (i < n)%nat -> coord (best_parameter _ z) i = best_of n (best_parameter _ p) i.
Proof.
  destruct O as (D & B & V & SL & SH & _). unfold z, vars_discretize, with_region. cbn [best_parameter with_best_parameter]. rewrite D, integers by assumption.
  split; [apply vec_length|]. intros i I. rewrite <- coord_at, vec_at by exact I. unfold best_of. rewrite B.
  pose proof (values_integer n i) as VI. destruct (values n i) as [|k] eqn:E.
  - destruct (Nat.ltb_spec i (4 * (n / 5))); [lia|]. apply coord_at.
  - destruct (Nat.ltb_spec i (4 * (n / 5))); [|lia]. rewrite SL, SH, outer_low, outer_high by assumption. rewrite E. cbn [Nat.eqb]. rewrite coord_at. reflexivity.
Qed.

Lemma discretised_evaluate x : length x = n ->
  evaluate _ z x = evaluate _ q (vec n (placed n (coord (best_parameter _ p)) (coord (best_parameter _ z)) (coord x))).
Proof.
  intros X. destruct (discretised_best) as (_ & BE). destruct O as (D & B & V & SL & SH & _).
  unfold z at 1, vars_discretize, with_region. cbn [evaluate with_best_parameter]. rewrite evaluate_with, D, integers by assumption. f_equal.
  apply vec_ext. intros i I. unfold placed. pose proof (values_integer n i) as VI.
  destruct (values n i) as [|k] eqn:E.
  - destruct (Nat.ltb_spec i (4 * (n / 5))); [lia|]. apply coord_at.
  - destruct (Nat.ltb_spec i (4 * (n / 5))) as [L|L]; [|lia]. rewrite vec_at by exact I. destruct (Nat.ltb_spec i (4 * (n / 5))) as [L2|L2]; [|lia].
    rewrite vec_at by exact I. destruct (Nat.ltb_spec i (4 * (n / 5))) as [L3|L3]; [|lia].
    rewrite BE by exact I. unfold best_of. rewrite E. rewrite SL, SH, outer_low, outer_high by assumption. rewrite E. cbn [Nat.eqb]. rewrite B, !coord_at.
    pose proof (values_ge2 n i k E) as C. rewrite !inner_coordinate_place, bounded_snap by lia. change (sub RA) with Rminus. unfold place. change (@eq (num RA)) with (@eq R). ring.
Qed.

Lemma discretised_value : best_value _ z = best_value _ p.
Proof. destruct O as (_ & _ & V & _). exact V. Qed.

Lemma discretised_region : mixed_region (IZR half) n (smallest _ z) (largest _ z).
Proof.
  destruct O as (D & _). unfold z, vars_discretize, with_region. cbn [smallest largest]. rewrite D. split; [apply vec_length|]. split; [apply vec_length|].
  intros i I. rewrite <- !coord_at, !vec_at by exact I. rewrite outer_low, outer_high by assumption. destruct (values n i) as [|k]; cbn [Nat.eqb]; split; reflexivity.
Qed.

(** The best parameter is placed at the optimum of the continuous function. *)
Lemma best_placed : length (best_parameter _ p) = n ->
  vec n (placed n (coord (best_parameter _ p)) (coord (best_parameter _ z)) (coord (best_parameter _ z))) = best_parameter _ p.
Proof.
  intros L. rewrite <- (list_vec (best_parameter _ p) n L) at 2. apply vec_ext. intros i I. unfold placed. destruct (discretised_best) as (_ & BE). rewrite BE by exact I.
  unfold best_of. destruct (values n i) as [|k] eqn:E; [symmetry; apply coord_at|].
  pose proof (values_ge2 n i k E) as C. rewrite outer_xopt_snap by exact C.
  destruct (snap_value (S k) (position (S k) (coord (best_parameter RA p) i) + 1 / 10 ^ 7) ltac:(lia)) as (j & J & EJ). rewrite EJ, snap_self by exact J.
  rewrite coord_at. change (@eq (num RA)) with (@eq R). ring.
Qed.

Lemma best_mixed : length (best_parameter _ p) = n -> within 5 (best_parameter _ p) -> mixed_point n (best_parameter _ z).
Proof.
  intros L W. destruct discretised_best as (BL & BE). split; [exact BL|]. intros i I. rewrite BE by exact I. unfold best_of.
  destruct (values n i) as [|k] eqn:E; [rewrite <- coord_at; apply (within_at n); assumption|].
  rewrite outer_xopt_snap by exact (values_ge2 n i k E). apply snap_value. lia.
Qed.

Lemma placed_inside x : inside_box n (best_parameter _ p) -> inside_box n (vec n (placed n (coord (best_parameter _ p)) (coord (best_parameter _ z)) (coord x))).
Proof.
  intros IB i I VI. rewrite <- coord_at, vec_at by exact I. specialize (IB i I VI). destruct (discretised_best) as (_ & BE). unfold placed. rewrite BE by exact I. unfold best_of.
  destruct (values n i) as [|k] eqn:E; [contradiction|]. destruct (snap_value (S k) (coord x i) ltac:(lia)) as (j & J & EJ). rewrite EJ.
  apply inside; [exact (values_ge2 n i k E)|exact IB|exact J].
Qed.
End Discretised.

(** ** The problems *)

Lemma factor_nth f : (1 <= f <= 24)%nat -> nth (f - 1) (scaling_factors RA) (zero RA) = factor f.
Proof.
  intros F. destruct f as [|f]; [lia|]. replace (S f - 1)%nat with f by lia.
  do 24 (destruct f as [|f]; [cbn [nth scaling_factors factor]; lits; change (@eq (num RA)) with (@eq R); field|]). lia.
Qed.
Lemma factor_pos f : 0 < factor f.
Proof. do 24 (destruct f as [|f]; [cbn [factor]; lra|]). destruct f; cbn [factor]; lra. Qed.
Lemma factor_tolerance f : factor f * (if (f =? 20)%nat then 3 / 10 ^ 15 else 0) = tolerance f.
Proof. unfold tolerance. destruct (Nat.eqb_spec f 20) as [-> |]; [cbn [factor]; field|ring]. Qed.

(** The continuous problem *)
Lemma continuous_problem f n d e q : (5 <= n)%nat -> plausible_mixed f n d e -> overwritten_problem RA f n d e = Ok q ->
  (1 <= f <= 24)%nat /\ (n mod 5 = 0)%nat /\ exists strict p,
    overwritten strict n p q /\
    near_optimum (if (f =? 20)%nat then 3 / 10 ^ 15 else 0) n p (optimal_value n d e) /\
    continuous_optimum f n d e (best_parameter _ p) /\
    (strict = true -> inside_box n (best_parameter _ p)) /\
    (forall z, evaluate _ p (vec n z) = continuous f n d e z + optimal_value n d e).
Proof.
  intros N P E. unfold overwritten_problem in E. destruct (Nat.eqb_spec (n mod 5) 0) as [M|M]; [|discriminate]. cbn [negb] in E.
  unfold plausible_mixed in P. unfold continuous_optimum, continuous, optimal_value.
  destruct (Nat.ltb_spec n 50) as [S|S].
  - destruct (overwritten_bbob RA f n d) as [q'|] eqn:E1; [|discriminate]. assert (q' = q) by congruence. subst q'. clear E. destruct P as (P & W).
    destruct (bbob_overwritten f n d q N M E1) as (p & E2 & O).
    assert (F : (1 <= f <= 24)%nat) by (apply (C49_delivered f n false d); exists p; exact E2).
    split; [exact F|]. split; [exact M|]. exists (strict_bbob f), p. split; [exact O|].
    assert (H : near_optimum (if (f =? 20)%nat then 3 / 10 ^ 15 else 0) n p (fopt RA d) /\ location f n false d (best_parameter RA p)).
    { destruct (Nat.eqb_spec f 20) as [-> |NE].
      - apply C49_schwefel; [lia|exact E2].
      - destruct (C49_optimum f n false d p ltac:(lia) P NE ltac:(intros; lia) E2) as ((A1 & A2 & A3 & A4 & A5) & A6). split; [|exact A6].
        unfold near_optimum. repeat split; try assumption; rewrite ?A3, ?A4; lra. }
    destruct H as (H1 & H2). split; [exact H1|]. split; [split; [apply H1|exact H2]|]. split.
    + intros SB i I _. specialize (H2 i I). pose proof (within_at n 4 (xopt _ d) i (proj1 P) W I) as WI. rewrite coord_at in WI.
      destruct f as [|f]; [discriminate SB|]. unfold strict_bbob in SB.
      do 3 (destruct f as [|f]; [discriminate SB|]).
      destruct f as [|f]. { rewrite H2. destruct (Nat.even i); [|exact WI]. pose proof (Rabs_pos (coord (xopt RA d) i)). assert (Rabs (coord (xopt RA d) i) <= 4) by (apply Rabs_le; exact WI). lra. }
      do 11 (destruct f as [|f]; [discriminate SB|]). do 3 (destruct f as [|f]; [rewrite H2; exact WI|]).
      do 4 (destruct f as [|f]; [discriminate SB|]). destruct f as [|f]; [rewrite H2; exact WI|]. discriminate SB.
    + apply (all_documented n ltac:(lia) d f false p E2).
  - destruct (overwritten_largescale RA f n e) as [q'|] eqn:E1; [|discriminate]. assert (q' = q) by congruence. subst q'. clear E. destruct P as (P & OR & W).
    destruct (large_overwritten f n e q N M P OR E1) as (p & E2 & O).
    assert (F : (1 <= f <= 24)%nat) by (apply (C61_delivered f n e); exists p; exact E2).
    split; [exact F|]. split; [exact M|]. exists (strict_large f), p. split; [exact O|].
    assert (H : near_optimum (if (f =? 20)%nat then 3 / 10 ^ 15 else 0) n p (lfopt RA e) /\ large_location f n e (best_parameter RA p)).
    { destruct (Nat.eqb_spec f 20) as [-> |NE].
      - apply C61_schwefel; [lia|exact E2].
      - destruct (C61_optimum f n e p ltac:(lia) P OR NE E2) as ((A1 & A2 & A3 & A4 & A5) & A6). split; [|exact A6].
        unfold near_optimum. repeat split; try assumption; rewrite ?A3, ?A4; lra. }
    destruct H as (H1 & H2). split; [exact H1|]. split; [split; [apply H1|exact H2]|]. split.
    + intros SB i I _. specialize (H2 i I). pose proof (within_at n 4 (lxopt _ e 0) i (proj1 (proj1 P 0%nat)) W I) as WI. rewrite coord_at in WI.
      do 4 (destruct f as [|f]; [discriminate SB|]). destruct f as [|f]; [|discriminate SB].
      rewrite H2. destruct (Nat.even i); [|exact WI]. pose proof (Rabs_pos (coord (lxopt RA e 0) i)). assert (Rabs (coord (lxopt RA e 0) i) <= 4) by (apply Rabs_le; exact WI). lra.
    + apply (all_large_documented n ltac:(lia) e P f p OR E2).
Qed.

Theorem mixed_facts half f n d e q : (5 <= n)%nat -> plausible_mixed f n d e -> overwritten_problem RA f n d e = Ok q ->
  let p := mixed RA half f n q in
  exists o, continuous_optimum f n d e o /\
    (forall i, (i < n)%nat -> coord (best_parameter _ p) i = best_of n o i) /\
    (forall x, length x = n -> evaluate _ p x =
       factor f * (continuous f n d e (placed n (coord o) (coord (best_parameter _ p)) (coord x)) + optimal_value n d e)) /\
    mixed_optimum (tolerance f) n p (factor f * optimal_value n d e) /\
    mixed_region (IZR half) n (smallest _ p) (largest _ p).
Proof.
  intros N P E p. destruct (continuous_problem f n d e q N P E) as (F & M & strict & c & O & OPT & CO & IB & CV).
  exists (best_parameter _ c). set (z := vars_discretize RA (outer_smallest RA half n) (outer_largest RA half n) (num_integer n) q).
  assert (EV : forall x, evaluate _ p x = evaluate _ z x * factor f).
  { intros x. unfold p, mixed, obj_scale. cbn [evaluate with_best_value]. rewrite evaluate_with. rewrite factor_nth by exact F. reflexivity. }
  assert (BP : best_parameter _ p = best_parameter _ z) by reflexivity.
  assert (BV : best_value _ p = best_value _ c * factor f).
  { unfold p, mixed, obj_scale. cbn [best_value with_best_value]. rewrite factor_nth by exact F. fold z. unfold z. rewrite (discretised_value half n strict c q O). reflexivity. }
  destruct (discretised_best half n strict c q N M O) as (BL & BE). fold z in BL, BE.
  destruct OPT as (O1 & O2 & O3 & O4 & O5). pose proof (factor_pos f) as FP. pose proof (factor_tolerance f) as FT. rewrite BP.
  assert (LB : forall x, length x = n -> optimal_value n d e <= evaluate _ z x).
  { intros x X. unfold z. rewrite (discretised_evaluate half n strict c q N M O x X). apply Rle_trans with (evaluate _ c (vec n (placed n (coord (best_parameter _ c)) (coord (best_parameter _ z)) (coord x)))).
    - apply O5. apply vec_length.
    - apply O. apply vec_length. }
  assert (VA : forall x, length x = n -> evaluate _ z x = evaluate _ c (vec n (placed n (coord (best_parameter _ c)) (coord (best_parameter _ z)) (coord x)))).
  { intros x X. unfold z at 1. rewrite (discretised_evaluate half n strict c q N M O x X). apply O; [apply vec_length|].
    intros ST. apply (placed_inside half n strict c q N M O). apply IB. exact ST. }
  split; [exact CO|]. split; [exact BE|]. split; [|split].
  - intros x X. rewrite EV, (VA x X), CV. apply Rmult_comm.
  - unfold mixed_optimum. rewrite BP. split; [apply (best_mixed half n strict c q N M O O1 O2)|].
    pose proof (best_placed half n strict c q N M O O1) as BPL. fold z in BPL. rewrite EV, BV, (VA _ BL), BPL. set (v := optimal_value n d e) in *.
    repeat split; try nra. intros x X. rewrite EV. specialize (LB x X). nra.
  - apply (discretised_region half n strict c q N M O).
Qed.

Lemma mixed_delivered f n (d : real_draws) (e : real_large) : (exists q, overwritten_problem RA f n d e = Ok q) <-> (1 <= f <= 24)%nat /\ (n mod 5 = 0)%nat.
Proof.
  unfold overwritten_problem. destruct (Nat.eqb_spec (n mod 5) 0) as [M|M]; cbn [negb]; [|split; [intros (q & E); discriminate|intros; tauto]].
  assert (H : (exists q, (if (n <? 50)%nat then overwritten_bbob RA f n d else overwritten_largescale RA f n e) = Some q) <-> (1 <= f <= 24)%nat).
  { destruct (n <? 50)%nat.
    - rewrite <- (C49_delivered f n false d). unfold overwritten_bbob.
      destruct (get_bbob_problem RA f n false d) as [p|] eqn:E.
      + split; intros _; [exists p; reflexivity|]. do 24 (destruct f as [|f]; [eexists; cbn [option_map]; reflexivity|]). eexists; reflexivity.
      + split; intros (q & Q); [|discriminate]. exfalso. revert Q. do 24 (destruct f as [|f]; try discriminate).
    - rewrite <- (C61_delivered f n e). unfold overwritten_largescale.
      destruct (get_largescale_problem RA f n e) as [p|] eqn:E.
      + split; intros _; [exists p; reflexivity|]. do 5 (destruct f as [|f]; [eexists; cbn [option_map]; reflexivity|]). eexists; reflexivity.
      + split; intros (q & Q); [|discriminate]. exfalso. revert Q. do 5 (destruct f as [|f]; try discriminate). }
  destruct (if (n <? 50)%nat then _ else _) as [q|].
  - split; [intros _; split; [apply H; exists q; reflexivity|exact M]|intros _; exists q; reflexivity].
  - split; [intros (q & Q); discriminate|]. intros (F & _). apply H in F. destruct F as (q & Q). discriminate.
Qed.
