(** Distances to the unit square and the dominated area of a history. *)
From Coq Require Import List Arith ZArith Bool Lia ZifyBool Reals Lra Psatz Sorted Permutation.
Import ListNotations.
From Verif Require Import CBase MoModel BiobjModel FrontSpec BiobjSpec FrontProofs AreaProofs KeptProofs BiobjTreeProofs.
Open Scope R_scope.

Definition over (v : Z) : R := Rmax 0 (coordinate v - 1).

Lemma unit_pos : 0 < IZR unit.
Proof. unfold unit. lra. Qed.

Lemma over_nonneg : forall v, 0 <= over v.
Proof. intros. apply Rmax_l. Qed.

Lemma coordinate_mono : forall a b, (a <= b)%Z -> coordinate a <= coordinate b.
Proof.
  intros a b H. unfold coordinate. apply Rmult_le_compat_r.
  - left. apply Rinv_0_lt_compat, unit_pos.
  - now apply IZR_le.
Qed.

Lemma coordinate_unit : coordinate unit = 1.
Proof. unfold coordinate. field. pose proof unit_pos. lra. Qed.

Lemma over_mono : forall a b, (a <= b)%Z -> over a <= over b.
Proof.
  intros a b H. pose proof (coordinate_mono a b H). unfold over.
  apply Rmax_lub; [apply Rmax_l|]. apply Rle_trans with (coordinate b - 1); [lra|apply Rmax_r].
Qed.

Lemma over_zero : forall v, (v <= unit)%Z -> over v = 0.
Proof.
  intros v H. pose proof (coordinate_mono v unit H). rewrite coordinate_unit in H0. unfold over. apply Rmax_left. lra.
Qed.

Lemma over_pos : forall v, (unit <= v)%Z -> over v = coordinate v - 1.
Proof.
  intros v H. pose proof (coordinate_mono unit v H). rewrite coordinate_unit in H0. unfold over. apply Rmax_right. lra.
Qed.

Lemma dist_unfold : forall p, dist_to_square p = sqrt (over (fst p) ^ 2 + over (snd p) ^ 2).
Proof. reflexivity. Qed.

Lemma dist_nonneg : forall p, 0 <= dist_to_square p.
Proof. intros. apply sqrt_pos. Qed.

Lemma dist_mono : forall p q, weakly p q = true -> dist_to_square p <= dist_to_square q.
Proof.
  intros p q H. unfold weakly in H. rewrite !dist_unfold. apply sqrt_le_1_alt.
  assert (H1 := over_mono (fst p) (fst q) ltac:(lia)). assert (H2 := over_mono (snd p) (snd q) ltac:(lia)).
  pose proof (over_nonneg (fst p)). pose proof (over_nonneg (snd p)).
  apply Rplus_le_compat; apply pow_incr; lra.
Qed.

Lemma dist_zero : forall p, (fst p <= unit)%Z -> (snd p <= unit)%Z -> dist_to_square p = 0.
Proof.
  intros p H1 H2. rewrite dist_unfold, !over_zero by auto. replace (0 ^ 2 + 0 ^ 2) with 0 by ring. try (symmetry; apply sqrt_0); apply sqrt_0.
Qed.

Lemma excess_over : forall v, (unit <= v)%Z -> excess v = over v.
Proof.
  intros v H. rewrite over_pos by exact H. unfold excess, coordinate. change one with unit. rewrite minus_IZR.
  field. pose proof unit_pos. lra.
Qed.

Lemma distance_spec : forall p, on_grid p -> (0 <= fst p)%Z -> (0 <= snd p)%Z -> distance_to_ROI p = dist_to_square p.
Proof.
  intros p G H1 H2. unfold distance_to_ROI. rewrite within_grid by auto. rewrite dist_unfold.
  change one with unit.
  destruct (Z.leb_spec (fst p) unit) as [L1|L1], (Z.leb_spec (snd p) unit) as [L2|L2]; cbn [andb].
  - rewrite (over_zero (fst p) L1), (over_zero (snd p) L2). replace (0 ^ 2 + 0 ^ 2) with 0 by ring. try (symmetry; apply sqrt_0); apply sqrt_0.
  - destruct (Z.ltb_spec unit (fst p)); [lia|]. cbn [andb].
    rewrite excess_over by lia. rewrite (over_zero (fst p) L1).
    replace (0 ^ 2 + over (snd p) ^ 2) with (over (snd p) ^ 2) by ring. symmetry. apply sqrt_pow2, over_nonneg.
  - destruct (Z.ltb_spec unit (fst p)); [|lia]. destruct (Z.ltb_spec unit (snd p)); [lia|]. cbn [andb].
    rewrite excess_over by lia. rewrite (over_zero (snd p) L2).
    replace (over (fst p) ^ 2 + 0 ^ 2) with (over (fst p) ^ 2) by ring. symmetry. apply sqrt_pow2, over_nonneg.
  - destruct (Z.ltb_spec unit (fst p)); [|lia]. destruct (Z.ltb_spec unit (snd p)); [|lia]. cbn [andb].
    rewrite !excess_over by lia. reflexivity.
Qed.

(** It is the distance to the unit square. *)
Lemma dist_is_distance : forall p, (0 <= fst p)%Z -> (0 <= snd p)%Z -> is_distance p (dist_to_square p).
Proof.
  intros p H1 H2.
  assert (C0 : coordinate 0 = 0) by (unfold coordinate; field; pose proof unit_pos; lra).
  assert (P1 := coordinate_mono 0 _ H1). assert (P2 := coordinate_mono 0 _ H2). rewrite C0 in P1, P2.
  set (a := coordinate (fst p)) in *. set (b := coordinate (snd p)) in *.
  split.
  - exists (Rmin 1 a, Rmin 1 b). split.
    + unfold in_square; cbn [fst snd]. repeat split; try apply Rmin_l; apply Rmin_glb; lra.
    + unfold dist2; cbn [fst snd]. fold a b. rewrite dist_unfold. f_equal. unfold over. fold a b.
      assert (E : forall x, (Rmax 0 (x - 1)) ^ 2 = (x - Rmin 1 x) ^ 2).
      { intros x. destruct (Rle_dec x 1).
        - rewrite Rmax_left, Rmin_right by lra. ring.
        - rewrite Rmax_right, Rmin_left by lra. ring. }
      now rewrite !E.
  - intros [u v] [Q1 Q2]. cbn [fst snd] in *. unfold dist2; cbn [fst snd]. fold a b. rewrite dist_unfold. apply sqrt_le_1_alt.
    unfold over. fold a b.
    assert (E : forall x u, 0 <= u <= 1 -> (Rmax 0 (x - 1)) ^ 2 <= (x - u) ^ 2).
    { intros x w Hw. destruct (Rle_dec x 1).
      - rewrite Rmax_left by lra. replace (0 ^ 2) with 0 by ring. apply pow2_ge_0.
      - rewrite Rmax_right by lra. apply pow_incr. lra. }
    apply Rplus_le_compat; apply E; assumption.
Qed.

Lemma nearest_snoc : forall l e, nearest (l ++ [e]) =
  match l with [] => dist_to_square (fst e) | _ => Rmin (nearest l) (dist_to_square (fst e)) end.
Proof.
  induction l as [|a l IH]; intros e; [reflexivity|]. destruct l as [|b l].
  - reflexivity.
  - change (nearest ((a :: b :: l) ++ [e])) with (Rmin (dist_to_square (fst a)) (nearest ((b :: l) ++ [e]))).
    rewrite IH. change (nearest (a :: b :: l)) with (Rmin (dist_to_square (fst a)) (nearest (b :: l))).
    now rewrite Rmin_assoc.
Qed.

Lemma nearest_le : forall l e, In e l -> nearest l <= dist_to_square (fst e).
Proof.
  induction l as [|a l IH]; intros e; [intros []|]. destruct l as [|b l].
  - intros [->|[]]. apply Rle_refl.
  - change (nearest (a :: b :: l)) with (Rmin (dist_to_square (fst a)) (nearest (b :: l))).
    intros [->|He]; [apply Rmin_l|]. eapply Rle_trans; [apply Rmin_r|]. now apply IH.
Qed.

Lemma nearest_nonneg : forall l, 0 <= nearest l.
Proof.
  induction l as [|a l IH]; [apply Rle_refl|]. destruct l as [|b l]; [apply dist_nonneg|].
  change (nearest (a :: b :: l)) with (Rmin (dist_to_square (fst a)) (nearest (b :: l))).
  apply Rmin_glb; auto. apply dist_nonneg.
Qed.

Lemma nearest_attained : forall l, l <> [] -> exists e, In e l /\ nearest l = dist_to_square (fst e).
Proof.
  induction l as [|a l IH]; [congruence|]. intros _. destruct l as [|b l].
  - exists a. split; [now left|reflexivity].
  - destruct IH as (e & He & E); [congruence|].
    change (nearest (a :: b :: l)) with (Rmin (dist_to_square (fst a)) (nearest (b :: l))).
    unfold Rmin. destruct (Rle_dec _ _); [exists a; split; [now left|reflexivity]|].
    exists e. split; [now right|auto].
Qed.

Lemma nearest_rejected : forall l e, accepted l e = false -> nearest (l ++ [e]) = nearest l.
Proof.
  intros l e A. apply accepted_false in A as (f & Hf & W). rewrite nearest_snoc. destruct l; [destruct Hf|].
  apply Rmin_left. eapply Rle_trans; [apply nearest_le, Hf|]. now apply dist_mono.
Qed.

Lemma nearest_app_le : forall l1 l2, l1 <> [] -> nearest (l1 ++ l2) <= nearest l1.
Proof.
  intros l1 l2. revert l1. induction l2 as [|e l2 IH] using rev_ind; intros l1 H.
  - rewrite app_nil_r. apply Rle_refl.
  - rewrite app_assoc, nearest_snoc. destruct (l1 ++ l2) eqn:E.
    + destruct l1; [congruence|discriminate].
    + rewrite <- E. eapply Rle_trans; [apply Rmin_l|]. now apply IH.
Qed.

(** Points outside the square dominate nothing in it. *)
Open Scope Z_scope.
Lemma area_inside : forall n pts, area n pts = area n (filter (fun p => (fst p <=? n) && (snd p <=? n)) pts).
Proof.
  intros n pts. apply area_ext. intros c Hc. apply in_cells in Hc. unfold covered.
  induction pts as [|p pts IH]; simpl; auto.
  destruct ((fst p <=? n) && (snd p <=? n)) eqn:B; simpl; rewrite IH; auto.
  assert (weakly p c = false) as -> by (unfold weakly; lia). reflexivity.
Qed.

Lemma tinv_area : forall es fa t, tinv true es fa t -> current_value t = area unit (map fst es).
Proof.
  intros es fa t I. rewrite (ti_cur _ _ _ _ I).
  pose proof (tinv_stair _ _ _ _ I) as Hs. pose proof (ti_wf _ _ _ _ I) as Hw.
  rewrite (contribs_total _ one); auto; [|apply (ti_contrib _ _ _ _ I); reflexivity].
  assert (E : area unit (map fst es) = area unit (map npt (archive t))).
  { rewrite (area_ext unit (map fst es) (map fst (front es))) by (intros; apply covered_front).
    rewrite <- (ti_front _ _ _ _ I), map_map. reflexivity. }
  rewrite E, area_inside.
  assert (F : filter (fun p => (fst p <=? unit) && (snd p <=? unit)) (map npt (archive t)) = map npt (filter within (archive t))).
  { clear -Hw. induction Hw as [|i l Hi Hw IH]; cbn [map filter]; auto. rewrite IH. pose proof (wf_within i Hi) as Wi.
    change one with unit in Wi. rewrite <- Wi. destruct (within i); reflexivity. }
  rewrite F. symmetry. change one with unit. apply stair_area_spec.
  - apply (stair_map item npt). now apply stair_filter.
  - intros p Hp. apply in_map_iff in Hp as (i & <- & Hi). apply filter_In in Hi as [Hi Wi].
    rewrite Forall_forall in Hw. specialize (Hw i Hi). rewrite (wf_within i Hw) in Wi.
    destruct Hw as (_ & ? & ? & _). change one with unit in Wi. lia.
Qed.

Lemma area_nonneg : forall n l, 0 <= area n l.
Proof. intros. unfold area. lia. Qed.

Lemma area_positive : forall n pts, 0 < area n pts -> exists p, In p pts /\ fst p <= n /\ snd p <= n.
Proof.
  intros n pts H. rewrite area_inside in H.
  destruct (filter _ pts) as [|p l] eqn:F.
  - exfalso. unfold area in H. rewrite filter_none in H; [simpl in H; lia|]. apply Forall_forall. reflexivity.
  - exists p. assert (In p (p :: l)) as Hp by now left. rewrite <- F in Hp. apply filter_In in Hp. split; [tauto|lia].
Qed.

Lemma area_rejected : forall n (es : list entry) e, accepted es e = false ->
  area n (map fst (es ++ [e])) = area n (map fst es).
Proof.
  intros n es e A. apply accepted_false in A as (f & Hf & W). apply area_ext. intros c _. rewrite map_app, covered_app. simpl.
  rewrite orb_false_r. destruct (weakly (fst e) c) eqn:X; [|now rewrite orb_false_r].
  rewrite orb_true_r. symmetry. unfold covered. apply existsb_exists. exists (fst f). split; [now apply in_map|].
  eapply weakly_trans; eauto.
Qed.
