(** Theorems about mixed-integer problems (property C48). *)
From Coq Require Import List Arith NArith ZArith Reals Bool Lia Lra.
From Flocq Require Import Core BinarySingleNaN.
Import ListNotations.
From Verif Require Import CBase OptModel DblModel DblSpec DblProofs ProbModel ProbSpec MixModel MixSpec MixProofs RandModel OptimumSpec RandSpec OptimumProps MixExact.
Open Scope R_scope.

(** The problems of the suites: for 5 m variables there are m with 2, m with 4, m with 8 and m with 16 integer values,
    and m continuous ones in [-half, half] (half is 5 for bbob-mixint and 100 for bbob-biobj-mixint). *)
Theorem C48_suite : forall C half (inner : problem C) roi best m, (0 < half <= 2 ^ 53)%Z -> (1 <= m)%nat -> inner_optimum inner best ->
  number_of_constraints (head inner) = 0%nat -> number_of_variables (head inner) = (5 * m)%nat -> length roi = (5 * m)%nat ->
  exists bs P, coco_get_bbob_mixint_problem half inner roi = Ok P /\ transform_vars_discretize inner bs (length (cardinalities m)) = Ok P /\
    integer_variables (cardinalities m) bs /\ length bs = (5 * m)%nat /\
    number_of_variables (head P) = (5 * m)%nat /\ number_of_integer_variables (head P) = (4 * m)%nat /\
    forall i b, (4 * m <= i)%nat -> nth_error bs i = Some b -> val (outer_low b) = - IZR half /\ val (outer_high b) = IZR half.
Proof.
  intros C half inner roi best m Hh Hm B Nc Nv Lr. destruct (suite_ok C half inner roi best m Hh Hm B Nc Nv Lr) as (bs & P & E1 & E2 & I & L & H).
  exists bs, P. split; [exact E1|]. split; [exact E2|]. split; [exact I|]. split; [exact L|].
  destruct (transform_ok inner bs _ P E2) as (_ & _ & _ & _ & _ & _ & Nv' & _ & _ & Ni & _). rewrite cards_length in Ni.
  split; [congruence|]. split; [exact Ni|exact H].
Qed.

Theorem C48_dimension : forall C half (inner : problem C) roi, (number_of_variables (head inner) mod 5)%nat <> 0%nat ->
  coco_get_bbob_mixint_problem half inner roi = Err.
Proof.
  intros C half inner roi H. unfold coco_get_bbob_mixint_problem. cbv zeta. apply Nat.eqb_neq in H. rewrite H. reflexivity.
Qed.

(** Only the nearest integers and the continuous coordinates matter: value and later behaviour are the same. *)
Theorem C48_same : forall C (inner : problem C) bs cs best P calls ys Q x x', inner_optimum inner best -> integer_variables cs bs ->
  transform_vars_discretize inner bs (length cs) = Ok P -> session P calls = Ok (ys, Q) ->
  length x = length best -> Forall fin x -> Forall fin x' -> same_point cs x x' ->
  coco_evaluate_function Q x = coco_evaluate_function Q x'.
Proof.
  intros C inner bs cs best P calls ys Q x x' (B1 & B2 & B3) I T S L F F' E.
  destruct (transform_ok inner bs _ P T) as (best' & ws & os & _ & _ & _ & Nv & Nc & _ & Ni & _ & Eb & _).
  destruct (session_static _ _ _ _ S) as (S1 & S2 & _ & S4 & S5 & _). apply evaluate_same with cs; auto; try congruence.
  rewrite S5, Eb. exact I.
Qed.

(** Where the inner problem is evaluated: value k of a variable with c values is 8 / (c + 1) per step away from the
    coordinate of the optimum, which belongs to the coordinate of the best parameter. *)
Theorem C48_evaluation : forall C (inner : problem C) bs cs best P ws calls ys Q x, inner_optimum inner best -> integer_variables cs bs ->
  transform_vars_discretize inner bs (length cs) = Ok P -> best_parameter (head P) = Some ws -> session P calls = Ok (ys, Q) ->
  length x = length best -> Forall fin x ->
  exists z, evaluates_at Q x z /\ length z = length x /\ Forall fin z /\
    (forall i, (length cs <= i)%nat -> nth_error z i = nth_error x i) /\
    (forall i c v w a, nth_error cs i = Some c -> nth_error best i = Some v -> nth_error ws i = Some w -> nth_error x i = Some a ->
       exists zi k k', nth_error z i = Some zi /\ val w = IZR k' /\ (0 <= k < c)%Z /\ (0 <= k' < c)%Z /\
         (val a <> below_half -> nearest c k (val a)) /\
         Rabs (val zi - (val v + 8 / IZR (c + 1) * (IZR k - IZR k'))) <= bpow radix2 (-45)).
Proof.
  intros C inner bs cs best P ws calls ys Q x (B1 & B2 & B3) I T W S L F.
  destruct (transform_ok inner bs _ P T) as (best' & ws' & os & B1' & A & W' & Nv & Nc & _ & Ni & Ei & Eb & Eo & N0).
  assert (best' = best) as -> by congruence. assert (ws' = ws) as -> by congruence.
  destruct (session_static _ _ _ _ S) as (S1 & S2 & _ & S4 & S5 & S6).
  pose proof (align_aligned cs bs best ws os I B3 A) as Al.
  destruct (discretize_all_spec _ _ _ _ _ Al x F L) as (z & Ez & Lz & Fz & Z1 & Z2).
  exists z. split.
  - apply evaluate_at; auto; try congruence.
    rewrite L. destruct best; [|cbn; lia]. exfalso. destruct cs as [|c cs]; [cbn in N0; lia|]. inversion Al.
  - split; [exact Lz|]. split; [exact Fz|]. split; [exact Z1|]. intros i c v w a H1 H2 H3 H4.
    destruct (Z2 i c v w a H1 H2 H3 H4) as (zi & k & k' & E1 & E2 & E3 & E4 & E5 & E6). exists zi, k, k'.
    repeat (split; [assumption|]). eapply Rle_trans; [exact E6|]. rewrite u_val. change (bpow radix2 (-45)) with (/ 35184372088832). lra.
Qed.

(** Steps of different integers are further apart than the rounding errors: different integers have different points. *)
Theorem C48_distinct : forall c k j v z z', (2 <= c <= 2 ^ 20)%Z -> (k < j)%Z ->
  Rabs (z - (v + 8 / IZR (c + 1) * IZR k)) <= bpow radix2 (-45) -> Rabs (z' - (v + 8 / IZR (c + 1) * IZR j)) <= bpow radix2 (-45) -> z < z'.
Proof.
  intros c k j v z z' Hc Hk A B. apply Rabs_le_inv in A. apply Rabs_le_inv in B. change (bpow radix2 (-45)) with (/ 35184372088832) in *.
  assert (W : 8 / 1048577 <= 8 / IZR (c + 1)).
  { unfold Rdiv. apply Rmult_le_compat_l; [lra|]. apply Rinv_le; [apply IZR_lt; lia|apply IZR_le; lia]. }
  assert (IZR k + 1 <= IZR j) by (rewrite <- plus_IZR; apply IZR_le; lia). nra.
Qed.

(** The best parameter: integers in range and close to the optimum, continuous coordinates unchanged; evaluating there
    evaluates the inner problem at its optimum, up to rounding errors. *)
Theorem C48_best : forall C (inner : problem C) bs cs best P calls ys Q, inner_optimum inner best -> integer_variables cs bs ->
  transform_vars_discretize inner bs (length cs) = Ok P -> session P calls = Ok (ys, Q) ->
  exists ws z, best_parameter (head P) = Some ws /\ length ws = length best /\ Forall fin ws /\ evaluates_at Q ws z /\ length z = length best /\
    (forall i, (length cs <= i)%nat -> nth_error ws i = nth_error best i /\ nth_error z i = nth_error best i) /\
    (forall i c v, nth_error cs i = Some c -> nth_error best i = Some v ->
       exists w k zi, nth_error ws i = Some w /\ val w = IZR k /\ (0 <= k < c)%Z /\
         (forall j, (0 <= j < c)%Z -> Rabs (grid c k - val v) <= Rabs (grid c j - val v) + / 500000) /\
         (Rabs (val v) <= 4 -> forall j, (0 <= j < c)%Z -> Rabs (val v + 8 / IZR (c + 1) * (IZR j - IZR k)) <= 4 + / 1000000) /\
         nth_error z i = Some zi /\ Rabs (val zi - val v) <= bpow radix2 (-49)).
Proof.
  intros C inner bs cs best P calls ys Q (B1 & B2 & B3) I T S.
  destruct (transform_ok inner bs _ P T) as (best' & ws & os & B1' & A & W' & Nv & Nc & _ & Ni & Ei & Eb & Eo & N0).
  assert (best' = best) as -> by congruence.
  destruct (session_static _ _ _ _ S) as (S1 & S2 & _ & S4 & S5 & S6).
  pose proof (align_aligned cs bs best ws os I B3 A) as Al.
  destruct (aligned_fin _ _ _ _ _ Al) as [Fw Lw]. { eapply Forall_impl; [|exact B3]. intros a [Fa _]. exact Fa. }
  destruct (discretize_all_best _ _ _ _ _ Al) as (z & Ez & Lz & Z1 & Z2).
  exists ws, z. split; [exact W'|]. split; [exact Lw|]. split; [exact Fw|]. split.
  { apply evaluate_at; auto; try congruence.
    rewrite Lw. destruct best; [|cbn; lia]. exfalso. destruct cs as [|c cs]; [cbn in N0; lia|]. inversion Al. }
  split; [exact Lz|]. split; [intros i Hi; destruct (Z1 i Hi); auto|]. intros i c v H1 H2.
  destruct (I i c H1) as [Hc _]. destruct (nth_error ws i) as [w|] eqn:Ew.
  2:{ exfalso. apply nth_error_None in Ew. assert (i < length best)%nat by (apply nth_error_Some; congruence). lia. }
  destruct (Z2 i c v w H1 H2 Ew) as (_ & (k & y & Vw & Hy & Ny) & zi & Ezi & Bz). exists w, k, zi.
  split; [reflexivity|]. split; [exact Vw|]. split; [apply Ny|]. split.
  { intros j Hj. apply best_closest with y; auto. lia. }
  split. { intros Bv j Hj. apply best_inside with y; auto. lia. }
  split; [exact Ezi|]. eapply Rle_trans; [exact Bz|]. rewrite u_val. change (bpow radix2 (-49)) with (/ 562949953421312). lra.
Qed.

(** Unchanged location: with 2, 4, 8 or 16 values and an optimum whose coordinates are multiples of 2^-51, evaluating the
    best parameter evaluates the inner problem exactly at its optimum. *)
Theorem C48_location : forall C (inner : problem C) bs cs best P ws calls ys Q, inner_optimum inner best -> integer_variables cs bs ->
  Forall (fun c => In c [2; 4; 8; 16]%Z) cs -> Forall (fun v => fine (val v) /\ val v <> 0) (firstn (length cs) best) ->
  transform_vars_discretize inner bs (length cs) = Ok P -> best_parameter (head P) = Some ws -> session P calls = Ok (ys, Q) ->
  evaluates_at Q ws best.
Proof.
  intros C inner bs cs best P ws calls ys Q (B1 & B2 & B3) I H G T W S.
  destruct (transform_ok inner bs _ P T) as (best' & ws' & os & B1' & A & W' & Nv & Nc & _ & Ni & Ei & Eb & Eo & N0).
  assert (best' = best) as -> by congruence. assert (ws' = ws) as -> by congruence.
  destruct (session_static _ _ _ _ S) as (S1 & S2 & _ & S4 & S5 & S6).
  pose proof (align_aligned cs bs best ws os I B3 A) as Al.
  destruct (aligned_fin _ _ _ _ _ Al) as [Fw Lw]. { eapply Forall_impl; [|exact B3]. intros a [Fa _]. exact Fa. }
  apply evaluate_at; auto; try congruence.
  - rewrite Lw. destruct best; [|cbn; lia]. exfalso. destruct cs as [|c cs]; [cbn in N0; lia|]. inversion Al.
  - rewrite S4, S5, S6, Ni, Eb, Eo. apply aligned_exact; auto.
Qed.

(** The locations that bbob functions start from: multiples of 2^-51, except for the replacement of 0. *)
Theorem C48_bbob_locations : forall seed dim, (- legacy_limit < seed < legacy_limit)%Z ->
  exists xs, bbob2009_compute_xopt seed dim = Ok xs /\ length xs = dim /\
    Forall (fun x => fin x /\ Rabs (val x) <= 4 /\ val x <> 0 /\ (fine (val x) \/ val x = - rnd (/ 100000))) xs.
Proof.
  intros seed dim H. destruct (C40_xopt seed dim H) as (us & xs & _ & E & L & F & R). exists xs. split; [exact E|]. split; [exact L|].
  clear - F R. induction F as [|x y us xs H F IH]; [constructor|]. apply Forall_cons_iff in R. destruct R as [[R1 R2] R]. constructor; [|auto].
  destruct H as (Fy & k & Hk & _ & A & B). split; [exact Fy|]. split; [apply Rabs_le; lra|]. split; [exact R2|].
  destruct (Z.eq_dec k 5000) as [Q|Q]; [right; auto|left]. rewrite (A Q). apply grid_fine. exact Hk.
Qed.

(** *** Examples and deviations *)
(** A problem whose value is the first coordinate *)
Definition first_class : class :=
  {| data := unit; evaluate_function := fun _ d x => do v <- mget x 0; Ok ([v], d); evaluate_constraint := None;
     recommend_solution := None; last_noise_free := fun _ => None |}.
(** -0.44 as it is computed for the location of the optimum, and 0.75 times it as in src/f_rosenbrock.c:91 *)
Definition coordinate : double := dsub (ddiv (dmul (dint 8) (dint 4450)) (dint 10000)) (dint 4).
Definition opt : double := dmul coordinate (ddec 75 2).
Lemma coordinate_val : val coordinate = grid_point 4 4450.
Proof.
  unfold coordinate, grid_point. destruct (dint_val 8 ltac:(lia)) as [F8 V8]. destruct (dint_val 4450 ltac:(lia)) as [F1 V1].
    destruct (dint_val 10000 ltac:(lia)) as [F2 V2]. destruct (dint_val 4 ltac:(lia)) as [F3 V3].
    destruct (dmul_val (dint 8) (dint 4450) F8 F1) as [N4 V4]. destruct (exact_int _ _ N4 V4 35600%Z ltac:(rewrite V8, V1; lra) ltac:(lia)) as [F5 V5].
    destruct (ddiv_val _ _ F5 ltac:(rewrite V2; lra) F2) as [N6 V6]. rewrite V5, V2 in V6.
    change (2 * 4 * 4450)%Z with 35600%Z.
    destruct (small_rnd (35600 / 10000) 4 ltac:(apply Rabs_le; lra) ltac:(lra)) as (C6 & B6 & E6). rewrite C6 in V6.
    assert (F6 : fin (ddiv (dmul (dint 8) (dint 4450)) (dint 10000))) by (apply fin_val; [exact N6|]; rewrite V6; apply Rabs_def2 in B6; lra).
    destruct (dsub_val _ _ F6 F3) as [N7 V7]. rewrite V6, V3 in V7. rewrite V7. apply Rabs_le_inv in E6. pose proof u_pos.
    destruct (small_rnd (rnd (35600 / 10000) - 4) 5 ltac:(apply Rabs_le; lra) ltac:(lra)) as (C7 & _). exact C7.
Qed.
Definition example_inner : problem first_class :=
  Build_problem first_class (coco_problem_allocate 5 1 0 0 None (Some [opt; opt; opt; opt; opt])) tt.
Definition example_roi : list (double * double) := repeat (dint (-5), dint 5) 5.
Definition example_rest : list double := [dint 1; dint 2; dint 3; dint 0].
Definition just_below_half : double := dsub half (ddiv (dint 1) (dint (2 ^ 54))).

Opaque opt coordinate just_below_half.
Lemma opt_fin : fin opt /\ -1 <= val opt < 0.
Proof.
  assert (F : fin opt) by (vm_compute; reflexivity). split; [exact F|].
  assert (A : dlt opt dzero = true) by (vm_compute; reflexivity). assert (B : dle (dint (-1)) opt = true) by (vm_compute; reflexivity).
  destruct (dint_val (-1) ltac:(lia)) as [F1 V1]. apply (proj1 (dlt_val _ _ (fin_num _ F) (fin_num _ (proj1 zero_fin)))) in A. apply (proj1 (dle_val _ _ (fin_num _ F1) (fin_num _ F))) in B.
  rewrite V1 in B. destruct zero_fin as [_ Vz]. rewrite Vz in A. lra.
Qed.
Lemma example_optimum : inner_optimum example_inner [opt; opt; opt; opt; opt].
Proof.
  split; [reflexivity|]. split; [reflexivity|]. destruct opt_fin as [F V]. repeat (constructor; [split; [exact F|apply Rabs_le; lra]|]). constructor.
Qed.

Example C48_suite_example : exists bs P, coco_get_bbob_mixint_problem 5 example_inner example_roi = Ok P /\
  transform_vars_discretize example_inner bs 4 = Ok P /\ integer_variables [2; 4; 8; 16]%Z bs /\ number_of_integer_variables (head P) = 4%nat.
Proof.
  destruct (C48_suite first_class 5 example_inner example_roi _ 1 ltac:(lia) ltac:(lia) example_optimum eq_refl eq_refl eq_refl)
    as (bs & P & E1 & E2 & I & _ & _ & Ni & _). exists bs, P. auto.
Qed.

(** Other coordinates: the inner problem is not evaluated exactly at its optimum. *)
Definition location_check : bool :=
  match coco_get_bbob_mixint_problem 5 example_inner example_roi with
  | Ok P => match best_parameter (head P) with
    | Some ws => match coco_evaluate_function example_inner [opt; opt; opt; opt; opt], coco_evaluate_function P ws with
      | Ok ([y], _), Ok ([y'], _) => dlt y y' || dlt y' y
      | _, _ => false
      end
    | None => false
    end
  | _ => false
  end.
Lemma differ_val : forall y y', dlt y y' || dlt y' y = true -> val y <> val y'.
Proof.
  intros y y' H. apply orb_true_iff in H. destruct H as [H|H]; destruct (dlt_num _ _ H) as [N N']; apply dlt_val in H; auto; lra.
Qed.
Theorem C48_location_refuted : exists C (inner : problem C) best roi P ws y y' R R',
  inner_optimum inner best /\ coco_get_bbob_mixint_problem 5 inner roi = Ok P /\ best_parameter (head P) = Some ws /\
  coco_evaluate_function inner best = Ok ([y], R) /\ coco_evaluate_function P ws = Ok ([y'], R') /\ val y <> val y'.
Proof.
  assert (H : location_check = true) by (vm_compute; reflexivity). unfold location_check in H.
  destruct (coco_get_bbob_mixint_problem 5 example_inner example_roi) as [P| |] eqn:E1; [|discriminate|discriminate].
  destruct (best_parameter (head P)) as [ws|] eqn:E2; [|discriminate].
  destruct (coco_evaluate_function example_inner [opt; opt; opt; opt; opt]) as [[[|y [|]] R]| |] eqn:E3; [discriminate| |discriminate|discriminate|discriminate].
  destruct (coco_evaluate_function P ws) as [[[|y' [|]] R']| |] eqn:E4; [discriminate| |discriminate|discriminate|discriminate].
  exists first_class, example_inner, [opt; opt; opt; opt; opt], example_roi, P, ws, y, y', R, R'.
  split; [exact example_optimum|]. repeat (split; [assumption|]). apply differ_val. exact H.
Qed.

(** The largest double below 1/2 has the nearest integer 0, but not the value of 0. *)
Definition half_check (r : res (problem (discretize_class first_class))) (x x' : list double) : bool :=
  match r with
  | Ok P => match coco_evaluate_function P x, coco_evaluate_function P x' with
    | Ok ([y], _), Ok ([y'], _) => dlt y y' || dlt y' y
    | _, _ => false
    end
  | _ => false
  end.
Lemma half_check_true : forall r x x', half_check r x x' = true -> exists P y y' R R', r = Ok P /\
  coco_evaluate_function P x = Ok ([y], R) /\ coco_evaluate_function P x' = Ok ([y'], R') /\ val y <> val y'.
Proof.
  intros r x x' H. unfold half_check in H. destruct r as [P| |]; [|discriminate|discriminate].
  destruct (coco_evaluate_function P x) as [[[|y [|]] R]| |] eqn:E3; [discriminate| |discriminate|discriminate|discriminate].
  destruct (coco_evaluate_function P x') as [[[|y' [|]] R']| |] eqn:E4; [discriminate| |discriminate|discriminate|discriminate].
  exists P, y, y', R, R'. split; [reflexivity|]. split; [exact E3|]. split; [exact E4|]. apply differ_val. exact H.
Qed.
Lemma just_below_fin : fin just_below_half.
Proof. vm_compute. reflexivity. Qed.
Lemma below_nearest : forall v, v < 1/2 -> nearest 2 0 v.
Proof. intros v H. split; [lia|]. split; [left; reflexivity|right]. lra. Qed.
Lemma nearest_zero : forall v, v = IZR 0 -> nearest 2 0 v.
Proof. intros v ->. apply below_nearest. lra. Qed.
Lemma just_below_nearest : nearest 2 0 (val just_below_half).
Proof.
  apply below_nearest. assert (L : dlt just_below_half half = true) by (vm_compute; reflexivity).
  destruct half_val as [Fhalf Vhalf]. rewrite <- Vhalf. exact (proj1 (dlt_val _ _ (fin_num _ just_below_fin) (fin_num _ Fhalf)) L).
Qed.
Theorem C48_half_refuted : exists C (inner : problem C) best roi P x x' rest y y' R R',
  inner_optimum inner best /\ coco_get_bbob_mixint_problem 5 inner roi = Ok P /\
  fin x /\ fin x' /\ nearest 2 0 (val x) /\ nearest 2 0 (val x') /\
  coco_evaluate_function P (x :: rest) = Ok ([y], R) /\ coco_evaluate_function P (x' :: rest) = Ok ([y'], R') /\ val y <> val y'.
Proof.
  assert (H : half_check (coco_get_bbob_mixint_problem 5 example_inner example_roi) (dint 0 :: example_rest) (just_below_half :: example_rest) = true)
    by (vm_compute; reflexivity).
  destruct (half_check_true _ _ _ H) as (P & y & y' & R & R' & E1 & E3 & E4 & D).
  exists first_class, example_inner, [opt; opt; opt; opt; opt], example_roi, P, (dint 0), just_below_half, example_rest, y, y', R, R'.
  split; [exact example_optimum|]. split; [exact E1|]. destruct (dint_val 0 ltac:(lia)) as [F0 V0]. split; [exact F0|].
  split; [exact just_below_fin|]. split; [exact (nearest_zero _ V0)|]. split; [exact just_below_nearest|]. split; [exact E3|]. split; [exact E4|]. exact D.
Qed.

(** Points with the same integers *)
Definition quarter (z : Z) : double := ddiv (dint z) (dint 4).
Lemma quarter_val : forall z, (Z.abs z <= 100)%Z -> fin (quarter z) /\ val (quarter z) = IZR z / 4.
Proof.
  intros z Hz. unfold quarter. destruct (dint_val z ltac:(lia)) as [F1 V1]. destruct (dint_val 4 ltac:(lia)) as [F2 V2].
  destruct (ddiv_val (dint z) (dint 4) F1 ltac:(rewrite V2; lra) F2) as [Nn V]. rewrite V1, V2 in V.
  assert (R : rnd (IZR z / 4) = IZR z / 4).
  { apply round_generic; [auto with typeclass_instances|]. apply generic_format_FLT. exists (Float radix2 z (-2)).
    - unfold F2R. cbn [Fnum Fexp]. change (bpow radix2 (-2)) with (/ 4). lra.
    - cbn [Fnum]. change (Zpower radix2 53) with (2 ^ 53)%Z. lia.
    - cbn. lia. }
  rewrite R in V. assert (B : Rabs (IZR z / 4) < big).
  { apply Rle_lt_trans with (IZR (2 ^ 53)); [|apply big_53]. assert (-100 <= IZR z <= 100) by (split; apply IZR_le; lia).
    apply Rle_trans with 100; [apply Rabs_le; lra|apply IZR_le; lia]. }
  rewrite clamp_lt in V by exact B. split; [|exact V]. apply fin_val; [exact Nn|]. rewrite V. apply Rabs_def2 in B. lra.
Qed.
Example C48_same_example : forall P calls ys Q, coco_get_bbob_mixint_problem 5 example_inner example_roi = Ok P -> session P calls = Ok (ys, Q) ->
  coco_evaluate_function Q (map quarter [0; 4; 8; 12; 0]%Z) = coco_evaluate_function Q (map quarter [-7; 3; 9; 10; 0]%Z).
Proof.
  intros P calls ys Q E S. destruct C48_suite_example as (bs & P' & E1 & E2 & I & _). assert (P' = P) as -> by congruence.
  assert (Fq : forall l, Forall (fun z => (Z.abs z <= 100)%Z) l -> Forall fin (map quarter l)).
  { intros l H. apply Forall_map. eapply Forall_impl; [|exact H]. intros z Hz. apply quarter_val. exact Hz. }
  apply (C48_same first_class example_inner bs [2; 4; 8; 16]%Z _ P calls ys Q _ _ example_optimum I E2 S); [reflexivity| | |].
  - apply Fq. repeat (constructor; [lia|]). constructor.
  - apply Fq. repeat (constructor; [lia|]). constructor.
  - split; [reflexivity|].
    assert (N : forall c k z z', (Z.abs z <= 100)%Z -> (Z.abs z' <= 100)%Z -> (0 <= k < c)%Z -> (k = 0 \/ 4 * k - 2 <= z /\ 4 * k - 2 <= z')%Z ->
      (k = c - 1 \/ z < 4 * k + 2 /\ z' < 4 * k + 2)%Z -> (z <= 1 \/ 2 <= z)%Z -> (z' <= 1 \/ 2 <= z')%Z ->
      exists k, nearest c k (val (quarter z)) /\ nearest c k (val (quarter z')) /\ val (quarter z) <> below_half /\ val (quarter z') <> below_half).
    { intros c k z z' Hz Hz' Hk A B G G'. exists k. destruct (quarter_val z Hz) as [_ ->]. destruct (quarter_val z' Hz') as [_ ->].
      assert (BH : forall t, (t <= 1 \/ 2 <= t)%Z -> IZR t / 4 <> below_half).
      { intros t Ht Q'. unfold below_half in Q'. change (bpow radix2 (-54)) with (/ 18014398509481984) in Q'.
        destruct Ht as [Ht|Ht]; apply IZR_le in Ht; lra. }
      assert (NE : forall t, (k = 0 \/ 4 * k - 2 <= t)%Z -> (k = c - 1 \/ t < 4 * k + 2)%Z -> nearest c k (IZR t / 4)).
      { intros t A1 B1. split; [exact Hk|]. split.
        - destruct A1 as [?|A1]; [left; assumption|right]. apply IZR_le in A1. rewrite minus_IZR, mult_IZR in A1. lra.
        - destruct B1 as [?|B1]; [left; assumption|right]. apply IZR_lt in B1. rewrite plus_IZR, mult_IZR in B1. lra. }
      split; [apply NE; lia|]. split; [apply NE; lia|]. split; apply BH; assumption. }
    intros i a a' Ha Ha'. destruct i as [|[|[|[|[|i]]]]]; cbn [nth_error map] in Ha, Ha' |- *.
    + assert (a = quarter 0) as -> by congruence. assert (a' = quarter (-7)) as -> by congruence. split; [|discriminate].
      intros c Hc. assert (c = 2%Z) as -> by congruence. apply N with 0%Z; lia.
    + assert (a = quarter 4) as -> by congruence. assert (a' = quarter 3) as -> by congruence. split; [|discriminate].
      intros c Hc. assert (c = 4%Z) as -> by congruence. apply N with 1%Z; lia.
    + assert (a = quarter 8) as -> by congruence. assert (a' = quarter 9) as -> by congruence. split; [|discriminate].
      intros c Hc. assert (c = 8%Z) as -> by congruence. apply N with 2%Z; lia.
    + assert (a = quarter 12) as -> by congruence. assert (a' = quarter 10) as -> by congruence. split; [|discriminate].
      intros c Hc. assert (c = 16%Z) as -> by congruence. apply N with 3%Z; lia.
    + split; [discriminate|]. intros _. congruence.
    + destruct i; discriminate.
Qed.

(** The best parameter of the example *)
Example C48_best_example : exists P ws z, coco_get_bbob_mixint_problem 5 example_inner example_roi = Ok P /\ best_parameter (head P) = Some ws /\
  evaluates_at P ws z /\ length z = 5%nat /\ exists w zi, nth_error ws 0 = Some w /\ nth_error z 0 = Some zi /\ Rabs (val zi - val opt) <= bpow radix2 (-49).
Proof.
  destruct C48_suite_example as (bs & P & E1 & E2 & I & _).
  destruct (C48_best first_class example_inner bs [2; 4; 8; 16]%Z _ P [] [] P example_optimum I E2 eq_refl) as (ws & z & W & _ & _ & Ev & Lz & _ & H).
  destruct (H 0%nat 2%Z opt eq_refl eq_refl) as (w & k & zi & Ew & _ & _ & _ & _ & Ez & B).
  exists P, ws, z. split; [exact E1|]. split; [exact W|]. split; [exact Ev|]. split; [exact Lz|]. exists w, zi. auto.
Qed.
Example C48_evaluation_example : exists P z, coco_get_bbob_mixint_problem 5 example_inner example_roi = Ok P /\
  evaluates_at P (map quarter [0; 4; 8; 12; 0]%Z) z /\ nth_error z 4 = Some (quarter 0).
Proof.
  destruct C48_suite_example as (bs & P & E1 & E2 & I & _).
  destruct (C48_best first_class example_inner bs [2; 4; 8; 16]%Z _ P [] [] P example_optimum I E2 eq_refl) as (ws & _ & W & _).
  destruct (C48_evaluation first_class example_inner bs [2; 4; 8; 16]%Z _ P ws [] [] P (map quarter [0; 4; 8; 12; 0]%Z) example_optimum I E2 W eq_refl)
    as (z & Ev & _ & _ & Z1 & _); [reflexivity| |].
  - apply Forall_map. repeat (constructor; [apply quarter_val; lia|]). constructor.
  - exists P, z. split; [exact E1|]. split; [exact Ev|]. rewrite Z1 by (cbn; lia). reflexivity.
Qed.

Example C48_distinct_example : -4/3 < 4/3.
Proof.
  apply (C48_distinct 2 0 1 (-4/3)); try lia; change (bpow radix2 (-45)) with (/ 35184372088832); cbn; apply Rabs_le; lra.
Qed.

(** The location is unchanged when the coordinates are those of most functions *)
Definition fine_inner : problem first_class :=
  Build_problem first_class (coco_problem_allocate 5 1 0 0 None (Some (repeat coordinate 5))) tt.
Example C48_location_example : exists P ws, coco_get_bbob_mixint_problem 5 fine_inner example_roi = Ok P /\ best_parameter (head P) = Some ws /\
  evaluates_at P ws (repeat coordinate 5) /\ coco_evaluate_function P ws <> UB.
Proof.
  assert (Fc : fin coordinate) by (vm_compute; reflexivity).
  pose proof coordinate_val as Vc.
  assert (Nc : val coordinate <> 0).
  { intros E0. assert (L : dlt coordinate dzero = true) by (vm_compute; reflexivity). apply (proj1 (dlt_val _ _ (fin_num _ Fc) (fin_num _ (proj1 zero_fin)))) in L.
    destruct zero_fin as [_ Vz]. rewrite Vz in L. lra. }
  assert (Bc : Rabs (val coordinate) <= 5).
  { assert (L : dlt coordinate dzero = true) by (vm_compute; reflexivity). apply (proj1 (dlt_val _ _ (fin_num _ Fc) (fin_num _ (proj1 zero_fin)))) in L.
    assert (L2 : dle (dint (-1)) coordinate = true) by (vm_compute; reflexivity). destruct (dint_val (-1) ltac:(lia)) as [F1 V1].
    apply (proj1 (dle_val _ _ (fin_num _ F1) (fin_num _ Fc))) in L2. destruct zero_fin as [_ Vz]. rewrite Vz in L. rewrite V1 in L2. apply Rabs_le. lra. }
  assert (O : inner_optimum fine_inner (repeat coordinate 5)).
  { split; [reflexivity|]. split; [reflexivity|]. cbn [repeat]. repeat (constructor; [split; assumption|]). constructor. }
  destruct (C48_suite first_class 5 fine_inner example_roi _ 1 ltac:(lia) ltac:(lia) O eq_refl eq_refl eq_refl)
    as (bs & P & E1 & E2 & I & _ & _ & Ni & _).
  destruct (C48_best first_class fine_inner bs _ _ P [] [] P O I E2 eq_refl) as (ws & _ & W & _).
  assert (Ev : evaluates_at P ws (repeat coordinate 5)).
  { apply (C48_location first_class fine_inner bs (cardinalities 1) _ P ws [] [] P O I); auto.
    - cbn. repeat (constructor; [cbn; tauto|]). constructor.
    - cbn [cardinalities flat_map repeat app length firstn]. repeat (constructor; [split; [rewrite Vc; apply grid_fine; lia|exact Nc]|]). constructor. }
  exists P, ws. split; [exact E1|]. split; [exact W|]. split; [exact Ev|].
  destruct (coco_evaluate_function fine_inner (repeat coordinate 5)) as [[y R]| |] eqn:E.
  - destruct (transform_ok fine_inner bs _ P E2) as (_ & _ & _ & _ & _ & _ & _ & _ & _ & _ & Ei & _).
    destruct (Ev y R) as (Q & EQ & _); [|rewrite Ei; exact E|rewrite EQ; discriminate].
    intros ->. unfold coco_evaluate_function in E. cbn in E. destruct (coco_is_inf coordinate) eqn:Q1; [vm_compute in Q1; discriminate|].
    cbn in E. destruct (coco_is_nan coordinate) eqn:Q2; [vm_compute in Q2; discriminate|]. cbn in E. destruct (dlt coordinate _); discriminate.
  - exfalso. assert (match coco_evaluate_function fine_inner (repeat coordinate 5) with Ok _ => true | _ => false end = true) by (vm_compute; reflexivity). rewrite E in *. discriminate.
  - exfalso. assert (match coco_evaluate_function fine_inner (repeat coordinate 5) with Ok _ => true | _ => false end = true) by (vm_compute; reflexivity). rewrite E in *. discriminate.
Qed.

Example C48_dimension_example : coco_get_bbob_mixint_problem 5
  (Build_problem first_class (coco_problem_allocate 7 1 0 0 None (Some (repeat coordinate 7))) tt) (repeat (dint (-5), dint 5) 7) = Err.
Proof. apply C48_dimension. vm_compute. discriminate. Qed.
Example C48_bbob_locations_example : exists xs, bbob2009_compute_xopt 10001 5 = Ok xs /\ length xs = 5%nat /\
  Forall (fun x => fin x /\ Rabs (val x) <= 4 /\ val x <> 0 /\ (fine (val x) \/ val x = - rnd (/ 100000))) xs.
Proof. apply C48_bbob_locations. unfold legacy_limit. lia. Qed.

Print Assumptions C48_suite.
Print Assumptions C48_dimension.
Print Assumptions C48_same.
Print Assumptions C48_evaluation.
Print Assumptions C48_distinct.
Print Assumptions C48_best.
Print Assumptions C48_location.
Print Assumptions C48_bbob_locations.
Print Assumptions C48_location_refuted.
Print Assumptions C48_half_refuted.
