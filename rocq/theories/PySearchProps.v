(** C85: random search. *)
From Coq Require Import List Arith ZArith Bool Reals Lia Lra.
From Flocq Require Import Core BinarySingleNaN.
From Verif Require Import CBase DblModel DblSpec DblProofs ProbSpec ProbProofs PySearchModel PySearchSpec PySearchProofs
  PyPropSpec PyPropProps.
Import ListNotations.
Local Open Scope nat_scope.

(** The evaluated points are those of the first rows of random numbers; their number without constraints is the budget.  With constraints
    every evaluation is counted twice, and up to one chunk of evaluations goes beyond the budget. *)
Theorem C85_evaluations : forall P lower upper budget rows, lower <> [] ->
  let s := random_search P lower upper budget rows in let n := length (history s) in
  history s = map (fun k => point lower upper (rows k)) (seq 0 n) /\
  (number_of_constraints P = 0 -> n = Z.to_nat budget /\ constraint_calls s = 0) /\
  (0 < number_of_constraints P -> constraint_calls s = n /\
     ((0 < budget)%Z -> (budget <= Z.of_nat (n + constraint_calls s) <= budget + (1 + 40000 / Z.of_nat (length lower)))%Z /\ n <= Z.to_nat budget)).
Proof.
  intros P lower upper budget rows NE s n.
  set (M := (1 + 40000 / Z.of_nat (length lower))%Z).
  assert (HM : (1 <= M)%Z).
  { unfold M. assert (0 <= 40000 / Z.of_nat (length lower))%Z by (apply Z.div_pos; [discriminate|destruct lower; [contradiction|cbn [length]; lia]]). lia. }
  destruct (loop_inv P lower upper rows (fun b s =>
    history s = map (fun k => point lower upper (rows k)) (seq 0 (length (history s))) /\
    (number_of_constraints P = 0 -> (Z.of_nat (length (history s)) = Z.max 0 budget - Z.max 0 b)%Z /\ (0 < budget -> 0 <= b)%Z /\ constraint_calls s = 0) /\
    ((0 < number_of_constraints P)%nat -> constraint_calls s = length (history s) /\
       (0 < budget -> Z.of_nat (2 * length (history s)) = budget - b /\ - M <= b <= budget /\ (b <= 0 \/ Z.of_nat (length (history s)) + b <= budget) /\
        Z.of_nat (length (history s)) <= budget))%Z) ) with (fuel := Z.to_nat budget) (budget := budget) (s := mk_search [] 0 None None) as (b' & B & I1 & I2 & I3).
  - intros b s0 Hb (H1 & H2 & H3). cbv zeta. fold M. set (c := chunk_size (length lower) b).
    assert (Hc : (1 <= c <= M /\ c <= b)%Z) by (unfold c, chunk_size; fold M; lia).
    rewrite pass_history, pass_constraints, app_length, map_length, seq_length. split; [|split].
    + rewrite seq_app, map_app. rewrite <- H1 at 1. reflexivity.
    + intros C. specialize (H2 C). rewrite C. unfold cost. rewrite C. cbn [Nat.ltb Nat.leb]. rewrite Nat.add_0_r. rewrite Nat2Z.inj_add, Z2Nat.id by lia. lia.
    + intros C. specialize (H3 C). unfold cost. destruct (Nat.ltb_spec 0 (number_of_constraints P)); [|lia]. destruct H3 as [H3 H4].
      split; [rewrite H3; reflexivity|]. intros Hbud. specialize (H4 Hbud). rewrite !Nat2Z.inj_mul, !Nat2Z.inj_add, Z2Nat.id in * by lia. change (Z.of_nat 2) with 2%Z in *.
      lia.
  - lia.
  - cbn [history length constraint_calls]. split; [reflexivity|]. split; [intros _; lia|]. intros _. split; [reflexivity|]. intros Hb. clearbody M. cbn. lia.
  - fold (random_search P lower upper budget rows) in I1, I2, I3. fold s in I1, I2, I3. fold n in I1, I2, I3. split; [exact I1|]. split.
    + intros C. specialize (I2 C). split; [lia|apply I2].
    + intros C. specialize (I3 C). destruct I3 as [I3 I4]. split; [exact I3|]. intros Hb. specialize (I4 Hb). rewrite I3. fold M. lia.
Qed.

(** One objective, values that are numbers, and all evaluated points feasible (always, if there are no constraints): the result is the first
    evaluated point with the smallest value. *)
Theorem C85_best : forall P lower upper budget rows V, lower <> [] -> number_of_objectives P = 1 ->
  let s := random_search P lower upper budget rows in
  values_of P (history s) V -> Forall num V ->
  (number_of_constraints P = 0 \/ Forall (satisfies P) (history s)) ->
  first_best (history s) V (x_min s).
Proof.
  intros P lower upper budget rows V NE O s E F C. apply values_call_all in E. subst V.
  destruct (loop_inv P lower upper rows (fun _ s => fine P (history s) -> best_so_far P s)) with (fuel := Z.to_nat budget) (budget := budget) (s := mk_search [] 0 None None)
    as (b' & B & I1).
  - intros b s0 Hb H. cbv zeta. apply pass_best; [exact O| |exact H]. assert (1 <= chunk_size (length lower) b)%Z by (unfold chunk_size; lia).
    destruct (Z.to_nat (chunk_size (length lower) b)) eqn:Q; [lia|]. discriminate.
  - lia.
  - intros _. reflexivity.
  - fold (random_search P lower upper budget rows) in I1. fold s in I1. specialize (I1 (conj F C)). unfold best_so_far in I1. unfold first_best.
    destruct (x_min s) as [x|], (f_min s) as [v|]; try contradiction; [|exact I1]. destruct I1 as (i & Ei & L1 & L2 & L3).
    exists i, v. split; [exact Ei|]. split; [exact L1|]. split; [exact L2|exact L3].
Qed.
(** Several objectives: no result *)
Theorem C85_objectives : forall P lower upper budget rows, number_of_objectives P <> 1 -> x_min (random_search P lower upper budget rows) = None.
Proof.
  intros P lower upper budget rows O.
  destruct (loop_inv P lower upper rows (fun _ s => x_min s = None)) with (fuel := Z.to_nat budget) (budget := budget) (s := mk_search [] 0 None None) as (b' & B & I1).
  - intros b s0 Hb H. cbv zeta. rewrite pass_objectives by exact O. exact H.
  - lia.
  - reflexivity.
  - exact I1.
Qed.

(** All evaluated points are inside of the bounds. *)
Local Open Scope R_scope.
Lemma point_one : forall l u r a b, integer_bound l a -> integer_bound u b -> (a <= b)%Z -> unit_draw r -> inside l u (dadd l (dmul (dsub u l) r)).
Proof.
  intros l u r a b (Fl & Vl & Sl) (Fu & Vu & Su) L (Fr & Hr). pose proof pow50 as P50.
  assert (Ia : Rabs (IZR a) <= IZR (2 ^ 50)) by (rewrite <- abs_IZR; apply IZR_le; exact Sl).
  assert (Ib : Rabs (IZR b) <= IZR (2 ^ 50)) by (rewrite <- abs_IZR; apply IZR_le; exact Su).
  apply Rabs_le_inv in Ia, Ib. apply IZR_le in L.
  assert (Q : IZR (2 ^ 50) * 8 <= IZR (2 ^ 53)) by (rewrite <- mult_IZR; apply IZR_le; discriminate).
  destruct (dsub_val u l Fu Fl) as [N1 E1]. rewrite Vu, Vl in E1. rewrite <- minus_IZR in E1.
  assert (Z1 : (Z.abs (b - a) <= 2 ^ 53)%Z).
  { change (2 ^ 53)%Z with (2 ^ 50 * 8)%Z. set (m := (2 ^ 50)%Z) in *. lia. }
  rewrite (rnd_int _ Z1) in E1.
  assert (B1 : Rabs (IZR (b - a)) <= IZR (2 ^ 53)) by (rewrite <- abs_IZR; apply IZR_le; exact Z1).
  rewrite clamp_id in E1 by (pose proof big_53; lra).
  assert (F1 : fin (dsub u l)) by (apply small_fin; [exact N1|rewrite E1; exact B1]).
  rewrite minus_IZR in *. rewrite Rabs_pos_eq in B1 by lra.
  destruct (dmul_val (dsub u l) r F1 Fr) as [N4 E4]. rewrite E1 in E4.
  assert (Bm : 0 <= (IZR b - IZR a) * val r <= IZR b - IZR a).
  { split; [apply Rmult_le_pos; lra|]. rewrite <- (Rmult_1_r (IZR b - IZR a)) at 2. apply Rmult_le_compat_l; lra. }
  assert (Sm : Rabs ((IZR b - IZR a) * val r) <= IZR (2 ^ 53)) by (apply Rabs_le; lra).
  destruct (clamp_small _ Sm) as [C4 B4]. rewrite C4 in E4.
  assert (F4 : fin (dmul (dsub u l) r)) by (apply small_fin; [exact N4|rewrite E4; exact B4]).
  assert (R4 : 0 <= val (dmul (dsub u l) r) <= IZR b - IZR a).
  { rewrite E4. rewrite <- minus_IZR in * |- *. split; [rewrite <- rnd_0; apply rnd_mono; lra|].
    apply Rle_trans with (rnd (IZR (b - a))); [apply rnd_mono; lra|rewrite (rnd_int _ Z1); lra]. }
  destruct (dadd_val l _ Fl F4) as [N5 E5]. set (m := val (dmul (dsub u l) r)) in *. rewrite Vl in E5.
  assert (S5 : Rabs (IZR a + m) <= IZR (2 ^ 53)) by (apply Rabs_le; lra).
  destruct (clamp_small _ S5) as [C5 B5]. rewrite C5 in E5. split; [apply small_fin; [exact N5|rewrite E5; exact B5]|].
  rewrite Vl, Vu, E5. assert (Za : (Z.abs a <= 2 ^ 53)%Z) by (eapply Z.le_trans; [exact Sl|discriminate]).
  assert (Zb : (Z.abs b <= 2 ^ 53)%Z) by (eapply Z.le_trans; [exact Su|discriminate]).
  rewrite <- (rnd_int a Za) at 1. rewrite <- (rnd_int b Zb). split; apply rnd_mono; lra.
Qed.
Theorem C85_inside : forall P lower upper budget rows, proper_domain lower upper -> lower <> [] ->
  (forall k, length (rows k) = length lower /\ Forall unit_draw (rows k)) ->
  forall x, In x (history (random_search P lower upper budget rows)) ->
  length x = length lower /\
  forall i l u a, nth_error lower i = Some l -> nth_error upper i = Some u -> nth_error x i = Some a -> inside l u a.
Proof.
  intros P lower upper budget rows D NE R x H.
  destruct (C85_evaluations P lower upper budget rows NE) as [E _]. rewrite E in H. apply in_map_iff in H as (k & <- & _).
  destruct (R k) as [L F]. clear -D L F. revert L F. generalize (rows k) as r. induction D as [|l u lower upper (a & b & Hl & Hu & HL) D IH]; intros [|r rs] L F; try discriminate L.
  - split; [reflexivity|]. intros [|i] ? ? ? E; discriminate E.
  - inversion F as [|? ? Fr Fs]; subst. destruct (IH rs (eq_add_S _ _ L) Fs) as [I1 I2]. split.
    + cbn [point combine map length] in *. f_equal. exact I1.
    + intros [|i] l0 u0 x El Eu Ex; cbn in El, Eu, Ex.
      * injection El as <-. injection Eu as <-. injection Ex as <-. eapply point_one; eassumption.
      * apply (I2 i l0 u0 x El Eu Ex).
Qed.

(** Deviations *)
Local Open Scope nat_scope.
(** One variable in [0, 4], minimise x subject to x >= 2: the point returned is infeasible and not the best one. *)
Definition from_two : problem_view := mk_problem 1 1 (fun _ x => hd dzero x) (fun x => [dsub (dint 2) (hd dzero x)]).
Definition two_rows (k : nat) : list double := [if k =? 0 then ddec 25 2 else if k =? 1 then ddec 75 2 else ddec 5 1].
Theorem C85_wrong_point_refuted : exists P lower upper budget rows x y,
  x_min (random_search P lower upper budget rows) = Some x /\ ~ satisfies P x /\
  In y (history (random_search P lower upper budget rows)) /\ satisfies P y.
Proof.
  set (s := random_search from_two [dint 0] [dint 4] 2 two_rows).
  set (ok := fun x => forallb (fun c => dle c dzero) (constraint from_two x)).
  assert (A : match x_min s with Some x => ok x | None => true end = false) by (vm_compute; reflexivity).
  assert (B : existsb ok (history s) = true) by (vm_compute; reflexivity).
  destruct (x_min s) as [x|] eqn:E; [|discriminate A]. apply existsb_exists in B as (y & Iy & By).
  exists from_two, [dint 0], [dint 4], 2%Z, two_rows, x, y. fold s. split; [exact E|]. split; [|split; [exact Iy|]].
  - intros S. apply satisfies_test in S. unfold ok in A. congruence.
  - unfold satisfies. apply Forall_forall. intros c Ic. unfold ok in By. rewrite forallb_forall in By. specialize (By c Ic).
    destruct (dle_num _ _ By) as [N _]. split; [exact N|]. apply dle_val in By; [exact By|exact N|reflexivity].
Qed.
(** The calls of problem and constraints are more than the budget. *)
Theorem C85_budget_refuted : exists P lower upper budget rows, let s := random_search P lower upper budget rows in
  (Z.of_nat (length (history s) + constraint_calls s) = 2 * budget /\ 0 < budget)%Z.
Proof. exists from_two, [dint 0], [dint 4], 2%Z, two_rows. vm_compute. split; reflexivity. Qed.
(** A value that is NaN hides all others. *)
Theorem C85_nan_refuted : exists P, number_of_constraints P = 0 /\
  match history (random_search P [dint 0] [dint 4] 2 two_rows), x_min (random_search P [dint 0] [dint 4] 2 two_rows) with
  | [a; b], Some x => is_nan (value P [] a) = false /\ is_nan (value P [a] b) = true /\ deq (hd dzero x) (hd dzero b) = true
  | _, _ => False
  end.
Proof.
  exists (mk_problem 0 1 (fun h x => if length h =? 1 then dnan else hd dzero x) (fun _ => [])). split; [reflexivity|].
  vm_compute. split; [reflexivity|split; reflexivity].
Qed.

(** Example: x in [0, 4] *)
Example C85_example :
  let P := mk_problem 0 1 (fun _ x => hd dzero x) (fun _ => []) in let s := random_search P [dint 0] [dint 4] 2 two_rows in
  proper_domain [dint 0] [dint 4] /\ (forall k, length (two_rows k) = 1 /\ Forall unit_draw (two_rows k)) /\
  match x_min s with Some [x] => deq x (dint 1) | _ => false end = true /\ length (history s) = 2.
Proof.
  cbv zeta. split; [|split; [|split; [vm_compute; reflexivity|vm_compute; reflexivity]]].
  - constructor; [|constructor]. exists 0%Z, 4%Z.
    assert (B : forall z, (Z.abs z <= 2 ^ 50)%Z -> integer_bound (dint z) z).
    { intros z H. destruct (dint_val z) as [F V]; [eapply Z.le_trans; [exact H|discriminate]|]. split; [exact F|]. split; [exact V|exact H]. }
    split; [apply B; discriminate|]. split; [apply B; discriminate|lia].
  - intros k. split; [reflexivity|]. constructor; [|constructor].
    assert (G : forall u, is_finite u && dle (dint 0) u && dle u (dint 1) = true -> unit_draw u).
    { intros u H. apply andb_prop in H as [H H3]. apply andb_prop in H as [H1 H2].
      destruct (dint_val 0 ltac:(cbv; discriminate)) as [F0 V0]. destruct (dint_val 1 ltac:(cbv; discriminate)) as [F1 V1].
      apply dle_val in H2; [|apply fin_num; exact F0|apply fin_num; exact H1].
      apply dle_val in H3; [|apply fin_num; exact H1|apply fin_num; exact F1]. rewrite V0 in H2. rewrite V1 in H3.
      split; [exact H1|lra]. }
    apply G. destruct (k =? 0); [vm_compute; reflexivity|]. destruct (k =? 1); vm_compute; reflexivity.
Qed.

Print Assumptions C85_evaluations.
Print Assumptions C85_best.
Print Assumptions C85_objectives.
Print Assumptions C85_inside.
Print Assumptions C85_wrong_point_refuted.
Print Assumptions C85_budget_refuted.
Print Assumptions C85_nan_refuted.
