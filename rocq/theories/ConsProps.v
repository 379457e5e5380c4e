(** C46, C47 and C60: the constrained suite. *)

From Coq Require Import ZArith List Bool Reals Lra Lia Psatz.
From Verif Require Import CBase FunModel FunSpec FunProofs FunDocSpec FunDocProofs ConsModel ConsSpec ConsProofs ConsBuildProofs ConsObjProofs ConsSuiteProofs ConsExistProofs.
Import ListNotations.
Local Open Scope R_scope.

Notation value n c x := (single_evaluate real_arith n c x).
Notation values n cs x := (map (fun c => single_evaluate real_arith n c x) cs).

Lemma direction_at n (d : list R) : (exists i, (i < n)%nat /\ coord d i <> 0) -> exists i, (i < n)%nat /\ at_ RA d i <> 0.
Proof. intros (i & I & H). exists i. split; [exact I|]. rewrite (coord_at d). exact H. Qed.

Lemma combined_mix w cs i : combined w cs i = mix w cs i.
Proof. revert cs. induction w as [|a w IH]; intros [|c cs]; cbn [combined mix]; try reflexivity. rewrite IH, <- (coord_at (cgradient _ c)). reflexivity. Qed.

Section Allocated.
Variables (v : variant) (s : real_streams) (function n instance m : nat) (d : list R) (cs : list real_constraint).
Hypothesis F : fair s.
Hypothesis M : (1 <= m)%nat.
Hypothesis D : exists i, (i < n)%nat /\ coord d i <> 0.
Hypothesis E : cons_allocate _ v s function n instance m d = Ok cs.

Lemma allocated : built s function n instance m d (inactive_number v m) cs /\ (v = NoDisguise \/ m = 1%nat -> straight instance m n d cs).
Proof.
  pose proof (allocate_straight v s function n instance m d False F M (direction_at n d D)) as P.
  rewrite E in P. cbn [sound] in P. apply P; intros [].
Qed.

Lemma allocated_wf : Forall (wf n) cs.
Proof. apply Forall_impl with (2 := b_good _ _ _ _ _ _ _ _ (proj1 allocated)). intros c H. apply H. Qed.
End Allocated.

(** ** C46 *)

Theorem C46_created v s function n instance m d : fair s -> (1 <= m)%nat -> (exists i, (i < n)%nat /\ coord d i <> 0) ->
  regular s function n instance m -> ((1 < m)%nat -> v <> NoDisguise -> clear s function n instance m d) ->
  exists cs, cons_allocate real_arith v s function n instance m d = Ok cs.
Proof.
  intros F M D Re C. pose proof (allocate_sound v s function n instance m d True F M (direction_at n d D) (fun _ => Re) (fun _ => C)) as P.
  destruct (cons_allocate _ v s function n instance m d) as [cs| |]; cbn [sound] in P; [exists cs; reflexivity|tauto|tauto].
Qed.

Definition plain_streams : real_streams := Build_streams real_arith (fun _ _ => 1 / 4) (fun _ _ => 1).
Lemma plain_fair : fair plain_streams. Proof. intros a b. cbn [uniform plain_streams]. lra. Qed.
Lemma plain_regular function n instance m : (1 <= n)%nat -> regular plain_streams function n instance m.
Proof. intros N k K. exists 0%nat. split; [lia|]. cbn [normal plain_streams]. lra. Qed.
Lemma plain_clear function instance m : clear plain_streams function 2 instance m [1; 2].
Proof.
  intros k i K I. cbv zeta. right. cbn [normal plain_streams].
  assert (Q : R_sqrt.sqrt (INR 2) <= 2). { apply Rle_trans with (R_sqrt.sqrt (2 * 2)); [apply sqrt_le_1; cbn; lra|rewrite sqrt_square; lra]. }
  destruct i as [|[|i]]; [| |lia]; unfold coord; cbn [nth]; lra.
Qed.
Lemma plain_direction : exists i, (i < 2)%nat /\ coord [1; 2] i <> 0.
Proof. exists 0%nat. split; [lia|]. unfold coord. cbn [nth]. lra. Qed.

Example C46_created_ex : exists cs, cons_allocate real_arith Standard plain_streams 3 2 7 6 [1; 2] = Ok cs.
Proof. apply C46_created; [apply plain_fair|lia|apply plain_direction|apply plain_regular; lia|]. intros _ _. apply plain_clear. Qed.

Theorem C46_numbers v s function n instance m d cs : fair s -> (1 <= m)%nat -> (exists i, (i < n)%nat /\ coord d i <> 0) ->
  cons_allocate real_arith v s function n instance m d = Ok cs ->
  length cs = (m + inactive_number v m)%nat /\
  zeros_in (values n cs (origin n)) = m /\ negatives_in (values n cs (origin n)) = inactive_number v m /\
  forall t, 0 <= t <= 1 -> feasible (values n cs (map (Rmult t) (map (coord d) (seq 0 n)))).
Proof.
  intros F M D E. destruct (allocated _ _ _ _ _ _ _ _ F M D E) as [B _]. pose proof (allocated_wf _ _ _ _ _ _ _ _ F M D E) as W.
  destruct (values_count n cs W) as [Q1 Q2]. rewrite (b_count _ _ _ _ _ _ _ _ B) in Q1, Q2. rewrite (b_length _ _ _ _ _ _ _ _ B) in *.
  split; [reflexivity|]. split; [exact Q1|]. split; [lia|]. intros t T. unfold feasible. rewrite Forall_map.
  apply Forall_impl with (2 := b_good _ _ _ _ _ _ _ _ B). intros c (Wc & H).
  replace (map (Rmult t) (map (coord d) (seq 0 n))) with (vec n (fun i => t * at_ RA d i)).
  - apply shrink; assumption.
  - unfold vec. rewrite map_map. apply map_ext. intros i. rewrite (coord_at d). reflexivity.
Qed.

Example C46_numbers_ex : exists cs, cons_allocate real_arith Standard plain_streams 3 2 7 6 [1; 2] = Ok cs /\ length cs = 9%nat /\
  zeros_in (values 2 cs [0; 0]) = 6%nat /\ negatives_in (values 2 cs [0; 0]) = 3%nat.
Proof.
  destruct C46_created_ex as (cs & E). exists cs. split; [exact E|].
  destruct (C46_numbers _ _ _ _ _ 6%nat _ _ plain_fair ltac:(lia) plain_direction E) as (A & B & C & _).
  split; [exact A|]. split; [exact B|exact C].
Qed.

(** Every constraint is a linear function up to the dead band of its terms. *)
Theorem C46_linear v s function n instance m d cs c : fair s -> (1 <= m)%nat -> (exists i, (i < n)%nat /\ coord d i <> 0) ->
  cons_allocate real_arith v s function n instance m d = Ok cs -> In c cs ->
  exists a b, length a = n /\ 0 < dot n a a /\ 0 <= b /\
    forall x, dot n a x - b - INR n * dead_band <= value n c x <= dot n a x - b.
Proof.
  intros F M D E I. pose proof (allocated_wf _ _ _ _ _ _ _ _ F M D E) as W.
  assert (Wc := proj1 (Forall_forall _ _) W c I). destruct Wc as (P & Q & S).
  assert (Ag : forall i, (i < n)%nat -> coord (vec n (at_ RA (cgradient _ c))) i = at_ RA (cgradient _ c) i).
  { intros i J. rewrite <- (coord_at (vec n _)). apply vec_at, J. }
  assert (X : forall x, dot n (vec n (at_ RA (cgradient _ c))) x = prod n (cgradient _ c) x).
  { intros x. unfold dot, prod. apply total_ext. intros i J. rewrite Ag, (coord_at x) by exact J. reflexivity. }
  exists (vec n (at_ RA (cgradient _ c))), (cshift _ c / cnorm _ c * sq n (cgradient _ c)).
  split; [apply vec_length|]. split; [|split].
  - unfold dot. rewrite (total_ext n _ (fun i => at_ RA (cgradient _ c) i * at_ RA (cgradient _ c) i)) by (intros i J; rewrite Ag by exact J; reflexivity).
    fold (sq n (cgradient _ c)). rewrite <- Q. apply Rmult_lt_0_compat; exact P.
  - apply Rmult_le_pos; [|apply sq_nonneg]. apply Rmult_le_pos; [exact S|]. apply Rlt_le, Rinv_0_lt_compat, P.
  - intros x. rewrite X. pose proof (single_upper n c x) as U. pose proof (single_lower n c x) as L. unfold linear in U, L. unfold band in L. rlra.
Qed.

Example C46_linear_ex : exists c a b, 0 < dot 2 a a /\ 0 <= b /\
  forall x, dot 2 a x - b - INR 2 * dead_band <= value 2 c x <= dot 2 a x - b.
Proof.
  destruct C46_numbers_ex as ([|c cs] & E & L & _); [discriminate L|]. exists c.
  destruct (C46_linear _ _ _ _ _ 6%nat _ _ c plain_fair ltac:(lia) plain_direction E (or_introl eq_refl)) as (a & b & _ & H). exists a, b. exact H.
Qed.

(** The constraints that hold with equality at the origin hold the gradient in balance there: with multipliers that are
    not negative, the direction plus the weighted gradients is zero. *)
Theorem C46_balance v s function n instance m d cs : fair s -> (1 <= m)%nat -> (exists i, (i < n)%nat /\ coord d i <> 0) ->
  cons_allocate real_arith v s function n instance m d = Ok cs ->
  exists w, multipliers w (values n cs (origin n)) /\ forall i, (i < n)%nat -> coord d i + combined w cs i = 0.
Proof.
  intros F M D E. destruct (allocated _ _ _ _ _ _ _ _ F M D E) as [B _]. pose proof (allocated_wf _ _ _ _ _ _ _ _ F M D E) as W.
  destruct (b_kkt _ _ _ _ _ _ _ _ B) as (w & W1 & W2 & W3 & W4). exists w. split.
  - split; [rewrite map_length; exact W1|]. split; [exact W2|]. intros k K L. unfold coord in *.
    destruct (nth_error w k) as [a|] eqn:Ea; [|apply nth_error_None in Ea; lia].
    destruct (nth_error cs k) as [c|] eqn:Ec; [|apply nth_error_None in Ec; lia].
    rewrite (nth_error_nth _ _ 0 Ea).
    rewrite (nth_error_nth _ _ 0 (map_nth_error (fun c => single_evaluate RA n c (origin n)) k cs Ec)) in L.
    apply (W3 k c a Ec Ea). intros Z. rewrite at_origin_active in L; [lra| |exact Z].
    apply (proj1 (Forall_forall _ _) W). apply nth_error_In with k. exact Ec.
  - intros i I. rewrite combined_mix, <- (coord_at d). apply W4, I.
Qed.

Example C46_balance_ex : exists cs w, length cs = 9%nat /\ multipliers w (values 2 cs (origin 2)) /\
  1 + combined w cs 0 = 0 /\ 2 + combined w cs 1 = 0.
Proof.
  destruct C46_numbers_ex as (cs & E & L & _). destruct (C46_balance _ _ _ _ _ 6%nat _ _ plain_fair ltac:(lia) plain_direction E) as (w & W & H).
  exists cs, w. split; [exact L|]. split; [exact W|]. split; [apply (H 0%nat); lia|apply (H 1%nat); lia].
Qed.

(** Where the gradients come from.  Of the active constraints exactly one is special; without disguise, or if it is the
    only one, its gradient is opposite to the direction.  The others take random numbers of their own.  An inactive
    constraint takes those of the active one before it. *)
Theorem C46_gradients v s function n instance m d cs : fair s -> (1 <= m)%nat -> (exists i, (i < n)%nat /\ coord d i <> 0) ->
  cons_allocate real_arith v s function n instance m d = Ok cs ->
  exists scale1 scale2, 100 <= scale1 /\ (forall k, 1 <= scale2 k) /\
  forall k c, nth_error cs k = Some c ->
    let before := zeros_in (values n (firstn k cs) (origin n)) in
    let random j := exists e, (e = 1 \/ e = -1) /\ forall i, (i < n)%nat ->
        coord (cgradient _ c) i = e * random_gradient s function n instance j scale1 (scale2 j) i in
    (value n c (origin n) = 0 -> ((before + instance) mod m)%nat <> 0%nat -> random (S before)) /\
    (value n c (origin n) = 0 -> ((before + instance) mod m)%nat = 0%nat -> v = NoDisguise \/ m = 1%nat ->
       exists e, 0 < e /\ forall i, (i < n)%nat -> coord (cgradient _ c) i = - e * coord d i) /\
    (value n c (origin n) < 0 -> (1 <= before)%nat /\ random before).
Proof.
  intros F M D E. destruct (allocated _ _ _ _ _ _ _ _ F M D E) as [B St]. pose proof (allocated_wf _ _ _ _ _ _ _ _ F M D E) as W.
  exists (scale1 s function instance), (scale2 s function instance).
  split; [apply S1; exact F|]. split; [intros k; apply S2; exact F|].
  intros k c Ec. cbv zeta.
  assert (Wc : wf n c) by (apply (proj1 (Forall_forall _ _) W), nth_error_In with k; exact Ec).
  assert (Wk : Forall (wf n) (firstn k cs)).
  { apply Forall_forall. intros x X. apply (proj1 (Forall_forall _ _) W). rewrite <- (firstn_skipn k cs). apply in_or_app. left. exact X. }
  rewrite (proj1 (values_count n _ Wk)). pose proof (b_from _ _ _ _ _ _ _ _ B k c Ec) as Fr.
  assert (Rc : forall j, random_c s function n instance j c -> exists e, (e = 1 \/ e = -1) /\ forall i, (i < n)%nat ->
        coord (cgradient _ c) i = e * random_gradient s function n instance j (scale1 s function instance) (scale2 s function instance j) i).
  { intros j (e & H1 & H2). exists e. split; [exact H1|]. intros i I. rewrite <- (coord_at (cgradient _ c)). apply H2, I. }
  split; [|split].
  - intros V Z. destruct (Req_EM_T (cshift _ c) 0) as [Sh|Sh]; [|pose proof (at_origin_inactive n c Wc Sh); lra].
    unfold special_index in Fr. destruct (Nat.eqb_spec ((actives (firstn k cs) + instance) mod m) 0); [contradiction|]. apply Rc, Fr.
  - intros V Z H. destruct (Req_EM_T (cshift _ c) 0) as [Sh|Sh]; [|pose proof (at_origin_inactive n c Wc Sh); lra].
    destruct (St H k c Ec Sh) as (_ & e & EP & G). { unfold special_index. apply Nat.eqb_eq. exact Z. }
    exists e. split; [exact EP|]. intros i I. rewrite <- (coord_at (cgradient _ c)), <- (coord_at d). apply G, I.
  - intros V. destruct (Req_EM_T (cshift _ c) 0) as [Sh|Sh]; [rewrite (at_origin_active n c Wc Sh) in V; lra|].
    destruct Fr as [P Q]. split; [exact P|]. apply Rc, Q.
Qed.

Example C46_gradients_ex : exists c, cons_allocate real_arith Standard plain_streams 1 2 7 1 [1; 2] = Ok [c] /\
  exists e, 0 < e /\ coord (cgradient _ c) 0 = - e /\ coord (cgradient _ c) 1 = - (2 * e).
Proof.
  destruct (C46_created Standard plain_streams 1 2 7 1 [1; 2] plain_fair ltac:(lia) plain_direction) as (cs & E).
  { apply plain_regular; lia. } { intros H; lia. }
  destruct (C46_numbers _ _ _ _ _ 1%nat _ _ plain_fair ltac:(lia) plain_direction E) as (L & Z & _). change (1 + inactive_number Standard 1)%nat with 1%nat in L.
  destruct cs as [|c [|c' cs]]; try discriminate L. exists c. split; [exact E|].
  destruct (C46_gradients _ _ _ _ _ 1%nat _ _ plain_fair ltac:(lia) plain_direction E) as (s1 & s2 & _ & _ & G).
  destruct (G 0%nat c eq_refl) as (_ & G2 & _). destruct G2 as (e & EP & H).
  - cbn [map] in Z. unfold zeros_in in Z. cbn [how_many] in Z. destruct (Req_EM_T _ 0) as [V|V]; [exact V|discriminate Z].
  - reflexivity.
  - right; reflexivity.
  - exists e. split; [exact EP|]. rewrite !H by lia. unfold coord. cbn [nth]. split; ring.
Qed.

(** Different instances share random numbers. *)
Theorem C46_seeds_shared s function n instance k scale1 scale2 i :
  random_gradient s function n (instance + 5) k scale1 scale2 i = random_gradient s function n instance (k + 1) scale1 scale2 i.
Proof. unfold random_gradient. replace (seed_of function (instance + 5) k) with (seed_of function instance (k + 1)); [reflexivity|]. unfold seed_of. f_equal. lia. Qed.

Example C46_seeds_ex : seed_of 1 6 1 = seed_of 1 1 2 /\ seed_of 1 6 1 <> seed_of 1 5 1.
Proof. split; vm_compute; [reflexivity|discriminate]. Qed.

(** For some random numbers, with nonzero normal vectors, the construction ends in an error. *)
Theorem C46_error_refuted : exists s, fair s /\ (forall function instance m, regular s function 2 instance m) /\
  cons_allocate real_arith Standard s 1 2 0 2 [1; 1] = Err.
Proof. exists bad_streams. split; [exact bad_fair|]. split; [intros; apply bad_regular; lia|exact bad_fails]. Qed.

(** The suites *)
Theorem C46_suite_created v fuel function n instance q : (2 <= n)%nat -> (1 <= function <= 54)%nat -> sensible function n q ->
  usable v function n instance q -> exists p, get_cons_bbob_problem real_arith v fuel function n instance q = Ok p.
Proof.
  intros N Fu S U. pose proof (get_sound v fuel function n instance q N Fu S) as G.
  destruct (get_cons_bbob_problem _ v fuel function n instance q) as [p| |]; cbn [sound] in G; [exists p; reflexivity|contradiction|contradiction].
Qed.

Theorem C46_suite_numbers v fuel function n instance q p : (2 <= n)%nat -> (1 <= function <= 54)%nat -> sensible function n q ->
  get_cons_bbob_problem real_arith v fuel function n instance q = Ok p ->
  let m := active_number function n in
  (forall x, length x = n -> length (constraints _ p x) = (m + inactive_number v m)%nat) /\
  zeros_in (constraints _ p (best_parameter _ (objective _ p))) = m /\
  negatives_in (constraints _ p (best_parameter _ (objective _ p))) = inactive_number v m.
Proof.
  intros N Fu S E. pose proof (get_sound v fuel function n instance q N Fu S) as G. rewrite E in G. destruct G as [G _]. cbv zeta.
  rewrite (s_best _ _ _ _ _ G). split; [apply G|]. split; apply G.
Qed.

(** Inputs for the examples: dimension 2, optimum at (1, -2), nothing rotated. *)
Definition plain_draws : draws real_arith := Build_draws real_arith [3; 1] 7 [[1; 0]; [0; 1]] [[1; 0]; [0; 1]] [] [] [] [] [].
Definition plain_inputs : real_inputs :=
  Build_inputs real_arith [1; -2] plain_draws (1 / 2) plain_streams inverse_osz_of (inverse_asy_of 2).

Lemma plain_sensible function : sensible function 2 plain_inputs.
Proof.
  unfold sensible. cbv zeta. cbn [location drawn length_draw stream plain_inputs xopt rot1 plain_draws].
  split; [reflexivity|]. split. { repeat constructor; lra. }
  split; [reflexivity|]. split. { exists 0%nat. split; [lia|]. unfold coord. cbn [nth]. lra. }
  split. { intros _ [|[|i]] I; [exists 3%Z; reflexivity|exists 1%Z; reflexivity|lia]. }
  split. { intros [|[|i]] [|[|j]] I J; try lia; vm_compute; lra. }
  split; [lra|exact plain_fair].
Qed.

Lemma plain_usable v function instance : (function mod 6 = 1)%nat -> (1 <= function)%nat -> usable v function 2 instance plain_inputs.
Proof.
  intros H P. split; [apply plain_regular; lia|]. right. left. unfold active_number.
  replace ((function - 1) mod 6)%nat with 0%nat; [reflexivity|]. pose proof (Nat.div_mod function 6 ltac:(lia)).
  symmetry. replace (function - 1)%nat with (function / 6 * 6)%nat by lia. apply Nat.mod_mul. lia.
Qed.

Example C46_suite_created_ex : exists p, get_cons_bbob_problem real_arith Standard 5 43 2 1 plain_inputs = Ok p.
Proof. apply C46_suite_created; [lia|lia|apply plain_sensible|apply plain_usable; [reflexivity|lia]]. Qed.

Example C46_suite_created_ex2 : exists p, get_cons_bbob_problem real_arith NoDisguise 5 54 2 1 plain_inputs = Ok p.
Proof. apply C46_suite_created; [lia|lia|apply plain_sensible|]. split; [apply plain_regular; lia|left; reflexivity]. Qed.

Example C46_suite_numbers_ex : exists p, get_cons_bbob_problem real_arith NoDisguise 5 54 2 1 plain_inputs = Ok p /\
  length (constraints _ p [3; 3]) = 18%nat /\ zeros_in (constraints _ p (best_parameter _ (objective _ p))) = 12%nat.
Proof.
  destruct C46_suite_created_ex2 as (p & E). exists p. split; [exact E|].
  destruct (C46_suite_numbers _ _ 54%nat 2%nat _ _ _ ltac:(lia) ltac:(lia) (plain_sensible 54) E) as (A & B & _).
  split; [apply A; reflexivity|exact B].
Qed.

(** ** C47 *)

(** The best parameter is the location drawn for the optimum, the best value is the value there, it is feasible, and
    there are multipliers for which no point has a smaller Lagrangian (up to the dead band). *)
Theorem C47_optimum v fuel function n instance q p : (2 <= n)%nat -> (1 <= function <= 54)%nat -> sensible function n q ->
  get_cons_bbob_problem real_arith v fuel function n instance q = Ok p ->
  let best := best_parameter _ (objective _ p) in
  best = location _ q /\ length best = n /\ within 4 best /\
  best_value _ (objective _ p) = evaluate _ (objective _ p) best /\ feasible (constraints _ p best) /\
  exists w, multipliers w (constraints _ p best) /\
    forall x, length x = n -> best_value _ (objective _ p) <= evaluate _ (objective _ p) x + weighted_sum n w (constraints _ p x).
Proof.
  intros N Fu S E. pose proof (get_sound v fuel function n instance q N Fu S) as G. rewrite E in G. destruct G as [G _]. cbv zeta.
  rewrite (s_best _ _ _ _ _ G). destruct S as (L & W & _). split; [reflexivity|]. split; [exact L|]. split; [exact W|].
  split; [apply G|]. split; [|apply G].
  destruct (s_near _ _ _ _ _ G) as (delta & D & Near). apply Near; [exact L|]. intros i I.
  replace (coord (location RA q) i - coord (location RA q) i) with 0 by rring. rewrite Rabs_R0. lra.
Qed.

(** A feasible point is better by at most n times the dead band times the sum of the multipliers. *)
Theorem C47_feasible_points v fuel function n instance q p : (2 <= n)%nat -> (1 <= function <= 54)%nat -> sensible function n q ->
  get_cons_bbob_problem real_arith v fuel function n instance q = Ok p ->
  exists w, multipliers w (constraints _ p (best_parameter _ (objective _ p))) /\
    forall x, length x = n -> feasible (constraints _ p x) ->
      best_value _ (objective _ p) - INR n * dead_band * sum w <= evaluate _ (objective _ p) x.
Proof.
  intros N Fu S E. destruct (C47_optimum v fuel function n instance q p N Fu S E) as (_ & _ & _ & _ & _ & w & W & H).
  exists w. split; [exact W|]. intros x L Fe. specialize (H x L).
  assert (K : weighted_sum n w (constraints _ p x) <= INR n * dead_band * sum w).
  { destruct W as (_ & W & _). clear H. assert (DP : 0 <= INR n * dead_band).
    { apply Rmult_le_pos; [apply pos_INR|]. apply Rlt_le, band_pos. }
    revert Fe. generalize (constraints _ p x). induction W as [|a w A W IH]; intros vs Fe; cbn [weighted_sum sum fold_right].
    - lra.
    - destruct Fe as [|z vs Z Fe].
      + assert (0 <= fold_right Rplus 0 w). { clear IH. induction W as [|b w B W IH]; cbn; lra. }
        apply Rmult_le_pos; [exact DP|]. lra.
      + specialize (IH vs Fe). unfold sum in IH. nra. }
  lra.
Qed.

(** A point that satisfies the constraints with a margin of n times the dead band is not better at all. *)
Theorem C47_no_better v fuel function n instance q p : (2 <= n)%nat -> (1 <= function <= 54)%nat -> sensible function n q ->
  get_cons_bbob_problem real_arith v fuel function n instance q = Ok p ->
  forall x, length x = n -> Forall (fun z => z <= - (INR n * dead_band)) (constraints _ p x) ->
    best_value _ (objective _ p) <= evaluate _ (objective _ p) x.
Proof.
  intros N Fu S E x L Fe. destruct (C47_optimum v fuel function n instance q p N Fu S E) as (_ & _ & _ & _ & _ & w & W & H).
  specialize (H x L). assert (K : weighted_sum n w (constraints _ p x) <= 0).
  { destruct W as (_ & W & _). clear H. revert Fe. generalize (constraints _ p x).
    induction W as [|a w A W IH]; intros vs Fe; cbn [weighted_sum]; [lra|].
    destruct Fe as [|z vs Z Fe]; [lra|]. specialize (IH vs Fe). nra. }
  lra.
Qed.

(** The dead band makes a whole neighbourhood of the best parameter feasible ... *)
Theorem C47_neighbourhood v fuel function n instance q p : (2 <= n)%nat -> (1 <= function <= 54)%nat -> sensible function n q ->
  get_cons_bbob_problem real_arith v fuel function n instance q = Ok p ->
  exists delta, 0 < delta /\ forall x, length x = n ->
    (forall i, (i < n)%nat -> Rabs (coord x i - coord (best_parameter _ (objective _ p)) i) <= delta) -> feasible (constraints _ p x).
Proof.
  intros N Fu S E. pose proof (get_sound v fuel function n instance q N Fu S) as G. rewrite E in G. destruct G as [G _].
  rewrite (s_best _ _ _ _ _ G). apply G.
Qed.

(** ... so that the sphere always has feasible points better than its best value. *)
Theorem C47_strict_refuted v fuel function n instance q p : (2 <= n)%nat -> (1 <= function <= 6)%nat -> sensible function n q ->
  get_cons_bbob_problem real_arith v fuel function n instance q = Ok p ->
  exists x, length x = n /\ feasible (constraints _ p x) /\ evaluate _ (objective _ p) x < best_value _ (objective _ p).
Proof. apply sphere_better. Qed.

Example C47_optimum_ex : exists p, get_cons_bbob_problem real_arith NoDisguise 5 54 2 1 plain_inputs = Ok p /\
  best_parameter _ (objective _ p) = [1; -2] /\ feasible (constraints _ p [1; -2]).
Proof.
  destruct C46_suite_created_ex2 as (p & E). exists p. split; [exact E|].
  destruct (C47_optimum _ _ 54%nat 2%nat _ _ _ ltac:(lia) ltac:(lia) (plain_sensible 54) E) as (A & _ & _ & _ & B & _).
  change (location RA plain_inputs) with [1; -2] in A. rewrite A in B. split; [exact A|exact B].
Qed.

Example C47_strict_ex : exists p x, get_cons_bbob_problem real_arith Standard 5 1 2 1 plain_inputs = Ok p /\
  feasible (constraints _ p x) /\ evaluate _ (objective _ p) x < best_value _ (objective _ p).
Proof.
  destruct (C46_suite_created Standard 5 1 2 1 plain_inputs) as (p & E); [lia|lia|apply plain_sensible|apply plain_usable; [reflexivity|lia]|].
  destruct (C47_strict_refuted _ _ 1%nat 2%nat _ _ _ ltac:(lia) ltac:(lia) (plain_sensible 1) E) as (x & _ & A & B). exists p, x. split; [exact E|]. split; assumption.
Qed.

(** ** C60 *)

(** The initial solution lies in the region of interest and is feasible, and at most five rounds of the search are needed. *)
Theorem C60_initial v fuel function n instance q p : (2 <= n)%nat -> (1 <= function <= 54)%nat -> sensible function n q -> exact_inverses n q ->
  (5 <= fuel)%nat -> get_cons_bbob_problem real_arith v fuel function n instance q = Ok p ->
  exists x, initial _ p = Some x /\ length x = n /\ within 5 x /\ feasible (constraints _ p x).
Proof.
  intros N Fu S X L E. pose proof (get_sound v fuel function n instance q N Fu S) as G. rewrite E in G. destruct G as (_ & G & _).
  destruct (G X) as (A & B). destruct (initial _ p) as [x|] eqn:I; [|elim (B L eq_refl)].
  exists x. split; [reflexivity|]. apply A. reflexivity.
Qed.

Example C60_initial_ex : exists p x, get_cons_bbob_problem real_arith Standard 5 43 2 1 plain_inputs = Ok p /\
  initial _ p = Some x /\ within 5 x /\ feasible (constraints _ p x).
Proof.
  destruct C46_suite_created_ex as (p & E).
  destruct (C60_initial _ _ 43%nat 2%nat _ _ _ ltac:(lia) ltac:(lia) (plain_sensible 43) (exact_inverses_of 2 plain_inputs ltac:(lia) eq_refl eq_refl) (le_n 5) E) as (x & A & _ & B).
  exists p, x. split; [exact E|]. split; [exact A|exact B].
Qed.

(** The maps applied to the variables have exact inverses, so this hypothesis can be met in every dimension. *)
Theorem C60_inverses : (forall y, exists x, osz x = y) /\
  (forall n, (2 <= n)%nat -> forall i y, exists x, Tasy n 0.2 (fun _ => x) i = y).
Proof.
  split.
  - intros y. destruct (osz_onto y) as (x & H). exists x. exact H.
  - intros n N i y. destruct (asy_onto n i y) as (x & H); [apply share_nonneg; exact N|]. exists x. exact H.
Qed.

Print Assumptions C46_created.
Print Assumptions C46_numbers.
Print Assumptions C46_linear.
Print Assumptions C46_balance.
Print Assumptions C46_gradients.
Print Assumptions C46_seeds_shared.
Print Assumptions C46_error_refuted.
Print Assumptions C46_suite_created.
Print Assumptions C46_suite_numbers.
Print Assumptions C47_optimum.
Print Assumptions C47_feasible_points.
Print Assumptions C47_no_better.
Print Assumptions C47_neighbourhood.
Print Assumptions C47_strict_refuted.
Print Assumptions C60_initial.
Print Assumptions C60_inverses.
