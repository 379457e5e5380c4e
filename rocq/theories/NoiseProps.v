(** Theorems about noisy problems (property C53). *)
From Coq Require Import List Arith NArith ZArith Reals Bool Lia Lra.
From Flocq Require Import Core BinarySingleNaN.
Import ListNotations.
From Verif Require Import CBase OptModel DblModel DblSpec DblProofs ProbModel ProbSpec ProbProofs RandModel OptimumSpec NoiseModel NoiseSpec.
From Verif Require MixProofs.
From Verif Require Import NoiseProofs NoiseRunProofs NoiseBoundProofs.
Open Scope R_scope.

(** ** The penalty *)
Theorem C53_penalty : forall x roi, Forall domain roi -> Forall fin x -> length roi = length x ->
  exists p, coco_boundary_handling (length x) roi x = Ok p /\ num p /\ 0 <= val p /\
    (val p = 0 <-> Forall (fun v => -5 <= val v <= 5) x).
Proof.
  intros x roi D F L. destruct (penalty_ok x roi D F L) as [p [E [N [V P]]]]. exists p. split; [exact E|]. split; [exact N|]. split; [exact P|].
  rewrite V. apply penalty_zero, F.
Qed.

(** The penalty does not fall if coordinates move away from the domain. *)
Theorem C53_monotone : forall x x' roi p p', Forall domain roi -> Forall fin x -> Forall fin x' -> length roi = length x -> length roi = length x' ->
  Forall2 (fun v w => distance v <= distance w) x x' ->
  coco_boundary_handling (length x) roi x = Ok p -> coco_boundary_handling (length x') roi x' = Ok p' -> val p <= val p'.
Proof.
  intros x x' roi p p' D F F' L L' H E E'. destruct (penalty_ok x roi D F L) as [q [G [_ [V _]]]]. destruct (penalty_ok x' roi D F' L') as [q' [G' [_ [V' _]]]].
  assert (q = p) as -> by congruence. assert (q' = p') as -> by congruence. rewrite V, V'. apply penalty_mono, H.
Qed.

(** It is 100 times the squared distance to the domain, up to the relative rounding errors of n + 4 operations; the lower
    bound holds unless the result overflows. *)
Theorem C53_size : forall x roi p, Forall domain roi -> Forall fin x -> length roi = length x -> coco_boundary_handling (length x) roi x = Ok p ->
  let n := (length x + 4)%nat in let t := 100 * sum_of_squares x in let u := / IZR (2 ^ 53) in
  val p <= (1 + u) ^ n * t /\ ((1 + u) ^ n * t <= big -> (1 - u) ^ n * t <= val p).
Proof.
  intros x roi p D F L E. cbv zeta. destruct (penalty_ok x roi D F L) as [q [G [_ [V _]]]]. assert (q = p) as -> by congruence. rewrite V.
  change (/ IZR (2 ^ 53)) with NoiseProofs.u. apply penalty_size, F.
Qed.

(** ** The seeds *)
Theorem C53_seeds : (forall k, (1 <= seed_of k <= 10 ^ 9)%Z) /\
  (forall k j, (Z.abs (Z.of_N k - Z.of_N j) < 10 ^ 9)%Z -> seed_of k = seed_of j -> k = j) /\
  (forall k j, (Z.of_N k mod 10 ^ 9 = Z.of_N j mod 10 ^ 9)%Z -> seed_of k = seed_of j) /\
  (forall k, increase (seed_of k) = seed_of (k + 1)) /\ seed_of 0 = randseed reset_seeds /\ seed_of 0 = randnseed reset_seeds.
Proof.
  split; [exact seed_range|]. split; [intros k j H E; apply seed_inj; assumption|]. split; [exact seed_period|]. split; [exact increase_seed|]. split; reflexivity.
Qed.

Section Process.
Variable log cos exp : double -> double.
Variable pow : double -> double -> double.
Context {C : class}.
Notation process := (process log cos exp pow C).
Implicit Types st : process.

Lemma reset_at : reset_seeds = seeds_at (0, 0)%N.
Proof. reflexivity. Qed.
Lemma fits_app : forall st es es', fits st (es ++ es') -> fits st es /\ fits st es'.
Proof. intros st es es' H. apply Forall_app in H. exact H. Qed.

(** The value of a regular point: it is the documented function of the noise-free value, of the penalty and of samples that
    are determined by the numbers of samples drawn since the reset.  The noise-free value is kept in the problem, and
    the inner problem counts nothing. *)
Theorem C53_value : forall st es ys st1 i x y st2 P, p_seeds st = reset_seeds -> simple st -> fits st (es ++ [Eval i x]) ->
  run log cos exp pow st es = Ok (ys, st1) -> nth_error (p_problems st1) i = Some P -> regular x ->
  Forall domain (n_roi (body P)) -> length (n_roi (body P)) = number_of_variables (head P) ->
  step log cos exp pow st1 (Eval i x) = Ok (y, st2) ->
  let n := drawn (kinds st) es (0, 0)%N in
  exists f rest d fopt penalty v Q, evaluate_function C (head (n_inner (body P))) (body (n_inner (body P))) x = Ok (f :: rest, d) /\
    (match n_noise (body P) with Cauchy _ _ => True | _ => exists w, best_value (head (n_inner (body P))) = Some w /\ nth_error w 0 = Some fopt end) /\
    coco_boundary_handling (length x) (n_roi (body P)) x = Ok penalty /\
    y = v :: rest /\ noisy_value log cos exp pow (n_noise (body P)) (fst n) (snd n) fopt f penalty v /\
    nth_error (p_problems st2) i = Some Q /\
    last_noise_free (noise_class log cos exp pow C) (body Q) = Some (firstn (number_of_objectives (head P)) (f :: rest)) /\
    head (n_inner (body Q)) = head (n_inner (body P)) /\ body (n_inner (body Q)) = d /\
    evaluations (head Q) = (evaluations (head P) + 1)%N.
Proof.
  intros st es ys st1 i x y st2 P H0 S F R EP X D LR H. cbv zeta. apply fits_app in F as [F1 F2]. rewrite reset_at in H0.
  destruct (run_seeds log cos exp pow es st ys st1 _ S F1 H0 R) as [E1 [Rel [S1 K]]]. pose proof (fits_related log cos exp pow _ _ _ Rel F2) as F3.
  destruct (Forall_inv F3) as [P' [EP' L]]. assert (P' = P) as -> by congruence.
  destruct (step_value log cos exp pow st1 _ i x y st2 P S1 EP L X D LR E1 H)
    as (f & rest & d & fopt & p & v & Q & G1 & G2 & G3 & _ & _ & G4 & NV & G5 & _ & G6 & G7 & G8 & _).
  exists f, rest, d, fopt, p, v, Q. split; [exact G1|]. split; [exact G2|]. split; [exact G3|]. split; [exact G4|].
  split; [apply NV; destruct (n_noise (body P)); auto|]. split.
  { rewrite G5, nth_upd, Nat.eqb_refl, EP. reflexivity. }
  cbn [last_noise_free noise_class]. rewrite G7, G6. cbn [head body]. repeat (split; [reflexivity|]). exact G8.
Qed.

(** Two processes: if the numbers of samples drawn agree modulo 10^9, equal problems return equal values. *)
Theorem C53_same : forall st st' es es' ys ys' st1 st1' i i' x y y' st2 st2' P P',
  p_seeds st = reset_seeds -> p_seeds st' = reset_seeds -> simple st -> simple st' -> fits st (es ++ [Eval i x]) -> fits st' (es' ++ [Eval i' x]) ->
  run log cos exp pow st es = Ok (ys, st1) -> run log cos exp pow st' es' = Ok (ys', st1') ->
  let n := drawn (kinds st) es (0, 0)%N in let n' := drawn (kinds st') es' (0, 0)%N in
  (Z.of_N (fst n) mod 10 ^ 9 = Z.of_N (fst n') mod 10 ^ 9)%Z -> (Z.of_N (snd n) mod 10 ^ 9 = Z.of_N (snd n') mod 10 ^ 9)%Z ->
  nth_error (p_problems st1) i = Some P -> nth_error (p_problems st1') i' = Some P' -> regular x ->
  n_noise (body P) = n_noise (body P') -> n_roi (body P) = n_roi (body P') -> n_inner (body P) = n_inner (body P') ->
  step log cos exp pow st1 (Eval i x) = Ok (y, st2) -> step log cos exp pow st1' (Eval i' x) = Ok (y', st2') -> y = y'.
Proof.
  intros st st' es es' ys ys' st1 st1' i i' x y y' st2 st2' P P' H0 H0' S S' F F' R R'. cbv zeta. intros M1 M2 EP EP' X K1 K2 K3 H H'.
  apply fits_app in F as [F1 F2]. apply fits_app in F' as [F1' F2']. rewrite reset_at in H0, H0'.
  destruct (run_seeds log cos exp pow es st ys st1 _ S F1 H0 R) as [E1 [Rel [S1 _]]]. pose proof (fits_related log cos exp pow _ _ _ Rel F2) as F3.
  destruct (run_seeds log cos exp pow es' st' ys' st1' _ S' F1' H0' R') as [E1' [Rel' [S1' _]]]. pose proof (fits_related log cos exp pow _ _ _ Rel' F2') as F3'.
  destruct (Forall_inv F3) as [P0 [EP0 L]]. assert (P0 = P) as -> by congruence. destruct (Forall_inv F3') as [P0 [EP0' L']]. assert (P0 = P') as -> by congruence.
  assert (ES : p_seeds st1 = p_seeds st1'). { rewrite E1, E1'. unfold seeds_at. f_equal; apply seed_period; assumption. }
  clear E1 E1'. unfold step in H, H'. unfold mget in H, H'. rewrite EP in H. rewrite EP' in H'. cbn [bind] in H, H'. rewrite <- ES in H'.
  destruct (evaluate_with log cos exp pow (p_seeds st1) P x) as [[[y1 Q] s]| |] eqn:E; try discriminate H. cbn [bind] in H. assert (y1 = y) as -> by congruence. clear H.
  destruct (evaluate_with log cos exp pow (p_seeds st1) P' x) as [[[y1 Q'] s']| |] eqn:E'; try discriminate H'. cbn [bind] in H'. assert (y1 = y') as -> by congruence. clear H'.
  assert (NC : number_of_constraints (head P) = 0%nat) by (apply nth_error_In in EP; unfold simple in S1; rewrite Forall_forall in S1; apply S1; exact EP).
  assert (NC' : number_of_constraints (head P') = 0%nat) by (apply nth_error_In in EP'; unfold simple in S1'; rewrite Forall_forall in S1'; apply S1'; exact EP').
  destruct (evaluate_regular log cos exp pow _ _ _ _ _ _ L X NC E) as [d [G _]]. destruct (evaluate_regular log cos exp pow _ _ _ _ _ _ L' X NC' E') as [d' [G' _]].
  apply noise_evaluate_inv in G as [f [rest [b [n1 [n2 [fopt [penalty [A1 [A2 [A3 [A4 [A5 _]]]]]]]]]]]].
  apply noise_evaluate_inv in G' as [f' [rest' [b' [n1' [n2' [fopt' [penalty' [B1 [B2 [B3 [B4 [B5 _]]]]]]]]]]]].
  cbn [with_seeds n_inner n_noise n_roi n_seeds] in *. rewrite <- K1 in B2, B3, B5. rewrite <- K2, <- L', L in B4. rewrite <- K3 in B1, B3.
  assert (f' = f) as -> by congruence. assert (rest' = rest) as -> by congruence. assert (n1' = n1) as -> by congruence. assert (n2' = n2) as -> by congruence.
  assert (penalty' = penalty) as -> by congruence. rewrite A5, B5. f_equal. destruct (n_noise (body P)); try reflexivity;
    (destruct A3 as [w [W1 W2]], B3 as [w' [W3 W4]]; assert (w' = w) as -> by congruence; assert (fopt' = fopt) as -> by congruence; reflexivity).
Qed.

(** The two streams are not independent: both start with the same seed, and the k-th Gaussian sample is made from the k-th
    uniform sample and another number. *)
Theorem C53_correlated : forall k, exists u w, uniform_sample k u /\ fin u /\ fin w /\ 0 < val u < 1 /\ 0 < val w < 1 /\
  gaussian_sample log cos k (gauss_value log cos u w).
Proof.
  intros k. destruct (gaussian_sample_exists log cos k) as [u [w [S [[Fu Vu] [[Fw Vw] G]]]]]. pose proof (bpow_gt_0 radix2 (-31)) as B31.
  exists u, w. repeat (split; [assumption|]). split; [lra|]. split; [lra|]. exact G.
Qed.

(** Noisy values stay above the best value by more than the precision 1e-8, whatever the noise-free value is. *)
Theorem C53_above : forall k u g fopt f p v, sane_libm log cos exp pow -> moderate k -> fin fopt -> Rabs (val fopt) <= 1000 ->
  fin f -> val fopt <= val f -> num p -> 0 <= val p -> noisy_value log cos exp pow k u g fopt f p v -> above fopt v.
Proof. intros k u g fopt f p v LM M Fo B Ff L Np Vp H. eapply noisy_reach; eassumption. Qed.

(** So the final target of a noisy problem is never hit. *)
Theorem C53_target : forall (I : data C -> Prop) fopts st es ys st' i P, sane_libm log cos exp pow ->
  (forall fopt, In fopt fopts -> never_below C I fopt) -> Forall2 (new_problem I) fopts (p_problems st) -> p_seeds st = reset_seeds -> fits st es ->
  run log cos exp pow st es = Ok (ys, st') -> nth_error (p_problems st') i = Some P -> coco_problem_final_target_hit (head P) = Ok false.
Proof.
  intros I fopts st es ys st' i P LM NB A H0 F H EP. rewrite reset_at in H0.
  assert (A0 : all_hold log cos exp pow I fopts st) by (unfold all_hold; clear - A; induction A; constructor; [apply new_holds; assumption|assumption]).
  pose proof (run_holds log cos exp pow LM I fopts es st _ ys st' NB A0 F H0 H) as A1.
  destruct (Forall2_nth _ _ _ _ _ A1 i P EP) as [fopt [_ HP]]. eapply holds_target; eassumption.
Qed.
End Process.

(** ** The suite *)
Lemma close_int : forall z, (Z.abs z <= 2 ^ 53)%Z -> close (dint z) (IZR z).
Proof. intros z H. destruct (dint_val z H) as [F V]. split; [exact F|]. rewrite V, Rminus_diag_eq, Rabs_R0 by reflexivity. apply Rlt_le, Rinv_0_lt_compat, IZR_lt. reflexivity. Qed.
Lemma quotient_near : forall a b, (0 <= a <= b)%Z -> (0 < b <= 2 ^ 53)%Z -> fin (ddiv (dint a) (dint b)) /\ Rabs (val (ddiv (dint a) (dint b)) - IZR a / IZR b) <= MixProofs.u * (1 + / 1000).
Proof.
  intros a b Ha Hb. destruct (dint_val a ltac:(lia)) as [Fa Va]. destruct (dint_val b ltac:(lia)) as [Fb Vb]. assert (0 < IZR b) by (apply IZR_lt; lia).
  assert (0 <= IZR a <= IZR b) by (split; apply IZR_le; lia).
  rewrite <- Va, <- Vb. apply MixProofs.div_near; [exact Fa|exact Fb|lra| |lra]. rewrite Va, Vb.
  assert (0 <= IZR a / IZR b <= 1) by (split; [apply Rmult_le_pos; [lra|apply Rlt_le, Rinv_0_lt_compat; lra]|apply (Rmult_le_reg_r (IZR b)); [lra|]; unfold Rdiv; rewrite Rmult_assoc, Rinv_l; lra]).
  apply Rabs_le. lra.
Qed.
Lemma decimal_near : forall m e r, (0 <= m <= 10 ^ e)%Z -> (0 < 10 ^ e <= 2 ^ 53)%Z -> r = IZR m / IZR (10 ^ e) -> fin (ddec m e) /\ Rabs (val (ddec m e) - r) <= MixProofs.u * (1 + / 1000).
Proof. intros m e r Hm He ->. apply quotient_near; assumption. Qed.
Lemma alpha_near : forall d, (2 <= d <= 1000)%Z -> fin (uniform_alpha d) /\ Rabs (val (uniform_alpha d) - (49 / 100 + / IZR d)) <= 4 * MixProofs.u /\ 0 <= val (uniform_alpha d) <= 1.
Proof.
  intros d H. assert (U : MixProofs.u < / 9000000000000000) by apply MixProofs.u_pos. assert (U0 : 0 < MixProofs.u) by apply MixProofs.u_pos.
  destruct (decimal_near 49 2 (49 / 100) ltac:(lia) ltac:(lia) eq_refl) as [F1 V1]. destruct (quotient_near 1 d ltac:(lia) ltac:(lia)) as [F2 V2].
  assert (D : 0 < / IZR d <= / 2) by (split; [apply Rinv_0_lt_compat, IZR_lt; lia|apply Rinv_le; [lra|apply IZR_le; lia]]).
  replace (1 / IZR d) with (/ IZR d) in V2 by (field; apply Rgt_not_eq, IZR_lt; lia). apply Rabs_le_inv in V1, V2.
  unfold uniform_alpha. destruct (MixProofs.add_near (ddec 49 2) (ddiv (dint 1) (dint d)) 1 F1 F2 ltac:(apply Rabs_le; lra) ltac:(lra)) as [F3 V3]. apply Rabs_le_inv in V3.
  split; [exact F3|]. split; [apply Rabs_le; lra|lra].
Qed.

Lemma parameters_close : forall d, (2 <= d <= 1000)%Z -> close (ddec 1 2) (/ 100) /\ close (ddec 5 2) (/ 20) /\ close (dint 1) 1 /\ close (ddec 2 1) (/ 5) /\
  close (uniform_alpha d) (1 * (49 / 100 + / IZR d)) /\ close (dmul (ddec 1 2) (uniform_alpha d)) (/ 100 * (49 / 100 + / IZR d)) /\
  0 <= val (uniform_alpha d) <= 1 /\ 0 <= val (dmul (ddec 1 2) (uniform_alpha d)) <= 1.
Proof.
  intros d H. assert (U : MixProofs.u < / 9000000000000000) by apply MixProofs.u_pos. assert (U0 : 0 < MixProofs.u) by apply MixProofs.u_pos.
  assert (T : / IZR (10 ^ 15) = / 1000000000000000) by reflexivity.
  destruct (decimal_near 1 2 (/ 100) ltac:(lia) ltac:(lia) ltac:(change (10 ^ 2)%Z with 100%Z; lra)) as [F1 V1].
  destruct (decimal_near 5 2 (/ 20) ltac:(lia) ltac:(lia) ltac:(change (10 ^ 2)%Z with 100%Z; lra)) as [F2 V2].
  destruct (decimal_near 2 1 (/ 5) ltac:(lia) ltac:(lia) ltac:(change (10 ^ 1)%Z with 10%Z; lra)) as [F3 V3].
  destruct (alpha_near d H) as [F4 [V4 B4]]. pose proof (Rabs_le_inv _ _ V1) as W1. pose proof (Rabs_le_inv _ _ V4) as W4.
  assert (D : 0 < / IZR d <= / 2) by (split; [apply Rinv_0_lt_compat, IZR_lt; lia|apply Rinv_le; [lra|apply IZR_le; lia]]).
  assert (P : 0 <= val (ddec 1 2) * val (uniform_alpha d) <= / 10) by nra.
  destruct (MixProofs.mul_near (ddec 1 2) (uniform_alpha d) 1 F1 F4 ltac:(apply Rabs_le; lra) ltac:(lra)) as [F5 V5]. apply Rabs_le_inv in V5.
  assert (P2 : 0 <= val (dmul (ddec 1 2) (uniform_alpha d))).
  { destruct (dmul_val (ddec 1 2) (uniform_alpha d) F1 F4) as [_ V]. rewrite V. apply clamp_nonneg, rnd_nonneg. lra. }
  unfold close. rewrite T. split; [split; [exact F1|lra]|]. split; [split; [exact F2|lra]|]. split; [apply (close_int 1); lia|]. split; [split; [exact F3|lra]|].
  split; [split; [exact F4|]|]. { rewrite Rmult_1_l. lra. }
  split; [split; [exact F5|apply Rabs_le; nra]|]. split; [exact B4|]. split; [exact P2|lra].
Qed.

Theorem C53_suite : forall f d, (101 <= f <= 130)%N -> (2 <= d <= 1000)%Z ->
  exists k, noisy_noise f d = Some k /\ variant_of k = suite_variant f /\ suite_parameters f d k /\ moderate k /\ noisy_rseed f = Some (fopt_rseed f).
Proof.
  intros f d Hf Hd. destruct (parameters_close d Hd) as (P1 & P2 & P3 & P4 & P5 & P6 & B5 & B6).
  assert (T : / IZR (10 ^ 15) = / 1000000000000000) by reflexivity.
  assert (Q1 : fin (ddec 1 2) /\ 0 < val (ddec 1 2) < 1) by (destruct P1 as [F V]; rewrite T in V; apply Rabs_le_inv in V; split; [exact F|lra]).
  assert (Q2 : fin (ddec 5 2) /\ 0 < val (ddec 5 2) < 1) by (destruct P2 as [F V]; rewrite T in V; apply Rabs_le_inv in V; split; [exact F|lra]).
  assert (Q3 : fin (dint 1) /\ val (dint 1) = 1) by (apply (dint_val 1); lia).
  assert (Q4 : fin (ddec 2 1) /\ 0 < val (ddec 2 1) < 1) by (destruct P4 as [F V]; rewrite T in V; apply Rabs_le_inv in V; split; [exact F|lra]).
  destruct Q1 as [F1 V1], Q2 as [F2 V2], Q3 as [F3 V3], Q4 as [F4 V4]. pose proof (proj1 P5) as F5. pose proof (proj1 P6) as F6.
  assert (M1 : moderate (Gaussian (ddec 1 2))) by (split; [exact F1|lra]).
  assert (M2 : moderate (Uniform (dmul (ddec 1 2) (uniform_alpha d)) (ddec 1 2))) by (split; [exact F6|]; split; [exact F1|]; split; [exact B6|lra]).
  assert (M3 : moderate (Cauchy (ddec 1 2) (ddec 5 2))) by (split; [exact F1|]; split; [exact F2|]; split; lra).
  assert (M4 : moderate (Gaussian (dint 1))) by (split; [exact F3|rewrite V3; lra]).
  assert (M5 : moderate (Uniform (uniform_alpha d) (dint 1))) by (split; [exact F5|]; split; [exact F3|]; split; [exact B5|rewrite V3; lra]).
  assert (M6 : moderate (Cauchy (dint 1) (ddec 2 1))) by (split; [exact F3|]; split; [exact F4|]; split; [rewrite V3; lra|lra]).
  assert (S1 : suite_parameters 101 d (Gaussian (ddec 1 2))) by exact P1.
  assert (S2 : suite_parameters 101 d (Uniform (dmul (ddec 1 2) (uniform_alpha d)) (ddec 1 2))) by (split; [exact P6|exact P1]).
  assert (S3 : suite_parameters 101 d (Cauchy (ddec 1 2) (ddec 5 2))) by (split; [exact P1|exact P2]).
  assert (S4 : suite_parameters 107 d (Gaussian (dint 1))) by exact P3.
  assert (S5 : suite_parameters 107 d (Uniform (uniform_alpha d) (dint 1))) by (split; [exact P5|exact P3]).
  assert (S6 : suite_parameters 107 d (Cauchy (dint 1) (ddec 2 1))) by (split; [exact P3|exact P4]).
  assert (L : In f (map (fun k => 101 + N.of_nat k)%N (seq 0 30))).
  { apply in_map_iff. exists (N.to_nat (f - 101)). split; [lia|]. apply in_seq. lia. }
  clear Hf Hd P1 P2 P3 P4 P5 P6 B5 B6 T F1 V1 F2 V2 F3 V3 F4 V4 F5 F6. cbn [seq map N.of_nat Pos.of_succ_nat Pos.succ N.add Pos.add Pos.add_carry In] in L.
  repeat (destruct L as [<-|L]; [eexists; split; [unfold noisy_noise; cbn [N.eqb Pos.eqb orb]; reflexivity|]; split; [reflexivity|]; split; [assumption|]; split; [assumption|reflexivity]|]).
  destruct L.
Qed.

(** ** Examples *)
(** A C library with constant functions, and an inner problem that always has its best value 3 *)
Definition ex_log : double -> double := fun _ => dint (-1).
Definition ex_cos : double -> double := fun _ => dint 1.
Definition ex_exp : double -> double := fun _ => dint 1.
Definition ex_pow : double -> double -> double := fun _ _ => dint 1.
Definition ex_flat : class :=
  {| data := unit; evaluate_function := fun _ _ _ => Ok ([dint 3], tt); evaluate_constraint := None; recommend_solution := None; last_noise_free := fun _ => None |}.
Definition ex_inner : problem ex_flat := Build_problem ex_flat (coco_problem_allocate 2 1 0 0 (Some [dint 3]) (Some [dzero; dzero])) tt.
Definition ex_roi : list (double * double) := [(dint (-5), dint 5); (dint (-5), dint 5)].
Definition ex_noises : list noise := [Gaussian (dint 1); Uniform (ddec 5 1) (dint 1); Cauchy (dint 1) (ddec 2 1)].
Definition ex_process : process ex_log ex_cos ex_exp ex_pow ex_flat :=
  {| p_seeds := reset_seeds; p_problems := map (fun k => transform_obj_noise ex_log ex_cos ex_exp ex_pow ex_inner k ex_roi) ex_noises |}.
Definition ex_events : list event := [Eval 0 [dzero; dint 1]; Eval 2 [dint 7; dzero]; Eval 1 [dinf; dzero]; Eval 1 [dzero; dint (-6)]].

Example C53_libm_example : sane_libm ex_log ex_cos ex_exp ex_pow.
Proof.
  destruct (dint_val 1 ltac:(lia)) as [F1 V1]. destruct (dint_val (-1) ltac:(lia)) as [F V].
  unfold sane_libm, libm_ok, ex_log, ex_cos, ex_exp, ex_pow. rewrite V, V1. split; [split|split].
  - intros _ _ _. split; [exact F|lra].
  - intros _ _. split; [exact F1|]. rewrite Rabs_pos_eq; lra.
  - intros _ _ _. split; [exact F1|lra].
  - intros a b _ _ _ _. split; [exact F1|]. split; [|lra]. split; [lra|apply IZR_le; vm_compute; discriminate].
Qed.

Example C53_domain_example : Forall domain ex_roi.
Proof.
  destruct (dint_val 5 ltac:(lia)) as [F5 V5]. destruct (dint_val (-5) ltac:(lia)) as [F V].
  unfold ex_roi. constructor; [|constructor; [|constructor]]; (split; [exact F|split; [exact F5|split; [exact V|exact V5]]]).
Qed.

(** Penalties: 0 inside, 100 * 2^2 two units outside *)
Example C53_penalty_example :
  match coco_boundary_handling 2 ex_roi [dzero; dint 5], coco_boundary_handling 2 ex_roi [dint 7; dzero] with
  | Ok a, Ok b => dle a dzero && dle dzero a && dle b (dint 400) && dle (dint 400) b
  | _, _ => false
  end = true.
Proof. vm_compute. reflexivity. Qed.

Example C53_drawn_example : drawn ex_noises ex_events (0, 0)%N = (3, 3)%N.
Proof. vm_compute. reflexivity. Qed.

(** The problems of the example are new, the inner one is never below its best value, the events fit and succeed. *)
Example C53_target_example : never_below ex_flat (fun _ => True) (dint 3) /\
  Forall2 (new_problem (fun _ => True)) (map (fun _ => dint 3) ex_noises) (p_problems ex_process) /\ simple ex_process /\ fits ex_process ex_events /\
  (match run ex_log ex_cos ex_exp ex_pow ex_process ex_events with
   | Ok (ys, st) => (length ys =? 4)%nat && forallb (fun P : problem (noise_class ex_log ex_cos ex_exp ex_pow ex_flat) => match coco_problem_final_target_hit (head P), n_free (body P) with
       | Ok hit, [f] => negb hit && dle f (dint 3) | _, _ => false end) (p_problems st)
   | _ => false
   end = true).
Proof.
  destruct (dint_val 3 ltac:(lia)) as [F3 V3]. destruct (dint_val 1 ltac:(lia)) as [F1 V1].
  assert (T : / IZR (10 ^ 15) = / 1000000000000000) by reflexivity. destruct (parameters_close 2 ltac:(lia)) as (_ & _ & _ & [F2 V2] & _). rewrite T in V2. apply Rabs_le_inv in V2.
  destruct MixProofs.half_val as [Fh Vh]. change MixProofs.half with (ddec 5 1) in Fh, Vh.
  split; [|split; [|split; [|split]]].
  - intros h d x y d' _ E. cbn [evaluate_function ex_flat] in E. assert (y = [dint 3]) as -> by congruence. split; [exact I|]. exists (dint 3). split; [reflexivity|]. split; [exact F3|lra].
  - unfold ex_process, ex_noises. cbn [p_problems map]. pose proof C53_domain_example as D.
    assert (K : forall k, moderate k -> new_problem (fun _ => True) (dint 3) (transform_obj_noise ex_log ex_cos ex_exp ex_pow ex_inner k ex_roi)).
    { intros k M. split; [exact I|]. split; [reflexivity|]. split; [reflexivity|]. split; [exact F3|]. split; [rewrite V3, Rabs_pos_eq; lra|]. split; [exact M|]. split; [exact D|].
      split; [reflexivity|]. split; [reflexivity|]. split; [reflexivity|]. split; [reflexivity|]. split; reflexivity. }
    constructor; [|constructor; [|constructor; [|constructor]]]; apply K.
    + split; [exact F1|lra].
    + split; [exact Fh|]. split; [exact F1|]. split; [rewrite Vh; lra|rewrite V1; lra].
    + split; [exact F1|]. split; [exact F2|]. split; [lra|lra].
  - unfold simple, ex_process. cbn [p_problems map ex_noises]. repeat (constructor; [reflexivity|]). constructor.
  - unfold fits, ex_events. repeat (constructor; [eexists; split; reflexivity|]). constructor.
  - vm_compute. reflexivity.
Qed.

(** The k-th seed after the first 10^9 draws is the k-th one. *)
Example C53_seeds_example : seed_of 1 = 31%Z /\ seed_of 999999970 = 1000000000%Z /\ seed_of 999999971 = 1%Z /\ seed_of 1000000001 = 31%Z.
Proof. vm_compute. repeat split. Qed.

(** Sizes for the error bound *)
Example C53_size_example : forall v, fin v -> val v = 7 -> distance v = 2 /\ sum_of_squares [v; v] = 8.
Proof.
  intros v F V. assert (D : distance v = 2) by (unfold distance; rewrite V, Rabs_pos_eq by lra; rewrite Rmax_right; lra).
  split; [exact D|]. cbn [sum_of_squares fold_right]. rewrite D. ring.
Qed.

Example C53_suite_example : (101 <= 105 <= 130)%N /\ suite_variant 105 = WithUniform /\ noisy_rseed 105 = Some 8%N.
Proof. vm_compute. repeat split; discriminate. Qed.

(** The constants against division by zero are the doubles next to 1e-99 and 1e-199. *)
Theorem C53_constants : Rabs (val tiny - / 10 ^ 99) <= bpow radix2 (-381) / 2 /\ Rabs (val tiny199 - / 10 ^ 199) <= bpow radix2 (-714) / 2.
Proof.
  assert (E : forall x m e, B2SF x = SpecFloat.S754_finite false m e -> val x = IZR (Zpos m) * bpow radix2 e).
  { intros x m e E. assert (F : fin x) by (unfold fin; destruct x; cbn [B2SF] in E; congruence || reflexivity).
    rewrite (val_fin _ F), <- (SF2R_B2SF 53 1024), E. reflexivity. }
  rewrite (E tiny 4925250774549310%positive (-381)%Z), (E tiny199 8618206661096855%positive (-714)%Z) by (vm_compute; reflexivity). clear E.
  change (-381)%Z with (- (381))%Z. change (-714)%Z with (- (714))%Z. rewrite !bpow_opp, <- !(IZR_Zpower radix2) by discriminate.
  rewrite !(pow_IZR 10). set (a := (10 ^ Z.of_nat 99)%Z). set (b := (10 ^ Z.of_nat 199)%Z). set (p := Zpower radix2 381). set (q := Zpower radix2 714).
  vm_compute in a, b, p, q. subst a b p q. split; apply Rabs_le; split; lra.
Qed.

Print Assumptions C53_penalty.
Print Assumptions C53_monotone.
Print Assumptions C53_size.
Print Assumptions C53_seeds.
Print Assumptions C53_value.
Print Assumptions C53_same.
Print Assumptions C53_correlated.
Print Assumptions C53_above.
Print Assumptions C53_target.
Print Assumptions C53_suite.
Print Assumptions C53_constants.
