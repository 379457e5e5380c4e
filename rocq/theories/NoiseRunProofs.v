(** Proofs about the noise samples and about sequences of evaluations of noisy problems. *)
From Coq Require Import List Arith NArith ZArith Znumtheory Reals Bool Lia Lra Psatz.
From Flocq Require Import Core BinarySingleNaN.
Import ListNotations.
From Verif Require Import CBase OptModel DblModel DblSpec DblProofs ProbModel ProbSpec ProbProofs PairModel RandModel RandSpec LegacyProofs PeriodProofs
  NoiseModel NoiseSpec NoiseProofs.

(** ** Seeds *)
Open Scope Z_scope.
Lemma seed_range : forall k, 1 <= seed_of k <= 10 ^ 9.
Proof. intros k. unfold seed_of. pose proof (Z.mod_pos_bound (29 + Z.of_N k) (10 ^ 9) ltac:(reflexivity)). lia. Qed.
Lemma seed_0 : seed_of 0 = 30.
Proof. reflexivity. Qed.
Lemma increase_seed : forall k, increase (seed_of k) = seed_of (k + 1).
Proof.
  intros k. unfold increase, seed_of. replace (29 + Z.of_N (k + 1)) with (29 + Z.of_N k + 1) by lia. set (a := 29 + Z.of_N k). clearbody a.
  change 1000000000 with (10 ^ 9). set (m := 10 ^ 9). assert (M : 1 < m) by reflexivity. clearbody m. cbv zeta.
  pose proof (Z.mod_pos_bound a m ltac:(lia)) as B. rewrite <- (Zplus_mod_idemp_l a 1 m).
  destruct (Z.gtb_spec (a mod m + 1 + 1) m) as [G|G].
  - replace (a mod m + 1) with m by lia. rewrite Z_mod_same_full. reflexivity.
  - rewrite (Z.mod_small (a mod m + 1)) by lia. reflexivity.
Qed.
Lemma seed_inj : forall k j, seed_of k = seed_of j -> (Z.abs (Z.of_N k - Z.of_N j) < 10 ^ 9) -> k = j.
Proof.
  intros k j E H. unfold seed_of in E.
  pose proof (Z_div_mod_eq_full (29 + Z.of_N k) (10 ^ 9)) as A. pose proof (Z_div_mod_eq_full (29 + Z.of_N j) (10 ^ 9)) as B. nia.
Qed.
Lemma seed_period : forall k j, (Z.of_N k mod 10 ^ 9 = Z.of_N j mod 10 ^ 9) -> seed_of k = seed_of j.
Proof.
  intros k j E. unfold seed_of. rewrite <- (Zplus_mod_idemp_r (Z.of_N k)), E, Zplus_mod_idemp_r. reflexivity.
Qed.
Lemma seed_limit : forall k, - legacy_limit < seed_of k < legacy_limit.
Proof. intros k. pose proof (seed_range k) as H. unfold legacy_limit. lia. Qed.
Lemma seed_effective : forall k, effective_seed (seed_of k) = seed_of k.
Proof. intros k. pose proof (seed_range k). unfold effective_seed. lia. Qed.
Lemma seed_coprime : forall k, ~ (lcg_modulus | seed_of k).
Proof. intros k D. pose proof (seed_range k) as H. apply Z.divide_pos_le in D; [|lia]. unfold lcg_modulus in D. lia. Qed.

(** ** Samples *)
Open Scope R_scope.
Lemma uniform_lower : forall a, (0 < a < lcg_modulus)%Z -> bpow radix2 (-31) <= val (uniform_of a).
Proof.
  intros a H. destruct (uniform_spec a ltac:(lia)) as [[_ [V _]] _]. rewrite (V ltac:(lia)).
  replace (bpow radix2 (-31)) with (F2R (Float radix2 1 (-31))) by (unfold F2R; cbn [Fnum Fexp]; ring).
  apply rnd_ge_format; [|reflexivity|lia]. unfold F2R. cbn [Fnum Fexp]. unfold lcg_modulus.
  assert (P : 0 < IZR (2 ^ 31 - 1)) by (apply IZR_lt; reflexivity). assert (A : 1 <= IZR a) by (apply IZR_le; lia).
  apply (Rmult_le_reg_r (IZR (2 ^ 31 - 1))); [exact P|]. replace (IZR a / IZR (2 ^ 31 - 1) * IZR (2 ^ 31 - 1)) with (IZR a) by (field; lra).
  assert (B31 : bpow radix2 (-31) * bpow radix2 31 = 1) by (rewrite <- bpow_plus; reflexivity).
  assert (V31 : bpow radix2 31 = IZR (2 ^ 31 - 1) + 1) by (rewrite <- plus_IZR; reflexivity).
  pose proof (bpow_gt_0 radix2 (-31)). nra.
Qed.

(** A number between 2^-31 and 1 *)
Definition unit_number (u : double) : Prop := fin u /\ bpow radix2 (-31) <= val u < 1.

Lemma unif_seed : forall n k, exists us, bbob2009_unif n (seed_of k) = Ok us /\ length us = n /\ Forall unit_number us.
Proof.
  intros n k. destruct (unif_ok n (seed_of k) (seed_limit k)) as [ps [E [L _]]]. rewrite E. eexists. split; [reflexivity|].
  split; [rewrite map_length; exact L|]. apply Forall_map, Forall_forall. intros p _. rewrite seed_effective.
  pose proof (lcg_range (seed_of k) p) as R. pose proof (lcg_nonzero (seed_of k) p (seed_coprime k)) as N0.
  destruct (uniform_spec (lcg (seed_of k) p) R) as [[F _] [_ U]]. split; [exact F|].
  pose proof (uniform_lower (lcg (seed_of k) p) ltac:(lia)). pose proof (bpow_gt_0 radix2 (-31)). lra.
Qed.

Section Libm.
Variable log cos exp : double -> double.
Variable pow : double -> double -> double.

Lemma uniform_sample_exists : forall k, exists u, uniform_sample k u /\ unit_number u.
Proof.
  intros k. destruct (unif_seed 1 k) as [us [E [L U]]]. destruct us as [|u [|? ?]]; try discriminate L. exists u. split; [exact E|]. inversion U. assumption.
Qed.
(** The k-th Gaussian sample is made of the k-th uniform sample and another number. *)
Lemma gaussian_sample_exists : forall k, exists u w, uniform_sample k u /\ unit_number u /\ unit_number w /\ gaussian_sample log cos k (gauss_value log cos u w).
Proof.
  intros k. destruct (unif_seed 2 k) as [us [E [L U]]]. destruct us as [|u [|w [|? ?]]]; try discriminate L. exists u, w.
  inversion U as [|? ? Uu U']. inversion U' as [|? ? Uw _]. subst. split; [|split; [assumption|split; [assumption|]]].
  - unfold uniform_sample. pose proof (seed_limit k) as SL. rewrite unif_start in E |- * by exact SL. exact (loop_prefix 1 1 _ _ _ _ E).
  - unfold gaussian_sample, bbob2009_gauss. change (Z.of_nat (2 * 1) <? 6000)%Z with true. cbv iota. change (2 * 1)%nat with 2%nat. rewrite E. reflexivity.
Qed.

Definition seeds_at (n : N * N) : seeds := {| randseed := seed_of (fst n); randnseed := seed_of (snd n) |}.

Lemma sample_uniform : forall u g, exists U, coco_sample_uniform_noise (seeds_at (u, g)) = Ok (U, seeds_at (u + 1, g)%N) /\ uniform_sample (u + 1) U /\ unit_number U.
Proof.
  intros u g. destruct (uniform_sample_exists (u + 1)) as [U [S K]]. exists U. split; [|split; assumption].
  unfold coco_sample_uniform_noise. cbn [seeds_at randseed randnseed fst snd]. rewrite increase_seed. rewrite S. reflexivity.
Qed.
Lemma sample_gaussian : forall u g, exists G, coco_sample_gaussian_noise log cos (seeds_at (u, g)) = Ok (G, seeds_at (u, g + 1)%N) /\ gaussian_sample log cos (g + 1) G.
Proof.
  intros u g. destruct (gaussian_sample_exists (g + 1)) as [a [w [_ [_ [_ S]]]]]. eexists. split; [|exact S].
  unfold coco_sample_gaussian_noise. cbn [seeds_at randseed randnseed fst snd]. rewrite increase_seed. rewrite S. reflexivity.
Qed.

Definition after (n : N * N) (k : noise) : N * N := (fst n + fst (needs k), snd n + snd (needs k))%N.

Lemma draw_ok : forall k n, exists n1 n2, draw log cos exp pow k (seeds_at n) = Ok (n1, n2, seeds_at (after n k)) /\
  forall fopt f penalty, noisy_value log cos exp pow k (fst n) (snd n) fopt f penalty (disturb pow k n1 n2 fopt f penalty).
Proof.
  intros [beta|alpha beta|alpha p] [u g]; cbn [draw].
  - destruct (sample_gaussian u g) as [G [E S]]. rewrite E. cbn [bind]. exists (exp (dmul beta G)), dzero. split.
    + unfold after. cbn [fst snd needs]. rewrite N.add_0_r. reflexivity.
    + intros fopt f penalty. exists G. split; [exact S|reflexivity].
  - destruct (sample_uniform u g) as [U1 [E1 [S1 _]]]. destruct (sample_uniform (u + 1) g) as [U2 [E2 [S2 _]]].
    rewrite E1. cbn [bind]. rewrite E2. cbn [bind]. exists (pow U1 beta), U2. split.
    + unfold after. cbn [fst snd needs]. rewrite N.add_0_r, <- N.add_assoc. reflexivity.
    + intros fopt f penalty. exists U1, U2. split; [exact S1|]. split; [|reflexivity]. rewrite <- N.add_assoc in S2. exact S2.
  - destruct (sample_uniform u g) as [U [E1 [S1 _]]]. destruct (sample_gaussian (u + 1) g) as [G [E2 S2]]. destruct (sample_gaussian (u + 1) (g + 1)) as [G' [E3 S3]].
    rewrite E1. cbn [bind]. rewrite E2. cbn [bind]. rewrite E3. cbn [bind]. cbv zeta.
    eexists. exists dzero. split; [|].
    + unfold after. cbn [fst snd needs]. rewrite <- N.add_assoc. reflexivity.
    + intros fopt f penalty. exists U, G, G'. split; [exact S1|]. split; [exact S2|]. split; [rewrite <- N.add_assoc in S3; exact S3|]. reflexivity.
Qed.

(** ** Evaluations *)
Context {C : class}.
Notation nclass := (noise_class log cos exp pow C).
Implicit Types P Q : problem nclass.

(** What evaluations leave as it is *)
Definition kept P Q : Prop :=
  n_noise (body Q) = n_noise (body P) /\ n_roi (body Q) = n_roi (body P) /\ head (n_inner (body Q)) = head (n_inner (body P)) /\
  number_of_variables (head Q) = number_of_variables (head P) /\ number_of_constraints (head Q) = number_of_constraints (head P) /\
  number_of_objectives (head Q) = number_of_objectives (head P) /\ best_value (head Q) = best_value (head P) /\
  final_target_delta (head Q) = final_target_delta (head P).
Lemma kept_refl : forall P, kept P P.
Proof. intros P. repeat split. Qed.
Lemma kept_trans : forall P Q R, kept P Q -> kept Q R -> kept P R.
Proof. unfold kept. intros P Q R H K. intuition congruence. Qed.

Lemma noise_evaluate_inv : forall h (d : noisy C) x y d', noise_evaluate log cos exp pow h d x = Ok (y, d') ->
  exists f rest b n1 n2 fopt penalty,
    evaluate_function C (head (n_inner d)) (body (n_inner d)) x = Ok (f :: rest, b) /\
    draw log cos exp pow (n_noise d) (n_seeds d) = Ok (n1, n2, n_seeds d') /\
    (match n_noise d with Cauchy _ _ => True | _ => exists v, best_value (head (n_inner d)) = Some v /\ nth_error v 0 = Some fopt end) /\
    coco_boundary_handling (number_of_variables h) (n_roi d) x = Ok penalty /\
    y = disturb pow (n_noise d) n1 n2 fopt f penalty :: rest /\
    d' = {| n_inner := {| head := head (n_inner d); body := b |}; n_noise := n_noise d; n_roi := n_roi d; n_seeds := n_seeds d';
            n_free := firstn (number_of_objectives h) (f :: rest) |}.
Proof.
  intros h d x y d' H. unfold noise_evaluate in H. cbv zeta in H.
  destruct (match n_noise d with Cauchy _ _ => Ok dzero | _ => _ end) as [fopt| |] eqn:Ef; try discriminate H. cbn [bind] in H.
  destruct (draw log cos exp pow (n_noise d) (n_seeds d)) as [[[n1 n2] s]| |] eqn:Ed; try discriminate H. cbn [bind] in H.
  destruct (evaluate_function C (head (n_inner d)) (body (n_inner d)) x) as [[y1 b]| |] eqn:Ee; try discriminate H. cbn [bind] in H.
  destruct y1 as [|f rest]; [discriminate H|]. unfold mget in H. cbn [nth_error bind] in H.
  destruct (coco_boundary_handling _ _ _) as [penalty| |] eqn:Ep; try discriminate H. cbn [bind] in H.
  unfold set_first, mset in H. cbn [upd length Nat.ltb Nat.leb bind] in H.
  exists f, rest, b, n1, n2, fopt, penalty. apply (f_equal (fun r => match r with Ok p => Some p | _ => None end)) in H.
  assert (Hy : y = disturb pow (n_noise d) n1 n2 fopt f penalty :: rest) by congruence.
  assert (Hd : d' = {| n_inner := {| head := head (n_inner d); body := b |}; n_noise := n_noise d; n_roi := n_roi d; n_seeds := s;
            n_free := firstn (number_of_objectives h) (f :: rest) |}) by congruence.
  subst d'. cbn [n_seeds]. split; [reflexivity|]. split; [reflexivity|]. split; [|split; [reflexivity|split; [exact Hy|reflexivity]]].
  destruct (n_noise d); auto; destruct (best_value (head (n_inner d))) as [v|]; try discriminate Ef; exists v; (split; [reflexivity|]);
    unfold mget in Ef; destruct (nth_error v 0); congruence.
Qed.

Lemma evaluate_irregular : forall s P x, length x = number_of_variables (head P) -> regularb x = false ->
  exists y, evaluate_with log cos exp pow s P x = Ok (y, set_body P (with_seeds s (body P) : data nclass), s).
Proof.
  intros s P x L R. unfold evaluate_with. destruct (classify x) as [[_ K]|[[H _]|[H _]]]; [congruence| |].
  - rewrite eval_inf by (cbn; assumption). cbn [bind]. eexists. reflexivity.
  - rewrite eval_nan by (cbn; assumption). cbn [bind]. eexists. reflexivity.
Qed.

Lemma evaluate_regular : forall s P x y Q s', length x = number_of_variables (head P) -> regular x -> number_of_constraints (head P) = 0%nat ->
  evaluate_with log cos exp pow s P x = Ok (y, Q, s') ->
  exists d', noise_evaluate log cos exp pow (head P) (with_seeds s (body P)) x = Ok (y, d') /\ s' = n_seeds d' /\ body Q = d' /\ kept P Q /\
    exists y0, nth_error y 0 = Some y0 /\ evaluations (head Q) = (evaluations (head P) + 1)%N /\
      best_observed_fvalue (head Q) = (if dlt y0 (best_observed_fvalue (head P)) then y0 else best_observed_fvalue (head P)).
Proof.
  intros s P x y Q s' L R NC H. unfold evaluate_with in H.
  destruct (coco_evaluate_function _ x) as [[y1 Q1]| |] eqn:E; try discriminate H. cbn [bind] in H.
  assert (y1 = y /\ Q1 = Q /\ n_seeds (body Q1) = s') as [-> [-> Es]] by (split; [|split]; congruence).
  apply eval_regular in E; [|cbn; exact L|exact R]. destruct E as [d [E [Ly K]]]. cbv zeta in K. exists d.
  cbn [evaluate_function noise_class set_body head body] in E. split; [exact E|].
  pose proof (noise_evaluate_inv _ _ _ _ _ E) as [f [rest [b [n1 [n2 [fopt [penalty [E1 [E2 [E3 [E4 [E5 E6]]]]]]]]]]]].
  cbn [set_body head body number_of_constraints] in K.
  assert (KK : forall h, h = head P \/ (exists v k, h = bumped (head P) v k) -> forall q : problem nclass, q = Build_problem nclass h d -> kept P q).
  { intros h Hh q ->. unfold kept. cbn [body head]. rewrite E6. cbn [n_noise n_roi n_inner head with_seeds]. destruct Hh as [->|[v [k ->]]]; repeat split; reflexivity. }
  destruct y as [|y0 y]; [cbn in Ly; lia|]. cbn [hd] in K.
  destruct K as [[Lt ->]|[Lt [[_ ->]|[Pc _]]]]; [| |lia].
  - split; [rewrite <- Es; reflexivity|]. split; [reflexivity|]. split; [eapply KK; [|reflexivity]; right; eauto|].
    exists y0. split; [reflexivity|]. split; [reflexivity|]. rewrite Lt. reflexivity.
  - split; [rewrite <- Es; reflexivity|]. split; [reflexivity|]. split; [eapply KK; [|reflexivity]; right; eauto|].
    exists y0. split; [reflexivity|]. split; [reflexivity|]. rewrite Lt. reflexivity.
Qed.

(** ** Histories *)
Notation process := (process log cos exp pow C).
Implicit Types st : process.

Lemma nth_upd : forall A (l : list A) i v j, nth_error (upd l i v) j = if Nat.eqb i j then match nth_error l j with Some _ => Some v | None => None end else nth_error l j.
Proof.
  induction l as [|a l IH]; intros i v j; [destruct i, j; cbn; try destruct (Nat.eqb _ _); reflexivity|].
  destruct i as [|i]; destruct j as [|j]; cbn [upd nth_error Nat.eqb]; try reflexivity. apply IH.
Qed.

Definition related st st' : Prop := forall i P, nth_error (p_problems st) i = Some P -> exists Q, nth_error (p_problems st') i = Some Q /\ kept P Q.
Lemma related_refl : forall st, related st st.
Proof. intros st i P H. exists P. split; [exact H|apply kept_refl]. Qed.
Lemma related_trans : forall a b c, related a b -> related b c -> related a c.
Proof. intros a b c H K i P E. destruct (H i P E) as [Q [E2 K2]]. destruct (K i Q E2) as [R [E3 K3]]. exists R. split; [exact E3|]. eapply kept_trans; eassumption. Qed.

Lemma step_related : forall st e y st', simple st -> fits st [e] -> step log cos exp pow st e = Ok (y, st') ->
  related st st' /\ simple st' /\ length (p_problems st') = length (p_problems st) /\ kinds st' = kinds st.
Proof.
  intros st [i x|] y st' S F H.
  - destruct (Forall_inv F) as [P [EP L]]. cbn [step] in H. unfold mget in H. rewrite EP in H. cbn [bind] in H.
    destruct (evaluate_with log cos exp pow (p_seeds st) P x) as [[[y1 Q] s]| |] eqn:E; try discriminate H. cbn [bind] in H.
    assert (st' = {| p_seeds := s; p_problems := upd (p_problems st) i Q |}) as -> by congruence. clear H.
    assert (NC : number_of_constraints (head P) = 0%nat) by (apply nth_error_In in EP; unfold simple in S; rewrite Forall_forall in S; apply S; exact EP).
    assert (K : kept P Q).
    { destruct (regularb x) eqn:R.
      - apply regularb_spec in R. destruct (evaluate_regular _ _ _ _ _ _ L R NC E) as [d [_ [_ [_ [K _]]]]]. exact K.
      - destruct (evaluate_irregular (p_seeds st) P x L R) as [y2 E2]. rewrite E2 in E.
        assert (Q = set_body P (with_seeds (p_seeds st) (body P) : data nclass)) as -> by congruence. repeat split. }
    assert (R : related st {| p_seeds := s; p_problems := upd (p_problems st) i Q |}).
    { intros j P' EP'. cbn [p_problems]. rewrite nth_upd. destruct (Nat.eqb_spec i j) as [<-|N].
      - rewrite EP'. exists Q. split; [reflexivity|]. assert (P' = P) as -> by congruence. exact K.
      - exists P'. split; [exact EP'|apply kept_refl]. }
    assert (LL : length (upd (p_problems st) i Q) = length (p_problems st)).
    { clear. revert i. induction (p_problems st) as [|a l IH]; intros [|i]; cbn [upd length]; auto. }
    split; [exact R|]. split; [|split].
    + unfold simple in *. cbn [p_problems]. rewrite Forall_forall in *. intros P' Hin. apply In_nth_error in Hin as [j Hj]. rewrite nth_upd in Hj.
      destruct (Nat.eqb_spec i j) as [Eij|N]; [|apply S; eapply nth_error_In; eassumption].
      rewrite <- Eij, EP in Hj. assert (P' = Q) as -> by congruence. destruct K as [_ [_ [_ [_ [K _]]]]]. congruence.
    + exact LL.
    + unfold kinds. cbn [p_problems]. clear - EP K. revert i EP. induction (p_problems st) as [|a l IH]; intros [|i] EP; cbn [upd map nth_error] in *; try discriminate EP.
      * assert (a = P) as -> by congruence. f_equal. apply K.
      * f_equal. apply IH. exact EP.
  - cbn [step] in H. assert (st' = {| p_seeds := reset_seeds; p_problems := p_problems st |}) as -> by congruence. repeat split; auto. apply (related_refl st).
Qed.

Lemma fits_related : forall st st' es, related st st' -> fits st es -> fits st' es.
Proof.
  intros st st' es R F. unfold fits in *. eapply Forall_impl; [|exact F]. intros [i x|]; [|auto]. intros [P [E L]]. destruct (R i P E) as [Q [E2 K]].
  exists Q. split; [exact E2|]. destruct K as [_ [_ [_ [K _]]]]. congruence.
Qed.

Lemma step_seeds : forall st e y st' n, simple st -> fits st [e] -> p_seeds st = seeds_at n -> step log cos exp pow st e = Ok (y, st') ->
  p_seeds st' = seeds_at (drawn (kinds st) [e] n).
Proof.
  intros st [i x|] y st' n S F H0 H.
  - destruct (Forall_inv F) as [P [EP L]]. cbn [step] in H. unfold mget in H. rewrite EP in H. cbn [bind] in H.
    destruct (evaluate_with log cos exp pow (p_seeds st) P x) as [[[y1 Q] s]| |] eqn:E; try discriminate H. cbn [bind] in H.
    assert (st' = {| p_seeds := s; p_problems := upd (p_problems st) i Q |}) as -> by congruence. cbn [p_seeds]. clear H.
    assert (NC : number_of_constraints (head P) = 0%nat) by (apply nth_error_In in EP; unfold simple in S; rewrite Forall_forall in S; apply S; exact EP).
    cbn [drawn]. unfold kinds. rewrite nth_error_map, EP. cbn [option_map].
    destruct (regularb x) eqn:R.
    + apply regularb_spec in R. destruct (evaluate_regular _ _ _ _ _ _ L R NC E) as [d [E1 [-> _]]].
      apply noise_evaluate_inv in E1 as [f [rest [b [n1 [n2 [fopt [penalty [_ [E2 _]]]]]]]]]. cbn [with_seeds n_noise n_seeds] in E2. rewrite H0 in E2.
      destruct (draw_ok (n_noise (body P)) n) as [m1 [m2 [E3 _]]]. rewrite E3 in E2. unfold after in E2. congruence.
    + destruct (evaluate_irregular (p_seeds st) P x L R) as [y2 E2]. rewrite E2 in E. congruence.
  - cbn [step] in H. assert (st' = {| p_seeds := reset_seeds; p_problems := p_problems st |}) as -> by congruence. reflexivity.
Qed.

Lemma drawn_app : forall ks es es' n, drawn ks (es ++ es') n = drawn ks es' (drawn ks es n).
Proof. intros ks es. induction es as [|[i x|] es IH]; intros es' n; cbn [app drawn]; auto. destruct (nth_error ks i); apply IH. Qed.

Lemma run_seeds : forall es st ys st' n, simple st -> fits st es -> p_seeds st = seeds_at n -> run log cos exp pow st es = Ok (ys, st') ->
  p_seeds st' = seeds_at (drawn (kinds st) es n) /\ related st st' /\ simple st' /\ kinds st' = kinds st.
Proof.
  induction es as [|e es IH]; intros st ys st' n S F H0 H; cbn [run] in H.
  - assert (st' = st) as -> by congruence. repeat split; auto. apply related_refl.
  - destruct (step log cos exp pow st e) as [[y st1]| |] eqn:E; try discriminate H. cbn [bind] in H.
    destruct (run log cos exp pow st1 es) as [[ys2 st2]| |] eqn:E2; try discriminate H. cbn [bind] in H.
    assert (st' = st2) as -> by congruence. inversion F as [|? ? Fe Fes]. subst.
    assert (F1 : fits st [e]) by (constructor; [exact Fe|constructor]).
    destruct (step_related _ _ _ _ S F1 E) as [R [S1 [_ K1]]]. pose proof (step_seeds _ _ _ _ n S F1 H0 E) as P1.
    destruct (IH st1 ys2 st2 _ S1 (fits_related _ _ _ R Fes) P1 E2) as [P2 [R2 [S2 K2]]].
    split; [|split; [|split]].
    + rewrite P2, K1. change (e :: es) with ([e] ++ es). rewrite drawn_app. reflexivity.
    + eapply related_trans; eassumption.
    + exact S2.
    + congruence.
Qed.
End Libm.
