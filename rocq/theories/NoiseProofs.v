(** Proofs about noisy problems. *)
From Coq Require Import List Arith NArith ZArith Reals Bool Lia Lra Psatz.
From Flocq Require Import Core BinarySingleNaN Relative.
Import ListNotations.
From Verif Require Import CBase OptModel DblModel DblSpec DblProofs ProbModel ProbSpec RandModel RandSpec LegacyProofs NoiseModel NoiseSpec.
Open Scope R_scope.

(** ** Arithmetic including +infinity *)
Lemma clamp_big : forall r, big <= r -> clamp r = big.
Proof. intros r H. pose proof big_pos. unfold clamp, Rmax, Rmin. repeat destruct Rle_dec; lra. Qed.
Lemma clamp_le_big : forall r, clamp r <= big.
Proof. intros r. pose proof big_pos. unfold clamp, Rmax, Rmin. repeat destruct Rle_dec; lra. Qed.
Lemma clamp_nonneg : forall r, 0 <= r -> 0 <= clamp r.
Proof. intros r H. pose proof big_pos. unfold clamp, Rmax, Rmin. repeat destruct Rle_dec; lra. Qed.
Lemma rnd_big : rnd big = big.
Proof. unfold rnd. apply round_generic; [auto with typeclass_instances|]. apply generic_format_bpow. vm_compute. discriminate. Qed.
Lemma rnd_nonneg : forall r, 0 <= r -> 0 <= rnd r.
Proof. intros r H. rewrite <- rnd_0. apply rnd_mono. exact H. Qed.
Lemma rnd_ge_big : forall r, big <= r -> big <= rnd r.
Proof. intros r H. rewrite <- rnd_big at 1. apply rnd_mono. exact H. Qed.
Lemma not_fin_pos : forall x, num x -> ~ fin x -> 0 <= val x -> x = dinf.
Proof.
  intros [s|s| |s m e H] N F V; unfold num, fin in *; cbn in N, F; try congruence. destruct s; [|reflexivity].
  exfalso. cbn [val] in V. pose proof big_pos. lra.
Qed.
Lemma fin_dec : forall x : double, fin x \/ ~ fin x.
Proof. intros x. unfold fin. destruct (is_finite x); [left; reflexivity|right; discriminate]. Qed.

Lemma add_inf : forall x, num x -> -big < val x -> dadd x dinf = dinf /\ dadd dinf x = dinf.
Proof. intros [[]|[]| |s m e H] N V; unfold num in N; cbn in N; try discriminate; try (split; reflexivity). exfalso. cbn [val] in V. lra. Qed.
Lemma mul_inf : forall x, num x -> 0 < val x -> dmul x dinf = dinf /\ dmul dinf x = dinf.
Proof.
  intros [[]|[]| |[] m e H] N V; unfold num in N; cbn in N; try discriminate; try (split; reflexivity); exfalso; cbn [val] in V.
  - cbn in V. lra.
  - cbn in V. lra.
  - pose proof big_pos. lra.
  - assert (0 >= B2R (B754_finite true m e H)); [|lra]. apply Rle_ge. apply F2R_le_0. cbn. lia.
Qed.
Lemma inf_num : num dinf /\ val dinf = big.
Proof. split; reflexivity. Qed.

(** Sums and products of numbers that are not negative *)
Lemma add_nn : forall x y, num x -> num y -> 0 <= val x -> 0 <= val y -> num (dadd x y) /\ val (dadd x y) = clamp (rnd (val x + val y)).
Proof.
  intros x y Nx Ny Vx Vy. pose proof big_pos.
  destruct (fin_dec x) as [Fx|Fx]; [destruct (fin_dec y) as [Fy|Fy]; [apply dadd_val; assumption|]|].
  - rewrite (not_fin_pos y Ny Fy Vy). destruct (add_inf x Nx) as [E _]; [lra|]. rewrite E. split; [reflexivity|].
    rewrite clamp_big; [reflexivity|]. apply rnd_ge_big. cbn [val dinf]. change (val dinf) with big. lra.
  - rewrite (not_fin_pos x Nx Fx Vx). destruct (add_inf y Ny) as [_ E]; [lra|]. rewrite E. split; [reflexivity|].
    rewrite clamp_big; [reflexivity|]. apply rnd_ge_big. change (val dinf) with big. lra.
Qed.
(** Adding something that is not negative *)
Lemma add_ge : forall x y, num x -> num y -> -big < val x -> 0 <= val y -> num (dadd x y) /\ val x <= val (dadd x y).
Proof.
  intros x y Nx Ny Vx Vy. pose proof big_pos.
  destruct (fin_dec x) as [Fx|Fx].
  - destruct (fin_dec y) as [Fy|Fy].
    + destruct (dadd_val x y Fx Fy) as [N V]. split; [exact N|]. rewrite V. rewrite <- (rnd_val x Fx) at 1.
      rewrite <- (clamp_lt (rnd (val x))). { apply clamp_mono, rnd_mono. lra. }
      rewrite rnd_val by exact Fx. pose proof (val_bound x Fx). apply Rabs_def1; lra.
    + rewrite (not_fin_pos y Ny Fy Vy). destruct (add_inf x Nx) as [E _]; [lra|]. rewrite E. split; [reflexivity|]. change (val dinf) with big. pose proof (val_range x). lra.
  - assert (V0 : 0 <= val x) by (destruct (inf_val x Nx Fx); lra). rewrite (not_fin_pos x Nx Fx V0). destruct (add_inf y Ny) as [_ E]; [lra|]. rewrite E. split; [reflexivity|lra].
Qed.

(** ** The penalty *)
Lemma square_val : forall a, num a -> num (dmul a a) /\ val (dmul a a) = clamp (rnd (val a * val a)).
Proof.
  intros a N. destruct (fin_dec a) as [F|F]; [apply dmul_val; assumption|].
  assert (E : dmul a a = dinf).
  { destruct a as [s|s| |s m e H]; unfold num, fin in *; cbn in N, F; try congruence. destruct s; reflexivity. }
  rewrite E. split; [reflexivity|]. rewrite clamp_big; [reflexivity|]. apply rnd_ge_big. pose proof big_pos.
  assert (1 <= big) by (change 1 with (bpow radix2 0); apply bpow_le; lia).
  destruct (inf_val a N F) as [V|V]; rewrite V; nra.
Qed.

Definition square (v : double) : R := clamp (rnd (clamp (rnd (distance v)) * clamp (rnd (distance v)))).
Definition add_square (v : double) (p : R) : R := if Rlt_dec 0 (distance v) then clamp (rnd (p + square v)) else p.

Lemma distance_cases : forall v, (-5 <= val v <= 5 /\ distance v = 0) \/ (5 < val v /\ distance v = val v - 5) \/ (val v < -5 /\ distance v = -5 - val v).
Proof. intros v. unfold distance, Rmax, Rabs. destruct Rcase_abs; destruct Rle_dec; lra. Qed.
Lemma distance_nonneg : forall v, 0 <= distance v.
Proof. intros v. unfold distance. apply Rmax_l. Qed.

Lemma outside_square : forall v b, fin v -> fin b -> (val b = 5 /\ 5 < val v \/ val b = -5 /\ val v < -5) ->
  num (dmul (dsub v b) (dsub v b)) /\ val (dmul (dsub v b) (dsub v b)) = square v.
Proof.
  intros v b Fv Fb H. destruct (dsub_val v b Fv Fb) as [N V]. destruct (square_val _ N) as [N2 V2]. split; [exact N2|].
  rewrite V2, V. unfold square. f_equal. f_equal.
  destruct (distance_cases v) as [[A D]|[[A D]|[A D]]]; rewrite D; destruct H as [[E K]|[E K]]; try (exfalso; lra); rewrite E.
  - reflexivity.
  - replace (val v - -5) with (- (-5 - val v)) by ring. rewrite rnd_opp, clamp_opp. ring.
Qed.
Lemma square_nonneg : forall v, 0 <= square v.
Proof.
  intros v. unfold square. apply clamp_nonneg, rnd_nonneg. pose proof (clamp_nonneg _ (rnd_nonneg _ (distance_nonneg v))). nra.
Qed.

Lemma penalty_sum_ok : forall x roi p, Forall domain roi -> Forall fin x -> length roi = length x -> num p -> 0 <= val p ->
  exists q, penalty_sum (length x) roi x p = Ok q /\ num q /\ val q = fold_left (fun s v => add_square v s) x (val p) /\ 0 <= val q.
Proof.
  induction x as [|v x IH]; intros [|[lo hi] roi] p D F L Np Vp; try discriminate L.
  - exists p. repeat split; auto.
  - cbn [penalty_sum length fold_left]. inversion D as [|? ? [Fl [Fh [El Eh]]] D']. inversion F as [|? ? Fv F']. subst. cbn [fst snd] in *.
    assert (L' : length roi = length x) by (cbn [length] in L; congruence). clear L.
    assert (S : exists q, (if dlt hi v then dadd p (dmul (dsub v hi) (dsub v hi)) else if dlt v lo then dadd p (dmul (dsub v lo) (dsub v lo)) else p) = q /\
                num q /\ 0 <= val q /\ val q = add_square v (val p)).
    { eexists. split; [reflexivity|]. unfold add_square.
      destruct (dlt hi v) eqn:C.
      - apply (dlt_val hi v (fin_num _ Fh) (fin_num _ Fv)) in C. rewrite Eh in C.
        destruct (outside_square v hi Fv Fh (or_introl (conj Eh C))) as [N V].
        destruct (add_nn p _ Np N Vp) as [N2 V2]; [rewrite V; apply square_nonneg|].
        destruct Rlt_dec as [K|K]; [|exfalso; destruct (distance_cases v) as [[A B]|[[A B]|[A B]]]; lra].
        split; [exact N2|]. rewrite V in V2. split; [|exact V2]. rewrite V2. apply clamp_nonneg, rnd_nonneg. pose proof (square_nonneg v). lra.
      - apply (dlt_false hi v (fin_num _ Fh) (fin_num _ Fv)) in C. rewrite Eh in C. destruct (dlt v lo) eqn:C2.
        + apply (dlt_val v lo (fin_num _ Fv) (fin_num _ Fl)) in C2. rewrite El in C2.
          destruct (outside_square v lo Fv Fl (or_intror (conj El C2))) as [N V].
          destruct (add_nn p _ Np N Vp) as [N2 V2]; [rewrite V; apply square_nonneg|].
          destruct Rlt_dec as [K|K]; [|exfalso; destruct (distance_cases v) as [[A B]|[[A B]|[A B]]]; lra].
          split; [exact N2|]. rewrite V in V2. split; [|exact V2]. rewrite V2. apply clamp_nonneg, rnd_nonneg. pose proof (square_nonneg v). lra.
        + apply (dlt_false v lo (fin_num _ Fv) (fin_num _ Fl)) in C2. rewrite El in C2.
          destruct Rlt_dec as [K|K]; [exfalso; destruct (distance_cases v) as [[A B]|[[A B]|[A B]]]; lra|]. split; [exact Np|]. split; [exact Vp|reflexivity]. }
    destruct S as [q [-> [Nq [Vq Eq]]]]. cbv zeta. rewrite <- Eq. apply IH; auto.
Qed.

Lemma hundred : fin (dint 100) /\ val (dint 100) = 100.
Proof. apply dint_val. lia. Qed.

Lemma mul_hundred : forall p, num p -> 0 <= val p -> num (dmul (dint 100) p) /\ val (dmul (dint 100) p) = clamp (rnd (100 * val p)).
Proof.
  intros p N V. destruct hundred as [Fh Vh]. destruct (fin_dec p) as [F|F].
  - destruct (dmul_val (dint 100) p Fh F) as [N2 V2]. split; [exact N2|]. rewrite V2, Vh. reflexivity.
  - rewrite (not_fin_pos p N F V). destruct (mul_inf (dint 100) (fin_num _ Fh)) as [E _]; [rewrite Vh; lra|]. rewrite E. split; [reflexivity|].
    rewrite clamp_big; [reflexivity|]. apply rnd_ge_big. change (val dinf) with big. pose proof big_pos. lra.
Qed.

Definition penalty_real (x : list double) : R := clamp (rnd (100 * fold_left (fun s v => add_square v s) x 0)).

Lemma penalty_ok : forall x roi, Forall domain roi -> Forall fin x -> length roi = length x ->
  exists q, coco_boundary_handling (length x) roi x = Ok q /\ num q /\ val q = penalty_real x /\ 0 <= val q.
Proof.
  intros x roi D F L. destruct (penalty_sum_ok x roi dzero D F L) as [q [E [N [V P]]]]; [reflexivity|cbn; lra|].
  unfold coco_boundary_handling. rewrite E. cbn [bind]. destruct (mul_hundred q N P) as [N2 V2]. exists (dmul (dint 100) q).
  split; [reflexivity|]. split; [exact N2|]. unfold penalty_real. change (val dzero) with 0 in V. rewrite <- V. split; [exact V2|].
  rewrite V2. apply clamp_nonneg, rnd_nonneg. lra.
Qed.

(** Monotonicity *)
Lemma square_mono : forall v w, distance v <= distance w -> square v <= square w.
Proof.
  intros v w H. unfold square. apply clamp_mono, rnd_mono. pose proof (clamp_mono _ _ (rnd_mono _ _ H)).
  pose proof (clamp_nonneg _ (rnd_nonneg _ (distance_nonneg v))). nra.
Qed.
Definition good (p : R) : Prop := 0 <= p /\ clamp (rnd p) = p.
Lemma clamp_rnd_idem : forall r, 0 <= r -> good (clamp (rnd r)).
Proof.
  intros r H. split; [apply clamp_nonneg, rnd_nonneg, H|]. destruct (Rle_lt_dec big (rnd r)) as [K|K].
  - rewrite (clamp_big _ K). rewrite rnd_big. apply clamp_big. lra.
  - assert (A : Rabs (rnd r) < big) by (apply Rabs_def1; pose proof (rnd_nonneg r H); pose proof big_pos; lra).
    rewrite (clamp_lt _ A). replace (rnd (rnd r)) with (rnd r); [apply clamp_lt, A|]. symmetry. apply round_generic; [auto with typeclass_instances|].
    apply generic_format_round; auto with typeclass_instances.
Qed.
Lemma add_square_good : forall v p, good p -> good (add_square v p) /\ p <= add_square v p.
Proof.
  intros v p [P G]. unfold add_square. destruct Rlt_dec; [|split; [split; assumption|lra]].
  pose proof (square_nonneg v). split; [apply clamp_rnd_idem; lra|]. rewrite <- G at 1. apply clamp_mono, rnd_mono. lra.
Qed.
Lemma add_square_mono : forall v w p q, distance v <= distance w -> p <= q -> good p -> good q -> add_square v p <= add_square w q.
Proof.
  intros v w p q D H Gp Gq. unfold add_square at 1. destruct (Rlt_dec 0 (distance v)) as [K|K].
  - unfold add_square. destruct (Rlt_dec 0 (distance w)) as [K2|K2]; [|lra]. pose proof (square_mono v w D). apply clamp_mono, rnd_mono. lra.
  - pose proof (proj2 (add_square_good w q Gq)). lra.
Qed.
Lemma penalty_mono : forall x x', Forall2 (fun v w => distance v <= distance w) x x' -> penalty_real x <= penalty_real x'.
Proof.
  intros x x' H. unfold penalty_real. apply clamp_mono, rnd_mono.
  assert (G0 : good 0) by (split; [lra|rewrite rnd_0; apply clamp_lt; rewrite Rabs_R0; apply big_pos]).
  assert (K : forall p q, p <= q -> good p -> good q -> fold_left (fun s v => add_square v s) x p <= fold_left (fun s v => add_square v s) x' q).
  { induction H as [|v w x x' D H IH]; intros p q L Gp Gq; [exact L|]. cbn [fold_left]. apply IH.
    - apply add_square_mono; assumption.
    - apply add_square_good, Gp.
    - apply add_square_good, Gq. }
  specialize (K 0 0 (Rle_refl 0) G0 G0). lra.
Qed.

(** Size: relative errors, there is no underflow as a coordinate outside is at least 2^-50 away. *)
Definition u : R := bpow radix2 (-53).
Lemma u_small : 0 < u < / 1000.
Proof. unfold u. split; [apply bpow_gt_0|]. apply Rle_lt_trans with (bpow radix2 (-10)); [apply bpow_le; lia|]. change (bpow radix2 (-10)) with (/ 1024). lra. Qed.

Lemma rnd_rel : forall r, bpow radix2 (-1022) <= r -> (1 - u) * r <= rnd r <= (1 + u) * r.
Proof.
  intros r H. pose proof (bpow_gt_0 radix2 (-1022)).
  pose proof (relative_error_N_FLT radix2 (-1074) 53 ltac:(lia) (fun x => negb (Z.even x)) r) as E.
  rewrite Rabs_pos_eq in E by lra. specialize (E H).
  assert (U : / 2 * bpow radix2 (- (53) + 1) = u).
  { unfold u. replace (- (53) + 1)%Z with (-52)%Z by reflexivity. change (-53)%Z with (-1 + -52)%Z. rewrite bpow_plus. change (bpow radix2 (-1)) with (/ 2). reflexivity. }
  rewrite U in E. unfold rnd. apply Rabs_le_inv in E. lra.
Qed.

Lemma outside_gap : forall v, fin v -> 0 < distance v -> bpow radix2 (-50) <= distance v.
Proof.
  assert (G : forall r, generic_format radix2 (FLT_exp (-1074) 53) r -> 5 < r -> 5 + bpow radix2 (-50) <= r).
  { intros r F H. assert (F5 : generic_format radix2 (FLT_exp (-1074) 53) 5).
    { rewrite <- (rnd_int 5) by lia. apply generic_format_round; auto with typeclass_instances. }
    pose proof (succ_le_lt radix2 (FLT_exp (-1074) 53) 5 r F5 F H) as S. rewrite succ_eq_pos in S by lra.
    rewrite ulp_neq_0 in S by lra. unfold cexp in S.
    rewrite (mag_unique_pos radix2 5 3) in S; [exact S|]. cbn. lra. }
  intros v F D. destruct (distance_cases v) as [[A B]|[[A B]|[A B]]].
  - lra.
  - rewrite B. pose proof (G (val v)). rewrite val_fin in * by exact F. pose proof (generic_format_B2R 53 1024 v) as K. specialize (H K A). lra.
  - rewrite B. pose proof (G (- val v)). assert (K : generic_format radix2 (FLT_exp (-1074) 53) (- val v)).
    { apply generic_format_opp. rewrite val_fin by exact F. exact (generic_format_B2R 53 1024 v). }
    specialize (H K). lra.
Qed.

Lemma clamp_le : forall r, 0 <= r -> clamp r <= r.
Proof. intros r H. pose proof big_pos. unfold clamp, Rmax, Rmin. repeat destruct Rle_dec; lra. Qed.
Lemma clamp_eq : forall r, 0 <= r <= big -> clamp r = r.
Proof. intros r H. apply clamp_id. apply Rabs_le. pose proof big_pos. lra. Qed.

Lemma tiny_le : forall k, (-1022 <= k)%Z -> bpow radix2 (-1022) <= bpow radix2 k.
Proof. intros k H. apply bpow_le. exact H. Qed.

Lemma square_upper : forall v, fin v -> square v <= (1 + u) ^ 3 * (distance v * distance v).
Proof.
  intros v F. pose proof (distance_nonneg v) as D. pose proof u_small as U. destruct (Rle_lt_or_eq_dec _ _ D) as [P|P].
  - pose proof (outside_gap v F P) as G. assert (B50 : 0 < bpow radix2 (-50)) by apply bpow_gt_0.
    pose proof (rnd_rel (distance v) ltac:(pose proof (tiny_le (-50) ltac:(lia)); lra)) as R1.
    set (a := clamp (rnd (distance v))). assert (A : 0 <= a <= (1 + u) * distance v).
    { unfold a. pose proof (rnd_nonneg _ D). split; [apply clamp_nonneg; assumption|]. pose proof (clamp_le (rnd (distance v)) H). lra. }
    unfold square. fold a. assert (Q : a * a <= ((1 + u) * distance v) * ((1 + u) * distance v)) by (apply Rmult_le_compat; lra).
    pose proof (rnd_nonneg (a * a) ltac:(nra)) as N. eapply Rle_trans; [apply clamp_le, N|]. eapply Rle_trans; [apply rnd_mono, Q|].
    assert (H : bpow radix2 (-1022) <= (1 + u) * distance v * ((1 + u) * distance v)).
    { apply Rle_trans with (bpow radix2 (-50) * bpow radix2 (-50)); [rewrite <- bpow_plus; apply bpow_le; lia|]. apply Rmult_le_compat; nra. }
    pose proof (rnd_rel _ H) as R2. eapply Rle_trans; [apply R2|]. simpl. right. ring.
  - unfold square. rewrite <- P. rewrite rnd_0. rewrite (clamp_eq 0) by (pose proof big_pos; lra). rewrite Rmult_0_l, rnd_0, (clamp_eq 0) by (pose proof big_pos; lra). lra.
Qed.

Lemma square_lower : forall v, fin v -> (1 + u) ^ 3 * (distance v * distance v) <= big -> (1 - u) ^ 3 * (distance v * distance v) <= square v.
Proof.
  intros v F B. pose proof (distance_nonneg v) as D. pose proof u_small as U. destruct (Rle_lt_or_eq_dec _ _ D) as [P|P].
  - pose proof (outside_gap v F P) as G. assert (B50 : 0 < bpow radix2 (-50)) by apply bpow_gt_0.
    pose proof (rnd_rel (distance v) ltac:(pose proof (tiny_le (-50) ltac:(lia)); lra)) as R1.
    assert (W : (1 + u) * distance v <= big).
    { destruct (Rle_lt_dec (distance v) 1) as [L|L].
      - apply Rle_trans with 2; [nra|]. change 2 with (bpow radix2 1). apply bpow_le. lia.
      - eapply Rle_trans; [|exact B]. simpl. nra. }
    unfold square. rewrite (clamp_eq (rnd (distance v))) by (pose proof (rnd_nonneg _ D); lra). set (a := rnd (distance v)) in *.
    assert (Q : ((1 - u) * distance v) * ((1 - u) * distance v) <= a * a) by (apply Rmult_le_compat; nra).
    assert (Q2 : a * a <= ((1 + u) * distance v) * ((1 + u) * distance v)) by (apply Rmult_le_compat; nra).
    assert (H : bpow radix2 (-1022) <= a * a).
    { apply Rle_trans with (bpow radix2 (-51) * bpow radix2 (-51)); [rewrite <- bpow_plus; apply bpow_le; lia|]. eapply Rle_trans; [|exact Q].
      change (bpow radix2 (-51)) with (bpow radix2 (-1 + -50)). rewrite bpow_plus. change (bpow radix2 (-1)) with (/ 2). apply Rmult_le_compat; nra. }
    pose proof (rnd_rel _ H) as R2. rewrite clamp_eq.
    + eapply Rle_trans; [|apply R2]. simpl. nra.
    + split; [apply rnd_nonneg; nra|]. eapply Rle_trans; [apply R2|]. eapply Rle_trans; [|exact B]. simpl. nra.
  - rewrite <- P. rewrite Rmult_0_l, Rmult_0_r. apply square_nonneg.
Qed.

Lemma sum_nonneg : forall x, 0 <= sum_of_squares x.
Proof. induction x as [|v x IH]; cbn [sum_of_squares fold_right]; [lra|]. fold (sum_of_squares x). pose proof (distance_nonneg v). nra. Qed.

Lemma square_gap : forall v, fin v -> 0 < distance v -> bpow radix2 (-200) <= square v.
Proof.
  intros v F P. pose proof (outside_gap v F P) as G. unfold square.
  assert (X : forall r k, (-1022 <= k <= 1024)%Z -> bpow radix2 k <= r -> bpow radix2 k <= clamp (rnd r)).
  { intros r k K H. assert (E : rnd (bpow radix2 k) = bpow radix2 k).
    { unfold rnd. apply round_generic; [auto with typeclass_instances|]. apply generic_format_bpow. unfold FLT_exp. lia. }
    assert (H2 : bpow radix2 k <= rnd r) by (rewrite <- E; apply rnd_mono; exact H).
    rewrite <- (clamp_eq (bpow radix2 k)); [apply clamp_mono, H2|]. split; [apply bpow_ge_0|apply bpow_le; lia]. }
  assert (A : bpow radix2 (-50) <= clamp (rnd (distance v))) by (apply X; [lia|exact G]).
  apply Rle_trans with (bpow radix2 (-100)); [apply bpow_le; lia|]. apply X; [lia|]. change (-100)%Z with (-50 + -50)%Z. rewrite bpow_plus.
  apply Rmult_le_compat; auto using bpow_ge_0.
Qed.

Lemma pow_le_one_more : forall k, (1 + u) ^ k <= (1 + u) ^ S k /\ 1 <= (1 + u) ^ k.
Proof.
  intros k. pose proof u_small. assert (1 <= (1 + u) ^ k).
  { induction k as [|k IH]; simpl; [lra|]. nra. }
  split; [simpl; nra|assumption].
Qed.
Lemma pow_le_mono : forall k j, (k <= j)%nat -> (1 + u) ^ k <= (1 + u) ^ j.
Proof. intros k j H. pose proof u_small. apply Rle_pow; [lra|exact H]. Qed.
Lemma pow_small : forall k, 0 < (1 - u) ^ k <= 1 /\ (1 - u) ^ S k <= (1 - u) ^ k.
Proof.
  intros k. pose proof u_small. assert (0 < (1 - u) ^ k <= 1).
  { induction k as [|k IH]; simpl; [lra|]. nra. }
  split; [assumption|simpl; nra].
Qed.

Lemma add_square_upper : forall v k p s, fin v -> 0 <= s -> 0 <= p -> p <= (1 + u) ^ (k + 3) * s ->
  add_square v p <= (1 + u) ^ (S k + 3) * (s + distance v * distance v).
Proof.
  intros v k p s Fv S0 P0 Hi. pose proof u_small as U.
  set (d := distance v * distance v). assert (D0 : 0 <= d) by (unfold d; pose proof (distance_nonneg v); nra).
  unfold add_square. pose proof (pow_le_mono (k + 3) (S k + 3) ltac:(lia)) as M. pose proof (proj2 (pow_le_one_more (k + 3))) as M1.
  destruct Rlt_dec as [K|K].
  - pose proof (square_upper v Fv) as SU. fold d in SU. pose proof (square_gap v Fv K) as SG.
    assert (H : bpow radix2 (-1022) <= p + square v) by (pose proof (tiny_le (-200) ltac:(lia)); lra).
    pose proof (rnd_rel _ H) as R. pose proof (rnd_nonneg (p + square v) ltac:(pose proof (square_nonneg v); lra)).
    eapply Rle_trans; [apply clamp_le; assumption|]. eapply Rle_trans; [apply R|].
    change (S k + 3)%nat with (S (k + 3)). simpl pow. rewrite Rmult_assoc. apply Rmult_le_compat_l; [lra|].
    rewrite Rmult_plus_distr_l. apply Rplus_le_compat; [exact Hi|]. eapply Rle_trans; [exact SU|]. apply Rmult_le_compat_r; [exact D0|]. apply pow_le_mono. lia.
  - eapply Rle_trans; [exact Hi|]. apply Rmult_le_compat; [lra|lra|exact M|lra].
Qed.

Lemma add_square_lower : forall v k p s, fin v -> 0 <= s -> 0 <= p -> (1 - u) ^ (k + 3) * s <= p <= (1 + u) ^ (k + 3) * s ->
  (1 + u) ^ (S k + 3) * (s + distance v * distance v) <= big ->
  (1 - u) ^ (S k + 3) * (s + distance v * distance v) <= add_square v p.
Proof.
  intros v k p s Fv S0 P0 [Lo Hi] B2. pose proof u_small as U.
  set (d := distance v * distance v) in *. assert (D0 : 0 <= d) by (unfold d; pose proof (distance_nonneg v); nra).
  assert (B3 : (1 + u) ^ 3 * d <= big).
  { eapply Rle_trans; [|exact B2]. apply Rmult_le_compat; [pose proof (proj2 (pow_le_one_more 3)); lra|lra|apply pow_le_mono; lia|lra]. }
  pose proof (square_lower v Fv B3) as SL. fold d in SL. unfold add_square.
  destruct Rlt_dec as [K|K].
  - pose proof (square_gap v Fv K) as SG. pose proof (square_upper v Fv) as SU. fold d in SU.
    assert (H : bpow radix2 (-1022) <= p + square v) by (pose proof (tiny_le (-200) ltac:(lia)); lra).
    pose proof (rnd_rel _ H) as R.
    assert (T : (1 - u) ^ (S k + 3) * (s + d) <= (1 - u) * (p + square v)).
    { change (S k + 3)%nat with (S (k + 3)). simpl pow. rewrite Rmult_assoc. apply Rmult_le_compat_l; [lra|].
      rewrite Rmult_plus_distr_l. apply Rplus_le_compat; [exact Lo|]. eapply Rle_trans; [|exact SL]. apply Rmult_le_compat_r; [exact D0|].
      clear. pose proof u_small. rewrite Nat.add_comm. induction k as [|k IHk]; [rewrite Nat.add_0_r; lra|]. replace (3 + S k)%nat with (S (3 + k)) by lia. pose proof (pow_small (3 + k)). lra. }
    rewrite clamp_eq; [lra|]. split; [apply rnd_nonneg; pose proof (square_nonneg v); lra|].
    eapply Rle_trans; [apply R|]. eapply Rle_trans; [|exact B2]. change (S k + 3)%nat with (S (k + 3)). simpl pow. rewrite Rmult_assoc. apply Rmult_le_compat_l; [lra|].
    rewrite Rmult_plus_distr_l. apply Rplus_le_compat; [exact Hi|]. eapply Rle_trans; [exact SU|]. apply Rmult_le_compat_r; [exact D0|]. apply pow_le_mono. lia.
  - assert (d = 0) by (unfold d; pose proof (distance_nonneg v); replace (distance v) with 0 by lra; ring).
    replace (s + d) with s by lra. eapply Rle_trans; [|exact Lo]. apply Rmult_le_compat_r; [lra|]. apply pow_small.
Qed.

Lemma fold_upper : forall x k p s, Forall fin x -> 0 <= s -> p <= (1 + u) ^ (k + 3) * s -> good p ->
  fold_left (fun s v => add_square v s) x p <= (1 + u) ^ (k + length x + 3) * (s + sum_of_squares x).
Proof.
  induction x as [|v x IH]; intros k p s F S0 Hi G.
  - cbn [fold_left length sum_of_squares fold_right]. rewrite Nat.add_0_r, Rplus_0_r. exact Hi.
  - inversion F as [|? ? Fv F']. subst. cbn [fold_left length sum_of_squares fold_right]. fold (sum_of_squares x).
    replace (k + S (length x) + 3)%nat with (S k + length x + 3)%nat by lia. rewrite <- Rplus_assoc. apply IH.
    + exact F'.
    + pose proof (distance_nonneg v). nra.
    + apply add_square_upper; auto. apply G.
    + apply add_square_good, G.
Qed.
Lemma fold_lower : forall x k p s, Forall fin x -> 0 <= s -> (1 - u) ^ (k + 3) * s <= p <= (1 + u) ^ (k + 3) * s -> good p ->
  (1 + u) ^ (k + length x + 3) * (s + sum_of_squares x) <= big ->
  (1 - u) ^ (k + length x + 3) * (s + sum_of_squares x) <= fold_left (fun s v => add_square v s) x p.
Proof.
  induction x as [|v x IH]; intros k p s F S0 [Lo Hi] G.
  - cbn [fold_left length sum_of_squares fold_right]. rewrite Nat.add_0_r, Rplus_0_r. intros _. exact Lo.
  - inversion F as [|? ? Fv F']. subst. cbn [fold_left length sum_of_squares fold_right]. fold (sum_of_squares x).
    replace (k + S (length x) + 3)%nat with (S k + length x + 3)%nat by lia. rewrite <- Rplus_assoc.
    assert (D0 : 0 <= distance v * distance v) by (pose proof (distance_nonneg v); nra). pose proof (sum_nonneg x) as SX.
    intros B. apply IH; auto.
    + lra.
    + split; [|apply add_square_upper; auto; apply G]. apply add_square_lower; auto; [apply G|].
      eapply Rle_trans; [|exact B]. apply Rmult_le_compat; [pose proof (proj2 (pow_le_one_more (S k + 3))); lra|lra|apply pow_le_mono; lia|lra].
    + apply add_square_good, G.
Qed.

Lemma good_0 : good 0.
Proof. split; [lra|]. rewrite rnd_0. apply clamp_eq. pose proof big_pos. lra. Qed.

Lemma fold_zero_or_gap : forall x p, Forall fin x -> good p -> (p = 0 \/ bpow radix2 (-200) <= p) ->
  let q := fold_left (fun s v => add_square v s) x p in good q /\ (q = 0 \/ bpow radix2 (-200) <= q).
Proof.
  induction x as [|v x IH]; intros p F G H; [split; assumption|]. inversion F as [|? ? Fv F']. subst. cbn [fold_left]. apply IH; [exact F'|apply add_square_good, G|].
  pose proof (add_square_good v p G) as [[A A'] B]. unfold add_square in *. destruct Rlt_dec as [K|K]; [|exact H]. right.
  pose proof (square_gap v Fv K) as SG. destruct (clamp_rnd_idem (square v) (square_nonneg v)) as [_ _].
  assert (SQ : good (square v)) by (unfold square; apply clamp_rnd_idem; pose proof (clamp_nonneg _ (rnd_nonneg _ (distance_nonneg v))); nra).
  destruct SQ as [_ SQ]. eapply Rle_trans; [exact SG|]. rewrite <- SQ at 1. apply clamp_mono, rnd_mono. destruct G. lra.
Qed.

Lemma penalty_size : forall x, Forall fin x -> let n := (length x + 4)%nat in let t := 100 * sum_of_squares x in
  penalty_real x <= (1 + u) ^ n * t /\ ((1 + u) ^ n * t <= big -> (1 - u) ^ n * t <= penalty_real x).
Proof.
  intros x F. cbv zeta. set (q := fold_left (fun s v => add_square v s) x 0). pose proof u_small as U.
  assert (Z : (1 - u) ^ (0 + 3) * 0 <= 0 <= (1 + u) ^ (0 + 3) * 0) by lra.
  pose proof (fold_upper x 0 0 0 F (Rle_refl 0) (proj2 Z) good_0) as Up. pose proof (fold_lower x 0 0 0 F (Rle_refl 0) Z good_0) as Lo.
  fold q in Up, Lo. rewrite Rplus_0_l in Up, Lo. cbn [Nat.add] in Up, Lo.
  destruct (fold_zero_or_gap x 0 F good_0 (or_introl eq_refl)) as [[Q0 G] ZG]. fold q in Q0, G, ZG. unfold penalty_real. fold q.
  pose proof (sum_nonneg x) as SX. pose proof (proj2 (pow_le_one_more (length x + 3))) as M1.
  replace (length x + 4)%nat with (S (length x + 3)) by lia.
  assert (R : (1 - u) * (100 * q) <= rnd (100 * q) <= (1 + u) * (100 * q)).
  { destruct ZG as [E|E]; [rewrite E, Rmult_0_r, rnd_0; lra|]. apply rnd_rel. pose proof (tiny_le (-200) ltac:(lia)). pose proof (bpow_gt_0 radix2 (-200)). lra. }
  assert (UU : rnd (100 * q) <= (1 + u) ^ S (length x + 3) * (100 * sum_of_squares x)).
  { eapply Rle_trans; [apply R|]. simpl pow. rewrite Rmult_assoc. apply Rmult_le_compat_l; [lra|]. lra. }
  split.
  - eapply Rle_trans; [apply clamp_le, rnd_nonneg; lra|exact UU].
  - intros B. rewrite clamp_eq; [|split; [apply rnd_nonneg; lra|lra]]. eapply Rle_trans; [|apply R]. simpl pow. rewrite Rmult_assoc. apply Rmult_le_compat_l; [lra|].
    assert (Lo' : (1 - u) ^ (length x + 3) * sum_of_squares x <= q). { apply Lo. eapply Rle_trans; [|exact B]. simpl pow. nra. }
    lra.
Qed.
Lemma penalty_zero : forall x, Forall fin x -> (penalty_real x = 0 <-> Forall (fun v => -5 <= val v <= 5) x).
Proof.
  intros x F. split; intros H.
  - apply Forall_forall. intros v Hv. destruct (distance_cases v) as [[A _]|K]; [exact A|]. exfalso.
    assert (P : 0 < distance v) by (destruct K as [[A B]|[A B]]; lra). clear K.
    assert (Q : forall x p, Forall fin x -> good p -> In v x -> bpow radix2 (-200) <= fold_left (fun s w => add_square w s) x p).
    { clear x F H Hv. induction x as [|w x IH]; intros p F G Hv; [destruct Hv|]. inversion F as [|? ? Fw F']. subst. cbn [fold_left]. destruct Hv as [->|Hv].
      - assert (K : bpow radix2 (-200) <= add_square v p).
        { unfold add_square. destruct Rlt_dec; [|lra]. pose proof (square_gap v Fw P) as SG.
          assert (SQ : good (square v)) by (unfold square; apply clamp_rnd_idem; pose proof (clamp_nonneg _ (rnd_nonneg _ (distance_nonneg v))); nra).
          destruct SQ as [_ SQ]. eapply Rle_trans; [exact SG|]. rewrite <- SQ at 1. apply clamp_mono, rnd_mono. destruct G. lra. }
        pose proof (add_square_good v p G) as [G2 _]. destruct (fold_zero_or_gap x _ F' G2 (or_intror K)) as [_ [Z|Z]]; [|exact Z].
        assert (M : forall y a, good a -> a <= fold_left (fun s w => add_square w s) y a).
        { clear. induction y as [|w y IHy]; intros a Ga; [apply Rle_refl|]. cbn [fold_left]. destruct (add_square_good w a Ga) as [G2 L]. eapply Rle_trans; [exact L|]. apply IHy, G2. }
        pose proof (M x _ G2). lra.
      - apply IH; auto. apply add_square_good, G. }
    specialize (Q x 0 F good_0 Hv). unfold penalty_real in H. set (q := fold_left _ x 0) in *.
    pose proof (bpow_gt_0 radix2 (-200)) as B200. assert (R : 0 < rnd (100 * q)).
    { pose proof (rnd_rel (100 * q) ltac:(pose proof (tiny_le (-200) ltac:(lia)); lra)). pose proof u_small. nra. }
    pose proof big_pos. revert H. unfold clamp, Rmax, Rmin. repeat destruct Rle_dec; lra.
  - unfold penalty_real. replace (fold_left (fun s v => add_square v s) x 0) with 0; [rewrite Rmult_0_r, rnd_0; apply clamp_eq; pose proof big_pos; lra|].
    induction H as [|v x Hv H IH]; [reflexivity|]. inversion F as [|? ? Fv F']. subst. cbn [fold_left]. rewrite IH at 1 by exact F'. f_equal. unfold add_square.
    destruct Rlt_dec as [K|K]; [|reflexivity]. exfalso. destruct (distance_cases v) as [[A B]|[[A B]|[A B]]]; lra.
Qed.
