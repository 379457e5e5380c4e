(** C39: the random number generators. *)
From Coq Require Import List Arith NArith ZArith Znumtheory Reals Bool Lia Lra ZifyBool ZifyNat ZifyN.
From Flocq Require Import Core BinarySingleNaN.
From Verif Require Import CBase OptModel DblModel DblSpec DblProofs PairModel RandModel RandSpec RandProofs LegacyProofs PeriodProofs.
Import ListNotations.
Open Scope nat_scope.

(** ** The generator of coco_random.c *)
#[local] Opaque expand_seed stream block.
Lemma new_state : forall seed, coco_random_new seed = {| rx := block (expand_seed COCO_LONG_LAG 0 seed) 0; rindex := 12 |}.
Proof. reflexivity. Qed.

(** For every seed the numbers drawn are the members 12, 13, ... of a lagged Fibonacci sequence in [0, 1] that
    starts with the expanded seed; nothing outside the state is accessed. *)
Theorem C39_stream : forall seed, (seed < 2 ^ 32)%N -> exists y : nat -> double,
  (forall i, i < 607 -> val (y i) = rnd (IZR (Z.of_N (seed_number seed i)) / IZR 4294967295)) /\
  lagged_fibonacci y /\ (forall n, fin (y n) /\ (0 <= val (y n) <= 1)%R) /\
  forall n, exists s, uniforms n (coco_random_new seed) = Ok (map y (seq 12 n), s).
Proof.
  intros seed B. exists (stream (expand_seed COCO_LONG_LAG 0 seed)). split; [|split; [|split]].
  - intros i Hi. rewrite stream_start by exact Hi. pose proof (seed_number_bound seed i B). apply unit_fraction. lia.
  - apply stream_lagged. exact B.
  - intros n. apply stream_range. exact B.
  - intros n. destruct (uniforms_at n (expand_seed COCO_LONG_LAG 0 seed) 0 12) as [g [k [_ [_ E]]]]; [apply expand_length|lia|].
    rewrite new_state. exists {| rx := block (expand_seed COCO_LONG_LAG 0 seed) g; rindex := k |}. exact E.
Qed.

(** Every 32-bit number is the i-th one of exactly one seed. *)
Theorem C39_seeds : forall i w, (w < 2 ^ 32)%N -> exists! seed, (seed < 2 ^ 32)%N /\ seed_number seed i = w.
Proof.
  intros i w H. destruct (seed_number_onto i w H) as [seed [B E]]. exists seed. split; [split; assumption|].
  intros seed' [B' E']. apply (seed_number_inj i); congruence.
Qed.

(** Different seeds give different random numbers, at each of the first 595 draws. *)
Theorem C39_different : forall n seed seed' vs vs' s s', (seed < 2 ^ 32)%N -> (seed' < 2 ^ 32)%N -> n < 595 ->
  uniforms (S n) (coco_random_new seed) = Ok (vs, s) -> uniforms (S n) (coco_random_new seed') = Ok (vs', s') ->
  val (nth n vs dzero) = val (nth n vs' dzero) -> seed = seed'.
Proof.
  intros n seed seed' vs vs' s s' B B' H E E' Q.
  destruct (C39_stream seed B) as [y [S [_ [_ D]]]]. destruct (C39_stream seed' B') as [y' [S' [_ [_ D']]]].
  destruct (D (Datatypes.S n)) as [t T]. destruct (D' (Datatypes.S n)) as [t' T']. rewrite E in T. rewrite E' in T'.
  assert (V : vs = map y (seq 12 (Datatypes.S n))) by congruence. assert (V' : vs' = map y' (seq 12 (Datatypes.S n))) by congruence.
  assert (G : forall z : nat -> double, nth n (map z (seq 12 (Datatypes.S n))) dzero = z (12 + n)).
  { intros z. rewrite (nth_indep _ dzero (z 0)) by (rewrite map_length, seq_length; lia). rewrite map_nth, seq_nth by lia. reflexivity. }
  rewrite V, V', !G, S, S' in Q by lia.
  pose proof (seed_number_bound seed (12 + n) B). pose proof (seed_number_bound seed' (12 + n) B').
  apply fraction_inj in Q; [|lia|lia|lia]. apply (seed_number_inj (12 + n)); [assumption|assumption|lia].
Qed.

(** The documented interval [0, 1) is left: 1 is drawn; and 0 is, for which the normal generator is not finite. *)
Theorem C39_one_refuted : exists seed v s, (seed < 2 ^ 32)%N /\ coco_random_uniform (coco_random_new seed) = Ok (v, s) /\ val v = 1%R.
Proof.
  destruct (seed_number_onto 12 4294967295 ltac:(reflexivity)) as [seed [B E]].
  destruct (C39_stream seed B) as [y [S [_ [_ D]]]]. destruct (D 1) as [s T]. cbn [uniforms] in T.
  apply bind_Ok in T as [[v s1] [T1 T]]. cbn [bind] in T. exists seed, v, s1. split; [exact B|]. split; [exact T1|].
  assert (V : v = y 12). { assert (Q : [v] = map y (seq 12 1)) by congruence. cbn in Q. congruence. }
  rewrite V, S by lia. rewrite E. change (Z.of_N 4294967295) with 4294967295%Z. unfold Rdiv. rewrite Rinv_r; [apply rnd_1|].
  apply not_0_IZR. discriminate.
Qed.

Theorem C39_zero_refuted : forall log cos, (forall u, fin u -> val u = 0%R -> log u = dopp dinf) ->
  exists seed v s, (seed < 2 ^ 32)%N /\ coco_random_normal log cos (coco_random_new seed) = Ok (v, s) /\ ~ fin v.
Proof.
  intros log cos L. destruct (seed_number_onto 12 0 ltac:(reflexivity)) as [seed [B E]].
  destruct (C39_stream seed B) as [y [S [_ [F D]]]]. destruct (D 2) as [s T]. cbn [uniforms] in T.
  apply bind_Ok in T as [[u1 s1] [T1 T]]. apply bind_Ok in T as [[vs s2] [T2 T]]. apply bind_Ok in T2 as [[u2 s3] [T2 T3]].
  exists seed, (box_muller log cos u1 u2), s3. split; [exact B|]. unfold coco_random_normal. rewrite T1. cbn [bind]. rewrite T2. cbn [bind].
  split; [reflexivity|]. cbn [bind] in T3. 
  assert (V : u1 = y 12).
  { assert (Q : u1 :: vs = map y (seq 12 2)) by congruence. cbn in Q. injection Q as Q _. exact Q. }
  assert (Z : val u1 = 0%R). { rewrite V, S by lia. rewrite E. change (Z.of_N 0) with 0%Z. unfold Rdiv. rewrite Rmult_0_l. apply rnd_0. }
  unfold box_muller. rewrite (L u1 ltac:(rewrite V; apply F) Z).
  replace (dsqrt (dmul (dint (-2)) (dopp dinf))) with (B754_infinity false : double) by (vm_compute; reflexivity).
  unfold dmul, fin. destruct (cos (Bmult mode_NE (Bmult mode_NE (dint 2) coco_pi) u2)); cbn; discriminate.
Qed.

(** ** The legacy generator *)

(** For every seed below the limit (in absolute value) the n numbers drawn belong to the members of the "minimal standard"
    sequence of the seed that the shuffle selects; these are at different positions, and each number is in (0, 1). *)
Theorem C39_legacy : forall n inseed, (- legacy_limit < inseed < legacy_limit)%Z ->
  exists us ps, bbob2009_unif n inseed = Ok us /\ length us = n /\ length ps = n /\ bays_durham (effective_seed inseed) ps /\ NoDup ps /\
    forall i u p, nth_error us i = Some u -> nth_error ps i = Some p ->
      9 <= p <= 40 + i /\ is_uniform (lcg (effective_seed inseed) p) u /\ (0 < val u < 1)%R.
Proof.
  intros n inseed H. destruct (unif_ok n inseed H) as [ps [E [L [D [N B]]]]].
  exists (map (fun p => uniform_of (lcg (effective_seed inseed) p)) ps), ps.
  split; [exact E|]. split; [rewrite map_length; exact L|]. split; [exact L|]. split; [exact D|]. split; [exact N|].
  intros i u p Q Q'. rewrite nth_error_map, Q' in Q. cbn [option_map] in Q.
  split; [exact (B i p Q')|]. assert (U : u = uniform_of (lcg (effective_seed inseed) p)) by congruence. rewrite U.
  destruct (uniform_spec (lcg (effective_seed inseed) p) (lcg_range _ _)) as [A R]. split; [exact A|].
  pose proof (bpow_gt_0 radix2 (-31)). lra.
Qed.

(** Larger seeds are undefined behaviour. *)
Theorem C39_legacy_limit : forall n inseed, (- 2 ^ 63 <= inseed < 2 ^ 63)%Z -> (legacy_limit <= Z.abs inseed)%Z ->
  bbob2009_unif n inseed = UB.
Proof. exact unif_bad. Qed.

(** Asking for fewer numbers gives the first ones; seeds that differ by a multiple of 2^31 - 1 give the same numbers. *)
Theorem C39_legacy_prefix : forall n m inseed us, (- legacy_limit < inseed < legacy_limit)%Z ->
  bbob2009_unif (n + m) inseed = Ok us -> bbob2009_unif n inseed = Ok (firstn n us).
Proof. intros n m inseed us H E. rewrite unif_start in E |- * by exact H. exact (loop_prefix _ _ _ _ _ _ E). Qed.

Theorem C39_legacy_congruent : forall n s s', (0 < s < legacy_limit)%Z -> (0 < s' < legacy_limit)%Z ->
  (s mod lcg_modulus = s' mod lcg_modulus)%Z -> bbob2009_unif n s = bbob2009_unif n s'.
Proof.
  intros n s s' H H' E. assert (G : forall k, lcg (effective_seed s) k = lcg (effective_seed s') k).
  { intros k. unfold lcg. replace (effective_seed s) with s by (unfold effective_seed; lia). replace (effective_seed s') with s' by (unfold effective_seed; lia).
    rewrite <- (Zmult_mod_idemp_r s), E, Zmult_mod_idemp_r. reflexivity. }
  rewrite !unif_start by lia. unfold start_table. rewrite G. f_equal. apply map_ext. intros i. rewrite G. reflexivity.
Qed.

(** No number is drawn twice, for at least 2^31 - 42 draws, unless the seed is a multiple of 2^31 - 1, for which
    all are the same. *)
Theorem C39_legacy_distinct : forall n inseed us, (- legacy_limit < inseed < legacy_limit)%Z -> bbob2009_unif n inseed = Ok us ->
  (~ (lcg_modulus | effective_seed inseed)%Z -> (Z.of_nat n <= 2 ^ 31 - 42)%Z -> NoDup (map val us)) /\
  ((lcg_modulus | effective_seed inseed)%Z -> forall u, In u us -> val u = rnd (/ IZR (10 ^ 99))).
Proof.
  intros n inseed us H E. destruct (C39_legacy n inseed H) as [us' [ps [E' [L [Lp [_ [N P]]]]]]].
  assert (us = us') as -> by congruence. set (s := effective_seed inseed) in *. split.
  - intros Nd Hn. apply NoDup_nth_error. intros i j Li Q. rewrite map_length in Li. rewrite !nth_error_map in Q.
    destruct (nth_error us' i) as [u|] eqn:Eu; [|exfalso; apply nth_error_None in Eu; lia].
    destruct (nth_error us' j) as [w|] eqn:Ew; [|discriminate Q]. cbn [option_map] in Q.
    assert (Lj : j < length us') by (apply nth_error_Some; congruence).
    destruct (nth_error ps i) as [p|] eqn:Ep; [|exfalso; apply nth_error_None in Ep; lia].
    destruct (nth_error ps j) as [q|] eqn:Eq; [|exfalso; apply nth_error_None in Eq; lia].
    destruct (P i u p Eu Ep) as [Bp [[_ [Vu _]] _]]. destruct (P j w q Ew Eq) as [Bq [[_ [Vw _]] _]].
    specialize (Vu (lcg_nonzero s p Nd)). specialize (Vw (lcg_nonzero s q Nd)).
    assert (V : val u = val w) by congruence. rewrite Vu, Vw in V.
    apply fraction_inj in V; [|pose proof (lcg_range s p); lia|pose proof (lcg_range s q); lia|split; [reflexivity|vm_compute; discriminate]].
    assert (pq : p = q).
    { destruct (Nat.lt_trichotomy p q) as [K|[K|K]]; [exfalso|exact K|exfalso].
      - apply (lcg_distinct s p q Nd K); [unfold lcg_modulus; lia|exact V].
      - apply (lcg_distinct s q p Nd K); [unfold lcg_modulus; lia|symmetry; exact V]. }
    subst q. apply (proj1 (NoDup_nth_error ps) N); [apply nth_error_Some; congruence|congruence].
  - intros D u Hu. apply In_nth_error in Hu as [i Ei]. assert (Li : i < length us') by (apply nth_error_Some; congruence).
    destruct (nth_error ps i) as [p|] eqn:Ep; [|exfalso; apply nth_error_None in Ep; lia].
    destruct (P i u p Ei Ep) as [_ [[_ [_ V]] _]]. apply V. unfold lcg. apply Z.mod_divide; [discriminate|]. apply Z.divide_mul_r. exact D.
Qed.

(** Examples. *)
Definition bits_of (x : double) : Z := match x with B754_finite _ m e _ => Z.pos m | _ => 0 end.
Example C39_example : exists us s, uniforms 700 (coco_random_new 1) = Ok (us, s) /\ length us = 700 /\ rindex s = 105 /\
  seed_number 1 1 = 1812433254%N.
Proof.
  destruct (C39_stream 1 ltac:(reflexivity)) as [y [_ [_ [_ D]]]]. destruct (D 700) as [s E]. exists (map y (seq 12 700)), s.
  split; [exact E|]. split; [rewrite map_length; reflexivity|].
  split; [|vm_compute; reflexivity].
  destruct (uniforms_at 700 (expand_seed COCO_LONG_LAG 0 1) 0 12) as [g [k [K [Q E']]]]; [apply expand_length|lia|].
  rewrite <- new_state in E'. rewrite E in E'.
  assert (s = {| rx := block (expand_seed COCO_LONG_LAG 0 1) g; rindex := k |}) by congruence. subst s. cbn [rindex]. lia.
Qed.
Example C39_example_legacy : (- legacy_limit < 10001 < legacy_limit)%Z /\ ~ (lcg_modulus | effective_seed 10001)%Z /\
  lcg 1 1 = 16807%Z /\ lcg 1 3 = 1622650073%Z /\
  (match bbob2009_unif 3 10001 with Ok us => map bits_of us | _ => [] end) <> [].
Proof.
  split; [vm_compute; split; reflexivity|]. split; [intros D; apply Z.mod_divide in D; [vm_compute in D; discriminate D|discriminate]|].
  split; [reflexivity|]. split; [vm_compute; reflexivity|]. vm_compute. discriminate.
Qed.

Print Assumptions C39_stream.
Print Assumptions C39_seeds.
Print Assumptions C39_different.
Print Assumptions C39_one_refuted.
Print Assumptions C39_zero_refuted.
Print Assumptions C39_legacy.
Print Assumptions C39_legacy_limit.
Print Assumptions C39_legacy_prefix.
Print Assumptions C39_legacy_congruent.
Print Assumptions C39_legacy_distinct.
