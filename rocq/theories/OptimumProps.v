(** C40: the location of the optimum and the optimal value. *)
From Coq Require Import List Arith NArith ZArith Reals Bool Lia Lra ZifyBool ZifyNat ZifyN.
From Flocq Require Import Core BinarySingleNaN.
From Verif Require Import CBase OptModel DblModel DblSpec DblProofs TrigProofs PairModel RandModel RandSpec RandProofs LegacyProofs OptimumSpec OptimumProofs.
Import ListNotations.
Open Scope Z_scope.

(** Every coordinate is a point of the grid over [-4, 4) ([-5, 5) for sbox-cost) belonging to the number drawn, and never 0. *)
Theorem C40_xopt : forall seed dim, - legacy_limit < seed < legacy_limit ->
  exists us xs, bbob2009_unif dim seed = Ok us /\ bbob2009_compute_xopt seed dim = Ok xs /\ length xs = dim /\
    Forall2 (is_coordinate 4) us xs /\ Forall (fun x => (-4 <= val x < 4)%R /\ val x <> 0%R) xs.
Proof.
  intros seed dim H. destruct (xopt_all 4 dim seed ltac:(lia) H) as [us [E [L [_ [X F]]]]].
  exists us, (map (xopt_coordinate (2 * 4) 4) us). split; [exact E|]. split; [exact X|]. split; [rewrite map_length; exact L|]. split; [exact F|].
  clear - F. induction F as [|u x us xs H F IH]; constructor; [|exact IH]. exact (coordinate_range 4 _ _ ltac:(lia) H).
Qed.
Theorem C40_xopt_sbox : forall seed dim, - legacy_limit < seed < legacy_limit ->
  exists us xs, bbob2009_unif dim seed = Ok us /\ sbox_cost_compute_xopt seed dim = Ok xs /\ length xs = dim /\
    Forall2 (is_coordinate 5) us xs /\ Forall (fun x => (-5 <= val x < 5)%R /\ val x <> 0%R) xs.
Proof.
  intros seed dim H. destruct (xopt_all 5 dim seed ltac:(lia) H) as [us [E [L [_ [X F]]]]].
  exists us, (map (xopt_coordinate (2 * 5) 5) us). split; [exact E|]. split; [exact X|]. split; [rewrite map_length; exact L|]. split; [exact F|].
  clear - F. induction F as [|u x us xs H F IH]; constructor; [|exact IH]. exact (coordinate_range 5 _ _ ltac:(lia) H).
Qed.

(** The points of the grid are 2 * offset / 10000 apart (up to 1e-8). *)
Theorem C40_grid : forall offset k, 1 <= offset <= 100 -> 0 <= k <= 9999 -> k <> 5000 ->
  (Rabs (grid_point offset k - (IZR (2 * offset) * IZR k / 10000 - IZR offset)) <= / 10 ^ 8)%R.
Proof. intros o k Ho Hk N. exact (proj2 (proj2 (grid_range o k Ho Hk N))). Qed.

(** The optimal value: from two Gaussian numbers, one of the seed and one of its successor; a whole number of hundredths
    between -1000 and 1000. *)
Lemma rseed_base : forall f, fopt_rseed f = base_function f.
Proof.
  intros f. unfold fopt_rseed, base_function, shared_functions. cbn [find snd existsb fst].
  repeat (match goal with |- context [N.eqb f ?k] => destruct (N.eqb_spec f k) as [->|] end; [reflexivity|]). reflexivity.
Qed.
Lemma as_long_small : forall n, (Z.of_N n < 2 ^ 63) -> as_long n = Z.of_N n.
Proof. intros n H. unfold as_long. cbv zeta. rewrite Z.mod_small by lia. destruct (Z.ltb_spec (Z.of_N n) (2 ^ 63)); lia. Qed.

Theorem C40_fopt : forall log cos function instance, libm_ok log cos -> fopt_seed function instance + 1 < legacy_limit ->
  exists u1 u2 w1 w2 g g2 r, let seed := fopt_seed function instance in
    bbob2009_unif 2 seed = Ok [u1; u2] /\ is_gaussian log cos u1 u2 g /\
    bbob2009_unif 2 (seed + 1) = Ok [w1; w2] /\ is_gaussian log cos w1 w2 g2 /\
    bbob2009_compute_fopt log cos function instance = Ok r /\ fin r /\
    val r = rnd (IZR (hundredths (val g) (val g2)) / 100) /\ (-1000 <= val r <= 1000)%R.
Proof.
  intros log cos f i Hm H. unfold legacy_limit in H. unfold fopt_seed in *.
  assert (S0 : 0 <= Z.of_N (base_function f) + 10000 * Z.of_N i) by lia.
  destruct (gauss_one log cos (Z.of_N (base_function f) + 10000 * Z.of_N i) Hm) as [u1 [u2 [g [U [G [Ig [Ng Bg]]]]]]]; [unfold legacy_limit; lia|].
  destruct (gauss_one log cos (Z.of_N (base_function f) + 10000 * Z.of_N i + 1) Hm) as [w1 [w2 [g2 [W [G2 [Ig2 [Ng2 Bg2]]]]]]]; [unfold legacy_limit; lia|].
  destruct (value_ok g g2 (proj1 Ig) Bg (proj1 Ig2) Ng2) as [Fr Vr].
  exists u1, u2, w1, w2, g, g2. eexists. cbv zeta. split; [exact U|]. split; [exact Ig|]. split; [exact W|]. split; [exact Ig2|]. split.
  { unfold bbob2009_compute_fopt. rewrite rseed_base, !as_long_small by lia. rewrite N2Z.inj_mul. change (Z.of_N 10000) with 10000.
    rewrite long_ok by lia. cbn [bind]. rewrite G. cbn [bind]. rewrite long_ok by lia. cbn [bind]. rewrite G2. cbn [bind nth]. reflexivity. }
  split; [exact Fr|]. split; [exact Vr|]. rewrite Vr.
  assert (B : -100000 <= hundredths (val g) (val g2) <= 100000) by (unfold hundredths; lia).
  assert (Rabs (rnd (IZR (hundredths (val g) (val g2)) / 100)) <= 1000)%R; [|apply Rabs_le_inv; assumption].
  apply (rnd_abs_le _ 1000); [lia|]. destruct B as [B1 B2]. apply IZR_le in B1, B2. apply Rabs_le. lra.
Qed.

(** Seeds too large for the generator. *)
Theorem C40_limit : forall log cos function instance dim seed, legacy_limit <= fopt_seed function instance + 1 -> fopt_seed function instance + 1 < 2 ^ 63 ->
  libm_ok log cos ->
  bbob2009_compute_fopt log cos function instance = UB /\
  (legacy_limit <= seed < 2 ^ 63 -> bbob2009_compute_xopt seed dim = UB /\ sbox_cost_compute_xopt seed dim = UB).
Proof.
  intros log cos f i dim seed H1 H2 Hm. unfold fopt_seed in *. split.
  - unfold bbob2009_compute_fopt. rewrite rseed_base, !as_long_small by lia. rewrite N2Z.inj_mul. change (Z.of_N 10000) with 10000.
    rewrite long_ok by lia. cbn [bind].
    assert (Bad : forall s, legacy_limit <= s < 2 ^ 63 -> bbob2009_gauss log cos 1 s = UB).
    { intros s Hs. unfold bbob2009_gauss. change (Z.of_nat (2 * 1) <? 6000) with true. cbv iota. unfold legacy_limit in Hs. rewrite unif_bad; [reflexivity|lia|]. unfold legacy_limit. lia. }
    destruct (Z_lt_le_dec (Z.of_N (base_function f) + 10000 * Z.of_N i) legacy_limit) as [L|L].
    + destruct (gauss_one log cos (Z.of_N (base_function f) + 10000 * Z.of_N i) Hm) as [u1 [u2 [g [_ [G _]]]]]; [lia|].
      rewrite G. cbn [bind]. rewrite long_ok by lia. cbn [bind]. rewrite Bad by lia. reflexivity.
    + rewrite Bad by lia. reflexivity.
  - intros Hs. unfold bbob2009_compute_xopt, sbox_cost_compute_xopt. unfold legacy_limit in Hs. rewrite unif_bad; [split; reflexivity|lia|]. unfold legacy_limit. lia.
Qed.

(** Functions sharing the optimal value, instance by instance. *)
Theorem C40_shared : forall log cos function instance,
  bbob2009_compute_fopt log cos function instance = bbob2009_compute_fopt log cos (base_function function) instance.
Proof.
  intros log cos f i. unfold bbob2009_compute_fopt. rewrite !rseed_base. do 3 f_equal.
  unfold base_function, shared_functions. cbn [find snd existsb fst].
  repeat (match goal with |- context [N.eqb f ?k] => destruct (N.eqb_spec f k) as [->|] end; [reflexivity|]). cbn [orb].
  repeat (match goal with K : f <> ?k |- context [N.eqb f ?k] => rewrite (proj2 (N.eqb_neq f k) K) end). reflexivity.
Qed.

(** Examples *)
Example C40_example : - legacy_limit < 10001 < legacy_limit /\ fopt_seed 104 3 = 30008 /\ fopt_seed 104 3 + 1 < legacy_limit /\
  libm_ok (fun _ => dint (-1)) (fun _ => ddec 5 1) /\ grid_point 4 0 = (-4)%R /\ hundredths 1 3 = 3333.
Proof.
  split; [vm_compute; split; reflexivity|]. split; [reflexivity|]. split; [reflexivity|]. split; [split|split].
  - intros u _ _. destruct (dint_val (-1) ltac:(lia)) as [F V]. split; [exact F|]. rewrite V. lra.
  - intros w _. destruct half_val as [F V]. split; [exact F|]. rewrite V, Rabs_pos_eq; lra.
  - unfold grid_point. change (2 * 4 * 0) with 0. replace (0 / 10000)%R with 0%R by lra. rewrite rnd_0. replace (0 - 4)%R with (IZR (-4)) by lra. apply rnd_int. lia.
  - unfold hundredths. replace (10000 * 1)%R with (IZR 10000) by lra. rewrite (rnd_int 10000) by lia.
    pose proof (rnd_err (10000 / 3)) as E. pose proof eps53. pose proof eps1075. rewrite (Rabs_pos_eq (10000 / 3)) in E by lra. apply Rabs_le_inv in E.
    assert (A : (3333.3 <= rnd (10000 / 3) <= 3333.4)%R) by lra.
    pose proof (rnd_err (rnd (10000 / 3) + / 2)) as E2. rewrite (Rabs_pos_eq (rnd (10000 / 3) + / 2)) in E2 by lra. apply Rabs_le_inv in E2.
    assert (A2 : (3333.7 <= rnd (rnd (10000 / 3) + / 2) <= 3333.95)%R) by nra.
    rewrite (Zfloor_imp 3333); [reflexivity|]. change (3333 + 1) with 3334. lra.
Qed.
Example C40_example_xopt : (match bbob2009_compute_xopt 10001 5 with Ok xs => forallb (fun x => dlt (dint (-4)) x && dlt x (dint 4)) xs && (length xs =? 5)%nat | _ => false end) = true.
Proof. vm_compute. reflexivity. Qed.

Print Assumptions C40_xopt.
Print Assumptions C40_xopt_sbox.
Print Assumptions C40_grid.
Print Assumptions C40_fopt.
Print Assumptions C40_limit.
Print Assumptions C40_shared.
