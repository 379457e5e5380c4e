(** Proofs about the permutations. *)
From Coq Require Import List Arith NArith ZArith Reals Bool Permutation Lia Lra Psatz ZifyBool ZifyNat ZifyN.
From Flocq Require Import Core BinarySingleNaN Plus_error.
From Verif Require Import CBase OptModel DblModel DblSpec DblProofs PairModel PairProofs RandModel RandSpec RandProofs LegacyProofs
  OptimumSpec OptimumProofs PermModel PermSpec.
Import ListNotations.
Open Scope R_scope.

(** ** The comparison *)
Lemma val_format : forall x, fin x -> generic_format radix2 (FLT_exp (-1074) 53) (val x).
Proof. intros x F. rewrite (val_fin x F). apply generic_format_B2R. Qed.
Lemma rnd_sub_neq : forall x y, fin x -> fin y -> val x <> val y -> rnd (val x - val y) <> 0.
Proof.
  intros x y Fx Fy N. unfold rnd, Rminus. apply round_plus_neq_0; auto with typeclass_instances; [apply val_format; exact Fx| |lra].
  apply generic_format_opp. apply val_format. exact Fy.
Qed.
Lemma clamp_sign : forall r, (0 < clamp r <-> 0 < r) /\ (clamp r < 0 <-> r < 0).
Proof. intros r. unfold clamp, Rmax, Rmin. pose proof big_pos. destruct (Rle_dec big r); destruct (Rle_dec _ _); lra. Qed.
Lemma dsub_sign : forall x y, fin x -> fin y ->
  (dlt (dint 0) (dsub x y) = true <-> val y < val x) /\ (dlt (dsub x y) (dint 0) = true <-> val x < val y).
Proof.
  intros x y Fx Fy. destruct (dsub_val x y Fx Fy) as [N V]. destruct (dint_val 0 ltac:(lia)) as [F0 V0]. apply fin_num in F0.
  rewrite !dlt_val by assumption. rewrite V, V0. destruct (clamp_sign (rnd (val x - val y))) as [C1 C2]. rewrite C1, C2.
  pose proof (rnd_sub_neq x y Fx Fy) as Ne.
  destruct (Rtotal_order (val x) (val y)) as [L|[E|G]].
  - assert (rnd (val x - val y) <= 0) by (rewrite <- rnd_0; apply rnd_mono; lra). assert (rnd (val x - val y) <> 0) by (apply Ne; lra). lra.
  - rewrite E. replace (val y - val y) with 0 by ring. rewrite rnd_0. lra.
  - assert (0 <= rnd (val x - val y)) by (rewrite <- rnd_0; apply rnd_mono; lra). assert (rnd (val x - val y) <> 0) by (apply Ne; lra). lra.
Qed.
Lemma compare_spec : forall data a b, (forall x, In x data -> fin x) -> (a < length data)%nat -> (b < length data)%nat ->
  let x := val (nth a data dzero) in let y := val (nth b data dzero) in
  (y < x /\ compare_data data a b = 1%Z) \/ (x < y /\ compare_data data a b = (-1)%Z) \/ (x = y /\ compare_data data a b = 0%Z).
Proof.
  intros data a b F Ha Hb. cbv zeta. destruct (dsub_sign (nth a data dzero) (nth b data dzero)) as [S1 S2]; [apply F, nth_In; assumption|apply F, nth_In; assumption|].
  unfold compare_data. cbv zeta. destruct (dlt (dint 0) (dsub (nth a data dzero) (nth b data dzero))) eqn:D1.
  - left. split; [apply S1; reflexivity|reflexivity].
  - destruct (dlt (dsub (nth a data dzero) (nth b data dzero)) (dint 0)) eqn:D2.
    + right. left. split; [apply S2; reflexivity|reflexivity].
    + right. right. split; [|reflexivity]. destruct (Rtotal_order (val (nth a data dzero)) (val (nth b data dzero))) as [L|[E|G]]; [|exact E|].
      * apply S2 in L. congruence.
      * apply S1 in G. congruence.
Qed.
Lemma compare_consistent : forall data l, (forall x, In x data -> fin x) -> (forall i, In i l -> (i < length data)%nat) -> consistent (compare_data data) l.
Proof.
  intros data l F B. split.
  - intros a b Ha Hb. destruct (compare_spec data a b F (B a Ha) (B b Hb)) as [[H E]|[[H E]|[H E]]]; rewrite E;
    destruct (compare_spec data b a F (B b Hb) (B a Ha)) as [[H' E']|[[H' E']|[H' E']]]; rewrite E'; try lra; reflexivity.
  - intros a b c Ha Hb Hc H1 H2. destruct (compare_spec data a b F (B a Ha) (B b Hb)) as [[H E]|[[H E]|[H E]]]; [lia| |];
    (destruct (compare_spec data b c F (B b Hb) (B c Hc)) as [[H' E']|[[H' E']|[H' E']]]; [lia| |]);
    destruct (compare_spec data a c F (B a Ha) (B c Hc)) as [[H'' E'']|[[H'' E'']|[H'' E'']]]; try lra; lia.
Qed.

Open Scope nat_scope.
Lemma sorted_positions : forall qsort data, qsort_ok qsort -> (forall x, In x data -> fin x) ->
  sorts data (qsort (compare_data data) (seq 0 (length data))).
Proof.
  intros qsort data Q F.
  assert (B : forall i, In i (seq 0 (length data)) -> i < length data) by (intros i Hi; apply in_seq in Hi; lia).
  destruct (Q (compare_data data) (seq 0 (length data)) (compare_consistent data _ F B)) as [P A]. split; [exact P|].
  intros i j a b Hij Ea Eb. specialize (A i j a b Hij Ea Eb). cbv beta in A.
  assert (La : a < length data) by (apply B; eapply Permutation_in; [apply Permutation_sym; exact P|]; eapply nth_error_In; exact Ea).
  assert (Lb : b < length data) by (apply B; eapply Permutation_in; [apply Permutation_sym; exact P|]; eapply nth_error_In; exact Eb).
  destruct (compare_spec data a b F La Lb) as [[H E]|[[H E]|[H E]]]; [lia|lra|lra].
Qed.

(** ** Memory *)
Lemma allocate_read : forall d m m1, allocate d m = Ok m1 -> read_block m1 = Ok d /\ perm_random_data m1 = fresh m /\ fresh m1 = S (fresh m) /\ blocks m1 = (fresh m, d) :: blocks m.
Proof.
  intros d m m1 E. unfold allocate in E. destruct d as [|x d]; [discriminate E|]. injection E as <-. unfold read_block. cbn [blocks fresh perm_random_data find fst snd].
  rewrite Nat.eqb_refl. auto.
Qed.
Lemma free_allocated : forall d m m1, addresses_old m -> allocate d m = Ok m1 ->
  exists m2, free_data m1 = Ok m2 /\ blocks m2 = blocks m /\ fresh m2 = S (fresh m) /\ perm_random_data m2 = fresh m.
Proof.
  intros d m m1 A E. apply allocate_read in E as [_ [G [Fr Bl]]]. unfold free_data. rewrite Bl, G. cbn [existsb fst]. rewrite Nat.eqb_refl. cbn [orb].
  eexists. split; [reflexivity|]. cbn [blocks fresh perm_random_data filter fst negb]. rewrite Nat.eqb_refl. cbn [negb]. split; [|auto].
  unfold addresses_old in A. clear - A. revert A. generalize (fresh m). induction (blocks m) as [|b l IH]; intros k A; [reflexivity|]. inversion A as [|? ? H1 H2]; subst. cbn [filter].
  destruct (Nat.eqb_spec (fst b) k); [lia|]. cbn [negb]. f_equal. apply IH. exact H2.
Qed.
Lemma free_twice : forall m m1, free_data m = Ok m1 -> free_data m1 = UB.
Proof.
  intros m m1 E. unfold free_data in E. destruct (existsb _ _); [|discriminate E]. injection E as <-. unfold free_data. cbn [blocks perm_random_data].
  assert (X : existsb (fun b : nat * list double => fst b =? perm_random_data m) (filter (fun b => negb (fst b =? perm_random_data m)) (blocks m)) = false).
  { induction (blocks m) as [|b l IH]; [reflexivity|]. cbn [filter]. destruct (fst b =? perm_random_data m) eqn:Q; cbn [negb]; [exact IH|]. cbn [existsb]. rewrite Q. exact IH. }
  rewrite X. reflexivity.
Qed.
Lemma sort_ok : forall qsort d m m1, qsort_ok qsort -> (forall x, In x d -> fin x) -> allocate d m = Ok m1 ->
  exists l, sort_by_data qsort (seq 0 (length d)) m1 = Ok l /\ sorts d l.
Proof.
  intros qsort d m m1 Q F E. apply allocate_read in E as [R _]. unfold sort_by_data. rewrite R. cbn [bind].
  assert (B : forallb (fun i => i <? length d) (seq 0 (length d)) = true) by (apply forallb_forall; intros i Hi; apply in_seq in Hi; lia).
  rewrite B. eexists. split; [reflexivity|]. apply sorted_positions; assumption.
Qed.

(** ** The partner of a swap *)
Lemma filter_all : forall (f : nat -> bool) l, (forall x, In x l -> f x = true) -> filter f l = l.
Proof. intros f l H. induction l as [|x l IH]; [reflexivity|]. cbn [filter]. rewrite H by (left; reflexivity). f_equal. apply IH. intros y Hy. apply H. right. exact Hy. Qed.
Lemma filter_none : forall (f : nat -> bool) l, (forall x, In x l -> f x = false) -> filter f l = [].
Proof. intros f l H. induction l as [|x l IH]; [reflexivity|]. cbn [filter]. rewrite H by (left; reflexivity). apply IH. intros y Hy. apply H. right. exact Hy. Qed.

Definition low (r a : nat) := if a <? r then 0 else a - r.
Definition high (n r a : nat) := if n - 1 <? a + r then n - 1 else a + r.
Lemma low_high : forall n r a, a < n -> low r a <= a /\ a <= high n r a /\ high n r a <= n - 1 /\ a <= low r a + r /\ high n r a <= a + r.
Proof. intros n r a H. unfold low, high. destruct (Nat.ltb_spec a r), (Nat.ltb_spec (n - 1) (a + r)); lia. Qed.

Lemma window_split : forall n r a, a < n -> window n r a = seq (low r a) (a - low r a) ++ seq (S a) (high n r a - a).
Proof.
  intros n r a H. pose proof (low_high n r a H) as B. unfold window.
  set (f := fun b => negb (b =? a) && (a <=? b + r) && (b <=? a + r)).
  replace (seq 0 n) with (seq 0 (low r a) ++ seq (low r a) (a - low r a) ++ [a] ++ seq (S a) (high n r a - a) ++ seq (S (high n r a)) (n - 1 - high n r a)).
  - rewrite !filter_app. rewrite (filter_none f (seq 0 (low r a))), (filter_all f (seq (low r a) _)), (filter_none f [a]), (filter_all f (seq (S a) _)), (filter_none f (seq (S (high n r a)) _)).
    + cbn [app]. rewrite app_nil_r. reflexivity.
    + intros x Hx. apply in_seq in Hx. unfold f. assert (high n r a = a + r \/ high n r a = n - 1) by (unfold high; destruct (n - 1 <? a + r); auto). lia.
    + intros x Hx. apply in_seq in Hx. unfold f. lia.
    + intros x [<-|[]]. unfold f. lia.
    + intros x Hx. apply in_seq in Hx. unfold f. lia.
    + intros x Hx. apply in_seq in Hx. unfold f. assert (low r a = a - r) by (unfold low; destruct (Nat.ltb_spec a r); lia). lia.
  - change [a] with (seq a 1). rewrite (app_assoc (seq a 1)), app_assoc, app_assoc.
    rewrite <- (seq_app (low r a)). replace (0 + low r a)%nat with (low r a) by lia. 
    replace (seq a 1 ++ seq (S a) (high n r a - a)) with (seq a (1 + (high n r a - a))) by (rewrite seq_app; f_equal; f_equal; lia).
    rewrite <- (app_assoc (seq 0 _)).
    replace (seq a (1 + (high n r a - a)) ++ seq (S (high n r a)) (n - 1 - high n r a)) with (seq a (1 + (high n r a - a) + (n - 1 - high n r a))) by (rewrite (seq_app (1 + (high n r a - a))); f_equal; f_equal; lia).
    replace (low r a + (a - low r a)) with a by lia.
    replace (seq a (1 + (high n r a - a) + (n - 1 - high n r a))) with (seq (0 + a) (n - a)) by (f_equal; lia). rewrite <- seq_app. f_equal. lia.
Qed.
Lemma window_length : forall n r a, a < n -> length (window n r a) = high n r a - low r a.
Proof. intros n r a H. pose proof (low_high n r a H). rewrite window_split, app_length, !seq_length by exact H. lia. Qed.
Lemma window_nth : forall n r a k, a < n -> k < length (window n r a) ->
  nth_error (window n r a) k = Some (if a <=? low r a + k then low r a + k + 1 else low r a + k).
Proof.
  intros n r a k H Hk. pose proof (low_high n r a H) as B. rewrite window_length in Hk by exact H. rewrite window_split by exact H.
  destruct (Nat.leb_spec a (low r a + k)) as [L|L].
  - rewrite nth_error_app2 by (rewrite seq_length; lia). rewrite seq_length. rewrite (nth_error_nth' _ 0) by (rewrite seq_length; lia). rewrite seq_nth by lia. f_equal. lia.
  - rewrite nth_error_app1 by (rewrite seq_length; lia). rewrite (nth_error_nth' _ 0) by (rewrite seq_length; lia). rewrite seq_nth by lia. reflexivity.
Qed.
Lemma window_in : forall n r a b, In b (window n r a) <-> b < n /\ b <> a /\ a <= b + r /\ b <= a + r.
Proof. intros n r a b. unfold window. rewrite filter_In, in_seq. lia. Qed.

Open Scope R_scope.
Lemma chosen_lt : forall u k, 0 < val u <= 1 - bpow radix2 (-31) -> (0 < k)%nat -> (Z.of_nat k < 2 ^ 53)%Z ->
  0 <= rnd (val u * INR k) < INR k.
Proof.
  intros u k Hu Hk B. rewrite INR_IZR_INZ. assert (K1 : 1 <= IZR (Z.of_nat k)) by (apply IZR_le; lia).
  split; [rewrite <- rnd_0; apply rnd_mono; nra|].
  pose proof (bpow_gt_0 radix2 (-31)) as P31. pose proof (bpow_gt_0 radix2 (-53)) as P53.
  assert (U : val u * IZR (Z.of_nat k) <= IZR (Z.of_nat k) - bpow radix2 (-31) * IZR (Z.of_nat k)) by nra.
  pose proof (rnd_err (val u * IZR (Z.of_nat k))) as E. apply Rabs_le_inv in E. rewrite (Rabs_pos_eq (val u * IZR (Z.of_nat k))) in E by nra.
  assert (B53 : bpow radix2 (-53) <= bpow radix2 (-31) * / 4) by (replace (/ 4) with (bpow radix2 (-2)) by (simpl; lra); rewrite <- bpow_plus; apply bpow_le; lia).
  assert (B1075 : bpow radix2 (-1075) <= bpow radix2 (-31) * / 4) by (replace (/ 4) with (bpow radix2 (-2)) by (simpl; lra); rewrite <- bpow_plus; apply bpow_le; lia).
  assert (T : bpow radix2 (-53) * (val u * IZR (Z.of_nat k)) <= bpow radix2 (-31) * / 4 * IZR (Z.of_nat k)).
  { apply Rmult_le_compat; [lra|nra|exact B53|]. pose proof (Rmult_lt_0_compat _ _ P31 (Rlt_le_trans _ _ _ Rlt_0_1 K1)). nra. }
  nra.
Qed.
Lemma trunc_floor : forall x, fin x -> 0 <= val x -> Btrunc x = Zfloor (val x).
Proof.
  intros x F H. rewrite (val_fin x F) in *.
  pose proof (Btrunc_correct 53 1024 _ x) as E. rewrite round_FIX in E. apply eq_IZR in E. rewrite E. apply Ztrunc_floor. exact H.
Qed.
Open Scope Z_scope.
Lemma unif_integer_ok : forall lower upper seed, 0 <= lower <= upper -> upper < 2 ^ 52 -> - legacy_limit < seed < legacy_limit ->
  exists u, bbob2009_unif 1 seed = Ok [u] /\ (chosen u (Z.to_nat (upper - lower + 1)) < Z.to_nat (upper - lower + 1))%nat /\
    coco_random_unif_integer lower upper seed = Ok (lower + Z.of_nat (chosen u (Z.to_nat (upper - lower + 1)))).
Proof.
  intros lower upper seed H1 H2 Hs. destruct (xopt_all 1 1 seed ltac:(lia) Hs) as [us [E [L [A _]]]].
  destruct us as [|u [|]]; try (cbn in L; lia). destruct (A u ltac:(left; reflexivity)) as [Fu Bu]. exists u. split; [exact E|].
  set (k := Z.to_nat (upper - lower + 1)). pose proof (chosen_lt u k Bu ltac:(lia) ltac:(lia)) as C.
  assert (IZ : INR k = IZR (upper - lower + 1)) by (rewrite INR_IZR_INZ; f_equal; lia).
  assert (Ch : 0 <= Zfloor (rnd (val u * INR k)) < Z.of_nat k).
  { split; [apply Zfloor_lub; apply C|]. apply lt_IZR. rewrite <- INR_IZR_INZ. pose proof (Zfloor_lb (rnd (val u * INR k))). lra. }
  split; [unfold chosen; lia|]. unfold coco_random_unif_integer. rewrite E. cbn [bind mget nth_error]. rewrite long_ok by lia. cbn [bind]. rewrite long_ok by lia. cbn [bind].
  destruct (dint_val (upper - lower + 1) ltac:(lia)) as [Fr Vr]. pose proof (dmul_val u _ Fu Fr) as M. rewrite Vr, <- IZ in M.
  assert (K0 : (0 < INR k)%R) by (rewrite IZ; apply IZR_lt; lia). pose proof (bpow_gt_0 radix2 (-31)) as P31.
  apply (small_op _ _ (upper - lower + 1)) in M; [|lia|rewrite <- IZ; rewrite Rabs_pos_eq; nra]. destruct M as [Fm Vm].
  unfold to_long. red in Fm. rewrite Fm. rewrite (trunc_floor _ Fm) by (rewrite Vm; apply C). rewrite Vm. rewrite long_ok by lia. cbn [bind].
  rewrite long_ok by lia. f_equal. unfold chosen. lia.
Qed.

(** ** Swapping *)
Open Scope nat_scope.
Lemma as_size_t_small : forall z, (0 <= z < 2 ^ 64)%Z -> as_size_t z = Z.to_nat z.
Proof. intros z H. unfold as_size_t. rewrite wrap_small by exact H. lia. Qed.
Lemma as_long_nat : forall k, (Z.of_nat k < 2 ^ 63)%Z -> as_long (N.of_nat k) = Z.of_nat k.
Proof.
  intros k H. unfold as_long. cbv zeta. rewrite nat_N_Z, Z.mod_small by lia. destruct (Z.ltb_spec (Z.of_nat k) (2 ^ 63)); lia.
Qed.
Lemma transposed_upd : forall (P : list nat) a b x y, nth_error P a = Some x -> nth_error P b = Some y -> transposed a b P (upd (upd P a y) b x).
Proof.
  intros P a b x y Ea Eb. assert (La : a < length P) by (apply nth_error_Some; congruence). assert (Lb : b < length P) by (apply nth_error_Some; congruence).
  split; [rewrite !upd_length; reflexivity|]. intros i.
  destruct (Nat.eqb_spec i a) as [->|Na].
  - destruct (Nat.eq_dec a b) as [->|Nab].
    + rewrite nth_error_upd_same by (rewrite upd_length; exact Lb). congruence.
    + rewrite nth_error_upd_other by lia. rewrite nth_error_upd_same by exact La. congruence.
  - destruct (Nat.eqb_spec i b) as [->|Nb].
    + rewrite nth_error_upd_same by (rewrite upd_length; exact Lb). congruence.
    + rewrite !nth_error_upd_other by lia. reflexivity.
Qed.
Lemma transposed_permutation : forall a b P P', a < length P -> b < length P -> transposed a b P P' -> Permutation P P'.
Proof.
  intros a b P P' Ha Hb [L T]. apply Permutation_nth_error. split; [auto|]. exists (fun i => if i =? a then b else if i =? b then a else i). split.
  - intros i j E. cbv beta in E. destruct (Nat.eqb_spec i a), (Nat.eqb_spec j a), (Nat.eqb_spec i b), (Nat.eqb_spec j b); lia.
  - exact T.
Qed.

Section Swaps.
Variables (seed : Z) (n range : nat).
Hypothesis Hn : 1 < n.
Hypothesis Hr : 0 < range.
Hypothesis Hsize : (Z.of_nat n + Z.of_nat range < 2 ^ 52)%Z.

Lemma step_swap : forall idx_order i a P, (Z.of_nat i < 2 ^ 50)%Z -> (- legacy_limit < seed + 1000 * (1 + Z.of_nat i) < legacy_limit)%Z ->
  nth_error idx_order i = Some a -> a < n -> length P = n ->
  exists b P', swap_step seed n range idx_order i P = Ok P' /\ partner seed n range i a b /\ transposed a b P P' /\ b < n.
Proof.
  intros idx_order i a P Hi Hs Ea Ha LP. unfold swap_step, mget. rewrite Ea. cbn [bind].
  assert (Lo : (if a <? range then 0 else a - range) = low range a) by reflexivity. rewrite Lo.
  assert (Sum : size_sum a range = a + range) by (unfold size_sum; rewrite as_size_t_small by lia; lia). rewrite Sum.
  change (if n - 1 <? a + range then n - 1 else a + range) with (high n range a). cbv zeta.
  pose proof (low_high n range a Ha) as B. pose proof (window_length n range a Ha) as WL.
  assert (W : low range a < high n range a).
  { unfold low, high. destruct (Nat.ltb_spec a range), (Nat.ltb_spec (n - 1) (a + range)); lia. }
  unfold legacy_limit in Hs. rewrite (as_long_nat (1 + i)) by lia. rewrite long_ok by lia. cbn [bind]. rewrite long_ok by lia. cbn [bind].
  rewrite !as_long_nat by lia. rewrite long_ok by lia. cbn [bind].
  destruct (unif_integer_ok (Z.of_nat (low range a)) (Z.of_nat (high n range a) - 1) (seed + Z.of_nat (1 + i) * 1000)) as [u [E [C R]]]; [lia|lia|unfold legacy_limit; lia|].
  rewrite R. cbn [bind]. replace (Z.to_nat (Z.of_nat (high n range a) - 1 - Z.of_nat (low range a) + 1)) with (length (window n range a)) in * by lia.
  set (k := chosen u (length (window n range a))) in *. rewrite as_size_t_small by lia.
  replace (Z.to_nat (Z.of_nat (low range a) + Z.of_nat k)) with (low range a + k) by lia.
  assert (Sum1 : size_sum (low range a + k) 1 = low range a + k + 1) by (unfold size_sum; rewrite as_size_t_small by lia; lia). rewrite Sum1.
  pose proof (window_nth n range a k Ha C) as Wn. set (b := if a <=? low range a + k then low range a + k + 1 else low range a + k) in *.
  assert (Hb : b < n) by (apply nth_error_In in Wn; apply window_in in Wn; lia).
  destruct (nth_error P a) as [x|] eqn:Ex; [|exfalso; apply nth_error_None in Ex; lia]. cbn [bind].
  destruct (nth_error P b) as [y|] eqn:Ey; [|exfalso; apply nth_error_None in Ey; lia]. cbn [bind].
  unfold mset. destruct (Nat.ltb_spec a (length P)); [|lia]. cbn [bind]. rewrite upd_length. destruct (Nat.ltb_spec b (length P)); [|lia].
  exists b. eexists. split; [reflexivity|]. split; [|split; [apply transposed_upd; assumption|exact Hb]].
  exists u. split; [rewrite <- E; f_equal; lia|exact Wn].
Qed.

Lemma loop_swaps : forall count idx_order i P, i + count <= length idx_order -> (Z.of_nat (i + count) < 2 ^ 50)%Z ->
  (- legacy_limit < seed)%Z -> (seed + 1000 * Z.of_nat (i + count) < legacy_limit)%Z ->
  (forall a, In a idx_order -> a < n) -> length P = n ->
  exists Q, swap_loop count seed n range idx_order i P = Ok Q /\ swap_chain (partner seed n range) i (firstn count (skipn i idx_order)) P Q /\ Permutation P Q /\ length Q = n.
Proof.
  induction count as [|c IH]; intros idx_order i P Hi Hb Hs1 Hs2 Ho LP.
  - exists P. split; [reflexivity|]. split; [constructor|]. split; [apply Permutation_refl|exact LP].
  - destruct (nth_error idx_order i) as [a|] eqn:Ea; [|exfalso; apply nth_error_None in Ea; lia].
    assert (Ha : a < n) by (apply Ho; eapply nth_error_In; exact Ea).
    destruct (step_swap idx_order i a P ltac:(lia) ltac:(lia) Ea Ha LP) as [b [P' [E [Pa [T Hbn]]]]].
    destruct (IH idx_order (S i) P' ltac:(lia) ltac:(lia) Hs1 ltac:(lia) Ho) as [Q [EQ [CQ [PQ LQ]]]]; [destruct T as [T _]; lia|].
    exists Q. split; [cbn [swap_loop]; rewrite E; cbn [bind]; exact EQ|]. split; [|split; [|exact LQ]].
    + assert (Sk : skipn i idx_order = a :: skipn (S i) idx_order).
      { clear - Ea. revert i Ea. induction idx_order as [|x l IHl]; intros [|i] Ea; cbn in Ea; try discriminate Ea; [injection Ea as ->; reflexivity|]. cbn [skipn]. rewrite (IHl i Ea). reflexivity. }
      rewrite Sk. cbn [firstn]. econstructor; [exact Pa|exact T|exact CQ].
    + eapply Permutation_trans; [|exact PQ]. apply (transposed_permutation a b); [lia|lia|exact T].
Qed.
Lemma loop_app : forall c d idx_order i P, swap_loop (c + d) seed n range idx_order i P = do Q <- swap_loop c seed n range idx_order i P; swap_loop d seed n range idx_order (i + c) Q.
Proof.
  clear Hn Hr Hsize. induction c as [|c IH]; intros d idx_order i P; [cbn [Nat.add swap_loop bind]; rewrite Nat.add_0_r; reflexivity|].
  cbn [Nat.add swap_loop]. destruct (swap_step seed n range idx_order i P) as [P'| |]; [|reflexivity|reflexivity]. cbn [bind]. rewrite IH. replace (S i + c) with (i + S c) by lia. reflexivity.
Qed.
End Swaps.

Lemma unif_fin : forall n seed, (- legacy_limit < seed < legacy_limit)%Z ->
  exists us, bbob2009_unif n seed = Ok us /\ length us = n /\ (forall u, In u us -> fin u) /\ forall u, In u us -> (0 < val u <= 1 - bpow radix2 (-31))%R.
Proof.
  intros n seed H. destruct (xopt_all 1 n seed ltac:(lia) H) as [us [E [L [A _]]]]. exists us. split; [exact E|]. split; [exact L|]. split; intros u Hu; apply (A u Hu).
Qed.
Lemma gauss_fin : forall log cos n seed, libm_ok log cos -> (- legacy_limit < seed < legacy_limit)%Z -> (n < 3000) ->
  exists gs, bbob2009_gauss log cos n seed = Ok gs /\ length gs = n /\ (forall g, In g gs -> fin g).
Proof.
  intros log cos n seed Hm H Hn. destruct (unif_fin (2 * n) seed H) as [us [E [L [F V]]]]. unfold bbob2009_gauss.
  destruct (Z.ltb_spec (Z.of_nat (2 * n)) 6000); [|lia]. rewrite E. cbn [bind]. eexists. split; [reflexivity|]. split; [rewrite map_length, seq_length; reflexivity|].
  intros g Hg. apply in_map_iff in Hg as [i [<- Hi]]. apply in_seq in Hi. pose proof (bpow_gt_0 radix2 (-31)).
  assert (A : forall j, j < 2 * n -> fin (nth j us dzero) /\ (0 < val (nth j us dzero) < 1)%R).
  { intros j Hj. assert (I : In (nth j us dzero) us) by (apply nth_In; lia). split; [apply F; exact I|]. pose proof (V _ I). lra. }
  apply (gauss_ok log cos _ _ Hm); apply A; lia.
Qed.
Lemma allocate_ok : forall d m, d <> [] -> exists m1, allocate d m = Ok m1.
Proof. intros [|x d] m H; [contradiction|]. eexists. reflexivity. Qed.

(** ** Applying a permutation *)
Lemma permute_loop_ok : forall P i x d, (forall p, In p P -> p < length x) -> i + length P <= length d ->
  permute_loop P i x d = Ok (firstn i d ++ map (fun p => nth p x dzero) P ++ skipn (i + length P) d).
Proof.
  induction P as [|p P IH]; intros i x d B L.
  - cbn [permute_loop map length app]. rewrite Nat.add_0_r, firstn_skipn. reflexivity.
  - cbn [permute_loop]. unfold mget. rewrite (nth_error_nth' x dzero) by (apply B; left; reflexivity). cbn [bind]. unfold mset.
    cbn [length] in L. destruct (Nat.ltb_spec i (length d)) as [_|?]; [|lia]. cbn [bind]. rewrite IH; [|intros q Hq; apply B; right; exact Hq|rewrite upd_length; lia].
    f_equal. cbn [map length]. 
    assert (U : upd d i (nth p x dzero) = firstn i d ++ nth p x dzero :: skipn (S i) d).
    { clear - L. assert (H : i < length d) by lia. clear L. revert i H. induction d as [|y d IHd]; intros [|i] H; cbn in H; try lia; [reflexivity|]. cbn [upd firstn skipn app]. f_equal. apply IHd. lia. }
    rewrite U. assert (Lf : length (firstn i d) = i) by (rewrite firstn_length; lia).
    rewrite firstn_app, Lf. replace (S i - i) with 1 by lia. rewrite firstn_all2 by lia. cbn [firstn]. rewrite skipn_app, Lf.
    rewrite (skipn_all2 (firstn i d)) by lia. replace (S i + length P - i) with (S (length P)) by lia. cbn [skipn app]. rewrite <- app_assoc. cbn [app]. f_equal. f_equal. f_equal.
    assert (S2 : forall (A : Type) (l : list A) a b, skipn a (skipn b l) = skipn (b + a) l) by (intros A l a b; revert l; induction b; intros [|z l]; cbn; auto; destruct a; reflexivity).
    change (skipn (length P) (skipn (S i) d) = skipn (i + S (length P)) d). rewrite S2. f_equal. lia.
Qed.
Lemma inverse_loop_ok : forall P i x d, NoDup P -> (forall p, In p P -> p < length d) -> i + length P <= length x ->
  exists y, inverse_permute_loop P i x d = Ok y /\ length y = length d /\
    (forall j p, nth_error P j = Some p -> nth_error y p = nth_error x (i + j)) /\ (forall q, ~ In q P -> nth_error y q = nth_error d q).
Proof.
  induction P as [|p P IH]; intros i x d N B L.
  - exists d. split; [reflexivity|]. split; [reflexivity|]. split; [intros [|j] p Q; discriminate Q|reflexivity].
  - cbn [inverse_permute_loop]. cbn [length] in L. inversion N as [|? ? Np NP]; subst. unfold mget. rewrite (nth_error_nth' x dzero) by lia. cbn [bind]. unfold mset.
    assert (Lp : p < length d) by (apply B; left; reflexivity). destruct (Nat.ltb_spec p (length d)) as [_|?]; [|lia]. cbn [bind].
    destruct (IH (S i) x (upd d p (nth i x dzero)) NP) as [y [E [Ly [In1 Out1]]]]; [intros q Hq; rewrite upd_length; apply B; right; exact Hq|lia|].
    exists y. split; [exact E|]. split; [rewrite Ly, upd_length; reflexivity|]. split.
    + intros [|j] q Q; cbn [nth_error] in Q.
      * assert (p = q) by congruence. subst q. rewrite Out1 by exact Np. rewrite nth_error_upd_same by exact Lp. rewrite Nat.add_0_r. symmetry. apply nth_error_nth'. lia.
      * rewrite (In1 j q Q). f_equal. lia.
    + intros q Hq. rewrite Out1 by (intros K; apply Hq; right; exact K). apply nth_error_upd_other. intros K. apply Hq. left. auto.
Qed.

Lemma list_eqb_eq : forall A (eqb : A -> A -> bool), (forall a b, eqb a b = true -> a = b) -> forall l l', list_eqb eqb l l' = true -> l = l'.
Proof.
  intros A eqb H. induction l as [|a l IH]; intros [|b l'] E; cbn in E; try discriminate E; [reflexivity|].
  apply andb_true_iff in E as [E1 E2]. f_equal; [apply H; exact E1|apply IH; exact E2].
Qed.
Lemma nth_error_ext : forall A (l l' : list A), (forall i, nth_error l i = nth_error l' i) -> l = l'.
Proof.
  intros A. induction l as [|a l IH]; intros [|b l'] H; [reflexivity|specialize (H 0%nat); discriminate H|specialize (H 0%nat); discriminate H|].
  pose proof (H 0%nat) as H0. cbn in H0. f_equal; [congruence|]. apply IH. intros i. exact (H (S i)).
Qed.
