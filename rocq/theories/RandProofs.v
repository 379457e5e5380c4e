From Coq Require Import List Arith NArith ZArith Reals Bool Lia Lra ZifyBool ZifyNat ZifyN.
From Flocq Require Import Core BinarySingleNaN Sterbenz.
From Verif Require Import CBase OptModel DblModel DblSpec DblProofs PairModel RandModel RandSpec.
Import ListNotations.
Open Scope nat_scope.

(** * The lagged Fibonacci generator *)
Definition mix1 (a b : double) : double :=
  let t := dadd a b in if dle (dint 1) t then dsub t (dint 1) else t.
#[local] Opaque mix1.

Lemma mix_ok : forall x i j a b, nth_error x i = Some a -> nth_error x j = Some b ->
  random_mix x i j = Ok (upd x i (mix1 a b)).
Proof.
  intros x i j a b H H'. unfold random_mix, mget. rewrite H, H'. cbn [bind]. unfold mset.
  destruct (Nat.ltb_spec i (length x)) as [L|L]; [reflexivity|]. exfalso.
  assert (N : nth_error x i = None) by (apply nth_error_None; lia). congruence.
Qed.

Lemma nth_upd_same : forall (x : list double) i v d, i < length x -> nth i (upd x i v) d = v.
Proof. intros x i v d L. apply nth_error_nth. apply nth_error_upd_same. exact L. Qed.
Lemma nth_upd_other : forall (x : list double) i k v d, i <> k -> nth k (upd x i v) d = nth k x d.
Proof.
  induction x as [|a x IH]; intros [|i] [|k] v d H; try reflexivity; try lia. cbn. apply IH. lia.
Qed.

Lemma loop1_spec : forall n i x, length x = COCO_LONG_LAG -> i + n <= COCO_SHORT_LAG ->
  exists x', random_loop1 n i x = Ok x' /\ length x' = COCO_LONG_LAG /\
    forall k, nth k x' dzero = if (i <=? k) && (k <? i + n) then mix1 (nth k x dzero) (nth (k + 334) x dzero) else nth k x dzero.
Proof.
  induction n as [|n IH]; intros i x L B.
  - exists x. split; [reflexivity|]. split; [exact L|]. intros k.
    destruct ((i <=? k) && (k <? i + 0)) eqn:Q; [lia|reflexivity].
  - unfold COCO_LONG_LAG, COCO_SHORT_LAG in *. cbn [random_loop1]. change (COCO_LONG_LAG - COCO_SHORT_LAG) with 334.
    rewrite (mix_ok x i (i + 334) (nth i x dzero) (nth (i + 334) x dzero)) by (apply nth_error_nth'; lia). cbn [bind].
    destruct (IH (S i) (upd x i (mix1 (nth i x dzero) (nth (i + 334) x dzero)))) as [x' [E [L' P]]]; [rewrite upd_length; exact L|lia|].
    exists x'. split; [exact E|]. split; [exact L'|]. intros k. rewrite P.
    destruct (Nat.eq_dec k i) as [->|Nk].
    + destruct ((S i <=? i) && (i <? S i + n)) eqn:Q; [lia|]. destruct ((i <=? i) && (i <? i + S n)) eqn:Q'; [|lia].
      apply nth_upd_same. lia.
    + rewrite nth_upd_other by lia.
      destruct ((S i <=? k) && (k <? S i + n)) eqn:Q, ((i <=? k) && (k <? i + S n)) eqn:Q'; try lia; [|reflexivity].
      rewrite nth_upd_other by lia. reflexivity.
Qed.

Lemma loop2_spec : forall n i x, length x = COCO_LONG_LAG -> COCO_SHORT_LAG <= i -> i + n <= COCO_LONG_LAG ->
  exists x', random_loop2 n i x = Ok x' /\ length x' = COCO_LONG_LAG /\
    forall k, nth k x' dzero = if (i <=? k) && (k <? i + n) then mix1 (nth k x dzero) (nth (k - 273) x' dzero) else nth k x dzero.
Proof.
  induction n as [|n IH]; intros i x L B C.
  - exists x. split; [reflexivity|]. split; [exact L|]. intros k.
    destruct ((i <=? k) && (k <? i + 0)) eqn:Q; [lia|reflexivity].
  - unfold COCO_LONG_LAG, COCO_SHORT_LAG in *. cbn [random_loop2]. change COCO_SHORT_LAG with 273.
    rewrite (mix_ok x i (i - 273) (nth i x dzero) (nth (i - 273) x dzero)) by (apply nth_error_nth'; lia). cbn [bind].
    destruct (IH (S i) (upd x i (mix1 (nth i x dzero) (nth (i - 273) x dzero)))) as [x' [E [L' P]]]; [rewrite upd_length; exact L|lia|lia|].
    exists x'. split; [exact E|]. split; [exact L'|]. intros k. rewrite P.
    destruct (Nat.eq_dec k i) as [->|Nk].
    + destruct ((S i <=? i) && (i <? S i + n)) eqn:Q; [lia|]. destruct ((i <=? i) && (i <? i + S n)) eqn:Q'; [|lia].
      rewrite nth_upd_same by lia. rewrite (P (i - 273)).
      destruct ((S i <=? i - 273) && (i - 273 <? S i + n)) eqn:Q''; [lia|]. rewrite nth_upd_other by lia. reflexivity.
    + rewrite nth_upd_other by lia.
      destruct ((S i <=? k) && (k <? S i + n)) eqn:Q, ((i <=? k) && (k <? i + S n)) eqn:Q'; try lia; reflexivity.
Qed.

Lemma generate_spec : forall s, length (rx s) = COCO_LONG_LAG ->
  exists x', coco_random_generate s = Ok {| rx := x'; rindex := 0 |} /\ length x' = COCO_LONG_LAG /\
    (forall k, k < 273 -> nth k x' dzero = mix1 (nth k (rx s) dzero) (nth (k + 334) (rx s) dzero)) /\
    (forall k, 273 <= k < 607 -> nth k x' dzero = mix1 (nth k (rx s) dzero) (nth (k - 273) x' dzero)).
Proof.
  intros s L. unfold coco_random_generate.
  destruct (loop1_spec COCO_SHORT_LAG 0 (rx s) L ltac:(lia)) as [x1 [E1 [L1 P1]]]. rewrite E1. cbn [bind].
  destruct (loop2_spec (COCO_LONG_LAG - COCO_SHORT_LAG) COCO_SHORT_LAG x1 L1) as [x2 [E2 [L2 P2]]]; [lia|vm_compute; lia|].
  rewrite E2. cbn [bind]. exists x2. split; [reflexivity|]. split; [exact L2|]. change COCO_SHORT_LAG with 273 in *.
  change (273 + (COCO_LONG_LAG - 273)) with 607 in P2. split; intros k Hk.
  - rewrite P2. destruct ((273 <=? k) && (k <? 607)) eqn:Q; [lia|]. rewrite P1.
    destruct ((0 <=? k) && (k <? 0 + 273)) eqn:Q'; [reflexivity|lia].
  - rewrite P2. destruct ((273 <=? k) && (k <? 607)) eqn:Q; [|lia]. rewrite P1.
    destruct ((0 <=? k) && (k <? 0 + 273)) eqn:Q'; [lia|reflexivity].
Qed.

(** The blocks of 607 numbers. *)
Fixpoint block (x : list double) (g : nat) : list double :=
  match g with
  | O => x
  | S g' => match coco_random_generate {| rx := block x g'; rindex := 0 |} with Ok s => rx s | _ => [] end
  end.
Definition stream (x : list double) (n : nat) : double := nth (n mod 607) (block x (n / 607)) dzero.

Lemma generate_index : forall x i, coco_random_generate {| rx := x; rindex := i |} = coco_random_generate {| rx := x; rindex := 0 |}.
Proof. reflexivity. Qed.

Lemma block_step : forall x g, length x = COCO_LONG_LAG -> length (block x g) = COCO_LONG_LAG /\
  (forall i, coco_random_generate {| rx := block x g; rindex := i |} = Ok {| rx := block x (S g); rindex := 0 |}) /\
  (forall k, k < 273 -> nth k (block x (S g)) dzero = mix1 (nth k (block x g) dzero) (nth (k + 334) (block x g) dzero)) /\
  (forall k, 273 <= k < 607 -> nth k (block x (S g)) dzero = mix1 (nth k (block x g) dzero) (nth (k - 273) (block x (S g)) dzero)).
Proof.
  intros x g L. assert (G : length (block x g) = COCO_LONG_LAG).
  { induction g as [|g IH]; [exact L|]. cbn [block].
    destruct (generate_spec {| rx := block x g; rindex := 0 |} IH) as [x' [E [L' _]]]. rewrite E. exact L'. }
  split; [exact G|]. destruct (generate_spec {| rx := block x g; rindex := 0 |} G) as [x' [E [L' [P1 P2]]]].
  assert (B : block x (S g) = x') by (cbn [block]; rewrite E; reflexivity). rewrite B. cbn [rx] in *.
  split; [intros i; rewrite generate_index; exact E|]. split; assumption.
Qed.

Lemma split_index : forall g k, k < 607 -> (607 * g + k) / 607 = g /\ (607 * g + k) mod 607 = k.
Proof.
  intros g k H. split.
  - symmetry. apply (Nat.div_unique _ 607 g k); lia.
  - symmetry. apply (Nat.mod_unique _ 607 g k); lia.
Qed.

Lemma stream_fib : forall x n, length x = COCO_LONG_LAG -> stream x (n + 607) = mix1 (stream x n) (stream x (n + 334)).
Proof.
  intros x n L. pose proof (Nat.div_mod n 607 ltac:(lia)) as D. pose proof (Nat.mod_upper_bound n 607 ltac:(lia)) as U.
  set (g := n / 607) in *. set (k := n mod 607) in *. clearbody g k. subst n.
  destruct (block_step x g L) as [_ [_ [P1 P2]]].
  unfold stream. replace (607 * g + k + 607) with (607 * S g + k) by lia.
  destruct (split_index (S g) k U) as [-> ->]. destruct (split_index g k U) as [-> ->].
  destruct (Nat.lt_ge_cases k 273) as [H|H].
  - replace (607 * g + k + 334) with (607 * g + (k + 334)) by lia. destruct (split_index g (k + 334) ltac:(lia)) as [-> ->]. auto.
  - replace (607 * g + k + 334) with (607 * S g + (k - 273)) by lia. destruct (split_index (S g) (k - 273) ltac:(lia)) as [-> ->]. auto.
Qed.

Lemma uniform_at : forall x g k, length x = COCO_LONG_LAG -> k <= 607 ->
  exists g' k', k' <= 607 /\ 607 * g' + k' = 607 * g + k + 1 /\
    coco_random_uniform {| rx := block x g; rindex := k |} = Ok (stream x (607 * g + k), {| rx := block x g'; rindex := k' |}).
Proof.
  intros x g k L H. unfold coco_random_uniform. cbn [rindex]. change COCO_LONG_LAG with 607.
  destruct (block_step x g L) as [Lg [Hg _]]. destruct (block_step x (S g) L) as [Lg' _]. change COCO_LONG_LAG with 607 in *.
  destruct (Nat.leb_spec 607 k) as [K|K].
  - assert (k = 607) by lia. subst k. rewrite Hg. cbn [bind rx rindex]. unfold mget.
    rewrite (nth_error_nth' _ dzero) by lia. cbn [bind]. exists (S g), 1. split; [lia|]. split; [lia|].
    unfold stream. replace (607 * g + 607) with (607 * S g + 0) by lia. destruct (split_index (S g) 0 ltac:(lia)) as [-> ->]. reflexivity.
  - cbn [bind rx rindex]. unfold mget. rewrite (nth_error_nth' _ dzero) by lia. cbn [bind]. exists g, (S k).
    split; [lia|]. split; [lia|]. unfold stream. destruct (split_index g k K) as [-> ->]. reflexivity.
Qed.

Lemma uniforms_at : forall n x g k, length x = COCO_LONG_LAG -> k <= 607 ->
  exists g' k', k' <= 607 /\ 607 * g' + k' = 607 * g + k + n /\
    uniforms n {| rx := block x g; rindex := k |} = Ok (map (stream x) (seq (607 * g + k) n), {| rx := block x g'; rindex := k' |}).
Proof.
  induction n as [|n IH]; intros x g k L H.
  - exists g, k. split; [exact H|]. split; [lia|]. reflexivity.
  - cbn [uniforms]. destruct (uniform_at x g k L H) as [g1 [k1 [H1 [Q1 E1]]]]. rewrite E1. cbn [bind].
    destruct (IH x g1 k1 L H1) as [g2 [k2 [H2 [Q2 E2]]]]. rewrite E2. cbn [bind]. exists g2, k2.
    split; [exact H2|]. split; [lia|]. cbn [seq map]. replace (607 * g1 + k1) with (S (607 * g + k)) by lia. reflexivity.
Qed.

(** ** Values *)
Open Scope R_scope.
Lemma int_val : forall z, (Z.abs z <= 2 ^ 53)%Z -> val (dint z) = IZR z.
Proof. intros z H. apply dint_val. exact H. Qed.
Lemma int_fin : forall z, (Z.abs z <= 2 ^ 53)%Z -> fin (dint z).
Proof. intros z H. apply dint_val. exact H. Qed.

Lemma rnd_1 : rnd 1 = 1. Proof. apply (rnd_int 1). vm_compute. discriminate. Qed.
Lemma rnd_2 : rnd 2 = 2. Proof. apply (rnd_int 2). vm_compute. discriminate. Qed.
Lemma big_2 : 2 < big. Proof. apply Rlt_trans with (IZR (2 ^ 53)); [apply IZR_lt; reflexivity|exact big_53]. Qed.

Lemma small_clamp : forall r m, (Z.abs m <= 2 ^ 53)%Z -> Rabs r <= IZR m -> clamp r = r.
Proof.
  intros r m H L. apply clamp_lt. apply Rle_lt_trans with (IZR m); [exact L|]. apply Rle_lt_trans with (IZR (2 ^ 53)); [apply IZR_le; lia|exact big_53].
Qed.
Lemma small_fin : forall x m, (Z.abs m <= 2 ^ 53)%Z -> num x -> Rabs (val x) <= IZR m -> fin x.
Proof.
  intros x m H N L. apply fin_val; [exact N|]. apply Rabs_lt_inv. apply Rle_lt_trans with (IZR m); [exact L|].
  apply Rle_lt_trans with (IZR (2 ^ 53)); [apply IZR_le; lia|exact big_53].
Qed.
Lemma rnd_between : forall a b r, (Z.abs a <= 2 ^ 53)%Z -> (Z.abs b <= 2 ^ 53)%Z -> IZR a <= r <= IZR b -> IZR a <= rnd r <= IZR b.
Proof. intros a b r Ha Hb [L U]. rewrite <- (rnd_int a Ha), <- (rnd_int b Hb). split; apply rnd_mono; assumption. Qed.

Lemma rnd_format : forall r, generic_format radix2 (FLT_exp (-1074) 53) (rnd r).
Proof. intros r. apply generic_format_round; auto with typeclass_instances. Qed.
Lemma one_format : generic_format radix2 (FLT_exp (-1074) 53) 1.
Proof. rewrite <- rnd_1. apply rnd_format. Qed.

#[local] Transparent mix1.
Lemma mix1_val : forall a b, fin a -> fin b -> 0 <= val a <= 1 -> 0 <= val b <= 1 ->
  fin (mix1 a b) /\ 0 <= val (mix1 a b) <= 1 /\ sum_mod_1 (val a) (val b) (val (mix1 a b)).
Proof.
  intros a b Fa Fb Ra Rb. destruct (dadd_val a b Fa Fb) as [Nt Vt].
  assert (Rt : 0 <= rnd (val a + val b) <= 2) by (apply (rnd_between 0 2); [lia|lia|lra]).
  rewrite (small_clamp _ 2) in Vt by (try lia; rewrite Rabs_pos_eq; lra).
  assert (Ft : fin (dadd a b)) by (apply (small_fin _ 2); [lia|exact Nt|rewrite Vt, Rabs_pos_eq; lra]).
  unfold mix1. cbv zeta. destruct (dint_val 1 ltac:(lia)) as [F1 V1].
  destruct (dle (dint 1) (dadd a b)) eqn:C.
  - apply dle_val in C; [|apply fin_num; assumption|exact Nt]. rewrite V1, Vt in C.
    destruct (dsub_val (dadd a b) (dint 1) Ft F1) as [Ns Vs]. rewrite Vt, V1 in Vs.
    assert (E : rnd (rnd (val a + val b) - 1) = rnd (val a + val b) - 1).
    { apply round_generic; [auto with typeclass_instances|]. apply (sterbenz radix2 (FLT_exp (-1074) 53)); [apply rnd_format|apply one_format|lra]. }
    rewrite E in Vs. rewrite (small_clamp _ 1) in Vs by (try lia; rewrite Rabs_pos_eq; lra).
    split; [apply (small_fin _ 1); [lia|exact Ns|rewrite Vs, Rabs_pos_eq; lra]|]. rewrite Vs. split; [lra|]. right. split; [lra|reflexivity].
  - apply dle_false in C; [|apply fin_num; assumption|exact Nt]. rewrite V1, Vt in C.
    split; [exact Ft|]. rewrite Vt. split; [lra|]. left. split; [lra|reflexivity].
Qed.
#[local] Opaque mix1.

(** The seed expansion. *)
Lemma advance_number : forall seed i, advance_seed (seed_number seed i) i = seed_number seed (S i).
Proof. intros seed i. unfold advance_seed. cbn [seed_number]. cbv zeta. rewrite N.shiftr_div_pow2. f_equal. f_equal. lia. Qed.

Lemma expand_length : forall n i s, length (expand_seed n i s) = n.
Proof. induction n as [|n IH]; intros i s; [reflexivity|]. cbn [expand_seed length]. f_equal. apply IH. Qed.

Lemma expand_nth : forall n i seed k, (k < n)%nat ->
  nth k (expand_seed n i (seed_number seed i)) dzero = ddiv (dint (Z.of_N (seed_number seed (i + k)))) (dint 4294967295).
Proof.
  induction n as [|n IH]; intros i seed k H; [lia|]. cbn [expand_seed]. destruct k as [|k].
  - rewrite Nat.add_0_r. reflexivity.
  - cbn [nth]. rewrite advance_number, IH by lia. do 4 f_equal. lia.
Qed.

Lemma seed_number_bound : forall seed i, (seed < 2 ^ 32)%N -> (seed_number seed i < 2 ^ 32)%N.
Proof. intros seed [|i] H; [exact H|]. cbn [seed_number]. cbv zeta. apply N.mod_lt. discriminate. Qed.

Lemma unit_fraction : forall v, (0 <= v <= 4294967295)%Z ->
  fin (ddiv (dint v) (dint 4294967295)) /\ val (ddiv (dint v) (dint 4294967295)) = rnd (IZR v / IZR 4294967295) /\
  0 <= rnd (IZR v / IZR 4294967295) <= 1.
Proof.
  intros v H. destruct (dint_val v ltac:(lia)) as [Fv Vv]. destruct (dint_val 4294967295 ltac:(lia)) as [Fd Vd].
  destruct (ddiv_val (dint v) (dint 4294967295) Fv) as [N E]; [rewrite Vd; apply not_0_IZR; discriminate|exact Fd|].
  rewrite Vv, Vd in E. assert (R : 0 <= rnd (IZR v / IZR 4294967295) <= 1).
  { apply (rnd_between 0 1); [lia|lia|]. assert (0 <= IZR v <= IZR 4294967295) by (split; apply IZR_le; lia).
    assert (P : 0 < IZR 4294967295) by (apply IZR_lt; reflexivity). split.
    - apply Rmult_le_pos; [lra|]. left. apply Rinv_0_lt_compat. exact P.
    - apply (Rmult_le_reg_r (IZR 4294967295)); [exact P|]. unfold Rdiv. rewrite Rmult_assoc, Rinv_l by lra. lra. }
  rewrite (small_clamp _ 1) in E by (try lia; rewrite Rabs_pos_eq; lra).
  split; [apply (small_fin _ 1); [lia|exact N|rewrite E, Rabs_pos_eq; lra]|]. split; assumption.
Qed.

Lemma stream_start : forall seed i, (i < 607)%nat ->
  stream (expand_seed COCO_LONG_LAG 0 seed) i = ddiv (dint (Z.of_N (seed_number seed i))) (dint 4294967295).
Proof.
  intros seed i H. unfold stream. replace i with (607 * 0 + i)%nat by lia. destruct (split_index 0 i H) as [-> ->]. cbn [block].
  change seed with (seed_number seed 0) at 1. rewrite expand_nth by exact H. reflexivity.
Qed.

Lemma stream_range : forall seed n, (seed < 2 ^ 32)%N ->
  fin (stream (expand_seed COCO_LONG_LAG 0 seed) n) /\ 0 <= val (stream (expand_seed COCO_LONG_LAG 0 seed) n) <= 1.
Proof.
  intros seed n B. induction n as [n IH] using lt_wf_ind. destruct (Nat.lt_ge_cases n 607) as [L|L].
  - rewrite stream_start by exact L. pose proof (seed_number_bound seed n B).
    destruct (unit_fraction (Z.of_N (seed_number seed n))) as [F [V R]]; [lia|]. rewrite V. auto.
  - replace n with (n - 607 + 607)%nat by lia. rewrite stream_fib by apply expand_length.
    destruct (IH (n - 607)%nat ltac:(lia)) as [F1 R1]. destruct (IH (n - 607 + 334)%nat ltac:(lia)) as [F2 R2].
    destruct (mix1_val _ _ F1 F2 R1 R2) as [F [R _]]. auto.
Qed.

Lemma stream_lagged : forall seed, (seed < 2 ^ 32)%N -> lagged_fibonacci (stream (expand_seed COCO_LONG_LAG 0 seed)).
Proof.
  intros seed B n. replace (n + 607 - 273)%nat with (n + 334)%nat by lia. rewrite stream_fib by apply expand_length.
  destruct (stream_range seed n B) as [F1 R1]. destruct (stream_range seed (n + 334) B) as [F2 R2].
  apply (mix1_val _ _ F1 F2 R1 R2).
Qed.

(** Seeds and numbers correspond to each other one to one. *)
Open Scope N_scope.
Lemma fold_bound : forall v, v < 2 ^ 32 -> N.lxor v (v / 2 ^ 30) < 2 ^ 32.
Proof.
  intros v H. set (x := N.lxor v (v / 2 ^ 30)). destruct (N.eq_dec x 0) as [->|Nz]; [reflexivity|].
  apply N.log2_lt_pow2; [lia|]. pose proof (N.log2_lxor v (v / 2 ^ 30)) as L. fold x in L.
  assert (N.log2 v < 32). { destruct (N.eq_dec v 0) as [->|Nv]; [reflexivity|]. apply N.log2_lt_pow2; lia. }
  assert (N.log2 (v / 2 ^ 30) <= N.log2 v). { apply N.log2_le_mono. apply N.div_le_upper_bound; lia. }
  lia.
Qed.
Lemma fold_involutive : forall v, v < 2 ^ 32 -> N.lxor (N.lxor v (v / 2 ^ 30)) (N.lxor v (v / 2 ^ 30) / 2 ^ 30) = v.
Proof.
  intros v H. rewrite <- !N.shiftr_div_pow2. rewrite N.shiftr_lxor, N.shiftr_shiftr.
  replace (N.shiftr v (30 + 30)) with 0.
  2:{ rewrite N.shiftr_div_pow2. symmetry. apply N.div_small. apply N.lt_trans with (2 ^ 32); [exact H|reflexivity]. }
  rewrite N.lxor_0_r, N.lxor_assoc, N.lxor_nilpotent, N.lxor_0_r. reflexivity.
Qed.

Lemma odd_inverse : (1812433253 * 2520285293 = 1 + 1063535193 * 2 ^ 32)%Z.
Proof. reflexivity. Qed.

Lemma number_step : forall c w, w < 2 ^ 32 -> exists v, v < 2 ^ 32 /\ (1812433253 * N.lxor v (v / 2 ^ 30) + c) mod 2 ^ 32 = w.
Proof.
  intros c w H. set (m := (2 ^ 32)%Z). set (z := (2520285293 * (Z.of_N w - Z.of_N c))%Z).
  assert (Hm : (0 < m)%Z) by reflexivity.
  pose proof (Z.mod_pos_bound z m Hm) as U. set (u := Z.to_N (z mod m)).
  assert (Hu : u < 2 ^ 32) by (unfold u; change (2 ^ 32) with (Z.to_N m); lia).
  exists (N.lxor u (u / 2 ^ 30)). split; [apply fold_bound; exact Hu|]. rewrite fold_involutive by exact Hu.
  assert (Q : Z.of_N ((1812433253 * u + c) mod 2 ^ 32) = Z.of_N w); [|lia].
  rewrite N2Z.inj_mod, N2Z.inj_add, N2Z.inj_mul. change (Z.of_N (2 ^ 32)) with m. unfold u. rewrite Z2N.id by lia.
  change (Z.of_N 1812433253) with 1812433253%Z. rewrite (Z.mod_eq z m) by lia.
  replace (1812433253 * (z - m * (z / m)) + Z.of_N c)%Z
    with (Z.of_N w + (1063535193 * (Z.of_N w - Z.of_N c) - 1812433253 * (z / m)) * m)%Z.
  2:{ set (q := (z / m)%Z). clearbody q. unfold z, m. pose proof odd_inverse as O. nia. }
  rewrite Z.mod_add by lia. apply Z.mod_small. unfold m. lia.
Qed.

Lemma number_step_inj : forall c v v', v < 2 ^ 32 -> v' < 2 ^ 32 ->
  (1812433253 * N.lxor v (v / 2 ^ 30) + c) mod 2 ^ 32 = (1812433253 * N.lxor v' (v' / 2 ^ 30) + c) mod 2 ^ 32 -> v = v'.
Proof.
  intros c v v' H H' E.
  rewrite <- (fold_involutive v H), <- (fold_involutive v' H').
  pose proof (fold_bound v H) as Bx. pose proof (fold_bound v' H') as By.
  set (x := N.lxor v (v / 2 ^ 30)) in *. set (y := N.lxor v' (v' / 2 ^ 30)) in *. clearbody x y.
  assert (x = y) as ->; [|reflexivity].
  pose proof (N.div_mod (1812433253 * x + c) (2 ^ 32) ltac:(discriminate)) as D1.
  pose proof (N.div_mod (1812433253 * y + c) (2 ^ 32) ltac:(discriminate)) as D2. rewrite E in D1.
  set (r := (1812433253 * y + c) mod 2 ^ 32) in *. set (q1 := (1812433253 * x + c) / 2 ^ 32) in *.
  set (q2 := (1812433253 * y + c) / 2 ^ 32) in *. clearbody r q1 q2.
  assert (A : (1812433253 * (Z.of_N x - Z.of_N y) = 2 ^ 32 * (Z.of_N q1 - Z.of_N q2))%Z) by lia.
  assert (B : (Z.of_N x - Z.of_N y = 2 ^ 32 * (2520285293 * (Z.of_N q1 - Z.of_N q2) - 1063535193 * (Z.of_N x - Z.of_N y)))%Z) by lia.
  assert (C : (- 2 ^ 32 < Z.of_N x - Z.of_N y < 2 ^ 32)%Z) by lia.
  set (k := (2520285293 * (Z.of_N q1 - Z.of_N q2) - 1063535193 * (Z.of_N x - Z.of_N y))%Z) in *. clearbody k.
  assert (k = 0%Z) by lia. lia.
Qed.

Lemma seed_number_onto : forall i w, w < 2 ^ 32 -> exists seed, seed < 2 ^ 32 /\ seed_number seed i = w.
Proof.
  induction i as [|i IH]; intros w H; [exists w; auto|].
  destruct (number_step (N.of_nat (S i)) w H) as [v [Hv E]]. destruct (IH v Hv) as [seed [Hs Es]].
  exists seed. split; [exact Hs|]. cbn [seed_number]. cbv zeta. rewrite Es. exact E.
Qed.

Lemma seed_number_inj : forall i s s', s < 2 ^ 32 -> s' < 2 ^ 32 -> seed_number s i = seed_number s' i -> s = s'.
Proof.
  induction i as [|i IH]; intros s s' H H' E; [exact E|]. cbn [seed_number] in E. cbv zeta in E.
  apply number_step_inj in E; [|apply seed_number_bound; assumption|apply seed_number_bound; assumption]. apply IH; assumption.
Qed.
Close Scope N_scope.

(** Rounded fractions with the same denominator are different. *)
Lemma fraction_inj : forall a b d, (0 <= a <= d)%Z -> (0 <= b <= d)%Z -> (0 < d <= 2 ^ 40)%Z ->
  rnd (IZR a / IZR d) = rnd (IZR b / IZR d) -> a = b.
Proof.
  intros a b d Ha Hb Hd E.
  assert (W : forall a b, (0 <= a)%Z -> (a < b <= d)%Z -> rnd (IZR a / IZR d) < rnd (IZR b / IZR d)).
  { clear - Hd. intros a b Ha Hb. assert (P : 0 < IZR d) by (apply IZR_lt; lia).
    set (x := IZR a / IZR d). set (y := IZR b / IZR d).
    assert (Da : x * IZR d = IZR a) by (unfold x, Rdiv; rewrite Rmult_assoc, Rinv_l; lra).
    assert (Db : y * IZR d = IZR b) by (unfold y, Rdiv; rewrite Rmult_assoc, Rinv_l; lra).
    assert (L : IZR a + 1 <= IZR b) by (rewrite <- plus_IZR; apply IZR_le; lia).
    assert (A0 : 0 <= IZR a) by (apply IZR_le; lia). assert (B1 : IZR b <= IZR d) by (apply IZR_le; lia).
    assert (X0 : 0 <= x) by nra. assert (X1 : x <= 1) by nra. assert (Y0 : 0 <= y) by nra. assert (Y1 : y <= 1) by nra.
    assert (G : bpow radix2 (-40) <= y - x).
    { assert (IZR d <= bpow radix2 40) by (rewrite <- IZR_Zpower by lia; apply IZR_le; exact (proj2 Hd)).
      assert (bpow radix2 (-40) * bpow radix2 40 = 1) by (rewrite <- bpow_plus; reflexivity).
      pose proof (bpow_gt_0 radix2 (-40)). nra. }
    pose proof (rnd_err x) as Ex. pose proof (rnd_err y) as Ey. rewrite (Rabs_pos_eq x) in Ex by exact X0. rewrite (Rabs_pos_eq y) in Ey by exact Y0.
    apply Rabs_le_inv in Ex, Ey.
    assert (T : 2 * (bpow radix2 (-53) + bpow radix2 (-1075)) < bpow radix2 (-40)).
    { assert (bpow radix2 (-1075) <= bpow radix2 (-53)) by (apply bpow_le; lia).
      assert (4 * bpow radix2 (-53) < bpow radix2 (-40)); [|lra]. replace 4 with (bpow radix2 2) by (simpl; lra). rewrite <- bpow_plus. apply bpow_lt. lia. }
    pose proof (bpow_gt_0 radix2 (-53)). nra. }
  destruct (Z.lt_trichotomy a b) as [L|[L|L]]; [|exact L|].
  - specialize (W a b ltac:(lia) ltac:(lia)). lra.
  - specialize (W b a ltac:(lia) ltac:(lia)). lra.
Qed.
