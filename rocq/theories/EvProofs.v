(** Proofs about the evaluation-number triggers. *)
From Coq Require Import List Arith NArith ZArith Bool Lia Reals Lra Psatz ZifyBool ZifyNat ZifyN Ascii String.
From Flocq Require Import Core BinarySingleNaN.
Import ListNotations.
From Verif Require Import CBase StrModel StrSpec StrProofs OptModel DblModel DblSpec DblProofs TrigModel TrigSpec TrigProofs LogProofs.
Open Scope R_scope.
Notation length := List.length (only parsing).

Lemma nth_error_Some_lt : forall A (l : list A) i x, nth_error l i = Some x -> (i < length l)%nat.
Proof. intros. apply nth_error_Some. congruence. Qed.

(** Consulting a trigger at consecutive numbers *)
Lemma consult_seq : forall (S : Type) (trigger : S -> N -> res (bool * S)) (inv : N -> S -> Prop) (fires : N -> Prop)
    (limit : N),
  (forall i s, (1 <= i <= limit)%N -> inv i s ->
     exists b s', trigger s i = Ok (b, s') /\ inv (i + 1)%N s' /\ (b = true <-> fires i)) ->
  forall m i s, (1 <= i)%nat -> (N.of_nat (i + m) <= limit + 1)%N -> inv (N.of_nat i) s ->
  exists bs s', consult trigger s (map N.of_nat (seq i m)) = Ok (bs, s') /\ inv (N.of_nat (i + m)) s' /\
    length bs = m /\
    forall k b, nth_error bs k = Some b -> (b = true <-> fires (N.of_nat (i + k))).
Proof.
  intros S trigger inv fires limit H. induction m as [|m IH]; intros i s Hi Hm I.
  - exists [], s. split; [reflexivity|]. rewrite Nat.add_0_r. split; auto. split; auto. intros [|k] b E; discriminate E.
  - destruct (H (N.of_nat i) s) as (b & s1 & E1 & I1 & B); auto; [lia|].
    destruct (IH (Datatypes.S i) s1) as (bs & s2 & E2 & I2 & LB & M); [lia|lia| |].
    { replace (N.of_nat (Datatypes.S i)) with (N.of_nat i + 1)%N by lia. exact I1. }
    exists (b :: bs), s2. split; [cbn [seq map consult]; rewrite E1; cbn [bind]; rewrite E2; reflexivity|].
    replace (i + Datatypes.S m)%nat with (Datatypes.S i + m)%nat by lia. split; auto.
    split; [simpl; lia|]. intros [|k] b' E.
    + injection E as <-. rewrite Nat.add_0_r. exact B.
    + simpl in E. replace (i + Datatypes.S k)%nat with (Datatypes.S i + k)%nat by lia. now apply M.
Qed.

(** ** floor(10^(k/20)) *)

(** 10^(j/20) times 10^18, rounded down, for j < 20 *)
Definition decade : list N :=
  [1000000000000000000; 1122018454301963435; 1258925411794167210; 1412537544622754302;
   1584893192461113485; 1778279410038922801; 1995262314968879601; 2238721138568339611;
   2511886431509580111; 2818382931264453819; 3162277660168379331; 3548133892335754584;
   3981071705534972507; 4466835921509631185; 5011872336272722850; 5623413251903490803;
   6309573444801932494; 7079457843841379108; 7943282347242815020; 8912509381337455299]%N.

Lemma decade_ok : forallb (fun j => let a := nth j decade 0 in
    (a ^ 20 <=? 10 ^ (360 + N.of_nat j)) && (10 ^ (360 + N.of_nat j) <? (a + 1) ^ 20))%N (seq 0 20) = true.
Proof. vm_compute. reflexivity. Qed.

Lemma decade_is : forall j, (j < 20)%nat -> let a := nth j decade 0%N in
  (a ^ 20 <= 10 ^ (360 + N.of_nat j) < (a + 1) ^ 20)%N.
Proof.
  intros j H. pose proof (proj1 (forallb_forall _ _) decade_ok j) as K. cbv beta zeta in K. cbv zeta.
  destruct (andb_prop _ _ (K ltac:(apply in_seq; lia))) as (A & B). apply N.leb_le in A. apply N.ltb_lt in B. auto.
Qed.

Definition low (k : nat) : N := (nth (k mod 20) decade 0 * 10 ^ N.of_nat (k / 20))%N.
Definition high (k : nat) : N := ((nth (k mod 20) decade 0 + 1) * 10 ^ N.of_nat (k / 20))%N.
Definition root (k : nat) : N := (low k / 10 ^ 18)%N.

Lemma low_high : forall k, (low k ^ 20 <= 10 ^ (360 + N.of_nat k) < high k ^ 20)%N.
Proof.
  intros k. unfold low, high. pose proof (decade_is (k mod 20) (Nat.mod_upper_bound k 20 ltac:(lia))) as (A & B).
  assert (10 ^ (360 + N.of_nat k) = 10 ^ (360 + N.of_nat (k mod 20)) * (10 ^ N.of_nat (k / 20)) ^ 20)%N as ->.
  { rewrite <- N.pow_mul_r, <- N.pow_add_r. f_equal. pose proof (Nat.div_mod_eq k 20). lia. }
  pose proof (N.pow_nonzero (10 ^ N.of_nat (k / 20)) 20 ltac:(apply N.pow_nonzero; lia)).
  rewrite !N.pow_mul_l. split.
  - apply N.mul_le_mono_r. exact A.
  - apply N.mul_lt_mono_pos_r; [lia|]. exact B.
Qed.

Definition q47 : N := (2 ^ 47)%N.
Definition root_ok (k : nat) : bool :=
  (((root k * 10 ^ 18 * q47 <=? low k * (q47 - 1)) ||
    ((k mod 20 =? 0)%nat && (root k =? 10 ^ N.of_nat (k / 20)))) &&
   (high k * (q47 + 1) <? (root k + 1) * 10 ^ 18 * q47))%N.

Lemma roots_ok : forallb root_ok (seq 0 241) = true.
Proof. vm_compute. reflexivity. Qed.

Lemma root_is : forall k, (k <= 240)%nat -> root_ok k = true.
Proof. intros k H. apply (proj1 (forallb_forall _ _) roots_ok). apply in_seq. lia. Qed.

Lemma pow_lt_inv : forall a b n, (a ^ n < b ^ n)%N -> (a < b)%N.
Proof. intros a b n H. destruct (N.lt_ge_cases a b); auto. pose proof (N.pow_le_mono_l b a n H0). lia. Qed.

Lemma floor_root_mono : forall k k' m m', (k <= k')%nat -> is_floor_root k m -> is_floor_root k' m' -> (m <= m')%N.
Proof.
  intros k k' m m' H (A & _) (_ & B). assert (m < m' + 1)%N; [|lia]. apply (pow_lt_inv _ _ 20).
  pose proof (N.pow_le_mono_r 10 (N.of_nat k) (N.of_nat k') ltac:(lia) ltac:(lia)). lia.
Qed.

Lemma floor_root_unique : forall k m m', is_floor_root k m -> is_floor_root k m' -> m = m'.
Proof. intros k m m' A B. pose proof (floor_root_mono k k m m' (le_n _) A B). pose proof (floor_root_mono k k m' m (le_n _) B A). lia. Qed.

Lemma floor_root_20 : forall k m m', is_floor_root k m -> is_floor_root (k + 20) m' -> (10 * m <= m')%N.
Proof.
  intros k m m' (A & _) (_ & B). assert (10 * m < m' + 1)%N; [|lia]. apply (pow_lt_inv _ _ 20).
  rewrite N.pow_mul_l. eapply N.le_lt_trans; [apply N.mul_le_mono_l, A|].
  replace (N.of_nat (k + 20)) with (20 + N.of_nat k)%N in B by lia. rewrite N.pow_add_r in B. exact B.
Qed.

Lemma floor_root_pos : forall k m, is_floor_root k m -> (1 <= m)%N.
Proof.
  intros k m (_ & B). assert (0 < m)%N; [|lia]. destruct (N.eq_dec m 0) as [->|]; [|lia].
  pose proof (N.pow_nonzero 10 (N.of_nat k) ltac:(lia)). change ((0 + 1) ^ 20)%N with 1%N in B. lia.
Qed.

Lemma root_floor : forall k, (k <= 240)%nat -> is_floor_root k (root k).
Proof.
  intros k H. pose proof (root_is k H) as R. unfold root_ok in R. apply andb_prop in R. destruct R as (_ & R).
  apply N.ltb_lt in R. pose proof (low_high k) as (A & B).
  assert (0 < q47)%N by reflexivity.
  assert (high k < (root k + 1) * 10 ^ 18)%N as R2.
  { apply (N.mul_lt_mono_pos_r q47); auto. eapply N.le_lt_trans; [|exact R]. apply N.mul_le_mono_l. lia. }
  assert (root k * 10 ^ 18 <= low k)%N as R1.
  { unfold root. rewrite N.mul_comm. apply N.mul_div_le. discriminate. }
  assert (10 ^ (360 + N.of_nat k) = 10 ^ N.of_nat k * (10 ^ 18) ^ 20)%N as E.
  { rewrite <- N.pow_mul_r, <- N.pow_add_r. f_equal. lia. }
  assert (0 < (10 ^ 18) ^ 20)%N as P by reflexivity.
  split.
  - apply (N.mul_le_mono_pos_r _ _ ((10 ^ 18) ^ 20)); auto. rewrite <- E, <- N.pow_mul_l.
    eapply N.le_trans; [|exact A]. now apply N.pow_le_mono_l.
  - apply (N.mul_lt_mono_pos_r ((10 ^ 18) ^ 20)); auto. rewrite <- E, <- N.pow_mul_l.
    eapply N.lt_le_trans; [exact B|]. apply N.pow_le_mono_l. lia.
Qed.

Lemma root_0 : root 0 = 1%N.
Proof. vm_compute. reflexivity. Qed.

Lemma root_220 : root 220 = (10 ^ 11)%N.
Proof. vm_compute. reflexivity. Qed.

(** ** The first trigger *)
Section First.
Variable pow10 : double -> double.
Variable T : nat -> N.
Variable K : nat.
Hypothesis HT : forall k, (k <= K)%nat -> first_value pow10 20 k = Ok (T k).
Hypothesis T0 : T 0 = 1%N.
Hypothesis Tmono : forall k k', (k <= k' <= K)%nat -> (T k <= T k')%N.
Hypothesis Tgrow : forall k, (k + 20 <= K)%nat -> (T k < T (k + 20))%N.

Lemma first_loop_ok : forall d fuel v e, (d < fuel)%nat -> (e + d <= K)%nat -> (v < T (e + d))%N ->
  exists e', first_loop pow10 fuel 20 v e = Ok e' /\ (e <= e' <= K)%nat /\ (v < T e')%N /\
    forall k, (e <= k < e')%nat -> (T k <= v)%N.
Proof.
  induction d as [|d IH]; intros [|fuel] v e Hf Hk Hv; try lia; cbn [first_loop]; rewrite HT by lia; cbn [bind].
  - rewrite Nat.add_0_r in Hv. destruct (N.leb_spec (T e) v); [lia|]. exists e. repeat split; auto; lia.
  - destruct (N.leb_spec (T e) v) as [L|L].
    + destruct (IH fuel v (S e)) as (e' & E & B & V & A); [lia|lia| |].
      { replace (S e + d)%nat with (e + S d)%nat by lia. exact Hv. }
      exists e'. split; auto. split; [lia|]. split; auto. intros k Hk2.
      destruct (Nat.eq_dec k e) as [->|]; auto. apply A. lia.
    + exists e. repeat split; auto; lia.
Qed.

Definition inv1 (i : N) (ev : evaluations) : Prop :=
  ev_triggers ev = 20%N /\ (ev_exponent1 ev <= K)%nat /\ ev_value1 ev = T (ev_exponent1 ev) /\ (i <= ev_value1 ev)%N /\
  forall k, (k < ev_exponent1 ev)%nat -> (T k < i)%N.

Definition same2 (a b : evaluations) : Prop :=
  ev_value2 a = ev_value2 b /\ ev_exponent2 a = ev_exponent2 b /\ ev_base a = ev_base b /\
  ev_index a = ev_index b /\ ev_dimension a = ev_dimension b.

Lemma first_step : forall i ev, (20 <= K)%nat -> (i < T (K - 20))%N -> inv1 i ev ->
  exists b ev', trigger_first pow10 ev i = Ok (b, ev') /\ inv1 (i + 1) ev' /\ same2 ev' ev /\
    (b = true <-> exists k, (k <= K)%nat /\ T k = i).
Proof.
  intros i ev HK Hi (E0 & E1 & E2 & E3 & E4). unfold trigger_first.
  destruct (N.leb_spec (ev_value1 ev) i) as [L|L].
  - assert (T (ev_exponent1 ev) = i) as Ei by lia.
    assert (ev_exponent1 ev < K - 20)%nat as Hk.
    { destruct (Nat.lt_ge_cases (ev_exponent1 ev) (K - 20)); auto.
      pose proof (Tmono (K - 20) (ev_exponent1 ev) ltac:(lia)). lia. }
    rewrite E0. destruct (first_loop_ok 20 1000 (ev_value1 ev) (ev_exponent1 ev)) as (e' & E & B & V & A); try lia.
    { rewrite E2. apply Tgrow. lia. }
    rewrite E. cbn [bind]. rewrite HT by lia. cbn [bind]. eexists true, _. split; [reflexivity|].
    split; [|split; [repeat split|]].
    + unfold inv1. cbn [ev_triggers ev_exponent1 ev_value1]. repeat split; auto; try lia.
      intros k Hk2. destruct (Nat.lt_ge_cases k (ev_exponent1 ev)).
      * specialize (E4 k H). lia.
      * specialize (A k ltac:(lia)). lia.
    + split; auto. intros _. exists (ev_exponent1 ev). split; [lia|auto].
  - exists false, ev. split; [reflexivity|]. split; [|split; [repeat split|]].
    + repeat split; auto; try lia. intros k Hk. specialize (E4 k Hk). lia.
    + split; [intros Q; discriminate Q|]. intros (k & Hk & Ek). exfalso.
      destruct (Nat.lt_ge_cases k (ev_exponent1 ev)).
      * specialize (E4 k H). lia.
      * pose proof (Tmono (ev_exponent1 ev) k ltac:(lia)). lia.
Qed.
End First.

(** ** The values of the first trigger *)
Lemma ln10_3 : ln 10 < 3.
Proof.
  apply Rlt_le_trans with (ln (exp 3)); [|rewrite ln_exp; lra]. apply ln_increasing; [lra|].
  replace 3 with (/ 4 + (/ 4 + (/ 4 + (/ 4 + (/ 4 + (/ 4 + (/ 4 + (/ 4 + (/ 4 + (/ 4 + (/ 4 + / 4))))))))))) by field.
  rewrite !exp_plus. pose proof (exp_ineq1 (/ 4) ltac:(lra)) as H. set (x := exp (/ 4)) in *.
  assert (5 / 4 < x) by lra. clearbody x.
  assert (forall y z, 0 < z -> z < y -> 5 / 4 * z < x * y) as M by (intros; nra).
  apply Rlt_trans with (5 / 4 * (5 / 4 * (5 / 4 * (5 / 4 * (5 / 4 * (5 / 4 * (5 / 4 * (5 / 4 * (5 / 4 * (5 / 4 * (5 / 4 * (5 / 4)))))))))))); [lra|].
  repeat (apply M; [lra|]). lra.
Qed.

Lemma exp_small : forall h, Rabs h <= / 10 -> Rabs (exp h - 1) <= 10 / 9 * Rabs h.
Proof.
  intros h H. apply Rabs_le_inv in H.
  assert (1 + h <= exp h) as A.
  { destruct (Req_dec h 0) as [->|N]; [rewrite exp_0; lra|]. apply Rlt_le, exp_ineq1; auto. }
  assert (1 - h <= exp (- h)) as B.
  { destruct (Req_dec h 0) as [->|N]; [rewrite Ropp_0, exp_0; lra|]. pose proof (exp_ineq1 (- h) ltac:(lra)). lra. }
  rewrite exp_Ropp in B. pose proof (exp_pos h) as P.
  assert ((1 - h) * exp h <= 1) as C.
  { apply Rmult_le_compat_r with (r := exp h) in B; [|lra]. rewrite Rinv_l in B by lra. exact B. }
  apply Rabs_le. unfold Rabs. destruct Rcase_abs; split; nra.
Qed.

Lemma pow10_near : forall pow10 k, pow10_accurate pow10 -> (k <= 240)%nat ->
  let y := ddiv (dint (Z.of_nat k)) (dint 20) in let r := Rpower 10 (INR k / 20) in
  fin (pow10 y) /\ Rabs (val (pow10 y) - r) <= bpow radix2 (-47) * r.
Proof.
  intros pow10 k (HA & _) Hk y r.
  destruct (dint_val (Z.of_nat k)) as (Fk & Vk); [lia|]. destruct (dint_val 20) as (F20 & V20); [lia|].
  destruct (ddiv_val _ _ Fk ltac:(rewrite V20; lra) F20) as (Ny & Vy). rewrite Vk, V20 in Vy. fold y in Ny, Vy.
  rewrite <- INR_IZR_INZ in Vy. set (x := INR k / 20) in *.
  assert (0 <= x <= 12) as Bx.
  { unfold x. pose proof (pos_INR k). apply le_INR in Hk. change (INR 240) with (INR (24 * 10)) in Hk.
    rewrite mult_INR in Hk. simpl in Hk. lra. }
  pose proof (rnd_err x) as E. rewrite (Rabs_pos_eq x) in E by lra.
  set (u := bpow radix2 (-53)) in *. assert (0 < u) as U0 by apply bpow_gt_0.
  assert (u <= / 1000000) as U1 by (unfold u; simpl; lra).
  assert (bpow radix2 (-1075) <= u) as Ue by (apply bpow_le; lia).
  assert (Rabs (rnd x - x) <= 13 * u) as E2 by nra. apply Rabs_le_inv in E2.
  assert (0 <= rnd x) as R0 by (rewrite <- rnd_0; apply rnd_mono; lra).
  assert (val y = rnd x) as V.
  { rewrite Vy. apply clamp_id. rewrite Rabs_pos_eq by lra. apply Rle_trans with (bpow radix2 10); [simpl; lra|].
    apply bpow_le. lia. }
  assert (fin y) as Fy.
  { apply fin_val; auto. rewrite V. assert (bpow radix2 10 < big) by (apply bpow_lt; lia).
    assert (rnd x < bpow radix2 10) by (simpl; lra). pose proof big_pos. lra. }
  destruct (HA y Fy) as (Fp & Ep); [rewrite V; lra|]. split; auto. rewrite V in Ep.
  assert (Rpower 10 (rnd x) = r * exp ((rnd x - x) * ln 10)) as Er.
  { unfold r, Rpower. rewrite <- exp_plus. f_equal. ring. }
  set (h := (rnd x - x) * ln 10) in *. pose proof ln10_3 as L3. pose proof ln10_pos as L1.
  assert (Rabs h <= 39 * u) as Hh.
  { unfold h. rewrite Rabs_mult, (Rabs_pos_eq (ln 10)) by lra. assert (Rabs (rnd x - x) <= 13 * u) by (apply Rabs_le; lra).
    pose proof (Rabs_pos (rnd x - x)). nra. }
  pose proof (exp_small h ltac:(lra)) as Eh.
  rewrite Er in Ep. assert (0 < r) as Rp by apply exp_pos.
  assert (bpow radix2 (-51) = 4 * u) as U51.
  { unfold u. replace 4 with (bpow radix2 2) by reflexivity. now rewrite <- bpow_plus. }
  assert (bpow radix2 (-47) = 64 * u * 1) as U47.
  { unfold u. replace 64 with (bpow radix2 6) by reflexivity. rewrite Rmult_1_r. now rewrite <- bpow_plus. }
  rewrite U51 in Ep. apply Rabs_le_inv in Eh. apply Rabs_le_inv in Ep. apply Rabs_le.
  assert (- (44 * u) <= exp h - 1 <= 44 * u) as Eh2 by lra.
  revert Ep. set (c := val (pow10 y)). generalize (exp h) Eh2. intros e B Ep.
  assert (- (44 * u * r) <= r * (e - 1) <= 44 * u * r) as B2 by nra.
  assert (0 <= r * e <= 2 * r) as B3 by nra.
  assert (0 <= u * (r * e) <= u * (2 * r)) as B4 by nra.
  assert (0 <= u * r) by nra. rewrite U47. lra.
Qed.

Lemma pow20_le_inv : forall a b, 0 <= b -> a ^ 20 <= b ^ 20 -> a <= b.
Proof.
  intros a b H0 H. destruct (Rle_or_lt a b) as [|L]; auto. exfalso.
  assert (b ^ 20 < a ^ 20); [|lra]. generalize 19%nat. intros n. induction n as [|n IH]; [simpl; lra|].
  change (b * b ^ S n < a * a ^ S n). apply Rmult_le_0_lt_compat; auto. apply pow_le. auto.
Qed.

Lemma IZR_N_pow : forall a n, IZR (Z.of_N (a ^ N.of_nat n)) = IZR (Z.of_N a) ^ n.
Proof. intros. rewrite N2Z.inj_pow, nat_N_Z, pow_IZR. reflexivity. Qed.

(** 10^(k/20) between the integers [low] and [high], scaled *)
Lemma target_low_high : forall k, let r := Rpower 10 (INR k / 20) in
  IZR (Z.of_N (low k)) <= r * IZR (10 ^ 18) <= IZR (Z.of_N (high k)).
Proof.
  intros k r. destruct (low_high k) as (A & B). assert (0 < r) as Rp by apply exp_pos.
  assert ((r * IZR (10 ^ 18)) ^ 20 = IZR (Z.of_N (10 ^ (360 + N.of_nat k)))) as E.
  { replace (360 + N.of_nat k)%N with (N.of_nat (k + 18 * 20)) by lia. rewrite IZR_N_pow, pow_add, pow_mult.
    rewrite Rpow_mult_distr. replace (IZR (Z.of_N 10) ^ 18) with (IZR (10 ^ 18)) by (rewrite pow_IZR; reflexivity).
    f_equal. unfold r. rewrite <- Rpower_pow by apply exp_pos. rewrite Rpower_mult.
    replace (INR k / 20 * INR 20) with (INR k) by (simpl; field). rewrite Rpower_pow by lra. reflexivity. }
  assert (0 <= r * IZR (10 ^ 18)) as P by (apply Rmult_le_pos; [lra|apply IZR_le; lia]).
  split; apply pow20_le_inv; auto.
  - rewrite E, <- IZR_N_pow. apply IZR_le. change (N.of_nat 20) with 20%N. lia.
  - apply IZR_le. lia.
  - rewrite E, <- IZR_N_pow. apply IZR_le. change (N.of_nat 20) with 20%N. lia.
Qed.

Lemma rnd_half_int : forall z, (0 <= z < 2 ^ 52)%Z -> rnd (IZR z + / 2) = IZR z + / 2.
Proof.
  intros z H. apply round_generic; [auto with typeclass_instances|].
  apply generic_format_FLT. exists (Float radix2 (2 * z + 1) (-1)).
  - unfold F2R. cbn [Fnum Fexp]. replace (bpow radix2 (-1)) with (/ 2) by reflexivity.
    rewrite plus_IZR, mult_IZR. field.
  - cbn [Fnum]. change (Zpower radix2 53) with (2 * 2 ^ 52)%Z. lia.
  - simpl. lia.
Qed.

Lemma to_size_t_int : forall x z, fin x -> (0 <= z < 2 ^ 52)%Z -> val x = IZR z ->
  coco_double_to_size_t x = Ok (Z.to_N z).
Proof.
  intros x z F Hz V. unfold coco_double_to_size_t. destruct (round_half x F) as (k & F2 & V2 & Ek & _).
  rewrite V, rnd_half_int in Ek by auto. rewrite (Zfloor_imp z) in Ek by (rewrite plus_IZR; lra). subst k.
  unfold to_size_t. red in F2. rewrite F2.
  assert (Btrunc (coco_double_round x) = z) as ->.
  { apply eq_IZR. rewrite Btrunc_correct, round_FIX by reflexivity. f_equal. rewrite <- (val_fin _ F2), V2. apply Ztrunc_IZR. }
  destruct (Z.leb_spec 0 z); [|lia]. destruct (Z.ltb_spec z (2 ^ 64)); [reflexivity|lia].
Qed.

Lemma first_value_ok : forall pow10 k, pow10_accurate pow10 -> (k <= 240)%nat ->
  first_value pow10 20 k = Ok (root k).
Proof.
  intros pow10 k HA Hk. unfold first_value. change (Z.of_N 20) with 20%Z.
  destruct (pow10_near pow10 k HA Hk) as (Fx & Ex). set (y := ddiv (dint (Z.of_nat k)) (dint 20)) in *.
  destruct (target_low_high k) as (TL & TH). set (r := Rpower 10 (INR k / 20)) in *.
  pose proof (root_is k Hk) as R. unfold root_ok in R. apply andb_prop in R. destruct R as (R1 & R2).
  apply N.ltb_lt in R2. assert (0 < r) as Rp by apply exp_pos.
  pose proof (proj1 (root_floor k Hk)) as RF.
  assert (root k < 2 ^ 52)%N as Rb.
  { assert (root k <= root 240)%N by (apply (floor_root_mono k 240); auto using root_floor).
    assert (root 240 < 2 ^ 52)%N by (vm_compute; reflexivity). lia. }
  assert (IZR (Z.of_N q47) * bpow radix2 (-47) = 1) as Eq.
  { replace (IZR (Z.of_N q47)) with (bpow radix2 47) by reflexivity. now rewrite <- bpow_plus. }
  set (Q := IZR (Z.of_N q47)) in *. assert (2 <= Q) as Qp by (unfold Q; apply IZR_le; vm_compute; discriminate).
  set (e := bpow radix2 (-47)) in *. set (D := IZR (10 ^ 18)) in *.
  assert (0 < D) as Dp by (unfold D; apply IZR_lt; lia).
  set (m := IZR (Z.of_N (root k))).
  assert (IZR (Z.of_N (high k)) * (Q + 1) < (m + 1) * D * Q) as H2.
  { unfold Q, m, D. change (10 ^ 18)%Z with (Z.of_N (10 ^ 18)). rewrite <- !plus_IZR, <- !mult_IZR. apply IZR_lt. lia. }
  apply Rabs_le_inv in Ex. set (c := val (pow10 y)) in *.
  assert (r * (Q + 1) < (m + 1) * Q) as H3.
  { apply Rmult_lt_reg_r with D; auto. apply Rle_lt_trans with (IZR (Z.of_N (high k)) * (Q + 1)); [|lra].
    replace (r * (Q + 1) * D) with (r * D * (Q + 1)) by ring. apply Rmult_le_compat_r; lra. }
  assert (c * Q <= r * (Q + 1)) as H4.
  { apply Rle_trans with ((r + e * r) * Q); [apply Rmult_le_compat_r; lra|].
    replace ((r + e * r) * Q) with (r * Q + r * (Q * e)) by ring. rewrite Eq. lra. }
  assert (c < m + 1) as H5 by (apply Rmult_lt_reg_r with Q; lra).
  assert (m <= c) as H6.
  { apply orb_prop in R1. destruct R1 as [R1|R1].
    - apply N.leb_le in R1.
      assert (m * D * Q <= IZR (Z.of_N (low k)) * (Q - 1)) as H7.
      { unfold Q, m, D. change (10 ^ 18)%Z with (Z.of_N (10 ^ 18)). rewrite <- minus_IZR, <- !mult_IZR. apply IZR_le.
        assert (1 <= q47)%N as Q1 by (vm_compute; discriminate). apply N2Z.inj_le in R1.
        rewrite !N2Z.inj_mul, N2Z.inj_sub in R1 by exact Q1. exact R1. }
      assert (m * Q <= r * (Q - 1)) as H8.
      { apply Rmult_le_reg_r with D; auto. apply Rle_trans with (IZR (Z.of_N (low k)) * (Q - 1)); [lra|].
        replace (r * (Q - 1) * D) with (r * D * (Q - 1)) by ring. apply Rmult_le_compat_r; lra. }
      assert (r * (Q - 1) <= c * Q) as H9.
      { apply Rle_trans with ((r - e * r) * Q); [|apply Rmult_le_compat_r; lra].
        replace ((r - e * r) * Q) with (r * Q - r * (Q * e)) by ring. rewrite Eq. lra. }
      apply Rmult_le_reg_r with Q; lra.
    - apply andb_prop in R1. destruct R1 as (M & E). apply Nat.eqb_eq in M. apply N.eqb_eq in E.
      assert (fin y /\ val y = IZR (Z.of_nat (k / 20))) as (Fy & Vy).
      { destruct (dint_val (Z.of_nat k)) as (Fk & Vk); [lia|]. destruct (dint_val 20) as (F20 & V20); [lia|].
        destruct (ddiv_val _ _ Fk ltac:(rewrite V20; lra) F20) as (Ny & Vy). rewrite Vk, V20 in Vy. fold y in Ny, Vy.
        pose proof (Nat.div_mod_eq k 20) as DM. rewrite M, Nat.add_0_r in DM.
        replace (IZR (Z.of_nat k) / 20) with (IZR (Z.of_nat (k / 20))) in Vy.
        2:{ rewrite DM at 2. rewrite Nat2Z.inj_mul, mult_IZR. change (IZR (Z.of_nat 20)) with 20. field. }
        assert (Z.abs (Z.of_nat (k / 20)) <= 12)%Z as B by lia.
        assert (Rabs (IZR (Z.of_nat (k / 20))) < big) as Bb.
        { rewrite <- abs_IZR. apply Rle_lt_trans with 12; [now apply IZR_le|].
          apply Rlt_trans with (bpow radix2 4); [simpl; lra|]. apply bpow_lt. lia. }
        rewrite rnd_int, clamp_id in Vy by (try lia; apply Rlt_le, Bb).
        split; auto. apply fin_val; auto. rewrite Vy. now apply Rabs_lt_inv. }
      destruct HA as (_ & HE). unfold c. rewrite (HE y _ Fy Vy) by lia. unfold m. rewrite E.
      rewrite N2Z.inj_pow, nat_N_Z. apply Rle_refl. }
  destruct (dfloor_fin _ Fx) as (F1 & V1). fold c in V1.
  rewrite (Zfloor_imp (Z.of_N (root k))) in V1 by (rewrite plus_IZR; fold m; lra).
  rewrite (to_size_t_int _ (Z.of_N (root k)) F1); auto; [|lia]. now rewrite N2Z.id.
Qed.

(** ** The second trigger *)
Section Second.
Variable pow10 : double -> double.
Hypothesis HA : pow10_accurate pow10.
Variable bases : list N.
Hypothesis HB : within_decade bases.
Variable dim : N.
Hypothesis Hd : (1 <= dim)%N.

Definition U (b : N) (e : nat) : N := (b * dim * 10 ^ N.of_nat e)%N.

Lemma second_value : forall b e, (0 < b)%N -> (U b e < 2 ^ 52)%N ->
  coco_double_to_size_t (dmul (dmul (pow10 (dint (Z.of_nat e))) (dint (Z.of_N dim))) (dint (Z.of_N b))) = Ok (U b e).
Proof.
  intros b e Hb HU. unfold U in *.
  assert (0 < 10 ^ N.of_nat e)%N as Hp by (pose proof (N.pow_nonzero 10 (N.of_nat e)); lia).
  assert (10 ^ N.of_nat e * dim < 2 ^ 52)%N as B1 by nia.
  assert (10 ^ N.of_nat e < 2 ^ 52)%N as B2 by nia.
  assert (dim < 2 ^ 52)%N as B3 by nia. assert (b < 2 ^ 52)%N as B4 by nia.
  assert (e <= 22)%nat as He.
  { destruct (Nat.le_gt_cases e 22) as [|L]; auto. exfalso.
    pose proof (N.pow_le_mono_r 10 23 (N.of_nat e) ltac:(lia) ltac:(lia)) as K.
    change (2 ^ 52)%N with 4503599627370496%N in *. change (10 ^ 23)%N with 100000000000000000000000%N in K. lia. }
  assert (forall z, (0 <= z < 2 ^ 52)%Z -> Rabs (IZR z) < big) as Bb.
  { intros z Hz. rewrite Rabs_pos_eq by (apply IZR_le; lia). apply Rlt_trans with (IZR (2 ^ 52)); [apply IZR_lt; lia|].
    replace (IZR (2 ^ 52)) with (bpow radix2 52) by reflexivity. apply bpow_lt. lia. }
  assert (forall x y i j, fin x -> fin y -> val x = IZR i -> val y = IZR j -> (0 <= i * j < 2 ^ 52)%Z ->
            fin (dmul x y) /\ val (dmul x y) = IZR (i * j)) as MI.
  { intros x y i j Fx Fy Vx Vy Hij. destruct (dmul_val x y Fx Fy) as (N1 & V1).
    rewrite Vx, Vy, <- mult_IZR, rnd_int, clamp_id in V1 by (try lia; apply Rlt_le, Bb; lia).
    split; auto. apply fin_val; auto. rewrite V1. apply Rabs_lt_inv, Bb. lia. }
  destruct (dint_val (Z.of_nat e)) as (Fe & Ve); [lia|]. destruct (dint_val (Z.of_N dim)) as (Fd & Vd); [lia|].
  destruct (dint_val (Z.of_N b)) as (Fb & Vb); [lia|].
  destruct HA as (HA1 & HA2). destruct (HA1 _ Fe) as (F1 & _).
  { rewrite Ve. split; apply IZR_le; lia. }
  pose proof (HA2 _ _ Fe Ve ltac:(lia)) as V1.
  assert (10 ^ Z.of_nat e = Z.of_N (10 ^ N.of_nat e))%Z as Ez by (rewrite N2Z.inj_pow, nat_N_Z; reflexivity).
  rewrite Ez in V1.
  destruct (MI _ _ _ _ F1 Fd V1 Vd) as (F2 & V2); [lia|].
  destruct (MI _ _ _ _ F2 Fb V2 Vb) as (F3 & V3); [lia|].
  rewrite (to_size_t_int _ _ F3) with (2 := V3) by lia. f_equal. lia.
Qed.

Definition inv2 (i : N) (ev : evaluations) : Prop :=
  ev_base ev = bases /\ ev_dimension ev = dim /\
  exists b, nth_error bases (ev_index ev) = Some b /\ ev_value2 ev = U b (ev_exponent2 ev) /\ (i <= ev_value2 ev)%N /\
    (forall j e b', nth_error bases j = Some b' -> (e < ev_exponent2 ev)%nat \/ e = ev_exponent2 ev /\ (j < ev_index ev)%nat ->
       (U b' e < i)%N).

Definition same1 (a b : evaluations) : Prop :=
  ev_value1 a = ev_value1 b /\ ev_exponent1 a = ev_exponent1 b /\ ev_triggers a = ev_triggers b.

Lemma U_decade : forall b b' e, In b bases -> In b' bases -> (U b' e < U b (S e))%N.
Proof.
  intros b b' e I I'. destruct HB as (_ & H). destruct (H b b' I I') as (P & L). unfold U.
  replace (N.of_nat (S e)) with (1 + N.of_nat e)%N by lia. rewrite N.pow_add_r. change (10 ^ 1)%N with 10%N.
  pose proof (N.pow_nonzero 10 (N.of_nat e)). nia.
Qed.

Lemma U_later : forall b b' e e', In b bases -> In b' bases -> (e < e')%nat -> (U b e < U b' e')%N.
Proof.
  intros b b' e e' I I' H. induction H as [|e' H IH]; [now apply U_decade|].
  pose proof (U_decade b' b' e' I' I'). lia.
Qed.

Lemma U_index : forall i j b b' e, (i < j)%nat -> nth_error bases i = Some b -> nth_error bases j = Some b' -> (U b e < U b' e)%N.
Proof.
  intros i j b b' e H E E'. destruct HB as (S & _). pose proof (S i j b b' H E E'). unfold U.
  pose proof (N.pow_nonzero 10 (N.of_nat e) ltac:(lia)).
  apply N.mul_lt_mono_pos_r; [lia|]. apply N.mul_lt_mono_pos_r; lia.
Qed.

Lemma second_step : forall i ev, (10 * i < 2 ^ 52)%N -> inv2 i ev ->
  exists b ev', trigger_second pow10 ev i = Ok (b, ev') /\ inv2 (i + 1) ev' /\ same1 ev' ev /\
    (b = true <-> base_number dim bases i).
Proof.
  intros i ev Hi (E1 & E2 & b & Eb & Ev & Hle & Hpast). unfold trigger_second.
  pose proof (nth_error_In _ _ Eb) as Ib.
  assert (forall b', In b' bases -> (0 < b')%N) as Bpos by (intros b' I; now apply (proj2 HB b' b')).
  destruct (N.leb_spec (ev_value2 ev) i) as [L|L].
  - assert (U b (ev_exponent2 ev) = i) as Ei by lia. rewrite E1, E2.
    assert (forall j e, ((j, e) = if (ev_index ev <? length bases - 1)%nat
                  then (S (ev_index ev), ev_exponent2 ev) else (O, S (ev_exponent2 ev))) ->
      exists b', nth_error bases j = Some b' /\ (i < U b' e < 2 ^ 52)%N /\
        forall j' e' c, nth_error bases j' = Some c -> (e' < e)%nat \/ e' = e /\ (j' < j)%nat -> (U c e' < i + 1)%N) as Next.
    { intros j e. destruct (Nat.ltb_spec (ev_index ev) (length bases - 1)) as [C|C]; intros Q; injection Q as -> ->.
      - destruct (nth_error bases (S (ev_index ev))) as [b'|] eqn:Eb'.
        2:{ apply nth_error_None in Eb'. lia. }
        exists b'. split; auto. split.
        + split; [rewrite <- Ei; apply (U_index (ev_index ev) (S (ev_index ev))); auto|].
          pose proof (nth_error_In _ _ Eb') as Ib'. destruct HB as (_ & HB2). destruct (HB2 b b' Ib Ib').
          assert (U b' (ev_exponent2 ev) <= 10 * U b (ev_exponent2 ev))%N; [|lia]. unfold U. nia.
        + intros j' e' c Ec H. destruct H as [H|(-> & H)].
          * specialize (Hpast j' e' c Ec (or_introl H)). lia.
          * destruct (Nat.eq_dec j' (ev_index ev)) as [->|N].
            { assert (c = b) as -> by congruence. lia. }
            specialize (Hpast j' (ev_exponent2 ev) c Ec). lia.
      - destruct (nth_error bases 0) as [b'|] eqn:Eb'.
        2:{ apply nth_error_None in Eb'. apply nth_error_Some_lt in Eb. lia. }
        pose proof (nth_error_In _ _ Eb') as Ib'.
        exists b'. split; auto. split.
        + split; [rewrite <- Ei; now apply U_decade|].
          assert (b' <= b)%N.
          { destruct (ev_index ev) as [|x] eqn:Ex; [replace b' with b by congruence; lia|].
            destruct HB as (S & _). pose proof (S O (Datatypes.S x) b' b ltac:(lia) Eb' Eb). lia. }
          assert (U b' (S (ev_exponent2 ev)) <= 10 * U b (ev_exponent2 ev))%N; [|lia]. unfold U.
          replace (N.of_nat (S (ev_exponent2 ev))) with (1 + N.of_nat (ev_exponent2 ev))%N by lia. rewrite N.pow_add_r.
          change (10 ^ 1)%N with 10%N.
          assert (b' * dim * 10 ^ N.of_nat (ev_exponent2 ev) <= b * dim * 10 ^ N.of_nat (ev_exponent2 ev))%N; [|lia].
          apply N.mul_le_mono_r, N.mul_le_mono_r. auto.
        + intros j' e' c Ec H. destruct H as [H|(_ & H)]; [|lia].
          destruct (Nat.eq_dec e' (ev_exponent2 ev)) as [->|N].
          * pose proof (nth_error_Some_lt _ _ _ _ Eb). pose proof (nth_error_Some_lt _ _ _ _ Ec).
            destruct (Nat.eq_dec j' (ev_index ev)) as [->|N]; [assert (c = b) as -> by congruence; lia|].
            specialize (Hpast j' (ev_exponent2 ev) c Ec). lia.
          * specialize (Hpast j' e' c Ec). lia. }
    destruct (if (ev_index ev <? length bases - 1)%nat
                  then (S (ev_index ev), ev_exponent2 ev) else (O, S (ev_exponent2 ev))) as (j & e) eqn:Ej.
    destruct (Next j e eq_refl) as (b' & Eb' & (B1 & B2) & Past).
    unfold mget. rewrite Eb'. cbn [bind]. rewrite second_value by (auto; apply Bpos; eapply nth_error_In; eauto).
    cbn [bind]. eexists true, _. split; [reflexivity|]. split; [|split; [repeat split|]].
    + unfold inv2. cbn [ev_base ev_dimension ev_index ev_value2 ev_exponent2]. split; auto. split; auto.
      exists b'. repeat split; auto. lia.
    + split; auto. intros _. exists b, (N.of_nat (ev_exponent2 ev)). split; auto.
  - exists false, ev. split; [reflexivity|]. split; [|split; [repeat split|]].
    + split; auto. split; auto. exists b. repeat split; auto; try lia. intros j e b' Ec H. specialize (Hpast j e b' Ec H). lia.
    + split; [intros Q; discriminate Q|]. intros (b' & e & I & Ei). exfalso.
      destruct (In_nth_error _ _ I) as (j & Ej).
      assert (i = U b' (N.to_nat e)) as Ei' by (unfold U; rewrite N2Nat.id; exact Ei).
      destruct (Nat.lt_trichotomy (N.to_nat e) (ev_exponent2 ev)) as [H|[H|H]].
      * specialize (Hpast j (N.to_nat e) b' Ej). lia.
      * destruct (Nat.lt_trichotomy j (ev_index ev)) as [H'|[H'|H']].
        { specialize (Hpast j (N.to_nat e) b' Ej). lia. }
        { subst j. assert (b' = b) by congruence. subst b'. rewrite H in Ei'. lia. }
        { pose proof (U_index _ _ _ _ (N.to_nat e) H' Eb Ej). rewrite H in *. lia. }
      * pose proof (U_later b b' _ _ Ib I H). lia.
Qed.
End Second.

(** ** Both triggers *)
Lemma read_numbers_map : forall l rest, read_numbers (map Some l ++ rest) (length l) = Ok l.
Proof.
  induction l as [|a l IH]; intros rest; [destruct rest; reflexivity|].
  cbn [map app List.length read_numbers]. rewrite IH. reflexivity.
Qed.

Lemma evaluations_ok : forall s l dim, s <> [] -> range_string s -> range_denotes s 1 0 l ->
  (1 <= length l < 1000)%nat -> Forall (fun v => v <> 0%N) l ->
  exists first, nth_error l 0 = Some first /\
  coco_observer_evaluations s dim =
    Ok {| ev_value1 := 1; ev_exponent1 := 0; ev_triggers := 20;
          ev_value2 := ((dim * first) mod 2 ^ 64)%N; ev_exponent2 := 0;
          ev_base := l; ev_index := 0; ev_dimension := dim |}.
Proof.
  intros s l dim Hs Hr Hd Hl Hz. unfold coco_observer_evaluations.
  pose proof (parse_ranges_denotes s 1 0 COCO_MAX_EVALS_TO_LOG l Hs Hr (or_introl eq_refl) ltac:(unfold COCO_MAX_EVALS_TO_LOG; lia) Hd) as P.
  rewrite firstn_all2 in P by (unfold COCO_MAX_EVALS_TO_LOG; lia).
  destruct l as [|first l]; [simpl in Hl; lia|]. exists first. split; [reflexivity|].
  destruct P as (buf & E & H). rewrite E. cbn [bind].
  pose proof (count_numbers_spec buf (first :: l) _ COCO_MAX_EVALS_TO_LOG H Hz ltac:(unfold COCO_MAX_EVALS_TO_LOG; lia)) as C.
  destruct (Nat.eqb_spec (length (first :: l)) COCO_MAX_EVALS_TO_LOG) as [K|_]; [unfold COCO_MAX_EVALS_TO_LOG in K; lia|].
  rewrite C. cbn [bind]. destruct H as (_ & rest & ->). rewrite read_numbers_map. cbn [bind]. reflexivity.
Qed.

Lemma consult_evaluations : forall pow10 s l dim, pow10_accurate pow10 ->
  s <> [] -> range_string s -> range_denotes s 1 0 l -> (1 <= length l < 1000)%nat -> within_decade l ->
  (1 <= dim)%N -> (forall b, In b l -> (dim * b < 2 ^ 64)%N) ->
  exists ev, coco_observer_evaluations s dim = Ok ev /\
  forall m, (N.of_nat m < 10 ^ 11)%N ->
  exists bs ev', consult (evaluations_trigger pow10) ev (counts m) = Ok (bs, ev') /\ length bs = m /\
    forall i b, nth_error bs i = Some b ->
      (b = true <-> power_number (N.of_nat (i + 1)) \/ base_number dim l (N.of_nat (i + 1))).
Proof.
  intros pow10 s l dim HA Hs Hr Hd Hl HB Hdim Hfit.
  assert (Forall (fun v => v <> 0%N) l) as Hz.
  { apply Forall_forall. intros v I. pose proof (proj2 HB v v I I). lia. }
  destruct (evaluations_ok s l dim Hs Hr Hd Hl Hz) as (first & Ef & Ee). rewrite Ee. eexists. split; [reflexivity|].
  intros m Hm.
  assert (forall k, (k <= 240)%nat -> first_value pow10 20 k = Ok (root k)) as HT by (intros; now apply first_value_ok).
  assert (forall k k', (k <= k' <= 240)%nat -> (root k <= root k')%N) as Tm.
  { intros k k' H. apply (floor_root_mono k k'); try apply root_floor; lia. }
  assert (forall k, (k + 20 <= 240)%nat -> (root k < root (k + 20))%N) as Tg.
  { intros k H. pose proof (floor_root_20 k _ _ (root_floor k ltac:(lia)) (root_floor (k + 20) ltac:(lia))).
    pose proof (floor_root_pos k _ (root_floor k ltac:(lia))). lia. }
  destruct (consult_seq evaluations (evaluations_trigger pow10)
    (fun i ev => inv1 root 240 i ev /\ inv2 l dim i ev)
    (fun i => power_number i \/ base_number dim l i) (10 ^ 11 - 1)%N) with (m := m) (i := 1%nat)
    (s := {| ev_value1 := 1; ev_exponent1 := 0; ev_triggers := 20;
          ev_value2 := ((dim * first) mod 2 ^ 64)%N; ev_exponent2 := 0;
          ev_base := l; ev_index := 0; ev_dimension := dim |}) as (bs & ev' & E & _ & LB & M).
  - intros i ev Hi (I1 & I2). unfold evaluations_trigger.
    destruct (first_step pow10 root 240 HT root_0 Tm Tg i ev ltac:(lia)) as (b1 & ev1 & E1 & J1 & S1 & B1); auto.
    { change (240 - 20)%nat with 220%nat. rewrite root_220. lia. }
    rewrite E1. cbn [bind].
    assert (inv2 l dim i ev1) as I2'.
    { destruct S1 as (Q1 & Q2 & Q3 & Q4 & Q5). destruct I2 as (K1 & K2 & K3). unfold inv2. rewrite Q1, Q2, Q3, Q4, Q5. auto. }
    destruct (second_step pow10 HA l HB dim Hdim i ev1) as (b2 & ev2 & E2 & J2 & S2 & B2); auto.
    { change (2 ^ 52)%N with 4503599627370496%N. change (10 ^ 11)%N with 100000000000%N in Hi. lia. }
    rewrite E2. cbn [bind]. exists (b1 || b2), ev2. split; [reflexivity|]. split; [split; auto|].
    + destruct S2 as (Q1 & Q2 & Q3). destruct J1 as (K1 & K2 & K3 & K4 & K5). unfold inv1. rewrite Q1, Q2, Q3. auto.
    + rewrite orb_true_iff, B1, B2. split; intros [H|H]; auto; left.
      * destruct H as (k & Hk & Ek). exists k. subst i. now apply root_floor.
      * destruct H as (k & Hk). destruct (Nat.le_gt_cases k 220) as [L|L].
        { exists k. split; [lia|]. apply (floor_root_unique k); auto. apply root_floor. lia. }
        exfalso. pose proof (floor_root_mono 220 k _ _ ltac:(lia) (root_floor 220 ltac:(lia)) Hk) as K.
        rewrite root_220 in K. lia.
  - lia.
  - change (10 ^ 11)%N with 100000000000%N in *. lia.
  - split.
    + unfold inv1. cbn [ev_triggers ev_exponent1 ev_value1]. rewrite root_0. repeat split; auto; lia.
    + unfold inv2. cbn [ev_base ev_dimension ev_index ev_value2 ev_exponent2]. split; auto. split; auto. exists first.
      pose proof (nth_error_In _ _ Ef) as If. pose proof (Hfit first If) as K. rewrite N.mod_small by exact K.
      pose proof (proj1 (proj2 HB first first If If)) as Pf.
      unfold U. change (N.of_nat 0) with 0%N. rewrite N.pow_0_r. repeat split; auto; try lia.
  - exists bs, ev'. split; [exact E|]. split; auto. intros i b Eb. rewrite Nat.add_comm. now apply M.
Qed.

(** ** A pow that meets the assumptions *)
Definition rounded_pow10 (y : double) : double := nearest (Rpower 10 (val y)).

Lemma rounded_pow10_ok : pow10_accurate rounded_pow10.
Proof.
  assert (forall y, fin y -> 0 <= val y <= 300 ->
    fin (rounded_pow10 y) /\ val (rounded_pow10 y) = rnd (Rpower 10 (val y))) as V.
  { intros y F H. apply nearest_val. pose proof (pow10_le 0 (val y) ltac:(lra)) as L. rewrite Rpower_O in L by lra.
    pose proof (rnd_err (Rpower 10 (val y))) as E. set (r := Rpower 10 (val y)) in *.
    assert (r <= bpow radix2 1000) as U.
    { apply Rle_trans with (Rpower 10 300); [apply pow10_le; lra|].
      replace 300 with (INR 300) by (rewrite INR_IZR_INZ; reflexivity). rewrite Rpower_pow by lra.
      rewrite pow_IZR. rewrite <- (IZR_Zpower radix2) by lia. apply IZR_le. vm_compute. discriminate. }
    rewrite (Rabs_pos_eq r) in E by lra.
    assert (bpow radix2 (-53) <= 1) by (change 1 with (bpow radix2 0); apply bpow_le; lia).
    assert (bpow radix2 (-1075) <= 1) by (change 1 with (bpow radix2 0); apply bpow_le; lia).
    apply Rabs_le_inv in E. apply Rle_lt_trans with (4 * bpow radix2 1000).
    - apply Rabs_le. nra.
    - replace 4 with (bpow radix2 2) by reflexivity. rewrite <- bpow_plus. apply bpow_lt. lia. }
  split.
  - intros y F H. destruct (V y F H) as (F1 & ->). split; auto.
    pose proof (pow10_le 0 (val y) ltac:(lra)) as L. rewrite Rpower_O in L by lra.
    pose proof (rnd_err (Rpower 10 (val y))) as E. set (r := Rpower 10 (val y)) in *.
    rewrite (Rabs_pos_eq r) in E by lra. eapply Rle_trans; [exact E|].
    assert (bpow radix2 (-1075) <= bpow radix2 (-53)) by (apply bpow_le; lia).
    assert (bpow radix2 (-51) = 4 * bpow radix2 (-53)) as ->.
    { replace 4 with (bpow radix2 2) by reflexivity. now rewrite <- bpow_plus. }
    pose proof (bpow_gt_0 radix2 (-53)). nra.
  - intros y e F Vy He. assert (0 <= val y <= 300) as Hy by (rewrite Vy; split; apply IZR_le; lia).
    destruct (V y F Hy) as (_ & ->). rewrite Vy.
    replace (Rpower 10 (IZR e)) with (IZR (10 ^ e)).
    2:{ rewrite <- (Z2Nat.id e) by lia. rewrite <- pow_IZR, <- INR_IZR_INZ, Rpower_pow by lra. reflexivity. }
    apply round_generic; [auto with typeclass_instances|]. apply generic_format_FLT.
    exists (Float radix2 (5 ^ e) e).
    + unfold F2R. cbn [Fnum Fexp]. rewrite <- (IZR_Zpower radix2) by lia. rewrite <- mult_IZR. f_equal.
      change (Zpower radix2 e) with (2 ^ e)%Z. rewrite <- Z.pow_mul_l. reflexivity.
    + cbn [Fnum]. rewrite Z.abs_eq by (apply Z.pow_nonneg; lia). apply Z.le_lt_trans with (5 ^ 22)%Z.
      * apply Z.pow_le_mono_r; lia.
      * reflexivity.
    + cbn [Fexp]. lia.
Qed.

(** ** Skipped numbers *)
Fixpoint next_root (fuel : nat) (v : N) (e : nat) : option nat :=
  match fuel with
  | O => None
  | S f => if (240 <? e)%nat then None else if (root e <=? v)%N then next_root f v (S e) else Some e
  end.

Lemma first_loop_root : forall pow10, pow10_accurate pow10 -> forall fuel v e e',
  next_root fuel v e = Some e' -> first_loop pow10 fuel 20 v e = Ok e' /\ (e' <= 240)%nat.
Proof.
  intros pow10 HA. induction fuel as [|fuel IH]; intros v e e' H; [discriminate H|].
  cbn [next_root] in H. cbn [first_loop]. destruct (Nat.ltb_spec 240 e); [discriminate H|].
  rewrite first_value_ok by auto. cbn [bind]. destruct (root e <=? v)%N; [now apply IH|].
  injection H as <-. auto.
Qed.

Lemma trigger_skip : forall pow10 ev i e, pow10_accurate pow10 -> ev_triggers ev = 20%N ->
  (ev_value1 ev <= i < ev_value2 ev)%N -> next_root 1000 (ev_value1 ev) (ev_exponent1 ev) = Some e ->
  evaluations_trigger pow10 ev i = Ok (true,
    {| ev_value1 := root e; ev_exponent1 := e; ev_triggers := 20; ev_value2 := ev_value2 ev;
       ev_exponent2 := ev_exponent2 ev; ev_base := ev_base ev; ev_index := ev_index ev; ev_dimension := ev_dimension ev |}).
Proof.
  intros pow10 ev i e HA Ht Hi He. unfold evaluations_trigger, trigger_first.
  destruct (N.leb_spec (ev_value1 ev) i); [|lia]. rewrite Ht.
  destruct (first_loop_root pow10 HA 1000 _ _ _ He) as (-> & B). cbn [bind].
  rewrite first_value_ok by auto. cbn [bind]. unfold trigger_second. cbn [ev_value2].
  destruct (N.leb_spec (ev_value2 ev) i); [lia|]. reflexivity.
Qed.

Lemma denotes_125 : range_denotes (str "1,2,5"%string) 1 0 [1; 2; 5]%N.
Proof.
  exists [str "1"%string; str "2"%string; str "5"%string],
    [Interval (Some 1%N) (Some 1%N); Interval (Some 2%N) (Some 2%N); Interval (Some 5%N) (Some 5%N)].
  split; [|split; [|vm_compute; reflexivity]].
  - destruct (split_correct (str "1,2,5"%string) ","%char) as (toks & E & P).
    vm_compute in E. injection E as <-. exact P.
  - constructor; [|constructor; [|constructor; [|constructor]]].
    + apply (means_single (str "1"%string)); [easy|repeat constructor].
    + apply (means_single (str "2"%string)); [easy|repeat constructor].
    + apply (means_single (str "5"%string)); [easy|repeat constructor].
Qed.

Lemma fine_125 : str "1,2,5"%string <> [] /\ range_string (str "1,2,5"%string) /\ within_decade [1; 2; 5]%N.
Proof.
  split; [discriminate|]. split; [repeat constructor; (now left) || (right; (now left) || (right; reflexivity))|].
  split.
  - intros i j a b H A B. destruct i as [|[|[|i]]], j as [|[|[|j]]]; try lia; simpl in A, B;
      try (destruct i; discriminate A); try (destruct j; discriminate B); injection A as <-; injection B as <-; lia.
  - intros a b A B. simpl in A, B. lia.
Qed.

Lemma skipping : forall pow10, pow10_accurate pow10 ->
  exists ev ev', coco_observer_evaluations (str "1,2,5"%string) 40 = Ok ev /\
    consult (evaluations_trigger pow10) ev [1; 9; 13]%N = Ok ([true; true; true], ev').
Proof.
  intros pow10 HA. destruct fine_125 as (H1 & H2 & H3).
  destruct (evaluations_ok (str "1,2,5"%string) [1; 2; 5]%N 40 H1 H2 denotes_125 ltac:(simpl; lia)) as (first & Ef & Ee).
  { repeat constructor; discriminate. }
  injection Ef as <-. rewrite Ee. eexists. eexists. split; [reflexivity|]. cbn [consult].
  rewrite (trigger_skip pow10 _ 1 7 HA); [|reflexivity|vm_compute; split; [discriminate|reflexivity]|vm_compute; reflexivity].
  cbn [bind].
  rewrite (trigger_skip pow10 _ 9 10 HA); [|reflexivity|vm_compute; split; [discriminate|reflexivity]|vm_compute; reflexivity].
  cbn [bind].
  rewrite (trigger_skip pow10 _ 13 13 HA); [|reflexivity|vm_compute; split; [discriminate|reflexivity]|vm_compute; reflexivity].
  reflexivity.
Qed.

Lemma power_number_small : forall v, (v < 10 ^ 11)%N -> power_number v -> exists k, (k <= 220)%nat /\ root k = v.
Proof.
  intros v Hv (k & Hk). destruct (Nat.le_gt_cases k 220) as [L|L].
  - exists k. split; auto. apply (floor_root_unique k); auto. apply root_floor. lia.
  - exfalso. pose proof (floor_root_mono 220 k _ _ ltac:(lia) (root_floor 220 ltac:(lia)) Hk) as K.
    rewrite root_220 in K. lia.
Qed.

Lemma not_power_9_13 : ~ power_number 9 /\ ~ power_number 13.
Proof.
  assert (forallb (fun k => negb (root k =? 9)%N && negb (root k =? 13)%N) (seq 0 221) = true) as C by (vm_compute; reflexivity).
  split; intros H; apply power_number_small in H; try reflexivity; destruct H as (k & Hk & E);
    pose proof (proj1 (forallb_forall _ _) C k ltac:(apply in_seq; lia)) as K; cbv beta in K; rewrite E in K; discriminate K.
Qed.
