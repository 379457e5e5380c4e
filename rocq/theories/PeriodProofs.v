(** The period of the generator of Park and Miller. *)
From Coq Require Import List Arith ZArith Znumtheory Zpow_facts Bool Lia ZifyBool ZifyNat.
From Verif Require Import RandSpec.
Import ListNotations.
Open Scope Z_scope.

Fixpoint no_divisor (n : nat) (d m : Z) : bool :=
  match n with
  | O => true
  | S n' => negb (m mod d =? 0) && no_divisor n' (d + 1) m
  end.

Lemma no_divisor_spec : forall n d m, no_divisor n d m = true -> 0 < d -> forall k, d <= k < d + Z.of_nat n -> ~ (k | m).
Proof.
  induction n as [|n IH]; intros d m H P k Hk D; [lia|]. cbn [no_divisor] in H. apply andb_prop in H as [H1 H2].
  destruct (Z.eq_dec k d) as [->|Nk].
  - apply Z.mod_divide in D; [|lia]. rewrite D in H1. discriminate H1.
  - exact (IH (d + 1) m H2 ltac:(lia) k ltac:(lia) D).
Qed.

Lemma prime_check : forall m n, 1 < m -> m < (2 + Z.of_nat n) * (2 + Z.of_nat n) -> no_divisor n 2 m = true -> prime m.
Proof.
  intros m n H B C. apply prime_alt. split; [exact H|]. intros k Hk D. destruct D as [q Q].
  assert (N := no_divisor_spec n 2 m C ltac:(lia)).
  destruct (Z_lt_ge_dec k (2 + Z.of_nat n)) as [L|L].
  - apply (N k); [lia|]. exists q. exact Q.
  - assert (q < 2 + Z.of_nat n) by nia. assert (1 < q) by nia. apply (N q); [lia|]. exists k. lia.
Qed.

Lemma modulus_prime : prime lcg_modulus.
Proof. apply (prime_check lcg_modulus (Z.to_nat 46340)); [reflexivity|rewrite Z2Nat.id by lia; reflexivity|]. vm_compute. reflexivity. Qed.

Lemma small_primes : prime 2 /\ prime 3 /\ prime 7 /\ prime 11 /\ prime 31 /\ prime 151 /\ prime 331.
Proof.
  split; [exact prime_2|]. split; [exact prime_3|].
  split; [apply (prime_check _ 1); [reflexivity|reflexivity|vm_compute; reflexivity]|].
  split; [apply (prime_check _ 2); [reflexivity|reflexivity|vm_compute; reflexivity]|].
  split; [apply (prime_check _ 4); [reflexivity|reflexivity|vm_compute; reflexivity]|].
  split; [apply (prime_check _ 11); [reflexivity|reflexivity|vm_compute; reflexivity]|].
  apply (prime_check _ 17); [reflexivity|reflexivity|vm_compute; reflexivity].
Qed.

Lemma factors : lcg_modulus - 1 = 2 * (3 * (3 * (7 * (11 * (31 * (151 * 331)))))).
Proof. reflexivity. Qed.

Lemma divisor_factor : forall e, 1 < e -> (e | lcg_modulus - 1) ->
  exists q, In q [2; 3; 7; 11; 31; 151; 331] /\ (q | e).
Proof.
  intros e H D. destruct small_primes as [P2 [P3 [P7 [P11 [P31 [P151 P331]]]]]].
  destruct (Zdivide_dec 2 e) as [Y|N2]; [exists 2; split; [cbn; auto 10|exact Y]|].
  destruct (Zdivide_dec 3 e) as [Y|N3]; [exists 3; split; [cbn; auto 10|exact Y]|].
  destruct (Zdivide_dec 7 e) as [Y|N7]; [exists 7; split; [cbn; auto 10|exact Y]|].
  destruct (Zdivide_dec 11 e) as [Y|N11]; [exists 11; split; [cbn; auto 10|exact Y]|].
  destruct (Zdivide_dec 31 e) as [Y|N31]; [exists 31; split; [cbn; auto 10|exact Y]|].
  destruct (Zdivide_dec 151 e) as [Y|N151]; [exists 151; split; [cbn; auto 10|exact Y]|].
  destruct (Zdivide_dec 331 e) as [Y|N331]; [exists 331; split; [cbn; auto 10|exact Y]|].
  exfalso. assert (R : rel_prime e (lcg_modulus - 1)).
  { assert (C : forall p, prime p -> ~ (p | e) -> rel_prime e p) by (intros p Hp Hn; apply rel_prime_sym, prime_rel_prime; assumption).
    rewrite factors. repeat (apply rel_prime_mult; [apply C; assumption|]). apply C; assumption. }
  destruct R as [_ _ R]. specialize (R e (Z.divide_refl e) D). apply Z.divide_1_r_nonneg in R; lia.
Qed.

Definition is_one (k : Z) : Prop := 16807 ^ k mod lcg_modulus = 1.

Lemma one_add : forall a b, 0 <= a -> 0 <= b -> is_one a -> is_one b -> is_one (a + b).
Proof.
  unfold is_one. intros a b Ha Hb A B. rewrite Z.pow_add_r by assumption. rewrite Z.mul_mod by discriminate. rewrite A, B. reflexivity.
Qed.
Lemma one_cancel : forall a b, 0 <= a -> 0 <= b -> is_one (a + b) -> is_one b -> is_one a.
Proof.
  unfold is_one. intros a b Ha Hb A B. rewrite Z.pow_add_r in A by assumption. rewrite Z.mul_mod, B, Z.mul_1_r, Z.mod_mod in A by discriminate. exact A.
Qed.
Lemma one_mul : forall n a, 0 <= a -> is_one a -> is_one (Z.of_nat n * a).
Proof.
  induction n as [|n IH]; intros a Ha A; [reflexivity|]. replace (Z.of_nat (S n) * a) with (a + Z.of_nat n * a) by lia. apply one_add; [lia|nia|exact A|apply IH; assumption].
Qed.
Lemma one_mul' : forall n a, 0 <= n -> 0 <= a -> is_one a -> is_one (n * a).
Proof. intros n a Hn Ha A. rewrite <- (Z2Nat.id n) by exact Hn. apply one_mul; assumption. Qed.

Lemma one_full : is_one (lcg_modulus - 1).
Proof. unfold is_one. rewrite <- Zpow_mod_correct by discriminate. vm_compute. reflexivity. Qed.
Lemma one_not : forall q, In q [2; 3; 7; 11; 31; 151; 331] -> ~ is_one ((lcg_modulus - 1) / q).
Proof.
  intros q H K. unfold is_one in K. rewrite <- Zpow_mod_correct in K by discriminate.
  cbn in H. repeat (destruct H as [<-|H]; [vm_compute in K; discriminate K|]). destruct H.
Qed.

Lemma order : forall d, 0 < d -> is_one d -> (lcg_modulus - 1 | d).
Proof.
  intros d Hd O. set (m := lcg_modulus - 1). assert (Hm : 0 < m) by reflexivity.
  set (g := Z.gcd d m). assert (Gd : (g | d)) by apply Z.gcd_divide_l. assert (Gm : (g | m)) by apply Z.gcd_divide_r.
  assert (G0 : 0 < g) by (pose proof (Z.gcd_nonneg d m); destruct (Z.eq_dec g 0) as [E|E]; [apply Z.gcd_eq_0_l in E; lia|lia]).
  assert (Og : is_one g).
  { destruct (Z.gcd_bezout d m g eq_refl) as [u [v B]]. set (u' := u mod m).
    assert (U : 0 <= u' < m) by (apply Z.mod_pos_bound; exact Hm).
    assert (E : u' * d = g + (- v - u / m * d) * m) by (unfold u'; rewrite Z.mod_eq by lia; nia).
    set (w := - v - u / m * d) in *. clearbody w.
    assert (Ou : is_one (u' * d)) by (apply one_mul'; [lia|lia|exact O]).
    destruct (Z_le_gt_dec 0 w) as [W|W].
    - rewrite E in Ou. apply (one_cancel g (w * m)); [lia|nia|exact Ou|]. apply one_mul'; [exact W|lia|exact one_full].
    - assert (g <= d) by (apply Z.divide_pos_le; assumption).
      assert (g <= m) by (apply Z.divide_pos_le; assumption).
      assert (w = -1) by nia. assert (u' = 0 \/ 0 < u') as [Z0|Z0] by lia; [|nia]. replace g with m by nia. exact one_full. }
  destruct Gm as [e E]. destruct (Z_lt_ge_dec 1 e) as [L|L].
  - exfalso. destruct (divisor_factor e L) as [q [Hq [e' Q]]]; [exists g; fold m; lia|].
    assert (Pq : 1 < q) by (cbn in Hq; lia).
    apply (one_not q Hq). fold m. replace (m / q) with (e' * g); [apply one_mul'; [nia|lia|exact Og]|].
    rewrite E, Q. replace (e' * q * g) with (e' * g * q) by ring. symmetry. apply Z.div_mul. lia.
  - assert (e = 1) by nia. subst e. replace m with g by lia. exact Gd.
Qed.

(** Members of the sequence are different unless their positions differ by a multiple of the period. *)
Lemma lcg_nonzero : forall s k, ~ (lcg_modulus | s) -> lcg s k <> 0.
Proof.
  intros s k H E. unfold lcg in E. apply Z.mod_divide in E; [|discriminate]. apply prime_mult in E; [|exact modulus_prime].
  destruct E as [E|E]; [|contradiction].
  assert (D : (lcg_modulus | 7 ^ 5)); [|apply Z.mod_divide in D; [vm_compute in D; discriminate D|discriminate]].
  clear - E. induction k as [|k IH].
  - rewrite Z.pow_0_r in E. apply Z.divide_1_r_nonneg in E; [discriminate E|vm_compute; discriminate].
  - rewrite Nat2Z.inj_succ, Z.pow_succ_r in E by lia. apply prime_mult in E; [|exact modulus_prime]. destruct E as [E|E]; [exact E|exact (IH E)].
Qed.

Lemma lcg_distinct : forall s i j, ~ (lcg_modulus | s) -> (i < j)%nat -> Z.of_nat j - Z.of_nat i < lcg_modulus - 1 -> lcg s i <> lcg s j.
Proof.
  intros s i j H L B E. set (d := Z.of_nat j - Z.of_nat i). assert (O : is_one d).
  { unfold is_one. unfold lcg in E. change (7 ^ 5) with 16807 in E.
    replace (Z.of_nat j) with (d + Z.of_nat i) in E by lia. rewrite Z.pow_add_r in E by lia.
    assert (D : (lcg_modulus | 16807 ^ Z.of_nat i * s * (16807 ^ d - 1))).
    { apply Z.mod_divide; [discriminate|]. replace (16807 ^ Z.of_nat i * s * (16807 ^ d - 1)) with (16807 ^ d * 16807 ^ Z.of_nat i * s - 16807 ^ Z.of_nat i * s) by ring.
      rewrite Zminus_mod, <- E, Z.sub_diag. reflexivity. }
    apply prime_mult in D; [|exact modulus_prime]. destruct D as [D|D].
    - exfalso. apply (lcg_nonzero s i H). unfold lcg. change (7 ^ 5) with 16807. apply Z.mod_divide; [discriminate|exact D].
    - destruct D as [q D]. replace (16807 ^ d) with (1 + q * lcg_modulus) by lia. rewrite Z.mod_add by discriminate. reflexivity. }
  apply order in O; [|lia]. apply Z.divide_pos_le in O; lia.
Qed.

(** The sequence repeats after 2^31 - 2 members. *)
Lemma power_period : forall a m s k, m <> 0 -> 0 <= m - 1 -> a ^ (m - 1) mod m = 1 ->
  a ^ Z.of_nat (k + Z.to_nat (m - 1)) * s mod m = a ^ Z.of_nat k * s mod m.
Proof.
  intros a m s k Hm N O. rewrite Nat2Z.inj_add, Z2Nat.id by exact N. rewrite Z.pow_add_r by lia.
  set (P := a ^ (m - 1)) in *. set (K := a ^ Z.of_nat k). clearbody P K.
  replace (K * P * s) with (K * s * P) by ring. rewrite Z.mul_mod by exact Hm. rewrite O, Z.mul_1_r. apply Z.mod_mod. exact Hm.
Qed.
Lemma seven_fifth : 7 ^ 5 = 16807. Proof. reflexivity. Qed.
Lemma lcg_period : forall s k, lcg s (k + Z.to_nat (lcg_modulus - 1)) = lcg s k.
Proof.
  intros s k. unfold lcg. rewrite seven_fifth. apply power_period; [discriminate|vm_compute; discriminate|exact one_full].
Qed.
