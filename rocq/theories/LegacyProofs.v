From Coq Require Import List Arith NArith ZArith Znumtheory Reals Bool Lia Lra ZifyBool ZifyNat ZifyN.
From Flocq Require Import Core BinarySingleNaN.
From Verif Require Import CBase OptModel DblModel DblSpec DblProofs PairModel RandModel RandSpec RandProofs.
Import ListNotations.
Open Scope Z_scope.

(** * The legacy generator *)

(** Division in double and rounding down is integer division. *)
Lemma floor_quotient : forall s d, Z.abs s <= 2 ^ 52 -> 0 < d <= 2 ^ 52 ->
  Z.abs (s / d) <= 2 ^ 52 /\ fin (dfloor (ddiv (dint s) (dint d))) /\ val (dfloor (ddiv (dint s) (dint d))) = IZR (s / d).
Proof.
  intros s d Hs Hd.
  destruct (dint_val s ltac:(lia)) as [Fs Vs]. destruct (dint_val d ltac:(lia)) as [Fd Vd].
  assert (P : (0 < IZR d)%R) by (apply IZR_lt; lia).
  destruct (ddiv_val (dint s) (dint d) Fs) as [N E]; [rewrite Vd; lra|exact Fd|]. rewrite Vs, Vd in E.
  pose proof (Z.div_mod s d ltac:(lia)) as D. pose proof (Z.mod_pos_bound s d ltac:(lia)) as M.
  set (q := s / d) in *. set (r := s mod d) in *. clearbody q r.
  assert (Bq : Z.abs q <= 2 ^ 52) by nia.
  set (x := (IZR s / IZR d)%R) in *.
  assert (X : (x * IZR d = IZR s)%R) by (unfold x, Rdiv; rewrite Rmult_assoc, Rinv_l; lra).
  assert (S' : (IZR s = IZR d * IZR q + IZR r)%R) by (rewrite <- mult_IZR, <- plus_IZR; f_equal; lia).
  assert (R0 : (0 <= IZR r)%R) by (apply IZR_le; lia). assert (R1 : (IZR r + 1 <= IZR d)%R) by (rewrite <- plus_IZR; apply IZR_le; lia).
  assert (X0 : (IZR q <= x)%R) by nra. assert (X1 : ((IZR q + 1 - x) * IZR d >= 1)%R) by nra.
  assert (L : (IZR q <= rnd x)%R) by (rewrite <- (rnd_int q) by lia; apply rnd_mono; exact X0).
  assert (U : (rnd x < IZR q + 1)%R).
  { pose proof (rnd_err x) as Er. apply Rabs_le_inv in Er.
    assert (T : ((bpow radix2 (-53) * Rabs x + bpow radix2 (-1075)) * IZR d < 1)%R).
    { assert (A : (Rabs x * IZR d = Rabs (IZR s))%R) by (rewrite <- X, Rabs_mult, (Rabs_pos_eq (IZR d)) by lra; reflexivity).
      assert (B : (Rabs (IZR s) <= bpow radix2 52)%R) by (rewrite <- abs_IZR, <- IZR_Zpower by lia; apply IZR_le; exact Hs).
      assert (C : (IZR d <= bpow radix2 52)%R) by (rewrite <- IZR_Zpower by lia; apply IZR_le; exact (proj2 Hd)).
      replace ((bpow radix2 (-53) * Rabs x + bpow radix2 (-1075)) * IZR d)%R
        with (bpow radix2 (-53) * (Rabs x * IZR d) + bpow radix2 (-1075) * IZR d)%R by ring. rewrite A.
      assert (E1 : (bpow radix2 (-53) * bpow radix2 52 = / 2)%R) by (rewrite <- bpow_plus; simpl; lra).
      assert (E2 : (bpow radix2 (-1075) * bpow radix2 52 < / 4)%R).
      { rewrite <- bpow_plus. apply Rlt_le_trans with (bpow radix2 (-2)); [apply bpow_lt; lia|simpl; lra]. }
      pose proof (bpow_gt_0 radix2 (-53)). pose proof (bpow_gt_0 radix2 (-1075)).
      assert (bpow radix2 (-53) * Rabs (IZR s) <= / 2)%R by nra. assert (bpow radix2 (-1075) * IZR d <= bpow radix2 (-1075) * bpow radix2 52)%R by nra. lra. }
    nra. }
  assert (Z53 : Z.abs q <= 2 ^ 53 - 2) by lia.
  assert (Cl : clamp (rnd x) = rnd x).
  { apply (small_clamp _ (Z.abs q + 1)); [lia|]. rewrite plus_IZR, abs_IZR. apply Rabs_le.
    destruct (Rle_or_lt 0 (IZR q)); [rewrite Rabs_pos_eq by lra; lra|rewrite Rabs_left by lra; lra]. }
  rewrite Cl in E.
  assert (F : fin (ddiv (dint s) (dint d))).
  { apply (small_fin _ (Z.abs q + 1)); [lia|exact N|]. rewrite E, plus_IZR, abs_IZR. apply Rabs_le.
    destruct (Rle_or_lt 0 (IZR q)); [rewrite Rabs_pos_eq by lra; lra|rewrite Rabs_left by lra; lra]. }
  destruct (dfloor_fin _ F) as [F' V']. split; [exact Bq|]. split; [exact F'|]. rewrite V', E. f_equal.
  apply Zfloor_imp. rewrite plus_IZR. split; assumption.
Qed.

(** One step on integers. *)
Definition step (s : Z) : Z :=
  let t := 16807 * (s mod 127773) - 2836 * (s / 127773) in if t <? 0 then t + 2147483647 else t.

Lemma long_ok : forall z, - 2 ^ 63 <= z < 2 ^ 63 -> long z = Ok z.
Proof.
  intros z H. unfold long, LONG_MIN. destruct ((- 2 ^ 63 <=? z) && (z <? 2 ^ 63)) eqn:E; [reflexivity|lia].
Qed.

Lemma step_ok : forall s, - legacy_limit <= s < legacy_limit -> legacy_step s = Ok (step s).
Proof.
  intros s H. unfold legacy_limit in H.
  destruct (floor_quotient s 127773) as [_ [F V]]; [lia|lia|].
  pose proof (Z.div_mod s 127773 ltac:(lia)) as D. pose proof (Z.mod_pos_bound s 127773 ltac:(lia)) as M.
  unfold legacy_step. rewrite (to_int_fin _ (s / 127773) F V) by (unfold INT_MIN, INT_MAX; lia). cbn [bind]. unfold step. cbv zeta.
  set (q := s / 127773) in *. set (r := s mod 127773) in *. clearbody q r.
  rewrite (long_ok (q * 127773)) by lia. cbn [bind]. replace (s - q * 127773) with r by lia.
  rewrite (long_ok r) by lia. cbn [bind]. rewrite (long_ok (16807 * r)) by lia. cbn [bind].
  rewrite (long_ok (2836 * q)) by lia. cbn [bind]. rewrite (long_ok (16807 * r - 2836 * q)) by lia. cbn [bind].
  destruct (16807 * r - 2836 * q <? 0) eqn:C; [|reflexivity]. apply long_ok. lia.
Qed.

Lemma dint_large : forall z, Z.abs z <= 2 ^ 63 -> fin (dint z) /\ val (dint z) = rnd (IZR z).
Proof.
  intros z H. pose proof (binary_normalize_correct 53 1024 _ _ mode_NE z 0 false) as K. cbv zeta in K.
  replace (F2R (Float radix2 z 0)) with (IZR z) in K by (unfold F2R; simpl; lra).
  change (round radix2 (SpecFloat.fexp 53 1024) (round_mode mode_NE) (IZR z)) with (rnd (IZR z)) in K.
  rewrite Rlt_bool_true in K.
  - destruct K as (V & F & _). split; [exact F|]. unfold dint. rewrite (val_fin _ F). exact V.
  - assert (B : (Rabs (IZR z) <= bpow radix2 63)%R) by (rewrite <- abs_IZR, <- IZR_Zpower by lia; apply IZR_le; exact H).
    assert (G : (rnd (bpow radix2 63) = bpow radix2 63)%R).
    { apply round_generic; [auto with typeclass_instances|]. apply generic_format_bpow. unfold FLT_exp. lia. }
    apply Rle_lt_trans with (bpow radix2 63); [|apply bpow_lt; lia]. apply Rabs_le_inv in B. apply Rabs_le. split.
    + rewrite <- G, <- rnd_opp. apply rnd_mono. lra.
    + rewrite <- G. apply rnd_mono. lra.
Qed.

Lemma step_bad : forall s, legacy_limit <= s < 2 ^ 63 -> legacy_step s = UB.
Proof.
  intros s H. unfold legacy_step.
  assert (to_int (dfloor (ddiv (dint s) (dint 127773))) = UB) as ->; [|reflexivity].
  unfold legacy_limit in H.
  destruct (dint_large s ltac:(lia)) as [Fs Vs]. destruct (dint_val 127773 ltac:(lia)) as [Fd Vd].
  destruct (ddiv_val (dint s) (dint 127773) Fs) as [N E]; [rewrite Vd; apply not_0_IZR; discriminate|exact Fd|]. rewrite Vs, Vd in E.
  assert (L : (IZR (2 ^ 31) <= rnd (IZR s) / IZR 127773)%R).
  { assert (IZR (127773 * 2 ^ 31) <= rnd (IZR s))%R by (rewrite <- (rnd_int (127773 * 2 ^ 31)) by lia; apply rnd_mono, IZR_le; lia).
    rewrite mult_IZR in H0. unfold Rdiv. apply (Rmult_le_reg_r (IZR 127773)); [apply IZR_lt; lia|].
    rewrite Rmult_assoc, Rinv_l by (apply not_0_IZR; discriminate). lra. }
  assert (L' : (IZR (2 ^ 31) <= val (ddiv (dint s) (dint 127773)))%R).
  { rewrite E. apply rnd_mono in L. rewrite rnd_int in L by lia. apply Rle_trans with (clamp (IZR (2 ^ 31))).
    - rewrite (small_clamp _ (2 ^ 31)); [lra|lia|]. rewrite Rabs_pos_eq; [lra|]. apply IZR_le. lia.
    - apply clamp_mono. exact L. }
  destruct (to_int (dfloor (ddiv (dint s) (dint 127773)))) as [k| |] eqn:Q; [exfalso| |reflexivity].
  - apply to_int_inv in Q as [F [K B]].
    destruct (is_finite (ddiv (dint s) (dint 127773))) eqn:Fq.
    + destruct (dfloor_fin _ Fq) as [_ V]. rewrite V, Ztrunc_IZR in K. apply Zfloor_le in L'. rewrite Zfloor_IZR in L'. unfold INT_MAX in B. lia.
    + rewrite dfloor_inf in F; [|exact N|unfold fin; congruence]. unfold fin in F. congruence.
  - exfalso. unfold to_int in Q. destruct (is_finite (dfloor (ddiv (dint s) (dint 127773)))); [|discriminate Q].
    destruct ((INT_MIN <=? Btrunc (dfloor (ddiv (dint s) (dint 127773)))) && (Btrunc (dfloor (ddiv (dint s) (dint 127773))) <=? INT_MAX)); discriminate Q.
Qed.

Lemma step_mod : forall s, step s mod lcg_modulus = 16807 * s mod lcg_modulus.
Proof.
  intros s. unfold step, lcg_modulus. change (2 ^ 31 - 1) with 2147483647. cbv zeta.
  pose proof (Z.div_mod s 127773 ltac:(lia)) as D. set (q := s / 127773) in *. set (r := s mod 127773) in *. clearbody q r.
  destruct (16807 * r - 2836 * q <? 0).
  - replace (16807 * r - 2836 * q + 2147483647) with (16807 * s + (1 - q) * 2147483647) by lia. apply Z.mod_add. lia.
  - replace (16807 * r - 2836 * q) with (16807 * s + (- q) * 2147483647) by lia. apply Z.mod_add. lia.
Qed.

Lemma step_range1 : forall s, 0 <= s < legacy_limit -> - 2835 * lcg_modulus <= step s < lcg_modulus.
Proof.
  intros s H. unfold step, lcg_modulus, legacy_limit in *. change (2 ^ 31 - 1) with 2147483647 in *. cbv zeta.
  pose proof (Z.div_mod s 127773 ltac:(lia)) as D. pose proof (Z.mod_pos_bound s 127773 ltac:(lia)) as M.
  set (q := s / 127773) in *. set (r := s mod 127773) in *. clearbody q r.
  destruct (16807 * r - 2836 * q <? 0) eqn:C; lia.
Qed.
Ltac step_tac s := 
  unfold step, lcg_modulus in *; change (2 ^ 31 - 1) with 2147483647 in *; cbv zeta;
  pose proof (Z.div_mod s 127773 ltac:(lia)) as D; pose proof (Z.mod_pos_bound s 127773 ltac:(lia)) as M;
  set (q := s / 127773) in *; set (r := s mod 127773) in *; clearbody q r;
  destruct (16807 * r - 2836 * q <? 0) eqn:C; lia.
Lemma step_range2 : forall s, - 2835 * lcg_modulus <= s < lcg_modulus -> 0 <= step s < 140000000000.
Proof. intros s H. step_tac s. Qed.
Lemma step_range3 : forall s, 0 <= s < 140000000000 -> - 1000000000 <= step s < lcg_modulus.
Proof. intros s H. step_tac s. Qed.
Lemma step_range4 : forall s, - 1000000000 <= s < lcg_modulus -> 0 <= step s < 2200000000.
Proof. intros s H. step_tac s. Qed.
Lemma step_range5 : forall s, 0 <= s < 2200000000 -> 0 <= step s < lcg_modulus.
Proof. intros s H. step_tac s. Qed.

Fixpoint steps (k : nat) (s : Z) : Z := match k with O => s | S k' => step (steps k' s) end.

#[local] Opaque step.
Lemma steps_good : forall k s, 1 <= s < legacy_limit ->
  - legacy_limit <= steps k s < legacy_limit /\ ((5 <= k)%nat -> 0 <= steps k s < lcg_modulus).
Proof.
  intros k s H.
  assert (R0 : 0 <= steps 0 s < legacy_limit) by (cbn [steps]; lia).
  assert (R1 := step_range1 _ R0). change (step (steps 0 s)) with (steps 1 s) in R1.
  assert (R2 := step_range2 _ R1). change (step (steps 1 s)) with (steps 2 s) in R2.
  assert (R3 := step_range3 _ R2). change (step (steps 2 s)) with (steps 3 s) in R3.
  assert (R4 := step_range4 _ R3). change (step (steps 3 s)) with (steps 4 s) in R4.
  assert (R5 := step_range5 _ R4). change (step (steps 4 s)) with (steps 5 s) in R5.
  assert (R : forall j, 0 <= steps (5 + j) s < lcg_modulus).
  { induction j as [|j IH]; [exact R5|]. change (5 + S j)%nat with (S (5 + j)). cbn [steps]. apply step_range5. unfold lcg_modulus in *. lia. }
  unfold legacy_limit, lcg_modulus in *.
  destruct k as [|[|[|[|[|k]]]]]; try (split; [lia|lia]).
  change (S (S (S (S (S k))))) with (5 + k)%nat. specialize (R k). split; [lia|]. intros _. exact R.
Qed.

Lemma lcg_steps : forall k s, (5 <= k)%nat -> 1 <= s < legacy_limit -> steps k s = lcg s k.
Proof.
  intros k s K H. destruct (steps_good k s H) as [_ R]. specialize (R K).
  rewrite <- (Z.mod_small (steps k s) lcg_modulus) by exact R. unfold lcg. change (7 ^ 5) with 16807. clear R K.
  induction k as [|k IH]; [cbn [steps]; rewrite Z.pow_0_r; f_equal; lia|].
  cbn [steps]. rewrite step_mod. rewrite <- Zmult_mod_idemp_r, IH, Zmult_mod_idemp_r.
  f_equal. rewrite Nat2Z.inj_succ, Z.pow_succ_r by lia. ring.
Qed.


(** The table after the first n steps of the warm-up (from index 39 downwards). *)
Definition start_table (s : Z) : list (option Z) := map (fun i => Some (lcg s (40 - i))) (seq 0 32).

Lemma warm_up_ok : forall n s rg, (n <= 40)%nat -> 1 <= s < legacy_limit -> length rg = 32%nat ->
  exists rg', legacy_warm_up n (steps (40 - n) s) rg = Ok (steps 40 s, rg') /\ length rg' = 32%nat /\
    forall i, (i < 32)%nat -> nth_error rg' i = if (i <? n)%nat then Some (Some (lcg s (40 - i))) else nth_error rg i.
Proof.
  induction n as [|n IH]; intros s rg Hn Hs L.
  - exists rg. split; [reflexivity|]. split; [exact L|]. intros i Hi. destruct (Nat.ltb_spec i 0); [lia|reflexivity].
  - cbn [legacy_warm_up]. destruct (steps_good (40 - S n) s Hs) as [G _]. rewrite step_ok by exact G. cbn [bind].
    change (step (steps (40 - S n) s)) with (steps (S (40 - S n)) s). replace (S (40 - S n)) with (40 - n)%nat by lia.
    destruct (Nat.ltb_spec n 32) as [L32|L32].
    + unfold mset. destruct (Nat.ltb_spec n (length rg)) as [_|?]; [|lia]. cbn [bind].
      destruct (IH s (upd rg n (Some (steps (40 - n) s))) ltac:(lia) Hs) as [rg' [E [L' P]]]; [rewrite upd_length; exact L|].
      exists rg'. split; [exact E|]. split; [exact L'|]. intros i Hi. rewrite P by exact Hi.
      destruct (Nat.ltb_spec i n), (Nat.ltb_spec i (S n)); try lia; [reflexivity| |].
      * assert (i = n) by lia. subst i. rewrite nth_error_upd_same by lia. rewrite lcg_steps by lia. reflexivity.
      * apply nth_error_upd_other. lia.
    + cbn [bind]. destruct (IH s rg ltac:(lia) Hs L) as [rg' [E [L' P]]]. exists rg'. split; [exact E|]. split; [exact L'|].
      intros i Hi. rewrite P by exact Hi. destruct (Nat.ltb_spec i n), (Nat.ltb_spec i (S n)); try lia; reflexivity.
Qed.

Lemma nth_error_ext_32 : forall A (l l' : list A), length l = 32%nat -> length l' = 32%nat ->
  (forall i, (i < 32)%nat -> nth_error l i = nth_error l' i) -> l = l'.
Proof.
  intros A l l' L L' H. assert (G : forall i, nth_error l i = nth_error l' i).
  { intros i. destruct (Nat.lt_ge_cases i 32) as [K|K]; [apply H; exact K|].
    rewrite (proj2 (nth_error_None l i)), (proj2 (nth_error_None l' i)) by lia. reflexivity. }
  clear - G. revert l' G. induction l as [|a l IH]; intros [|b l'] G.
  - reflexivity.
  - discriminate (G 0%nat).
  - discriminate (G 0%nat).
  - f_equal; [pose proof (G 0%nat) as Q; cbn in Q; congruence|]. apply IH. intros i. exact (G (S i)).
Qed.

Lemma warm_up_start : forall s, 1 <= s < legacy_limit -> legacy_warm_up 40 s (repeat None 32) = Ok (lcg s 40, start_table s).
Proof.
  intros s Hs. destruct (warm_up_ok 40 s (repeat None 32) ltac:(lia) Hs eq_refl) as [rg' [E [L P]]].
  change (steps (40 - 40) s) with s in E. rewrite E. rewrite lcg_steps by lia. do 2 f_equal.
  apply nth_error_ext_32; [exact L|reflexivity|]. intros i Hi. rewrite P by exact Hi.
  destruct (Nat.ltb_spec i 40); [|lia]. unfold start_table. rewrite nth_error_map. 
  rewrite (nth_error_nth' (seq 0 32) 0%nat) by (rewrite seq_length; lia). rewrite seq_nth by lia. reflexivity.
Qed.

(** A table holding the members of the sequence at the positions pos. *)
Definition table (s : Z) (pos : list nat) : list (option Z) := map (fun p => Some (lcg s p)) pos.

Lemma start_positions : forall s, start_table s = table s (map (fun i => 40 - i)%nat (seq 0 32)).
Proof. intros s. unfold start_table, table. rewrite map_map. reflexivity. Qed.

Lemma table_upd : forall s pos i p, upd (table s pos) i (Some (lcg s p)) = table s (upd pos i p).
Proof. intros s. unfold table. induction pos as [|a pos IH]; intros [|i] p; cbn; f_equal. apply IH. Qed.

Lemma lcg_range : forall s k, 0 <= lcg s k < lcg_modulus.
Proof. intros s k. apply Z.mod_pos_bound. reflexivity. Qed.

Lemma lcg_succ : forall s k, lcg s (S k) = 16807 * lcg s k mod lcg_modulus.
Proof.
  intros s k. unfold lcg. change (7 ^ 5) with 16807. rewrite Zmult_mod_idemp_r. f_equal. rewrite Nat2Z.inj_succ, Z.pow_succ_r by lia. ring.
Qed.

Lemma step_lcg : forall s k, legacy_step (lcg s k) = Ok (lcg s (S k)).
Proof.
  intros s k. pose proof (lcg_range s k) as R. rewrite step_ok by (unfold legacy_limit, lcg_modulus in *; lia). f_equal.
  rewrite lcg_succ, <- step_mod. symmetry. apply Z.mod_small. apply step_range5. unfold lcg_modulus in *. lia.
Qed.

Lemma slot_ok : forall a, 0 <= a < lcg_modulus ->
  exists i, (i < 32)%nat /\ (do tmp <- to_int (dfloor (ddiv (dint a) (dint 67108865))); index_of tmp) = Ok i /\ Z.of_nat i = a / 67108865.
Proof.
  intros a H. unfold lcg_modulus in H. destruct (floor_quotient a 67108865) as [_ [F V]]; [lia|lia|].
  assert (D : 0 <= a / 67108865 < 32) by (split; [apply Z.div_pos; lia|apply Z.div_lt_upper_bound; lia]).
  rewrite (to_int_fin _ (a / 67108865) F V) by (unfold INT_MIN, INT_MAX; lia). cbn [bind]. unfold index_of.
  destruct (Z.ltb_spec (a / 67108865) 0); [lia|]. exists (Z.to_nat (a / 67108865)). split; [lia|]. split; [reflexivity|lia].
Qed.

Definition uniform_of (a : Z) : double :=
  let r := ddiv (dint a) (dint 2147483647) in if deq r (dint 0) then tiny else r.

Lemma nodup_upd : forall (l : list nat) i v, NoDup l -> ~ In v l -> NoDup (upd l i v) /\ forall x, nth_error l i = Some x -> ~ In x (upd l i v).
Proof.
  induction l as [|a l IH]; intros i v N H.
  - split; [destruct i; constructor|]. intros x Q. destruct i; discriminate Q.
  - inversion N as [|? ? Na Nl]; subst. destruct i as [|i]; cbn [upd].
    + split.
      * constructor; [intros K; apply H; right; exact K|exact Nl].
      * intros x Q. cbn in Q. injection Q as <-. intros [K|K]; [apply H; left; auto|contradiction].
    + destruct (IH i v Nl) as [N1 N2]; [intros K; apply H; right; exact K|]. split.
      * constructor; [|exact N1]. intros K. assert (G : In a l \/ a = v).
        { clear - K. revert i K. induction l as [|b l IHl]; intros [|i] K; cbn in K; auto.
          - destruct K as [K|K]; [right; auto|left; right; exact K].
          - destruct K as [K|K]; [left; left; exact K|]. apply IHl in K as [K|K]; [left; right; exact K|right; exact K]. }
        destruct G as [G|G]; [contradiction|]. subst. apply H. left. reflexivity.
      * intros x Q. cbn in Q. intros [K|K]; [|exact (N2 x Q K)]. subst. apply Na. eapply nth_error_In. exact Q.
Qed.
Lemma in_upd : forall (l : list nat) i v x, In x (upd l i v) -> In x l \/ x = v.
Proof.
  induction l as [|b l IH]; intros [|i] v x K; cbn in K; auto.
  - destruct K as [K|K]; [right; auto|left; right; exact K].
  - destruct K as [K|K]; [left; left; exact K|]. apply IH in K as [K|K]; [left; right; exact K|right; exact K].
Qed.

Definition gprevious (q : nat) (ps : list nat) (i : nat) : nat := match i with O => q | S j => nth j ps 0%nat end.
Definition gslot (s : Z) (q : nat) (ps : list nat) (i : nat) : Z := lcg s (gprevious q ps i) / 67108865.
Definition shuffle (s : Z) (k q : nat) (pos ps : list nat) : Prop := forall i p, nth_error ps i = Some p ->
  (exists j, (j < i)%nat /\ gslot s q ps j = gslot s q ps i /\ (forall l, (j < l < i)%nat -> gslot s q ps l <> gslot s q ps i) /\ p = (S k + j)%nat) \/
  ((forall l, (l < i)%nat -> gslot s q ps l <> gslot s q ps i) /\ 0 <= gslot s q ps i /\ nth_error pos (Z.to_nat (gslot s q ps i)) = Some p).

Lemma gslot_cons : forall s q p ps i, gslot s q (p :: ps) (S i) = gslot s p ps i.
Proof. intros s q p ps [|i]; reflexivity. Qed.

Lemma shuffle_cons : forall s k q pos i p ps, (i < length pos)%nat -> Z.of_nat i = lcg s q / 67108865 -> nth_error pos i = Some p ->
  shuffle s (S k) p (upd pos i (S k)) ps -> shuffle s k q pos (p :: ps).
Proof.
  intros s k q pos i p ps Hi Ei Ep Sh. assert (G0 : gslot s q (p :: ps) 0 = Z.of_nat i) by (unfold gslot, gprevious; lia).
  intros [|j] r Q; cbn [nth_error] in Q.
  - right. split; [intros l Hl; lia|]. rewrite G0. split; [lia|]. rewrite Nat2Z.id. congruence.
  - rewrite gslot_cons. destruct (Sh j r Q) as [[j' [Hj [Es [No ->]]]]|[No [Ge V]]].
    + left. exists (S j'). split; [lia|]. rewrite gslot_cons. split; [exact Es|]. split; [|lia].
      intros [|l] Hl; [lia|]. rewrite gslot_cons. apply No. lia.
    + destruct (Z.eq_dec (gslot s p ps j) (Z.of_nat i)) as [E|E].
      * left. exists 0%nat. split; [lia|]. rewrite G0. split; [auto|]. split.
        { intros [|l] Hl; [lia|]. rewrite gslot_cons. apply No. lia. }
        rewrite E, Nat2Z.id, nth_error_upd_same in V by exact Hi. injection V as <-. lia.
      * right. split; [|split; [exact Ge|]].
        { intros [|l] Hl; [rewrite G0; auto|]. rewrite gslot_cons. apply No. lia. }
        rewrite nth_error_upd_other in V by lia. exact V.
Qed.

Lemma loop_ok : forall n s k q pos, length pos = 32%nat -> NoDup pos -> Forall (fun p => (p <= k)%nat) pos ->
  exists ps, legacy_loop n (lcg s k) (lcg s q) (table s pos) = Ok (map (fun p => uniform_of (lcg s p)) ps) /\
    length ps = n /\ shuffle s k q pos ps /\ NoDup ps /\ (forall p, In p ps -> In p pos \/ (k < p)%nat) /\
    (forall i p, nth_error ps i = Some p -> (p <= k + i)%nat).
Proof.
  induction n as [|n IH]; intros s k q pos L N B.
  - exists []. split; [reflexivity|]. split; [reflexivity|]. split; [intros [|i] p Q; discriminate Q|]. split; [constructor|]. split; [intros p []|]. intros [|i] p Q; discriminate Q.
  - cbn [legacy_loop]. rewrite step_lcg. cbn [bind]. destruct (slot_ok (lcg s q) (lcg_range s q)) as [i [Hi [E Ei]]].
    destruct (to_int (dfloor (ddiv (dint (lcg s q)) (dint 67108865)))) as [tmp| |]; try discriminate E. cbn [bind] in E |- *. rewrite E. cbn [bind].
    destruct (nth_error pos i) as [p|] eqn:Ep; [|exfalso; apply nth_error_None in Ep; lia].
    unfold mget. assert (Et : nth_error (table s pos) i = Some (Some (lcg s p))) by (unfold table; rewrite nth_error_map, Ep; reflexivity).
    rewrite Et. cbn [bind defined]. unfold mset. assert (Lt : length (table s pos) = 32%nat) by (unfold table; rewrite map_length; exact L).
    destruct (Nat.ltb_spec i (length (table s pos))) as [_|?]; [|lia]. cbn [bind]. rewrite table_upd.
    rewrite Forall_forall in B. assert (Np : ~ In (S k) pos) by (intros K; apply B in K; lia).
    destruct (nodup_upd pos i (S k) N Np) as [N1 N2].
    destruct (IH s (S k) p (upd pos i (S k))) as [ps [E' [L' [Sh [N' [I' B']]]]]].
    { rewrite upd_length. exact L. } { exact N1. }
    { apply Forall_forall. intros x Hx. apply in_upd in Hx as [Hx|Hx]; [apply B in Hx; lia|lia]. }
    rewrite E'. cbn [bind]. pose proof (nth_error_In _ _ Ep) as Ip. exists (p :: ps). split; [reflexivity|].
    split; [cbn [length]; f_equal; exact L'|]. split; [apply (shuffle_cons s k q pos i); [lia|exact Ei|exact Ep|exact Sh]|].
    split; [constructor; [|exact N']|split].
    + intros K. apply I' in K as [K|K]; [exact (N2 p Ep K)|]. apply B in Ip. lia.
    + intros x [<-|K]; [left; exact Ip|]. apply I' in K as [K|K]; [apply in_upd in K as [K|K]; [left; exact K|right; lia]|right; lia].
    + intros [|j] x Q; cbn [nth_error] in Q; [injection Q as <-; apply B in Ip; lia|]. apply B' in Q. lia.
Qed.

(** ** The numbers of (0, 1) *)
Open Scope R_scope.
Lemma rnd_le_format : forall x m e, x <= F2R (Float radix2 m e) -> (Z.abs m < 2 ^ 53)%Z -> (-1074 <= e)%Z -> rnd x <= F2R (Float radix2 m e).
Proof.
  intros x m e H M E. replace (F2R (Float radix2 m e)) with (rnd (F2R (Float radix2 m e))); [apply rnd_mono; exact H|].
  apply round_generic; [auto with typeclass_instances|]. apply generic_format_FLT. exists (Float radix2 m e); [reflexivity|exact M|exact E].
Qed.
Lemma rnd_ge_format : forall x m e, F2R (Float radix2 m e) <= x -> (Z.abs m < 2 ^ 53)%Z -> (-1074 <= e)%Z -> F2R (Float radix2 m e) <= rnd x.
Proof.
  intros x m e H M E. replace (F2R (Float radix2 m e)) with (rnd (F2R (Float radix2 m e))); [apply rnd_mono; exact H|].
  apply round_generic; [auto with typeclass_instances|]. apply generic_format_FLT. exists (Float radix2 m e); [reflexivity|exact M|exact E].
Qed.

Lemma tiny_val : fin tiny /\ val tiny = rnd (/ IZR (10 ^ 99)).
Proof.
  pose proof (binary_normalize_correct 53 1024 _ _ mode_NE 4925250774549310 (-381) false) as K. cbv zeta in K.
  change (round radix2 (SpecFloat.fexp 53 1024) (round_mode mode_NE) (F2R (Float radix2 4925250774549310 (-381))))
    with (rnd (F2R (Float radix2 4925250774549310 (-381)))) in K.
  assert (G : rnd (F2R (Float radix2 4925250774549310 (-381))) = F2R (Float radix2 4925250774549310 (-381))).
  { apply round_generic; [auto with typeclass_instances|]. apply generic_format_FLT. exists (Float radix2 4925250774549310 (-381)); [reflexivity|reflexivity|vm_compute; discriminate]. }
  rewrite G in K.
  assert (B : Rabs (F2R (Float radix2 4925250774549310 (-381))) < bpow radix2 (-328)).
  { rewrite <- F2R_Zabs. change (-328)%Z with (53 + (-381))%Z. rewrite bpow_plus. unfold F2R. cbn [Fnum Fexp].
    apply Rmult_lt_compat_r; [apply bpow_gt_0|]. rewrite <- IZR_Zpower by lia. apply IZR_lt. reflexivity. }
  rewrite Rlt_bool_true in K by (apply Rlt_trans with (1 := B); apply bpow_lt; reflexivity).
  destruct K as (V & F & _). split; [exact F|]. unfold tiny. rewrite (val_fin _ F), V. clear V F.
  assert (P : 0 < IZR (10 ^ 99)) by (apply IZR_lt; reflexivity).
  assert (M : mag radix2 (/ IZR (10 ^ 99)) = (-328)%Z :> Z).
  { apply mag_unique. assert (Pi : 0 < / IZR (10 ^ 99)) by (apply Rinv_0_lt_compat; exact P). rewrite Rabs_pos_eq by lra. split.
    - change (-328 - 1)%Z with (- (329))%Z. rewrite bpow_opp. apply Rinv_le; [exact P|]. rewrite <- IZR_Zpower by lia. apply IZR_le. vm_compute. discriminate.
    - change (-328)%Z with (- (328))%Z. rewrite bpow_opp. apply Rinv_lt; [apply bpow_gt_0|]. rewrite <- IZR_Zpower by lia. apply IZR_lt. reflexivity. }
  unfold rnd, round, scaled_mantissa, cexp. rewrite M. change (FLT_exp (-1074) 53 (-328)) with (-381)%Z. f_equal. f_equal.
  symmetry. apply Znearest_imp. rewrite <- IZR_Zpower by lia.
  apply Rabs_lt. 
  assert (A : (Z.abs (2 * (2 ^ 381 - 4925250774549310 * 10 ^ 99)) < 10 ^ 99)%Z) by reflexivity.
  apply Z.abs_lt in A. destruct A as [A1 A2]. apply IZR_lt in A1, A2. rewrite opp_IZR in A1. rewrite mult_IZR, minus_IZR, mult_IZR in A1, A2.
  change (- -381)%Z with 381%Z. change (radix_val radix2) with 2%Z.
  set (T := IZR (10 ^ 99)) in *. set (W := IZR (2 ^ 381)) in *. clearbody T W.
  assert (I : / T * T = 1) by (apply Rinv_l; lra). set (J := / T) in *. clearbody J.
  split; apply (Rmult_lt_reg_r T); try exact P; nra.
Qed.

Lemma uniform_spec : forall a, (0 <= a < lcg_modulus)%Z -> is_uniform a (uniform_of a) /\
  0 < val (uniform_of a) <= 1 - bpow radix2 (-31).
Proof.
  intros a H. unfold uniform_of, is_uniform, lcg_modulus in *. cbv zeta. change (2 ^ 31 - 1)%Z with 2147483647%Z in *.
  destruct (dint_val a ltac:(lia)) as [Fa Va]. destruct (dint_val 2147483647 ltac:(lia)) as [Fd Vd].
  assert (P : 0 < IZR 2147483647) by (apply IZR_lt; reflexivity).
  destruct (ddiv_val (dint a) (dint 2147483647) Fa) as [N E]; [rewrite Vd; lra|exact Fd|]. rewrite Va, Vd in E.
  set (x := IZR a / IZR 2147483647) in *.
  assert (X : x * IZR 2147483647 = IZR a) by (unfold x, Rdiv; rewrite Rmult_assoc, Rinv_l; lra).
  assert (A0 : 0 <= IZR a) by (apply IZR_le; lia). assert (A1 : IZR a <= IZR 2147483647 - 1) by (rewrite <- minus_IZR; apply IZR_le; lia).
  assert (One : 1 - bpow radix2 (-31) = F2R (Float radix2 2147483647 (-31))).
  { unfold F2R. cbn [Fnum Fexp]. replace (IZR 2147483647) with (bpow radix2 31 - 1) by (rewrite <- IZR_Zpower by lia; rewrite <- minus_IZR; reflexivity).
    rewrite Rmult_minus_distr_r, <- bpow_plus. change (bpow radix2 (31 + -31)) with 1. ring. }
  assert (B31 : bpow radix2 (-31) * bpow radix2 31 = 1) by (rewrite <- bpow_plus; reflexivity).
  assert (V31 : bpow radix2 31 = IZR 2147483647 + 1) by (rewrite <- IZR_Zpower by lia; rewrite <- plus_IZR; reflexivity).
  pose proof (bpow_gt_0 radix2 (-31)) as G31.
  assert (Xu : x <= 1 - bpow radix2 (-31)) by nra.
  assert (Ru : rnd x <= 1 - bpow radix2 (-31)) by (rewrite One in Xu |- *; apply rnd_le_format; [exact Xu|reflexivity|lia]).
  assert (R0 : 0 <= rnd x) by (rewrite <- rnd_0; apply rnd_mono; nra).
  assert (C : clamp (rnd x) = rnd x) by (apply (small_clamp _ 1); [lia|rewrite Rabs_pos_eq; lra]). rewrite C in E.
  assert (F : fin (ddiv (dint a) (dint 2147483647))) by (apply (small_fin _ 1); [lia|exact N|rewrite E, Rabs_pos_eq; lra]).
  destruct (dint_val 0 ltac:(lia)) as [F0 V0].
  destruct (deq (ddiv (dint a) (dint 2147483647)) (dint 0)) eqn:Q.
  - apply deq_val in Q; [|exact N|apply fin_num; exact F0]. rewrite E, V0 in Q.
    assert (Za : a = 0%Z).
    { destruct (Z.eq_dec a 0) as [Y|Y]; [exact Y|exfalso]. assert (1 <= IZR a) by (apply IZR_le; lia).
      assert (L : F2R (Float radix2 1 (-31)) <= rnd x).
      { apply rnd_ge_format; [|reflexivity|lia]. unfold F2R. cbn [Fnum Fexp]. nra. }
      unfold F2R in L. cbn [Fnum Fexp] in L. lra. }
    destruct tiny_val as [Ft Vt]. split; [split; [exact Ft|split; [intros K; congruence|intros _; exact Vt]]|].
    rewrite Vt.
    assert (T0 : 0 < / IZR (10 ^ 99)) by (apply Rinv_0_lt_compat, IZR_lt; reflexivity).
    assert (L : F2R (Float radix2 1 (-330)) <= rnd (/ IZR (10 ^ 99))).
    { apply rnd_ge_format; [|reflexivity|lia]. unfold F2R. cbn [Fnum Fexp]. rewrite Rmult_1_l. change (-330)%Z with (- (330))%Z. rewrite bpow_opp.
      apply Rinv_le; [apply IZR_lt; reflexivity|]. rewrite <- IZR_Zpower by lia. apply IZR_le. vm_compute. discriminate. }
    assert (U : rnd (/ IZR (10 ^ 99)) <= F2R (Float radix2 1 (-1))).
    { apply rnd_le_format; [|reflexivity|lia]. unfold F2R. cbn [Fnum Fexp]. rewrite Rmult_1_l. change (-1)%Z with (- (1))%Z. rewrite bpow_opp.
      apply Rinv_le; [apply bpow_gt_0|]. rewrite <- IZR_Zpower by lia. apply IZR_le. vm_compute. discriminate. }
    unfold F2R in L, U. cbn [Fnum Fexp] in L, U. pose proof (bpow_gt_0 radix2 (-330)).
    assert (bpow radix2 (-31) <= bpow radix2 (-1)) by (apply bpow_le; lia). assert (bpow radix2 (-1) = / 2) by (simpl; lra). lra.
  - assert (Nz : rnd x <> 0).
    { intros Y. assert (Q' : deq (ddiv (dint a) (dint 2147483647)) (dint 0) = true) by (apply deq_val; [exact N|apply fin_num; exact F0|rewrite E, V0; exact Y]). congruence. }
    split; [split; [exact F|split; [intros _; exact E|]]|rewrite E; lra].
    intros Y. exfalso. apply Nz. assert (Z0 : x = 0) by (unfold x; rewrite Y; unfold Rdiv; ring). rewrite Z0. apply rnd_0.
Qed.

Open Scope Z_scope.
Lemma unif_start : forall n inseed, - legacy_limit < inseed < legacy_limit ->
  bbob2009_unif n inseed = legacy_loop n (lcg (effective_seed inseed) 40) (lcg (effective_seed inseed) 40) (start_table (effective_seed inseed)).
Proof.
  intros n inseed H. unfold bbob2009_unif.
  assert (S' : (do s <- (if inseed <? 0 then long (- inseed) else Ok inseed); Ok (if s <? 1 then 1 else s)) = Ok (effective_seed inseed)).
  { unfold effective_seed. destruct (Z.ltb_spec inseed 0) as [L|L].
    - rewrite long_ok by (unfold legacy_limit in *; lia). cbn [bind]. f_equal. destruct (Z.ltb_spec (- inseed) 1); lia.
    - cbn [bind]. f_equal. destruct (Z.ltb_spec inseed 1); lia. }
  destruct (if inseed <? 0 then long (- inseed) else Ok inseed) as [s| |]; [|discriminate S'|discriminate S'].
  cbn [bind] in S' |- *. injection S' as S'. cbv zeta. rewrite S'.
  rewrite warm_up_start by (unfold effective_seed, legacy_limit in *; lia). cbn [bind].
  unfold start_table at 1. unfold mget. cbn [seq map nth_error bind defined]. reflexivity.
Qed.

Lemma unif_ok : forall n inseed, - legacy_limit < inseed < legacy_limit ->
  exists ps, bbob2009_unif n inseed = Ok (map (fun p => uniform_of (lcg (effective_seed inseed) p)) ps) /\
    length ps = n /\ bays_durham (effective_seed inseed) ps /\ NoDup ps /\
    (forall i p, nth_error ps i = Some p -> (9 <= p <= 40 + i)%nat).
Proof.
  intros n inseed H. rewrite unif_start by exact H. rewrite start_positions.
  set (s := effective_seed inseed). set (pos := map (fun i => (40 - i)%nat) (seq 0 32)).
  destruct (loop_ok n s 40 40 pos) as [ps [E [L [Sh [N [I B]]]]]].
  - reflexivity.
  - unfold pos. cbn. repeat (constructor; [cbn; lia|]). constructor.
  - apply Forall_forall. intros p Hp. apply in_map_iff in Hp as [i [<- _]]. lia.
  - exists ps. split; [exact E|]. split; [exact L|]. split.
    { intros i p Q. destruct (Sh i p Q) as [K|[No [Ge V]]]; [left; exact K|right]. split; [exact No|].
      change (gslot s 40 ps i) with (slot s ps i) in *. unfold pos in V. rewrite nth_error_map in V.
      destruct (nth_error (seq 0 32) (Z.to_nat (slot s ps i))) as [m|] eqn:Em; [|discriminate V].
      assert (Lm : (Z.to_nat (slot s ps i) < 32)%nat) by (rewrite <- (seq_length 32 0); apply nth_error_Some; congruence).
      assert (m = Z.to_nat (slot s ps i)).
      { apply (nth_error_nth _ _ 0%nat) in Em. rewrite seq_nth in Em by lia. lia. }
      cbn [option_map] in V. assert (V' : (40 - m)%nat = p) by congruence. clear V. lia. }
    split; [exact N|]. intros i p Q. split; [|exact (B i p Q)].
    apply nth_error_In in Q. apply I in Q as [Q|Q]; [|lia]. unfold pos in Q. apply in_map_iff in Q as [j [<- Hj]]. apply in_seq in Hj. lia.
Qed.

Lemma unif_bad : forall n inseed, - 2 ^ 63 <= inseed < 2 ^ 63 -> legacy_limit <= Z.abs inseed -> bbob2009_unif n inseed = UB.
Proof.
  intros n inseed B H. unfold bbob2009_unif.
  assert (L1 : forall s, legacy_limit <= s < 2 ^ 63 -> (do (aktseed, rgrand) <- legacy_warm_up 40 (if s <? 1 then 1 else s) (repeat None 32);
     do o <- mget rgrand 0; do aktrand <- defined o; legacy_loop n aktseed aktrand rgrand) = UB).
  { intros s Hs. destruct (Z.ltb_spec s 1) as [K|K]; [unfold legacy_limit in Hs; lia|]. cbn [legacy_warm_up]. rewrite step_bad by exact Hs. reflexivity. }
  destruct (Z.ltb_spec inseed 0) as [L|L].
  - destruct (Z.eq_dec inseed (- 2 ^ 63)) as [->|Ne].
    + unfold long, LONG_MIN. reflexivity.
    + rewrite long_ok by lia. cbn [bind]. apply L1. lia.
  - cbn [bind]. apply L1. lia.
Qed.

Lemma loop_prefix : forall n m a r t rs, legacy_loop (n + m) a r t = Ok rs -> legacy_loop n a r t = Ok (firstn n rs).
Proof.
  induction n as [|n IH]; intros m a r t rs E; [reflexivity|]. cbn [legacy_loop Nat.add] in E |- *.
  apply bind_Ok in E as [a' [E1 E]]. rewrite E1. cbn [bind]. apply bind_Ok in E as [tmp [E2 E]]. rewrite E2. cbn [bind].
  apply bind_Ok in E as [i [E3 E]]. rewrite E3. cbn [bind]. apply bind_Ok in E as [o [E4 E]]. rewrite E4. cbn [bind].
  apply bind_Ok in E as [r' [E5 E]]. rewrite E5. cbn [bind]. apply bind_Ok in E as [t' [E6 E]]. rewrite E6. cbn [bind]. cbv zeta in E |- *.
  apply bind_Ok in E as [rs' [E7 E]]. rewrite (IH m _ _ _ rs' E7). cbn [bind]. assert (rs = (if deq (ddiv (dint r') (dint 2147483647)) (dint 0) then tiny else ddiv (dint r') (dint 2147483647)) :: rs') as -> by congruence. reflexivity.
Qed.
