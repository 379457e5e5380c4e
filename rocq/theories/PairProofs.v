(** Lemmas about the numbering of bi-objective problems. *)
From Coq Require Import List Arith NArith ZArith Reals Bool Lia Lra ZifyBool ZifyNat ZifyN Ascii String.
From Flocq Require Import Core.
From Verif Require Import CBase IdModel PairModel PairSpec.
Import ListNotations.
Local Notation length := List.length.
Open Scope N_scope.

(** ** The formula in exact arithmetic *)
Lemma row_start_double : forall n i, (i <= n)%nat -> (2 * row_start n i + i * i = 2 * n * i + i)%nat.
Proof.
  intros n. induction i as [|i IH]; intros H; [cbn; lia|]. cbn [row_start]. specialize (IH ltac:(lia)). nia.
Qed.

(** Position counted from the end: k = total - idx - 1; row i has the k with (n-i-1)(n-i)/2 <= k < (n-i)(n-i+1)/2. *)
Lemma floor_triangle : forall s k : Z, (0 <= s)%Z -> (s * (s + 1) <= 2 * k < (s + 1) * (s + 2))%Z ->
  Zfloor (- (1/2) + sqrt (1/4 + 2 * IZR k)) = s.
Proof.
  intros s k Hs [L U]. apply Zfloor_imp. rewrite plus_IZR.
  apply IZR_le in L. apply IZR_lt in U. rewrite !mult_IZR, !plus_IZR in *. apply IZR_le in Hs.
  assert (P : (0 <= 1/4 + 2 * IZR k)%R) by nra.
  split.
  - assert (IZR s + 1/2 <= sqrt (1/4 + 2 * IZR k))%R; [|lra].
    rewrite <- (sqrt_square (IZR s + 1/2)) by lra. apply sqrt_le_1_alt. nra.
  - assert (sqrt (1/4 + 2 * IZR k) < IZR s + 3/2)%R; [|lra].
    rewrite <- (sqrt_square (IZR s + 3/2)) by lra. apply sqrt_lt_1_alt. split; [exact P|nra].
Qed.

Lemma formula_spec : forall n i j idx, pair_number n i j idx ->
  formula_row n idx = Z.of_nat i /\ formula_column n idx = Z.of_nat j.
Proof.
  intros n i j idx [[H1 H2] ->]. pose proof (row_start_double n i ltac:(lia)) as R.
  set (rs := row_start n i) in *. clearbody rs.
  assert (E : formula_row n (rs + (j - i)) = Z.of_nat i).
  { unfold formula_row. rewrite (floor_triangle (Z.of_nat (n - i - 1))); [lia|lia|].
    assert (Ev : (2 * (Z.of_nat n * (Z.of_nat n + 1) / 2) = Z.of_nat n * (Z.of_nat n + 1))%Z).
    { symmetry. apply Z_div_exact_2; [lia|]. 
      destruct (Z.Even_or_Odd (Z.of_nat n)) as [[m ->]|[m ->]]; [replace (2 * m * (2 * m + 1))%Z with (m * (2 * m + 1) * 2)%Z by ring|replace ((2 * m + 1) * (2 * m + 1 + 1))%Z with ((2 * m + 1) * (m + 1) * 2)%Z by ring]; apply Z_mod_mult. }
    rewrite Z.mul_sub_distr_l, Z.mul_sub_distr_l, Ev. 
    replace (Z.of_nat (n - i - 1)) with (Z.of_nat n - Z.of_nat i - 1)%Z by lia.
    apply (f_equal Z.of_nat) in R. rewrite !Nat2Z.inj_add, !Nat2Z.inj_mul in R. 
    rewrite Nat2Z.inj_add, Nat2Z.inj_sub by lia. change (Z.of_nat 2) with 2%Z in R.
    assert (Z.of_nat i <= Z.of_nat j < Z.of_nat n)%Z by lia.
    split; nia. }
  split; [exact E|]. unfold formula_column. rewrite E.
  assert (Ev : (2 * (Z.of_nat i * (Z.of_nat i + 1) / 2) = Z.of_nat i * (Z.of_nat i + 1))%Z).
  { symmetry. apply Z_div_exact_2; [lia|]. 
    destruct (Z.Even_or_Odd (Z.of_nat i)) as [[m ->]|[m ->]]; [replace (2 * m * (2 * m + 1))%Z with (m * (2 * m + 1) * 2)%Z by ring|replace ((2 * m + 1) * (2 * m + 1 + 1))%Z with ((2 * m + 1) * (m + 1) * 2)%Z by ring]; apply Z_mod_mult. }
  rewrite Nat2Z.inj_add, Nat2Z.inj_sub by lia.
  apply (f_equal Z.of_nat) in R. rewrite !Nat2Z.inj_add, !Nat2Z.inj_mul in R. change (Z.of_nat 2) with 2%Z in R. nia.
Qed.

Lemma row_start_total : forall n, (2 * row_start n n = n * (n + 1))%nat.
Proof. intros n. pose proof (row_start_double n n (le_n n)). nia. Qed.

Lemma row_start_step : forall n i, row_start n (S i) = (row_start n i + (n - i))%nat.
Proof. reflexivity. Qed.

Lemma pair_number_exists : forall n idx, (idx < row_start n n)%nat -> exists i j, pair_number n i j idx.
Proof.
  intros n idx H.
  assert (G : forall i, (i <= n)%nat -> (idx < row_start n i)%nat -> exists i' j, pair_number n i' j idx).
  { induction i as [|i IH]; intros Hi Hx; [cbn in Hx; lia|].
    destruct (Nat.lt_ge_cases idx (row_start n i)) as [L|L]; [apply IH; [lia|exact L]|].
    rewrite row_start_step in Hx. exists i, (i + (idx - row_start n i))%nat. unfold pair_number. lia. }
  apply (G n); [lia|exact H].
Qed.

Lemma pair_number_bound : forall n i j idx, pair_number n i j idx -> (idx < row_start n n)%nat.
Proof.
  intros n i j idx [H ->].
  assert (M : forall k, (i + k <= n)%nat -> (row_start n i <= row_start n (i + k))%nat).
  { induction k as [|k IH]; intros Hk; [rewrite Nat.add_0_r; lia|]. rewrite Nat.add_succ_r, row_start_step. specialize (IH ltac:(lia)). lia. }
  pose proof (M (n - i)%nat ltac:(lia)) as Q.
  assert (M1 : forall k, (S i + k <= n)%nat -> (row_start n (S i) <= row_start n (S i + k))%nat).
  { induction k as [|k IH]; intros Hk; [rewrite Nat.add_0_r; lia|]. rewrite Nat.add_succ_r, (row_start_step n (S i + k)). specialize (IH ltac:(lia)). lia. }
  pose proof (M1 (n - S i)%nat ltac:(lia)) as Q1. replace (S i + (n - S i))%nat with n in Q1 by lia.
  rewrite row_start_step in Q1. lia.
Qed.

(** ** Instances *)
Section Instances.
Variable too_close : N -> N -> N -> N -> N -> bool.

Lemma check_dimensions_spec : forall ds f1 i1 f2 i2 b,
  check_dimensions too_close ds f1 i1 f2 i2 b = b || existsb (fun d => negb (d =? 0) && too_close d f1 i1 f2 i2) ds.
Proof.
  induction ds as [|d ds IH]; intros f1 i1 f2 i2 b; cbn [check_dimensions existsb]; [rewrite orb_false_r; reflexivity|].
  destruct b; [reflexivity|]. cbn [orb]. destruct (d =? 0); cbn [negb andb orb]; rewrite IH; reflexivity.
Qed.

Lemma check_second_spec : forall f1 fs ds i1 i2 b,
  check_second too_close f1 fs ds i1 i2 b =
  b || existsb (fun f2 => existsb (fun d => negb (d =? 0) && too_close d f1 i1 f2 i2) ds) fs.
Proof.
  intros f1. induction fs as [|f2 fs IH]; intros ds i1 i2 b; cbn [check_second existsb]; [rewrite orb_false_r; reflexivity|].
  destruct b; [reflexivity|]. rewrite IH, check_dimensions_spec. reflexivity.
Qed.

Lemma check_same_spec : forall fs ds i1 i2 b,
  check_same too_close fs ds i1 i2 b =
  b || existsb (fun f => existsb (fun d => negb (d =? 0) && too_close d f i1 f i2) ds) fs.
Proof.
  induction fs as [|f fs IH]; intros ds i1 i2 b; cbn [check_same existsb]; [rewrite orb_false_r; reflexivity|].
  destruct b; [reflexivity|]. rewrite IH, check_dimensions_spec. reflexivity.
Qed.

Lemma check_pairs_true : forall fs ds i1 i2 b, check_pairs too_close fs ds i1 i2 b = false <->
  b = false /\ forall k l f1 f2 d, (k < l)%nat -> nth_error fs k = Some f1 -> nth_error fs l = Some f2 -> In d ds -> d <> 0 ->
    too_close d f1 i1 f2 i2 = false.
Proof.
  induction fs as [|f1 fs IH]; intros ds i1 i2 b; cbn [check_pairs].
  { split; [intros ->; split; [reflexivity|]|tauto]. intros k l a c d _ E. destruct k; discriminate E. }
  destruct fs as [|f0 fs0].
  { split; [intros ->; split; [reflexivity|]|tauto]. intros k l a c d L E E2. destruct l as [|[|l]]; try discriminate E2. lia. }
  set (fs := f0 :: fs0) in *. destruct b; [split; [discriminate|intros [Q _]; discriminate Q]|].
  rewrite IH, check_second_spec. cbn [orb]. split.
  - intros [H1 H2]. split; [reflexivity|]. intros k l a c d L Ek El Hd Nd.
    destruct k as [|k]; destruct l as [|l]; try lia.
    + cbn in Ek, El. assert (a = f1) by congruence. subst a. rewrite <- not_true_iff_false in H1 |- *. intros T. apply H1.
      apply existsb_exists. exists c. split; [eapply nth_error_In; exact El|]. apply existsb_exists. exists d.
      split; [exact Hd|]. rewrite T. destruct (N.eqb_spec d 0); [contradiction|reflexivity].
    + cbn in Ek, El. apply (H2 k l a c d); auto. lia.
  - intros [_ H]. split.
    + apply not_true_iff_false. intros T. apply existsb_exists in T as [c [Hc T]]. apply existsb_exists in T as [d [Hd T]].
      apply andb_prop in T as [T1 T2]. apply In_nth_error in Hc as [l El].
      rewrite (H 0%nat (S l) f1 c d ltac:(lia) eq_refl El Hd) in T2; [discriminate T2|].
      destruct (N.eqb_spec d 0); [discriminate T1|assumption].
    + intros k l a c d L Ek El. apply (H (S k) (S l)); auto. lia.
Qed.

Lemma all_functions_nth : forall k f, nth_error all_bbob_functions k = Some f <-> (k < 24)%nat /\ f = N.of_nat k + 1.
Proof.
  intros k f. destruct (Nat.lt_ge_cases k 24) as [L|L].
  - assert (H : In k (seq 0 24)) by (apply in_seq; lia). cbn in H.
    repeat (destruct H as [<-|H]; [cbn; split; [intros Q; injection Q as <-; split; [lia|reflexivity]|intros [_ ->]; reflexivity]|]). destruct H.
  - rewrite (proj2 (nth_error_None _ _)) by (cbn; lia). split; [discriminate|lia].
Qed.

Lemma checks_spec : forall ds i1 i2,
  check_same too_close sel_bbob_functions ds i1 i2 (check_pairs too_close all_bbob_functions ds i1 i2 false) = false
  <-> acceptable too_close ds i1 i2.
Proof.
  intros ds i1 i2. rewrite check_same_spec, orb_false_iff, check_pairs_true. unfold acceptable, selected. split.
  - intros [[_ H1] H2] d Hd Nd. split.
    + intros f1 f2 L1 L2. apply (H1 (N.to_nat (f1 - 1)) (N.to_nat (f2 - 1))); auto; [lia|..]; apply all_functions_nth; lia.
    + intros f Hf. apply not_true_iff_false. intros T. apply not_true_iff_false in H2. apply H2. apply existsb_exists.
      exists f. split; [exact Hf|]. apply existsb_exists. exists d. split; [exact Hd|]. rewrite T.
      destruct (N.eqb_spec d 0); [contradiction|reflexivity].
  - intros H. split; [split; [reflexivity|]|].
    + intros k l f1 f2 d L Ek El Hd Nd. apply all_functions_nth in Ek, El. destruct (H d Hd Nd) as [H1 _]. apply H1; lia.
    + apply not_true_iff_false. intros T. apply existsb_exists in T as [f [Hf T]]. apply existsb_exists in T as [d [Hd T]].
      apply andb_prop in T as [T1 T2]. assert (Nd : d <> 0) by (destruct (N.eqb_spec d 0); [discriminate T1|assumption]).
      destruct (H d Hd Nd) as [_ H2]. rewrite (H2 f Hf) in T2. discriminate T2.
Qed.

Lemma wrap_small : forall z, (0 <= z < 2 ^ 64)%Z -> wrap z = Z.to_N z.
Proof. intros z H. unfold wrap, size_max. change (Z.of_N (2 ^ 64)) with (2 ^ 64)%Z. rewrite Z.mod_small by exact H. reflexivity. Qed.

Lemma new_instance_spec : forall left t i1 ds, i1 + t + N.of_nat left < 2 ^ 64 ->
  (forall i2, new_instance too_close left t i1 ds = Ok i2 <->
     i1 + t < i2 <= i1 + t + N.of_nat left /\ acceptable too_close ds i1 i2 /\
     forall i, i1 + t < i < i2 -> ~ acceptable too_close ds i1 i) /\
  (new_instance too_close left t i1 ds = Err <-> forall i, i1 + t < i <= i1 + t + N.of_nat left -> ~ acceptable too_close ds i1 i) /\
  new_instance too_close left t i1 ds <> UB.
Proof.
  induction left as [|left IH]; intros t i1 ds B; cbn [new_instance].
  - split; [|split; [split; [intros _ i H; lia|reflexivity]|discriminate]]. intros i2. split; [discriminate|]. intros [H _]. lia.
  - cbv zeta.
    assert (W : wrap (Z.of_N i1 + Z.of_N (t + 1)) = i1 + t + 1) by (rewrite wrap_small; lia). rewrite W.
    pose proof (checks_spec ds i1 (i1 + t + 1)) as C.
    destruct (check_same too_close sel_bbob_functions ds i1 (i1 + t + 1)
                (check_pairs too_close all_bbob_functions ds i1 (i1 + t + 1) false)) eqn:E.
    + assert (Na : ~ acceptable too_close ds i1 (i1 + t + 1)) by (intros A; apply C in A; discriminate A).
      specialize (IH (t + 1) i1 ds ltac:(lia)). replace (i1 + (t + 1)) with (i1 + t + 1) in IH by lia.
      destruct IH as [I1 [I2 I3]]. split; [|split; [|exact I3]].
      * intros i2. rewrite I1. split; intros [H1 [H2 H3]].
        -- split; [lia|]. split; [exact H2|]. intros i Hi A. destruct (N.eq_dec i (i1 + t + 1)) as [->|Ne]; [contradiction|].
           apply (H3 i); [lia|exact A].
        -- assert (i2 <> i1 + t + 1) by (intros ->; contradiction). split; [lia|]. split; [exact H2|].
           intros i Hi. apply H3. lia.
      * rewrite I2. split; intros H i Hi.
        -- destruct (N.eq_dec i (i1 + t + 1)) as [->|Ne]; [exact Na|]. apply H. lia.
        -- apply H. lia.
    + assert (A : acceptable too_close ds i1 (i1 + t + 1)) by (apply C; reflexivity).
      split; [|split; [|discriminate]].
      * intros i2. split.
        -- intros Q. injection Q as <-. split; [lia|]. split; [exact A|]. intros i Hi. lia.
        -- intros [H1 [H2 H3]]. f_equal. destruct (N.eq_dec i2 (i1 + t + 1)) as [->|Ne]; [reflexivity|].
           exfalso. apply (H3 (i1 + t + 1)); [lia|exact A].
      * split; [discriminate|]. intros H. exfalso. apply (H (i1 + t + 1)); [lia|exact A].
Qed.
End Instances.

(** ** Reference values *)
Lemma hyp_found : forall V (table : list (cstr * V)) key value i v, nth_error table i = Some (key, v) ->
  (forall j k w, (j < i)%nat -> nth_error table j = Some (k, w) -> k <> key) -> hyp_loop table key value = v.
Proof.
  intros V. induction table as [|[k w] t IH]; intros key value i v E H; [destruct i; discriminate E|].
  cbn [hyp_loop]. destruct (streq k key) eqn:Q.
  - apply streq_spec in Q. subst k. destruct i as [|i]; [cbn in E; congruence|]. exfalso. apply (H 0%nat key w); [lia|reflexivity|reflexivity].
  - destruct i as [|i]; [cbn in E; injection E as -> ->; rewrite (proj2 (streq_spec _ _) eq_refl) in Q; discriminate Q|].
    apply (IH key w i v E). intros j k' w' L. apply (H (S j)). lia.
Qed.

Lemma hyp_absent : forall V (table : list (cstr * V)) key value, (forall w, ~ In (key, w) table) ->
  hyp_loop table key value = last (map snd table) value.
Proof.
  intros V. induction table as [|[k w] t IH]; intros key value H; [reflexivity|]. cbn [hyp_loop].
  destruct (streq k key) eqn:Q; [apply streq_spec in Q; subst; exfalso; apply (H w); left; reflexivity|].
  rewrite IH by (intros u Hu; apply (H u); right; exact Hu). cbn [map snd].
  clear. assert (D : forall l (a d d' : V), last (a :: l) d = last (a :: l) d').
  { induction l as [|b l IH]; intros a d d'; [reflexivity|]. change (last (b :: l) d = last (b :: l) d'). apply IH. }
  destruct (map snd t) as [|a l]; [reflexivity|]. change (last (a :: l) w = last (a :: l) value). apply D.
Qed.
