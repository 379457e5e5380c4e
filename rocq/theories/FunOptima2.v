(** The optima of the rotated Rosenbrock, Griewank-Rosenbrock, Gallagher and Lunacek functions. *)

From Coq Require Import ZArith List Bool Reals Lra Lia.
From Verif Require Import FunModel FunSpec FunProofs FunOptima.
Import ListNotations.
Local Open Scope R_scope.

(** ** Orthonormal rows *)

Section Ortho.
Variables (n : nat) (M : list (list R)).
Hypothesis O : orthonormal n M.

Definition column (j : nat) : R := total n (fun k => cell M k j).

Lemma cell_entry i j : entry RA M i j = cell M i j.
Proof. unfold entry, cell. rewrite zero0. reflexivity. Qed.

(** R (R^T 1) = 1 *)
Lemma row_column i : (i < n)%nat -> total n (fun j => column j * cell M i j) = 1.
Proof.
  intros I. unfold column.
  rewrite (total_ext n _ (fun j => total n (fun k => cell M i j * cell M k j))).
  - rewrite (total_swap n n (fun j k => cell M i j * cell M k j)).
    rewrite (total_ext n _ (fun k => if Nat.eqb i k then 1 else 0)).
    + apply total_delta. exact I.
    + intros k K. apply O; assumption.
  - intros j J. rewrite total_scale. apply Rmult_comm.
Qed.

Lemma column_norm : total n (fun j => column j * column j) = INR n.
Proof.
  rewrite (total_ext n _ (fun j => total n (fun k => column j * cell M k j))).
  - rewrite (total_swap n n (fun j k => column j * cell M k j)).
    rewrite (total_ext n _ (fun _ => 1)).
    + rewrite total_const. ring.
    + intros k K. apply row_column. exact K.
  - intros j J. rewrite total_scale. reflexivity.
Qed.

Lemma column_bound j : (j < n)%nat -> Rabs (column j) <= R_sqrt.sqrt (INR n).
Proof.
  intros J. rewrite <- sqrt_Rsqr_abs. apply sqrt_le_1_alt. rewrite <- column_norm. unfold Rsqr.
  apply (total_term n (fun j => column j * column j)); [exact J|]. intros; apply sq_pos.
Qed.

End Ortho.

Lemma factor_Rmax m : rosenbrock_factor RA m = Rmax 1 (R_sqrt.sqrt (INR m) / 8).
Proof.
  unfold rosenbrock_factor, double_max. lits. unfold Rmax. replace (1/1) with 1 by field. replace (8/1) with 8 by field.
  change (FunModel.le RA ?a ?b) with (if Rle_dec a b then true else false).
  destruct (Rle_dec (R_sqrt.sqrt (INR m) / 8) 1), (Rle_dec 1 (R_sqrt.sqrt (INR m) / 8)); lra.
Qed.

Lemma factor_ge m : 1 <= rosenbrock_factor RA m /\ R_sqrt.sqrt (INR m) / 8 <= rosenbrock_factor RA m.
Proof. rewrite factor_Rmax. split; [apply Rmax_l|apply Rmax_r]. Qed.

Lemma evaluate_affine p M b x :
  evaluate _ (vars_affine RA p M b) x =
  evaluate _ p (vec (dimension _ p) (fun i => loop (dimension _ p) (fun j r => r + x.[j] * entry RA M i j) (at_ RA b i))).
Proof.
  unfold vars_affine. cbv zeta. destruct (_ || _); [destruct (is_orthogonal _ _ _)|];
    cbn [with_best_parameter evaluate with_evaluate]; rewrite no_nan; reflexivity.
Qed.

Lemma st_direct n p v b : dimension _ p = n -> length (best_parameter _ p) = n -> box n p -> best_value _ p = v ->
  evaluate _ p (best_parameter _ p) = v -> (forall x, length x = n -> v <= evaluate _ p x) ->
  (forall i, (i < n)%nat -> (best_parameter _ p).[i] = b i) -> st n p v b.
Proof. intros D L B V E H F. rewrite <- V in *. repeat split; try apply B; try assumption. Qed.

Lemma entry_vec n (f : nat -> nat -> R) i j : (i < n)%nat -> (j < n)%nat ->
  entry RA (vec n (fun i => vec n (fun j => f i j))) i j = f i j.
Proof.
  intros I J. unfold entry. change (num RA) with R.
  rewrite (@vec_nth (list R) n (fun i => vec n (fun j => f i j)) nil i I). apply vec_at. exact J.
Qed.

(** ** Rotated Rosenbrock *)

Lemma rotated_affine n M c x i : (i < n)%nat -> orthonormal n M -> c <> 0 ->
  (forall j, (j < n)%nat -> at_ RA x j = column n M j / (2 * c)) ->
  loop n (fun j r => r + at_ RA x j * (c * cell M i j)) (1/2) = 1.
Proof.
  intros I O C X. rewrite loop_total. rewrite (total_ext n _ (fun j => 1/2 * (column n M j * cell M i j))).
  - rewrite total_scale, row_column by assumption. lra.
  - intros j J. rewrite X by exact J. field. exact C.
Qed.

Lemma rosenbrock_rotated_st n (d : real_draws) : (2 <= n)%nat -> orthonormal n (rot2 _ d) ->
  st n (rosenbrock_rotated_bbob RA n d) (fopt _ d) (fun j => column n (rot2 _ d) j / (2 * rosenbrock_factor RA n)).
Proof.
  intros N O. destruct (factor_ge n) as (F1 & _). set (c := rosenbrock_factor RA n) in *.
  assert (C : c <> 0) by (cbn in *; lra).
  set (b := vec n (fun j => div RA (loop n (fun i t => add RA t (entry RA (rot2 RA d) i j)) (zero RA)) (mul RA (lit RA 2 0) c))).
  assert (B : forall j, (j < n)%nat -> at_ RA b j = column n (rot2 _ d) j / (2 * c)).
  { intros j J. unfold b. rewrite vec_at by exact J. rewrite zero0. lits. rewrite loop_total, Rplus_0_l.
    replace (2/1) with 2 by field. unfold column. f_equal. apply total_ext. intros k K. apply cell_entry. }
  set (M := vec n (fun i => vec n (fun j => mul RA c (entry RA (rot2 RA d) i j)))).
  assert (ME : forall i j, (i < n)%nat -> (j < n)%nat -> entry RA M i j = c * cell (rot2 RA d) i j).
  { intros i j I J. etransitivity; [exact (entry_vec n _ i j I J)|]. rewrite cell_entry. reflexivity. }
  set (p := with_best_parameter RA (allocate RA n (rosenbrock_raw RA n) (lit RA 1 0)) (zeros RA n)).
  assert (E : rosenbrock_rotated_bbob RA n d =
    with_best_parameter RA (obj_shift RA (vars_affine RA p M (repeat (lit RA 5 1) n)) (fopt RA d)) b) by reflexivity.
  destruct (affine_copies p M (repeat (lit RA 5 1) n)) as (A1 & A2 & A3 & A4).
  assert (EV : forall x, evaluate _ (rosenbrock_rotated_bbob RA n d) x =
    rosenbrock_raw RA n (vec n (fun i => loop n (fun j r => r + at_ RA x j * entry RA M i j) (at_ RA (repeat (lit RA 5 1) n) i))) + fopt _ d).
  { intros x. rewrite E. cbn [with_best_parameter obj_shift with_best_value evaluate with_evaluate]. rewrite no_nan.
    rewrite evaluate_affine. unfold p. cbn [with_best_parameter evaluate dimension allocate]. rewrite no_nan. reflexivity. }
  apply st_direct.
  - rewrite E. exact A4.
  - rewrite E. apply vec_length.
  - rewrite E. unfold box. cbn [with_best_parameter obj_shift with_best_value smallest largest with_evaluate].
    rewrite A1, A2. split; reflexivity.
  - rewrite E. cbn [with_best_parameter obj_shift with_best_value best_value]. rewrite A3. unfold p.
    cbn [with_best_parameter best_value allocate]. rewrite no_nan. rewrite lit1, rosenbrock_one by exact N. lits. ring.
  - rewrite EV, E. cbn [with_best_parameter best_parameter].
    rewrite (vec_ext n _ (fun _ => 1)).
    + rewrite vec_repeat, rosenbrock_one by exact N. lits. ring.
    + intros i I. rewrite repeat_at by exact I. replace (lit RA 5 1) with (1/2) by (lits; field).
      etransitivity; [|exact (rotated_affine n (rot2 _ d) c b i I O C B)]. apply loop_ext. intros j r J. rewrite ME by assumption. reflexivity.
  - intros x X. rewrite EV. pose proof (rosenbrock_nonneg n (vec n (fun i => loop n (fun j r => r + at_ RA x j * entry RA M i j) (at_ RA (repeat (lit RA 5 1) n) i)))).
    cbn in *. lra.
  - intros i I. rewrite E. cbn [with_best_parameter best_parameter]. apply B. exact I.
Qed.

Lemma rotated_within n M c j : orthonormal n M -> (j < n)%nat -> 1 <= c -> R_sqrt.sqrt (INR n) / 8 <= c ->
  -5 <= column n M j / (2 * c) <= 5.
Proof.
  intros O J C1 C2. pose proof (column_bound n M O j J) as H. apply Rabs_def2b in H || idtac.
  assert (- R_sqrt.sqrt (INR n) <= column n M j <= R_sqrt.sqrt (INR n)) as (H1 & H2).
  { unfold Rabs in H. destruct (Rcase_abs _); lra. }
  split.
  - apply (Rmult_le_reg_r (2 * c)); [lra|]. unfold Rdiv. rewrite Rmult_assoc, Rinv_l by lra. lra.
  - apply (Rmult_le_reg_r (2 * c)); [lra|]. unfold Rdiv. rewrite Rmult_assoc, Rinv_l by lra. lra.
Qed.

(** ** Griewank-Rosenbrock *)

Lemma INR64 : INR 64 = 8 * 8.
Proof. rewrite INR_IZR_INZ. change (Z.of_nat 64) with 64%Z. ring. Qed.

Lemma factor_small n : (n <= 64)%nat -> rosenbrock_factor RA n = 1.
Proof.
  intros H. rewrite factor_Rmax. apply Rmax_left.
  assert (R_sqrt.sqrt (INR n) <= 8); [|lra]. rewrite <- (sqrt_square 8) by lra. apply sqrt_le_1_alt.
  rewrite <- INR64. apply le_INR. exact H.
Qed.

Lemma griewank_copies n c (d : real_draws) :
  let s := rosenbrock_factor RA n in
  let p := griewank_rosenbrock_bbob RA n c d in
  dimension _ p = n /\ box n p /\
  (forall x, evaluate _ p x = griewank_rosenbrock_raw RA n c
     (vec n (fun i => total n (fun j => at_ RA x j * (cell (rot2 _ d) i j * s)) + 1/2)) + fopt _ d) /\
  length (best_parameter _ p) = n /\
  (forall j, (j < n)%nat -> (best_parameter _ p).[j] = column n (rot2 _ d) j * s / (2 * s)) /\
  best_value _ p = griewank_rosenbrock_raw RA n c (repeat 1 n) + fopt _ d.
Proof.
  cbv zeta. unfold griewank_rosenbrock_bbob. cbv zeta. set (s := rosenbrock_factor RA n).
  set (M := vec n (fun i => vec n (fun j => mul RA (entry RA (rot2 RA d) i j) s))).
  assert (ME : forall i j, (i < n)%nat -> (j < n)%nat -> entry RA M i j = cell (rot2 RA d) i j * s).
  { intros i j I J. etransitivity; [exact (entry_vec n _ i j I J)|]. rewrite cell_entry. reflexivity. }
  set (p0 := vars_shift RA (obj_shift RA (allocate RA n (griewank_rosenbrock_raw RA n c) (lit RA 1 0)) (fopt RA d)) (repeat (opp RA (lit RA 5 1)) n)).
  set (p := with_best_parameter RA p0 (zeros RA n)).
  destruct (affine_copies p M (zeros RA n)) as (A1 & A2 & A3 & A4).
  split; [exact A4|]. split; [split; [cbn [with_best_parameter smallest]; rewrite A1|cbn [with_best_parameter largest]; rewrite A2]; reflexivity|].
  split; [|split; [apply vec_length|split]].
  - intros x. cbn [with_best_parameter evaluate]. rewrite evaluate_affine. unfold p.
    cbn [with_best_parameter evaluate dimension]. unfold p0, vars_shift. cbv zeta.
    cbn [with_best_parameter evaluate with_evaluate dimension obj_shift with_best_value allocate]. rewrite !no_nan.
    change (add RA) with Rplus. f_equal. f_equal. apply vec_ext. intros i I. rewrite repeat_at by exact I.
    rewrite vec_at by exact I. rewrite zeros_repeat, repeat_at by exact I. lits. rewrite loop_total.
    replace (0 + total n (fun j => x.[j] * entry RA M i j) - - (5/10)) with (total n (fun j => x.[j] * entry RA M i j) + 1/2) by field.
    f_equal. apply total_ext. intros j J. f_equal. apply ME; assumption.
  - intros j J. cbn [with_best_parameter best_parameter]. rewrite vec_at by exact J. rewrite zero0. lits.
    rewrite loop_total, Rplus_0_l. replace (2/1) with 2 by field. f_equal. unfold column.
    rewrite Rmult_comm, <- total_scale. apply total_ext. intros k K. rewrite ME by assumption. apply Rmult_comm.
  - cbn [with_best_parameter best_value]. rewrite A3. unfold p, p0.
    cbn [with_best_parameter best_value vars_shift with_evaluate obj_shift with_best_value allocate]. rewrite no_nan, lit1. reflexivity.
Qed.

Lemma griewank_st n c (d : real_draws) : (2 <= n <= 64)%nat -> 0 <= c -> orthonormal n (rot2 _ d) ->
  st n (griewank_rosenbrock_bbob RA n c d) (fopt _ d) (fun j => column n (rot2 _ d) j / 2).
Proof.
  intros (N & N') C O. destruct (griewank_copies n c d) as (H1 & H2 & H3 & H4 & H5 & H6). cbv zeta in *.
  rewrite (factor_small n N') in *.
  assert (B : forall j, (j < n)%nat -> (best_parameter RA (griewank_rosenbrock_bbob RA n c d)).[j] = column n (rot2 RA d) j / 2).
  { intros j J. rewrite H5 by exact J. change (num RA) with R. field. }
  apply st_direct; try assumption.
  - rewrite H6, griewank_at; [lits; ring|exact N|]. intros i I. apply repeat_at. exact I.
  - rewrite H3, griewank_at; [lits; ring|exact N|]. intros i I. rewrite vec_at by exact I.
    rewrite (total_ext n _ (fun j => 1/2 * (column n (rot2 _ d) j * cell (rot2 _ d) i j))).
    + rewrite total_scale, row_column by assumption. lra.
    + intros j J. rewrite B by exact J. field.
  - intros x X. rewrite H3.
    pose proof (griewank_nonneg n N c (vec n (fun i => total n (fun j => x.[j] * (cell (rot2 RA d) i j * 1)) + 1 / 2)) C). cbn in *. lra.
Qed.

(** For more than 64 variables the reported point is not optimal. *)
Lemma griewank_large n c (d : real_draws) : (64 < n)%nat -> 0 < c -> orthonormal n (rot2 _ d) ->
  let p := griewank_rosenbrock_bbob RA n c d in
  best_value _ p = fopt _ d /\ fopt _ d < evaluate _ p (best_parameter _ p).
Proof.
  intros N C O p. destruct (griewank_copies n c d) as (H1 & H2 & H3 & H4 & H5 & H6). cbv zeta in *. fold p in H1, H2, H3, H4, H5, H6.
  assert (N2 : (2 <= n)%nat) by lia. assert (S1 : 1 < rosenbrock_factor RA n).
  { apply Rlt_le_trans with (R_sqrt.sqrt (INR n) / 8); [|apply factor_ge].
    assert (8 < R_sqrt.sqrt (INR n)); [|lra]. rewrite <- (sqrt_square 8) at 1 by lra. apply sqrt_lt_1_alt. split; [lra|].
    rewrite <- INR64. apply lt_INR. exact N. }
  set (s := rosenbrock_factor RA n) in *. change (num RA) with R in s.
  split.
  - rewrite H6, griewank_at; [lits; ring|exact N2|]. intros i I. apply repeat_at. exact I.
  - rewrite H3.
    rewrite (vec_ext n _ (fun _ => s / 2 + 1/2)).
    2:{ intros i I. f_equal. rewrite (total_ext n _ (fun j => s / 2 * (column n (rot2 _ d) j * cell (rot2 _ d) i j))).
        - rewrite total_scale, row_column by assumption. field.
        - intros j J. rewrite H5 by exact J. field. lra. }
    rewrite vec_repeat, griewank_total. cbv zeta. set (y := s / 2 + 1 / 2).
    rewrite (total_ext (n - 1) _ (fun _ => (100 * (y * y - y) * (y * y - y) + (1 - y) * (1 - y)) / 4000 -
      Rtrigo_def.cos (100 * (y * y - y) * (y * y - y) + (1 - y) * (1 - y)))).
    2:{ intros i I. rewrite !repeat_at by lia. reflexivity. }
    set (t := 100 * (y * y - y) * (y * y - y) + (1 - y) * (1 - y)).
    assert (T : 0 < t).
    { assert (1 < y) by (unfold y; lra). unfold t. pose proof (sq_pos (y * y - y)). rewrite Rmult_assoc.
      assert (0 < (1 - y) * (1 - y)) by nra. lra. }
    rewrite total_const. pose proof (INR_pred n N2). pose proof (cos_le t).
    replace (c + c * (INR (n - 1) * (t / 4000 - Rtrigo_def.cos t)) / INR (n - 1)) with (c * (1 + (t / 4000 - Rtrigo_def.cos t))) by (field; lra).
    assert (0 < c * (1 + (t / 4000 - Rtrigo_def.cos t))) by (apply Rmult_lt_0_compat; lra).
    change (num RA) with R in *. lra.
Qed.

(** ** Gallagher *)

Lemma loop_max m (f : nat -> R) : f 0%nat = 10 -> (forall i, (i < S m)%nat -> f i <= 10) ->
  loop (S m) (fun i a => double_max RA a (f i)) 0 = 10.
Proof.
  intros F0 F. induction m as [|m IH].
  - cbn [loop]. unfold double_max. rewrite F0.
    change (FunModel.le RA ?a ?b) with (if Rle_dec a b then true else false). destruct (Rle_dec 10 0); lra.
  - cbn [loop] in *. rewrite IH by (intros; apply F; lia). unfold double_max.
    replace (FunModel.le RA (f (S m)) 10) with true; [reflexivity|]. symmetry. apply le_true. apply F. lia.
Qed.

Lemma gallagher_nonneg n c rot k x : 0 <= c -> 0 <= gallagher_raw RA n c rot k x.
Proof.
  intros C. unfold gallagher_raw. cbv zeta.
  match goal with |- 0 <= add RA (mul RA ?a ?a) _ => pose proof (sq_pos a) end.
  pose proof (excess_nonneg n (lit RA 5 0) x). lits.
  match goal with H : 0 <= excess RA n ?b x |- _ => assert (0 <= excess RA n b x * c) by (apply Rmult_le_pos; assumption) end. lra.
Qed.

Lemma gallagher_best n np boxed fc b c ps (d : real_draws) : (2 <= n)%nat -> (3 <= np)%nat -> 0 < fc -> 0 <= b <= 10 -> c = b / 2 ->
  Forall (fun v => 0 <= v <= 1) (locations _ d) ->
  let (k, best) := gallagher_data RA n np boxed fc b c d in
  gallagher_raw RA n ps (rot2 _ d) k best = 0 /\ length best = n /\
  forall i, (i < n)%nat -> at_ RA best i = (if boxed then 1 else 8/10) * (b * at_ RA (locations _ d) i - c) /\ -5 <= at_ RA best i <= 5.
Proof.
  intros N NP FC BB CC LOC. unfold gallagher_data. cbv zeta.
  set (sf := if boxed then lit RA 1 0 else lit RA 8 1).
  assert (SF : sf = if boxed then 1 else 8/10) by (unfold sf; destruct boxed; lits; lra).
  set (best := vec n (fun i => mul RA sf (sub RA (mul RA b (at_ RA (locations RA d) i)) c))).
  assert (LB : forall i, 0 <= at_ RA (locations RA d) i <= 1).
  { intros i. unfold at_. destruct (Nat.lt_ge_cases i (length (locations RA d))) as [I|I].
    - rewrite Forall_forall in LOC. apply LOC. apply nth_In. exact I.
    - rewrite nth_overflow by exact I. rewrite zero0. lra. }
  assert (B : forall i, (i < n)%nat -> at_ RA best i = (if boxed then 1 else 8/10) * (b * at_ RA (locations RA d) i - c) /\ -5 <= at_ RA best i <= 5).
  { intros i I. unfold best. rewrite vec_at by exact I. rewrite SF. lits. split; [reflexivity|]. rewrite CC.
    specialize (LB i). destruct boxed; nra. }
  split; [|split; [apply vec_length|exact B]].
  unfold gallagher_raw. cbv zeta. cbn [number_of_peaks x_local arr_scales peak_values].
  rewrite excess_zero.
  2:{ intros i I. destruct (B i I) as (_ & W). lits. lra. }
  set (local := vec n (fun i => vec np (fun j => match j with
      | O => mul RA (loop n (fun k r => add RA r (mul RA (entry RA (rot2 RA d) i k) (sub RA (mul RA b (at_ RA (locations RA d) (j * n + k))) c))) (zero RA)) sf
      | S _ => loop n (fun k r => add RA r (mul RA (entry RA (rot2 RA d) i k) (sub RA (mul RA b (at_ RA (locations RA d) (j * n + k))) c))) (zero RA) end))).
  set (cond := vec np (fun i => match i with O => fc | S k => FunModel.pow RA (lit RA 1000 0) (div RA (of_nat RA (nth k (condition_order RA d) 0%nat)) (of_nat RA (np - 2))) end)).
  set (vals := vec np (fun i => match i with O => lit RA 10 0 | S k => add RA (mul RA (div RA (of_nat RA k) (of_nat RA (np - 2))) (sub RA (lit RA 91 1) (lit RA 11 1))) (lit RA 11 1) end)).
  set (scales := vec np (fun i => vec n (fun j => FunModel.pow RA (at_ RA cond i) (sub RA (div RA (of_nat RA (nth j (nth i (scale_order RA d) nil) 0%nat)) (of_nat RA (n - 1))) (lit RA 5 1))))).
  set (tmx := vec n (fun i => loop n (fun j r => add RA r (mul RA (entry RA (rot2 RA d) i j) (at_ RA best j))) (zero RA))).
  assert (CP : forall i, (i < np)%nat -> 0 < at_ RA cond i).
  { intros i I. unfold cond. rewrite vec_at by exact I. destruct i; [exact FC|]. apply pow_gt0. lits. lra. }
  assert (VP : forall i, (i < np)%nat -> 0 <= at_ RA vals i <= 10).
  { intros i I. unfold vals. rewrite vec_at by exact I. destruct i; [lits; lra|]. lits.
    assert (0 <= INR i / INR (np - 2) <= 1).
    { assert (1 <= INR (np - 2)) by (change 1 with (INR 1); apply le_INR; lia).
      assert (INR i <= INR (np - 2)) by (apply le_INR; lia). pose proof (pos_INR i). split.
      - apply Rmult_le_pos; [assumption|]. apply Rlt_le, Rinv_0_lt_compat. lra.
      - apply (Rmult_le_reg_r (INR (np - 2))); [lra|]. unfold Rdiv. rewrite Rmult_assoc, Rinv_l by lra. lra. }
    lra. }
  assert (V0 : at_ RA vals 0 = 10) by (unfold vals; rewrite vec_at by lia; lits; lra).
  assert (SP : forall i j, (i < np)%nat -> (j < n)%nat -> 0 <= entry RA scales i j).
  { intros i j I J. unfold entry, scales. change (num RA) with R.
    rewrite (@vec_nth (list R) np _ nil i I). rewrite (@vec_nth R n _ (zero RA) j J). left. apply pow_gt0. apply CP. exact I. }
  assert (TM : forall j, (j < n)%nat -> at_ RA tmx j = entry RA local j 0).
  { intros j J. unfold tmx, entry, local. rewrite vec_at by exact J. change (num RA) with R.
    rewrite (@vec_nth (list R) n _ nil j J). rewrite (@vec_nth R np _ (zero RA) 0 ltac:(lia)). cbn [Nat.mul Nat.add].
    rewrite zero0. lits. rewrite !loop_total, !Rplus_0_l, Rmult_comm, <- total_scale. apply total_ext. intros k K.
    unfold best. rewrite vec_at by exact K. lits. rewrite cell_entry.
    change (nth k (nth j (rot2 RA d) []) 0) with (cell (rot2 RA d) j k). ring. }
  set (T := fun i => loop n (fun j t => add RA t (mul RA (mul RA (entry RA scales i j) (sub RA (at_ RA tmx j) (entry RA local j i))) (sub RA (at_ RA tmx j) (entry RA local j i)))) (zero RA)).
  assert (T0 : T 0%nat = 0).
  { unfold T. apply loop_zero; [apply zero0|]. intros j J. rewrite TM by exact J. lits. ring. }
  assert (TN : forall i, (i < np)%nat -> 0 <= T i).
  { intros i I. unfold T. apply loop_nonneg; [rewrite zero0; lra|]. intros j t J H. apply Rplus_le_le_0_compat; [exact H|].
    apply weighted. apply SP; assumption. }
  match goal with |- context [loop np ?g ?z] => assert (E : loop np g z = 10) end.
  { change (loop np (fun i a => double_max RA a (mul RA (at_ RA vals i) (FunModel.exp RA (mul RA (div RA (opp RA (lit RA 5 1)) (of_nat RA n)) (T i))))) (zero RA) = 10).
    destruct np as [|m]; [lia|]. rewrite zero0. apply (loop_max m (fun i => at_ RA vals i * Rtrigo_def.exp (div RA (opp RA (lit RA 5 1)) (of_nat RA n) * T i))).
    - rewrite T0, V0, Rmult_0_r, exp_0. ring.
    - intros i I. specialize (TN i I). specialize (VP i I). pose proof (INR_ge2 n N). lits.
      assert (- (5/10) / INR n <= 0).
      { unfold Rdiv at 1. assert (0 < / INR n) by (apply Rinv_0_lt_compat; lra). nra. }
      assert (Rtrigo_def.exp (- (5 / 10) / INR n * T i) <= 1).
      { rewrite <- exp_0. assert (- (5/10) / INR n * T i <= 0) by nra.
        destruct H1 as [H1|H1]; [left; apply exp_increasing; exact H1|rewrite H1; lra]. }
      pose proof (exp_pos (- (5 / 10) / INR n * T i)). nra. }
  rewrite E. lits. replace (10 / 1 - 10) with 0 by field. rewrite oscillate_zero. ring.
Qed.

(** ** Lunacek *)

Lemma lunacek_s n : (2 <= n)%nat -> 0 <= 1/1 - 5/10 / (R_sqrt.sqrt (INR (n + 20)) - 41/10).
Proof.
  intros N. assert (46/10 <= R_sqrt.sqrt (INR (n + 20))).
  { rewrite <- (sqrt_square (46/10)) by lra. apply sqrt_le_1_alt. rewrite plus_INR. pose proof (INR_ge2 n N).
    replace (INR 20) with 20 by (rewrite INR_IZR_INZ; reflexivity). lra. }
  assert (5/10 / (R_sqrt.sqrt (INR (n + 20)) - 41/10) <= 1); [|lra].
  apply (Rmult_le_reg_r (R_sqrt.sqrt (INR (n + 20)) - 41/10)); [lra|]. unfold Rdiv at 1. rewrite Rmult_assoc, Rinv_l by lra. lra.
Qed.

Lemma double_min_nonneg a b : 0 <= a -> 0 <= b -> 0 <= double_min RA a b.
Proof. unfold double_min. destruct (FunModel.le RA a b); intros; assumption. Qed.

Lemma loop_cos_le n f : loop n (fun i r => r + Rtrigo_def.cos (f i)) 0 <= INR n.
Proof.
  rewrite loop_total, Rplus_0_l. rewrite <- (Rmult_1_r (INR n)), <- total_const. apply total_le. intros; apply cos_le.
Qed.

Lemma sum_sq_nonneg n (f : nat -> R) : 0 <= loop n (fun i r => r + f i * f i) 0.
Proof. apply loop_nonneg; [lra|]. intros i s I H. pose proof (sq_pos (f i)). lra. Qed.

Lemma lunacek_nonneg n o r1 r2 x : (2 <= n)%nat -> 0 <= lunacek_raw RA n o r1 r2 x.
Proof.
  intros N. unfold lunacek_raw. cbv zeta. rewrite zero0.
  set (x_hat := vec n (fun i => if FunModel.lt RA (at_ RA o i) 0 then _ else _)).
  pose proof (excess_nonneg n (lit RA 5 0) x) as P. pose proof (lunacek_s n N) as S.
  match goal with |- 0 <= add RA (add RA (double_min RA ?a ?b) (mul RA ?c (sub RA ?d ?e))) _ =>
    assert (0 <= double_min RA a b); [|assert (e <= d)] end.
  - apply double_min_nonneg.
    + apply (sum_sq_nonneg n (fun i => at_ RA x_hat i - lit RA 25 1)).
    + lits. match goal with |- 0 <= _ + ?s * loop n (fun i r => r + (_ - ?m) * (_ - ?m)) 0 =>
        pose proof (sum_sq_nonneg n (fun i => at_ RA x_hat i - m)) as Q end.
      pose proof (pos_INR n). apply Rplus_le_le_0_compat; [lra|]. apply Rmult_le_pos; [exact S|exact Q].
  - lits. apply loop_cos_le.
  - match goal with |- 0 <= add RA (add RA ?m (mul RA ?c (sub RA ?d ?e))) (mul RA ?f ?g) =>
      assert (0 <= d - e) by (cbn in *; lra); change (0 <= m + c * (d - e) + f * g) end.
    lits. lra.
Qed.

Lemma lunacek_xopt_at n g i : (i < n)%nat ->
  at_ RA (lunacek_xopt RA n g) i = if Rlt_dec (at_ RA g i) 0 then -125/100 else 125/100.
Proof.
  intros I. unfold lunacek_xopt. cbv zeta. rewrite vec_at by exact I. rewrite zero0.
  change (FunModel.lt RA ?a ?b) with (if Rlt_dec a b then true else false). destruct (Rlt_dec _ _); lits; lra.
Qed.

Lemma lunacek_best n g r1 r2 : (2 <= n)%nat -> let o := lunacek_xopt RA n g in lunacek_raw RA n o r1 r2 o = 0.
Proof.
  intros N o. unfold lunacek_raw. cbv zeta.
  set (x_hat := vec n (fun i => if FunModel.lt RA (at_ RA o i) (zero RA) then mul RA (mul RA (lit RA 2 0) (at_ RA o i)) (lit RA (-1) 0) else mul RA (lit RA 2 0) (at_ RA o i))).
  assert (X : forall i, (i < n)%nat -> at_ RA x_hat i = lit RA 25 1).
  { intros i I. unfold x_hat. rewrite vec_at by exact I. unfold o. rewrite lunacek_xopt_at by exact I. rewrite zero0.
    change (FunModel.lt RA ?a ?b) with (if Rlt_dec a b then true else false).
    destruct (Rlt_dec (at_ RA g i) 0); [destruct (Rlt_dec (-125/100) 0)|destruct (Rlt_dec (125/100) 0)]; lits; lra. }
  set (tmpv := vec n (fun i => loop n (fun j r => add RA r (mul RA (mul RA (FunModel.pow RA (FunModel.sqrt RA (lit RA 100 0)) (div RA (of_nat RA i) (of_nat RA (n - 1)))) (entry RA r2 i j)) (sub RA (at_ RA x_hat j) (lit RA 25 1)))) (zero RA))).
  assert (TV : forall i, (i < n)%nat -> at_ RA tmpv i = 0).
  { intros i I. unfold tmpv. rewrite vec_at by exact I. apply loop_zero; [apply zero0|]. intros j J. rewrite X by exact J. lits. ring. }
  set (z := vec n (fun i => loop n (fun j r => add RA r (mul RA (entry RA r1 i j) (at_ RA tmpv j))) (zero RA))).
  assert (Z : forall i, (i < n)%nat -> at_ RA z i = 0).
  { intros i I. unfold z. rewrite vec_at by exact I. apply loop_zero; [apply zero0|]. intros j J. rewrite TV by exact J. lits. ring. }
  rewrite excess_zero.
  2:{ intros i I. unfold o. rewrite lunacek_xopt_at by exact I. lits. destruct (Rlt_dec _ _); lra. }
  rewrite (loop_zero n (fun i r => add RA r (mul RA (sub RA (at_ RA x_hat i) (lit RA 25 1)) (sub RA (at_ RA x_hat i) (lit RA 25 1))))).
  2:{ apply zero0. } 2:{ intros i I. rewrite X by exact I. lits. ring. }
  rewrite (loop_ext n (fun i r => add RA r (FunModel.cos RA (mul RA (mul RA (lit RA 2 0) (coco_pi RA)) (at_ RA z i)))) (fun i r => r + 1)).
  2:{ intros i t I. rewrite Z by exact I. lits. rewrite Rmult_0_r, cos_0. reflexivity. }
  rewrite (loop_total n (fun _ => 1)), total_const.
  rewrite zero0. lits.
  match goal with |- context [double_min RA 0 ?b] => assert (Q : 0 <= b) end.
  { match goal with |- 0 <= _ + ?s * loop n (fun i r => r + (_ - ?m) * (_ - ?m)) 0 =>
        pose proof (sum_sq_nonneg n (fun i => at_ RA x_hat i - m)) as Q end.
    pose proof (pos_INR n). apply Rplus_le_le_0_compat; [lra|]. apply Rmult_le_pos; [exact (lunacek_s n N)|exact Q]. }
  match goal with |- context [double_min RA 0 ?b] => assert (E : double_min RA 0 b = 0) end.
  { unfold double_min. apply le_true in Q. rewrite Q. reflexivity. }
  rewrite E. ring.
Qed.
