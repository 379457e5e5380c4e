(** Optima of the benchmark functions in exact arithmetic: the transformations keep them. *)

From Coq Require Import ZArith List Bool Reals Lra Lia.
From Verif Require Import FunModel FunSpec.
Import ListNotations.
Local Open Scope R_scope.

Notation RA := real_arith.
Notation "x .[ i ]" := (at_ RA x i) (at level 1, left associativity, format "x .[ i ]").

(** ** Literals, comparisons *)

Ltac lits :=
  unfold zero in *;
  change (add RA) with Rplus in *; change (sub RA) with Rminus in *; change (mul RA) with Rmult in *;
  change (div RA) with Rdiv in *; change (opp RA) with Ropp in *; change (abs RA) with Rabs in *;
  change (of_nat RA) with INR in *; change (FunModel.sqrt RA) with R_sqrt.sqrt in *;
  change (FunModel.cos RA) with Rtrigo_def.cos in *; change (FunModel.sin RA) with Rtrigo_def.sin in *;
  change (FunModel.exp RA) with Rtrigo_def.exp in *; change (FunModel.pow RA) with real_pow in *;
  change (coco_pi RA) with PI in *; change (num RA) with R in *;
  repeat match goal with
  | |- context [lit RA ?m ?e] =>
      let d := eval compute in (10 ^ e)%Z in change (lit RA m e) with (IZR m / IZR d)
  | H : context [lit RA ?m ?e] |- _ =>
      let d := eval compute in (10 ^ e)%Z in change (lit RA m e) with (IZR m / IZR d) in H
  end.

Lemma lit0 : lit RA 0 0 = 0. Proof. lits. lra. Qed.
Lemma zero0 : zero RA = 0. Proof. exact lit0. Qed.
Lemma lit1 m : lit RA m 0 = IZR m. Proof. cbn -[IZR]. field. Qed.

Lemma lt_true x y : FunModel.lt RA x y = true <-> x < y.
Proof. cbn. destruct (Rlt_dec x y); intuition congruence. Qed.
Lemma lt_false x y : FunModel.lt RA x y = false <-> y <= x.
Proof. cbn. destruct (Rlt_dec x y); intuition (try congruence; lra). Qed.
Lemma le_true x y : FunModel.le RA x y = true <-> x <= y.
Proof. cbn. destruct (Rle_dec x y); intuition congruence. Qed.

(** ** Vectors and loops *)

Lemma vec_length {S} n (f : nat -> S) : length (vec n f) = n.
Proof. unfold vec. rewrite map_length, seq_length. reflexivity. Qed.

Lemma vec_nth {S} n (f : nat -> S) d i : (i < n)%nat -> nth i (vec n f) d = f i.
Proof.
  intros H. unfold vec. rewrite nth_indep with (d' := f 0%nat) by (rewrite map_length, seq_length; exact H).
  rewrite map_nth, seq_nth by exact H. reflexivity.
Qed.

Lemma vec_at n (f : nat -> R) i : (i < n)%nat -> (vec n f : list (num RA)).[i] = f i.
Proof. apply (@vec_nth R). Qed.

Lemma vec_ext {S} n (f g : nat -> S) : (forall i, (i < n)%nat -> f i = g i) -> vec n f = vec n g.
Proof. intros H. unfold vec. apply map_ext_in. intros i I. apply in_seq in I. apply H. lia. Qed.

Lemma list_vec (x : list R) n : length x = n -> vec n (fun i => at_ RA x i) = x.
Proof.
  intros H. subst n. unfold vec. induction x as [|a x IH]; [reflexivity|]. cbn [length seq map].
  f_equal. rewrite <- seq_shift, map_map. exact IH.
Qed.

Lemma vec_repeat (c : R) n : vec n (fun _ => c) = repeat c n.
Proof.
  unfold vec. generalize 0%nat. induction n as [|n IH]; intros a; [reflexivity|]. cbn. f_equal. apply IH.
Qed.

Lemma repeat_at (c : R) n i : (i < n)%nat -> (repeat c n : list (num RA)).[i] = c.
Proof. intros H. rewrite <- (vec_repeat c n). apply vec_at. exact H. Qed.

Lemma loop_ind {S} (P : S -> Prop) n f s :
  P s -> (forall i s, (i < n)%nat -> P s -> P (f i s)) -> P (loop n f s).
Proof.
  intros H F. induction n as [|n IH]; [exact H|]. cbn. apply F; [lia|]. apply IH. intros i t I. apply F. lia.
Qed.

Lemma loop_nonneg n f (s : R) :
  0 <= s -> (forall i s, (i < n)%nat -> 0 <= s -> 0 <= f i s) -> 0 <= loop n f s.
Proof. apply (loop_ind (fun r => 0 <= r)). Qed.

Lemma loop_zero n f (s : R) : s = 0 -> (forall i, (i < n)%nat -> f i 0 = 0) -> loop n f s = 0.
Proof.
  intros H F. apply (loop_ind (fun r => r = 0)); [exact H|]. intros i t I E. rewrite E. apply F. exact I.
Qed.

Lemma loop_ext {S} n (f g : nat -> S -> S) s : (forall i t, (i < n)%nat -> f i t = g i t) -> loop n f s = loop n g s.
Proof.
  intros H. induction n as [|n IH]; [reflexivity|]. cbn. rewrite IH, H by (intros; try apply H; lia). reflexivity.
Qed.

Lemma loop_total n f (s : R) : loop n (fun i r => r + f i) s = s + total n f.
Proof. induction n as [|n IH]; cbn; [lra|]. rewrite IH. lra. Qed.

Lemma total_ext n f g : (forall i, (i < n)%nat -> f i = g i) -> total n f = total n g.
Proof. intros H. induction n as [|n IH]; [reflexivity|]. cbn. rewrite IH, H by (intros; try apply H; lia). reflexivity. Qed.

Lemma total_scale n c f : total n (fun i => c * f i) = c * total n f.
Proof. induction n as [|n IH]; cbn; [lra|]. rewrite IH. lra. Qed.

Lemma total_plus n f g : total n (fun i => f i + g i) = total n f + total n g.
Proof. induction n as [|n IH]; cbn; [lra|]. rewrite IH. lra. Qed.

Lemma total_const n c : total n (fun _ => c) = INR n * c.
Proof. induction n as [|n IH]; [cbn; lra|]. cbn [total]. rewrite IH, S_INR. lra. Qed.

Lemma total_swap n m f : total n (fun i => total m (fun j => f i j)) = total m (fun j => total n (fun i => f i j)).
Proof.
  induction n as [|n IH]; cbn.
  - rewrite total_const. lra.
  - rewrite IH, <- total_plus. reflexivity.
Qed.

Lemma total_le n f g : (forall i, (i < n)%nat -> f i <= g i) -> total n f <= total n g.
Proof.
  intros H. induction n as [|n IH]; cbn; [lra|]. assert (f n <= g n) by (apply H; lia).
  assert (total n f <= total n g) by (apply IH; intros; apply H; lia). lra.
Qed.

Lemma total_delta n k c : (k < n)%nat -> total n (fun i => if Nat.eqb k i then c else 0) = c.
Proof.
  induction n as [|n IH]; [lia|]. intros K. cbn. destruct (Nat.eqb_spec k n) as [->|N].
  - rewrite total_ext with (g := fun _ => 0).
    + rewrite total_const. lra.
    + intros i I. destruct (Nat.eqb_spec n i); [lia|reflexivity].
  - rewrite IH by lia. lra.
Qed.

Lemma total_term n f k : (k < n)%nat -> (forall i, (i < n)%nat -> 0 <= f i) -> f k <= total n f.
Proof.
  induction n as [|n IH]; [lia|]. intros K H. cbn. assert (0 <= f n) by (apply H; lia).
  assert (0 <= total n f).
  { rewrite <- (Rmult_0_r (INR n)), <- total_const. apply total_le. intros; apply H; lia. }
  destruct (Nat.eq_dec k n) as [->|N]; [lra|]. specialize (IH ltac:(lia) ltac:(intros; apply H; lia)). lra.
Qed.

Lemma no_nan (x : list (num RA)) : contains_nan RA x = false.
Proof. unfold contains_nan. induction x as [|a x IH]; [reflexivity|]. exact IH. Qed.

(** ** pow *)

Lemma pow_zero y : y <> 0 -> real_pow 0 y = 0.
Proof. intros H. unfold real_pow. destruct (Req_EM_T 0 0); [|lra]. destruct (Req_EM_T y 0); [lra|reflexivity]. Qed.

Lemma pow_pos x y : 0 < x -> real_pow x y = Rpower x y.
Proof.
  intros H. unfold real_pow. destruct (Req_EM_T x 0); [lra|]. destruct (Rlt_dec 0 x); [reflexivity|lra].
Qed.

Lemma Rpower_gt0 x y : 0 < Rpower x y. Proof. apply exp_pos. Qed.

Lemma pow_gt0 x y : 0 < x -> 0 < real_pow x y.
Proof. intros H. rewrite pow_pos by exact H. apply Rpower_gt0. Qed.

Lemma pow_nonneg x y : 0 <= x -> 0 <= real_pow x y.
Proof.
  intros H. destruct (Req_dec x 0) as [->|N].
  - unfold real_pow. destruct (Req_EM_T 0 0); [|lra]. destruct (Req_EM_T y 0); lra.
  - left. apply pow_gt0. lra.
Qed.

Lemma Int_part_IZR z : Int_part (IZR z) = z.
Proof. unfold Int_part. rewrite <- (up_tech (IZR z) z); [lia|lra|apply IZR_lt; lia]. Qed.

Lemma pow_2 x : real_pow x 2 = x * x.
Proof.
  unfold real_pow. destruct (Req_EM_T x 0) as [->|N]; [destruct (Req_EM_T 2 0); lra|].
  destruct (Rlt_dec 0 x) as [P|P].
  - change 2 with (INR 2). rewrite Rpower_pow by exact P. cbn. ring.
  - rewrite Int_part_IZR. destruct (Req_EM_T 2 2); [|lra]. unfold powerRZ.
    change (Pos.to_nat 2) with 2%nat. cbn. ring.
Qed.

Lemma pow_3_nonneg x : 0 <= x -> 0 <= real_pow x 3.
Proof. apply pow_nonneg. Qed.

Lemma pow_ge1 x y : 1 <= x -> 0 <= y -> 1 <= real_pow x y.
Proof.
  intros X Y. rewrite pow_pos by lra. unfold Rpower. rewrite <- exp_0.
  assert (0 <= ln x). { rewrite <- ln_1. destruct X as [X|<-]; [left; apply ln_increasing; lra|right; reflexivity]. }
  assert (0 <= y * ln x) by (apply Rmult_le_pos; assumption).
  destruct H0 as [H0|<-]; [left; apply exp_increasing; exact H0|right; reflexivity].
Qed.

Lemma pow_one y : real_pow 1 y = 1.
Proof. rewrite pow_pos by lra. unfold Rpower. rewrite ln_1, Rmult_0_r. apply exp_0. Qed.

(** ** Problems with an optimum *)

Section Good.
Variable n : nat.

Definition good (p : real_problem) : Prop :=
  dimension _ p = n /\ length (best_parameter _ p) = n /\
  evaluate _ p (best_parameter _ p) = best_value _ p /\
  forall x, length x = n -> best_value _ p <= evaluate _ p x.

Definition box (p : real_problem) : Prop := smallest _ p = repeat (lit RA (-5) 0) n /\ largest _ p = repeat (lit RA 5 0) n.

Lemma evaluate_with p f x : evaluate _ (with_evaluate RA p f) x = f x.
Proof. cbn. rewrite no_nan. reflexivity. Qed.

Lemma allocate_good raw b : (forall x, length x = n -> raw (repeat b n) <= raw x) -> good (allocate RA n raw b).
Proof.
  intros H. unfold good, allocate. cbn [dimension best_parameter best_value evaluate]. rewrite repeat_length.
  repeat split. intros x X. rewrite !no_nan. apply H. exact X.
Qed.

Lemma vars_good p g : good p -> (forall i, (i < n)%nat -> g (best_parameter _ p) i = (best_parameter _ p).[i]) ->
  good (with_evaluate RA p (fun x => evaluate _ p (vec (dimension _ p) (g x)))).
Proof.
  intros (D & B & E & H) F. unfold good. rewrite D.
  change (best_parameter RA (with_evaluate RA p ?f)) with (best_parameter _ p).
  change (best_value RA (with_evaluate RA p ?f)) with (best_value _ p).
  change (dimension RA (with_evaluate RA p ?f)) with (dimension _ p).
  split; [exact D|]. split; [exact B|]. split.
  - rewrite evaluate_with. rewrite <- E. f_equal. etransitivity; [|apply list_vec; exact B].
    apply vec_ext. exact F.
  - intros x X. rewrite evaluate_with. apply H. apply vec_length.
Qed.

Lemma new_best_good p g b : good p -> length b = n ->
  (forall i, (i < n)%nat -> g b i = (best_parameter _ p).[i]) ->
  good (with_best_parameter RA (with_evaluate RA p (fun x => evaluate _ p (vec (dimension _ p) (g x)))) b).
Proof.
  intros (D & B & E & H) L F. unfold good. rewrite D.
  cbn [with_best_parameter dimension best_parameter best_value evaluate with_evaluate]. rewrite !no_nan.
  split; [exact D|]. split; [exact L|]. split.
  - rewrite <- E. f_equal. etransitivity; [|apply list_vec; exact B]. apply vec_ext. exact F.
  - intros x X. rewrite no_nan. apply H. apply vec_length.
Qed.

Lemma shift_good p o : good p -> good (vars_shift RA p o).
Proof.
  intros G. destruct (G) as (D & B & _). unfold vars_shift. cbv zeta.
  apply (new_best_good p (fun x i => sub RA x.[i] (at_ RA o i))); [exact G| |].
  - rewrite vec_length. exact D.
  - intros i I. cbv beta. rewrite D, vec_at by exact I. cbn. ring.
Qed.

Lemma shift_best p o i : dimension _ p = n -> (i < n)%nat ->
  (best_parameter _ (vars_shift RA p o)).[i] = (best_parameter _ p).[i] + at_ RA o i.
Proof. intros D I. unfold vars_shift. cbn [with_best_parameter best_parameter]. rewrite D, vec_at by exact I. reflexivity. Qed.

Lemma scale_good p c : c <> 0 -> good p -> good (vars_scale RA p c).
Proof.
  intros C G. destruct (G) as (D & B & _). unfold vars_scale. cbv zeta.
  replace (FunModel.lt RA c (zero RA) || FunModel.lt RA (zero RA) c) with true.
  2:{ symmetry. apply orb_true_iff. rewrite !lt_true, zero0. cbn in c. lra. }
  apply (new_best_good p (fun x i => mul RA c x.[i])); [exact G| |].
  - rewrite vec_length. exact D.
  - intros i I. cbv beta. rewrite D, vec_at by exact I. cbn in *. field. exact C.
Qed.

Lemma scale_best p c i : c <> 0 -> dimension _ p = n -> (i < n)%nat ->
  (best_parameter _ (vars_scale RA p c)).[i] = (best_parameter _ p).[i] / c.
Proof.
  intros C D I. unfold vars_scale. cbv zeta.
  replace (FunModel.lt RA c (zero RA) || FunModel.lt RA (zero RA) c) with true.
  2:{ symmetry. apply orb_true_iff. rewrite !lt_true, zero0. cbn in c. lra. }
  cbn [with_best_parameter best_parameter]. rewrite D, vec_at by exact I. reflexivity.
Qed.

(** *** Transformations that fix zero *)

Definition at_zero (p : real_problem) : Prop := best_parameter _ p = repeat 0 n.

Lemma at_zero_at p i : at_zero p -> (best_parameter _ p).[i] = 0.
Proof.
  intros ->. unfold at_. fold (num RA). destruct (Nat.lt_ge_cases i n) as [I|I].
  - apply (repeat_at 0 n i I).
  - rewrite nth_overflow by (rewrite repeat_length; exact I). apply zero0.
Qed.

Lemma not_zero_repeat m : not_zero RA (repeat 0 m) = false.
Proof.
  unfold not_zero. rewrite no_nan. cbn [orb]. apply negb_false_iff. apply forallb_forall.
  intros v V. apply repeat_spec in V. subst v. unfold almost_equal. apply lt_true. rewrite zero0. lits.
  rewrite Rminus_0_r, Rabs_R0. lra.
Qed.

Lemma zeros_repeat m : zeros RA m = repeat 0 m.
Proof. unfold zeros. rewrite zero0. reflexivity. Qed.

Lemma affine_good p M : good p -> at_zero p -> good (vars_affine RA p M (zeros RA n)) /\ at_zero (vars_affine RA p M (zeros RA n)).
Proof.
  intros G Z. unfold vars_affine. cbv zeta. rewrite zeros_repeat, (not_zero_repeat n), Z, (not_zero_repeat n).
  cbn [orb]. split; [|exact Z].
  apply (vars_good p (fun x i => loop (dimension RA p) (fun j r => add RA r (mul RA x.[j] (entry RA M i j))) (at_ RA (repeat 0 n) i)));
    [exact G|].
  intros i I. cbv beta. rewrite Z, repeat_at by exact I. apply loop_zero; [reflexivity|].
  intros j J. rewrite repeat_at by (destruct G as (D & _); rewrite D in J; exact J). cbn. ring.
Qed.

Lemma conditioning_good p a : good p -> at_zero p -> good (vars_conditioning RA p a) /\ at_zero (vars_conditioning RA p a).
Proof.
  intros G Z. split; [|exact Z]. unfold vars_conditioning. cbv zeta.
  apply (vars_good p (fun x i => mul RA (FunModel.pow RA a
    (div RA (mul RA (lit RA 5 1) (of_nat RA i)) (sub RA (of_nat RA (dimension RA p)) (lit RA 1 0)))) x.[i])); [exact G|].
  intros i I. cbv beta. rewrite at_zero_at by exact Z. cbn. ring.
Qed.

Lemma asymmetric_good p b : good p -> at_zero p -> good (vars_asymmetric RA p b) /\ at_zero (vars_asymmetric RA p b).
Proof.
  intros G Z. split; [|exact Z]. unfold vars_asymmetric. cbv zeta.
  apply (vars_good p (fun x i => if FunModel.lt RA (zero RA) x.[i] then FunModel.pow RA x.[i]
    (add RA (lit RA 1 0) (mul RA (div RA (mul RA b (of_nat RA i)) (sub RA (of_nat RA (dimension RA p)) (lit RA 1 0)))
      (FunModel.sqrt RA x.[i]))) else x.[i])); [exact G|].
  intros i I. cbv beta. rewrite at_zero_at by exact Z. replace (FunModel.lt RA (zero RA) 0) with false; [reflexivity|].
  symmetry. apply lt_false. rewrite zero0. lra.
Qed.

Lemma oscillate_good p : good p -> at_zero p -> good (vars_oscillate RA p) /\ at_zero (vars_oscillate RA p).
Proof.
  intros G Z. split; [|exact Z]. unfold vars_oscillate. cbv zeta.
  apply (vars_good p (fun x i => if FunModel.lt RA (zero RA) x.[i] || FunModel.lt RA x.[i] (zero RA)
    then oscillate RA x.[i] else zero RA)); [exact G|].
  intros i I. cbv beta. rewrite at_zero_at by exact Z.
  replace (FunModel.lt RA (zero RA) 0) with false by (symmetry; apply lt_false; rewrite zero0; lra).
  replace (FunModel.lt RA 0 (zero RA)) with false by (symmetry; apply lt_false; rewrite zero0; lra).
  apply zero0.
Qed.

Lemma brs_good p : good p -> at_zero p -> good (vars_brs RA p) /\ at_zero (vars_brs RA p).
Proof.
  intros G Z. split; [|exact Z]. unfold vars_brs. cbv zeta.
  apply (vars_good p (fun x i => mul RA (if FunModel.lt RA (zero RA) x.[i] && Nat.even i
    then mul RA (FunModel.pow RA (FunModel.sqrt RA (lit RA 10 0)) (div RA (of_nat RA i) (sub RA (of_nat RA (dimension RA p)) (lit RA 1 0)))) (lit RA 10 0)
    else FunModel.pow RA (FunModel.sqrt RA (lit RA 10 0)) (div RA (of_nat RA i) (sub RA (of_nat RA (dimension RA p)) (lit RA 1 0)))) x.[i])); [exact G|].
  intros i I. cbv beta. rewrite at_zero_at by exact Z. cbn. ring.
Qed.

(** *** Transformations of the value *)

Lemma obj_shift_good p v : good p -> good (obj_shift RA p v).
Proof.
  intros (D & B & E & H). unfold good, obj_shift.
  cbn [with_best_value dimension best_parameter best_value evaluate with_evaluate]. rewrite no_nan.
  repeat split; try assumption.
  - rewrite E. reflexivity.
  - intros x X. rewrite no_nan. cbn. specialize (H x X). cbn in H. lra.
Qed.

Lemma norm_good p : good p -> best_value _ p = 0 -> (2 <= n)%nat -> good (obj_norm_by_dim RA p).
Proof.
  intros (D & B & E & H) V N. unfold good, obj_norm_by_dim.
  assert (F : 0 <= fmin RA (lit RA 1 0) (div RA (lit RA 40 0) (of_nat RA (dimension RA p)))).
  { unfold fmin. destruct (FunModel.lt RA _ _); [lits; lra|]. lits. rewrite D.
    assert (0 < INR n) by (apply lt_0_INR; lia). apply Rlt_le, Rdiv_lt_0_compat; lra. }
  cbn [dimension best_parameter best_value evaluate with_evaluate]. rewrite no_nan.
  repeat split; try assumption.
  - rewrite E, V. cbn. ring.
  - intros x X. rewrite no_nan. specialize (H x X). rewrite V in *. cbn in *. apply Rmult_le_pos; assumption.
Qed.

Lemma oscillate_nonneg y : 0 <= y -> 0 <= oscillate RA y.
Proof.
  intros H. unfold oscillate. cbv zeta. destruct (FunModel.lt RA (zero RA) y) eqn:E.
  - cbn. apply pow_nonneg. left. apply exp_pos.
  - destruct (FunModel.lt RA y (zero RA)) eqn:F; [apply lt_true in F; rewrite zero0 in F; cbn in *; lra|exact H].
Qed.

Lemma oscillate_zero : oscillate RA 0 = 0.
Proof.
  unfold oscillate. cbv zeta.
  replace (FunModel.lt RA (zero RA) 0) with false by (symmetry; apply lt_false; rewrite zero0; lra).
  replace (FunModel.lt RA 0 (zero RA)) with false by (symmetry; apply lt_false; rewrite zero0; lra).
  reflexivity.
Qed.

Lemma value_good p (h : R -> R) : good p -> best_value _ p = 0 -> h 0 = 0 -> (forall y, 0 <= y -> 0 <= h y) ->
  let q := with_evaluate RA p (fun x => h (evaluate _ p x)) in
  good (with_best_value RA q (evaluate _ q (best_parameter _ q))) /\
  best_value _ (with_best_value RA q (evaluate _ q (best_parameter _ q))) = 0.
Proof.
  intros (D & B & E & H) V Z N q. unfold good, q.
  cbn [with_best_value dimension best_parameter best_value evaluate with_evaluate]. rewrite !no_nan, E, V, Z.
  repeat split; try assumption.
  intros x X. rewrite no_nan. apply N. rewrite <- V. apply H. exact X.
Qed.

Lemma obj_oscillate_good p : good p -> best_value _ p = 0 -> good (obj_oscillate RA p) /\ best_value _ (obj_oscillate RA p) = 0.
Proof. intros G V. apply (value_good p (oscillate RA) G V oscillate_zero oscillate_nonneg). Qed.

Lemma obj_power_good p e : e <> 0 -> good p -> best_value _ p = 0 -> good (obj_power RA p e) /\ best_value _ (obj_power RA p e) = 0.
Proof.
  intros E G V. apply (value_good p (fun y => real_pow y e) G V (pow_zero e E)). intros y. apply pow_nonneg.
Qed.

Lemma within_at c x i : length x = n -> within c x -> (i < n)%nat -> - c <= at_ RA x i <= c.
Proof.
  intros L W I. unfold within in W. rewrite Forall_forall in W. apply W. unfold at_. apply nth_In. fold (num RA) in *; cbn in *; lia.
Qed.

Lemma within_intro c x : length x = n -> (forall i, (i < n)%nat -> - c <= at_ RA x i <= c) -> within c x.
Proof.
  intros L H. apply Forall_forall. intros v V. destruct (In_nth x v (zero RA) V) as (i & I & <-). apply H. lia.
Qed.

Lemma penalize_good p c : 0 <= c -> good p -> box p -> within 5 (best_parameter _ p) -> good (obj_penalize RA p c).
Proof.
  intros C (D & B & E & H) (S & L) W. unfold good, obj_penalize.
  cbn [dimension best_parameter best_value evaluate with_evaluate]. rewrite no_nan.
  split; [exact D|]. split; [exact B|]. split.
  - rewrite E, (loop_zero _ _ (zero RA)).
    + cbn. ring.
    + apply zero0.
    + intros i I. cbv zeta. rewrite D in I. rewrite S, L, !repeat_at by exact I.
      pose proof (within_at _ _ i B W I) as A.
      replace (FunModel.lt RA (zero RA) _) with false.
      2:{ symmetry. apply lt_false. rewrite zero0. lits. cbn in *. lra. }
      replace (FunModel.lt RA (zero RA) _) with false; [reflexivity|].
      symmetry. apply lt_false. rewrite zero0. lits. cbn in *. lra.
  - intros x X. rewrite no_nan. specialize (H x X). cbv zeta. cbn [add mul RA].
    match goal with |- _ <= _ + _ * ?l => assert (0 <= l) end.
    { apply loop_nonneg; [rewrite zero0; lra|]. intros i s I Q.
      repeat match goal with |- context [if ?b then _ else _] => destruct b end; cbn; try assumption;
        (apply Rplus_le_le_0_compat; [exact Q|apply Rle_0_sqr]). }
    assert (0 <= c * loop (dimension RA p) (fun i s =>
      let c1 := sub RA x.[i] (largest RA p).[i] in let c2 := sub RA (smallest RA p).[i] x.[i] in
      if FunModel.lt RA (zero RA) c1 then add RA s (mul RA c1 c1) else if FunModel.lt RA (zero RA) c2 then add RA s (mul RA c2 c2) else s) (zero RA))
      by (apply Rmult_le_pos; assumption).
    cbn in *. lra.
Qed.

(** A problem with an optimum in the region of interest satisfies the specification. *)
Lemma optimum_intro p v : good p -> best_value _ p = v -> within 5 (best_parameter _ p) -> optimum n p v.
Proof. intros (D & B & E & H) V W. rewrite <- V. unfold optimum. tauto. Qed.

End Good.
