(** The constructed problems compute the published functions. *)

From Coq Require Import ZArith List Bool Reals Lra Lia.
From Verif Require Import FunModel FunSpec FunProofs FunOptima FunOptima2 FunDocSpec.
Import ListNotations.
Local Open Scope R_scope.

Lemma coord_at (x : list R) i : at_ RA x i = coord x i.
Proof. unfold at_, coord. rewrite zero0. reflexivity. Qed.

Lemma cell_eq (M : list (list R)) i j : entry RA M i j = cell M i j.
Proof. unfold entry, cell. rewrite zero0. reflexivity. Qed.

Lemma lt_dec x y : FunModel.lt RA x y = if Rlt_dec x y then true else false.
Proof. reflexivity. Qed.

Lemma max_Rmax a b : double_max RA a b = Rmax a b.
Proof.
  unfold double_max. change (FunModel.le RA b a) with (if Rle_dec b a then true else false). unfold Rmax. change (num RA) with R in *.
  destruct (Rle_dec b a), (Rle_dec a b); lra.
Qed.
Lemma min_Rmin a b : double_min RA a b = Rmin a b.
Proof.
  unfold double_min. change (FunModel.le RA a b) with (if Rle_dec a b then true else false). unfold Rmin.
  destruct (Rle_dec a b); reflexivity.
Qed.

Lemma round_nearest x : double_round RA x = nearest x.
Proof. unfold double_round, nearest. lits. replace (5/10) with (1/2) by field. reflexivity. Qed.

(** ** Powers *)

Lemma sqrt_sq_base a : 0 < a -> forall y, real_pow (R_sqrt.sqrt a) y = Rpower a (y / 2).
Proof.
  intros H y. rewrite pow_pos by (apply sqrt_lt_R0; exact H). rewrite <- Rpower_sqrt by exact H. rewrite Rpower_mult.
  f_equal. field.
Qed.

Lemma pow_power x y : 0 <= x -> y <> 0 -> real_pow x y = power x y.
Proof.
  intros X Y. unfold power. destruct (Req_EM_T x 0) as [->|E]; [apply pow_zero; exact Y|]. apply pow_pos. lra.
Qed.

Lemma real_pow_3 x : real_pow x 3 = x ^ 3.
Proof.
  unfold real_pow. destruct (Req_EM_T x 0) as [->|E]; [destruct (Req_EM_T 3 0); [lra|ring]|].
  destruct (Rlt_dec 0 x) as [P|P].
  - replace 3 with (INR 3) at 1 by (cbn; lra). apply Rpower_pow. exact P.
  - rewrite (Int_part_IZR 3). destruct (Req_EM_T 3 (IZR 3)) as [_|F]; [reflexivity|lra].
Qed.

Lemma osz_eq x : oscillate RA x = osz x.
Proof.
  unfold oscillate, osz. cbv zeta. rewrite !lt_dec, zero0. change (log RA) with ln. lits. unfold sign.
  destruct (Rlt_dec 0 x) as [P|P].
  - rewrite (Rabs_pos_eq x) by lra. rewrite pow_pos by apply exp_pos. unfold Rpower. rewrite ln_exp, Rmult_1_l.
    f_equal. replace (ln x / (1 / 10)) with (10 * ln x) by field. replace (79 / 100 * (10 * ln x)) with (7.9 * ln x) by lra. lra.
  - destruct (Rlt_dec x 0) as [N|N].
    + rewrite (Rabs_left x) by lra. rewrite pow_pos by apply exp_pos. unfold Rpower. rewrite ln_exp.
      match goal with |- _ = -1 * ?e => replace (-1 * e) with (- e) by ring end. f_equal. f_equal. replace (ln (- x) / (1 / 10)) with (10 * ln (- x)) by field.
      replace (55 / 100 * (10 * ln (- x))) with (5.5 * ln (- x)) by lra.
      replace (31 / 100 * (10 * ln (- x))) with (3.1 * ln (- x)) by lra. lra.
    + lra.
Qed.

(** ** Problems that compute a function of the coordinates *)

Section Computes.
Variable n : nat.
Hypothesis N : (2 <= n)%nat.

Lemma INR_n1 : INR n - 1 = INR (n - 1).
Proof using N. rewrite minus_INR by lia. reflexivity. Qed.
Lemma INR_n1_pos : 1 <= INR (n - 1).
Proof using N. rewrite <- INR_n1. pose proof (INR_ge2 n N). lra. Qed.

Definition computes (p : real_problem) (F : point -> R) : Prop :=
  dimension _ p = n /\ box n p /\ forall z : point, evaluate _ p (vec n z) = F z.

Lemma computes_ext p F G : computes p F -> (forall z, F z = G z) -> computes p G.
Proof. intros (A & B & C) E. split; [exact A|]. split; [exact B|]. intros z. rewrite C. apply E. Qed.

Lemma computes_list p F x : computes p F -> length x = n -> evaluate _ p x = F (coord x).
Proof.
  intros (_ & _ & C) L. rewrite <- C. f_equal. rewrite <- (list_vec x n L) at 1. apply vec_ext. intros i I. apply coord_at.
Qed.

Lemma computes_alloc raw b F : (forall z, raw (vec n z) = F z) -> computes (allocate RA n raw b) F.
Proof. intros H. split; [reflexivity|]. split; [split; reflexivity|]. intros z. cbn. rewrite no_nan. apply H. Qed.

Lemma computes_best p F b : computes p F -> computes (with_best_parameter RA p b) F.
Proof. intros (A & B & C). split; [exact A|]. split; [exact B|]. exact C. Qed.
Lemma computes_value p F v : computes p F -> computes (with_best_value RA p v) F.
Proof. intros (A & B & C). split; [exact A|]. split; [exact B|]. exact C. Qed.

Lemma computes_vars p F (g : list R -> nat -> R) (G : point -> point) : computes p F ->
  (forall z i, (i < n)%nat -> g (vec n z) i = G z i) ->
  computes (with_evaluate RA p (fun x => evaluate _ p (vec n (g x)))) (fun z => F (G z)).
Proof.
  intros (A & B & C) H. split; [exact A|]. split; [exact B|]. intros z. rewrite evaluate_with. rewrite <- C. f_equal.
  apply vec_ext. intros i I. apply H. exact I.
Qed.

Lemma computes_shift p F o G : computes p F -> (forall i, (i < n)%nat -> coord o i = G i) ->
  computes (vars_shift RA p o) (fun z => F (minus z G)).
Proof.
  intros C E. unfold vars_shift. rewrite (proj1 C). apply computes_best. apply computes_vars; [exact C|].
  intros z i I. rewrite vec_at by exact I. rewrite coord_at, E by exact I. reflexivity.
Qed.

Lemma computes_scale p F c : computes p F -> computes (vars_scale RA p c) (fun z => F (fun i => c * z i)).
Proof.
  intros C. unfold vars_scale. rewrite (proj1 C). cbv zeta.
  assert (K : computes (with_evaluate RA p (fun x => evaluate _ p (vec n (fun i => mul RA c x.[i])))) (fun z => F (fun i => c * z i))).
  { apply (computes_vars p F (fun x i => c * x.[i])); [exact C|]. intros z i I. rewrite vec_at by exact I. reflexivity. }
  destruct (_ || _); [apply computes_best|]; exact K.
Qed.

Lemma computes_affine_gen p F M b (G : point -> point) : computes p F ->
  (forall z i, (i < n)%nat -> at_ RA b i + total n (fun j => z j * entry RA M i j) = G z i) ->
  computes (vars_affine RA p M b) (fun z => F (G z)).
Proof.
  intros C H. unfold vars_affine. rewrite (proj1 C). cbv zeta.
  match goal with |- context [with_evaluate RA p ?f] => assert (K : computes (with_evaluate RA p f) (fun z => F (G z))) end.
  { apply (computes_vars p F (fun x i => loop n (fun j r => r + x.[j] * entry RA M i j) (at_ RA b i))); [exact C|].
    intros z i I. rewrite loop_total, <- H by exact I. f_equal. apply total_ext. intros j J. rewrite vec_at by exact J. reflexivity. }
  destruct (_ || _); [destruct (is_orthogonal _ _ _); [apply computes_best|]|]; exact K.
Qed.

Lemma zeros_at i : at_ RA (zeros RA n) i = 0.
Proof.
  rewrite zeros_repeat. unfold at_. rewrite zero0. destruct (Nat.lt_ge_cases i n) as [I|I].
  - apply nth_repeat.
  - apply nth_overflow. rewrite repeat_length. exact I.
Qed.

Lemma computes_affine p F M : computes p F -> computes (vars_affine RA p M (zeros RA n)) (fun z => F (apply n M z)).
Proof.
  intros C. apply computes_affine_gen; [exact C|]. intros z i I. rewrite zeros_at, Rplus_0_l. unfold apply. apply total_ext.
  intros j J. rewrite cell_eq. ring.
Qed.

Lemma total_mult_r m f c : total m f * c = total m (fun i => f i * c).
Proof. rewrite Rmult_comm, <- total_scale. apply total_ext. intros. ring. Qed.

Lemma computes_conditioned p F base alpha R1 R2 : computes p F -> (forall k, real_pow base (share n k) = Rpower alpha (share n k / 2)) ->
  computes (vars_affine RA p (conditioned RA n base R1 R2) (zeros RA n)) (fun z => F (apply n R1 (Lambda n alpha (apply n R2 z)))).
Proof using N.
  intros C E. apply computes_affine_gen; [exact C|]. intros z i I. rewrite zeros_at, Rplus_0_l.
  unfold apply, Lambda. rewrite (total_ext n _ (fun j => total n (fun k => cell R1 i k * Rpower alpha (share n k / 2) * (cell R2 k j * z j)))).
  - rewrite total_swap. apply total_ext. intros k K. rewrite total_scale. ring.
  - intros j J. unfold conditioned. rewrite entry_vec by assumption. lits.
    rewrite (loop_ext n _ (fun k r => r + cell R1 i k * Rpower alpha (share n k / 2) * cell R2 k j)).
    + rewrite loop_total. replace (0/1) with 0 by field. rewrite Rplus_0_l, Rmult_comm, total_mult_r. apply total_ext. intros. ring.
    + intros k r K. rewrite !cell_eq. f_equal. f_equal. f_equal. rewrite <- E. f_equal. unfold share. rewrite <- INR_n1. field.
      pose proof INR_n1_pos. rewrite <- INR_n1 in *. lra.
Qed.

Lemma computes_lambda p F a : 0 < a -> computes p F -> computes (vars_conditioning RA p a) (fun z => F (Lambda n a z)).
Proof using N.
  intros A C. unfold vars_conditioning. rewrite (proj1 C).
  apply (computes_vars p F (fun x i => mul RA (FunModel.pow RA a (div RA (mul RA (lit RA 5 1) (of_nat RA i)) (sub RA (of_nat RA n) (lit RA 1 0)))) x.[i])); [exact C|].
  intros z i I. rewrite vec_at by exact I. unfold Lambda, share. lits. rewrite pow_pos by exact A. f_equal. f_equal.
  rewrite <- INR_n1. pose proof INR_n1_pos. rewrite <- INR_n1 in *. field. lra.
Qed.

Lemma computes_asy p F b : computes p F -> computes (vars_asymmetric RA p b) (fun z => F (Tasy n b z)).
Proof using N.
  intros C. unfold vars_asymmetric. rewrite (proj1 C).
  match goal with |- computes (with_evaluate RA p (fun x => evaluate RA p (vec n (fun i => @?g x i)))) _ => apply (computes_vars p F g); [exact C|] end.
  intros z i I. cbv beta. rewrite vec_at by exact I. rewrite lt_dec, zero0. unfold Tasy, share. destruct (Rlt_dec 0 (z i)) as [P|P]; [|reflexivity].
  lits. rewrite pow_pos by exact P. f_equal. rewrite <- INR_n1. pose proof INR_n1_pos. rewrite <- INR_n1 in *. field. lra.
Qed.

Lemma computes_osz p F : computes p F -> computes (vars_oscillate RA p) (fun z => F (Tosz z)).
Proof.
  intros C. unfold vars_oscillate. rewrite (proj1 C).
  match goal with |- computes (with_evaluate RA p (fun x => evaluate RA p (vec n (fun i => @?g x i)))) _ => apply (computes_vars p F g); [exact C|] end.
  intros z i I. cbv beta. rewrite vec_at by exact I. rewrite !lt_dec, zero0. unfold Tosz. rewrite osz_eq.
  destruct (Rlt_dec 0 (z i)); [reflexivity|]. destruct (Rlt_dec (z i) 0); [reflexivity|]. cbn [orb].
  unfold osz, sign. destruct (Rlt_dec 0 (z i)); [lra|]. destruct (Rlt_dec (z i) 0); [lra|]. lra.
Qed.

Lemma computes_brs p F : computes p F -> computes (vars_brs RA p) (fun z => F (f4_scale n z)).
Proof using N.
  intros C. unfold vars_brs. rewrite (proj1 C).
  match goal with |- computes (with_evaluate RA p (fun x => evaluate RA p (vec n (fun i => @?g x i)))) _ => apply (computes_vars p F g); [exact C|] end.
  intros z i I. cbv beta zeta. rewrite vec_at by exact I. rewrite lt_dec, zero0. unfold f4_scale.
  assert (E : FunModel.pow RA (FunModel.sqrt RA (lit RA 10 0)) (div RA (of_nat RA i) (sub RA (of_nat RA n) (lit RA 1 0))) = Rpower 10 (share n i / 2)).
  { lits. replace (10/1) with 10 by field. rewrite sqrt_sq_base by lra. unfold share. rewrite <- INR_n1. replace (1/1) with 1 by field. reflexivity. }
  rewrite E. lits. destruct (Rlt_dec 0 (z i)); destruct (Nat.even i); cbn [andb]; lra.
Qed.

Lemma computes_obj p F (h : R -> R) : computes p F -> computes (with_evaluate RA p (fun x => h (evaluate _ p x))) (fun z => h (F z)).
Proof. intros (A & B & C). split; [exact A|]. split; [exact B|]. intros z. rewrite evaluate_with, C. reflexivity. Qed.

Lemma computes_add p F v : computes p F -> computes (obj_shift RA p v) (fun z => F z + v).
Proof. intros C. apply computes_value. apply (computes_obj p F (fun y => y + v)). exact C. Qed.

Lemma computes_obj_osz p F : computes p F -> computes (obj_oscillate RA p) (fun z => osz (F z)).
Proof.
  intros C. unfold obj_oscillate. cbv zeta. apply computes_value. eapply computes_ext; [apply (computes_obj p F (oscillate RA)); exact C|].
  intros z. apply osz_eq.
Qed.
Lemma computes_obj_pow p F e : computes p F -> computes (obj_power RA p e) (fun z => real_pow (F z) e).
Proof. intros C. unfold obj_power. cbv zeta. apply computes_value. apply (computes_obj p F (fun y => real_pow y e)); exact C. Qed.

Lemma fpen_loop z : loop n (fun i s =>
      let c1 := sub RA (vec n z : list (num RA)).[i] (lit RA 5 0) in
      let c2 := sub RA (lit RA (-5) 0) (vec n z : list (num RA)).[i] in
      if FunModel.lt RA (zero RA) c1 then add RA s (mul RA c1 c1) else if FunModel.lt RA (zero RA) c2 then add RA s (mul RA c2 c2) else s) (zero RA)
  = fpen n z.
Proof.
  unfold fpen. rewrite (loop_ext n _ (fun i s => s + Rmax 0 (Rabs (z i) - 5) ^ 2)).
  - rewrite loop_total, zero0. apply Rplus_0_l.
  - intros i t I. cbv zeta. rewrite vec_at by exact I. rewrite !lt_dec, zero0. lits. unfold Rmax, Rabs.
    destruct (Rlt_dec 0 (z i - 5 / 1)); destruct (Rlt_dec 0 (-5 / 1 - z i)); destruct (Rcase_abs (z i)); destruct (Rle_dec _ _); nra.
Qed.

Lemma excess_fpen z : excess RA n (lit RA 5 0) (vec n z) = fpen n z.
Proof.
  unfold fpen, excess. rewrite (loop_ext n _ (fun i s => s + Rmax 0 (Rabs (z i) - 5) ^ 2)).
  - rewrite loop_total, zero0. apply Rplus_0_l.
  - intros i t I. cbv zeta. rewrite vec_at by exact I. rewrite !lt_dec, zero0. lits. unfold Rmax.
    destruct (Rlt_dec 0 (Rabs (z i) - 5 / 1)); destruct (Rle_dec _ _); nra.
Qed.

Lemma computes_pen p F c : computes p F -> computes (obj_penalize RA p c) (fun z => F z + c * fpen n z).
Proof.
  intros (A & (B1 & B2) & C). split; [exact A|]. split; [split; assumption|]. intros z. unfold obj_penalize.
  rewrite evaluate_with. cbv zeta. rewrite C, A, B1, B2. rewrite <- fpen_loop.
  change (add RA) with Rplus. change (mul RA) with Rmult. f_equal. f_equal. apply loop_ext. intros i t I. cbv zeta.
  change (repeat (lit RA (-5) 0) n) with (repeat (lit RA (-5) 0 : R) n). change (repeat (lit RA 5 0) n) with (repeat (lit RA 5 0 : R) n).
  rewrite !(repeat_at _ n i I). reflexivity.
Qed.

(** ** Raw functions *)

Ltac at1 := repeat rewrite vec_at by lia.

Lemma sphere_doc z : sphere_raw RA n (vec n z) = squares n z.
Proof.
  unfold sphere_raw, squares. rewrite (loop_ext n _ (fun i s => s + z i ^ 2)).
  - rewrite loop_total, zero0. apply Rplus_0_l.
  - intros i t I. at1. lits. ring.
Qed.

Lemma total_S_first m f : total (S m) f = f 0%nat + total m (fun i => f (S i)).
Proof. induction m as [|m IH]; [cbn; ring|]. cbn [total]. cbn [total] in IH. rewrite IH. ring. Qed.
Lemma total_first f : total n f = f 0%nat + total (n - 1) (fun i => f (S i)).
Proof using N. rewrite <- total_S_first. f_equal. lia. Qed.

Lemma share_0 : share n 0 = 0. Proof. unfold share. cbn [INR]. unfold Rdiv. ring. Qed.

Lemma ellipsoid_doc z : ellipsoid_raw RA n (lit RA 1000000 0) (vec n z) = ellipsoid n z.
Proof using N.
  unfold ellipsoid_raw, ellipsoid. rewrite total_first, share_0, Rmult_0_r, Rpower_O by lra.
  rewrite (loop_ext (n - 1) _ (fun i s => s + Rpower 10 (6 * share n (S i)) * z (S i) ^ 2)).
  - rewrite loop_total. at1. lits. ring.
  - intros i t I. cbv zeta. at1. lits. rewrite pow_pos by lra.
    replace (Rpower (1000000 / 1) (1 / 1 * INR (S i) / (INR n - 1 / 1))) with (Rpower 10 (6 * share n (S i))); [ring|].
    replace (1000000 / 1) with (Rpower 10 6).
    + rewrite Rpower_mult. f_equal. unfold share. replace (1/1) with 1 by field. rewrite <- INR_n1. field.
      pose proof INR_n1_pos. rewrite <- INR_n1 in *. lra.
    + replace 6 with (INR 6) by (cbn; lra). rewrite Rpower_pow by lra. lra.
Qed.

Lemma two_loops m (f g : nat -> R) : loop m (fun i (s : R * R) => (fst s + f i, snd s + g i)) (0, 0) = (total m f, total m g).
Proof. induction m as [|m IH]; [reflexivity|]. cbn [loop total]. rewrite IH. reflexivity. Qed.

Lemma rastrigin_doc z : rastrigin_raw RA n (vec n z) = rastrigin n z.
Proof.
  unfold rastrigin_raw, rastrigin, squares, two_pi. cbv zeta. rewrite zero0. change (isinf RA ?u) with false. cbv iota.
  rewrite (loop_ext n _ (fun i (s : R * R) => (fst s + Rtrigo_def.cos (2 * PI * z i), snd s + z i ^ 2))).
  - rewrite two_loops. cbn [fst snd]. lits. field.
  - intros i t I. at1. lits. replace (2/1) with 2 by field. f_equal. ring.
Qed.
Lemma bueche_doc z : bueche_rastrigin_raw RA n (vec n z) = rastrigin n z.
Proof.
  unfold bueche_rastrigin_raw, rastrigin, squares. cbv zeta. rewrite !zero0.
  rewrite (loop_ext n _ (fun i (s : R * R) => (fst s + Rtrigo_def.cos (2 * PI * z i), snd s + z i ^ 2))).
  - rewrite two_loops. cbn [fst snd]. lits. field.
  - intros i t I. at1. lits. replace (2/1) with 2 by field. f_equal. ring.
Qed.

Lemma sqrt_100 : R_sqrt.sqrt (100 / 1) = 10.
Proof. replace (100/1) with (10 * 10) by field. apply sqrt_square. lra. Qed.

Lemma slope_doc b (c : point) z : (forall i, (i < n)%nat -> at_ RA b i = c i /\ (c i = 5 \/ c i = -5)) -> linear_slope_raw RA n b (vec n z) = slope n c z.
Proof using N.
  intros H. unfold linear_slope_raw, slope. cbv zeta.
  rewrite (loop_ext n _ (fun i r => r + (5 * Rabs (sign (c i) * Rpower 10 (share n i)) -
     sign (c i) * Rpower 10 (share n i) * (if Rlt_dec (c i * z i) 25 then z i else c i)))).
  - rewrite loop_total, zero0. apply Rplus_0_l.
  - intros i t I. destruct (H i I) as (E & K). at1. rewrite E, !lt_dec, zero0. lits. rewrite sqrt_100, pow_pos by lra.
    replace (INR i / (INR n - 1 / 1)) with (share n i) by (unfold share; rewrite <- INR_n1; f_equal; lra).
    replace (25/1) with 25 by field. rewrite (Rmult_comm (z i)). unfold sign.
    destruct K as [-> | ->].
    + destruct (Rlt_dec 0 5); [|lra]. rewrite !Rmult_1_l. destruct (Rlt_dec (5 * z i) 25); lra.
    + destruct (Rlt_dec 0 (-5)); [lra|]. destruct (Rlt_dec (-5) 0); [|lra].
      replace (-1 * Rpower 10 (share n i)) with (- Rpower 10 (share n i)) by ring. destruct (Rlt_dec (-5 * z i) 25); lra.
Qed.

Lemma sector_doc o z : attractive_sector_raw RA n o (vec n z) =
  total n (fun i => ((if Rlt_dec 0 (z i * coord o i) then 100 else 1) * z i) ^ 2).
Proof.
  unfold attractive_sector_raw.
  rewrite (loop_ext n _ (fun i r => r + ((if Rlt_dec 0 (z i * coord o i) then 100 else 1) * z i) ^ 2)).
  - rewrite loop_total, zero0. apply Rplus_0_l.
  - intros i t I. at1. rewrite coord_at, lt_dec, zero0. lits. rewrite (Rmult_comm (coord o i)).
    destruct (Rlt_dec 0 (z i * coord o i)); lra.
Qed.

Lemma rosenbrock_doc z : rosenbrock_raw RA n (vec n z) = rosenbrock n z.
Proof.
  unfold rosenbrock_raw, rosenbrock. cbv zeta. rewrite !zero0.
  rewrite (loop_ext (n - 1) _ (fun i (s : R * R) => (fst s + (z i ^ 2 - z (S i)) ^ 2, snd s + (z i - 1) ^ 2))).
  - rewrite two_loops. cbn [fst snd]. lits. rewrite total_plus, total_scale. field.
  - intros i t I. at1. lits. f_equal; field.
Qed.

Lemma discus_doc z : discus_raw RA n (vec n z) = 10 ^ 6 * z 0%nat ^ 2 + later_squares n z.
Proof using N.
  unfold discus_raw, later_squares. rewrite (loop_ext (n - 1) _ (fun i s => s + z (S i) ^ 2)).
  - rewrite loop_total. at1. lits. field.
  - intros i t I. at1. lits. ring.
Qed.
Lemma cigar_doc z : bent_cigar_raw RA n (vec n z) = z 0%nat ^ 2 + 10 ^ 6 * later_squares n z.
Proof using N.
  unfold bent_cigar_raw, later_squares. rewrite (loop_ext (n - 1) _ (fun i s => s + 10 ^ 6 * z (S i) ^ 2)).
  - rewrite loop_total, total_scale. at1. lits. ring.
  - intros i t I. at1. lits. field.
Qed.
Lemma ridge_doc z : sharp_ridge_raw RA n (vec n z) = z 0%nat ^ 2 + 100 * R_sqrt.sqrt (later_squares n z).
Proof using N.
  unfold sharp_ridge_raw, later_squares. cbv zeta. rewrite (loop_ext (n - 1) _ (fun i s => s + z (S i) ^ 2)).
  - rewrite loop_total, zero0. at1. lits. replace ((0 + total (n - 1) (fun i => z (S i) ^ 2)) / (1 / 1)) with (total (n - 1) (fun i => z (S i) ^ 2)) by field. field.
  - intros i t I. at1. lits. ring.
Qed.
Lemma share_nonneg i : 0 <= share n i.
Proof using N. unfold share. apply Rmult_le_pos; [apply pos_INR|]. apply Rlt_le, Rinv_0_lt_compat. pose proof INR_n1_pos. lra. Qed.
Lemma powers_doc z : different_powers_raw RA n (vec n z) = R_sqrt.sqrt (total n (fun i => power (Rabs (z i)) (2 + 4 * share n i))).
Proof using N.
  unfold different_powers_raw. cbv zeta. lits. f_equal. rewrite (loop_ext n _ (fun i s => s + power (Rabs (z i)) (2 + 4 * share n i))).
  - rewrite loop_total. lra.
  - intros i t I. at1. f_equal. rewrite pow_power.
    + f_equal. unfold share. rewrite <- INR_n1. field. pose proof INR_n1_pos. rewrite <- INR_n1 in *. lra.
    + apply Rabs_pos.
    + pose proof (share_nonneg i) as S. unfold share in S. rewrite <- INR_n1 in S. replace (2 / 1 + 4 / 1 * INR i / (INR n - 1 / 1)) with (2 + 4 * (INR i / (INR n - 1))); [lra|]. field. pose proof INR_n1_pos. rewrite <- INR_n1 in *. lra.
Qed.

Lemma half_pow k : (1/2) ^ k = / 2 ^ k.
Proof. replace (1/2) with (/ 2) by field. apply pow_inv. Qed.
Lemma weierstrass_doc z : weierstrass_raw RA n (vec n z) = weierstrass n z.
Proof using N.
  rewrite weier_total. unfold weierstrass. cbv zeta. rewrite real_pow_3. f_equal. f_equal. f_equal.
  - f_equal. apply total_ext. intros i I. apply total_ext. intros k K. at1.
    replace (2 * PI * 3 ^ k * (z i + 1/2)) with (2 * PI * (z i + 1/2) * 3 ^ k) by ring. rewrite half_pow. reflexivity.
  - unfold weierstrass_f0. rewrite (loop_ext 12 _ (fun j r => r + Rtrigo_def.cos (2 * PI * 3 ^ j * (1 / 2)) / 2 ^ j)).
    + rewrite loop_total, zero0. apply Rplus_0_l.
    + intros j t J. rewrite ak_pow, bk_pow. lits. replace (2/1) with 2 by field. replace (5/10) with (1/2) by field. rewrite Rmult_comm, half_pow. reflexivity.
Qed.

Lemma loop_inl m (g : nat -> R + R -> R + R) f s : (forall i r, (i < m)%nat -> g i (inl r) = inl (r + f i)) ->
  loop m g (inl s) = inl (s + total m f).
Proof.
  intros H. induction m as [|m IH]; [cbn; f_equal; ring|]. cbn [loop total]. rewrite IH by (intros; apply H; lia).
  rewrite H by lia. f_equal. ring.
Qed.
Lemma schaffers_doc z : schaffers_raw RA n (vec n z) = schaffers n z.
Proof using N.
  unfold schaffers_raw, schaffers. cbv zeta.
  set (term := fun i => R_sqrt.sqrt (R_sqrt.sqrt (z i ^ 2 + z (S i) ^ 2)) +
     R_sqrt.sqrt (R_sqrt.sqrt (z i ^ 2 + z (S i) ^ 2)) * Rtrigo_def.sin (50 * power (R_sqrt.sqrt (z i ^ 2 + z (S i) ^ 2)) (1 / 5)) ^ 2).
  rewrite (loop_inl (n - 1) _ term).
  2:{ intros i r I. cbv zeta. change (isinf RA ?u) with false. cbn [andb]. f_equal. at1. lits. f_equal. unfold term.
    set (q := z i ^ 2 + z (S i) ^ 2). replace (z i * z i + z (S i) * z (S i)) with q by (unfold q; ring).
    assert (Q : 0 <= q) by (unfold q; nra).
    replace (2/1) with 2 by field. rewrite pow_2. replace (50/1) with 50 by field.
    assert (E1 : real_pow q (1/10) = power (R_sqrt.sqrt q) (1/5)).
    { rewrite pow_power by lra. unfold power. destruct (Req_EM_T q 0) as [->|E].
      - rewrite sqrt_0. destruct (Req_EM_T 0 0); [reflexivity|lra].
      - destruct (Req_EM_T (R_sqrt.sqrt q) 0) as [F|F]; [apply sqrt_eq_0 in F; lra|]. rewrite <- Rpower_sqrt by lra. rewrite Rpower_mult. f_equal. lra. }
    assert (E2 : real_pow q (25/100) = R_sqrt.sqrt (R_sqrt.sqrt q)).
    { rewrite pow_power by lra. unfold power. destruct (Req_EM_T q 0) as [->|E].
      - rewrite !sqrt_0. reflexivity.
      - rewrite <- (Rpower_sqrt (R_sqrt.sqrt q)) by (apply sqrt_lt_R0; lra). rewrite <- (Rpower_sqrt q) by lra. rewrite Rpower_mult. f_equal. lra. }
    rewrite E1, E2. field. }
  rewrite zero0, Rplus_0_l. lits. replace (2/1) with 2 by field. rewrite pow_2. replace (1/1) with 1 by field. rewrite INR_n1. unfold term. ring.
Qed.

Lemma griewank_doc z : griewank_rosenbrock_raw RA n (lit RA 10 0) (vec n z) = griewank_rosenbrock n z.
Proof using N.
  unfold griewank_rosenbrock_raw, griewank_rosenbrock. cbv zeta.
  rewrite (loop_ext (n - 1) _ (fun i r => r + ((100 * (z i ^ 2 - z (S i)) ^ 2 + (z i - 1) ^ 2) / 4000 - Rtrigo_def.cos (100 * (z i ^ 2 - z (S i)) ^ 2 + (z i - 1) ^ 2)))).
  - rewrite loop_total, zero0. lits. pose proof INR_n1_pos. field. lra.
  - intros i t I. at1. lits.
    replace (100 / 1 * (z i * z i - z (S i)) * (z i * z i - z (S i)) + (1 / 1 - z i) * (1 / 1 - z i)) with (100 * (z i ^ 2 - z (S i)) ^ 2 + (z i - 1) ^ 2) by field.
    replace (4000/1) with 4000 by field. reflexivity.
Qed.

Lemma loop_product m f c : loop m (fun i r => r * f i) c = c * product m f.
Proof. induction m as [|m IH]; [cbn; ring|]. cbn [loop product]. rewrite IH. ring. Qed.
Lemma katsuura_sum_nonneg m x : 0 <= total m (fun j => Rabs (2 ^ S j * x - nearest (2 ^ S j * x)) / 2 ^ S j).
Proof.
  induction m as [|m IH]; [cbn; lra|]. cbn [total]. apply Rplus_le_le_0_compat; [exact IH|].
  apply Rmult_le_pos; [apply Rabs_pos|]. apply Rlt_le, Rinv_0_lt_compat, pow_lt. lra.
Qed.
Lemma katsuura_sum m x : loop m (fun j t => let tmp2 := FunModel.pow RA (lit RA 2 0) (of_nat RA (S j)) in
    add RA t (div RA (abs RA (sub RA (mul RA tmp2 x) (double_round RA (mul RA tmp2 x)))) tmp2)) (zero RA)
  = total m (fun j => Rabs (2 ^ S j * x - nearest (2 ^ S j * x)) / 2 ^ S j).
Proof.
  rewrite (loop_ext m _ (fun j t => t + Rabs (2 ^ S j * x - nearest (2 ^ S j * x)) / 2 ^ S j)).
  - rewrite loop_total, zero0. apply Rplus_0_l.
  - intros j t J. cbv zeta. rewrite round_nearest. lits. rewrite real_pow_INR by lra. replace (2/1) with 2 by field. reflexivity.
Qed.

Lemma katsuura_doc z : katsuura_raw RA n (vec n z) = katsuura n z.
Proof using N.
  unfold katsuura_raw, katsuura. cbv zeta.
  assert (D : 0 < INR n) by (pose proof (INR_ge2 n N); lra).
  rewrite (loop_ext n _ (fun i r => r * Rpower (1 + INR (S i) * total 32 (fun j => Rabs (2 ^ S j * z i - nearest (2 ^ S j * z i)) / 2 ^ S j)) (10 / Rpower (INR n) 1.2))).
  - rewrite loop_product. lits. field. lra.
  - intros i r I. pose proof (katsuura_sum 32 (z i)) as E. cbv zeta in E. at1. rewrite E.
    pose proof (katsuura_sum_nonneg 32 (z i)) as S0. set (s := total 32 _) in *. clearbody s.
    lits. replace (INR i + 1/1) with (INR (S i)) by (rewrite S_INR; lra). rewrite pow_pos.
    + rewrite pow_pos by exact D. f_equal. replace (12/10) with 1.2 by lra. replace (1/1) with 1 by field. replace (10/1) with 10 by field. reflexivity.
    + assert (0 <= INR (S i) * s) by (apply Rmult_le_pos; [apply pos_INR|exact S0]). lra.
Qed.

End Computes.
