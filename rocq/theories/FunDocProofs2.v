(** The constructed problems compute the published functions: the functions that are not compositions, and the list. *)

From Coq Require Import ZArith List Bool Reals Lra Lia.
From Verif Require Import FunModel FunSpec FunProofs FunOptima FunOptima2 FunDocSpec FunDocProofs.
Import ListNotations.
Local Open Scope R_scope.

Section Dimension.
Variable n : nat.
Hypothesis N : (2 <= n)%nat.
Ltac at1 := repeat rewrite vec_at by lia.

Lemma turn_loop M (z : point) i (x : list R) : (forall j, (j < n)%nat -> at_ RA x j = z j) ->
  loop n (fun j r => add RA r (mul RA (entry RA M i j) (at_ RA x j))) (zero RA) = apply n M z i.
Proof.
  intros H. unfold apply. rewrite (loop_ext n _ (fun j r => r + cell M i j * z j)).
  - rewrite loop_total, zero0. apply Rplus_0_l.
  - intros j t J. rewrite cell_eq, H by exact J. reflexivity.
Qed.

Lemma step_doc o v (d1 d2 : list (list R)) z :
  step_ellipsoid_raw RA n o v (lit RA 1 0) d1 d2 (vec n z) =
  0.1 * Rmax (Rabs (Lambda n 10 (apply n d2 (minus z (coord o))) 0%nat) / 10 ^ 4)
    (total n (fun i => Rpower 10 (2 * share n i) * apply n d1 (step (Lambda n 10 (apply n d2 (minus z (coord o))))) i ^ 2)) + fpen n z + v.
Proof using N.
  unfold step_ellipsoid_raw. cbv zeta. rewrite excess_fpen.
  set (h := Lambda n 10 (apply n d2 (minus z (coord o)))).
  assert (E1 : forall i, (i < n)%nat -> loop n (fun j r => add RA r (mul RA (mul RA (FunModel.sqrt RA (FunModel.pow RA (div RA (lit RA 100 0) (lit RA 10 0)) (div RA (of_nat RA i) (of_nat RA (n - 1))))) (entry RA d2 i j))
      (sub RA (vec n z : list (num RA)).[j] (at_ RA o j)))) (zero RA) = h i).
  { intros i I. unfold h, Lambda, apply. rewrite <- total_scale.
    rewrite (loop_ext n _ (fun j r => r + Rpower 10 (share n i / 2) * (cell d2 i j * minus z (coord o) j))).
    - rewrite loop_total, zero0. apply Rplus_0_l.
    - intros j t J. at1. rewrite cell_eq, coord_at. unfold minus. lits. replace (100 / 1 / (10 / 1)) with 10 by field. rewrite pow_pos by lra.
      rewrite <- (Rpower_sqrt (Rpower 10 _)) by apply exp_pos. rewrite Rpower_mult. unfold share.
      replace (INR i / INR (n - 1) * / 2) with (INR i / INR (n - 1) / 2) by reflexivity. ring. }
  rewrite (vec_ext n _ h) by exact E1. rewrite (vec_at n h 0) by lia.
  assert (E2 : forall i, (i < n)%nat -> (if FunModel.lt RA (lit RA 5 1) (abs RA (vec n h : list (num RA)).[i]) then double_round RA (vec n h : list (num RA)).[i]
      else div RA (double_round RA (mul RA (lit RA 10 0) (vec n h : list (num RA)).[i])) (lit RA 10 0)) = step h i).
  { intros i I. at1. rewrite lt_dec, !round_nearest. unfold step. lits. replace (5/10) with 0.5 by lra. replace (10/1) with 10 by field.
    destruct (Rlt_dec 0.5 (Rabs (h i))); reflexivity. }
  rewrite (vec_ext n (fun i => if FunModel.lt RA _ _ then _ else _) (step h)) by exact E2.
  rewrite (vec_ext n (fun i => loop n _ (zero RA)) (apply n d1 (step h))).
  2:{ intros i I. apply turn_loop. intros j J. apply vec_at. exact J. }
  rewrite (loop_ext n _ (fun i r => r + Rpower 10 (2 * share n i) * apply n d1 (step h) i ^ 2)).
  - rewrite loop_total, zero0, max_Rmax, Rplus_0_l. lits. replace (Rabs (h 0%nat) * (1 / 10000)) with (Rabs (h 0%nat) / 10 ^ 4) by field. lra.
  - intros i t I. at1. lits. replace (1/1) with 1 by field. rewrite INR_n1 by exact N. fold (share n i). rewrite pow_pos by lra. rewrite <- Rpower_mult.
    replace (Rpower 10 2) with (100 / 1); [ring|]. replace 2 with (INR 2) by (cbn; lra). rewrite Rpower_pow by lra. lra.
Qed.

Lemma schwefel_raw_doc z : schwefel_raw RA n (vec n z) =
  - (total n (fun i => z i * Rtrigo_def.sin (R_sqrt.sqrt (Rabs (z i))))) / (100 * INR n) + 4.189828872724339 + 100 * fpen n (fun i => z i / 100).
Proof using N.
  unfold schwefel_raw, excess. cbv zeta.
  rewrite (loop_ext n _ (fun i s => s + 10000 * Rmax 0 (Rabs (z i / 100) - 5) ^ 2)).
  2:{ intros i t I. at1. rewrite !lt_dec, zero0. lits. replace (Rabs (z i / 100)) with (Rabs (z i) / 100) by (unfold Rdiv; rewrite Rabs_mult, (Rabs_pos_eq (/ 100)) by lra; reflexivity). unfold Rmax.
      destruct (Rlt_dec 0 (Rabs (z i) - 500 / 1)); destruct (Rle_dec _ _); nra. }
  rewrite loop_total, total_scale. fold (fpen n (fun i => z i / 100)).
  rewrite (loop_ext n _ (fun i s => s + z i * Rtrigo_def.sin (R_sqrt.sqrt (Rabs (z i))))) by (intros i t I; at1; reflexivity).
  rewrite loop_total, !zero0, !Rplus_0_l. lits. pose proof (INR_ge2 n N).
  replace 4.189828872724339 with (4189828872724339 / 1000000000000000) by lra. field. lra.
Qed.

Lemma loop_greatest m (f : nat -> R) : (forall i, (i <= m)%nat -> 0 <= f i) ->
  loop (S m) (fun i r => double_max RA r (f i)) 0 = greatest m f.
Proof.
  induction m as [|m IH]; intros H.
  - cbn [loop greatest]. rewrite max_Rmax, Rmax_right by (apply H; lia). reflexivity.
  - change (loop (S (S m)) ?g ?s) with (g (S m) (loop (S m) g s)). cbv beta. rewrite IH by (intros; apply H; lia). apply max_Rmax.
Qed.

Lemma total_minus m f g : total m (fun i => f i - g i) = total m f - total m g.
Proof. induction m as [|m IH]; [cbn; ring|]. cbn [total]. rewrite IH. ring. Qed.

Lemma apply_minus M x y i : apply n M (minus x y) i = apply n M x i - apply n M y i.
Proof. unfold apply, minus. rewrite <- total_minus. apply total_ext. intros. ring. Qed.

Lemma gallagher_doc m rotation (k : peaks RA) (w : nat -> R) (C y : nat -> point) z : number_of_peaks _ k = S m ->
  (forall i, (i <= m)%nat -> 0 <= w i /\ at_ RA (peak_values _ k) i = w i) ->
  (forall i j, (i <= m)%nat -> (j < n)%nat -> entry RA (arr_scales _ k) i j = C i j /\ entry RA (x_local _ k) j i = apply n rotation (y i) j) ->
  gallagher_raw RA n (lit RA 1 0) rotation k (vec n z) = gallagher n m rotation w C y z.
Proof using N.
  intros K W H. unfold gallagher_raw, gallagher. cbv zeta. rewrite excess_fpen, K.
  rewrite (vec_ext n _ (apply n rotation z)) by (intros i I; apply turn_loop; intros j J; apply vec_at; exact J).
  rewrite (loop_ext (S m) _ (fun i f => double_max RA f (w i * Rtrigo_def.exp (- (1 / (2 * INR n)) * total n (fun j => C i j * apply n rotation (minus z (y i)) j ^ 2))))).
  - rewrite zero0, loop_greatest.
    + rewrite osz_eq. lits. replace (10/1) with 10 by field. replace (1/1) with 1 by field. ring.
    + intros i I. apply Rmult_le_pos; [apply W; exact I|]. apply Rlt_le, exp_pos.
  - intros i t I. f_equal. rewrite (proj2 (W i ltac:(lia))).
    rewrite (loop_ext n _ (fun j t => t + C i j * apply n rotation (minus z (y i)) j ^ 2)).
    + rewrite loop_total, zero0, Rplus_0_l. lits. f_equal. f_equal. f_equal. pose proof (INR_ge2 n N). field. lra.
    + intros j r J. destruct (H i j ltac:(lia) J) as (A & B). at1. rewrite A, B, apply_minus. lits. ring.
Qed.

Lemma lunacek_doc g (d1 d2 : list (list R)) z : lunacek_raw RA n (lunacek_xopt RA n g) d1 d2 (vec n z) =
  lunacek n (fun i => if Rlt_dec (coord g i) 0 then -1 else 1) d1 d2 z.
Proof using N.
  unfold lunacek_raw, lunacek. cbv zeta. rewrite excess_fpen.
  set (s := fun i => if Rlt_dec (coord g i) 0 then -1 else 1). set (h := fun i : nat => 2 * s i * z i).
  assert (E1 : forall i, (i < n)%nat -> (if FunModel.lt RA (at_ RA (lunacek_xopt RA n g) i) (zero RA) then mul RA (mul RA (lit RA 2 0) (vec n z : list (num RA)).[i]) (lit RA (-1) 0)
       else mul RA (lit RA 2 0) (vec n z : list (num RA)).[i]) = h i).
  { intros i I. unfold h, s. at1. unfold lunacek_xopt. cbv zeta. at1. rewrite coord_at, !lt_dec, zero0. lits.
    destruct (Rlt_dec (coord g i) 0).
    - destruct (Rlt_dec _ 0); lra.
    - destruct (Rlt_dec (5 / 10 * (25 / 10)) 0); lra. }
  rewrite (vec_ext n _ h) by exact E1.
  set (u := Lambda n 100 (apply n d2 (fun i => h i - 2.5))).
  rewrite (vec_ext n (fun i => loop n (fun j r => add RA r (mul RA (mul RA _ _) _)) (zero RA)) u).
  2:{ intros i I. unfold u, Lambda, apply. rewrite <- total_scale. rewrite (loop_ext n _ (fun j r => r + Rpower 100 (share n i / 2) * (cell d2 i j * (h j - 2.5)))).
    - rewrite loop_total, zero0. apply Rplus_0_l.
    - intros j t J. at1. rewrite cell_eq. lits. replace (100/1) with 100 by field. rewrite sqrt_sq_base by lra. unfold share. replace (25/10) with 2.5 by lra. ring. }
  rewrite (vec_ext n (fun i => loop n (fun j r => add RA r (mul RA (entry RA d1 i j) _)) (zero RA)) (apply n d1 u)).
  2:{ intros i I. apply turn_loop. intros j J. apply vec_at. exact J. }
  rewrite min_Rmin.
  assert (S1 : forall c, loop n (fun i r => add RA r (mul RA (sub RA (vec n h : list (num RA)).[i] c) (sub RA (vec n h : list (num RA)).[i] c))) (zero RA) = total n (fun i => (h i - c) ^ 2)).
  { intros c. rewrite (loop_ext n _ (fun i r => r + (h i - c) ^ 2)).
    - rewrite loop_total, zero0. apply Rplus_0_l.
    - intros i t I. at1. lits. ring. }
  rewrite !S1. rewrite (loop_ext n (fun i r => add RA r (FunModel.cos RA _)) (fun i r => r + Rtrigo_def.cos (2 * PI * apply n d1 u i))).
  2:{ intros i t I. at1. lits. replace (2/1) with 2 by field. reflexivity. }
  rewrite loop_total, zero0, Rplus_0_l. lits.
  pose proof (lunacek_s n N) as P. assert (Q : 4.5 < R_sqrt.sqrt (INR (n + 20))).
  { replace 4.5 with (R_sqrt.sqrt (4.5 * 4.5)) by (apply sqrt_square; lra). apply sqrt_lt_1; try lra; rewrite plus_INR; pose proof (INR_ge2 n N); change (INR 20) with (INR 20); replace (INR 20) with 20 by (cbn; lra); lra. }
  replace (INR (n + 20)) with (INR n + 20) in * by (rewrite plus_INR; f_equal; cbn; lra).
  assert (E9 : forall r, 4.5 < r -> 1 / 1 - 5 / 10 / (r - 41 / 10) = 1 - 1 / (2 * r - 8.2)).
  { intros r Hr. replace (2 * r - 8.2) with (2 * (r - 41 / 10)) by lra. field. lra. }
  rewrite (E9 _ Q).
  replace (25/10) with 2.5 by lra. replace (2.5 * 2.5 - 1/1) with (2.5 ^ 2 - 1) by lra. replace (1/1) with 1 by field. replace (10/1) with 10 by field. replace (10000/1) with (10 ^ 4) by lra.
  rewrite Rmult_1_l. reflexivity.
Qed.
End Dimension.
