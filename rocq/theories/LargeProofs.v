(** Block rotations, permutations and the new transformations: what they compute and that they keep an optimum. *)

From Coq Require Import ZArith List Bool Reals Lra Lia Permutation.
From Verif Require Import FunModel FunSpec FunProofs FunOptima FunOptima2 FunDocSpec FunDocProofs LargeModel LargeSpec.
Import ListNotations.
Local Open Scope R_scope.

(** ** The maps of the block structure *)

Fixpoint locate (sizes : list nat) (i : nat) : nat * nat :=
  match sizes with
  | nil => (0, 0)%nat
  | s :: t => if (i <? s)%nat then (s, 0%nat) else (fst (locate t (i - s)), (s + snd (locate t (i - s)))%nat)
  end.

Lemma locate_at sizes : forall k i, (list_sum (firstn k sizes) <= i < list_sum (firstn (S k) sizes))%nat ->
  locate sizes i = (nth k sizes 0%nat, list_sum (firstn k sizes)).
Proof.
  induction sizes as [|s t IH]; intros k i H; [destruct k; cbn in H; lia|].
  destruct k as [|k].
  - cbn [firstn list_sum fold_right] in H. cbn [locate]. destruct (Nat.ltb_spec i s); [reflexivity|]. cbn in H. lia.
  - change (list_sum (firstn (S k) (s :: t))) with (s + list_sum (firstn k t))%nat in *.
    change (list_sum (firstn (S (S k)) (s :: t))) with (s + list_sum (firstn (S k) t))%nat in *.
    cbn [locate nth]. destruct (Nat.ltb_spec i s); [lia|]. rewrite (IH k (i - s)%nat) by lia. reflexivity.
Qed.

Lemma firstn_S_sum (sizes : list nat) k : list_sum (firstn (S k) sizes) = (list_sum (firstn k sizes) + nth k sizes 0)%nat.
Proof.
  revert k. induction sizes as [|s t IH]; intros [|k]; try reflexivity.
  - cbn. lia.
  - change (list_sum (firstn (S (S k)) (s :: t))) with (s + list_sum (firstn (S k) t))%nat. rewrite IH. cbn [nth].
    change (list_sum (firstn (S k) (s :: t))) with (s + list_sum (firstn k t))%nat. lia.
Qed.

Lemma block_map_locate n sizes : Forall (fun s => (1 <= s)%nat) sizes -> list_sum sizes = n ->
  block_map n sizes = vec n (locate sizes).
Proof.
  intros POS SUM. unfold block_map. cbv zeta.
  assert (I : forall i, (i <= n)%nat -> exists idx,
    loop i (block_step sizes) (O, nth O sizes O, nil)
    = (idx, list_sum (firstn (S idx) sizes), vec i (locate sizes)) /\
    (i <= list_sum (firstn (S idx) sizes))%nat /\ ((list_sum (firstn idx sizes) < i)%nat \/ idx = 0%nat)).
  { induction i as [|i IH]; intros H.
    - exists 0%nat. cbn [loop]. split; [|split; [lia|right; reflexivity]]. f_equal. f_equal. destruct sizes; cbn; lia.
    - destruct (IH ltac:(lia)) as (idx & E & U & LO). cbn [loop]. rewrite E. unfold block_step. cbv zeta beta iota.
      assert (V : vec (S i) (locate sizes) = vec i (locate sizes) ++ [locate sizes i]).
      { unfold vec. rewrite seq_S, map_app. reflexivity. }
      destruct (Nat.leb_spec (list_sum (firstn (S idx) sizes)) i) as [LE|GT].
      + assert (EQ : list_sum (firstn (S idx) sizes) = i) by lia.
        assert (LEN : (S idx < length sizes)%nat).
        { destruct (Nat.lt_ge_cases (S idx) (length sizes)) as [?|GE]; [assumption|]. exfalso.
          rewrite firstn_all2 in EQ by exact GE. lia. }
        assert (P : (1 <= nth (S idx) sizes 0)%nat).
        { rewrite Forall_forall in POS. apply POS. apply nth_In. exact LEN. }
        exists (S idx). cbv beta iota zeta. pose proof (firstn_S_sum sizes (S idx)) as FS.
        split; [|split; [lia|left; lia]]. rewrite V. f_equal; [f_equal; lia|]. f_equal. f_equal.
        rewrite (locate_at sizes (S idx)) by lia. f_equal. lia.
      + exists idx. cbv beta iota zeta. pose proof (firstn_S_sum sizes idx) as FS.
        split; [|split; [lia|]].
        * rewrite V. f_equal. f_equal. f_equal. rewrite (locate_at sizes idx); [f_equal; lia|].
          destruct LO as [LO| ->]; [lia|]. change (list_sum (firstn 0 sizes)) with 0%nat. lia.
        * destruct LO; [left; lia|right; assumption]. }
  destruct (I n ltac:(lia)) as (idx & E & _). rewrite E. reflexivity.
Qed.

Lemma cell_skipn s (B : list (list R)) i j : cell (skipn s B) i j = cell B (s + i) j.
Proof.
  unfold cell. f_equal. revert B. induction s as [|s IH]; intros B; [reflexivity|]. destruct B as [|r B].
  - cbn [skipn]. destruct i; reflexivity.
  - cbn [skipn Nat.add nth]. apply IH.
Qed.

Lemma blockwise_locate sizes : forall B z i, blockwise sizes B z i =
  total (fst (locate sizes i)) (fun k => cell B i k * z (snd (locate sizes i) + k)%nat).
Proof.
  induction sizes as [|s t IH]; intros B z i; [reflexivity|]. cbn [blockwise locate].
  destruct (Nat.ltb_spec i s) as [H|H]; [reflexivity|]. cbn [fst snd]. rewrite IH. apply total_ext. intros k K.
  rewrite cell_skipn. f_equal; [f_equal; lia|f_equal; lia].
Qed.

Lemma locate_bound sizes : forall i, (i < list_sum sizes)%nat ->
  (snd (locate sizes i) + fst (locate sizes i) <= list_sum sizes)%nat.
Proof.
  induction sizes as [|s t IH]; intros i H; [cbn in H; lia|]. change (list_sum (s :: t)) with (s + list_sum t)%nat in *.
  cbn [locate]. destruct (Nat.ltb_spec i s); cbn [fst snd]; [lia|]. specialize (IH (i - s)%nat ltac:(lia)). lia.
Qed.

Lemma block_apply_at n sizes B x i : Forall (fun s => (1 <= s)%nat) sizes -> list_sum sizes = n -> (i < n)%nat ->
  at_ RA (block_apply RA n sizes B x) i = blockwise sizes B (coord x) i.
Proof.
  intros POS SUM I. unfold block_apply. cbv zeta. rewrite vec_at by exact I. rewrite (block_map_locate n sizes POS SUM).
  rewrite vec_nth by exact I. rewrite blockwise_locate. destruct (locate sizes i) as (c, f). cbn [fst snd].
  rewrite (loop_ext c _ (fun k r => r + cell B i k * coord x (f + k)%nat)).
  - rewrite loop_total, zero0. apply Rplus_0_l.
  - intros k r K. rewrite cell_eq, coord_at. replace (f + k - f)%nat with k by lia. reflexivity.
Qed.

Lemma blockwise_ext n sizes B z z' i : list_sum sizes = n -> (i < n)%nat -> (forall j, (j < n)%nat -> z j = z' j) ->
  blockwise sizes B z i = blockwise sizes B z' i.
Proof.
  intros SUM I E. rewrite !blockwise_locate. apply total_ext. intros k K. f_equal. apply E.
  pose proof (locate_bound sizes i ltac:(lia)). lia.
Qed.

Lemma blockwise_zero sizes B z i : (forall j, z j = 0) -> blockwise sizes B z i = 0.
Proof.
  intros E. rewrite blockwise_locate. set (m := fst _). clearbody m. induction m as [|m IH]; [reflexivity|].
  cbn [total]. rewrite IH, E. ring.
Qed.

Lemma blockwise_minus sizes B y z i : blockwise sizes B (minus y z) i = blockwise sizes B y i - blockwise sizes B z i.
Proof.
  rewrite !blockwise_locate. set (m := fst _). clearbody m. induction m as [|m IH]; [cbn; ring|].
  cbn [total]. rewrite IH. unfold minus. ring.
Qed.

(** ** Permutations *)

Lemma permutation_lt n P i : permutation n P -> (i < n)%nat -> (nth i P 0 < n)%nat.
Proof.
  intros H I. pose proof (Permutation_length H) as L. rewrite seq_length in L.
  assert (In (nth i P 0%nat) (seq 0 n)) as K.
  { apply (Permutation_in _ H). apply nth_In. lia. }
  apply in_seq in K. lia.
Qed.
Lemma permutation_inj n P i j : permutation n P -> (i < n)%nat -> (j < n)%nat -> nth i P 0%nat = nth j P 0%nat -> i = j.
Proof.
  intros H I J E. pose proof (Permutation_length H) as L. rewrite seq_length in L.
  assert (ND : NoDup P). { apply (Permutation_NoDup (Permutation_sym H)). apply seq_NoDup. }
  apply (proj1 (NoDup_nth P 0%nat) ND i j); lia || exact E.
Qed.
Lemma permutation_onto n P k : permutation n P -> (k < n)%nat -> exists i, (i < n)%nat /\ nth i P 0%nat = k.
Proof.
  intros H K. pose proof (Permutation_length H) as L. rewrite seq_length in L.
  assert (In k P) as M. { apply (Permutation_in _ (Permutation_sym H)). apply in_seq. lia. }
  destruct (In_nth P k 0%nat M) as (i & I & E). exists i. split; [lia|exact E].
Qed.

Lemma set_nth_length k v l : length (set_nth RA k v l) = length l.
Proof. unfold set_nth. apply vec_length. Qed.
Lemma scatter_length m P x s : length (scatter RA m P x s) = length s.
Proof. unfold scatter. induction m as [|m IH]; [reflexivity|]. cbn [loop]. rewrite set_nth_length. exact IH. Qed.
Lemma set_nth_at k v l i : (i < length l)%nat -> at_ RA (set_nth RA k v l) i = if Nat.eqb i k then v else at_ RA l i.
Proof. intros I. unfold set_nth. rewrite vec_at by exact I. reflexivity. Qed.

(** Entry P[j] of the result is x[j]. *)
Lemma scatter_at n P x s j : permutation n P -> length s = n -> (j < n)%nat ->
  at_ RA (scatter RA n P x s) (nth j P 0%nat) = at_ RA x j.
Proof.
  intros H L J. unfold scatter.
  assert (K : forall m, (m <= n)%nat -> (j < m)%nat -> at_ RA (loop m (fun i y => set_nth RA (nth i P O) (at_ RA x i) y) s) (nth j P 0%nat) = at_ RA x j).
  { induction m as [|m IH]; intros M JM; [lia|]. cbn [loop].
    rewrite set_nth_at.
    2:{ pose proof (scatter_length m P x s) as SL. unfold scatter in SL. rewrite SL. rewrite L. apply permutation_lt; assumption. }
    destruct (Nat.eqb_spec (nth j P 0%nat) (nth m P 0%nat)) as [E|E].
    - apply (permutation_inj n) in E; [|assumption|lia|lia]. subst m. reflexivity.
    - apply IH; [lia|]. destruct (Nat.eq_dec j m) as [->|]; [congruence|lia]. }
  apply K; lia.
Qed.

(** ** What the transformations compute *)

Section Computes.
Variable n : nat.
Hypothesis N : (2 <= n)%nat.

Lemma computes_plain p F f G : computes n p F -> (forall z, f (vec n z) = G z) -> computes n (with_plain_evaluate RA p f) G.
Proof. intros (A & B & C) H. split; [exact A|]. split; [exact B|]. exact H. Qed.

Lemma computes_alloc_plain raw b F : (forall z, raw (vec n z) = F z) -> computes n (allocate_plain RA n raw b) F.
Proof. intros H. split; [reflexivity|]. split; [split; reflexivity|]. exact H. Qed.

Lemma computes_permutation p F P : permutation n P -> computes n p F ->
  computes n (vars_permutation RA P p) (fun z => F (permuted P z)).
Proof.
  intros H C. unfold vars_permutation. cbv zeta. apply (computes_plain p F); [exact C|]. intros z. rewrite (proj1 C).
  rewrite <- (proj2 (proj2 C)). f_equal. apply vec_ext. intros i I. rewrite vec_at by (apply permutation_lt; assumption). reflexivity.
Qed.

Lemma block_apply_vec sizes B z : Forall (fun s => (1 <= s)%nat) sizes -> list_sum sizes = n ->
  block_apply RA n sizes B (vec n z) = vec n (blockwise sizes B z).
Proof.
  intros P S. rewrite <- (list_vec (block_apply RA n sizes B (vec n z)) n) by (unfold block_apply; apply vec_length).
  apply vec_ext. intros i I. rewrite (block_apply_at n) by assumption. apply (blockwise_ext n); [exact S|exact I|].
  intros j J. rewrite <- coord_at. apply vec_at. exact J.
Qed.

Lemma computes_block p F sizes B : Forall (fun s => (1 <= s)%nat) sizes -> list_sum sizes = n -> computes n p F ->
  computes n (vars_blockrotation RA B sizes p) (fun z => F (blockwise sizes B z)).
Proof.
  intros P S C. unfold vars_blockrotation. cbv zeta.
  assert (K : computes n (with_plain_evaluate RA p (fun x => evaluate RA p (block_apply RA (dimension RA p) sizes B x))) (fun z => F (blockwise sizes B z))).
  { apply (computes_plain p F); [exact C|]. intros z. rewrite (proj1 C), block_apply_vec by assumption. apply (proj2 (proj2 C)). }
  destruct (not_zero _ _); [apply computes_best|]; exact K.
Qed.

Lemma norm_gamma : fmin RA (lit RA 1 0) (div RA (lit RA 40 0) (of_nat RA n)) = gamma n.
Proof.
  unfold fmin, gamma. rewrite lt_dec. lits. replace (1/1) with 1 by field. replace (40/1) with 40 by field.
  unfold Rmin. destruct (Rlt_dec 1 (40 / INR n)), (Rle_dec 1 (40 / INR n)); lra.
Qed.

Lemma computes_norm p F : computes n p F -> computes n (obj_norm_by_dim RA p) (fun z => gamma n * F z).
Proof.
  intros C. unfold obj_norm_by_dim. rewrite (proj1 C), norm_gamma.
  eapply computes_ext; [apply (computes_obj n p F (fun y => y * gamma n)); exact C|]. intros z. cbv beta. ring.
Qed.

Lemma computes_obj_scale p F c : computes n p F -> computes n (obj_scale RA c p) (fun z => F z * c).
Proof. intros C. unfold obj_scale. apply computes_value. apply (computes_obj n p F (fun y => y * c)). exact C. Qed.

Lemma round_step_10 v : round_step RA (lit RA 10 0) v = if Rlt_dec 0.5 (Rabs v) then nearest v else nearest (10 * v) / 10.
Proof.
  unfold round_step. rewrite lt_dec, !round_nearest. lits. replace (10/1) with 10 by field.
  destruct (Rlt_dec (5/10) (Rabs v)), (Rlt_dec 0.5 (Rabs v)); lra || reflexivity.
Qed.

Lemma computes_round_step inner F : (forall c, computes n (inner c) (F c)) ->
  computes n (vars_round_step RA (lit RA 10 0) inner) (fun z => F (Rabs (z 0%nat) * INR n) (step z)).
Proof using N.
  intros C. unfold vars_round_step. cbv zeta. apply computes_best. apply (computes_plain _ (F (zero RA))); [apply C|].
  intros z. rewrite (proj1 (C (zero RA))). assert (E0 : at_ RA (@vec (num RA) n z) 0 = z 0%nat) by (apply vec_at; lia). rewrite E0.
  change (mul RA (abs RA (z 0%nat)) (of_nat RA n)) with (Rabs (z 0%nat) * INR n).
  rewrite <- (proj2 (proj2 (C (Rabs (z 0%nat) * INR n)))). f_equal. apply vec_ext. intros i I. rewrite vec_at by exact I.
  rewrite round_step_10. reflexivity.
Qed.

Lemma computes_x_hat inner F sign s : (forall i, (i < n)%nat -> coord sign i = s i) -> (forall u, computes n (inner u) (F u)) ->
  computes n (vars_x_hat_generic RA sign inner) (fun z => F (vec n (fun i => 2 * s i * z i)) (fun i => 2 * s i * z i)).
Proof.
  intros S C. unfold vars_x_hat_generic. cbv zeta. apply (computes_plain _ (F nil)); [apply C|].
  intros z. rewrite (proj1 (C nil)).
  match goal with |- evaluate _ _ ?l = _ => replace l with (vec n (fun i => 2 * s i * z i)) end.
  - apply (proj2 (proj2 (C _))).
  - apply vec_ext. intros i I. rewrite vec_at by exact I. rewrite coord_at, S by exact I. lits. field.
Qed.

(** ** Raw functions *)

Lemma axes_eq : proportion n = axes n.
Proof.
  unfold proportion, axes. pose proof (Nat.div_mod n 40 ltac:(lia)) as E. pose proof (Nat.mod_upper_bound n 40 ltac:(lia)) as U.
  set (q := Nat.div n 40) in *. set (r := Nat.modulo n 40) in *. destruct (Nat.eqb_spec r 0) as [Z|Z].
  - apply (Nat.div_unique (n + 39) 40 (q + 0) 39); lia.
  - apply (Nat.div_unique (n + 39) 40 (q + 1) (r - 1)); lia.
Qed.
Lemma axes_le : (axes n <= n)%nat.
Proof using N. unfold axes. apply Nat.div_le_upper_bound; lia. Qed.

Ltac at1 := repeat rewrite vec_at by (pose proof axes_le; lia).

Lemma discus_large_doc z : discus_generalized_raw RA n (vec n z) = 10 ^ 6 * first_squares n z + other_squares n z.
Proof using N.
  unfold discus_generalized_raw, first_squares, other_squares. cbv zeta. rewrite axes_eq.
  rewrite (loop_ext (n - axes n) _ (fun i s => s + z (axes n + i)%nat ^ 2)).
  2:{ intros i t I. at1. lits. ring. }
  rewrite loop_total. f_equal. rewrite (loop_ext (axes n) _ (fun i s => s + z i ^ 2)).
  2:{ intros i t I. at1. lits. ring. }
  rewrite loop_total, zero0. lits. field.
Qed.
Lemma cigar_large_doc z : bent_cigar_generalized_raw RA n (vec n z) = first_squares n z + 10 ^ 6 * other_squares n z.
Proof using N.
  unfold bent_cigar_generalized_raw, first_squares, other_squares. cbv zeta. rewrite axes_eq.
  rewrite (loop_ext (n - axes n) _ (fun i s => s + 10 ^ 6 * z (axes n + i)%nat ^ 2)).
  2:{ intros i t I. at1. lits. field. }
  rewrite loop_total, total_scale. f_equal. rewrite (loop_ext (axes n) _ (fun i s => s + z i ^ 2)).
  2:{ intros i t I. at1. lits. ring. }
  rewrite loop_total, zero0. apply Rplus_0_l.
Qed.
Lemma ridge_large_doc z : sharp_ridge_generalized_raw RA n (vec n z) = first_squares n z + 100 * R_sqrt.sqrt (other_squares n z).
Proof using N.
  unfold sharp_ridge_generalized_raw, first_squares, other_squares. cbv zeta. rewrite axes_eq.
  rewrite (loop_ext (axes n) _ (fun i s => s + z i ^ 2)).
  2:{ intros i t I. at1. lits. ring. }
  rewrite loop_total. rewrite (loop_ext (n - axes n) _ (fun i s => s + z (axes n + i)%nat ^ 2)).
  2:{ intros i t I. at1. lits. ring. }
  rewrite loop_total, zero0. lits. rewrite Rplus_0_l. field.
Qed.
Lemma step_large_doc c z : step_ellipsoid_core RA n c (vec n z) =
  0.1 * Rmax (c / 10 ^ 4) (total n (fun i => Rpower 10 (2 * share n i) * z i ^ 2)).
Proof using N.
  unfold step_ellipsoid_core. cbv zeta. rewrite max_Rmax.
  rewrite (loop_ext n _ (fun i s => s + Rpower 10 (2 * share n i) * z i ^ 2)).
  - rewrite loop_total, zero0. lits. rewrite Rplus_0_l. replace (c * (1/10000)) with (c / 10 ^ 4) by field.
    replace (1/10) with 0.1 by lra. reflexivity.
  - intros i t I. at1. lits. rewrite pow_pos by lra. replace (100/1) with (Rpower 10 2).
    + rewrite Rpower_mult. replace (INR i / (INR n - 1/1)) with (share n i); [ring|].
      unfold share. rewrite <- INR_n1 by exact N. replace (1/1) with 1 by field. reflexivity.
    + replace 2 with (INR 2) by (cbn; lra). rewrite Rpower_pow by lra. lra.
Qed.
Lemma lunacek_large_doc (f0 f1 : list R -> R) u z : lunacek_core RA n f0 f1 u (vec n z) =
  Rmin (f0 u) (f1 u) + 10 * (INR n - total n (fun i => Rtrigo_def.cos (2 * PI * z i))).
Proof.
  unfold lunacek_core. cbv zeta. rewrite min_Rmin.
  assert (E : forall m a, (m <= n)%nat -> loop m (fun i r => sub RA r (FunModel.cos RA (mul RA (mul RA (lit RA 2 0) (coco_pi RA)) (vec n z : list (num RA)).[i]))) a =
     a - total m (fun i => Rtrigo_def.cos (2 * PI * z i))).
  { induction m as [|m IH]; intros a M; change (num RA) with R in *; [cbn; ring|]. cbn [loop total]. rewrite IH by lia. rewrite vec_at by lia. lits.
    replace (2/1) with 2 by field. cbn [sub RA]. change (sub RA) with Rminus. ring. }
  rewrite E by lia. rewrite zero0. lits. field.
Qed.

End Computes.

(** ** Optima *)

Section Optima.
Variable n : nat.

Lemma plain_good p f : good n p -> f (best_parameter _ p) = evaluate _ p (best_parameter _ p) ->
  (forall x, length x = n -> best_value _ p <= f x) -> good n (with_plain_evaluate RA p f).
Proof.
  intros (D & B & E & H) F L. unfold good. cbn [with_plain_evaluate dimension best_parameter best_value evaluate].
  split; [exact D|]. split; [exact B|]. split; [rewrite F; exact E|exact L].
Qed.

Lemma permutation_good p P : good n p -> at_zero n p -> good n (vars_permutation RA P p) /\ at_zero n (vars_permutation RA P p).
Proof.
  intros G Z. split; [|exact Z]. destruct (G) as (D & B & E & H). unfold vars_permutation. cbv zeta. apply plain_good; [exact G| |].
  - f_equal. rewrite D. etransitivity; [|apply list_vec; exact B]. apply vec_ext. intros i I.
    rewrite !(at_zero_at n p) by exact Z. reflexivity.
  - intros x X. apply H. rewrite D. apply vec_length.
Qed.

Lemma blockrotation_good p sizes B : Forall (fun s => (1 <= s)%nat) sizes -> list_sum sizes = n ->
  good n p -> at_zero n p -> good n (vars_blockrotation RA B sizes p) /\ at_zero n (vars_blockrotation RA B sizes p).
Proof.
  intros P S G Z. unfold vars_blockrotation. cbv zeta. replace (not_zero RA (best_parameter RA p)) with false by (rewrite Z; symmetry; apply not_zero_repeat). split; [|exact Z].
  destruct (G) as (D & L & E & H). apply plain_good; [exact G| |].
  - f_equal. rewrite D. rewrite <- (list_vec (block_apply RA n sizes B (best_parameter RA p)) n) by (unfold block_apply; apply vec_length).
    etransitivity; [|apply list_vec; exact L]. apply vec_ext. intros i I. rewrite (block_apply_at n) by assumption.
    rewrite (at_zero_at n p) by exact Z. apply blockwise_zero. intros j. rewrite <- coord_at. apply at_zero_at with (n := n). exact Z.
  - intros x X. apply H. rewrite D. unfold block_apply. apply vec_length.
Qed.

Lemma blockrotation_copies p sizes B : smallest _ (vars_blockrotation RA B sizes p) = smallest _ p /\
  largest _ (vars_blockrotation RA B sizes p) = largest _ p /\
  best_value _ (vars_blockrotation RA B sizes p) = best_value _ p /\ dimension _ (vars_blockrotation RA B sizes p) = dimension _ p.
Proof. unfold vars_blockrotation. cbv zeta. destruct (not_zero _ _); repeat split. Qed.

Lemma st_permutation p v P : st n p v (fun _ => 0) -> st n (vars_permutation RA P p) v (fun _ => 0).
Proof. intros H. apply (st_fix n p v); [exact H|apply permutation_good|reflexivity..]. Qed.
Lemma st_blockrotation p v sizes B : Forall (fun s => (1 <= s)%nat) sizes -> list_sum sizes = n ->
  st n p v (fun _ => 0) -> st n (vars_blockrotation RA B sizes p) v (fun _ => 0).
Proof. intros P S H. apply (st_fix n p v); [exact H|apply blockrotation_good; assumption|apply blockrotation_copies..]. Qed.

Lemma st_alloc_plain raw b : raw (repeat b n) = 0 -> (forall x, length x = n -> 0 <= raw x) ->
  st n (allocate_plain RA n raw b) 0 (fun _ => b).
Proof.
  intros Z H. split; [|split; [|split]].
  - unfold good, allocate_plain. cbn [dimension best_parameter best_value evaluate]. rewrite repeat_length.
    repeat split. intros x X. rewrite Z. apply H. exact X.
  - split; reflexivity.
  - exact Z.
  - intros i I. cbn [allocate_plain best_parameter]. apply repeat_at. exact I.
Qed.

Lemma round_step_zero : round_step RA (lit RA 10 0) 0 = 0.
Proof.
  rewrite round_step_10. rewrite Rabs_R0. destruct (Rlt_dec 0.5 0); [lra|]. rewrite Rmult_0_r.
  rewrite <- (round_nearest 0). rewrite double_round_zero. lra.
Qed.

Lemma st_round_step inner : (2 <= n)%nat -> st n (inner 0) 0 (fun _ => 0) -> (forall c x, length x = n -> 0 <= c -> 0 <= evaluate _ (inner c) x) ->
  st n (vars_round_step RA (lit RA 10 0) inner) 0 (fun _ => 0).
Proof.
  intros N S H. pose proof (st_zero n _ _ _ S (fun _ _ => eq_refl)) as Z. destruct S as (G & B & V & F).
  unfold vars_round_step. cbv zeta. rewrite zero0.
  assert (E : vec n (fun i => round_step RA (lit RA 10 0) (at_ RA (best_parameter RA (inner 0)) i)) = best_parameter RA (inner 0)).
  { destruct G as (D & L & _). etransitivity; [|apply list_vec; exact L]. apply vec_ext. intros i I.
    rewrite (at_zero_at n) by exact Z. apply round_step_zero. }
  destruct (G) as (D & L & EV & LO).
  assert (X0 : mul RA (abs RA (at_ RA (best_parameter RA (inner 0)) 0)) (of_nat RA n) = 0).
  { rewrite (at_zero_at n) by exact Z. lits. rewrite Rabs_R0. ring. }
  rewrite D. split; [|split; [|split]].
  - unfold good. cbn [with_best_parameter with_plain_evaluate dimension best_parameter best_value evaluate].
    rewrite E. split; [exact D|]. split; [exact L|]. split.
    + rewrite X0, E. exact EV.
    + intros x X. rewrite V. apply H; [apply vec_length|]. lits. apply Rmult_le_pos; [apply Rabs_pos|apply pos_INR].
  - exact B.
  - exact V.
  - intros i I. cbn [with_best_parameter with_plain_evaluate best_parameter]. rewrite vec_at by exact I.
    rewrite (at_zero_at n) by exact Z. apply round_step_zero.
Qed.

End Optima.
