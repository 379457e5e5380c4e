(** C60: the length of the feasible direction of the constrained suite. *)

From Coq Require Import ZArith List Bool Reals Lra Lia Psatz.
From Verif Require Import CBase FunModel FunSpec FunProofs FunDocSpec FunDocProofs ConsModel ConsSpec ConsProofs ConsObjProofs.
Import ListNotations.
Local Open Scope R_scope.

(** The direction points along the gradient, its end lies in the region of interest when it begins at the optimum, and it has at
    least three quarters of the largest such length. *)
Theorem C60_length n (g xo : list R) (r : R) : length xo = n -> within 4 xo -> 0 <= r <= 1 -> (exists i, (i < n)%nat /\ coord g i <> 0) ->
  exists d k, set_length real_arith g xo n r = Ok d /\ 0 < k /\
    (forall i, (i < n)%nat -> coord d i = k * coord g i /\ -5 <= coord d i + coord xo i <= 5) /\
    (forall t, 4 / 3 < t -> exists i, (i < n)%nat /\ (t * coord d i + coord xo i < -5 \/ 5 < t * coord d i + coord xo i)).
Proof.
  intros L W R0 Z. destruct (set_length_ok n g xo r L W R0 Z) as (d & k & E & K & D). exists d, k. split; [exact E|]. split; [exact K|].
  split; [intros i I; rewrite <- coord_at; apply D; exact I|]. intros t T.
  assert (X : forall i, (i < n)%nat -> -4 <= coord xo i <= 4).
  { intros i I. unfold coord. unfold within in W. rewrite Forall_forall in W. apply W, nth_In. lia. }
  unfold set_length in E. cbv zeta in E. set (f := fun i (m : num RA * num RA) => _) in E.
  assert (Q : forall j, (j <= n)%nat -> (snd (loop j f (zero RA, zero RA)) = 0 \/
    exists i, (i < j)%nat /\ (snd (loop j f (zero RA, zero RA)) = coord g i / (5 - coord xo i) \/ snd (loop j f (zero RA, zero RA)) = coord g i / (-5 - coord xo i))) /\
    forall i, (i < j)%nat -> coord g i / (5 - coord xo i) <= snd (loop j f (zero RA, zero RA)) /\ coord g i / (-5 - coord xo i) <= snd (loop j f (zero RA, zero RA))).
  { induction j as [|j IH]; intros J; [split; [left; cbn [loop snd]; exact zero0|intros; lia]|]. specialize (IH ltac:(lia)). cbn [loop]. set (m := loop j f (zero RA, zero RA)) in *.
    clearbody m. unfold f. clear f E. cbv beta zeta. cbn [fst snd]. rewrite !max_Rmax, !coord_at. lits.
    replace (5 / 1) with 5 by lra. replace (-5 / 1) with (-5) by lra. set (v1 := coord g j / (5 - coord xo j)). set (v2 := coord g j / (-5 - coord xo j)).
    destruct IH as [IH1 IH2]. split.
    - unfold Rmax. destruct (Rle_dec (snd m) v1); destruct (Rle_dec _ v2); try (right; exists j; split; [lia|unfold v1, v2; tauto]).
      destruct IH1 as [IH|(i & I & IH)]; [left; exact IH|right; exists i; split; [lia|exact IH]].
    - assert (H : Rmax (Rmax (snd m) v1) v2 >= snd m /\ Rmax (Rmax (snd m) v1) v2 >= v1 /\ Rmax (Rmax (snd m) v1) v2 >= v2).
      { unfold Rmax. destruct (Rle_dec (snd m) v1); destruct (Rle_dec _ v2); lra. }
      intros i I. destruct (Nat.eq_dec i j) as [->|N]; [fold v1 v2; lra|]. destruct (IH2 i ltac:(lia)). lra. }
  destruct (Q n (le_n n)) as [Q1 Q2]. clear Q. set (m := loop n f (zero RA, zero RA)) in *. clearbody m. clear f.
  destruct (FunModel.lt real_arith (lit RA 5 0) (fst m)); [discriminate E|]. injection E as E.
  match type of E with vector_scale _ _ _ ?a _ = _ => set (nom := a) in E end. assert (NM : 3 / 4 <= nom) by (unfold nom; lits; lra). clearbody nom.
  assert (P : 0 < snd m).
  { destruct Z as (i & I & H). specialize (X i I). destruct (Q2 i I) as [C1 C2]. destruct (Rlt_dec 0 (coord g i)) as [G|G].
    - apply Rlt_le_trans with (coord g i / (5 - coord xo i)); [|exact C1]. apply Rmult_lt_0_compat; [exact G|apply Rinv_0_lt_compat; lra].
    - apply Rlt_le_trans with (coord g i / (-5 - coord xo i)); [|exact C2].
      replace (coord g i / (-5 - coord xo i)) with (- coord g i / (5 + coord xo i)) by (field; lra).
      apply Rmult_lt_0_compat; [lra|apply Rinv_0_lt_compat; lra]. }
  assert (S : forall i, (i < n)%nat -> coord d i = coord g i * (nom / snd m)).
  { intros i I. rewrite <- !coord_at, <- E, scale_at by exact I. match goal with |- context [Req_EM_T ?a ?b] => destruct (Req_EM_T a b) end; [rlra|reflexivity]. }
  destruct Q1 as [Q|(i & I & Q)]; [lra|]. exists i. split; [exact I|]. specialize (X i I). specialize (S i I).
  assert (TN : 1 < t * nom) by nra. set (M := snd m) in *. change (num RA) with R in *. clearbody M. destruct Q as [Q|Q].
  - right. assert (G : coord g i = M * (5 - coord xo i)) by (rewrite Q; field; lra).
    replace (t * coord d i) with (t * nom * (5 - coord xo i)) by (rewrite S, G; field; lra). nra.
  - left. assert (G : coord g i = M * (-5 - coord xo i)) by (rewrite Q; field; lra).
    replace (t * coord d i) with (t * nom * (-5 - coord xo i)) by (rewrite S, G; field; lra). nra.
Qed.

Example C60_length_ex : length [0; 4] = 2%nat /\ within 4 [0; 4] /\ 0 <= 1 / 2 <= 1 /\ (exists i, (i < 2)%nat /\ coord [1; -3] i <> 0).
Proof. split; [reflexivity|]. split; [repeat constructor; lra|]. split; [lra|]. exists 0%nat. split; [lia|]. cbn. lra. Qed.

Print Assumptions C60_length.
