(** Lemmas on the numerical inversion in exact arithmetic. *)

From Coq Require Import ZArith List Bool Reals Lra Lia Psatz.
From Verif Require Import FunModel FunSpec FunProofs FunDocSpec FunDocProofs BrentModel BrentSpec.
Import ListNotations.
Local Open Scope R_scope.
Local Notation RA := real_arith.

Lemma equal_true x y : equal RA x y = true <-> x = y.
Proof.
  unfold equal. rewrite andb_true_iff, !le_true. change (num RA) with R in *. split; intros; lra.
Qed.
Lemma equal_false x y : equal RA x y = false <-> x <> y.
Proof. rewrite <- equal_true. destruct (equal RA x y); split; congruence. Qed.

Lemma zero0' : zero RA = 0.
Proof. exact zero0. Qed.

Section Rounds.
Variable f : R -> R.
Variables y xtol rtol : R.
Hypothesis F : increasing f.
Hypothesis X : 0 < xtol.
Hypothesis Y : 0 <= rtol.
Variables lo hi : R.

Local Notation G := (fun x : R => f x - y).

Lemma G_lt a b : G a < G b -> a < b.
Proof using F.
  intros H. destruct (Rtotal_order a b) as [L|[->|L]]; [exact L|lra|]. pose proof (F _ _ L). lra.
Qed.
Lemma G_inj a b : G a = G b -> a = b.
Proof using F.
  intros H. destruct (Rtotal_order a b) as [L|[L|L]]; [|exact L|]; pose proof (F _ _ L); lra.
Qed.

Lemma slope a b : a <> b -> 0 < (G a - G b) / (a - b).
Proof using F.
  intros N. destruct (Rtotal_order a b) as [L|[L|L]]; [|contradiction|]; pose proof (F _ _ L).
  - replace ((G a - G b) / (a - b)) with ((G b - G a) / (b - a)) by (field; lra). apply Rdiv_lt_0_compat; lra.
  - apply Rdiv_lt_0_compat; lra.
Qed.

Definition inside (x : R) : Prop := lo <= x <= hi.

(** A state at the beginning of a round. *)
Definition top (s : state RA) : Prop :=
  fpre _ s = G (xpre _ s) /\ fcur _ s = G (xcur _ s) /\ fpre _ s <> 0 /\ inside (xpre _ s) /\ inside (xcur _ s) /\
  (fcur _ s = 0 \/ fpre _ s * fcur _ s < 0 \/
   0 < fpre _ s * fcur _ s /\ xpre _ s <> xcur _ s /\ fblk _ s = G (xblk _ s) /\ fblk _ s * fcur _ s < 0 /\ inside (xblk _ s)).

(** ... and after the exchanges. *)
Definition ready (s : state RA) : Prop :=
  fpre _ s = G (xpre _ s) /\ fcur _ s = G (xcur _ s) /\ fblk _ s = G (xblk _ s) /\ fblk _ s * fcur _ s < 0 /\
  inside (xcur _ s) /\ inside (xblk _ s) /\ (xpre _ s = xblk _ s \/ 0 < fpre _ s * fcur _ s /\ xpre _ s <> xcur _ s).

Lemma signbit_dec x : signbit RA x = if Rlt_dec x 0 then true else false.
Proof. unfold signbit. rewrite zero0. reflexivity. Qed.

Lemma top_ready s : top s ->
  (fcur _ (swap RA (rebracket RA s)) = 0 /\ G (xcur _ (swap RA (rebracket RA s))) = 0 /\ inside (xcur _ (swap RA (rebracket RA s)))) \/
  ready (swap RA (rebracket RA s)).
Proof using F.
  destruct s as [xp xc xb fp fc fb sp sc]. unfold top. cbn [fpre fcur fblk xpre xcur xblk]. intros (Ep & Ec & Np & Ip & Ic & [Z|H]).
  - left. unfold rebracket. cbn [fpre fcur fblk xpre xcur xblk]. rewrite zero0.
    assert (E0 : equal RA fc 0 = true) by (apply equal_true; exact Z). rewrite E0, andb_false_r. cbn [andb].
    unfold swap. cbn [fpre fcur fblk xpre xcur xblk]. change (abs RA) with Rabs. rewrite Z, Rabs_R0.
    assert (EL : FunModel.lt RA (Rabs fb) 0 = false) by (apply lt_false, Rabs_pos). rewrite EL. cbn [fcur xcur].
    split; [reflexivity|]. split; [rewrite <- Ec; exact Z|exact Ic].
  - right. assert (Nc : fc <> 0) by (destruct H as [H|(H & _)]; nra).
    assert (K : exists xb' fb' sp' sc', rebracket RA {| xpre := xp; xcur := xc; xblk := xb; fpre := fp; fcur := fc; fblk := fb; spre := sp; scur := sc |} =
        {| xpre := xp : num RA; xcur := xc; xblk := xb'; fpre := fp; fcur := fc; fblk := fb'; spre := sp'; scur := sc' |} /\
        fb' = G xb' /\ fb' * fc < 0 /\ inside xb' /\ (xp = xb' \/ 0 < fp * fc /\ xp <> xc)).
    { unfold rebracket. cbn [fpre fcur fblk xpre xcur xblk]. rewrite zero0.
      assert (E1 : equal RA fp 0 = false) by (apply equal_false; exact Np). assert (E2 : equal RA fc 0 = false) by (apply equal_false; exact Nc).
      rewrite E1, E2, !signbit_dec. cbn [negb andb]. destruct H as [H|(H & D & Eb & B & Ib)].
      - assert (ES : negb (Bool.eqb (if Rlt_dec fp 0 then true else false) (if Rlt_dec fc 0 then true else false)) = true).
        { destruct (Rlt_dec fp 0); destruct (Rlt_dec fc 0); cbn; try reflexivity; exfalso; nra. }
        rewrite ES. exists xp, fp. do 2 eexists. split; [reflexivity|]. split; [exact Ep|]. split; [exact H|]. split; [exact Ip|left; reflexivity].
      - assert (ES : negb (Bool.eqb (if Rlt_dec fp 0 then true else false) (if Rlt_dec fc 0 then true else false)) = false).
        { destruct (Rlt_dec fp 0); destruct (Rlt_dec fc 0); cbn; try reflexivity; exfalso; nra. }
        rewrite ES. exists xb, fb. do 2 eexists. split; [reflexivity|]. split; [exact Eb|]. split; [exact B|]. split; [exact Ib|right; split; assumption]. }
    destruct K as (xb' & fb' & sp' & sc' & -> & Eb & B & Ib & C). unfold swap, ready. cbn [fpre fcur fblk xpre xcur xblk].
    destruct (FunModel.lt RA (abs RA fb') (abs RA fc)); cbn [fpre fcur fblk xpre xcur xblk].
    + split; [exact Ec|]. split; [exact Eb|]. split; [exact Ec|]. split; [change (fc * fb' < 0); lra|]. split; [exact Ib|]. split; [exact Ic|]. left. reflexivity.
    + repeat (split; [assumption|]). exact C.
Qed.

Lemma stry_sign s : ready s -> stry RA s * fcur _ s < 0.
Proof using F.
  intros (Ep & Ec & Eb & B & _ & _ & C). unfold stry.
  assert (N : xblk _ s <> xcur _ s) by (intros E; rewrite Eb, Ec, E in B; clear - B; set (t := f _ - y) in B; pose proof (Rle_0_sqr t) as Q; unfold Rsqr in Q; lra).
  assert (Nc : fcur _ s <> 0) by (intros E; rewrite E in B; lra).
  destruct (equal RA (xpre _ s) (xblk _ s)) eqn:Q.
  - apply equal_true in Q. assert (S1 := slope _ _ N). cbv beta in S1. rewrite <- Eb, <- Ec in S1.
    rewrite Q. assert (EE : fpre _ s = fblk _ s) by (rewrite Ep, Q, Eb; reflexivity). rewrite EE.
    lits. set (u := fcur RA s) in *. set (w := fblk RA s) in *. set (a := xcur RA s) in *. set (b := xblk RA s) in *.
    assert (I1 : 0 < (a - b) / (u - w)).
    { assert (u <> w) by (intros K; rewrite K in B; nra). replace ((a - b) / (u - w)) with (/ ((w - u) / (b - a))) by (field; split; lra).
      apply Rinv_0_lt_compat, S1. }
    replace (- u * (a - b) / (u - w) * u) with (- (u * u * ((a - b) / (u - w)))) by (unfold Rdiv; ring).
    assert (0 < u * u) by nra. nra.
  - apply equal_false in Q. destruct C as [C|(C & D)]; [contradiction|]. cbv zeta.
    assert (S1 := slope _ _ N). assert (S2 := slope _ _ D). cbv beta in S1, S2. rewrite <- Eb, <- Ec in S1. rewrite <- Ep, <- Ec in S2.
    lits. set (u := fcur RA s) in *. set (w := fblk RA s) in *. set (v := fpre RA s) in *.
    set (p := (v - u) / _) in *. set (b := (w - u) / _) in *.
    assert (WV : w * v < 0) by nra.
    assert (I1 : 0 < (w * b - v * p) / (b * p * (w - v))).
    { assert (BP : 0 < b * p) by nra. destruct (Rlt_dec 0 v) as [V|V].
      - replace ((w * b - v * p) / (b * p * (w - v))) with ((v * p - w * b) / (b * p * (v - w))) by (field; split; [nra|split; nra]).
        apply Rdiv_lt_0_compat; [nra|]. apply Rmult_lt_0_compat; [exact BP|nra].
      - apply Rdiv_lt_0_compat; [nra|]. apply Rmult_lt_0_compat; [exact BP|nra]. }
    replace (- u * (w * b - v * p) / (b * p * (w - v)) * u) with (- (u * u * ((w * b - v * p) / (b * p * (w - v))))) by (unfold Rdiv; ring).
    assert (0 < u * u) by nra. nra.
Qed.

Lemma sbis_sign s : ready s -> sbis RA s * fcur _ s < 0.
Proof using F.
  intros (_ & Ec & Eb & B & _). unfold sbis. lits. destruct (Rlt_dec 0 (fcur RA s)) as [P|P].
  - assert (L : xblk RA s < xcur RA s) by (apply G_lt; rewrite <- Eb, <- Ec; nra). nra.
  - assert (L : xcur RA s < xblk RA s) by (apply G_lt; rewrite <- Eb, <- Ec; nra).
    assert (U : fcur RA s < 0) by (destruct (Req_dec (fcur RA s) 0) as [E|E]; [rewrite E in B; lra|lra]). nra.
Qed.

Lemma choose_sign s : ready s -> delta RA xtol rtol s <= Rabs (sbis RA s) -> 0 < delta RA xtol rtol s ->
  snd (choose RA xtol rtol s) * sbis RA s > 0 /\ Rabs (snd (choose RA xtol rtol s)) < 2 * Rabs (sbis RA s).
Proof using F.
  intros Rd D P. pose proof (stry_sign s Rd) as S1. pose proof (sbis_sign s Rd) as S2.
  assert (A : 0 < Rabs (sbis RA s)) by (eapply Rlt_le_trans; [exact P|exact D]).
  assert (Q : sbis RA s * sbis RA s > 0 /\ Rabs (sbis RA s) < 2 * Rabs (sbis RA s)) by (split; [|lra]; nra).
  unfold choose. destruct (_ && _); [|exact Q]. destruct (FunModel.lt RA _ _) eqn:T; [|exact Q]. cbn [snd].
  apply lt_true in T. split.
  - assert (stry RA s <> 0) by (intros E; rewrite E in S1; change (num RA) with R in *; lra). change (num RA) with R in *. nra.
  - assert (M : MIN RA (abs RA (spre RA s)) (sub RA (mul RA (lit RA 3 0) (abs RA (sbis RA s))) (delta RA xtol rtol s)) <= 3 * Rabs (sbis RA s) - delta RA xtol rtol s).
    { unfold MIN. destruct (FunModel.lt RA _ _) eqn:K; [apply lt_true in K|]; lits; lra. }
    lits. lra.
Qed.

Lemma advance_top s : ready s -> delta RA xtol rtol s <= Rabs (sbis RA s) -> 0 < delta RA xtol rtol s -> top (advance RA f y xtol rtol s).
Proof using F.
  intros Rd D P. destruct (choose_sign s Rd D P) as (C1 & C2). pose proof (sbis_sign s Rd) as S2. unfold advance.
  destruct (choose RA xtol rtol s) as [pre cur]. cbn [snd] in C1, C2. cbv zeta.
  set (x := if FunModel.lt RA _ _ then _ else _).
  destruct Rd as (Ep & Ec & Eb & B & Ic & Ib & _). unfold inside in Ic, Ib.
  assert (SB : xblk _ s - xcur _ s = 2 * sbis RA s) by (unfold sbis; lits; lra).
  assert (BT : exists t, 0 < t < 2 /\ x = xcur _ s + t * sbis RA s).
  { set (b := sbis RA s) in *. assert (b <> 0) by (intros E; rewrite E in S2; change (num RA) with R in *; lra).
    unfold x. destruct (FunModel.lt RA (delta RA xtol rtol s) (abs RA cur)).
    - exists (cur / b). change (num RA) with R in *. split.
      + change (add RA) with Rplus. split.
        * replace (cur / b) with (cur * b / (b * b)) by (field; assumption). apply Rdiv_lt_0_compat; [lra|nra].
        * replace (cur / b) with (Rabs (cur / b)).
          { unfold Rdiv. rewrite Rabs_mult, Rabs_inv. apply Rmult_lt_reg_r with (Rabs b); [apply Rabs_pos_lt; assumption|].
            rewrite Rmult_assoc, Rinv_l by (apply Rabs_no_R0; assumption). lra. }
          apply Rabs_pos_eq. replace (cur / b) with (cur * b / (b * b)) by (field; assumption). apply Rlt_le, Rdiv_lt_0_compat; [lra|nra].
      + lits. field. assumption.
    - exists (delta RA xtol rtol s / Rabs b). change (num RA) with R in *. split.
      + assert (0 < Rabs b) by (apply Rabs_pos_lt; assumption). split; [apply Rdiv_lt_0_compat; assumption|].
        apply Rmult_lt_reg_r with (Rabs b); [assumption|]. unfold Rdiv. rewrite Rmult_assoc, Rinv_l by lra. lra.
      + rewrite zero0. destruct (FunModel.lt RA 0 b) eqn:Z; [apply lt_true in Z|apply lt_false in Z].
        * rewrite Rabs_right by lra. lits. field. assumption.
        * rewrite Rabs_left1 by lra. lits. field. assumption. }
  destruct BT as (t & T & Ex). set (u := fcur RA s) in *. change (num RA) with R in *.
  assert (U0 : u <> 0) by (intros E; rewrite E in B; lra).
  assert (Gx : u * G x < 0 \/ G x = 0 \/ 0 < u * G x) by (destruct (Rtotal_order (u * G x) 0) as [H|[H|H]]; [left; exact H|right; left; nra|right; right; exact H]).
  assert (BN : sbis RA s <> 0) by (intros E; rewrite E in S2; change (num RA) with R in *; lra).
  unfold top. cbn [fpre fcur fblk xpre xcur xblk]. fold u. change (sub RA (f x) y) with (G x). change (num RA) with R in *.
  split; [exact Ec|]. split; [reflexivity|]. split; [exact U0|]. split; [exact Ic|]. split.
  - unfold inside. rewrite Ex. set (b := sbis RA s) in *. change (num RA) with R in *. nra.
  - destruct Gx as [H|[H|H]]; [right; left; exact H|left; exact H|]. right. right. split; [exact H|]. split; [rewrite Ex; nra|].
    split; [exact Eb|]. split; [|exact Ib]. fold u in B. destruct (Rlt_dec 0 u); nra.
Qed.

Lemma rounds_result iter s : top s -> inside (fst (rounds RA f y xtol rtol iter s)) /\
  (snd (rounds RA f y xtol rtol iter s) = true -> forall x, f x = y ->
   Rabs (fst (rounds RA f y xtol rtol iter s) - x) < xtol + rtol * Rabs (fst (rounds RA f y xtol rtol iter s))).
Proof using F X Y.
  revert s. induction iter as [|iter IH]; intros s S.
  - cbn [rounds fst snd]. split; [apply S|discriminate].
  - cbn [rounds]. cbv zeta. set (t := swap RA (rebracket RA s)).
    assert (DP : 0 < delta RA xtol rtol t).
    { unfold delta. lits. pose proof (Rabs_pos (xcur RA t)). nra. }
    assert (DE : 2 * delta RA xtol rtol t = xtol + rtol * Rabs (xcur RA t)) by (unfold delta; lits; lra).
    pose proof (top_ready s S) as TR. fold t in TR. destruct TR as [(Z & GZ & I)|Rd].
    + assert (E : equal RA (fcur _ t) (zero RA) = true) by (apply equal_true; rewrite zero0; exact Z). rewrite E. cbn [orb fst snd].
      split; [exact I|]. intros _ x Ex. assert (xcur _ t = x) as -> by (apply G_inj; cbv beta in *; lra).
      rewrite Rminus_diag_eq by reflexivity. rewrite Rabs_R0. pose proof (Rabs_pos x). nra.
    + destruct (equal RA (fcur _ t) (zero RA)) eqn:E.
      { apply equal_true in E. rewrite zero0 in E. destruct Rd as (_ & _ & _ & B & _). rewrite E in B. change (num RA) with R in *. lra. }
      cbn [orb]. destruct (FunModel.lt RA (abs RA (sbis RA t)) (delta RA xtol rtol t)) eqn:L.
      * apply lt_true in L. cbn [fst snd]. split; [apply Rd|]. intros _ x Ex. change (abs RA) with Rabs in L.
        destruct Rd as (_ & Ec & Eb & B & _). assert (SB : xblk _ t - xcur _ t = 2 * sbis RA t) by (unfold sbis; lits; lra).
        apply Rle_lt_trans with (Rabs (xblk _ t - xcur _ t)).
        2:{ rewrite SB, Rabs_mult, (Rabs_right 2) by lra. lra. }
        change (num RA) with R in *. destruct (Rlt_dec 0 (fcur RA t)) as [P|P].
        -- assert (x < xcur RA t) by (apply G_lt; cbv beta; rewrite <- Ec; lra). assert (xblk RA t < x) by (apply G_lt; cbv beta; rewrite <- Eb; nra).
           rewrite (Rabs_right (xcur RA t - x)), Rabs_left by lra. lra.
        -- assert (U : fcur RA t < 0) by (destruct (Req_dec (fcur RA t) 0) as [E0|E0]; [rewrite E0 in B; lra|lra]).
           assert (xcur RA t < x) by (apply G_lt; cbv beta; rewrite <- Ec; nra). assert (x < xblk RA t) by (apply G_lt; cbv beta; rewrite <- Eb; nra).
           rewrite (Rabs_left (xcur RA t - x)), Rabs_right by lra. lra.
      * apply lt_false in L. apply IH. apply advance_top; assumption.
Qed.
End Rounds.

Lemma brentq_result f y xtol rtol xa xb iter : increasing f -> 0 < xtol -> 0 <= rtol -> f xa <= y <= f xb ->
  exists r good, brentq RA f y xtol rtol xa xb iter = Some (r, good) /\ xa <= r <= xb /\
    (good = true -> forall x, f x = y -> Rabs (r - x) < xtol + rtol * Rabs r).
Proof.
  intros F X Y (A & B). assert (AB : xa <= xb).
  { destruct (Rle_dec xa xb) as [L|L]; [exact L|]. pose proof (F xb xa ltac:(lra)). lra. }
  unfold brentq. cbv zeta. change (num RA) with R in *. change (sub RA) with Rminus. rewrite zero0.
  assert (EL : FunModel.lt RA 0 (mul RA (f xa - y) (f xb - y)) = false) by (apply lt_false; lits; nra). rewrite EL.
  assert (Z : forall r, f r = y -> forall x, f x = y -> Rabs (r - x) < xtol + rtol * Rabs r).
  { intros r Er x Ex. assert (r = x) as -> by (apply (G_inj f y F); lra). rewrite Rminus_diag_eq by reflexivity. rewrite Rabs_R0. pose proof (Rabs_pos x). nra. }
  destruct (equal RA (f xa - y) 0) eqn:E1.
  { apply equal_true in E1. exists xa, true. split; [reflexivity|]. split; [lra|]. intros _. apply Z. lra. }
  destruct (equal RA (f xb - y) 0) eqn:E2.
  { apply equal_true in E2. exists xb, true. split; [reflexivity|]. split; [lra|]. intros _. apply Z. lra. }
  apply equal_false in E1, E2.
  set (s := Build_state RA _ _ _ _ _ _ _ _).
  assert (T : top f y xa xb s).
  { unfold top, s, inside. cbn [fpre fcur fblk xpre xcur xblk]. split; [reflexivity|]. split; [reflexivity|]. split; [exact E1|]. split; [lra|]. split; [lra|].
    right. left. nra. }
  destruct (rounds_result f y xtol rtol F X Y xa xb iter s T) as (H1 & H2).
  destruct (rounds RA f y xtol rtol iter s) as [r good]. exists r, good. split; [reflexivity|]. split; [exact H1|exact H2].
Qed.
