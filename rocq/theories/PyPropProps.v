(** C83: initial solution proposals. *)
From Coq Require Import List Arith ZArith Bool Reals Lia Lra.
From Flocq Require Import Core BinarySingleNaN.
From Verif Require Import CBase DblModel DblSpec DblProofs PyPropModel PyPropSpec.
Import ListNotations.
Local Open Scope R_scope.

Lemma pow50 : IZR (2 ^ 50) < IZR (2 ^ 53) - 8.
Proof. rewrite <- minus_IZR. apply IZR_lt. reflexivity. Qed.
Lemma clamp_small : forall r, Rabs r <= IZR (2 ^ 53) -> clamp (rnd r) = rnd r /\ Rabs (rnd r) <= IZR (2 ^ 53).
Proof.
  intros r H. assert (B : Rabs (rnd r) <= IZR (2 ^ 53)).
  { apply Rabs_le. apply Rabs_le_inv in H. rewrite <- opp_IZR in *. rewrite <- (rnd_int (2 ^ 53)), <- (rnd_int (- 2 ^ 53)) by (cbv; discriminate).
    split; apply rnd_mono; apply H. }
  split; [|exact B]. apply clamp_lt. pose proof big_53. lra.
Qed.
Lemma small_fin : forall x, num x -> Rabs (val x) <= IZR (2 ^ 53) -> fin x.
Proof. intros x N H. apply fin_val; [exact N|]. apply Rabs_le_inv in H. pose proof big_53. lra. Qed.

Lemma sum_draws : forall u v, unit_draw u -> unit_draw v -> fin (dadd u v) /\ 0 <= val (dadd u v) <= 2.
Proof.
  intros u v [Fu Hu] [Fv Hv]. destruct (dadd_val u v Fu Fv) as [N E].
  assert (S : Rabs (val u + val v) <= IZR (2 ^ 53)).
  { apply Rabs_le. assert (2 <= IZR (2 ^ 53)) by (apply IZR_le; discriminate). lra. }
  destruct (clamp_small _ S) as [C B]. rewrite C in E. split; [apply small_fin; [exact N|rewrite E; exact B]|].
  rewrite E. rewrite <- rnd_0 at 1. rewrite <- (rnd_int 2) by (cbv; discriminate). split; apply rnd_mono; lra.
Qed.

(** One coordinate of the proposal in a domain *)
Lemma spread_one : forall l u r a b, integer_bound l a -> integer_bound u b -> (a <= b)%Z -> fin r -> 0 <= val r <= 2 ->
  inside l u (dadd (dmul r (ddiv (dsub u l) (dint 2))) l).
Proof.
  intros l u r a b (Fl & Vl & Sl) (Fu & Vu & Su) L Fr Hr.
  pose proof pow50 as P50.
  assert (Ia : Rabs (IZR a) <= IZR (2 ^ 50)) by (rewrite <- abs_IZR; apply IZR_le; exact Sl).
  assert (Ib : Rabs (IZR b) <= IZR (2 ^ 50)) by (rewrite <- abs_IZR; apply IZR_le; exact Su).
  apply Rabs_le_inv in Ia, Ib. apply IZR_le in L.
  assert (Q : IZR (2 ^ 50) * 8 <= IZR (2 ^ 53)) by (rewrite <- mult_IZR; apply IZR_le; discriminate).
  (* upper - lower *)
  destruct (dsub_val u l Fu Fl) as [N1 E1]. rewrite Vu, Vl in E1. rewrite <- minus_IZR in E1.
  assert (Z1 : (Z.abs (b - a) <= 2 ^ 53)%Z).
  { change (2 ^ 53)%Z with (2 ^ 50 * 8)%Z. set (m := (2 ^ 50)%Z) in *. lia. }
  rewrite (rnd_int _ Z1) in E1.
  assert (B1 : Rabs (IZR (b - a)) <= IZR (2 ^ 53)) by (rewrite <- abs_IZR; apply IZR_le; exact Z1).
  rewrite clamp_id in E1 by (pose proof big_53; lra).
  assert (F1 : fin (dsub u l)) by (apply small_fin; [exact N1|rewrite E1; exact B1]).
  rewrite minus_IZR in E1.
  (* / 2 *)
  destruct (dint_val 2 ltac:(cbv; discriminate)) as [F2 V2].
  destruct (ddiv_val (dsub u l) (dint 2) F1 ltac:(rewrite V2; lra) F2) as [N3 E3]. rewrite E1, V2 in E3.
  set (h := (IZR b - IZR a) / 2) in *.
  assert (G : rnd h = h).
  { unfold rnd. apply round_generic; [auto with typeclass_instances|]. apply generic_format_FLT.
    exists (Float radix2 (b - a) (-1)); unfold h.
    - unfold F2R. cbn [Fnum Fexp]. rewrite minus_IZR. change (bpow radix2 (-1)) with (/ 2). lra.
    - cbn [Fnum]. change (radix_val radix2) with 2%Z. set (m := (2 ^ 50)%Z) in *. change (2 ^ 53)%Z with (m * 8)%Z.
      assert (0 < m)%Z by reflexivity. lia.
    - cbn [Fexp]. lia. }
  rewrite G in E3. assert (Bh : 0 <= h <= IZR (2 ^ 50)) by (unfold h; lra).
  rewrite clamp_lt in E3 by (apply Rabs_def1; pose proof big_53; lra).
  assert (F3 : fin (ddiv (dsub u l) (dint 2))).
  { apply small_fin; [exact N3|]. rewrite E3. apply Rabs_le. lra. }
  (* rv *= *)
  destruct (dmul_val r _ Fr F3) as [N4 E4]. rewrite E3 in E4.
  assert (Bm : 0 <= val r * h <= IZR (b - a)).
  { rewrite minus_IZR. split; [apply Rmult_le_pos; lra|]. replace (IZR b - IZR a) with (2 * h) by (unfold h; lra).
    apply Rmult_le_compat_r; lra. }
  assert (Sm : Rabs (val r * h) <= IZR (2 ^ 53)).
  { apply Rabs_le. rewrite Rabs_pos_eq in B1; [lra|]. lra. }
  destruct (clamp_small _ Sm) as [C4 B4]. rewrite C4 in E4.
  assert (F4 : fin (dmul r (ddiv (dsub u l) (dint 2)))) by (apply small_fin; [exact N4|rewrite E4; exact B4]).
  assert (R4 : 0 <= val (dmul r (ddiv (dsub u l) (dint 2))) <= IZR (b - a)).
  { rewrite E4. rewrite <- rnd_0 at 1. rewrite <- (rnd_int _ Z1) at 1. split; apply rnd_mono; lra. }
  (* rv += lower *)
  destruct (dadd_val _ l F4 Fl) as [N5 E5]. set (m := val (dmul r (ddiv (dsub u l) (dint 2)))) in *. rewrite Vl in E5.
  rewrite minus_IZR in R4.
  assert (S5 : Rabs (m + IZR a) <= IZR (2 ^ 53)) by (apply Rabs_le; lra).
  destruct (clamp_small _ S5) as [C5 B5]. rewrite C5 in E5. split; [apply small_fin; [exact N5|rewrite E5; exact B5]|].
  rewrite Vl, Vu, E5. assert (Za : (Z.abs a <= 2 ^ 53)%Z) by (eapply Z.le_trans; [exact Sl|discriminate]).
  assert (Zb : (Z.abs b <= 2 ^ 53)%Z) by (eapply Z.le_trans; [exact Su|discriminate]).
  rewrite <- (rnd_int a Za) at 1. rewrite <- (rnd_int b Zb). split; apply rnd_mono; lra.
Qed.

Lemma triangular_ok : forall us vs, Forall unit_draw us -> Forall unit_draw vs ->
  Forall (fun r => fin r /\ 0 <= val r <= 2) (triangular us vs).
Proof.
  intros us vs Fu. revert vs. induction Fu as [|u us Hu Fu IH]; intros [|v vs] Fv; try constructor; inversion Fv; subst.
  - apply sum_draws; assumption.
  - apply IH. assumption.
Qed.
Lemma triangular_length : forall us vs, length us = length vs -> length (triangular us vs) = length us.
Proof. intros us vs H. unfold triangular. rewrite map_length, combine_length. lia. Qed.
Lemma spread_ok : forall lower upper rv, proper_domain lower upper -> length rv = length lower ->
  Forall (fun r => fin r /\ 0 <= val r <= 2) rv ->
  length (spread lower upper rv) = length lower /\
  forall i l u x, nth_error lower i = Some l -> nth_error upper i = Some u -> nth_error (spread lower upper rv) i = Some x -> inside l u x.
Proof.
  intros lower upper rv D. revert rv. induction D as [|l u lower upper (a & b & Hl & Hu & L) D IH]; intros [|r rv] Len F; try discriminate Len.
  - split; [reflexivity|]. intros [|i] ? ? ? E; discriminate E.
  - inversion F as [|x y [Fr Hr] F']; subst. destruct (IH rv (eq_add_S _ _ Len) F') as [IL IN]. split.
    + unfold spread in *. cbn [combine map length]. f_equal. exact IL.
    + intros [|i] l0 u0 x El Eu Ex; cbn in El, Eu, Ex.
      * injection El as <-. injection Eu as <-. injection Ex as <-. eapply spread_one; eassumption.
      * apply (IN i l0 u0 x El Eu Ex).
Qed.
Lemma skipn_Forall2 : forall A B (R : A -> B -> Prop) n l m, Forall2 R l m -> Forall2 R (skipn n l) (skipn n m).
Proof. intros A B R n. induction n as [|n IH]; intros l m H; [exact H|]. destruct H; [constructor|]. apply IH. assumption. Qed.
Lemma skipn_Forall : forall A (P : A -> Prop) n l, Forall P l -> Forall P (skipn n l).
Proof. intros A P n. induction n as [|n IH]; intros l H; [exact H|]. destruct H; [constructor|]. apply IH. assumption. Qed.
Lemma nth_skipn : forall A (l : list A) n i, nth_error (skipn n l) i = nth_error l (n + i).
Proof. intros A l n. revert l. induction n as [|n IH]; intros [|a l] i; try reflexivity; [destruct i; reflexivity|apply IH]. Qed.

(** Unconstrained problems: a proposal has as many coordinates as the problem, all of them inside the domain (exactly, in spite of rounding),
    and integer variables have integer values. *)
Theorem C83_inside : forall p us vs ks, number_of_constraints p = 0%nat ->
  proper_domain (lower_bounds p) (upper_bounds p) ->
  length us = length (lower_bounds p) -> length vs = length (lower_bounds p) ->
  Forall unit_draw us -> Forall unit_draw vs ->
  (number_of_integer_variables p <= length (lower_bounds p))%nat -> length ks = number_of_integer_variables p ->
  (forall i l u k, nth_error (lower_bounds p) i = Some l -> nth_error (upper_bounds p) i = Some u -> nth_error ks i = Some k ->
     integer_draw l u k) ->
  let x := random_proposal p us vs ks in
  length x = length (lower_bounds p) /\
  (forall i l u a, nth_error (lower_bounds p) i = Some l -> nth_error (upper_bounds p) i = Some u -> nth_error x i = Some a -> inside l u a) /\
  (forall i a, (i < number_of_integer_variables p)%nat -> nth_error x i = Some a -> whole a).
Proof.
  intros p us vs ks C D Lu Lv Fu Fv Ln Lk Dk. cbv zeta. unfold random_proposal. rewrite C. cbn [Nat.ltb Nat.leb]. cbv zeta.
  set (n := number_of_integer_variables p) in *.
  assert (T : length (skipn n (triangular us vs)) = length (skipn n (lower_bounds p))).
  { rewrite !skipn_length, triangular_length by lia. lia. }
  destruct (spread_ok (skipn n (lower_bounds p)) (skipn n (upper_bounds p)) (skipn n (triangular us vs))
    (skipn_Forall2 _ _ _ n _ _ D) T (skipn_Forall _ _ n _ (triangular_ok us vs Fu Fv))) as [SL SN].
  assert (K : forall i l u k, nth_error (lower_bounds p) i = Some l -> nth_error (upper_bounds p) i = Some u -> nth_error ks i = Some k ->
    fin (dint k) /\ val (dint k) = IZR k).
  { intros i l u k El Eu Ek. apply dint_val. pose proof (Dk i l u k El Eu Ek) as [K1 K2].
    assert (X : exists a b, integer_bound l a /\ integer_bound u b /\ (a <= b)%Z).
    { clear -D El Eu. revert i El Eu. induction D as [|l0 u0 lo up H D IH]; intros [|i] El Eu; try discriminate El.
      - injection El as <-. injection Eu as <-. exact H.
      - exact (IH i El Eu). }
    destruct X as (a & b & (_ & Va & Sa) & (_ & Vb & Sb) & _). rewrite Va in K1. rewrite Vb in K2. apply le_IZR in K1, K2.
    change (2 ^ 53)%Z with (2 ^ 50 * 8)%Z. set (m := (2 ^ 50)%Z) in *. lia. }
  split; [|split].
  - rewrite app_length, map_length, SL, skipn_length. lia.
  - intros i l u a El Eu Ea. destruct (Nat.lt_ge_cases i n) as [Hi|Hi].
    + rewrite nth_error_app1 in Ea by (rewrite map_length; lia). rewrite nth_error_map in Ea.
      destruct (nth_error ks i) as [k|] eqn:Ek; [|discriminate Ea]. injection Ea as <-.
      destruct (K i l u k El Eu Ek) as [F V]. split; [exact F|]. rewrite V. exact (Dk i l u k El Eu Ek).
    + rewrite nth_error_app2 in Ea by (rewrite map_length; lia). rewrite map_length, Lk in Ea.
      apply (SN (i - n)%nat l u a); [| |exact Ea]; rewrite nth_skipn; replace (n + (i - n))%nat with i by lia; assumption.
  - intros i a Hi Ea. rewrite nth_error_app1 in Ea by (rewrite map_length; lia). rewrite nth_error_map in Ea.
    destruct (nth_error ks i) as [k|] eqn:Ek; [|discriminate Ea]. injection Ea as <-.
    destruct (nth_error (lower_bounds p) i) as [l|] eqn:El; [|apply nth_error_None in El; lia].
    destruct (nth_error (upper_bounds p) i) as [u|] eqn:Eu.
    + exists k. apply (K i l u k El Eu Ek).
    + apply nth_error_None in Eu. assert (XX : length (lower_bounds p) = length (upper_bounds p)).
      { clear -D. induction D; [reflexivity|]. cbn. congruence. }
      lia.
Qed.

(** Constrained problems: around the initial solution. *)
Lemma around_one : forall x0 r, fin x0 -> Rabs (val x0) <= 6 -> fin r -> 0 <= val r <= 2 ->
  fin (dadd r (dadd (dint (-1)) x0)) /\ Rabs (val (dadd r (dadd (dint (-1)) x0)) - val x0) <= 1 + bpow radix2 (-48).
Proof.
  intros x0 r Fx Bx Fr Hr. destruct (dint_val (-1) ltac:(cbv; discriminate)) as [F1 V1].
  destruct (dadd_val (dint (-1)) x0 F1 Fx) as [N2 E2]. rewrite V1 in E2. apply Rabs_le_inv in Bx.
  assert (P : 16 <= IZR (2 ^ 53)) by (apply IZR_le; discriminate).
  assert (S2 : Rabs (-1 + val x0) <= 7) by (apply Rabs_le; lra).
  destruct (clamp_small (-1 + val x0) ltac:(lra)) as [C2 B2]. change (IZR (-1)) with (-1) in E2. rewrite C2 in E2.
  assert (F2 : fin (dadd (dint (-1)) x0)) by (apply small_fin; [exact N2|rewrite E2; exact B2]).
  pose proof (rnd_err (-1 + val x0)) as R2.
  assert (e48 : bpow radix2 (-48) = 32 * bpow radix2 (-53)).
  { change 32 with (bpow radix2 5). rewrite <- bpow_plus. reflexivity. }
  assert (small : 0 < bpow radix2 (-1075) <= bpow radix2 (-53)).
  { split; [apply bpow_gt_0|apply bpow_le; lia]. }
  assert (e53 : 0 < bpow radix2 (-53) <= / 1024).
  { split; [apply bpow_gt_0|]. change (/ 1024) with (bpow radix2 (-10)). apply bpow_le. lia. }
  set (e := bpow radix2 (-53)) in *. set (t := bpow radix2 (-1075)) in *.
  assert (R2' : Rabs (rnd (-1 + val x0) - (-1 + val x0)) <= 8 * e).
  { eapply Rle_trans; [exact R2|]. assert (e * Rabs (-1 + val x0) <= e * 7) by (apply Rmult_le_compat_l; lra). lra. }
  destruct (dadd_val r _ Fr F2) as [N3 E3]. rewrite E2 in E3. apply Rabs_le_inv in R2'.
  set (y := rnd (-1 + val x0)) in *.
  assert (S3 : Rabs (val r + y) <= 10) by (apply Rabs_le; lra).
  destruct (clamp_small (val r + y) ltac:(lra)) as [C3 B3]. rewrite C3 in E3.
  split; [apply small_fin; [exact N3|rewrite E3; exact B3]|]. pose proof (rnd_err (val r + y)) as R3. fold e t in R3.
  assert (R3' : Rabs (rnd (val r + y) - (val r + y)) <= 11 * e).
  { eapply Rle_trans; [exact R3|]. assert (e * Rabs (val r + y) <= e * 10) by (apply Rmult_le_compat_l; lra). lra. }
  rewrite E3. rewrite e48. apply Rabs_le_inv in R3'. apply Rabs_le. lra.
Qed.
Theorem C83_around : forall p us vs ks, (0 < number_of_constraints p)%nat ->
  Forall unit_draw us -> Forall unit_draw vs ->
  Forall (fun x => fin x /\ Rabs (val x) <= 6) (initial_solution p) ->
  length ks = number_of_integer_variables p ->
  forall i x0 x, (number_of_integer_variables p <= i)%nat -> nth_error (initial_solution p) i = Some x0 ->
    nth_error (random_proposal p us vs ks) i = Some x ->
    fin x /\ Rabs (val x - val x0) <= 1 + bpow radix2 (-48).
Proof.
  intros p us vs ks C Fu Fv Fi Lk i x0 x Hi E0 Ex. unfold random_proposal in Ex. cbv zeta in Ex.
  destruct (Nat.ltb_spec 0 (number_of_constraints p)); [|lia]. set (n := number_of_integer_variables p) in *.
  rewrite nth_error_app2 in Ex by (rewrite map_length; lia). rewrite map_length, Lk in Ex. unfold around in Ex.
  rewrite nth_error_map in Ex. destruct (nth_error (combine _ _) (i - n)) as [[r y]|] eqn:E; [|discriminate Ex]. injection Ex as <-.
  assert (Q : forall A B (a : list A) (b : list B) j u v, nth_error (combine a b) j = Some (u, v) -> nth_error a j = Some u /\ nth_error b j = Some v).
  { intros A B a. induction a as [|a0 a IH]; intros [|b0 b] [|j] u v K; try discriminate K; cbn in *; [|apply (IH b j u v K)].
    injection K as <- <-. split; reflexivity. }
  apply Q in E as [Er Ey]. rewrite nth_skipn in Ey. replace (n + (i - n))%nat with i in Ey by lia. rewrite E0 in Ey. injection Ey as <-.
  assert (Fr : fin r /\ 0 <= val r <= 2).
  { apply nth_error_In in Er. pose proof (skipn_Forall _ _ n _ (triangular_ok us vs Fu Fv)) as T. rewrite Forall_forall in T. exact (T r Er). }
  apply nth_error_In in E0. rewrite Forall_forall in Fi. destruct (Fi x0 E0) as [Fx Bx]. cbn [fst snd].
  apply around_one; [exact Fx|exact Bx|apply Fr|apply Fr].
Qed.

(** Calls: an explicit number is not counted; the first call without number and every number up to 0 give the initial solution,
    all others a random proposal. *)
Theorem C83_calls : forall p l c, let '(xs, c') := proposals p c l in
  c' = (c + Z.of_nat (unnumbered l))%Z /\ length xs = length l /\
  forall i r us vs ks x, nth_error l i = Some (r, (us, vs, ks)) -> nth_error xs i = Some x ->
    let number := match r with Some z => z | None => (c + Z.of_nat (unnumbered (firstn i l)))%Z end in
    x = if (number <=? 0)%Z then initial_solution p else random_proposal p us vs ks.
Proof.
  intros p l. induction l as [|[r [[us vs] ks]] l IH]; intros c; cbn [proposals].
  - split; [cbn; lia|]. split; [reflexivity|]. intros [|i] ? ? ? ? ? E; discriminate E.
  - unfold initial_solution_proposal. set (c1 := match r with None => (c + 1)%Z | Some _ => c end). specialize (IH c1).
    destruct (proposals p c1 l) as [xs c'] eqn:E. destruct IH as (IH1 & IH2 & IH3).
    assert (U : (c + Z.of_nat (unnumbered ((r, (us, vs, ks)) :: l)) = c1 + Z.of_nat (unnumbered l))%Z).
    { unfold unnumbered, c1. cbn [filter fst]. destruct r; cbn [length]; lia. }
    split; [etransitivity; [exact IH1|symmetry; exact U]|]. split; [cbn [length]; congruence|].
    intros [|i] r' us' vs' ks' x El Ex; cbn [nth_error] in El, Ex.
    + injection El as -> -> -> ->. injection Ex as <-. cbv zeta. destruct r'; [reflexivity|]. cbn [firstn unnumbered filter length]. rewrite Z.add_0_r. reflexivity.
    + specialize (IH3 i r' us' vs' ks' x El Ex). cbv zeta in *. rewrite IH3. destruct r'; [reflexivity|]. cbn [firstn].
      assert (V : (c1 + Z.of_nat (unnumbered (firstn i l)) = c + Z.of_nat (unnumbered ((r, (us, vs, ks)) :: firstn i l)))%Z).
      { unfold unnumbered, c1. cbn [filter fst]. destruct r; cbn [length]; lia. }
      exact (f_equal (fun z => if (z <=? 0)%Z then initial_solution p else random_proposal p us' vs' ks') V).
Qed.

(** Deviation: with constraints a proposal can be outside of the region of interest. *)
Definition near_border : view := mk_view 0 1 [dint (-5)] [dint 5] [dint 5].
Theorem C83_outside_refuted : exists us vs x, Forall unit_draw us /\ Forall unit_draw vs /\
  Forall (fun x => dlt x (dint 1) = true) (us ++ vs) /\ length us = 1%nat /\ length vs = 1%nat /\
  random_proposal near_border us vs [] = [x] /\ dlt (dint 5) x = true.
Proof.
  exists [ddec 9 1], [ddec 8 1], (dadd (dadd (ddec 9 1) (ddec 8 1)) (dadd (dint (-1)) (dint 5))).
  assert (G : forall u, is_finite u && dle (dint 0) u && dle u (dint 1) = true -> unit_draw u).
  { intros u H. apply andb_prop in H as [H H3]. apply andb_prop in H as [H1 H2].
    destruct (dint_val 0 ltac:(cbv; discriminate)) as [F0 V0]. destruct (dint_val 1 ltac:(cbv; discriminate)) as [F1 V1].
    apply dle_val in H2; [|apply fin_num; exact F0|apply fin_num; exact H1].
    apply dle_val in H3; [|apply fin_num; exact H1|apply fin_num; exact F1]. rewrite V0 in H2. rewrite V1 in H3.
    split; [exact H1|lra]. }
  split; [constructor; [apply G; vm_compute; reflexivity|constructor]|].
  split; [constructor; [apply G; vm_compute; reflexivity|constructor]|].
  split; [repeat constructor|]. split; [reflexivity|]. split; [reflexivity|]. split; [reflexivity|]. vm_compute. reflexivity.
Qed.

(** Example: a two-dimensional problem with one integer variable *)
Definition some_view : view := mk_view 1 0 [dint 0; dint (-5)] [dint 3; dint 5] [dint 1; dint 0].
Example C83_example :
  proper_domain (lower_bounds some_view) (upper_bounds some_view) /\
  (let '(xs, c) := proposals some_view 0 [(None, ([dzero; dzero], [dzero; dzero], [2%Z])); (Some 3%Z, ([dzero; ddec 5 1], [dzero; ddec 75 2], [3%Z]));
                                          (None, ([dzero; dzero], [dzero; dzero], [0%Z]))] in
   c = 2%Z /\ match xs with
              | [[a; b]; [a1; b1]; [a2; b2]] => deq a (dint 1) && deq b (dint 0) && deq a1 (dint 3) && deq b1 (ddec 125 2) && deq a2 (dint 0) && deq b2 (dint (-5))
              | _ => false end = true).
Proof.
  split; [|vm_compute; split; reflexivity].
  assert (B : forall z, (Z.abs z <= 2 ^ 50)%Z -> integer_bound (dint z) z).
  { intros z H. destruct (dint_val z) as [F V]; [eapply Z.le_trans; [exact H|discriminate]|]. split; [exact F|]. split; [exact V|exact H]. }
  constructor; [exists 0%Z, 3%Z; split; [apply B; discriminate|split; [apply B; discriminate|lia]]|].
  constructor; [exists (-5)%Z, 5%Z; split; [apply B; discriminate|split; [apply B; discriminate|lia]]|constructor].
Qed.

Example C83_around_example :
  Forall (fun x => fin x /\ Rabs (val x) <= 6) (initial_solution near_border) /\
  match random_proposal near_border [ddec 25 2] [ddec 5 1] [] with [x] => deq x (ddec 475 2) | _ => false end = true.
Proof.
  split; [|vm_compute; reflexivity]. destruct (dint_val 5 ltac:(cbv; discriminate)) as [F V].
  constructor; [|constructor]. split; [exact F|]. rewrite V. rewrite Rabs_pos_eq; lra.
Qed.

Print Assumptions C83_inside.
Print Assumptions C83_around.
Print Assumptions C83_calls.
Print Assumptions C83_outside_refuted.
