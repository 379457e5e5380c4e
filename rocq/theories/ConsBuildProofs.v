(** The loop that makes the constraints, and the disguise. *)

From Coq Require Import ZArith List Bool Reals Lra Lia.
From Verif Require Import CBase FunModel FunSpec FunProofs FunOptima FunDocSpec FunDocProofs ConsModel ConsSpec ConsProofs.
Import ListNotations.
Local Open Scope R_scope.

(** An outcome is good, or an error that is excluded under the condition [nice]; never undefined. *)
Definition sound {S} (nice : Prop) (r : res S) (P : S -> Prop) : Prop :=
  match r with Ok x => P x | Err => ~ nice | UB => False end.

Lemma sound_bind {S U} nice (r : res S) (k : S -> res U) P Q :
  sound nice r P -> (forall x, P x -> sound nice (k x) Q) -> sound nice (do x <- r; k x) Q.
Proof. destruct r; cbn; intros H K; [apply K, H|exact H|exact H]. Qed.
Lemma sound_weaken {S} (nice nice' : Prop) (r : res S) (P Q : S -> Prop) :
  sound nice r P -> (nice' -> nice) -> (forall x, P x -> Q x) -> sound nice' r Q.
Proof. destruct r; cbn; auto. Qed.

(** Weighted sum of gradients. *)
Fixpoint mix (ws : list R) (cs : list RC) (i : nat) : R :=
  match ws, cs with
  | w :: ws, c :: cs => w * (cgradient _ c).[i] + mix ws cs i
  | _, _ => 0
  end.

Lemma mix_app ws cs w c i : length ws = length cs -> mix (ws ++ [w]) (cs ++ [c]) i = mix ws cs i + w * (cgradient _ c).[i].
Proof.
  revert cs. induction ws as [|a ws IH]; intros [|b cs] H; cbn [length app mix] in *; try discriminate; [rring|].
  rewrite IH by congruence. rring.
Qed.
Lemma mix_scale t ws cs i : mix (map (Rmult t) ws) cs i = t * mix ws cs i.
Proof. revert cs. induction ws as [|a ws IH]; intros [|b cs]; cbn [map mix]; try rring. rewrite IH. rring. Qed.

Lemma length_upd {S} (l : list S) k x : length (upd l k x) = length l.
Proof. revert k. induction l as [|y l IH]; intros [|k]; cbn; congruence. Qed.
Lemma nth_error_upd {S} (l : list S) k x j : nth_error (upd l k x) j = if Nat.eqb j k then match nth_error l k with Some _ => Some x | None => None end else nth_error l j.
Proof. revert k j. induction l as [|y l IH]; intros [|k] [|j]; cbn; try reflexivity; [destruct (Nat.eqb j k); reflexivity|apply IH]. Qed.

Lemma mix_upd ws cs i k u c : length ws = length cs -> nth_error ws k = Some 0 -> 
  mix (upd ws k u) (upd cs k c) i = mix ws cs i + u * (cgradient _ c).[i].
Proof.
  revert cs k. induction ws as [|a ws IH]; intros [|b cs] [|k] H K; cbn [upd mix nth_error length] in *; try discriminate.
  - assert (a = 0) by congruence. subst a. rring.
  - rewrite IH by congruence. rring.
Qed.

(** How many of the constraints are active. *)
Fixpoint actives (cs : list RC) : nat :=
  match cs with [] => 0 | c :: cs => (if Req_EM_T (cshift _ c) 0 then 1 else 0) + actives cs end.
Lemma actives_app cs c : actives (cs ++ [c]) = (actives cs + if Req_EM_T (cshift _ c) 0 then 1 else 0)%nat.
Proof. induction cs as [|b cs IH]; cbn [app actives]; [lia|]. rewrite IH. lia. Qed.

Section Build.
Variables (s : real_streams) (function n instance m : nat) (d : list R).
Hypothesis F : fair s.
Hypothesis M : (1 <= m)%nat.
Hypothesis D : exists i, (i < n)%nat /\ d.[i] <> 0.

Let regular_ := regular s function n instance m.
Let clear_ := clear s function n instance m d.

Lemma Npos : 0 < INR n.
Proof. destruct D as (i & I & _). apply lt_0_INR. lia. Qed.
Lemma sqN : 0 < R_sqrt.sqrt (INR n).
Proof. apply sqrt_lt_R0, Npos. Qed.

Definition scale1 : R := lit RA 100 0 * real_pow (lit RA 10 0) (uniform _ s (seed_of function instance 0) 0).
Definition scale2 (k : nat) : R := real_pow (lit RA 100 0) (uniform _ s (seed_of function instance k) 0).

Lemma S1 : 100 <= scale1.
Proof.
  unfold scale1. lits. assert (1 <= real_pow (10/1) (uniform RA s (seed_of function instance 0) 0)); [|rlra].
  apply pow_ge1; [rlra|]. apply F.
Qed.
Lemma S2 k : 1 <= scale2 k.
Proof. unfold scale2. lits. apply pow_ge1; [rlra|]. apply F. Qed.

(** Where the gradient of a constraint comes from. *)
Definition special_c (c : RC) : Prop :=
  cshift _ c = 0 /\ exists k, 0 < k /\ forall i, (i < n)%nat -> (cgradient _ c).[i] = - k * d.[i].
Definition random_c (k : nat) (c : RC) : Prop :=
  exists e, (e = 1 \/ e = -1) /\ forall i, (i < n)%nat ->
    (cgradient _ c).[i] = e * random_gradient s function n instance k scale1 (scale2 k) i.

Definition good (c : RC) : Prop := wf n c /\ single_evaluate RA n c d <= 0.

Lemma special_made k nice :
  sound nice (linear_single RA s function n instance k scale1 (Some (vec n (fun i => opp RA d.[i]))) (zero RA) d)
    (fun c => good c /\ special_c c).
Proof.
  unfold linear_single. cbv zeta.
  change (FunModel.pow RA (lit RA 100 0) (uniform RA s (cons_seed function instance k) 0)) with (scale2 k).
  change (mul RA scale1 (scale2 k)) with (scale1 * scale2 k).
  set (g1 := vec n (fun i => opp RA d.[i])).
  assert (G1 : forall i, (i < n)%nat -> (g1 : list (num RA)).[i] = - d.[i]) by (intros i I; unfold g1; rewrite vec_at by exact I; reflexivity).
  assert (P : 0 < vector_norm RA n g1).
  { apply norm_positive. destruct D as (i & I & H). exists i. split; [exact I|]. rewrite G1 by exact I. rlra. }
  set (K := scale1 * scale2 k / vector_norm RA n g1).
  assert (KP : 0 < K).
  { unfold K. apply Rmult_lt_0_compat; [|apply Rinv_0_lt_compat, P]. pose proof (S2 k); pose proof S1; pose proof sqN. apply Rmult_lt_0_compat; rlra. }
  assert (G : forall i, (i < n)%nat -> (vector_scale RA n g1 (scale1 * scale2 k) (vector_norm RA n g1)).[i] = - K * d.[i]).
  { intros i I. rewrite scale_at by exact I. rewrite G1 by exact I. destruct (Req_EM_T _ 0) as [E|E]; [rlra|]. fold K. rring. }
  rewrite transform_ok.
  2:{ destruct D as (i & I & H). exists i. split; [exact I|]. rewrite G by exact I. apply Rmult_integral_contrapositive_currified; [rlra|exact H]. }
  2:{ rewrite zero0. apply Rle_refl. }
  cbn [bind sound]. set (c := Build_constraint RA _ _ _).
  rewrite (orient_special n c d K); [|rlra|exact zero0|exact G].
  assert (W : wf n c).
  { apply (transform_wf n (cgradient _ c) (zero RA)); [rewrite zero0; apply Rle_refl|]. apply transform_ok; [|rewrite zero0; apply Rle_refl].
    destruct D as (i & I & H). exists i. split; [exact I|]. unfold c. cbn [cgradient]. rewrite G by exact I.
    apply Rmult_integral_contrapositive_currified; [rlra|exact H]. }
  split; [split; [exact W|]|].
  - rewrite <- (orient_special n c d K) by (try rlra; try exact zero0; exact G). apply orient_feasible, W.
  - split; [exact zero0|]. exists K. split; [exact KP|exact G].
Qed.

Lemma random_made k shift (nice : Prop) : (1 <= k <= m)%nat -> 0 <= shift -> (nice -> regular_) ->
  sound nice (linear_single RA s function n instance k scale1 None shift d)
    (fun c => good c /\ cshift _ c = shift /\ random_c k c /\ (clear_ -> shift = 0 -> prod n (cgradient _ c) d <= 0)).
Proof.
  intros K S NR. unfold linear_single. cbv zeta.
  change (FunModel.pow RA (lit RA 100 0) (uniform RA s (cons_seed function instance k) 0)) with (scale2 k).
  set (g := vec n _).
  assert (G : forall i, (i < n)%nat -> (g : list (num RA)).[i] = random_gradient s function n instance k scale1 (scale2 k) i).
  { intros i I. unfold g. rewrite vec_at by exact I. reflexivity. }
  destruct (linear_transform RA n g shift) as [c| |] eqn:E.
  - cbn [bind sound]. pose proof (transform_wf n g shift c S E) as W. apply transform_inv in E as (E & _).
    assert (Eg : cgradient _ c = g) by (rewrite E; reflexivity). assert (Es : cshift _ c = shift) by (rewrite E; reflexivity).
    split; [split; [apply orient_wf, W|apply orient_feasible, W]|].
    split; [unfold guarantee_feasible; destruct (FunModel.lt RA _ _); exact Es|]. split.
    + destruct (orient_gradient n c d) as (e & H & O). exists e. split; [exact H|]. intros i I. rewrite O by exact I. rewrite Eg, G by exact I. reflexivity.
    + intros C Z. apply orient_exact; [exact W|rewrite Es; exact Z|]. intros i I. rewrite Eg, G by exact I.
      specialize (C k i K I). cbv zeta in C. rewrite <- coord_at in C. unfold random_gradient.
      set (u := normal RA s (seed_of function instance k) (Datatypes.S i)) in *. pose proof (S2 k); pose proof S1; pose proof sqN.
      set (y := d.[i]) in *. clearbody u y. reals.
      replace (scale1 * u * scale2 k / R_sqrt.sqrt (INR n) * y) with (scale1 * scale2 k / R_sqrt.sqrt (INR n) * (u * y)) by (field; lra).
      set (p := scale1 * scale2 k / R_sqrt.sqrt (INR n)). 
      assert (P : 100 / R_sqrt.sqrt (INR n) <= p).
      { unfold p. apply Rmult_le_compat_r; [apply Rlt_le, Rinv_0_lt_compat, sqN|]. nra. }
      assert (Q : 0 < 100 / R_sqrt.sqrt (INR n)) by (apply Rmult_lt_0_compat; [lra|apply Rinv_0_lt_compat, sqN]).
      destruct C as [C|C]; [left; nra|right].
      apply Rlt_le_trans with (100 / R_sqrt.sqrt (INR n) * (u * y)).
      * replace band with (100 / R_sqrt.sqrt (INR n) * (R_sqrt.sqrt (INR n) / 10 ^ 13)); [apply Rmult_lt_compat_l; [exact Q|exact C]|].
        unfold band, dead_band. replace (10 ^ 13) with (100 * 10 ^ 11) by lra.
        assert (0 < 10 ^ 11) by (apply pow_lt; lra). field. lra.
      * apply Rmult_le_compat_r; [|exact P]. apply Rlt_le. eapply Rlt_trans; [|exact C].
        apply Rmult_lt_0_compat; [exact sqN|]. apply Rinv_0_lt_compat, pow_lt. lra.
  - cbn [bind sound]. intros N. apply NR in N. specialize (N k K). destruct N as (i & I & H).
    rewrite transform_ok in E; [discriminate| |exact S]. exists i. split; [exact I|]. rewrite G by exact I. unfold random_gradient.
    pose proof (S2 k) as H2; pose proof S1 as H1; pose proof sqN. unfold Rdiv. revert H1 H2. generalize (scale2 k) scale1. intros s2 s1 H1 H2. repeat apply Rmult_integral_contrapositive_currified; try exact H; try rlra. apply Rinv_neq_0_compat. rlra.
  - unfold linear_transform in E. cbv zeta in E. destruct (FunModel.le RA _ _); discriminate.
Qed.

(** ** The invariant *)

Variable left0 : nat.
Let total_ := (m + left0)%nat.

Definition special_index (i : nat) : bool := Nat.eqb (Nat.modulo (i + instance) m) 0.

Record inv (b : building RA) : Prop := {
  i_length : (length (made _ b) = active_made _ b + (left0 - inactive_left _ b))%nat;
  i_left : (inactive_left _ b <= left0)%nat;
  i_active : (1 <= active_made _ b <= m)%nat;
  i_count : actives (made _ b) = active_made _ b;
  i_good : Forall good (made _ b);
  i_mix : exists ws, length ws = length (made _ b) /\ Forall (fun w => 0 <= w) ws /\
    (forall i, (i < n)%nat -> (combination _ b).[i] = mix ws (made _ b) i) /\
    (forall k c w, nth_error (made _ b) k = Some c -> nth_error ws k = Some w -> cshift _ c <> 0 -> w = 0) /\
    (forall k, first _ b = Some k -> nth_error ws k = Some 0);
  i_first : forall k, first _ b = Some k -> exists c, nth_error (made _ b) k = Some c /\ special_c c /\
    special_index (actives (firstn k (made _ b))) = true;
  i_special : forall i, (i < active_made _ b)%nat -> special_index i = true -> first _ b <> None;
  i_clear : clear_ -> prod n (combination _ b) d <= 0;
  i_from : forall k c, nth_error (made _ b) k = Some c ->
    if Req_EM_T (cshift _ c) 0 then
      if special_index (actives (firstn k (made _ b))) then special_c c
      else random_c (Datatypes.S (actives (firstn k (made _ b)))) c
    else (1 <= actives (firstn k (made _ b)))%nat /\ random_c (actives (firstn k (made _ b))) c }.

Lemma combination_at lc c w i : (i < n)%nat -> (update_combination RA n lc c w).[i] = lc.[i] + w * (cgradient _ c).[i].
Proof.
  intros I. unfold update_combination. destruct (nonzero RA w) eqn:E.
  - rewrite vec_at by exact I. reflexivity.
  - apply nonzero_false in E. rewrite E. rring.
Qed.

Lemma nth_error_snoc {S} (l : list S) x k y : nth_error (l ++ [x]) k = Some y ->
  nth_error l k = Some y \/ (k = length l /\ y = x).
Proof.
  intros H. destruct (Nat.lt_ge_cases k (length l)) as [L|L].
  - rewrite nth_error_app1 in H by exact L. left; exact H.
  - rewrite nth_error_app2 in H by exact L. destruct (k - length l)%nat as [|j] eqn:E; cbn in H.
    + right. split; [lia|congruence].
    + destruct j; discriminate.
Qed.
Lemma firstn_snoc {S} (l : list S) x k : (k <= length l)%nat -> firstn k (l ++ [x]) = firstn k l.
Proof. intros H. rewrite firstn_app. replace (k - length l)%nat with 0%nat by lia. cbn. apply app_nil_r. Qed.


Lemma shift_zero : nonzero RA 0 = false.
Proof. apply nonzero_false. reflexivity. Qed.

(** A new active constraint. *)
Lemma inv_active b calls c :
  inv b -> (active_made _ b < m)%nat -> good c -> cshift _ c = 0 ->
  (if special_index (active_made _ b) then special_c c
   else random_c (Datatypes.S (active_made _ b)) c /\ (clear_ -> prod n (cgradient _ c) d <= 0)) ->
  inv (record_constraint RA s (cons_seed function instance 0) n (counted RA b (Datatypes.S (active_made _ b)) (inactive_left _ b) calls)
         (special_index (active_made _ b)) c).
Proof.
  intros H L G Z Q. unfold record_constraint. rewrite Z, shift_zero.
  destruct H as [I1 I2 I3 I4 I5 (ws & W1 & W2 & W3 & W4 & W5) I6 I7 I8 I9].
  destruct (special_index (active_made RA b)) eqn:Sp.
  - constructor; cbn [counted active_made inactive_left combination first made].
    + rewrite app_length. cbn [length]. lia.
    + exact I2.
    + lia.
    + rewrite actives_app, I4. destruct (Req_EM_T (cshift RA c) 0); [lia|contradiction].
    + apply Forall_app. split; [exact I5|constructor; [exact G|constructor]].
    + exists (ws ++ [0]). split; [rewrite !app_length; cbn [length]; lia|].
      split; [apply Forall_app; split; [exact W2|constructor; [apply Rle_refl|constructor]]|].
      split; [intros i I; rewrite mix_app, W3 by assumption; rring|]. split.
      * intros k c' w Hc Hw Hs. apply nth_error_snoc in Hc as [Hc|[-> ->]]; [|contradiction].
        apply nth_error_snoc in Hw as [Hw|[_ ->]]; [exact (W4 k c' w Hc Hw Hs)|reflexivity].
      * intros k E. assert (k = length (made RA b)) by congruence. subst k. rewrite <- W1, nth_error_app2, Nat.sub_diag by lia. reflexivity.
    + intros k E. assert (k = length (made RA b)) by congruence. subst k. exists c. rewrite nth_error_app2, Nat.sub_diag by lia.
      split; [reflexivity|]. split; [exact Q|]. rewrite firstn_snoc, firstn_all, I4 by lia. exact Sp.
    + intros; discriminate.
    + exact I8.
    + intros k c' E. apply nth_error_snoc in E as [E|[-> ->]].
      * rewrite firstn_snoc by (apply Nat.lt_le_incl, nth_error_Some; congruence). exact (I9 k c' E).
      * rewrite firstn_snoc, firstn_all, I4 by lia. rewrite Sp. destruct (Req_EM_T (cshift RA c) 0); [exact Q|contradiction].
  - destruct Q as [Q1 Q2]. assert (U := F (cons_seed function instance 0) (calls2 RA b)).
    constructor; cbn [counted active_made inactive_left combination first made calls2].
    + rewrite app_length. cbn [length]. lia.
    + exact I2.
    + lia.
    + rewrite actives_app, I4. destruct (Req_EM_T (cshift RA c) 0); [lia|contradiction].
    + apply Forall_app. split; [exact I5|constructor; [exact G|constructor]].
    + exists (ws ++ [uniform RA s (cons_seed function instance 0) (calls2 RA b)]). split; [rewrite !app_length; cbn [length]; lia|].
      split; [apply Forall_app; split; [exact W2|constructor; [apply U|constructor]]|].
      split; [intros i I; rewrite mix_app, combination_at, W3 by assumption; reflexivity|]. split.
      * intros k c' w Hc Hw Hs. apply nth_error_snoc in Hc as [Hc|[-> ->]]; [|contradiction].
        apply nth_error_snoc in Hw as [Hw|[Hk ->]]; [exact (W4 k c' w Hc Hw Hs)|].
        exfalso. assert (k < length (made RA b))%nat by (apply nth_error_Some; congruence). lia.
      * intros k E. rewrite nth_error_app1; [exact (W5 k E)|]. apply nth_error_Some. rewrite (W5 k E). discriminate.
    + intros k E. destruct (I6 k E) as (c' & E' & P). exists c'.
      rewrite firstn_snoc by (apply Nat.lt_le_incl, nth_error_Some; congruence). split; [|exact P].
      rewrite nth_error_app1; [exact E'|]. apply nth_error_Some. congruence.
    + intros i I E. destruct (Nat.eq_dec i (active_made RA b)) as [->|N]; [congruence|]. apply (I7 i); [lia|exact E].
    + intros C. specialize (I8 C). specialize (Q2 C).
      replace (prod n (update_combination RA n (combination RA b) c (uniform RA s (cons_seed function instance 0) (calls2 RA b))) d)
        with (prod n (combination RA b) d + uniform RA s (cons_seed function instance 0) (calls2 RA b) * prod n (cgradient RA c) d).
      * rnra.
      * unfold prod. rewrite <- total_scale, <- total_plus. apply total_ext. intros i I. rewrite combination_at by exact I. rring.
    + intros k c' E. apply nth_error_snoc in E as [E|[-> ->]].
      * rewrite firstn_snoc by (apply Nat.lt_le_incl, nth_error_Some; congruence). exact (I9 k c' E).
      * rewrite firstn_snoc, firstn_all, I4 by lia. rewrite Sp. destruct (Req_EM_T (cshift RA c) 0); [exact Q1|contradiction].
Qed.

(** A new inactive constraint. *)
Lemma inv_inactive b calls c :
  inv b -> (1 <= inactive_left _ b)%nat -> good c -> cshift _ c <> 0 -> random_c (active_made _ b) c ->
  inv (record_constraint RA s (cons_seed function instance 0) n (counted RA b (active_made _ b) (inactive_left _ b - 1) calls) false c).
Proof.
  intros H L G Z Q. unfold record_constraint. assert (E0 : nonzero RA (cshift RA c) = true) by (apply nonzero_true; exact Z). rewrite E0.
  destruct H as [I1 I2 I3 I4 I5 (ws & W1 & W2 & W3 & W4 & W5) I6 I7 I8 I9].
  constructor; cbn [counted active_made inactive_left combination first made].
  + rewrite app_length. cbn [length]. lia.
  + lia.
  + exact I3.
  + rewrite actives_app, I4. destruct (Req_EM_T (cshift RA c) 0); [contradiction|lia].
  + apply Forall_app. split; [exact I5|constructor; [exact G|constructor]].
  + exists (ws ++ [0]). split; [rewrite !app_length; cbn [length]; lia|].
    split; [apply Forall_app; split; [exact W2|constructor; [apply Rle_refl|constructor]]|].
    split; [intros i I; rewrite mix_app, W3 by assumption; rring|]. split.
    * intros k c' w Hc Hw Hs. apply nth_error_snoc in Hw as [Hw|[Hk ->]]; [|reflexivity].
      apply nth_error_snoc in Hc as [Hc|[-> ->]]; [exact (W4 k c' w Hc Hw Hs)|].
      exfalso. assert (length (made RA b) < length ws)%nat by (apply nth_error_Some; congruence). lia.
    * intros k E. rewrite nth_error_app1; [exact (W5 k E)|]. apply nth_error_Some. rewrite (W5 k E). discriminate.
  + intros k E. destruct (I6 k E) as (c' & E' & P). exists c'.
    rewrite firstn_snoc by (apply Nat.lt_le_incl, nth_error_Some; congruence). split; [|exact P].
    rewrite nth_error_app1; [exact E'|]. apply nth_error_Some. congruence.
  + exact I7.
  + exact I8.
  + intros k c' E. apply nth_error_snoc in E as [E|[-> ->]].
    * rewrite firstn_snoc by (apply Nat.lt_le_incl, nth_error_Some; congruence). exact (I9 k c' E).
    * rewrite firstn_snoc, firstn_all, I4 by lia. destruct (Req_EM_T (cshift RA c) 0); [contradiction|]. split; [lia|exact Q].
Qed.

Variable nice : Prop.
Hypothesis NR : nice -> regular_.

Lemma active_step b calls : inv b -> (active_made _ b < m)%nat ->
  sound nice (do c <- linear_single RA s function n instance (Datatypes.S (active_made _ b)) scale1
      (if special_index (active_made _ b) then Some (vec n (fun i => opp RA d.[i])) else None) (zero RA) d;
    Ok (record_constraint RA s (cons_seed function instance 0) n (counted RA b (Datatypes.S (active_made _ b)) (inactive_left _ b) calls)
         (special_index (active_made _ b)) c)) inv.
Proof.
  intros H L. destruct (special_index (active_made RA b)) eqn:Sp.
  - eapply sound_bind; [apply special_made|]. intros c (G & Q). rewrite <- Sp. cbn [sound]. apply inv_active; try assumption.
    + apply Q.
    + rewrite Sp. exact Q.
  - eapply sound_bind; [apply random_made; [lia|rewrite zero0; apply Rle_refl|exact NR]|].
    intros c (G & Q & R & C). rewrite zero0 in *. rewrite <- Sp. cbn [sound]. apply inv_active; try assumption.
    rewrite Sp. split; [exact R|]. intros C'. apply C; [exact C'|reflexivity].
Qed.

Lemma add_step b : inv b -> (length (made _ b) < total_)%nat ->
  sound nice (add_constraint RA s function n instance m total_ scale1 (vec n (fun i => opp RA d.[i])) d b)
    (fun b' => inv b' /\ length (made _ b') = Datatypes.S (length (made _ b))).
Proof.
  intros H L. unfold add_constraint. cbv zeta.
  assert (U := F (cons_seed function instance 0) (calls1 RA b)).
  set (calls := if Nat.ltb (active_made RA b) m then Datatypes.S (calls1 RA b) else calls1 RA b).
  destruct (Nat.ltb (active_made RA b) m && _) eqn:E.
  - apply andb_true_iff in E as [E _]. apply Nat.ltb_lt in E.
    fold (special_index (active_made RA b)).
    pose proof (active_step b calls H E) as P. revert P.
    destruct (linear_single RA s function n instance _ scale1 _ (zero RA) d) as [c| |]; cbn [bind sound]; auto.
    intros P. split; [exact P|]. unfold record_constraint. destruct (nonzero RA _); [|destruct (special_index _)];
      cbn [made counted]; rewrite app_length; cbn [length]; lia.
  - destruct (Nat.eqb (inactive_left RA b) 0) eqn:Z.
    + exfalso. apply Nat.eqb_eq in Z. pose proof (i_length b H). pose proof (i_active b H). unfold total_ in L.
      assert (A : Nat.ltb (active_made RA b) m = true) by (apply Nat.ltb_lt; lia). rewrite A in E. cbn [andb] in E.
      apply lt_false in E. rewrite Z in E. lits. change (INR 0) with 0 in E. unfold Rdiv in E. rewrite Rmult_0_l in E.
      assert (0 < / 100000000000000000000000) by (apply Rinv_0_lt_compat; lra). lra.
    + apply Nat.eqb_neq in Z. pose proof (i_active b H) as A.
      replace (Nat.leb (active_made RA b) m) with true by (symmetry; apply Nat.leb_le; lia).
      assert (V := F (cons_seed function instance 0) calls).
      assert (SP : 0 < add RA (lit RA 1 2) (mul RA (lit RA 2 0) (uniform RA s (cons_seed function instance 0) calls))).
      { lits. lra. }
      eapply sound_bind; [apply random_made; [lia|apply Rlt_le, SP|exact NR]|].
      intros c (G & Q & R & _). cbn [sound].
      assert (Zc : cshift RA c <> 0) by (rewrite Q; reals; lra).
      split; [apply inv_inactive; try assumption; lia|].
      unfold record_constraint. destruct (nonzero RA _); cbn [made counted]; rewrite app_length; cbn [length]; lia.
Qed.

Lemma add_all k b : inv b -> (length (made _ b) + k = total_)%nat ->
  sound nice (add_constraints RA k s function n instance m total_ scale1 (vec n (fun i => opp RA d.[i])) d b)
    (fun b' => inv b' /\ length (made _ b') = total_).
Proof.
  revert b. induction k as [|k IH]; intros b H L; cbn [add_constraints].
  - split; [exact H|lia].
  - eapply sound_bind; [apply add_step; [exact H|lia]|]. intros b' (H' & L'). apply IH; [exact H'|lia].
Qed.

Lemma first_step :
  sound nice (do c <- linear_single RA s function n instance 1 scale1
      (if special_index 0 then Some (vec n (fun i => opp RA d.[i])) else None) (zero RA) d;
    Ok (record_constraint RA s (cons_seed function instance 0) n
      {| active_made := 1; inactive_left := left0; calls1 := 1; calls2 := 0; combination := zeros RA n; first := None; made := [] |}
      (special_index 0) c))
    (fun b => inv b /\ length (made _ b) = 1%nat).
Proof.
  assert (Z : forall i, (zeros RA n).[i] = 0).
  { intros i. rewrite zeros_at. reflexivity. }
  assert (U := F (cons_seed function instance 0) 0%nat).
  destruct (special_index 0) eqn:Sp.
  - eapply sound_bind; [apply special_made|]. intros c (G & Q). cbn [sound].
    assert (Q0 : cshift RA c = 0) by apply Q. unfold record_constraint. rewrite Q0, shift_zero. cbn [made app length].
    split; [|reflexivity]. constructor; cbn [active_made inactive_left combination first made].
    + cbn [length]. lia.
    + lia.
    + lia.
    + cbn [app actives]. destruct (Req_EM_T (cshift RA c) 0); [reflexivity|contradiction].
    + constructor; [exact G|constructor].
    + exists [0]. split; [reflexivity|]. split; [constructor; [apply Rle_refl|constructor]|].
      split; [intros i I; rewrite Z; cbn [app mix]; rring|]. split.
      * intros [|k] c' w Hc Hw Hs; [cbn in Hw; congruence|]. destruct k; discriminate.
      * intros k E. assert (k = 0)%nat by (cbn in E; congruence). subst k. reflexivity.
    + intros k E. assert (k = 0)%nat by (cbn in E; congruence). subst k. exists c. split; [reflexivity|]. split; [exact Q|exact Sp].
    + intros; discriminate.
    + intros _. unfold prod. rewrite (total_ext n _ (fun _ => 0)) by (intros; rewrite Z; rring). rewrite total_const. lra.
    + intros [|k] c' E; [|destruct k; discriminate]. cbn [firstn app actives]. assert (c' = c) by (cbn in E; congruence). subst c'.
      rewrite Sp. destruct (Req_EM_T (cshift RA c) 0); [exact Q|contradiction].
  - eapply sound_bind; [apply random_made; [lia|rewrite zero0; apply Rle_refl|exact NR]|].
    intros c (G & Q0 & R & C). rewrite zero0 in *. cbn [sound]. unfold record_constraint. rewrite Q0, shift_zero. cbn [made app length].
    split; [|reflexivity]. constructor; cbn [active_made inactive_left combination first made calls2].
    + cbn [length]. lia.
    + lia.
    + lia.
    + cbn [app actives]. destruct (Req_EM_T (cshift RA c) 0); [reflexivity|contradiction].
    + constructor; [exact G|constructor].
    + exists [uniform RA s (cons_seed function instance 0) 0]. split; [reflexivity|]. split; [constructor; [apply U|constructor]|].
      split; [intros i I; rewrite combination_at, Z by exact I; cbn [app mix]; rring|]. split.
      * intros [|k] c' w Hc Hw Hs; [cbn in Hc; congruence|]. destruct k; discriminate.
      * intros; discriminate.
    + intros; discriminate.
    + intros i I E. replace i with 0%nat in E by lia. congruence.
    + intros C'. specialize (C C' eq_refl).
      replace (prod n _ d) with (uniform RA s (cons_seed function instance 0) 0 * prod n (cgradient RA c) d); [rnra|].
      unfold prod. rewrite <- total_scale. apply total_ext. intros i I. rewrite combination_at, Z by exact I. rring.
    + intros [|k] c' E; [|destruct k; discriminate]. cbn [firstn app actives]. assert (c' = c) by (cbn in E; congruence). subst c'.
      rewrite Sp. destruct (Req_EM_T (cshift RA c) 0); [exact R|contradiction].
Qed.

(** Among 0, ..., m-1 there is a special index. *)
Lemma special_exists : exists i, (i < m)%nat /\ special_index i = true.
Proof.
  unfold special_index. pose proof (Nat.mod_upper_bound instance m ltac:(lia)) as B. pose proof (Nat.div_mod instance m ltac:(lia)) as DM.
  destruct (Nat.eq_dec (instance mod m) 0) as [E|E].
  - exists 0%nat. split; [lia|]. apply Nat.eqb_eq. exact E.
  - exists (m - instance mod m)%nat. split; [lia|]. apply Nat.eqb_eq.
    replace (m - instance mod m + instance)%nat with ((instance / m + 1) * m)%nat by nia. apply Nat.mod_mul. lia.
Qed.

(** ** The result *)

Record built (cs : list RC) : Prop := {
  b_length : length cs = (m + left0)%nat;
  b_count : actives cs = m;
  b_good : Forall good cs;
  b_kkt : exists ws, length ws = length cs /\ Forall (fun w => 0 <= w) ws /\
    (forall k c w, nth_error cs k = Some c -> nth_error ws k = Some w -> cshift _ c <> 0 -> w = 0) /\
    forall i, (i < n)%nat -> d.[i] + mix ws cs i = 0;
  b_from : forall k c, nth_error cs k = Some c ->
    if Req_EM_T (cshift _ c) 0 then
      if special_index (actives (firstn k cs)) then True
      else random_c (Datatypes.S (actives (firstn k cs))) c
    else (1 <= actives (firstn k cs))%nat /\ random_c (actives (firstn k cs)) c }.

Lemma complete b : inv b -> length (made _ b) = total_ -> active_made _ b = m /\ exists k, first _ b = Some k.
Proof.
  intros H L. pose proof (i_length b H). pose proof (i_left b H). pose proof (i_active b H). unfold total_ in L.
  assert (A : active_made RA b = m) by lia. split; [exact A|]. destruct special_exists as (i & I & E).
  destruct (first RA b) as [k|] eqn:Fi; [exists k; reflexivity|]. exfalso. apply (i_special b H i); [lia|exact E|exact Fi].
Qed.

Lemma upd_zero_forall ws k u : Forall (fun w => 0 <= w) ws -> 0 <= u -> Forall (fun w => 0 <= w) (upd ws k u).
Proof. intros H U. revert k. induction H as [|w ws P H IH]; intros [|k]; cbn; constructor; auto. Qed.

Lemma upd_same {S} (l : list S) k x : nth_error l k = Some x -> upd l k x = l.
Proof. revert k. induction l as [|y l IH]; intros [|k] H; cbn in *; try discriminate; [congruence|]. rewrite IH by exact H. reflexivity. Qed.

Lemma actives_upd cs k c c' : nth_error cs k = Some c -> cshift _ c' = cshift _ c -> actives (upd cs k c') = actives cs.
Proof.
  revert k. induction cs as [|b cs IH]; intros [|k] H E; cbn in *; try discriminate.
  - assert (b = c) by congruence. subst b. rewrite E. reflexivity.
  - rewrite (IH k H E). reflexivity.
Qed.
Lemma firstn_upd {S} (l : list S) k x j : firstn j (upd l k x) = upd (firstn j l) k x.
Proof. revert k j. induction l as [|y l IH]; intros [|k] [|j]; cbn; try reflexivity. rewrite IH. reflexivity. Qed.
Lemma actives_firstn_upd cs k c c' j : nth_error cs k = Some c -> cshift _ c' = cshift _ c ->
  actives (firstn j (upd cs k c')) = actives (firstn j cs).
Proof.
  intros H E. rewrite firstn_upd. destruct (nth_error (firstn j cs) k) as [x|] eqn:X.
  - assert (x = c).
    { rewrite <- (firstn_skipn j cs) in H. rewrite nth_error_app1 in H by (apply nth_error_Some; congruence). congruence. }
    subst x. apply (actives_upd _ k c); assumption.
  - f_equal. apply nth_error_None in X. revert X. generalize (firstn j cs). intros l. revert k H. intros k _. revert k.
    induction l as [|y l IH]; intros [|k] H; cbn in *; try reflexivity; [lia|]. rewrite IH by lia. reflexivity.
Qed.

(** From the multipliers of the loop to those of the result: constraint k, replaced by c', takes the rest. *)
Lemma built_from b k c c' p : inv b -> length (made _ b) = total_ -> first _ b = Some k -> nth_error (made _ b) k = Some c ->
  good c' -> cshift _ c' = 0 -> 0 <= p ->
  (exists u, 0 <= u /\ forall i, (i < n)%nat -> d.[i] + (p * (combination _ b).[i] + u * (cgradient _ c').[i]) = 0) ->
  built (upd (made _ b) k c').
Proof.
  intros H L Fi E G Z P (u & U & X). destruct (complete b H L) as [A _].
  destruct (i_first b H k Fi) as (c1 & E1 & (Z1 & _) & Sp). assert (c1 = c) by congruence. subst c1.
  destruct (i_mix b H) as (ws & W1 & W2 & W3 & W4 & W5).
  constructor.
  - rewrite length_upd. exact L.
  - rewrite (actives_upd _ k c) by (try exact E; congruence). rewrite (i_count b H). exact A.
  - apply Forall_forall. intros x Hx. apply In_nth_error in Hx as (j & Hj). rewrite nth_error_upd in Hj.
    destruct (Nat.eqb j k); [rewrite E in Hj; assert (x = c') by congruence; subst x; exact G|].
    apply nth_error_In in Hj. apply (proj1 (Forall_forall _ _) (i_good b H)), Hj.
  - exists (upd (map (Rmult p) ws) k u).
    assert (W6 : nth_error (map (Rmult p) ws) k = Some 0).
    { rewrite nth_error_map, (W5 k Fi). cbn [option_map]. f_equal. rring. }
    split; [rewrite !length_upd, map_length; exact W1|]. split.
    { apply upd_zero_forall; [|exact U]. rewrite Forall_map. apply Forall_impl with (2 := W2). intros a Ha. apply Rmult_le_pos; assumption. }
    split.
    + intros j x w Hx Hw S. rewrite nth_error_upd in Hx; rewrite nth_error_upd in Hw. destruct (Nat.eqb j k).
      * rewrite E in Hx. assert (x = c') by congruence. subst x. contradiction.
      * rewrite nth_error_map in Hw. destruct (nth_error ws j) as [a|] eqn:Ha; cbn [option_map] in Hw; [|discriminate].
        rewrite (W4 j x a Hx Ha S) in Hw. assert (w = p * 0) by congruence. subst w. rring.
    + intros i I. rewrite mix_upd; [|rewrite map_length; exact W1|exact W6]. rewrite mix_scale, <- W3 by exact I. apply X, I.
  - intros j x Hx. rewrite (actives_firstn_upd _ k c c') by (try exact E; congruence). rewrite nth_error_upd in Hx. destruct (Nat.eqb j k) eqn:J.
    + apply Nat.eqb_eq in J. subst j. rewrite E in Hx. assert (x = c') by congruence. subst x. rewrite Sp.
      destruct (Req_EM_T (cshift RA c') 0); [exact Logic.I|contradiction].
    + pose proof (i_from b H j x Hx) as Q. destruct (Req_EM_T (cshift RA x) 0); [|exact Q]. destruct (special_index (actives (firstn j (made RA b)))); [exact Logic.I|exact Q].
Qed.

Lemma undisguised b : inv b -> length (made _ b) = total_ -> built (made _ b).
Proof.
  intros H L. destruct (complete b H L) as [A (k & Fi)]. destruct (i_first b H k Fi) as (c & E & (Z & K & KP & G) & Sp).
  rewrite <- (upd_same (made RA b) k c E). apply (built_from b k c c 0); try assumption.
  - apply (proj1 (Forall_forall _ _) (i_good b H)), (nth_error_In _ k), E.
  - apply Rle_refl.
  - exists (/ K). split; [apply Rlt_le, Rinv_0_lt_compat, KP|]. intros i I. rewrite G by exact I. rfield. rlra.
Qed.

Hypothesis NC : nice -> clear_.

Lemma disguised b : inv b -> length (made _ b) = total_ ->
  sound nice (disguise RA s (cons_seed function instance 0) n b) built.
Proof.
  intros H L. destruct (complete b H L) as [A (k & Fi)]. destruct (i_first b H k Fi) as (c & E & (Z & K & KP & G) & Sp).
  unfold disguise. rewrite Fi, E. cbv zeta. rewrite product_prod.
  assert (W : good c) by (apply (proj1 (Forall_forall _ _) (i_good b H)), (nth_error_In _ k), E). destruct W as [(N0 & N1 & N2) _].
  set (q := prod n (combination RA b) (cgradient RA c)).
  assert (Q : q = - K * prod n (combination RA b) d).
  { unfold q, prod. rewrite <- total_scale. apply total_ext. intros i I. rewrite G by exact I. rring. }
  destruct (FunModel.lt RA q (zero RA)) eqn:C1.
  { cbn [sound]. intros X. apply lt_true in C1. rewrite zero0 in C1. pose proof (i_clear b H (NC X)). rnra. }
  apply lt_false in C1. rewrite zero0 in C1.
  set (f1 := if FunModel.le RA q (zero RA) then _ else _).
  set (th := div RA _ _).
  set (f := mul RA f1 th).
  pose proof Npos as NP. assert (U := F (cons_seed function instance 0) (calls2 RA b)).
  assert (TH : 0 < th < 1).
  { unfold th. lits. set (v := uniform RA s _ _) in *.
    assert (0 < 1 / 1 / INR n) by (apply Rmult_lt_0_compat; [lra|apply Rinv_0_lt_compat; exact NP]).
    split; [apply Rmult_lt_0_compat; [lra|]; apply Rinv_0_lt_compat; lra|].
    apply Rmult_lt_reg_r with (2/1 + 1/1 / INR n); [lra|]. unfold Rdiv at 1. rewrite Rmult_assoc, Rinv_l by lra. lra. }
  assert (F1 : 0 < f1 /\ f1 * q <= cnorm RA c * cnorm RA c).
  { unfold f1. destruct (FunModel.le RA q (zero RA)) eqn:C2.
    - apply le_true in C2. rewrite zero0 in C2. assert (q = 0) by rlra. rewrite H0. lits. split; [exact NP|]. rnra.
    - apply le_false in C2. rewrite zero0 in C2. rewrite min_Rmin. lits. split.
      + apply Rmin_glb_lt; [exact NP|]. apply Rmult_lt_0_compat; [rnra|]. apply Rinv_0_lt_compat, C2.
      + apply Rle_trans with (cnorm RA c * cnorm RA c / q * q).
        * apply Rmult_le_compat_r; [rlra|]. apply Rmin_r.
        * right. rfield. rlra. }
  destruct F1 as [F1 F2].
  assert (FP : 0 < f) by (unfold f; change (mul RA) with Rmult; apply Rmult_lt_0_compat; [exact F1|apply TH]).
  assert (FQ : f * q < cnorm RA c * cnorm RA c).
  { unfold f. change (mul RA) with Rmult. replace (f1 * th * q) with (f1 * q * th) by rring.
    assert (0 <= f1 * q) by rnra. assert (0 < cnorm RA c * cnorm RA c) by rnra. rnra. }
  set (g := vec n _).
  assert (Gg : forall i, (i < n)%nat -> (g : list (num RA)).[i] = (cgradient RA c).[i] - f * (combination RA b).[i]).
  { intros i I. unfold g. rewrite vec_at by exact I. reflexivity. }
  assert (GD : prod n g d < 0).
  { assert (prod n g (cgradient RA c) = cnorm RA c * cnorm RA c - f * q).
    { rewrite N1. unfold sq, q, prod. rewrite <- total_scale, <- total_minus. apply total_ext. intros i I. rewrite Gg by exact I. rring. }
    assert (prod n g (cgradient RA c) = - K * prod n g d).
    { unfold prod. rewrite <- total_scale. apply total_ext. intros i I. rewrite G by exact I. rring. }
    rnra. }
  assert (NN : 0 < vector_norm RA n g).
  { pose proof (norm_nonneg n g). destruct (Req_dec (vector_norm RA n g) 0) as [Z0|Z0]; [|rlra]. exfalso.
    assert (S0 : sq n g = 0) by (rewrite <- norm_square, Z0; rring). pose proof (sq_zero n g S0) as S1'.
    assert (prod n g d = 0); [|rlra]. unfold prod. rewrite (total_ext n _ (fun _ => 0)); [rewrite total_const; rring|].
    intros i I. rewrite S1' by exact I. rring. }
  replace (nonzero RA (vector_norm RA n g)) with true by (symmetry; apply nonzero_true; rlra). cbn [negb sound].
  set (c' := Build_constraint RA _ _ _).
  set (t := cnorm RA c / vector_norm RA n g).
  assert (T : 0 < t) by (apply Rmult_lt_0_compat; [exact N0|apply Rinv_0_lt_compat; exact NN]).
  assert (Gc : forall i, (i < n)%nat -> (cgradient RA c').[i] = g.[i] * t).
  { intros i I. unfold c'. cbn [cgradient]. rewrite scale_at by exact I. destruct (Req_EM_T _ 0); [rlra|reflexivity]. }
  assert (W' : wf n c').
  { repeat split; [exact N0| |exact N2]. unfold c' at 1 2. cbn [cnorm].
    replace (sq n (cgradient RA c')) with (t * t * sq n g).
    - rewrite <- (norm_square n g). unfold t. rfield. rlra.
    - unfold sq. rewrite <- total_scale. apply total_ext. intros i I. rewrite Gc by exact I. rring. }
  apply (built_from b k c c' (f / K)); try assumption.
  - split; [exact W'|]. eapply Rle_trans; [apply single_upper|]. unfold linear.
    replace (cshift RA c') with 0 by (symmetry; exact Z).
    replace (prod n (cgradient RA c') d) with (t * prod n g d).
    + unfold Rdiv. rewrite Rmult_0_l, Rmult_0_l. rnra.
    + unfold prod. rewrite <- total_scale. apply total_ext. intros i I. rewrite Gc by exact I. rring.
  - apply Rmult_le_pos; [rlra|]. apply Rlt_le, Rinv_0_lt_compat, KP.
  - exists (/ (K * t)). split; [apply Rlt_le, Rinv_0_lt_compat; rnra|]. intros i I. rewrite Gc, Gg, G by exact I. rfield. rlra.
Qed.

End Build.

(** The undisguised special constraints *)
Definition straight (instance m n : nat) (d : list R) (cs : list RC) : Prop := forall k c, nth_error cs k = Some c ->
  cshift _ c = 0 -> special_index instance m (actives (firstn k cs)) = true -> special_c n d c.

Lemma inv_straight s function n instance m d left0 b : inv s function n instance m d left0 b -> straight instance m n d (made _ b).
Proof.
  intros H k c E Z Sp. pose proof (i_from _ _ _ _ _ _ _ b H k c E) as Q. rewrite Sp in Q. destruct (Req_EM_T (cshift RA c) 0); [exact Q|contradiction].
Qed.

Lemma allocate_straight v s function n instance m (d : list R) (nice : Prop) : fair s -> (1 <= m)%nat -> (exists i, (i < n)%nat /\ d.[i] <> 0) ->
  (nice -> regular s function n instance m) ->
  (nice -> (1 < m)%nat -> v <> NoDisguise -> clear s function n instance m d) ->
  sound nice (cons_allocate RA v s function n instance m d)
    (fun cs => built s function n instance m d (inactive_number v m) cs /\ (v = NoDisguise \/ m = 1%nat -> straight instance m n d cs)).
Proof.
  intros F M D NR NC. unfold cons_allocate. cbv zeta.
  change (match v with ActiveOnly => 0%nat | _ => (m / 2)%nat end) with (inactive_number v m).
  change (mul RA (lit RA 100 0) (FunModel.pow RA (lit RA 10 0) (uniform RA s (cons_seed function instance 0) 0))) with (scale1 s function instance).
  set (left0 := inactive_number v m).
  pose proof (first_step s function n instance m d F M D left0 nice NR) as P.
  change (Nat.eqb (instance mod m) 0) with (special_index instance m 0).
  destruct (linear_single RA s function n instance 1 _ _ _ d) as [c| |]; cbn [bind sound] in *; try exact P.
  destruct P as [P1 P2].
  eapply sound_bind.
  - apply (add_all s function n instance m d F M D left0 nice NR); [exact P1|rewrite P2; lia].
  - intros b (I & L). destruct (Nat.ltb 1 m) eqn:E; cbn [andb].
    + apply Nat.ltb_lt in E. destruct v.
      * apply sound_weaken with (nice := nice) (P := built s function n instance m d left0); [|intros X; exact X|].
        -- apply disguised; try assumption. intros X. apply NC; [exact X|exact E|discriminate].
        -- intros cs B. split; [exact B|]. intros [V|V]; [discriminate V|lia].
      * apply sound_weaken with (nice := nice) (P := built s function n instance m d left0); [|intros X; exact X|].
        -- apply disguised; try assumption. intros X. apply NC; [exact X|exact E|discriminate].
        -- intros cs B. split; [exact B|]. intros [V|V]; [discriminate V|lia].
      * cbn [sound]. split; [apply undisguised; assumption|]. intros _. apply (inv_straight _ _ _ _ _ _ _ b I).
    + cbn [sound]. split; [apply undisguised; assumption|]. intros _. apply (inv_straight _ _ _ _ _ _ _ b I).
Qed.

Lemma allocate_sound v s function n instance m (d : list R) (nice : Prop) : fair s -> (1 <= m)%nat -> (exists i, (i < n)%nat /\ d.[i] <> 0) ->
  (nice -> regular s function n instance m) ->
  (nice -> (1 < m)%nat -> v <> NoDisguise -> clear s function n instance m d) ->
  sound nice (cons_allocate RA v s function n instance m d)
    (built s function n instance m d (inactive_number v m)).
Proof.
  intros F M D NR NC. eapply sound_weaken; [exact (allocate_straight v s function n instance m d nice F M D NR NC)|intros H; exact H|].
  intros cs H. apply H.
Qed.
