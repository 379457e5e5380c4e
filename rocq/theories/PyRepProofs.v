(** Proofs about the experiment repeater: its data are a function of the trials. *)
From Coq Require Import List Arith NArith ZArith QArith Bool Lia.
From Verif Require Import PyExpModel PyExpSpec PyBatchProofs.
Import ListNotations.
Local Open Scope nat_scope.

Definition put (d : idata) (e : pid * trial) : idata := append_trial d (p_instance (fst e)) (snd e).
Definition add (d : list (key * idata)) (e : pid * trial) : list (key * idata) :=
  update_key d (key_of (fst e)) (fun x => put x e).
Definition build (h : history) : list (key * idata) := fold_left add h [].
Definition binst (h : history) : idata := fold_left put h [].

Definition getk (d : list (key * idata)) (k : key) : idata := match lookup_key d k with Some x => x | None => [] end.
Definition geti (d : idata) (i : N) : list trial := match lookup_inst d i with Some x => x | None => [] end.

Lemma lookup_update : forall d k f k', lookup_key (update_key d k f) k' =
  if key_eqb k k' then Some (f (getk d k)) else lookup_key d k'.
Proof.
  unfold getk. induction d as [|[k0 v] d IH]; intros k f k'; cbn.
  - destruct (key_eqb k k'); reflexivity.
  - destruct (key_eqb k0 k) eqn:E; cbn.
    + apply key_eqb_true in E. subst k0. destruct (key_eqb k k'); reflexivity.
    + destruct (key_eqb k0 k') eqn:E'; rewrite ?IH; auto.
      apply key_eqb_true in E'. subst k0. rewrite key_eqb_sym, E. reflexivity.
Qed.

Lemma lookup_append : forall d i t j, lookup_inst (append_trial d i t) j =
  if (i =? j)%N then Some (geti d i ++ [t]) else lookup_inst d j.
Proof.
  unfold geti. induction d as [|[k0 v] d IH]; intros i t j; cbn.
  - destruct (i =? j)%N; reflexivity.
  - destruct (k0 =? i)%N eqn:E; cbn.
    + apply N.eqb_eq in E. subst k0. destruct (i =? j)%N; reflexivity.
    + destruct (k0 =? j)%N eqn:E'; rewrite ?IH; auto.
      apply N.eqb_eq in E'. subst k0. rewrite N.eqb_sym, E. reflexivity.
Qed.

Lemma of_key_app : forall k h h', of_key k (h ++ h') = of_key k h ++ of_key k h'.
Proof. intros. apply filter_app. Qed.

Lemma getk_build : forall h k, getk (build h) k = binst (of_key k h).
Proof.
  induction h as [|e h IH] using rev_ind; intros k; auto.
  unfold build, binst in *. rewrite fold_left_app, of_key_app, fold_left_app. cbn [fold_left of_key filter].
  unfold add at 1, getk at 1. rewrite lookup_update.
  destruct (key_eqb (key_of (fst e)) k) eqn:E.
  - apply key_eqb_true in E. cbn [fold_left]. rewrite <- IH, E. reflexivity.
  - cbn [fold_left]. rewrite <- IH. reflexivity.
Qed.

Lemma geti_binst : forall h i, geti (binst h) i = map snd (filter (fun e => (p_instance (fst e) =? i)%N) h).
Proof.
  induction h as [|e h IH] using rev_ind; intros i; auto.
  unfold binst in *. rewrite fold_left_app, filter_app, map_app. cbn [fold_left filter].
  unfold put at 1, geti at 1. rewrite lookup_append. destruct (p_instance (fst e) =? i)%N eqn:E.
  - apply N.eqb_eq in E. rewrite IH, E. reflexivity.
  - cbn. rewrite app_nil_r. apply IH.
Qed.

(** ** Sums *)
Lemma sumN_app : forall a b, sumN (a ++ b) = (sumN a + sumN b)%N.
Proof. unfold sumN. induction a as [|x a IH]; intros b; cbn; auto. rewrite IH. lia. Qed.

Lemma sumN_cons : forall a l, sumN (a :: l) = (a + sumN l)%N.
Proof. reflexivity. Qed.

Lemma put_sum : forall (g : trial -> N) d e, 
  sumN (map (fun x => sumN (map g (snd x))) (put d e)) = (sumN (map (fun x => sumN (map g (snd x))) d) + g (snd e))%N.
Proof.
  intros g d [p t]. unfold put. cbn [fst snd]. induction d as [|[j l] d IH].
  - cbn. lia.
  - cbn [append_trial]. destruct (j =? p_instance p)%N; cbn [map snd].
    + rewrite !sumN_cons, map_app, sumN_app. cbn. lia.
    + rewrite !sumN_cons, IH. lia.
Qed.
Lemma binst_sum : forall (g : trial -> N) h,
  sumN (map (fun x => sumN (map g (snd x))) (binst h)) = sumN (map (fun e => g (snd e)) h).
Proof.
  intros g. induction h as [|e h IH] using rev_ind; auto.
  unfold binst in *. rewrite fold_left_app, map_app, sumN_app. cbn [fold_left map]. rewrite put_sum, IH. cbn. lia.
Qed.
Lemma sum_hits : forall h : history, sumN (map (fun e : pid * trial => if snd (snd e) then 1 else 0)%N h) =
  N.of_nat (length (filter (fun e => snd (snd e)) h)).
Proof.
  induction h as [|[p [v b]] h IH]; auto. cbn [map filter snd]. rewrite sumN_cons, IH. destruct b; cbn [length]; lia.
Qed.

(** ** Instances *)
Lemma put_fst : forall d e, map fst (put d e) = if in_dec N.eq_dec (p_instance (fst e)) (map fst d) then map fst d
                                                else map fst d ++ [p_instance (fst e)].
Proof.
  intros d [p t]. unfold put. cbn [fst snd]. induction d as [|[j l] d IH]; auto.
  cbn [append_trial map fst]. destruct (j =? p_instance p)%N eqn:E; cbn [map fst].
  - apply N.eqb_eq in E. subst j.
    destruct (in_dec N.eq_dec (p_instance p) (p_instance p :: map fst d)) as [I|I]; auto.
    exfalso; apply I; left; reflexivity.
  - rewrite IH. apply N.eqb_neq in E.
    destruct (in_dec N.eq_dec (p_instance p) (map fst d)) as [I|I];
    destruct (in_dec N.eq_dec (p_instance p) (j :: map fst d)) as [I'|I']; auto.
    + exfalso. apply I'. right; auto.
    + exfalso. destruct I' as [I'|I']; auto.
Qed.
Lemma binst_nodup : forall h, NoDup (map fst (binst h)).
Proof.
  induction h as [|e h IH] using rev_ind; [constructor|].
  unfold binst in *. rewrite fold_left_app. cbn [fold_left]. rewrite put_fst. destruct (in_dec _ _ _) as [I|I]; auto.
  apply NoDup_rev in IH. rewrite <- (rev_involutive (map fst _ ++ _)). apply NoDup_rev.
  rewrite rev_app_distr. cbn. constructor; auto. rewrite <- in_rev. auto.
Qed.
Lemma binst_in : forall h i, In i (map fst (binst h)) <-> In i (map (fun e => p_instance (fst e)) h).
Proof.
  induction h as [|e h IH] using rev_ind; intros i; [cbn; tauto|].
  unfold binst in *. rewrite fold_left_app, map_app, in_app_iff. cbn [fold_left map In]. rewrite put_fst.
  rewrite <- IH. destruct (in_dec _ _ _) as [I|I].
  - intuition. subst; auto.
  - rewrite in_app_iff. cbn. tauto.
Qed.
Lemma nodup_length : forall (a b : list N), NoDup a -> NoDup b -> (forall x, In x a <-> In x b) -> length a = length b.
Proof.
  intros a b Ha Hb H. apply Nat.le_antisymm; apply NoDup_incl_length; auto; intros x Hx; apply H; auto.
Qed.
Lemma binst_length : forall h, length (binst h) = length (nodup N.eq_dec (map (fun e => p_instance (fst e)) h)).
Proof.
  intros h. rewrite <- (map_length fst). apply nodup_length.
  - apply binst_nodup.
  - apply NoDup_nodup.
  - intros x. rewrite binst_in, nodup_In. tauto.
Qed.
Lemma lookup_in : forall (d : idata) i l, NoDup (map fst d) -> In (i, l) d -> lookup_inst d i = Some l.
Proof.
  induction d as [|[j v] d IH]; intros i l Hn Hi; [contradiction|]. cbn [map fst] in Hn. inversion Hn; subst. cbn.
  destruct Hi as [Hi|Hi].
  - injection Hi as -> ->. rewrite N.eqb_refl. reflexivity.
  - destruct (j =? i)%N eqn:E; auto. apply N.eqb_eq in E. subst j. exfalso. apply H1. apply (in_map fst) in Hi. auto.
Qed.
Lemma lookup_some_in : forall (d : idata) i l, lookup_inst d i = Some l -> In (i, l) d.
Proof.
  induction d as [|[j v] d IH]; intros i l H; [discriminate|]. cbn in H. destruct (j =? i)%N eqn:E.
  - apply N.eqb_eq in E. injection H as ->. subst. left; auto.
  - right; auto.
Qed.

(** ** The state of a repeater as a function of the trials *)
Section Rep.
Variables (mult : Q) (mins mx : N).
Definition R (h : history) (sw : N) : repeater := mk_repeater mult mins mx (build h) (N.of_nat (length h)) sw.

Lemma data_R : forall h sw k, data (R h sw) k = binst (of_key k h).
Proof. intros. apply (getk_build h k). Qed.

Lemma track_R : forall h sw p t, track (R h sw) p t = R (h ++ [(p, t)]) sw.
Proof.
  intros. unfold track, R. cbn [r_data budget_multiplier min_successes max_sweeps calls sweeps].
  unfold build at 2. rewrite fold_left_app, app_length. cbn [fold_left length].
  replace (N.of_nat (length h) + 1)%N with (N.of_nat (length h + 1)) by lia. reflexivity.
Qed.

Lemma filter_filter : forall {A} (f g : A -> bool) l, filter f (filter g l) = filter (fun x => g x && f x) l.
Proof.
  induction l as [|x l IH]; auto. cbn. destruct (g x); cbn; rewrite IH; reflexivity.
Qed.

Lemma instance_R : forall h sw p, length (data_of_instance (R h sw) p) = trials_of h p.
Proof.
  intros. unfold data_of_instance. rewrite data_R.
  change (length (geti (binst (of_key (key_of p) h)) (p_instance p)) = trials_of h p).
  rewrite geti_binst, map_length. unfold of_key, trials_of. rewrite filter_filter. reflexivity.
Qed.

Lemma exhausted_R : forall h sw k, budget_exhausted (R h sw) k = true <->
  (inject_Z (Z.of_nat (Nat.max 1 (length (instances_of h k)))) * (inject_Z (Z.of_N (snd k)) * mult)
     <= inject_Z (Z.of_N (total_evaluations h k)))%Q.
Proof.
  intros. unfold budget_exhausted. rewrite Qle_bool_iff, data_R. unfold budget_from_dimension, evaluations.
  rewrite binst_sum, binst_length. tauto.
Qed.
Lemma succeeded_R : forall h sw k, succeeded (R h sw) k = true <-> (mins <= total_successes h k)%N.
Proof.
  intros. unfold succeeded. rewrite N.leb_le, data_R. unfold successes.
  rewrite binst_sum. unfold total_successes. rewrite <- sum_hits. tauto.
Qed.

Lemma maxnat_le : forall l n, maxnat l <= n <-> (forall x, In x l -> x <= n).
Proof.
  induction l as [|a l IH]; intros n; cbn.
  - split; [contradiction|lia].
  - rewrite Nat.max_lub_iff, IH. split.
    + intros [A B] x [<-|I]; auto.
    + auto.
Qed.

Lemma trials_in : forall h k n, In n (trials (binst (of_key k h))) <->
  exists p, key_of p = k /\ 0 < trials_of h p /\ n = trials_of h p.
Proof.
  intros h k n. unfold trials. rewrite in_map_iff. split.
  - intros ([i l] & <- & I). cbn [snd]. exists (mk_pid (fst k) (snd k) i).
    assert (E : geti (binst (of_key k h)) i = l).
    { unfold geti. rewrite (lookup_in _ _ _ (binst_nodup _) I). reflexivity. }
    assert (K : key_of (mk_pid (fst k) (snd k) i) = k) by (destruct k; reflexivity).
    assert (L : length l = trials_of h (mk_pid (fst k) (snd k) i)).
    { rewrite <- E, geti_binst, map_length. unfold of_key, trials_of. rewrite filter_filter.
      unfold pid_eqb. rewrite K. cbn [p_instance]. reflexivity. }
    repeat split; auto.
    assert (In i (map fst (binst (of_key k h)))) as J by (apply (in_map fst) in I; auto).
    apply binst_in in J. apply in_map_iff in J. destruct J as (e & <- & J).
    unfold of_key in J. apply filter_In in J. destruct J as [J1 J2].
    unfold trials_of. destruct (filter _ h) as [|x y] eqn:F; [|cbn; lia]. exfalso.
    assert (In e (filter (fun e0 => pid_eqb (fst e0) (mk_pid (fst k) (snd k) (p_instance (fst e)))) h)) as X.
    { apply filter_In. split; auto. unfold pid_eqb. rewrite K, J2. cbn [p_instance]. apply N.eqb_refl. }
    rewrite F in X. contradiction.
  - intros (p & <- & P & ->).
    assert (L : trials_of h p = length (geti (binst (of_key (key_of p) h)) (p_instance p))).
    { rewrite geti_binst, map_length. unfold of_key, trials_of. rewrite filter_filter. reflexivity. }
    unfold geti in L. destruct (lookup_inst _ _) as [l|] eqn:E.
    + exists (p_instance p, l). split; auto. apply lookup_some_in. auto.
    + cbn in L. lia.
Qed.

Lemma missing_R : forall h sw p, missing_trials (R h sw) p = 0%Z <->
  0 < trials_of h p /\ (forall q, key_of q = key_of p -> trials_of h q <= trials_of h p).
Proof.
  intros. unfold missing_trials. rewrite instance_R, data_R.
  set (M := maxnat (trials (binst (of_key (key_of p) h)))).
  assert (HM : forall n, M <= n <-> (forall q, key_of q = key_of p -> trials_of h q <= n)).
  { intros n. unfold M. rewrite maxnat_le. split.
    - intros H q K. destruct (Nat.eq_dec (trials_of h q) 0) as [Z|Z]; [lia|].
      apply H. apply trials_in. exists q. repeat split; auto. lia.
    - intros H x I. apply trials_in in I. destruct I as (q & K & _ & ->). auto. }
  split.
  - intros H. assert (E : Nat.max 1 M = trials_of h p) by lia. split; [lia|]. apply HM. lia.
  - intros [H1 H2]. apply HM in H2.
    assert (trials_of h p <= M). { assert (X : M <= M) by lia. rewrite HM in X. apply X; auto. }
    lia.
Qed.

Lemma instances_pos : forall h p, 0 < trials_of h p -> 1 <= length (instances_of h (key_of p)).
Proof.
  intros h p H. unfold instances_of. destruct (nodup _ _) as [|x l] eqn:E; [|cbn; lia]. exfalso.
  unfold trials_of in H. destruct (filter _ h) as [|e es] eqn:F; [cbn in H; lia|].
  assert (I : In e (filter (fun e0 => pid_eqb (fst e0) p) h)) by (rewrite F; left; auto).
  apply filter_In in I. destruct I as [I1 I2]. unfold pid_eqb in I2. apply andb_true_iff in I2. destruct I2 as [I2 _].
  assert (X : In (p_instance (fst e)) (nodup N.eq_dec (map (fun e => p_instance (fst e)) (of_key (key_of p) h)))).
  { apply nodup_In. apply (in_map (fun e : pid * trial => p_instance (fst e))). apply filter_In. auto. }
  rewrite E in X. contradiction.
Qed.

(** A problem instance needs no further trial. *)
Definition finished (h : history) (p : pid) : Prop :=
  0 < trials_of h p /\ (forall q, key_of q = key_of p -> trials_of h q <= trials_of h p) /\
  enough mult mins h (key_of p).

Lemma done_problem_R : forall h sw p, done_problem (R h sw) p = true <-> (1 < sw)%N /\ finished h p.
Proof.
  intros. unfold done_problem. change (sweeps (R h sw)) with sw.
  assert (X : (if (sw <=? 1)%N || negb (missing_trials (R h sw) p =? 0)%Z || (negb (succeeded (R h sw) (key_of p)) && negb (budget_exhausted (R h sw) (key_of p))) then false else true) = true <->
     (1 < sw)%N /\ missing_trials (R h sw) p = 0%Z /\ (succeeded (R h sw) (key_of p) = true \/ budget_exhausted (R h sw) (key_of p) = true)).
  { destruct (N.leb_spec sw 1), (Z.eqb_spec (missing_trials (R h sw) p) 0), (succeeded (R h sw) (key_of p)),
      (budget_exhausted (R h sw) (key_of p)); cbn; intuition (try discriminate; try lia). }
  rewrite X. rewrite missing_R, succeeded_R, exhausted_R. unfold finished, enough.
  split.
  - intros (A & (B & C) & D). repeat split; auto. pose proof (instances_pos h p B) as I.
    rewrite Nat.max_r in D by lia. auto.
  - intros (A & B & C & D). repeat split; auto. pose proof (instances_pos h p B) as I. rewrite Nat.max_r by lia. auto.
Qed.

(** ** done() *)
Lemma update_fst : forall d k f, map fst (update_key d k f) =
  if existsb (fun x => key_eqb x k) (map fst d) then map fst d else map fst d ++ [k].
Proof.
  induction d as [|[k0 v] d IH]; intros k f; auto. cbn. destruct (key_eqb k0 k) eqn:E; cbn; auto.
  rewrite IH. destruct (existsb _ _); reflexivity.
Qed.
Lemma build_nodup : forall h, NoDup (map fst (build h)).
Proof.
  induction h as [|e h IH] using rev_ind; [constructor|].
  unfold build in *. rewrite fold_left_app. cbn [fold_left]. unfold add at 1. rewrite update_fst.
  destruct (existsb _ _) eqn:X; auto.
  apply NoDup_rev in IH. rewrite <- (rev_involutive (map fst _ ++ _)). apply NoDup_rev.
  rewrite rev_app_distr. cbn. constructor; auto. rewrite <- in_rev. intros I.
  assert (existsb (fun x => key_eqb x (key_of (fst e))) (map fst (fold_left add h [])) = true); [|congruence].
  apply existsb_exists. exists (key_of (fst e)). split; auto. apply key_eqb_refl.
Qed.
Lemma lookup_key_in : forall (d : list (key * idata)) k v, NoDup (map fst d) -> In (k, v) d -> lookup_key d k = Some v.
Proof.
  induction d as [|[j w] d IH]; intros k v Hn Hi; [contradiction|]. cbn [map fst] in Hn. inversion Hn; subst. cbn.
  destruct Hi as [Hi|Hi].
  - injection Hi as -> ->. rewrite key_eqb_refl. reflexivity.
  - destruct (key_eqb j k) eqn:E; auto. apply key_eqb_true in E. subst j. exfalso. apply H1. apply (in_map fst) in Hi. auto.
Qed.
Lemma lookup_key_some_in : forall (d : list (key * idata)) k v, lookup_key d k = Some v -> In (k, v) d.
Proof.
  induction d as [|[j w] d IH]; intros k v H; [discriminate|]. cbn in H. destruct (key_eqb j k) eqn:E.
  - apply key_eqb_true in E. injection H as ->. subst. left; auto.
  - right; auto.
Qed.

(** The problems with a record. *)
Lemma tracked : forall h p, 0 < trials_of h p <->
  exists d l, In (key_of p, d) (build h) /\ In (p_instance p, l) d.
Proof.
  intros h p. split.
  - intros H. assert (E : geti (getk (build h) (key_of p)) (p_instance p) <> []).
    { intros E. pose proof (instance_R h 0 p) as L. unfold data_of_instance in L. rewrite data_R, <- getk_build in L.
      unfold geti in E. destruct (lookup_inst _ _); [|cbn in L; lia]. subst l. cbn in L. lia. }
    unfold getk, geti in E. destruct (lookup_key _ _) as [d|] eqn:K; [|cbn in E; congruence].
    destruct (lookup_inst _ _) as [l|] eqn:I; [|congruence].
    exists d, l. split; [apply lookup_key_some_in|apply lookup_some_in]; auto.
  - intros (d & l & A & B).
    pose proof (lookup_key_in _ _ _ (build_nodup h) A) as K.
    assert (D : d = binst (of_key (key_of p) h)). { rewrite <- getk_build. unfold getk. rewrite K. reflexivity. }
    assert (J : In (p_instance p) (map fst d)) by (apply (in_map fst) in B; auto).
    rewrite D in J. apply binst_in in J. apply in_map_iff in J. destruct J as (e & E & J).
    unfold of_key in J. apply filter_In in J. destruct J as [J1 J2].
    unfold trials_of. destruct (filter _ h) as [|x y] eqn:F; [|cbn; lia]. exfalso.
    assert (In e (filter (fun e0 => pid_eqb (fst e0) p) h)) as X.
    { apply filter_In. split; auto. unfold pid_eqb. rewrite J2, E. cbn. apply N.eqb_refl. }
    rewrite F in X. contradiction.
Qed.

Lemma flat_map_nil : forall {A B} (f : A -> list B) l, flat_map f l = [] <-> (forall x, In x l -> f x = []).
Proof.
  induction l as [|a l IH]; cbn; [tauto|]. split.
  - intros H. apply app_eq_nil in H. destruct H as [H1 H2]. intros x [<-|I]; auto. apply IH; auto.
  - intros H. rewrite (H a) by auto. cbn. apply IH. auto.
Qed.

Lemma remaining_R : forall h sw, remaining_problems (R h sw) = [] <->
  (forall p, 0 < trials_of h p -> done_problem (R h sw) p = true).
Proof.
  intros h sw. unfold remaining_problems. rewrite flat_map_nil. change (r_data (R h sw)) with (build h). split.
  - intros H p T. apply tracked in T. destruct T as (d & l & A & B). specialize (H _ A). cbn [fst snd] in H.
    rewrite flat_map_nil in H. specialize (H _ B). cbn [fst snd] in H.
    replace (mk_pid (fst (key_of p)) (snd (key_of p)) (p_instance p)) with p in H by (destruct p; reflexivity).
    destruct (done_problem (R h sw) p); auto; discriminate.
  - intros H [k d] A. cbn [fst snd]. apply flat_map_nil. intros [i l] B. cbn [fst].
    rewrite H; auto. apply tracked. exists d, l. destruct k; auto.
Qed.

Lemma sum_pos : forall {A} (f : A -> nat) l, 0 < fold_right Nat.add 0 (map f l) <-> exists x, In x l /\ 0 < f x.
Proof.
  induction l as [|a l IH]; cbn.
  - split; [lia|]. intros (x & [] & _).
  - split.
    + intros H. destruct (Nat.eq_dec (f a) 0) as [E|E].
      * assert (0 < fold_right Nat.add 0 (map f l)) as P by lia. apply IH in P. destruct P as (x & I & P). exists x. auto.
      * exists a. split; auto. lia.
    + intros (x & [<-|I] & P); [lia|]. assert (0 < fold_right Nat.add 0 (map f l)) by (apply IH; eauto). lia.
Qed.
Lemma n_instances_R : forall h sw, 0 < n_problem_instances (R h sw) <-> h <> [].
Proof.
  intros h sw. unfold n_problem_instances. rewrite sum_pos. change (r_data (R h sw)) with (build h). split.
  - intros ((k & d) & A & B) ->. contradiction.
  - intros H. destruct h as [|e h']; [congruence|]. set (h := e :: h') in *.
    assert (T : 0 < trials_of h (fst e)).
    { unfold trials_of, h. cbn [filter]. unfold pid_eqb at 1. rewrite key_eqb_refl, N.eqb_refl. cbn. lia. }
    destruct (proj1 (tracked _ _) T) as (d & l & A & B). exists (key_of (fst e), d). split; auto. cbn [fst].
    rewrite data_R.
    assert (I : In (trials_of h (fst e)) (trials (binst (of_key (key_of (fst e)) h)))) by (apply trials_in; eauto).
    destruct (filter _ _) as [|x y] eqn:F; [|cbn; lia]. exfalso.
    assert (In (trials_of h (fst e)) (filter (fun n => 0 <? n) (trials (binst (of_key (key_of (fst e)) h))))) as X.
    { apply filter_In. split; auto. apply Nat.ltb_lt. auto. }
    rewrite F in X. contradiction.
Qed.

Lemma build_nil : forall h, build h = [] <-> h = [].
Proof.
  intros h. split; [|intros ->; reflexivity]. intros H. destruct h as [|e h']; auto. exfalso.
  assert (T : 0 < trials_of (e :: h') (fst e)).
  { unfold trials_of. cbn [filter]. unfold pid_eqb at 1. rewrite key_eqb_refl, N.eqb_refl. cbn. lia. }
  apply tracked in T. destruct T as (d & l & A & B). rewrite H in A. contradiction.
Qed.

Lemma done_R : forall h sw, 
  snd (done (R h sw)) = (if fst (done (R h sw)) then R h sw else R h (sw + 1)) /\
  (fst (done (R h sw)) = true <->
     (mx <= sw + 1)%N \/ ((1 <= sw)%N /\ h = []) \/ (h <> [] /\ (1 <= sw)%N /\ forall p, 0 < trials_of h p -> finished h p)).
Proof.
  intros h sw. unfold done. cbn [fst snd]. change (set_sweeps (R h sw) (sweeps (R h sw) + 1)) with (R h (sw + 1)).
  split; [destruct (_ || _)%bool; reflexivity|].
  change (max_sweeps (R h (sw + 1))) with mx. change (sweeps (R h (sw + 1))) with (sw + 1)%N.
  change (r_data (R h (sw + 1))) with (build h).
  rewrite !orb_true_iff, !andb_true_iff, N.leb_le, N.ltb_lt, Nat.ltb_lt, n_instances_R.
  assert (E1 : match build h with [] => true | _ => false end = true <-> h = []).
  { rewrite <- build_nil. destruct (build h); split; congruence. }
  assert (E2 : match remaining_problems (R h (sw + 1)) with [] => true | _ => false end = true <->
               forall p, 0 < trials_of h p -> (1 < sw + 1)%N /\ finished h p).
  { destruct (remaining_problems (R h (sw + 1))) eqn:E.
    - split; auto. intros _ p T. apply done_problem_R. apply (proj1 (remaining_R h (sw + 1)) E). auto.
    - split; [discriminate|]. intros H. exfalso.
      assert (remaining_problems (R h (sw + 1)) = []); [|congruence].
      apply remaining_R. intros q T. apply done_problem_R. auto. }
  rewrite E1, E2. split.
  - intros [[H|[H1 H2]]|[H1 H2]]; auto.
    + right; left; split; auto; lia.
    + right; right. split; auto. split; [|intros p T; apply H2; auto].
      destruct h as [|e h']; [congruence|].
      assert (T : 0 < trials_of (e :: h') (fst e)).
      { unfold trials_of. cbn [filter]. unfold pid_eqb at 1. rewrite key_eqb_refl, N.eqb_refl. cbn. lia. }
      apply H2 in T. lia.
  - intros [H|[[H1 H2]|(H1 & H2 & H3)]]; auto.
    + left; right; split; auto; lia.
    + right. split; auto. intros p T. split; [lia|auto].
Qed.
End Rep.
