(** Theorems about batches (C75) and repetitions (C76) of an experiment run from Python. *)
From Coq Require Import List Arith NArith ZArith QArith Bool Lia Lqa.
From Verif Require Import CBase SuiteModel SuiteSpec PyExpModel PyExpSpec PyBatchProofs PyRepProofs PyLoopProofs.
Import ListNotations.
Local Open Scope nat_scope.

(** ** C75 *)

(** The arguments that are accepted: numbers 0 ... nob-1; with a single batch also 1 and None. *)
Theorem C75_arguments : forall nob batch,
  (exists b, new_batcher nob batch = Some b) <->
  (exists k, batch = Some k /\ (0 <= k < nob)%Z) \/ (nob = 1%Z /\ (batch = None \/ batch = Some 1%Z)).
Proof.
  intros nob batch. unfold new_batcher. split.
  - intros (b & H). destruct (Z.eqb_spec nob 1) as [->|N1]; cbn [andb] in H.
    + destruct batch as [k|]; [|auto]. destruct (Z.eqb_spec k 0) as [->|K0]; cbn [orb] in H.
      * left. exists 0%Z. split; auto. lia.
      * destruct (Z.eqb_spec k 1) as [->|K1]; auto. destruct (Z.ltb_spec k 0), (Z.leb_spec 1 k); try discriminate. lia.
    + destruct batch as [k|]; [|discriminate]. left. exists k. split; auto.
      destruct (Z.ltb_spec k 0), (Z.leb_spec nob k); try discriminate. lia.
  - intros [(k & -> & K)|(-> & [->| ->])].
    + destruct (_ && _)%bool; eauto. destruct (Z.ltb_spec k 0), (Z.leb_spec nob k); try lia. cbn. eauto.
    + cbn. eauto.
    + cbn. eauto.
Qed.

Theorem C75_fresh : forall nob batch b, new_batcher nob batch = Some b ->
  exists k, b = fresh nob k /\ (0 <= k < nob)%Z /\ (nob <> 1%Z -> batch = Some k).
Proof.
  intros nob batch b H. unfold new_batcher in H. destruct (Z.eqb_spec nob 1) as [->|N1]; cbn [andb] in H.
  - exists 0%Z. destruct batch as [k|].
    + destruct (Z.eqb_spec k 0) as [->|K0]; cbn [orb] in H; [injection H as <-; repeat split; lia|].
      destruct (Z.eqb_spec k 1) as [->|K1]; [injection H as <-; repeat split; lia|].
      destruct (Z.ltb_spec k 0), (Z.leb_spec 1 k); try discriminate; lia.
    + injection H as <-. repeat split; lia.
  - destruct batch as [k|]; [|discriminate].
    destruct (Z.ltb_spec k 0), (Z.leb_spec nob k); try discriminate. cbn in H. injection H as <-.
    exists k. repeat split; auto; lia.
Qed.

(** Whatever the sequence of problems, each of its problems is executed by exactly one of the batches. *)
Theorem C75_exactly_one_batch : forall nob ps i, (0 < nob)%Z -> i < length ps ->
  exists! k, (0 <= k < nob)%Z /\ nth_error (answers (fresh nob k) ps) i = Some true.
Proof. exact one_batch. Qed.

(** Problems that follow each other with the same function and dimension are in the same batch. *)
Theorem C75_consecutive : forall ps b i p q, nth_error ps i = Some p -> nth_error ps (S i) = Some q ->
  p_function p = p_function q -> p_dimension p = p_dimension q ->
  nth_error (answers b ps) i = nth_error (answers b ps) (S i).
Proof. intros ps b i p q P Q F D. apply (consecutive ps b i p q P Q). unfold key_of. congruence. Qed.

(** Sweeping through the same problems again with the same scheduler, the batches are the same. *)
Theorem C75_further_sweeps : forall nob k ps n,
  answers (fresh nob k) (copies n ps) = copies n (answers (fresh nob k) ps).
Proof. intros. apply answers_sweeps. apply fresh_ready. Qed.

(** When the problems of a function and dimension are in one place, group number g is in batch g modulo nob ... *)
Theorem C75_groups : forall nob k gs i p g, NoDup (map fst gs) -> Forall (fun g => snd g <> []) gs ->
  nth_error (groups_problems gs) i = Some p -> nth_error (map fst gs) g = Some (key_of p) ->
  nth_error (answers (fresh nob k) (groups_problems gs)) i = Some (Z.of_nat g mod nob =? k)%Z.
Proof. exact group_answer. Qed.

(** ... hence the numbers of groups in two batches differ by at most one. *)

Lemma groups_count : forall nob k n, (0 <= k < nob)%Z ->
  Z.of_nat (groups_in_batch nob k n) = (Z.of_nat n / nob + if (k <? Z.of_nat n mod nob)%Z then 1 else 0)%Z.
Proof.
  intros nob k n Hk. induction n as [|n IH].
  - change (Z.of_nat 0) with 0%Z. rewrite Z.div_0_l, Z.mod_0_l by lia. destruct (Z.ltb_spec k 0); [lia|reflexivity].
  - unfold groups_in_batch in *. rewrite seq_S, filter_app, app_length. cbn [filter].
    rewrite Nat2Z.inj_add, IH. rewrite Nat.add_0_l.
    set (q := (Z.of_nat n / nob)%Z) in *. set (r := (Z.of_nat n mod nob)%Z) in *.
    assert (E : Z.of_nat n = (nob * q + r)%Z) by (apply Z.div_mod; lia).
    assert (Hr : (0 <= r < nob)%Z) by (apply Z.mod_pos_bound; lia).
    destruct (Z.eq_dec r (nob - 1)) as [L|L].
    + assert (Q : (Z.of_nat (S n) / nob = q + 1)%Z) by (symmetry; apply (Z.div_unique _ _ _ 0); lia).
      assert (M : (Z.of_nat (S n) mod nob = 0)%Z) by (symmetry; apply (Z.mod_unique _ _ (q + 1)); lia).
      rewrite Q, M. destruct (Z.ltb_spec k r), (Z.ltb_spec k 0), (Z.eqb_spec r k); cbn [length]; lia.
    + assert (Q : (Z.of_nat (S n) / nob = q)%Z) by (symmetry; apply (Z.div_unique _ _ _ (r + 1)); lia).
      assert (M : (Z.of_nat (S n) mod nob = r + 1)%Z) by (symmetry; apply (Z.mod_unique _ _ q); lia).
      rewrite Q, M. destruct (Z.ltb_spec k r), (Z.ltb_spec k (r + 1)), (Z.eqb_spec r k); cbn [length]; lia.
Qed.

Theorem C75_even : forall nob k k' n, (0 <= k < nob)%Z -> (0 <= k' < nob)%Z ->
  groups_in_batch nob k n <= groups_in_batch nob k' n + 1.
Proof.
  intros nob k k' n Hk Hk'. pose proof (groups_count nob k n Hk). pose proof (groups_count nob k' n Hk').
  destruct (_ <? _)%Z, (_ <? _)%Z; lia.
Qed.


Definition suite_groups (s : suite) : list (key * list N) :=
  flat_map (fun d => map (fun f => ((f, d), present (instances s))) (present (functions s))) (present (dimensions s)).

Lemma positions_present : forall l, map (fun k => nth k l 0%N) (positions l) = present l.
Proof.
  intros l. unfold positions, positions_from. rewrite Nat.sub_0_r.
  assert (G : forall l a, map (fun k => nth k (a ++ l) 0%N) (filter (fun k => negb (nth k (a ++ l) 0 =? 0)%N) (seq (length a) (length l))) = present l).
  { clear l. induction l as [|x l IH]; intros a; auto. cbn [seq length filter present].
    assert (E : nth (length a) (a ++ x :: l) 0%N = x) by (rewrite app_nth2, Nat.sub_diag by lia; reflexivity).
    specialize (IH (a ++ [x])). rewrite <- app_assoc, app_length, Nat.add_1_r in IH. cbn [app length] in IH.
    rewrite E. destruct (negb (x =? 0)%N); cbn [map]; rewrite ?E, IH; reflexivity. }
  exact (G l []).
Qed.

Lemma map_flat_map : forall {A B C} (g : B -> C) (f : A -> list B) l, map g (flat_map f l) = flat_map (fun x => map g (f x)) l.
Proof. induction l as [|a l IH]; cbn; auto. rewrite map_app, IH. reflexivity. Qed.
Lemma flat_map_map : forall {A B C} (g : A -> B) (f : B -> list C) l, flat_map f (map g l) = flat_map (fun x => f (g x)) l.
Proof. induction l as [|a l IH]; cbn; auto. rewrite IH. reflexivity. Qed.
Lemma flat_map_flat_map : forall {A B C} (g : A -> list B) (f : B -> list C) l,
  flat_map f (flat_map g l) = flat_map (fun x => flat_map f (g x)) l.
Proof. induction l as [|a l IH]; cbn; auto. rewrite flat_map_app, IH. reflexivity. Qed.

Lemma suite_pids_groups : forall s, suite_pids s = groups_problems (suite_groups s).
Proof.
  intros s. unfold suite_pids, all_problems, combinations, groups_problems, suite_groups.
  rewrite <- !positions_present. rewrite map_map, map_flat_map, flat_map_flat_map, flat_map_map.
  apply flat_map_ext. intros d. rewrite map_flat_map, !flat_map_map. apply flat_map_ext. intros f.
  cbn [fst snd]. rewrite !map_map. apply map_ext. intros i. reflexivity.
Qed.

Lemma nodup_pairs : forall (fs ds : list N), NoDup fs -> NoDup ds ->
  NoDup (flat_map (fun d => map (fun f => (f, d)) fs) ds).
Proof.
  intros fs ds Hf Hd. induction Hd as [|d ds Hn Hd IH]; [constructor|]. cbn [flat_map].
  assert (G : forall l (m : list (N * N)), NoDup l -> NoDup m -> (forall f, In f l -> ~ In (f, d) m) ->
              NoDup (map (fun f => (f, d)) l ++ m)).
  { induction l as [|f l IHl]; intros m Hl Hm H; auto. cbn. inversion Hl; subst. constructor.
    - intros I. apply in_app_iff in I. destruct I as [I|I].
      + apply in_map_iff in I. destruct I as (x & E & I). injection E as ->. contradiction.
      + apply (H f); auto. left; auto.
    - apply IHl; auto. intros g I. apply H. right; auto. }
  apply G; auto. intros f _ I. apply in_flat_map in I. destruct I as (x & I & J). apply in_map_iff in J.
  destruct J as (y & E & _). injection E as _ ->. contradiction.
Qed.

Lemma pair_at : forall (fs ds : list N) f d x y, nth_error ds d = Some x -> nth_error fs f = Some y ->
  nth_error (flat_map (fun d => map (fun f => (f, d)) fs) ds) (d * length fs + f) = Some (y, x).
Proof.
  induction ds as [|z ds IH]; intros f d x y Hd Hf.
  - destruct d; discriminate.
  - assert (L : f < length fs) by (apply nth_error_Some; rewrite Hf; discriminate).
    cbn [flat_map]. destruct d as [|d].
    + cbn in Hd. injection Hd as ->. rewrite nth_error_app1 by (rewrite map_length; lia).
      exact (map_nth_error _ _ _ Hf).
    + rewrite nth_error_app2 by (rewrite map_length; cbn; lia). rewrite map_length.
      replace (S d * length fs + f - length fs) with (d * length fs + f) by (cbn; lia). auto.
Qed.

(** The batches of a suite: the problems with the d-th dimension and the f-th function are in batch
    d * number of functions + f modulo nob. *)
Theorem C75_suite : forall s nob k i p f d, NoDup (present (functions s)) -> NoDup (present (dimensions s)) ->
  nth_error (suite_pids s) i = Some p ->
  nth_error (present (dimensions s)) d = Some (p_dimension p) ->
  nth_error (present (functions s)) f = Some (p_function p) ->
  nth_error (answers (fresh nob k) (suite_pids s)) i =
    Some (Z.of_nat (d * length (present (functions s)) + f) mod nob =? k)%Z.
Proof.
  intros s nob k i p f d Hf Hd Hp Pd Pf. rewrite suite_pids_groups in *.
  assert (E : map fst (suite_groups s) = flat_map (fun d => map (fun f => (f, d)) (present (functions s))) (present (dimensions s))).
  { unfold suite_groups. rewrite map_flat_map. apply flat_map_ext. intros a. rewrite map_map. reflexivity. }
  destruct (present (instances s)) as [|i0 is] eqn:I.
  - exfalso. apply nth_error_In in Hp. unfold groups_problems in Hp. apply in_flat_map in Hp.
    destruct Hp as (g & G & J). unfold suite_groups in G. apply in_flat_map in G. destruct G as (x & _ & G).
    apply in_map_iff in G. destruct G as (y & <- & _). cbn [snd] in J. rewrite I in J. contradiction.
  - apply (group_answer nob k (suite_groups s) i p); auto.
    + rewrite E. apply nodup_pairs; auto.
    + apply Forall_forall. intros g G. unfold suite_groups in G. apply in_flat_map in G. destruct G as (x & _ & G).
      apply in_map_iff in G. destruct G as (y & <- & _). cbn [snd]. rewrite I. discriminate.
    + rewrite E. apply pair_at; auto.
Qed.

(** An experiment that is run in batches yields, for every function and dimension, the same trials with the same results
    as the undivided experiment, all in one batch and none in the others -- provided that the solver treats a problem
    alike in both, that is, depends only on the earlier trials with the same function and dimension. *)
Lemma chosen_key : forall k (c : bool) ps l, length l = length ps ->
  (forall i p, nth_error ps i = Some p -> key_of p = k -> nth_error l i = Some c) ->
  with_key k (map fst (filter snd (combine ps l))) = if c then with_key k ps else [].
Proof.
  intros k c. induction ps as [|p ps IH]; intros [|b l] L H; try discriminate.
  - destruct c; reflexivity.
  - cbn in L. cbn [combine filter snd].
    assert (T : with_key k (map fst (filter snd (combine ps l))) = if c then with_key k ps else []).
    { apply IH; [lia|]. intros i q Q K. apply (H (S i) q Q K). }
    unfold with_key in *. cbn [filter]. destruct (key_eqb (key_of p) k) eqn:E.
    + apply key_eqb_true in E. pose proof (H 0 p eq_refl E) as B. cbn in B. injection B as ->.
      destruct c; cbn [map fst filter]; rewrite ?T; auto. rewrite E, key_eqb_refl. reflexivity.
    + destruct b; cbn [map fst filter]; rewrite ?E; auto.
Qed.

Lemma run_hloop : forall fuel mult mins nob batch s ps e, run_experiment fuel mult mins nob batch s ps = Some e ->
  exists k, new_batcher nob batch = Some (fresh nob k) /\ (0 <= k < nob)%Z /\
    hloop mult mins 10000 s fuel (executed nob k ps) 0 [] = Some (sweeps (e_repeater e), e_history e).
Proof.
  intros fuel mult mins nob batch s ps e H. unfold run_experiment in H.
  destruct (new_batcher nob batch) as [b|] eqn:B; [|discriminate].
  destruct (C75_fresh _ _ _ B) as (k & -> & K & _). exists k. split; auto. split; auto.
  pose proof (loop_R mult mins 10000 s fuel ps nob k (fresh nob k) [] 0 (fresh_ready nob k ps)) as L.
  change (R mult mins 10000 [] 0) with (new_repeater mult mins) in L.
  destruct (hloop mult mins 10000 s fuel (executed nob k ps) 0 []) as [[sw' h']|].
  - destruct L as (b' & L). rewrite L in H. injection H as <-. reflexivity.
  - congruence.
Qed.

Theorem C75_experiment_in_batches : forall mult mins nob s gs K, own_history_only s -> (0 < nob)%Z ->
  NoDup (map fst gs) -> Forall (fun g => snd g <> []) gs -> In K (map fst gs) ->
  forall fuel0 whole, run_experiment fuel0 mult mins 1 None s (groups_problems gs) = Some whole ->
  exists k, (0 <= k < nob)%Z /\
    forall fuel k' e, run_experiment fuel mult mins nob (Some k') s (groups_problems gs) = Some e ->
      of_key K (e_history e) = if (k' =? k)%Z || (nob =? 1)%Z then of_key K (e_history whole) else [].
Proof.
  intros mult mins nob s gs K Hs Hn Hnd Hne HK fuel0 whole H0.
  apply In_nth_error in HK. destruct HK as (g & Hg).
  exists (Z.of_nat g mod nob)%Z. split; [apply Z.mod_pos_bound; auto|].
  intros fuel k' e H.
  destruct (run_hloop _ _ _ _ _ _ _ _ H0) as (k0 & _ & Hk0 & L0). assert (k0 = 0)%Z by lia. subst k0.
  destruct (run_hloop _ _ _ _ _ _ _ _ H) as (k & B & Hk & L).
  assert (A : forall n c, with_key K (executed n c (groups_problems gs)) =
              if (Z.of_nat g mod n =? c)%Z then with_key K (groups_problems gs) else []).
  { intros n c. apply chosen_key. { apply answers_length. }
    intros i p Hp E. apply (group_answer n c gs i p g); auto. rewrite Hg, E. reflexivity. }
  pose proof (A 1%Z 0%Z) as A0. rewrite Z.mod_1_r in A0. cbn [Z.eqb] in A0.
  assert (M : ((k' =? Z.of_nat g mod nob)%Z || (nob =? 1)%Z) = (Z.of_nat g mod nob =? k)%Z).
  { destruct (Z.eqb_spec nob 1) as [->|N1].
    - rewrite orb_true_r, Z.mod_1_r. symmetry. apply Z.eqb_eq. lia.
    - rewrite orb_false_r. destruct (C75_fresh _ _ _ B) as (c & E & _ & F). injection E as <-.
      specialize (F N1). injection F as ->. apply Z.eqb_sym. }
  rewrite M. destruct (Z.of_nat g mod nob =? k)%Z eqn:Q.
  - apply (same_data mult mins 10000 s Hs K _ _ _ _ _ _ _ _ eq_refl) with (3 := L0) (2 := L).
    rewrite A, Q, A0. reflexivity.
  - destruct (hloop_start mult mins 10000 s _ _ _ _ eq_refl L) as (_ & _ & I & _).
    destruct (of_key K (e_history e)) as [|x y] eqn:X; auto. exfalso.
    assert (J : In x (of_key K (e_history e))) by (rewrite X; left; auto).
    unfold of_key in J. apply filter_In in J. destruct J as [J1 J2].
    assert (J3 : In (fst x) (with_key K (executed nob k (groups_problems gs)))).
    { apply filter_In. split; auto. apply I. apply in_map. auto. }
    rewrite A, Q in J3. contradiction.
Qed.

(** Five problems: functions 1 and 2 in dimension 2 with instances 1 and 2, function 1 in dimension 3. *)
Definition ex_groups : list (key * list N) := [((1, 2), [1; 2]); ((2, 2), [1; 2]); ((1, 3), [1])]%N.
Definition ex_solver : solver := fun h p => (p_dimension p + N.of_nat (length (of_key (key_of p) h)), (p_function p =? 2))%N.
Lemma ex_solver_own : own_history_only ex_solver.
Proof. intros h h' p E. unfold ex_solver. rewrite E. reflexivity. Qed.

Example C75_example :
  answers (fresh 2 0) (groups_problems ex_groups) = [true; true; false; false; true] /\
  answers (fresh 2 1) (groups_problems ex_groups) = [false; false; true; true; false] /\
  answers (fresh 2 1) (copies 2 (groups_problems ex_groups)) =
    [false; false; true; true; false; false; false; true; true; false] /\
  groups_in_batch 2 0 3 = 2 /\ groups_in_batch 2 1 3 = 1 /\
  NoDup (map fst ex_groups) /\ Forall (fun g => snd g <> []) ex_groups.
Proof.
  repeat (split; [vm_compute; reflexivity|]). split.
  - cbn. repeat constructor; cbn; intuition congruence.
  - repeat constructor; discriminate.
Qed.
Example C75_experiment_example :
  match run_experiment 20 2 3 1 None ex_solver (groups_problems ex_groups),
        run_experiment 20 2 3 2 (Some 1%Z) ex_solver (groups_problems ex_groups) with
  | Some whole, Some part =>
      map (fun e => (p_function (fst e), p_dimension (fst e), p_instance (fst e), fst (snd e))) (e_history whole) =
        [(1, 2, 1, 2); (1, 2, 2, 3); (2, 2, 1, 2); (2, 2, 2, 3); (1, 3, 1, 3);
         (1, 2, 1, 4); (1, 2, 2, 5); (2, 2, 1, 4); (2, 2, 2, 5); (1, 3, 1, 4)]%N /\
      map (fun e => (p_function (fst e), p_dimension (fst e), p_instance (fst e), fst (snd e))) (e_history part) =
        [(2, 2, 1, 2); (2, 2, 2, 3); (2, 2, 1, 4); (2, 2, 2, 5)]%N
  | _, _ => False
  end.
Proof. vm_compute. auto. Qed.

(** The schedulers must be asked about the same problems: a problem that only one of them is not asked about shifts the
    batches, here so that function 3 is executed by no batch. *)
Theorem C75_skipped_problem_refuted : exists ps skipped p,
  In p ps /\ p <> skipped /\
  ~ In p (executed 2 0 ps) /\
  ~ In p (executed 2 1 (filter (fun q => negb (pid_eqb q skipped)) ps)).
Proof.
  exists [mk_pid 1 2 1; mk_pid 2 2 1; mk_pid 3 2 1; mk_pid 4 2 1], (mk_pid 2 2 1), (mk_pid 4 2 1).
  split; [cbn; auto|]. split; [discriminate|].
  vm_compute. intuition congruence.
Qed.

(** ** C76 *)

(** The experiment loop ends, whatever the solver does. *)
Theorem C76_terminates : forall mult mins nob batch s ps, new_batcher nob batch <> None ->
  exists fuel e, run_experiment fuel mult mins nob batch s ps = Some e.
Proof.
  intros mult mins nob batch s ps H. unfold run_experiment. destruct (new_batcher nob batch) as [b|] eqn:B; [|congruence].
  destruct (C75_fresh _ _ _ B) as (k & -> & _).
  exists (S (N.to_nat 9999)).
  pose proof (loop_R mult mins 10000 s (S (N.to_nat 9999)) ps nob k (fresh nob k) [] 0 (fresh_ready nob k ps)) as L.
  change (R mult mins 10000 [] 0) with (new_repeater mult mins) in L.
  pose proof (hloop_total mult mins 10000 s (N.to_nat 9999) (executed nob k ps) 0 []) as T.
  destruct (hloop mult mins 10000 s (S (N.to_nat 9999)) (executed nob k ps) 0 []) as [[sw' h']|].
  - destruct L as (b' & L). eauto.
  - exfalso. apply T; auto. lia.
Qed.

(** The first trials are one for each problem of the batch, in their order; only such problems are tried; every result is
    what the solver returned; and each later trial was needed when it was run: at that time the function and dimension
    had neither enough successes nor exhausted the budget, or another instance of them had more trials. *)
Theorem C76_trials : forall fuel mult mins nob batch k s ps e, run_experiment fuel mult mins nob batch s ps = Some e ->
  new_batcher nob batch = Some (fresh nob k) ->
  let mine := executed nob k ps in
  firstn (length mine) (map fst (e_history e)) = mine /\
  incl (map fst (e_history e)) mine /\
  forall h1 p t h2, e_history e = h1 ++ (p, t) :: h2 ->
    t = s h1 p /\
    (length mine <= length h1 -> ~ (enough mult mins h1 (key_of p) /\
                                    forall q, key_of q = key_of p -> trials_of h1 q <= trials_of h1 p)).
Proof.
  intros fuel mult mins nob batch k s ps e H B mine.
  destruct (run_hloop _ _ _ _ _ _ _ _ H) as (k' & B' & _ & L). rewrite B in B'. injection B' as <-. fold mine in L.
  destruct (hloop_start mult mins 10000 s _ _ _ _ eq_refl L) as (_ & A & I & (c & P) & _).
  split. { rewrite P, firstn_app, Nat.sub_diag, firstn_all. cbn. apply app_nil_r. }
  split; auto. intros h1 p t h2 E. destruct (A h1 p t h2 E) as [T F]. split; auto.
  intros Len [X Y]. apply (F Len). split; auto.
  apply (prefix_trials mine).
  - rewrite E, map_app in P. exists (skipn (length mine) (map fst h1)).
    rewrite <- (firstn_skipn (length mine) (map fst h1)) at 1. f_equal.
    assert (Q : firstn (length mine) (map fst h1 ++ map fst ((p, t) :: h2)) = mine).
    { rewrite P, firstn_app, Nat.sub_diag, firstn_all. cbn. apply app_nil_r. }
    rewrite firstn_app in Q. replace (length mine - length (map fst h1)) with 0 in Q by (rewrite map_length; lia).
    cbn [firstn] in Q. rewrite app_nil_r in Q. auto.
  - apply I. rewrite E, map_app. apply in_app_iff. right. left. reflexivity.
Qed.

(** When the loop ends before the limit of 9999 sweeps, every function and dimension that was tried has enough successes
    or has exhausted its budget, and all its instances were tried equally often. *)
Theorem C76_end : forall fuel mult mins nob batch s ps e, run_experiment fuel mult mins nob batch s ps = Some e ->
  sweeps (e_repeater e) = 9999%N \/
  forall p, 0 < trials_of (e_history e) p ->
    enough mult mins (e_history e) (key_of p) /\ balanced (e_history e) (key_of p).
Proof.
  intros fuel mult mins nob batch s ps e H.
  destruct (run_hloop _ _ _ _ _ _ _ _ H) as (k & B & _ & L).
  pose proof (hloop_bound mult mins 10000 s _ _ 0 _ _ _ ltac:(lia) L) as Bd.
  destruct (hloop_start mult mins 10000 s _ _ _ _ eq_refl L) as (_ & _ & _ & _ & [X|F]); [left; lia|right].
  intros p T. split; [apply (F p T)|].
  intros a b A C Ta Tb. destruct (F a Ta) as (_ & Fa & _). destruct (F b Tb) as (_ & Fb & _).
  apply Nat.le_antisymm; [apply Fb|apply Fa]; congruence.
Qed.

(** With multiplier zero (or less) and a suite in which the instances of a function and dimension are listed equally
    often, there is exactly one sweep. *)
Lemma trials_fst : forall h h' p, map fst h = map fst h' -> trials_of h p = trials_of h' p.
Proof.
  unfold trials_of. induction h as [|[a t] h IH]; intros [|[a' t'] h'] p E; try discriminate; auto.
  cbn in E. injection E as -> E. cbn [filter fst]. specialize (IH h' p E). destruct (pid_eqb a' p); cbn; lia.
Qed.

Theorem C76_multiplier_zero : forall fuel mult mins nob batch k s ps e, (mult <= 0)%Q ->
  run_experiment fuel mult mins nob batch s ps = Some e -> new_batcher nob batch = Some (fresh nob k) ->
  (forall p q, In p (executed nob k ps) -> In q (executed nob k ps) -> key_of p = key_of q ->
     listed (executed nob k ps) p = listed (executed nob k ps) q) ->
  map fst (e_history e) = executed nob k ps.
Proof.
  intros fuel mult mins nob batch k s ps e Hm H B Hb.
  destruct (run_hloop _ _ _ _ _ _ _ _ H) as (k' & B' & _ & L). rewrite B in B'. injection B' as <-.
  set (mine := executed nob k ps) in *.
  destruct fuel as [|fuel]; [discriminate|]. cbn [hloop] in L.
  destruct (done_R mult mins 10000 [] 0) as [_ D].
  destruct (fst (done (R mult mins 10000 [] 0))) eqn:F.
  { exfalso. destruct (proj1 D eq_refl) as [X|[[X _]|(X & _)]]; [lia|lia|congruence]. }
  clear D F. change (0 + 1)%N with 1%N in L. rewrite first_sweep in L.
  pose proof (all_once_fst s mine []) as A. cbn [map app] in A.
  set (h := all_once s mine []) in *.
  destruct fuel as [|fuel]; [discriminate|]. cbn [hloop] in L.
  destruct (done_R mult mins 10000 h 1) as [_ D].
  assert (T : forall p, trials_of h p = listed mine p).
  { intros p. unfold trials_of, listed. rewrite <- A. clear. induction h as [|a h IH]; auto. cbn.
    destruct (pid_eqb (fst a) p); cbn; auto. }
  assert (In_of : forall p, 0 < listed mine p -> In p mine).
  { intros p P. unfold listed in P. destruct (filter _ mine) as [|x y] eqn:F; [cbn in P; lia|].
    assert (J : In x (filter (fun q => pid_eqb q p) mine)) by (rewrite F; left; auto). apply filter_In in J.
    destruct J as [J1 J2]. unfold pid_eqb in J2. apply andb_true_iff in J2. destruct J2 as [J2 J3].
    apply key_eqb_true in J2. apply N.eqb_eq in J3. replace p with x; auto. destruct x, p. unfold key_of in J2. cbn in *. congruence. }
  rewrite (proj2 D) in L.
  - injection L as _ L. rewrite <- L. exact A.
  - destruct h as [|x y] eqn:E; [right; left; split; auto; lia|]. rewrite <- E in *. right; right.
    split; [rewrite E; discriminate|]. split; [lia|]. intros p P. split; auto. split.
    + intros q Q. rewrite !T. rewrite T in P. destruct (Nat.eq_dec (listed mine q) 0) as [Z|Z]; [lia|].
      rewrite (Hb q p); auto. apply In_of. lia.
    + right. 
      apply Qle_trans with (inject_Z 0).
      * assert (G : forall a b : Z, (0 <= a)%Z -> (0 <= b)%Z -> (inject_Z a * (inject_Z b * mult) <= 0)%Q).
        { intros a b Ha Hb'. assert (0 <= inject_Z a)%Q by (change 0%Q with (inject_Z 0); rewrite <- Zle_Qle; auto).
          assert (0 <= inject_Z b)%Q by (change 0%Q with (inject_Z 0); rewrite <- Zle_Qle; auto).
          assert (0 <= inject_Z a * inject_Z b)%Q by (apply Qmult_le_0_compat; auto).
          assert (inject_Z a * (inject_Z b * mult) == - ((inject_Z a * inject_Z b) * (- mult)))%Q by ring.
          assert (0 <= (inject_Z a * inject_Z b) * (- mult))%Q by (apply Qmult_le_0_compat; auto; lra). lra. }
        apply G; lia.
      * rewrite <- Zle_Qle. lia.
Qed.

(** A solver that needs one evaluation, more the more trials there were, and succeeds on function 2 only. *)
Example C76_example :
  match run_experiment 20 (5 # 2) 5 1 None ex_solver (groups_problems ex_groups) with
  | Some e =>
      map (fun x => (p_function (fst x), p_dimension (fst x), p_instance (fst x))) (e_history e) =
        [(1, 2, 1); (1, 2, 2); (2, 2, 1); (2, 2, 2); (1, 3, 1);
         (1, 2, 1); (1, 2, 2); (2, 2, 1); (2, 2, 2); (1, 3, 1); (1, 3, 1)]%N /\
      map (total_evaluations (e_history e)) [(1, 2); (2, 2); (1, 3)]%N = [14; 14; 12]%N /\
      map (total_successes (e_history e)) [(1, 2); (2, 2); (1, 3)]%N = [0; 4; 0]%N /\
      sweeps (e_repeater e) = 3%N
  | None => False
  end.
Proof. vm_compute. auto. Qed.
Example C76_zero_example :
  match run_experiment 20 0 11 1 None ex_solver (groups_problems ex_groups) with
  | Some e => map fst (e_history e) = groups_problems ex_groups /\ executed 1 0 (groups_problems ex_groups) = groups_problems ex_groups
  | None => False
  end.
Proof. vm_compute. auto. Qed.

(** An ExperimentRepeater(0) is documented to do exactly one sweep and no repetitions.  With an instance list in which
    instances are repeated unequally often it repeats problems. *)
Theorem C76_multiplier_zero_refuted : exists ps s e,
  run_experiment 9 0 11 1 None s ps = Some e /\ length (e_history e) <> length ps.
Proof.
  exists [mk_pid 1 2 1; mk_pid 1 2 2; mk_pid 1 2 1], (fun _ _ => (1%N, false)).
  eexists. split; [vm_compute; reflexivity|]. vm_compute. discriminate.
Qed.

(** Asking for the number of trials of an instance that was not tried changes the state (the documentation of the data
    says that missing entries are not created): the experiment that was finished before the question is not after it,
    and no sweep over the suite will finish it. *)
Theorem C76_query_refuted : exists (r : repeater) (k : key) (i : N),
  fst (done r) = true /\ fst (trials_of_instance r k i) = 0 /\ fst (done (snd (trials_of_instance r k i))) = false.
Proof.
  exists (set_sweeps (track (new_repeater 0 11) (mk_pid 1 2 1) (5%N, false)) 1), (1, 2)%N, 7%N.
  vm_compute. auto.
Qed.

(** The proposals after any trials: number 0, the initial solution of the problem, in the first of every
    nonzero_odds + 1 trials, and the number of trials so far otherwise; with nonzero_odds = 0 never the initial
    solution. *)
Lemma tracked_R : forall mult mins h, fold_left (fun r e => track r (fst e) (snd e)) h (new_repeater mult mins) = R mult mins 10000 h 0.
Proof.
  intros mult mins. induction h as [|[p t] h IH] using rev_ind; auto.
  rewrite fold_left_app, IH. cbn [fold_left fst snd]. apply track_R.
Qed.

Theorem C76_proposals : forall mult mins (h : history) k odds,
  let r := fold_left (fun r e => track r (fst e) (snd e)) h (new_repeater mult mins) in
  let t := length (of_key k h) in
  proposal_number r k odds = match odds with 0 => t + 1 | _ => if t mod (odds + 1) =? 0 then 0 else t end.
Proof.
  intros mult mins h k odds r t. unfold r. rewrite tracked_R. unfold proposal_number. rewrite data_R.
  assert (E : fold_right Nat.add 0 (trials (binst (of_key k h))) = t).
  { unfold t. generalize (of_key k h). clear. induction h as [|e h IH] using rev_ind; auto.
    unfold binst in *. rewrite fold_left_app, app_length. cbn [fold_left length]. rewrite <- IH.
    generalize (fold_left put h []). intros d. unfold put, trials. induction d as [|[j l] d IHd]; cbn; auto.
    destruct (j =? p_instance (fst e))%N; cbn [map fold_right snd]; [rewrite app_length; cbn; lia|].
    rewrite IHd. lia. }
  rewrite E. destruct odds; reflexivity.
Qed.
Example C76_proposals_example :
  let r := fold_left (fun r e => track r (fst e) (snd e))
             [(mk_pid 1 2 1, (5%N, true)); (mk_pid 2 2 1, (5%N, true)); (mk_pid 1 2 2, (6%N, true))] (new_repeater 3 11) in
  proposal_number r (1, 2)%N 14 = 2 /\ proposal_number r (1, 2)%N 1 = 0 /\ proposal_number r (1, 2)%N 0 = 3 /\
  proposal_number r (1, 3)%N 14 = 0.
Proof. vm_compute. auto. Qed.

Print Assumptions C75_arguments.
Print Assumptions C75_fresh.
Print Assumptions C75_exactly_one_batch.
Print Assumptions C75_consecutive.
Print Assumptions C75_further_sweeps.
Print Assumptions C75_groups.
Print Assumptions C75_even.
Print Assumptions C75_suite.
Print Assumptions C75_experiment_in_batches.
Print Assumptions C75_skipped_problem_refuted.
Print Assumptions C76_terminates.
Print Assumptions C76_trials.
Print Assumptions C76_end.
Print Assumptions C76_multiplier_zero.
Print Assumptions C76_multiplier_zero_refuted.
Print Assumptions C76_query_refuted.
Print Assumptions C76_proposals.
