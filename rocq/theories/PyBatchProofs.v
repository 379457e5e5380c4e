(** Proofs about the batch scheduler. *)
From Coq Require Import List Arith NArith ZArith QArith Bool Lia.
From Verif Require Import PyExpModel PyExpSpec.
Import ListNotations.
Local Open Scope nat_scope.

Lemma key_eqb_true : forall a b, key_eqb a b = true <-> a = b.
Proof.
  intros [a1 a2] [b1 b2]. unfold key_eqb. cbn. rewrite andb_true_iff, !N.eqb_eq. split.
  - intros [-> ->]; reflexivity.
  - intros E; injection E; auto.
Qed.
Lemma key_eqb_refl : forall a, key_eqb a a = true.
Proof. intros; apply key_eqb_true; reflexivity. Qed.
Lemma key_eqb_sym : forall a b, key_eqb a b = key_eqb b a.
Proof. intros [a1 a2] [b1 b2]. unfold key_eqb. cbn. rewrite (N.eqb_sym a1), (N.eqb_sym a2). reflexivity. Qed.
Lemma key_eqb_false : forall a b, key_eqb a b = false <-> a <> b.
Proof.
  intros a b. split.
  - intros E H. apply key_eqb_true in H. congruence.
  - intros H. destruct (key_eqb a b) eqn:E; auto. apply key_eqb_true in E. contradiction.
Qed.

(** The number that does not depend on the batch to execute. *)
Definition step (b : batcher) (p : pid) : batcher := snd (is_in_batch b p).
Arguments is_in_batch : simpl never.
Arguments step : simpl never.
Definition at_batch (b : batcher) (k : Z) : batcher :=
  mk_batcher (number_of_batches b) k (first_problem b) (current_problem b) (current_batch b).

Lemma step_nob : forall b p, number_of_batches (step b p) = number_of_batches b.
Proof. intros. unfold step, is_in_batch. cbn. destruct (is_key _ _); reflexivity. Qed.
Lemma step_k : forall b p, batch_to_execute (step b p) = batch_to_execute b.
Proof. intros. unfold step, is_in_batch. cbn. destruct (is_key (current_problem b) _); reflexivity. Qed.
Lemma step_at : forall b k p, step (at_batch b k) p = at_batch (step b p) k.
Proof. intros. unfold step, is_in_batch. cbn. destruct (is_key (current_problem b) _); reflexivity. Qed.
Lemma answer : forall b p, fst (is_in_batch b p) =
  (current_batch (step b p) mod number_of_batches b =? batch_to_execute b)%Z.
Proof.
  intros. rewrite <- (step_nob b p), <- (step_k b p). reflexivity.
Qed.

(** The batch numbers given to the problems. *)
Fixpoint numbers (b : batcher) (ps : list pid) : list Z :=
  match ps with [] => [] | p :: ps' => current_batch (step b p) :: numbers (step b p) ps' end.
Definition steps (b : batcher) (ps : list pid) : batcher := fold_left step ps b.

Lemma answers_numbers : forall ps b, answers b ps =
  map (fun n => (n mod number_of_batches b =? batch_to_execute b)%Z) (numbers b ps).
Proof.
  induction ps as [|p ps IH]; intros b; auto. cbn. rewrite answer.
  change (snd (is_in_batch b p)) with (step b p). rewrite IH, step_nob, step_k. reflexivity.
Qed.
Lemma numbers_at : forall ps b k, numbers (at_batch b k) ps = numbers b ps.
Proof. induction ps as [|p ps IH]; intros b k; auto. cbn. rewrite step_at, IH. reflexivity. Qed.
Lemma numbers_length : forall ps b, length (numbers b ps) = length ps.
Proof. induction ps; cbn; auto. Qed.
Lemma answers_length : forall ps b, length (answers b ps) = length ps.
Proof. intros. rewrite answers_numbers, map_length. apply numbers_length. Qed.

Lemma one_batch : forall nob ps i, (0 < nob)%Z -> i < length ps ->
  exists! k, (0 <= k < nob)%Z /\ nth_error (answers (fresh nob k) ps) i = Some true.
Proof.
  intros nob ps i Hn Hi.
  destruct (nth_error (numbers (fresh nob 0) ps) i) as [n|] eqn:E.
  2:{ apply nth_error_None in E. rewrite numbers_length in E. lia. }
  assert (A : forall k, nth_error (answers (fresh nob k) ps) i = Some (n mod nob =? k)%Z).
  { intros k. rewrite answers_numbers. cbn.
    change (fresh nob k) with (at_batch (fresh nob 0) k). rewrite numbers_at.
    rewrite (map_nth_error _ _ _ E). reflexivity. }
  exists (n mod nob)%Z. split.
  - split. { apply Z.mod_pos_bound; auto. } rewrite A, Z.eqb_refl. reflexivity.
  - intros k [_ H]. rewrite A in H. injection H as H. apply Z.eqb_eq in H. auto.
Qed.

Lemma step_same : forall b p q, key_of p = key_of q -> step (step b p) q = step b p.
Proof.
  intros b p q E. unfold step, is_in_batch. cbn. rewrite <- E.
  destruct (is_key (current_problem b) (key_of p)) eqn:C; cbn.
  - rewrite C. destruct (first_problem b); reflexivity.
  - rewrite key_eqb_refl. destruct (first_problem b); reflexivity.
Qed.

Lemma consecutive : forall ps b i p q, nth_error ps i = Some p -> nth_error ps (S i) = Some q -> key_of p = key_of q ->
  nth_error (answers b ps) i = nth_error (answers b ps) (S i).
Proof.
  induction ps as [|a ps IH]; intros b i p q Hp Hq E.
  - destruct i; discriminate.
  - destruct i as [|i].
    + cbn in Hp. injection Hp as ->. destruct ps as [|c ps]; [discriminate|]. cbn in Hq. injection Hq as ->.
      cbn [answers nth_error]. rewrite !answer.
      change (snd (is_in_batch b p)) with (step b p). rewrite (step_same b p q E), step_nob, step_k. reflexivity.
    + cbn [answers nth_error]. cbn [nth_error] in Hp, Hq. destruct ps as [|c ps]; [destruct i; discriminate|].
      apply (IH _ _ p q); auto.
Qed.

(** ** Several sweeps *)

(** In the first group the number is zero. *)
Definition inv (b : batcher) : Prop :=
  match first_problem b with
  | None => current_problem b = None
  | Some k => current_problem b = Some k -> current_batch b = 0%Z
  end.

Lemma is_key_true : forall o k, is_key o k = true <-> o = Some k.
Proof.
  intros [k'|] k; cbn.
  - rewrite key_eqb_true. split; [intros ->; reflexivity | intros E; injection E; auto].
  - split; discriminate.
Qed.

Lemma step_inv : forall b p, inv b -> inv (step b p).
Proof.
  intros b p H. unfold inv in *. unfold step, is_in_batch. cbn.
  destruct (first_problem b) as [k0|] eqn:F.
  - destruct (is_key (current_problem b) (key_of p)) eqn:C; cbn; auto.
    intros E. injection E as <-. rewrite key_eqb_refl. reflexivity.
  - rewrite H. cbn. intros _. rewrite key_eqb_refl. reflexivity.
Qed.
Lemma steps_inv : forall ps b, inv b -> inv (steps b ps).
Proof. induction ps as [|p ps IH]; intros b H; auto. apply IH, step_inv, H. Qed.

(** A scheduler that was asked about [p] first is in the same state after each question about a problem of this group. *)
Definition started (nob k : Z) (p : pid) : batcher := mk_batcher nob k (Some (key_of p)) (Some (key_of p)) 0.

Lemma step_started : forall b p, inv b -> first_problem b = None \/ first_problem b = Some (key_of p) ->
  step b p = started (number_of_batches b) (batch_to_execute b) p.
Proof.
  intros b p H [F|F]; unfold inv in H; rewrite F in H; unfold step, is_in_batch, started; cbn; rewrite F.
  - rewrite H. cbn. rewrite key_eqb_refl. reflexivity.
  - destruct (is_key (current_problem b) (key_of p)) eqn:C; cbn.
    + apply is_key_true in C. rewrite H, C; auto.
    + rewrite key_eqb_refl. reflexivity.
Qed.

Lemma step_first : forall b p k, first_problem b = Some k -> first_problem (step b p) = Some k.
Proof. intros b p k F. unfold step, is_in_batch. cbn. rewrite F. destruct (is_key _ _); reflexivity. Qed.
Lemma steps_first : forall ps b k, first_problem b = Some k -> first_problem (steps b ps) = Some k.
Proof. induction ps as [|p ps IH]; intros b k F; auto. apply IH, step_first, F. Qed.
Lemma steps_nob : forall ps b, number_of_batches (steps b ps) = number_of_batches b.
Proof. induction ps as [|p ps IH]; intros b; auto. unfold steps in *. cbn. rewrite IH. apply step_nob. Qed.
Lemma steps_k : forall ps b, batch_to_execute (steps b ps) = batch_to_execute b.
Proof. induction ps as [|p ps IH]; intros b; auto. unfold steps in *. cbn. rewrite IH. apply step_k. Qed.

(** The schedulers that may be met at the beginning of a sweep over [ps]. *)
Definition ready (nob k : Z) (ps : list pid) (b : batcher) : Prop :=
  number_of_batches b = nob /\ batch_to_execute b = k /\ inv b /\
  match ps with [] => True | p :: _ => first_problem b = None \/ first_problem b = Some (key_of p) end.

Lemma fresh_ready : forall nob k ps, ready nob k ps (fresh nob k).
Proof. intros. repeat split; auto. destruct ps; auto. Qed.

Lemma ready_answers : forall nob k ps b, ready nob k ps b -> answers b ps = answers (fresh nob k) ps.
Proof.
  intros nob k ps b (Hn & Hk & Hi & Hf). destruct ps as [|p ps]; auto. cbn [answers]. rewrite !answer.
  change (snd (is_in_batch b p)) with (step b p). change (snd (is_in_batch (fresh nob k) p)) with (step (fresh nob k) p).
  rewrite (step_started b p Hi Hf), Hn, Hk.
  destruct (fresh_ready nob k (p :: ps)) as (_ & _ & Hi' & Hf').
  rewrite (step_started _ p Hi' Hf'). reflexivity.
Qed.

Lemma ready_again : forall nob k ps b, ready nob k ps b -> ready nob k ps (steps b ps).
Proof.
  intros nob k ps b (Hn & Hk & Hi & Hf). repeat split.
  - rewrite steps_nob; auto.
  - rewrite steps_k; auto.
  - apply steps_inv; auto.
  - destruct ps as [|p ps]; auto. right. cbn. rewrite (step_started b p Hi Hf). apply steps_first. reflexivity.
Qed.

Lemma answers_app : forall ps qs b, answers b (ps ++ qs) = answers b ps ++ answers (steps b ps) qs.
Proof. induction ps as [|p ps IH]; intros qs b; auto. cbn. rewrite IH. reflexivity. Qed.

Lemma answers_sweeps : forall nob k ps n b, ready nob k ps b ->
  answers b (copies n ps) = copies n (answers (fresh nob k) ps).
Proof.
  unfold copies. induction n as [|n IH]; intros b H; auto. cbn. rewrite answers_app.
  rewrite (ready_answers _ _ _ _ H), (IH _ (ready_again _ _ _ _ H)). reflexivity.
Qed.

(** ** Groups *)

Lemma group_numbers : forall is b f d, is <> [] ->
  numbers b (map (mk_pid f d) is) = repeat (current_batch (step b (mk_pid f d 0))) (length is) /\
  steps b (map (mk_pid f d) is) = step b (mk_pid f d 0).
Proof.
  induction is as [|i is IH]; intros b f d H; [congruence|].
  assert (E0 : step b (mk_pid f d i) = step b (mk_pid f d 0)) by reflexivity.
  destruct is as [|j is].
  - cbn. rewrite E0. auto.
  - destruct (IH (step b (mk_pid f d 0)) f d) as [A B]; [discriminate|].
    cbn [map]. cbn [map] in A, B. unfold steps in *. cbn [numbers fold_left length repeat]. cbn [fold_left] in B.
    rewrite E0. rewrite (step_same b (mk_pid f d 0) (mk_pid f d 0) eq_refl) in A, B.
    split; auto. cbn [numbers] in A. cbn [length] in A. cbn [length repeat]. f_equal. exact A.
Qed.

Lemma numbers_app : forall ps qs b, numbers b (ps ++ qs) = numbers b ps ++ numbers (steps b ps) qs.
Proof. induction ps as [|p ps IH]; intros qs b; auto. cbn. rewrite IH. reflexivity. Qed.

(** The numbers of the groups. *)
Fixpoint count_groups (n : Z) (gs : list (key * list N)) : list Z :=
  match gs with [] => [] | g :: gs' => repeat n (length (snd g)) ++ count_groups (n + 1) gs' end.

Lemma groups_from : forall gs b k0 kc, first_problem b = Some k0 -> current_problem b = Some kc ->
  ~ In k0 (map fst gs) -> NoDup (kc :: map fst gs) -> Forall (fun g => snd g <> []) gs ->
  numbers b (groups_problems gs) = count_groups (current_batch b + 1) gs.
Proof.
  induction gs as [|[k is] gs IH]; intros b k0 kc F C Hk0 Hnd Hne; auto.
  cbn [map fst] in Hk0, Hnd. inversion Hne as [|? ? Hi Hne']; subst. cbn [snd] in Hi.
  unfold groups_problems. cbn [flat_map fst snd]. rewrite numbers_app.
  destruct k as [f d]. cbn [fst snd].
  destruct (group_numbers is b f d Hi) as [A B]. rewrite A, B.
  assert (S : step b (mk_pid f d 0) = mk_batcher (number_of_batches b) (batch_to_execute b) (Some k0) (Some (f, d))
                (current_batch b + 1)).
  { unfold step, is_in_batch. cbn [snd]. unfold key_of. cbn [p_function p_dimension]. rewrite F, C. cbn [is_key].
    assert (N1 : key_eqb kc (f, d) = false).
    { apply key_eqb_false. intros ->. inversion Hnd as [|? ? N _]; subst. apply N. left; reflexivity. }
    rewrite N1. assert (N2 : key_eqb k0 (f, d) = false).
    { apply key_eqb_false. intros ->. apply Hk0. left; reflexivity. }
    rewrite N2. reflexivity. }
  rewrite S. cbn [current_batch count_groups snd]. f_equal.
  erewrite IH; [reflexivity|reflexivity|reflexivity| | |auto].
  - intros I. apply Hk0. right; auto.
  - inversion Hnd; auto.
Qed.

Lemma groups_fresh : forall nob k gs, NoDup (map fst gs) -> Forall (fun g => snd g <> []) gs ->
  numbers (fresh nob k) (groups_problems gs) = count_groups 0 gs.
Proof.
  intros nob k [|[[f d] is] gs] Hnd Hne; auto.
  inversion Hne as [|? ? Hi Hne']; subst. cbn [snd] in Hi. cbn [map fst] in Hnd.
  unfold groups_problems. cbn [flat_map fst snd]. rewrite numbers_app.
  destruct (group_numbers is (fresh nob k) f d Hi) as [A B]. rewrite A, B.
  assert (S : step (fresh nob k) (mk_pid f d 0) = started nob k (mk_pid f d 0)).
  { apply step_started; auto. reflexivity. }
  rewrite S. cbn [started current_batch count_groups snd]. f_equal.
  change (flat_map _ gs) with (groups_problems gs).
  inversion Hnd; subst.
  exact (groups_from gs (started nob k (mk_pid f d 0)) (f, d) (f, d) eq_refl eq_refl H1 Hnd Hne').
Qed.

Lemma count_groups_nth : forall gs n i p, nth_error (groups_problems gs) i = Some p -> NoDup (map fst gs) ->
  exists g, nth_error (map fst gs) g = Some (key_of p) /\ nth_error (count_groups n gs) i = Some (n + Z.of_nat g)%Z.
Proof.
  induction gs as [|[k is] gs IH]; intros n i p Hp Hnd.
  - destruct i; discriminate.
  - unfold groups_problems in Hp. cbn [flat_map fst snd] in Hp. change (flat_map _ gs) with (groups_problems gs) in Hp.
    cbn [count_groups snd map fst]. cbn [map fst] in Hnd. inversion Hnd; subst.
    destruct (Nat.lt_ge_cases i (length is)) as [L|L].
    + rewrite nth_error_app1 in Hp by (rewrite map_length; auto).
      exists 0. split.
      * apply nth_error_In in Hp. apply in_map_iff in Hp. destruct Hp as (j & <- & _). destruct k; reflexivity.
      * rewrite nth_error_app1 by (rewrite repeat_length; auto). rewrite (nth_error_repeat n L). f_equal. lia.
    + rewrite nth_error_app2 in Hp by (rewrite map_length; auto). rewrite map_length in Hp.
      destruct (IH (n + 1)%Z _ p Hp) as (g & G1 & G2); auto. exists (S g). split; auto.
      rewrite nth_error_app2 by (rewrite repeat_length; auto). rewrite repeat_length, G2. f_equal. lia.
Qed.

Lemma group_answer : forall nob k gs i p g, NoDup (map fst gs) -> Forall (fun g => snd g <> []) gs ->
  nth_error (groups_problems gs) i = Some p -> nth_error (map fst gs) g = Some (key_of p) ->
  nth_error (answers (fresh nob k) (groups_problems gs)) i = Some (Z.of_nat g mod nob =? k)%Z.
Proof.
  intros nob k gs i p g Hnd Hne Hp Hg. rewrite answers_numbers, groups_fresh by auto.
  destruct (count_groups_nth gs 0 i p Hp Hnd) as (g' & G1 & G2).
  rewrite (map_nth_error _ _ _ G2). cbn.
  assert (g = g').
  { apply (NoDup_nth_error (map fst gs)); auto. { apply nth_error_Some. rewrite Hg; discriminate. } congruence. }
  subst. reflexivity.
Qed.
