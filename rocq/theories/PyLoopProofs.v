(** Proofs about the experiment loop. *)
From Coq Require Import List Arith NArith ZArith QArith Bool Lia.
From Verif Require Import PyExpModel PyExpSpec PyBatchProofs PyRepProofs.
Import ListNotations.
Local Open Scope nat_scope.

Definition chosen (l : list bool) (ps : list pid) : list pid := map fst (filter snd (combine ps l)).

Section Loop.
Variables (mult : Q) (mins mx : N) (s : solver).
Notation R := (R mult mins mx).
Notation finished := (finished mult mins).

(** A sweep and the loop over the problems of the batch, on the trials alone. *)
Definition mvisit (sw : N) (h : history) (p : pid) : history :=
  if done_problem (R h sw) p then h else h ++ [(p, s h p)].
Definition msweep (sw : N) (mine : list pid) (h : history) : history := fold_left (mvisit sw) mine h.
Fixpoint hloop (fuel : nat) (mine : list pid) (sw : N) (h : history) : option (N * history) :=
  match fuel with
  | O => None
  | S n => if fst (done (R h sw)) then Some (sw, h) else hloop n mine (sw + 1) (msweep (sw + 1) mine h)
  end.

Lemma visit_R : forall b h sw p, visit s (mk_experiment b (R h sw) h) p =
  let h' := if fst (is_in_batch b p) then mvisit sw h p else h in mk_experiment (step b p) (R h' sw) h'.
Proof.
  intros. unfold visit. cbn [e_batcher e_repeater e_history]. unfold step.
  destruct (is_in_batch b p) as [a b'] eqn:E. cbn [fst snd]. unfold mvisit.
  destruct a; cbn [negb orb]; [destruct (done_problem (R h sw) p); auto|]; auto.
  rewrite track_R. reflexivity.
Qed.

Lemma sweep_R : forall ps b h sw, sweep s ps (mk_experiment b (R h sw) h) =
  let h' := msweep sw (chosen (answers b ps) ps) h in mk_experiment (steps b ps) (R h' sw) h'.
Proof.
  unfold sweep. induction ps as [|p ps IH]; intros b h sw; auto.
  cbn [fold_left]. rewrite visit_R. cbn [answers]. unfold steps. cbn [fold_left]. rewrite IH. unfold chosen, steps, step.
  cbn [combine filter snd]. destruct (fst (is_in_batch b p)); reflexivity.
Qed.

Lemma loop_R : forall fuel ps nob k b h sw, ready nob k ps b ->
  match hloop fuel (executed nob k ps) sw h with
  | None => experiment_loop fuel s ps (mk_experiment b (R h sw) h) = None
  | Some (sw', h') => exists b', experiment_loop fuel s ps (mk_experiment b (R h sw) h) = Some (mk_experiment b' (R h' sw') h')
  end.
Proof.
  induction fuel as [|n IH]; intros ps nob k b h sw Hr; [reflexivity|]. cbn [hloop experiment_loop e_repeater e_batcher e_history].
  destruct (done_R mult mins mx h sw) as [E _].
  destruct (done (R h sw)) as [d r]. cbn [fst snd] in *. subst r. destruct d.
  - eauto.
  - rewrite sweep_R. rewrite (ready_answers _ _ _ _ Hr).
    change (chosen (answers (fresh nob k) ps) ps) with (executed nob k ps). cbv zeta.
    apply IH. apply ready_again; auto.
Qed.

(** ** Termination *)
Lemma hloop_total : forall n mine sw h, (mx <= sw + 1 + N.of_nat n)%N -> hloop (S n) mine sw h <> None.
Proof.
  induction n as [|n IH]; intros mine sw h H; cbn [hloop].
  - destruct (done_R mult mins mx h sw) as [_ [_ D]]. rewrite D; [discriminate|]. left. lia.
  - destruct (fst (done (R h sw))); [discriminate|]. apply IH. lia.
Qed.

Lemma hloop_bound : forall fuel mine sw h sw' h', (sw + 1 <= mx)%N ->
  hloop fuel mine sw h = Some (sw', h') -> (sw' + 1 <= mx)%N.
Proof.
  induction fuel as [|n IH]; intros mine sw h sw' h' H E; [discriminate|]. cbn [hloop] in E.
  destruct (done_R mult mins mx h sw) as [_ D].
  destruct (fst (done (R h sw))) eqn:F.
  - injection E as <- <-. auto.
  - refine (IH _ _ _ _ _ _ E). destruct (N.le_gt_cases (sw + 1 + 1) mx) as [L|L]; [exact L|].
    exfalso. assert (false = true) by (apply D; left; lia). discriminate.
Qed.

(** ** The first sweep *)
Fixpoint all_once (mine : list pid) (h : history) : history :=
  match mine with [] => h | p :: mine' => all_once mine' (h ++ [(p, s h p)]) end.

Lemma first_sweep : forall mine h, msweep 1 mine h = all_once mine h.
Proof.
  unfold msweep. induction mine as [|p mine IH]; intros h; [reflexivity|exact (IH _)].
Qed.
Lemma all_once_fst : forall mine h, map fst (all_once mine h) = map fst h ++ mine.
Proof.
  induction mine as [|p mine IH]; intros h; cbn; [rewrite app_nil_r; auto|].
  rewrite IH, map_app, <- app_assoc. reflexivity.
Qed.

(** ** What holds during the loop *)

(** Each trial after the first [n] has a reason, and every result is the solver's. *)
Definition reasoned (n : nat) (h : history) : Prop :=
  forall h1 p t h2, h = h1 ++ (p, t) :: h2 ->
    t = s h1 p /\ (n <= length h1 -> ~ finished h1 p).

Lemma reasoned_snoc : forall n h p, reasoned n h -> (n <= length h -> ~ finished h p) -> reasoned n (h ++ [(p, s h p)]).
Proof.
  intros n h p H F h1 q t h2 E. destruct (list_eq_dec) with (l := h2) (l' := @nil (pid * trial)) as [D|D].
  { decide equality; [decide equality; [apply bool_dec|apply N.eq_dec]|decide equality; apply N.eq_dec]. }
  - subst h2. apply app_inj_tail in E. destruct E as [<- E]. injection E as <- <-. auto.
  - destruct (exists_last D) as (h3 & e & ->). rewrite app_comm_cons, app_assoc in E. apply app_inj_tail in E.
    destruct E as [E _]. apply (H h1 q t h3). auto.
Qed.

Definition prefix {A} (a b : list A) : Prop := exists c, b = a ++ c.

Lemma msweep_props : forall sw n all mine h, ((sw <= 1)%N -> length h + length mine <= n) -> incl mine all -> 
  reasoned n h -> incl (map fst h) all ->
  reasoned n (msweep sw mine h) /\ incl (map fst (msweep sw mine h)) all /\ prefix h (msweep sw mine h).
Proof.
  intros sw n all. unfold msweep. induction mine as [|p mine IH]; intros h Hn Hi Hr Ha; cbn [fold_left].
  - split; [auto|split; [auto|]]. exists []. rewrite app_nil_r. reflexivity.
  - unfold mvisit at 2 4 6. destruct (done_problem (R h sw) p) eqn:E.
    + apply IH; auto. { cbn in Hn. lia. } intros x I; apply Hi; right; auto.
    + destruct (IH (h ++ [(p, s h p)])) as (A & B & C).
      * rewrite app_length. cbn in *. lia.
      * intros x I; apply Hi; right; auto.
      * apply reasoned_snoc; auto. intros L F.
        assert (done_problem (R h sw) p = true); [|congruence]. apply done_problem_R. split; auto.
        destruct (N.le_gt_cases sw 1) as [W|W]; auto. specialize (Hn W). cbn in Hn. lia.
      * rewrite map_app. intros x I. apply in_app_iff in I. destruct I as [I|[<-|[]]]; auto. apply Hi; left; auto.
      * split; [auto|split; [auto|]]. destruct C as (c & C). exists ((p, s h p) :: c). rewrite C, <- app_assoc. reflexivity.
Qed.

Lemma hloop_inv : forall fuel mine sw h sw' h', (1 <= sw)%N -> reasoned (length mine) h -> incl (map fst h) mine ->
  prefix mine (map fst h) -> hloop fuel mine sw h = Some (sw', h') ->
  (sw <= sw')%N /\ reasoned (length mine) h' /\ incl (map fst h') mine /\ prefix mine (map fst h') /\
  ((mx <= sw' + 1)%N \/ forall p, 0 < trials_of h' p -> finished h' p).
Proof.
  induction fuel as [|n IH]; intros mine sw h sw' h' Hs Hr Ha Hp E; [discriminate|]. cbn [hloop] in E.
  destruct (done_R mult mins mx h sw) as [_ D].
  destruct (fst (done (R h sw))) eqn:F.
  - injection E as <- <-. split; [lia|]. split; [auto|]. split; [auto|]. split; [auto|].
    destruct (proj1 D eq_refl) as [H|[[_ H]|(_ & _ & H)]]; auto. right. intros p T. subst h. cbn in T. lia.
  - destruct (msweep_props (sw + 1) (length mine) mine mine h) as (A & B & c & C); auto.
    { lia. } { intros x; auto. }
    apply IH in E; auto; [|lia|].
    + destruct E as (E1 & E2). split; [lia|auto].
    + destruct Hp as (c' & Hp). rewrite C, map_app, Hp. exists (c' ++ map fst c). rewrite app_assoc. reflexivity.
Qed.

Lemma all_once_reasoned : forall n mine h, length h + length mine <= n -> reasoned n h -> reasoned n (all_once mine h).
Proof.
  intros n. induction mine as [|p mine IH]; intros h L H; auto. cbn [all_once]. apply IH.
  - rewrite app_length. cbn in *. lia.
  - apply reasoned_snoc; auto. cbn in L. lia.
Qed.

Lemma hloop_start : forall fuel mine sw' h', (1 < mx)%N -> hloop fuel mine 0 [] = Some (sw', h') ->
  (1 <= sw')%N /\ reasoned (length mine) h' /\ incl (map fst h') mine /\ prefix mine (map fst h') /\
  ((mx <= sw' + 1)%N \/ forall p, 0 < trials_of h' p -> finished h' p).
Proof.
  intros [|n] mine sw' h' Hm E; [discriminate|]. cbn [hloop] in E.
  destruct (done_R mult mins mx [] 0) as [_ D].
  destruct (fst (done (R [] 0))) eqn:F.
  - exfalso. destruct (proj1 D eq_refl) as [H|[[H _]|(H & _)]]; [lia|lia|congruence].
  - change (0 + 1)%N with 1%N in E. rewrite first_sweep in E. apply hloop_inv in E; auto.
    + lia.
    + apply all_once_reasoned; auto. intros h1 p t h2 X. destruct h1; discriminate.
    + rewrite all_once_fst. intros x; auto.
    + rewrite all_once_fst. exists []. rewrite app_nil_r. reflexivity.
Qed.

(** ** Batches *)
Lemma of_key_of_key : forall k h, of_key k (of_key k h) = of_key k h.
Proof.
  intros. unfold of_key. rewrite filter_filter. apply filter_ext. intros e. destruct (key_eqb _ _); reflexivity.
Qed.
Lemma finished_of_key : forall h p, finished (of_key (key_of p) h) p <-> finished h p.
Proof.
  intros h p.
  assert (T : forall q, key_of q = key_of p -> trials_of (of_key (key_of p) h) q = trials_of h q).
  { intros q Q. unfold trials_of, of_key. rewrite filter_filter. f_equal. apply filter_ext. intros e.
    unfold pid_eqb. rewrite Q. destruct (key_eqb _ _); reflexivity. }
  unfold PyRepProofs.finished, enough, total_successes, total_evaluations, instances_of. rewrite of_key_of_key, (T p eq_refl).
  split; intros (A & B & C); repeat split; auto; intros q Q; specialize (B q Q); rewrite (T q Q) in *; auto.
Qed.
Lemma done_of_key : forall h sw p, done_problem (R (of_key (key_of p) h) sw) p = done_problem (R h sw) p.
Proof.
  intros h sw p. pose proof (done_problem_R mult mins mx h sw p) as A.
  pose proof (done_problem_R mult mins mx (of_key (key_of p) h) sw p) as B. rewrite finished_of_key in B.
  destruct (done_problem (R h sw) p), (done_problem (R (of_key (key_of p) h) sw) p); auto.
  - apply B, A; auto.
  - symmetry. apply A, B; auto.
Qed.

Definition with_key (k : key) (ps : list pid) : list pid := filter (fun p => key_eqb (key_of p) k) ps.

Lemma msweep_key : own_history_only s -> forall k sw mine h,
  of_key k (msweep sw mine h) = msweep sw (with_key k mine) (of_key k h).
Proof.
  intros Hs k sw. unfold msweep. induction mine as [|p mine IH]; intros h; auto.
  cbn [fold_left with_key filter]. rewrite IH. destruct (key_eqb (key_of p) k) eqn:E.
  - apply key_eqb_true in E. subst k. cbn [fold_left]. f_equal. unfold mvisit. rewrite done_of_key.
    destruct (done_problem (R h sw) p); auto. rewrite of_key_app. f_equal. cbn. rewrite key_eqb_refl. f_equal. f_equal.
    apply Hs. rewrite of_key_of_key. reflexivity.
  - f_equal. unfold mvisit. destruct (done_problem (R h sw) p); auto. rewrite of_key_app. cbn. rewrite E. apply app_nil_r.
Qed.

(** The trials with one key after each sweep. *)
Fixpoint rounds (mk : list pid) (n : nat) : history :=
  match n with O => [] | S m => msweep (N.of_nat (S m)) mk (rounds mk m) end.

Lemma hloop_rounds : own_history_only s -> forall k fuel mine sw h sw' h',
  of_key k h = rounds (with_key k mine) (N.to_nat sw) -> hloop fuel mine sw h = Some (sw', h') ->
  of_key k h' = rounds (with_key k mine) (N.to_nat sw').
Proof.
  intros Hs k. induction fuel as [|n IH]; intros mine sw h sw' h' H E; [discriminate|]. cbn [hloop] in E.
  destruct (fst (done (R h sw))).
  - injection E as <- <-. auto.
  - apply IH in E; auto. rewrite (msweep_key Hs), H. replace (N.to_nat (sw + 1)) with (S (N.to_nat sw)) by lia.
    cbn [rounds]. do 2 f_equal. lia.
Qed.

Lemma rounds_stable : forall mk n, 1 <= n -> (forall p, In p mk -> finished (rounds mk n) p) ->
  forall m, n <= m -> rounds mk m = rounds mk n.
Proof.
  intros mk n Hn H. induction m as [|m IH]; intros L.
  - replace n with 0 by lia. reflexivity.
  - destruct (Nat.eq_dec n (S m)) as [->|D]; auto. cbn [rounds]. rewrite IH by lia.
    assert (G : forall l, incl l mk -> msweep (N.of_nat (S m)) l (rounds mk n) = rounds mk n).
    { unfold msweep. induction l as [|p l IHl]; intros I; auto. cbn [fold_left].
      unfold mvisit at 2. assert (X : done_problem (R (rounds mk n) (N.of_nat (S m))) p = true).
      { apply done_problem_R. split; [lia|]. apply H. apply I. left; auto. }
      rewrite X. apply IHl. intros q J; apply I; right; auto. }
    apply G. intros x; auto.
Qed.

Lemma prefix_trials : forall (mine : list pid) h p, prefix mine (map fst h) -> In p mine -> 0 < trials_of h p.
Proof.
  intros mine h p (c & E) I. assert (J : In p (map fst h)) by (rewrite E; apply in_app_iff; auto).
  apply in_map_iff in J. destruct J as ((q & t) & <- & J). unfold trials_of.
  destruct (filter _ h) as [|x y] eqn:F; [|cbn; lia]. exfalso.
  assert (X : In (q, t) (filter (fun e => pid_eqb (fst e) (fst (q, t))) h)).
  { apply filter_In. split; auto. unfold pid_eqb. rewrite key_eqb_refl. apply N.eqb_refl. }
  rewrite F in X. contradiction.
Qed.

Lemma final_rounds : own_history_only s -> forall k fuel mine sw' h', (1 < mx)%N ->
  hloop fuel mine 0 [] = Some (sw', h') ->
  of_key k h' = rounds (with_key k mine) (N.to_nat sw') /\
  ((sw' + 1 = mx)%N \/ forall m, N.to_nat sw' <= m -> rounds (with_key k mine) m = rounds (with_key k mine) (N.to_nat sw')) /\
  (sw' + 1 <= mx)%N.
Proof.
  intros Hs k fuel mine sw' h' Hm E.
  assert (A : of_key k h' = rounds (with_key k mine) (N.to_nat sw')).
  { apply (hloop_rounds Hs k fuel mine 0 [] sw' h'); auto. }
  assert (B : (sw' + 1 <= mx)%N). { apply (hloop_bound fuel mine 0 [] sw' h'); auto. lia. }
  split; auto. split; auto.
  destruct (hloop_start fuel mine sw' h' Hm E) as (L & _ & I & P & [X|F]).
  - left. lia.
  - right. apply rounds_stable; [lia|]. intros p J. rewrite <- A. unfold with_key in J. apply filter_In in J.
    destruct J as [J K]. apply key_eqb_true in K. subst k. apply finished_of_key. apply F.
    apply (prefix_trials mine); auto.
Qed.

Lemma same_data : own_history_only s -> forall k f1 f2 mine1 mine2 sw1 h1 sw2 h2, (1 < mx)%N ->
  with_key k mine1 = with_key k mine2 ->
  hloop f1 mine1 0 [] = Some (sw1, h1) -> hloop f2 mine2 0 [] = Some (sw2, h2) -> of_key k h1 = of_key k h2.
Proof.
  intros Hs k f1 f2 mine1 mine2 sw1 h1 sw2 h2 Hm E E1 E2.
  destruct (final_rounds Hs k _ _ _ _ Hm E1) as (A1 & S1 & B1).
  destruct (final_rounds Hs k _ _ _ _ Hm E2) as (A2 & S2 & B2).
  rewrite A1, A2, <- E. rewrite <- E in S2.
  destruct (N.le_ge_cases sw1 sw2) as [L|L].
  - destruct S1 as [S1|S1]; [replace sw2 with sw1 by lia; auto|]. symmetry. apply S1. lia.
  - destruct S2 as [S2|S2]; [replace sw2 with sw1 by lia; auto|]. apply S2. lia.
Qed.
End Loop.
