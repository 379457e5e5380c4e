(** C42: the protocol of observers and observed problems. *)
From Coq Require Import String List Arith Ascii Bool Lia.
Import ListNotations.
From Verif Require Import CBase StrModel OptModel IdModel HeapModel HeapSpec HeapProofs.
From Verif Require PermProofs.
Local Notation length := List.length.

(** A missing problem or observer. *)
Theorem C42_none : forall h p o,
  coco_problem_add_observer h None o = Ok (None, h) /\
  coco_problem_add_observer h p None = Ok (p, h) /\
  coco_problem_remove_observer h p None = Ok (p, h).
Proof. intros h [a|] o; repeat split. Qed.

(** No history of permitted calls ever touches a freed object, whatever the order in which problems and observers are
    freed. *)
Theorem C42_safe : forall xs, disciplined [] xs -> run [] xs <> UB.
Proof. intros xs D. exact (proj1 (run_good xs [] good_nil D)). Qed.

(** An observer watches at most one problem, *)
Theorem C42_one : forall h b w1 w2, reached h -> watches h b w1 -> watches h b w2 -> w1 = w2.
Proof.
  intros h b w1 w2 R (p1 & l1 & A1 & B1 & C1 & D1) (p2 & l2 & A2 & B2 & C2 & D2).
  pose proof (reached_good h R) as G.
  destruct (g_back _ _ G _ _ _ _ A1 B1 C1 D1) as (o1 & O1 & _ & E1).
  destruct (g_back _ _ G _ _ _ _ A2 B2 C2 D2) as (o2 & O2 & _ & E2).
  pose proof (observer_fun _ _ _ _ O1 O2). congruence.
Qed.

(** and a second one is refused until the first is closed; nothing else is refused except a problem that is not
    bi-objective for a bi-objective observer and a name that gets too long. *)
Theorem C42_second : forall h a b p o, reached h -> outermost h a -> problem_exists h a p -> observer_exists h b o ->
  length (o_name o) + length (p_name p) + 2 <= 441 -> (o_kind o = KBiobj -> p_objectives p = 2) ->
  ((exists w, watches h b w) -> coco_problem_add_observer h (Some a) (Some b) = Err) /\
  ((forall w, ~ watches h b w) ->
     exists h', coco_problem_add_observer h (Some a) (Some b) = Ok (Some (length h), h') /\
       exists q l, problem_exists h' (length h) q /\ p_logger q = Some l /\ lg_inner l = a /\ lg_kind l = o_kind o /\
         p_name q = o_name o ++ str "(" ++ p_name p ++ str ")" /\
         (cyclic (o_kind o) = true -> watches h' b (length h))).
Proof.
  intros h a b p o R Out Hp Hb L Two. pose proof (reached_good h R) as G.
  destruct (add_cases h a b p o G Hp Hb ltac:(lia)) as [(E & WHY)|(E & F1 & F2 & F3)].
  - split; [intros _; exact E|]. intros NW. exfalso.
    destruct WHY as [(K1 & K2)|[(K1 & K2)|K]]; [auto| |lia].
    destruct (o_observed o) as [w|] eqn:Ow; [|congruence].
    destruct (g_forth _ _ G _ _ _ Hb Ow) as (_ & q & l & Q1 & Q2 & Q3 & Q4).
    apply (NW w). exists q, l. repeat split; auto. congruence.
  - assert (Lb : b < length h) by (eapply exists_lt; exact Hb).
    split.
    + intros (w & q & l & W1 & W2 & W3 & W4). exfalso.
      destruct (g_back _ _ G _ _ _ _ W1 W2 W3 W4) as (o1 & O1 & O2 & O3).
      pose proof (observer_fun _ _ _ _ Hb O1). subst o1.
      rewrite F2 in O3; [discriminate O3|congruence].
    + intros _. eexists. split; [exact E|].
      eexists. exists (new_logger (o_kind o) a b).
      split; [unfold problem_exists; rewrite added_look by assumption; now rewrite Nat.eqb_refl|].
      split; [reflexivity|]. split; [reflexivity|]. split; [reflexivity|]. split; [reflexivity|].
      intros C. eexists. exists (new_logger (o_kind o) a b).
      split; [unfold problem_exists; rewrite added_look by assumption; now rewrite Nat.eqb_refl|].
      split; [reflexivity|]. split; [exact C|]. cbn. unfold kept_observer. destruct (o_kind o); try discriminate C; reflexivity.
Qed.

(** Adding and removing an observer gives back the problem, and the memory is as before. *)
Theorem C42_add_remove : forall h a b w h1, reached h -> permitted h (Add (Some a) (Some b)) ->
  coco_problem_add_observer h (Some a) (Some b) = Ok (Some w, h1) ->
  coco_problem_remove_observer h1 (Some w) (Some b) = Ok (Some a, h ++ [None]).
Proof.
  intros h a b w h1 R (Out & o & p & Hb & Hp & L) E. pose proof (reached_good h R) as G.
  assert (Lb : b < length h) by (eapply exists_lt; exact Hb).
  destruct (add_cases h a b p o G Hp Hb L) as [(E' & _)|(E' & F1 & F2 & F3)]; [congruence|].
  assert (Ew : w = length h) by congruence. assert (Eh : h1 = added h a b p o (o_name o ++ open_paren :: p_name p ++ [")"%char])) by congruence.
  clear E E'. subst w h1.
  pose proof (fun x => added_look h a b p o (o_name o ++ open_paren :: p_name p ++ [")"%char]) x Lb) as LOOK.
  set (h1 := added h a b p o (o_name o ++ open_paren :: p_name p ++ [")"%char])) in *.
  assert (L1 : length h1 = S (length h)).
  { unfold h1, added. destruct (cyclic (o_kind o)); rewrite ?upd_length, app_length; simpl; lia. }
  assert (O1 : exists o1, observer_exists h1 b o1 /\ o_name o1 = o_name o /\ o_kind o1 = o_kind o /\
                 (cyclic (o_kind o) = true -> set_observed o1 None = o)).
  { unfold observer_exists. rewrite LOOK. destruct (Nat.eqb_spec b (length h)); [lia|]. rewrite Nat.eqb_refl. cbn [andb].
    destruct (cyclic (o_kind o)) eqn:C.
    - eexists. split; [reflexivity|]. cbn. repeat split; auto. intros _. unfold set_observed. cbn.
      specialize (F2 eq_refl). destruct o; cbn in *. congruence.
    - exists o. split; [exact Hb|]. repeat split; auto. discriminate. }
  destruct O1 as (o1 & O1 & O2 & O3 & O4).
  unfold coco_problem_remove_observer. rewrite (observer_at_ok _ _ _ O1). cbn [bind].
  assert (P1 : problem_at h1 (length h) = Ok {| p_name := o_name o ++ open_paren :: p_name p ++ [")"%char];
                 p_objectives := p_objectives p; p_logger := Some (new_logger (o_kind o) a b) |}).
  { apply problem_at_ok. unfold problem_exists. rewrite LOOK, Nat.eqb_refl. reflexivity. }
  rewrite P1. cbn [bind p_name p_logger].
  rewrite remove_prefix by exact (g_names _ _ G _ _ Hb). cbn [bind].
  rewrite O2. replace (streq (o_name o) (o_name o)) with true by (symmetry; now apply streq_spec). cbn [negb].
  unfold coco_problem_transformed_free_data. rewrite P1. cbn [bind p_logger lg_kind lg_observer lg_inner new_logger].
  destruct (cyclic (o_kind o)) eqn:C.
  - replace (kept_observer (o_kind o) b) with (Some b) by (unfold kept_observer; destruct (o_kind o); try discriminate C; reflexivity).
    rewrite (observer_at_ok _ _ _ O1). cbn [bind]. rewrite (O4 eq_refl).
    do 2 f_equal. apply PermProofs.nth_error_ext. intros x.
    rewrite nth_upd by (rewrite upd_length; lia). rewrite nth_upd by lia. rewrite LOOK, nth_snoc.
    destruct (Nat.eqb_spec x (length h)); [reflexivity|].
    destruct (Nat.eqb_spec x b) as [->|]; [symmetry; exact Hb|reflexivity].
  - cbn [bind]. do 2 f_equal. apply PermProofs.nth_error_ext. intros x.
    rewrite nth_upd by lia. rewrite LOOK, nth_snoc.
    destruct (Nat.eqb_spec x (length h)); [reflexivity|]. now rewrite andb_false_r.
Qed.

(** The same at any later time, whatever happened in between: the observer that was added last can be removed, by itself
    or by another one of the same name (deviation: only the names are compared); any other observer is refused. *)
Theorem C42_remove : forall h a b o w h1 h2 b2 o2, reached h -> permitted h (Add (Some a) (Some b)) ->
  observer_exists h b o ->
  coco_problem_add_observer h (Some a) (Some b) = Ok (Some w, h1) -> leads h1 h2 ->
  outermost h2 w -> observer_exists h2 b2 o2 ->
  (o_name o2 = o_name o ->
     exists h', coco_problem_remove_observer h2 (Some w) (Some b2) = Ok (Some a, h') /\
       nth_error h' w = Some None /\ (exists q, problem_exists h2 a q /\ problem_exists h' a q) /\
       outermost h' a) /\
  (o_name o2 <> o_name o -> coco_problem_remove_observer h2 (Some w) (Some b2) = Err).
Proof.
  intros h a b o w h1 h2 b2 o2 R P Hb E Le Out2 Hb2. pose proof (reached_good h R) as G.
  destruct (step_good h (Add (Some a) (Some b)) G P) as [_ ST]. destruct (ST _ _ E) as [G1 _].
  destruct P as (Out & o' & p & Hb' & Hp & L). pose proof (observer_fun _ _ _ _ Hb Hb'). subst o'. clear Hb'.
  assert (Lb : b < length h) by (eapply exists_lt; exact Hb).
  destruct (add_cases h a b p o G Hp Hb L) as [(E' & _)|(E' & F1 & F2 & F3)]; [congruence|].
  assert (Ew : w = length h) by congruence. assert (Eh : h1 = added h a b p o (o_name o ++ open_paren :: p_name p ++ [")"%char])) by congruence.
  clear E E' ST.
  destruct (leads_good h1 h2 G1 Le) as [G2 [_ Lt]].
  destruct Out2 as ((p2 & Hp2) & Out2). pose proof (conj (ex_intro _ p2 Hp2) Out2 : outermost h2 w) as OUT.
  assert (C1 : nth_error h1 w = Some (Some (CProblem {| p_name := o_name o ++ open_paren :: p_name p ++ [")"%char];
                 p_objectives := p_objectives p; p_logger := Some (new_logger (o_kind o) a b) |}))).
  { subst w h1. rewrite added_look by assumption. now rewrite Nat.eqb_refl. }
  specialize (Lt w _ _ C1 Hp2). cbn [cell_later p_name p_logger p_objectives] in Lt.
  destruct Lt as (N1 & _ & N2). destruct (p_logger p2) as [l2|] eqn:Hl2; cbn [same_logger] in N2; [|tauto].
  destruct N2 as [_ N2]. cbn in N2.
  destruct (remove_observed h2 w b2 p2 o2 l2 G2 Hp2 Hb2 OUT Hl2) as (n & q & Q1 & Q2 & Q3 & Q4).
  assert (n = o_name o).
  { pose proof (remove_prefix n (p_name q ++ [")"%char]) Q2) as K1.
    pose proof (remove_prefix (o_name o) (p_name p ++ [")"%char]) (g_names _ _ G _ _ Hb)) as K2.
    rewrite Q3 in N1. rewrite N1 in K1. congruence. }
  subst n. rewrite N2 in Q1, Q4.
  destruct Q4 as [(K1 & h' & K2 & K3 & K4)|(K1 & K2)].
  - split; [|congruence]. intros _. exists h'. split; [assumption|].
    destruct K4 as (_ & B & C & _).
    split; [now apply B|].
    assert (Na : w <> a).
    { intros ->. pose proof (g_lt _ _ G2 _ _ _ Hp2 Hl2). lia. }
    assert (Ha : problem_exists h' a q) by (apply (C a q Na); assumption).
    split; [exists q; auto|].
    split; [eauto|]. intros v m (r & V1 & V2 & V3).
    assert (Nv : w <> v) by (intros <-; specialize (B w eq_refl); unfold problem_exists in V1; congruence).
    apply (C v r Nv) in V1. apply Nv.
    eapply (g_inj _ _ G2 w v); eauto. congruence.
  - split; [congruence|]. intros _. assumption.
Qed.

(** Freeing a problem frees everything below it, and nothing else; the observers stay and watch what they watched,
    except for the freed problems. *)
Theorem C42_free_problem : forall h a, reached h -> outermost h a ->
  exists h', step h (FreeProblem a) = Ok (None, h') /\
    (forall x, inside h a x -> nth_error h' x = Some None) /\
    (forall x p, ~ inside h a x -> (problem_exists h x p <-> problem_exists h' x p)) /\
    (forall b o, observer_exists h b o -> exists o', observer_exists h' b o' /\ o_name o' = o_name o /\ o_kind o' = o_kind o) /\
    (forall b w, watches h' b w <-> watches h b w /\ ~ inside h a w).
Proof.
  intros h a R OUT. pose proof (reached_good h R) as G. destruct OUT as ((p & Hp) & Out).
  destruct (free_problem_good h a p G Hp (conj (ex_intro _ p Hp) Out)) as (h' & E & G' & (L & B & C & D & X & Y)).
  exists h'. cbn [step]. rewrite E. split; [reflexivity|]. split; [assumption|]. split; [assumption|].
  split.
  { intros b o H. destruct (X b o H) as (o' & P1 & P2 & P3 & _). eauto. }
  intros b w. split.
  - intros (q & l & W1 & W2 & W3).
    assert (N : ~ inside h a w) by (intros K; apply B in K; unfold problem_exists in W1; congruence).
    split; [|assumption]. exists q, l. split; [now apply (C w q N)|]. split; assumption.
  - intros ((q & l & W1 & W2 & W3) & N). exists q, l. split; [now apply (C w q N)|]. split; assumption.
Qed.

(** Freeing an observer frees it alone.  The problem it watches stays usable and nothing watches it from then on. *)
Theorem C42_free_observer : forall h b o, reached h -> observer_exists h b o ->
  exists h', step h (FreeObserver (Some b)) = Ok (None, h') /\ nth_error h' b = Some None /\
    (forall c q, c <> b -> (observer_exists h c q <-> observer_exists h' c q)) /\
    (forall x p, problem_exists h x p -> ~ watches h b x -> problem_exists h' x p) /\
    (forall x p, problem_exists h x p -> watches h b x -> forall c, ~ watches h' c x) /\
    (forall x, (exists p, problem_exists h x p) -> outermost h x -> outermost h' x).
Proof.
  intros h b o R Hb. pose proof (reached_good h R) as G.
  destruct (free_observer_good h b o G Hb) as (h' & E & G' & Lt & K1 & K2 & K3).
  exists h'. cbn [step]. rewrite E. split; [reflexivity|]. split; [assumption|]. split; [assumption|]. split; [assumption|].
  assert (KEEP : forall x p, problem_exists h x p -> exists p', problem_exists h' x p' /\ same_logger (p_logger p) (p_logger p')).
  { intros x p Hp. destruct Lt as [LL Lt].
    destruct (nth_error h' x) as [c'|] eqn:N.
    2:{ apply nth_error_None in N. apply exists_lt in Hp. lia. }
    specialize (Lt x _ _ Hp N). destruct c' as [[p'|o']|]; cbn [cell_later] in Lt; [|tauto|].
    - exists p'. split; [exact N|]. tauto.
    - exfalso. revert N. clear - E Hp Hb.
      unfold coco_observer_free in E. rewrite (observer_at_ok _ _ _ Hb) in E. cbn [bind] in E.
      apply bind_Ok in E. destruct E as (h1 & E1 & E2).
      assert (h' = upd h1 b None) by congruence. subst h'. clear E2.
      assert (Nx : x <> b) by (intros ->; eapply not_both; eauto).
      rewrite nth_error_upd_other by auto.
      destruct (cyclic (o_kind o)); [|replace h1 with h by congruence; unfold problem_exists in Hp; congruence].
      destruct (o_observed o) as [w|]; [|replace h1 with h by congruence; unfold problem_exists in Hp; congruence].
      apply bind_Ok in E1. destruct E1 as (q & Q1 & Q2). destruct (p_logger q) as [l|]; [|discriminate Q2].
      match type of Q2 with Ok ?u = _ => assert (h1 = u) by congruence end. subst h1. clear Q2.
      apply problem_at_inv in Q1. rewrite nth_upd by (eapply exists_lt; exact Q1).
      destruct (x =? w); [discriminate|]. unfold problem_exists in Hp. congruence. }
  split.
  - intros x p Hp W c (q & l & W1 & W2 & W3 & W4).
    destruct (g_back _ _ G' _ _ _ _ W1 W2 W3 W4) as (o2 & O1 & O2 & O3).
    assert (Nc : c <> b) by (intros ->; unfold observer_exists in O1; congruence).
    apply (K2 c o2 Nc) in O1.
    destruct (g_forth _ _ G _ _ _ O1 O3) as (C & r & m & R1 & R2 & R3 & R4).
    destruct W as (r2 & m2 & V1 & V2 & V3 & V4).
    pose proof (problem_fun _ _ _ _ R1 V1). subst r2. congruence.
  - intros x (p & Hp) (_ & Out). destruct (KEEP x p Hp) as (p' & P1 & _). split; [eauto|].
    intros w l (q & W1 & W2 & W3).
    assert (exists q0 l0, problem_exists h w q0 /\ p_logger q0 = Some l0 /\ lg_inner l0 = lg_inner l).
    { destruct Lt as [LL Lt]. destruct (nth_error h w) as [c|] eqn:N.
      - specialize (Lt w c _ N W1). destruct c as [[q0|]|]; cbn [cell_later] in Lt; [|tauto|tauto].
        destruct Lt as (_ & _ & Sm). rewrite W2 in Sm. destruct (p_logger q0) as [l0|] eqn:E0; cbn in Sm; [|tauto].
        exists q0, l0. split; [exact N|]. split; [exact E0|]. symmetry. tauto.
      - apply nth_error_None in N. apply exists_lt in W1.
        unfold coco_observer_free in E. rewrite (observer_at_ok _ _ _ Hb) in E. cbn [bind] in E.
        apply bind_Ok in E. destruct E as (h1 & E1 & E2).
        assert (h' = upd h1 b None) by congruence. subst h'. rewrite upd_length in W1.
        assert (length h1 = length h); [|lia].
        destruct (cyclic (o_kind o)); [|congruence]. destruct (o_observed o) as [v|]; [|congruence].
        apply bind_Ok in E1. destruct E1 as (r & Q1 & Q2). destruct (p_logger r); [|discriminate Q2].
        match type of Q2 with Ok ?u = _ => assert (h1 = u) by congruence end. subst h1. apply upd_length. }
    destruct H as (q0 & l0 & A1 & A2 & A3). apply (Out w l0). exists q0. split; [assumption|]. split; [assumption|]. congruence.
Qed.

(** ** What does not hold *)

Definition a_name : cstr := str "BBOB suite problem f1 instance 1 in 2D".
Definition steps (xs : list op) : res heap := do (_, h) <- run [] xs; Ok h.

(** Removing an observer from a problem that is not observed does not return the problem, it ends the program. *)
Theorem C42_unobserved_refuted : exists h a b,
  steps [NewProblem a_name 1; NewObserver (str "bbob") KBbob] = Ok h /\ outermost h a /\ (exists o, observer_exists h b o) /\
  coco_problem_remove_observer h (Some a) (Some b) = Err.
Proof.
  eexists. exists 0, 1. split; [reflexivity|]. split.
  - split; [eexists; reflexivity|]. intros w l (p & P1 & P2 & P3). destruct w as [|[|[|w]]]; try discriminate P1.
    injection P1 as <-. discriminate P2.
  - split; [eexists; reflexivity|reflexivity].
Qed.

(** An observer that is no longer active (freed) is not recognised as such: its flag is read from freed memory. *)
Theorem C42_inactive_refuted : exists h,
  steps [NewProblem a_name 1; NewObserver (str "bbob") KBbob; FreeObserver (Some 1)] = Ok h /\
  coco_problem_add_observer h (Some 0) (Some 1) = UB /\ coco_problem_remove_observer h (Some 0) (Some 1) = UB.
Proof. eexists. split; [reflexivity|]. split; reflexivity. Qed.

(** Another observer than the one that was added can be removed. *)
Theorem C42_other_refuted : exists h w, w = 3 /\
  steps [NewProblem a_name 1; NewObserver (str "bbob") KBbob; NewObserver (str "bbob") KBbob; Add (Some 0) (Some 1)] = Ok h /\
  watches h 1 w /\ ~ watches h 2 w /\
  exists h', coco_problem_remove_observer h (Some w) (Some 2) = Ok (Some 0, h').
Proof.
  eexists. exists 3. split; [reflexivity|]. split; [reflexivity|]. split.
  - eexists. eexists. split; [reflexivity|]. split; [reflexivity|]. split; reflexivity.
  - split.
    + intros (p & l & P1 & P2 & P3 & P4). injection P1 as <-. injection P2 as <-. discriminate P4.
    + eexists. reflexivity.
Qed.

(** A problem observed by a toy observer cannot be evaluated after the observer was freed (its log file is closed), nor one
    observed by a bbob observer if it has not been evaluated before. *)
Theorem C42_freed_early_refuted :
  steps [NewProblem a_name 1; NewObserver (str "toy") KToy; Add (Some 0) (Some 1); Evaluate 2; FreeObserver (Some 1); Evaluate 2] = UB /\
  steps [NewProblem a_name 1; NewObserver (str "bbob") KBbob; Add (Some 0) (Some 1); FreeObserver (Some 1); Evaluate 2] = UB /\
  (exists h, steps [NewProblem a_name 1; NewObserver (str "bbob") KBbob; Add (Some 0) (Some 1); Evaluate 2; FreeObserver (Some 1);
                    Evaluate 2; FreeProblem 2] = Ok h).
Proof. split; [reflexivity|]. split; [reflexivity|]. eexists. reflexivity. Qed.

(** ** A history that meets the hypotheses: two observers around a problem, freed in any order. *)

Definition history : list op :=
  [NewProblem a_name 1; NewObserver (str "bbob") KBbob; NewObserver (str "toy") KToy;
   Add (Some 0) (Some 1); Add (Some 3) (Some 2); Evaluate 4; Recommend 4; Restart (Some 2) (Some 4);
   Remove (Some 4) (Some 2); FreeObserver (Some 1); Evaluate 3; FreeProblem 3; FreeObserver (Some 2)].

Lemma outermost_check : forall h a,
  match nth_error h a with
  | Some (Some (CProblem _)) => negb (existsb (fun c =>
      match c with Some (CProblem p) => match p_logger p with Some l => lg_inner l =? a | None => false end | _ => false end) h)
  | _ => false
  end = true -> outermost h a.
Proof.
  intros h a K. destruct (nth_error h a) as [[[p|]|]|] eqn:E; try discriminate K. split; [exists p; exact E|].
  intros w l (q & P1 & P2 & P3). apply negb_true_iff in K.
  match type of K with ?e = _ => assert (T : e = true); [|congruence] end.
  apply existsb_exists. exists (Some (CProblem q)). split; [eapply nth_error_In; exact P1|].
  rewrite P2. now apply Nat.eqb_eq.
Qed.

Lemma all_wraps : forall h (P : logger -> Prop),
  Forall (fun c => match c with Some (CProblem p) => match p_logger p with Some l => P l | None => True end | _ => True end) h ->
  forall w b l, wraps h w b l -> P l.
Proof.
  intros h P F w b l (q & P1 & P2 & P3). rewrite Forall_forall in F. apply nth_error_In in P1. specialize (F _ P1). cbn in F.
  now rewrite P2 in F.
Qed.

Example C42_history : disciplined [] history /\ exists rs,
  run [] history = Ok (rs, [None; None; None; None; None]).
Proof.
  split; [|eexists; vm_compute; reflexivity].
  unfold history.
  assert (STEP : forall h x xs, permitted h x -> forall r h1, step h x = Ok (r, h1) -> disciplined h1 xs -> disciplined h (x :: xs)).
  { intros h x xs P r h1 E D. split; [exact P|]. intros r' h' E'. replace h' with h1 by congruence. exact D. }
  eapply STEP; [exact I|reflexivity|].
  eapply STEP; [intros K; cbn in K; repeat (destruct K as [K|K]; [discriminate K|]); exact K|reflexivity|].
  eapply STEP; [intros K; cbn in K; repeat (destruct K as [K|K]; [discriminate K|]); exact K|reflexivity|].
  eapply STEP; [split; [apply outermost_check; reflexivity|]; eexists; eexists; split; [reflexivity|]; split; [reflexivity|]; apply Nat.leb_le; reflexivity|reflexivity|].
  eapply STEP; [split; [apply outermost_check; reflexivity|]; eexists; eexists; split; [reflexivity|]; split; [reflexivity|]; apply Nat.leb_le; reflexivity|reflexivity|].
  eapply STEP; [split; [apply outermost_check; reflexivity|]; intros w b l _; apply all_wraps; repeat constructor; cbn; try discriminate; eexists; eexists; split; reflexivity|reflexivity|].
  eapply STEP; [split; [apply outermost_check; reflexivity|]; intros w b l _; apply all_wraps; repeat constructor; cbn; try discriminate; eexists; eexists; split; reflexivity|reflexivity|].
  eapply STEP; [eexists; split; [reflexivity|]; cbn; discriminate|reflexivity|].
  eapply STEP; [split; [apply outermost_check; reflexivity|]; eexists; eexists; split; [reflexivity|]; split; [reflexivity|]; cbn; discriminate|reflexivity|].
  eapply STEP; [eexists; reflexivity|reflexivity|].
  eapply STEP; [split; [apply outermost_check; reflexivity|]; intros w b l _; apply all_wraps; repeat constructor; cbn; discriminate|reflexivity|].
  eapply STEP; [apply outermost_check; reflexivity|reflexivity|].
  eapply STEP; [eexists; reflexivity|reflexivity|].
  exact I.
Qed.

Print Assumptions C42_none.
Print Assumptions C42_safe.
Print Assumptions C42_one.
Print Assumptions C42_second.
Print Assumptions C42_add_remove.
Print Assumptions C42_remove.
Print Assumptions C42_free_problem.
Print Assumptions C42_free_observer.
Print Assumptions C42_unobserved_refuted.
Print Assumptions C42_inactive_refuted.
Print Assumptions C42_other_refuted.
Print Assumptions C42_freed_early_refuted.
Print Assumptions C42_history.
