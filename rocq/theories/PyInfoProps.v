(** C86: counting consecutive instances of a function; C87: short reports during an experiment. *)
From Coq Require Import List Arith NArith ZArith Ascii String Bool Lia.
From Verif Require Import CBase StrModel IdModel IdSpec IdProofs IdProps PyArgModel PyArgSpec PyArgProofs PyInfoModel PyInfoSpec.
Import ListNotations.
Local Open Scope nat_scope.
Local Open Scope list_scope.

(** Numerals are unique. *)
Definition dig (c : ascii) : Prop := In c (str digits).
Lemma dig_value : forall c, dig c -> (N_of_ascii c - 48 < 10)%N /\ ascii_of_N (48 + (N_of_ascii c - 48)) = c.
Proof. intros c H. unfold dig in H. cbn in H. repeat (destruct H as [<-|H]; [split; reflexivity|]). destruct H. Qed.
Lemma number_one : forall c, number [c] = (N_of_ascii c - 48)%N.
Proof. intros c. unfold number. cbn [fold_left]. lia. Qed.
Lemma number_bound : forall s, Forall dig s -> (number s < 10 ^ N.of_nat (List.length s))%N.
Proof.
  intros s H. induction H as [|c s D F IH]; [reflexivity|]. change (c :: s) with ([c] ++ s). rewrite number_app, number_one, app_length.
  destruct (dig_value c D) as [B _]. cbn [List.length]. rewrite Nat2N.inj_add, N.pow_add_r. change (10 ^ N.of_nat 1)%N with 10%N.
  set (m := (10 ^ N.of_nat (List.length s))%N) in *. nia.
Qed.
Lemma number_inj : forall s t, Forall dig s -> Forall dig t -> List.length s = List.length t -> number s = number t -> s = t.
Proof.
  intros s t H. revert t. induction H as [|c s D F IH]; intros [|e t] G L E; try discriminate L; [reflexivity|].
  inversion G as [|? ? De G']; subst. change (c :: s) with ([c] ++ s) in E. change (e :: t) with ([e] ++ t) in E.
  rewrite !number_app, !number_one in E. injection L as L. rewrite <- L in E.
  pose proof (number_bound s F) as B1. pose proof (number_bound t G') as B2. rewrite <- L in B2.
  destruct (dig_value c D) as [_ C1]. destruct (dig_value e De) as [_ C2].
  set (m := (10 ^ N.of_nat (List.length s))%N) in *. set (a := (N_of_ascii c - 48)%N) in *. set (b := (N_of_ascii e - 48)%N) in *.
  assert (a = b) by nia. assert (number s = number t) by nia. rewrite (IH t G' L H0). f_equal. congruence.
Qed.
Lemma number_lower : forall c s, dig c -> c <> "0"%char -> (10 ^ N.of_nat (List.length s) <= number (c :: s))%N.
Proof.
  intros c s D N0. change (c :: s) with ([c] ++ s). rewrite number_app, number_one. set (m := (10 ^ N.of_nat (List.length s))%N).
  assert (1 <= N_of_ascii c - 48)%N.
  { unfold dig in D. cbn in D. repeat (destruct D as [<-|D]; [try contradiction; vm_compute; discriminate|]). destruct D. }
  nia.
Qed.
Lemma numeral_shorter : forall w n s t, numeral w n s -> numeral w n t -> ~ List.length s < List.length t.
Proof.
  intros w n s t (V & D & NE & L & _) (V' & D' & NE' & L' & Z) H.
  assert (0 < List.length s) by (destruct s; [contradiction|cbn; lia]).
  specialize (Z ltac:(lia) ltac:(lia)). destruct t as [|c t]; [contradiction|]. inversion D' as [|? ? Dc Dt]; subst.
  assert (c <> "0"%char) by (intros ->; apply Z; reflexivity).
  pose proof (number_lower c t Dc H1) as B. pose proof (number_bound s D) as C. cbn [List.length] in H.
  assert (10 ^ N.of_nat (List.length s) <= 10 ^ N.of_nat (List.length t))%N by (apply N.pow_le_mono_r; lia).
  lia.
Qed.
Lemma numeral_unique : forall w n s t, numeral w n s -> numeral w n t -> s = t.
Proof.
  intros w n s t H G. pose proof (numeral_shorter w n s t H G). pose proof (numeral_shorter w n t s G H).
  destruct H as (V & D & _), G as (V' & D' & _). apply number_inj; [exact D|exact D'|lia|congruence].
Qed.
Lemma numeral_value : forall w n w' n' s, numeral w n s -> numeral w' n' s -> n = n'.
Proof. intros w n w' n' s (V & _) (V' & _). congruence. Qed.

(** The pieces of an id *)
Lemma split_both : forall sep a b, split sep (a ++ sep :: b) = split sep a ++ split sep b.
Proof.
  intros sep a b. induction a as [|c a IH]; cbn [app split]; [rewrite Ascii.eqb_refl; reflexivity|].
  rewrite IH. destruct (Ascii.eqb c sep); [reflexivity|]. destruct (split sep a) eqn:E; [|reflexivity].
  contradiction (split_nonempty sep a).
Qed.
Lemma digits_no_bar : forall t, Forall dig t -> ~ In "_"%char t.
Proof. intros t F I. rewrite Forall_forall in F. specialize (F _ I). unfold dig in F. cbn in F. repeat (destruct F as [F|F]; [discriminate F|]). exact F. Qed.
Lemma key_id : forall name wf wi wd f i d id, id_text name wf wi wd f i d id ->
  exists tf td, numeral wf f tf /\ numeral wd d td /\ key id = key name ++ ["f"%char :: tf; "d"%char :: td].
Proof.
  intros name wf wi wd f i d id (tf & ti & td & Nf & Ni & Nd & ->). exists tf, td. split; [exact Nf|]. split; [exact Nd|].
  unfold key. change (str "_f") with ("_"%char :: ["f"%char]). change (str "_i") with ("_"%char :: ["i"%char]). change (str "_d") with ("_"%char :: ["d"%char]).
  cbn [app]. rewrite split_both.
  change ("f"%char :: tf ++ "_"%char :: "i"%char :: ti ++ "_"%char :: "d"%char :: td) with (("f"%char :: tf) ++ "_"%char :: ("i"%char :: ti) ++ "_"%char :: ("d"%char :: td)).
  assert (B : forall c t, c <> "_"%char -> Forall dig t -> ~ In "_"%char (c :: t)).
  { intros c t Hc Ft [I|I]; [apply Hc; exact I|exact (digits_no_bar t Ft I)]. }
  destruct Nf as (_ & Df & _), Ni as (_ & Di & _), Nd as (_ & Dd & _).
  rewrite split_app by (apply B; [discriminate|exact Df]). rewrite split_app by (apply B; [discriminate|exact Di]).
  rewrite (split_one "_" ("d"%char :: td)) by (apply B; [discriminate|exact Dd]). rewrite filter_app. reflexivity.
Qed.
Lemma key_eq_spec : forall a b, key_eq a b = true <-> a = b.
Proof.
  intros a. induction a as [|x a IH]; intros [|y b]; cbn [key_eq]; try (split; [discriminate|discriminate]); [split; reflexivity|].
  rewrite andb_true_iff, IH, streq_spec. split; [intros [-> ->]; reflexivity|intros E; injection E; auto].
Qed.
Lemma suite_key : forall s p q id id', proper p -> proper q ->
  suite_problem_id s (fn p) (inst p) (dim p) = Ok id -> suite_problem_id s (fn q) (inst q) (dim q) = Ok id' ->
  (key id = key id' <-> alike p q).
Proof.
  intros s p q id id' (P1 & P2 & P3) (Q1 & Q2 & Q3) E E'.
  destruct (C41_suite_ids s (fn p) (inst p) (dim p) P1 P2 (proj2 P3)) as (name & wf & wi & wd & id1 & R & E1 & T & _).
  destruct (C41_suite_ids s (fn q) (inst q) (dim q) Q1 Q2 (proj2 Q3)) as (name' & wf' & wi' & wd' & id1' & R' & E1' & T' & _).
  rewrite R in R'. injection R' as <- <- <- <-. rewrite E in E1. injection E1 as <-. rewrite E' in E1'. injection E1' as <-.
  apply key_id in T as (tf & td & Nf & Nd & K). apply key_id in T' as (tf' & td' & Nf' & Nd' & K'). rewrite K, K'. split.
  - intros Q. apply app_inv_head in Q. injection Q as <- <-. split; eapply numeral_value; eassumption.
  - intros [F D]. rewrite <- F in Nf'. rewrite <- D in Nd'. rewrite (numeral_unique _ _ _ _ Nf' Nf), (numeral_unique _ _ _ _ Nd' Nd). reflexivity.
Qed.

(** The counter *)
Definition counted (former : list cstr) (s : same) : Prop :=
  match former with
  | [] => count s = 0
  | _ => exists block rest, former = block ++ rest /\ List.length block = count s /\ 0 < count s /\ Forall (fun id => key id = PyInfoModel.last s) block /\
           match rest with [] => True | id :: _ => key id <> PyInfoModel.last s end
  end.
Definition before_key (former : list cstr) (id : cstr) (n : nat) : Prop :=
  exists block rest, former = block ++ rest /\ List.length block = n /\ Forall (fun i => key i = key id) block /\
    match rest with [] => True | i :: _ => key i <> key id end.
Lemma same_step : forall former s id, counted former s -> let '(n, s') := same_call s id in before_key former id n /\ counted (id :: former) s'.
Proof.
  intros former s id H. unfold same_call. cbv zeta. destruct former as [|x former].
  - cbn [counted] in H. rewrite H. cbn [Nat.eqb orb]. split; [exists [], []; repeat split; constructor|].
    exists [id], []. split; [reflexivity|]. split; [reflexivity|]. split; [cbn; lia|]. split; [constructor; [reflexivity|constructor]|exact Logic.I].
  - destruct H as (block & rest & E & L & P & F & R). destruct (Nat.eqb_spec (count s) 0); [lia|]. cbn [orb].
    destruct (key_eq (key id) (PyInfoModel.last s)) eqn:K; cbn [negb].
    + apply key_eq_spec in K. split.
      * exists block, rest. rewrite K. split; [exact E|]. split; [exact L|]. split; [exact F|exact R].
      * exists (id :: block), rest. cbn [app List.length count PyInfoModel.last]. rewrite E, L. split; [reflexivity|]. split; [reflexivity|]. split; [lia|].
        rewrite K. split; [constructor; [exact K|exact F]|exact R].
    + assert (K' : key id <> PyInfoModel.last s) by (intros Q; apply key_eq_spec in Q; congruence).
      assert (X : key x <> key id).
      { destruct block as [|y block]; [cbn in L; lia|]. injection E as -> _. inversion F; subst. congruence. }
      split.
      * exists [], (x :: former). split; [reflexivity|]. split; [reflexivity|]. split; [constructor|exact X].
      * exists [id], (x :: former). cbn [count PyInfoModel.last]. split; [reflexivity|]. split; [reflexivity|]. split; [lia|].
        split; [constructor; [reflexivity|constructor]|exact X].
Qed.
Lemma same_all : forall ids former s before id after n, counted former s -> ids = before ++ id :: after ->
  nth_error (same_calls s ids) (List.length before) = Some n -> before_key (rev before ++ former) id n.
Proof.
  intros ids former s before. revert ids former s. induction before as [|b before IH]; intros ids former s id after n H -> E; cbn [app same_calls] in E.
  - pose proof (same_step former s id H) as S. destruct (same_call s id) as [m s']. cbn in E. injection E as <-. apply S.
  - pose proof (same_step former s b H) as S. destruct (same_call s b) as [m s']. cbn [List.length nth_error] in E.
    specialize (IH _ (b :: former) s' id after n (proj2 S) eq_refl E). cbn [rev]. rewrite <- app_assoc. exact IH.
Qed.

(** The number returned for a problem is the number of problems directly before that have the same function and dimension. *)
Theorem C86_count : forall s ps ids before p after n, Forall proper ps -> ids_of s ps ids -> ps = before ++ p :: after ->
  nth_error (same_calls same_init ids) (List.length before) = Some n -> directly_before (rev before) p n.
Proof.
  intros s ps ids before p after n F H -> E. unfold ids_of in H.
  apply Forall2_app_inv_l in H as (ib & ia & Hb & Ha & ->). inversion Ha as [|? id ? ia' Hp Ha']; subst.
  assert (Lb : List.length before = List.length ib) by (clear -Hb; induction Hb; [reflexivity|cbn; congruence]).
  rewrite Lb in E. pose proof (same_all _ [] same_init ib id ia' n eq_refl eq_refl E) as (block & rest & Q & L & B & R).
  rewrite app_nil_r in Q. apply Forall_app in F as [Fb Fa]. inversion Fa as [|? ? Fp _]; subst.
  assert (Hr : Forall2 (fun p id => suite_problem_id s (fn p) (inst p) (dim p) = Ok id) (rev before) (block ++ rest)).
  { rewrite <- Q. clear -Hb. induction Hb; [constructor|]. cbn [rev]. apply Forall2_app; [assumption|constructor; [assumption|constructor]]. }
  apply Forall2_app_inv_r in Hr as (pb & pr & Hpb & Hpr & Er). rewrite Er.
  assert (Fr : Forall proper (pb ++ pr)) by (rewrite <- Er; apply Forall_rev; exact Fb). apply Forall_app in Fr as [Fpb Fpr].
  exists pb, pr. split; [reflexivity|]. split; [clear -Hpb; induction Hpb; [reflexivity|cbn; congruence]|]. split.
  - clear -Hpb B Fpb Fp Hp. induction Hpb as [|x y l l' Hxy H IH]; [constructor|]. inversion B; subst. inversion Fpb; subst.
    constructor; [|apply IH; assumption]. apply (suite_key s p x id y); [exact Fp|assumption|exact Hp|exact Hxy|congruence].
  - destruct Hpr as [|x y l l' Hxy H]; [exact Logic.I|]. inversion Fpr; subst. intros A. apply R. symmetry. apply (suite_key s p x id y); assumption.
Qed.
(** Deviation: "if seen(id) > k: continue" leaves k + 1 instances, one more than documented. *)
Theorem C86_one_more_refuted : exists ids k, ids = map str ["bbob_f001_i01_d02"; "bbob_f001_i02_d02"; "bbob_f001_i03_d02"; "bbob_f001_i04_d02"]%string /\
  List.length (filter (fun n => negb (k <? n)) (same_calls same_init ids)) = k + 1 /\ k < List.length ids - 1.
Proof. eexists _, 2. split; [reflexivity|]. vm_compute. split; [reflexivity|lia]. Qed.
Example C86_example : exists ids, ids_of Bbob [mk_numbers 1 1 2; mk_numbers 1 2 2; mk_numbers 2 1 2; mk_numbers 2 1 3; mk_numbers 2 5 3] ids /\
  same_calls same_init ids = [0; 1; 0; 0; 1].
Proof.
  exists (map str ["bbob_f001_i01_d02"; "bbob_f001_i02_d02"; "bbob_f002_i01_d02"; "bbob_f002_i01_d03"; "bbob_f002_i05_d03"]%string).
  split; [|reflexivity]. repeat (constructor; [reflexivity|]). constructor.
Qed.

(** The name of the function in an id *)
Lemma lower_digits : forall t, Forall dig t -> map lower_char t = t.
Proof.
  intros t F. induction F as [|c t D F IH]; [reflexivity|]. cbn [map]. rewrite IH. f_equal.
  unfold dig in D. cbn in D. repeat (destruct D as [<-|D]; [reflexivity|]). destruct D.
Qed.
Lemma suite_name : forall s p id, proper p -> suite_problem_id s (fn p) (inst p) (dim p) = Ok id ->
  exists name wf wd wi tf, nth_error suite_table (row s) = Some (name, (wf, wd, wi)) /\ numeral wf (fn p) tf /\ function_name id = Some ("f"%char :: tf).
Proof.
  intros s p id (P1 & P2 & P3) E. destruct (C41_suite_ids s (fn p) (inst p) (dim p) P1 P2 (proj2 P3)) as (name & wf & wi & wd & id1 & R & E1 & T & _).
  rewrite E in E1. injection E1 as <-. destruct T as (tf & ti & td & Nf & Ni & Nd & ->). exists name, wf, wi, wd, tf. split; [exact R|]. split; [exact Nf|].
  unfold function_name. rewrite !map_app, (lower_digits tf) by apply Nf.
  set (rest := map lower_char (str "_i") ++ _).
  assert (H : forall t, behind_f (map lower_char (str name) ++ map lower_char (str "_f") ++ t) = Some t).
  { intros t. destruct s; cbn in R; injection R as <- _ _ _; reflexivity. }
  rewrite H. unfold rest. change (map lower_char (str "_i")) with ("_"%char :: ["i"%char]). cbn [app].
  rewrite split_app by (apply digits_no_bar; apply Nf). reflexivity.
Qed.

(** What ShortInfo knows after the problems [former] (latest first, with evaluations and runs) *)
Definition entry := (numbers * (N * N))%type.
Definition runs_of (x : entry) : numbers * N := (fst x, snd (snd x)).
Definition knows (s : suite_id) (former : list entry) (i : short_info) : Prop :=
  match former with
  | [] => i = info_init
  | (q, _) :: _ => d_current i = dim q /\ (0 < evals_dimension i)%N /\
      (exists name wf wd wi tf, nth_error suite_table (row s) = Some (name, (wf, wd, wi)) /\ numeral wf (fn q) tf /\ f_current i = Some ("f"%char :: tf)) /\
      exists block others, map runs_of former = block ++ others /\ Forall (fun x => alike q (fst x)) block /\
        match others with [] => True | x :: _ => ~ alike q (fst x) end /\ runs_function i = sum (map snd block) /\ (0 < runs_function i)%N
  end.
Lemma alike_refl : forall p, alike p p.
Proof. split; reflexivity. Qed.
Lemma info_step : forall s former i p id evals runs, knows s former i -> Forall (fun x => proper (fst x)) former -> proper p ->
  suite_problem_id s (fn p) (inst p) (dim p) = Ok id -> (0 < evals)%N -> (0 < runs)%N ->
  let '(r, i') := info_call i id (dim p) in
  (exists t, r = Text t /\ announces (map runs_of former) p t) /\ knows s ((p, (evals, runs)) :: former) (add_evals i' evals runs).
Proof.
  intros s former i p id evals runs K Fp Pp E He Hr. destruct (suite_name s p id Pp E) as (name & wf & wd & wi & tf & R & Nf & Fn).
  unfold info_call. rewrite Fn. assert (Dp : (0 < dim p)%N) by apply Pp.
  destruct former as [|[q [e r]] former].
  - cbn [knows] in K. rewrite K. cbn [f_current d_current evals_dimension runs_function info_init andb orb negb].
    assert (N.eqb (dim p) 0 = false) as -> by (apply N.eqb_neq; lia). cbn [negb andb]. cbn [app].
    split; [eexists; split; [reflexivity|]; eapply first_problem; [reflexivity|exact Nf]|].
    cbn. split; [reflexivity|]. split; [lia|]. split; [exists name, wf, wd, wi, tf; auto|].
    exists [(p, runs)], []. split; [reflexivity|]. split; [constructor; [apply alike_refl|constructor]|]. split; [exact Logic.I|]. cbn. lia.
  - destruct K as (Kd & Ke & (name' & wf' & wd' & wi' & tq & R' & Nq & Kf) & block & others & EB & FB & OB & KR & KP).
    rewrite R in R'. injection R' as <- <- <- <-. rewrite Kf, Kd. cbn [andb].
    inversion Fp as [|? ? Pq Fp']; subst. cbn [fst] in Pq.
    assert (SF : streq ("f"%char :: tf) ("f"%char :: tq) = true <-> fn p = fn q).
    { rewrite streq_spec. split; [intros Q; injection Q as <-; eapply numeral_value; eassumption|].
      intros Q. rewrite <- Q in Nq. rewrite (numeral_unique _ _ _ _ Nf Nq). reflexivity. }
    assert (Z : N.eqb (dim q) 0 = false) by (apply N.eqb_neq; destruct Pq as (_ & _ & ?); lia).
    assert (ZR : N.eqb (runs_function i) 0 = false) by (apply N.eqb_neq; lia).
    assert (ZE : N.eqb (evals_dimension i) 0 = false) by (apply N.eqb_neq; lia).
    rewrite Z, ZR, ZE, !andb_false_r.
    assert (NEW : forall i', d_current i' = dim p -> f_current i' = Some ("f"%char :: tf) -> runs_function i' = 0%N -> ~ alike p q ->
      knows s ((p, (evals, runs)) :: (q, (e, r)) :: former) (add_evals i' evals runs)).
    { intros i' D1 F1 R1 A. cbn [knows add_evals d_current evals_dimension f_current runs_function]. split; [exact D1|]. split; [lia|].
      split; [exists name, wf, wd, wi, tf; auto|]. exists [(p, runs)], (map runs_of ((q, (e, r)) :: former)).
      split; [reflexivity|]. split; [constructor; [apply alike_refl|constructor]|]. split; [exact A|]. rewrite R1. cbn. lia. }
    destruct (N.eqb_spec (dim p) (dim q)) as [D|D]; cbn [negb].
    + destruct (streq ("f"%char :: tf) ("f"%char :: tq)) eqn:S; cbn [negb orb andb app f_current d_current runs_function evals_dimension].
      * assert (Q : fn p = fn q) by (apply SF; reflexivity). split.
        -- eexists. split; [reflexivity|]. eapply same_problem; [reflexivity|split; [exact Q|exact D]].
        -- cbn [knows add_evals d_current evals_dimension f_current runs_function]. split; [congruence|]. split; [lia|].
           split; [exists name, wf, wd, wi, tq; rewrite Q; auto|].
           exists ((p, runs) :: block), others. assert (AL : alike p q) by (split; assumption).
           split; [cbn [map app]; f_equal; exact EB|]. split.
           { constructor; [apply alike_refl|]. eapply Forall_impl; [|exact FB]. intros x [X1 X2]. split; congruence. }
           split; [destruct others as [|x others]; [exact Logic.I|]; intros [X1 X2]; apply OB; split; congruence|].
           cbn [map sum fold_right snd]. rewrite KR. change (fold_right N.add 0%N (map snd block)) with (sum (map snd block)). lia.
      * assert (Q : fn p <> fn q) by (intros Q; apply SF in Q; discriminate Q). cbn [f_current d_current runs_function evals_dimension]. split.
        -- eexists. split; [reflexivity|]. rewrite KR. eapply next_function; [reflexivity|exact D|exact Q|exact Nf|exact EB|exact FB|exact OB].
        -- apply NEW; [cbn; congruence|reflexivity|reflexivity|]. intros [X _]. contradiction.
    + rewrite orb_true_r. cbn [andb app f_current d_current runs_function evals_dimension]. split.
      * eexists. split; [reflexivity|]. rewrite KR. eapply next_dimension; [reflexivity|exact D|exact Nf|exact EB|exact FB|exact OB].
      * destruct (streq ("f"%char :: tf) ("f"%char :: tq)) eqn:S; cbn [negb].
        -- assert (Q : fn p = fn q) by (apply SF; reflexivity). apply NEW; [reflexivity| |reflexivity|intros [_ X]; contradiction].
           cbn [f_current]. f_equal. symmetry. apply streq_spec. exact S.
        -- apply NEW; [reflexivity|reflexivity|reflexivity|intros [_ X]; contradiction].
Qed.

(** All reports of an experiment, provided that the evaluations and at least one run of every problem are added. *)
Lemma info_all : forall s ps ids before p after former i, knows s former i -> Forall (fun x => proper (fst x)) (former ++ ps) ->
  Forall (fun x : entry => (0 < fst (snd x))%N /\ (0 < snd (snd x))%N) ps ->
  Forall2 (fun (x : entry) (y : cstr * N * (N * N)) => suite_problem_id s (fn (fst x)) (inst (fst x)) (dim (fst x)) = Ok (fst (fst y)) /\ snd (fst y) = dim (fst x) /\ snd y = snd x) ps ids ->
  ps = before ++ p :: after ->
  exists t, nth_error (info_loop i ids) (List.length before) = Some (Text t) /\ announces (map runs_of (rev before ++ former)) (fst p) t.
Proof.
  intros s ps ids before. revert ps ids. induction before as [|b before IH]; intros ps ids p after former i K F G H ->; cbn [app] in *.
  - inversion H as [|? [[id d] er] ? ids' (H1 & H2 & H3) H']; subst. cbn [fst snd] in H1, H2, H3. subst d er. destruct p as [p [e r]]. cbn [fst snd] in *.
    apply Forall_app in F as [F1 F2]. inversion F2 as [|? ? F3 F4]; subst. inversion G as [|? ? [G1 G2] G3]; subst. cbn [fst snd] in *.
    pose proof (info_step s former i p id e r K F1 F3 H1 G1 G2) as S. cbn [info_loop List.length nth_error].
    destruct (info_call i id (dim p)) as [rep i']. destruct S as [(t & -> & A) _]. exists t. split; [reflexivity|exact A].
  - inversion H as [|? [[id d] er] ? ids' (H1 & H2 & H3) H']; subst. cbn [fst snd] in H1, H2, H3. subst d er. destruct b as [b [e r]]. cbn [fst snd] in *.
    apply Forall_app in F as [F1 F2]. inversion F2 as [|? ? F3 F4]; subst. inversion G as [|? ? [G1 G2] G3]; subst. cbn [fst snd] in *.
    pose proof (info_step s former i b id e r K F1 F3 H1 G1 G2) as S. cbn [info_loop List.length nth_error].
    destruct (info_call i id (dim b)) as [rep i']. destruct S as [_ K'].
    destruct (IH (before ++ p :: after) ids' p after ((b, (e, r)) :: former) _ K') as (t & T1 & T2); [|exact G3|exact H'|reflexivity|].
    + cbn [app]. constructor; [exact F3|]. apply Forall_app. split; [exact F1|exact F4].
    + exists t. split; [exact T1|]. cbn [rev]. rewrite <- app_assoc. exact T2.
Qed.
Theorem C87_reports : forall s before p after ids,
  let ps := before ++ p :: after in
  Forall (fun x : numbers * (N * N) => proper (fst x) /\ (0 < fst (snd x))%N /\ (0 < snd (snd x))%N) ps ->
  ids_of s (map fst ps) ids ->
  exists t, nth_error (info_loop info_init (combine (combine ids (map (fun x => dim (fst x)) ps)) (map snd ps))) (List.length before) = Some (Text t) /\
    announces (map (fun x => (fst x, snd (snd x))) (rev before)) (fst p) t.
Proof.
  intros s before p after ids ps F H.
  destruct (info_all s ps (combine (combine ids (map (fun x => dim (fst x)) ps)) (map snd ps)) before p after [] info_init) as (t & T1 & T2).
  - reflexivity.
  - cbn [app]. eapply Forall_impl; [|exact F]. intros x X. apply X.
  - eapply Forall_impl; [|exact F]. intros x X. apply X.
  - clear F. unfold ids_of in H. remember ps as l. clear Heql. revert ids H. induction l as [|x l IH]; intros ids H; inversion H; subst; cbn [map combine]; constructor.
    + cbn [fst snd]. split; [assumption|split; reflexivity].
    + apply IH. assumption.
  - reflexivity.
  - exists t. split; [exact T1|]. rewrite app_nil_r in T2. exact T2.
Qed.
(** Deviations: without added runs the second function is an OverflowError, with runs but no evaluations the second dimension a ZeroDivisionError. *)
Theorem C87_no_runs_refuted : exists id1 id2 id3 e,
  info_loop info_init [(id1, 2%N, (e, 0%N)); (id2, 2%N, (e, 0%N))] = [Text [Running 2; Name (str "f001")]; OverflowError] /\
  info_loop info_init [(id1, 2%N, (0%N, 1%N)); (id3, 3%N, (0%N, 1%N))] = [Text [Running 2; Name (str "f001")]; ZeroDivisionError].
Proof.
  exists (str "bbob_f001_i01_d02"), (str "bbob_f002_i01_d02"), (str "bbob_f001_i01_d03"), 7%N. split; vm_compute; reflexivity.
Qed.
Example C87_example :
  info_loop info_init [(str "bbob_f001_i01_d02", 2, (10, 1)); (str "bbob_f001_i02_d02", 2, (10, 3)); (str "bbob_f002_i01_d02", 2, (5, 1)); (str "bbob_f002_i01_d03", 3, (5, 1))]%N =
  [Text [Running 2; Name (str "f001")]; Text []; Text [FunctionDone 4; Name (str "f002")];
   Text [FunctionDone 1; DimensionDone 2; Running 3; Name (str "f002")]].
Proof. vm_compute. reflexivity. Qed.

Print Assumptions C86_count.
Print Assumptions C86_one_more_refuted.
Print Assumptions C87_reports.
Print Assumptions C87_no_runs_refuted.
