(** C72: the files of the old bbob logger. *)
From Coq Require Import List Arith NArith ZArith Reals Bool Lia Lra Sorted Ascii String.
From Flocq Require Import Core BinarySingleNaN.
Import ListNotations.
From Verif Require Import CBase StrModel StrSpec OptModel DblModel DblSpec DblProofs TrigModel TrigSpec DigitProofs TrigProps ProbModel ProbSpec ProbProofs
  ProbProps BbobModel BbobSpec BbobProofs BbobFileProofs BbobRunProofs BbobTargetProofs BbobPartProofs BbobProps OldModel OldSpec OldProofs OldRunProofs.
Open Scope nat_scope.
Local Notation length := List.length.

(** ** What is on file after the problem is freed *)
Theorem C72_files : forall log10 pow10 (C : class) (I : data C -> Prop) f g opt o (p : problem C) acts ys r,
  observable I f g opt p -> plain C -> usual p -> (0 < number_target_triggers o)%N ->
  sized (number_of_variables (head p)) (calls_of acts) ->
  old_experiment log10 pow10 o p acts = Ok (ys, r) ->
  let xs := evaluated acts in
  let m := performance p f g opt in
  match r with
  | None => xs = []
  | Some (total, best_gap, dat_file, tdat_file) =>
    xs <> [] /\ total = N.of_nat (length xs) /\
    (exists b v, first_best m xs b v /\ best_gap = dsub v opt) /\
    (exists ks, increasing ks /\ In 1 ks /\ (forall k, In k ks -> improves m xs k) /\
       Forall2 (line_at o p f g opt acts) ks dat_file) /\
    (exists ks, increasing ks /\ In 1 ks /\ (forall k, In k ks -> k <= length xs) /\
       file_is (line_at o p f g opt acts) (line_end o p f g opt acts) (length xs) ks tdat_file)
  end.
Proof.
  intros log10 pow10 C I f g opt o p acts ys r [HC [Hi [[rest Hb] [Ho H0]]]] HP HU HN S H xs m.
  pose proof (old_files log10 pow10 I f g o p opt rest HC Hi Hb Ho H0 HP HU HN acts ys r S H) as K. cbv zeta in K.
  destruct r as [[[[total bg] d] t]|]; [|exact K].
  destruct K as [Ne [T [B [[ks [vs [bs [t' [K1 [K2 [_ [_ K3]]]]]]]] [E0 [us [cs [u [L1 [L2 [L3 U2]]]]]]]]]]].
  split; [exact Ne|]. split; [exact T|]. split; [exact B|]. split.
  - exists (1 :: pick ks bs). split.
    { constructor; [apply pick_increasing; exact K1|]. apply Forall_forall. intros k Hk. apply pick_in, K2 in Hk. lia. }
    split; [left; reflexivity|]. split; [|exact K3].
    intros k [<-|Hk]; [|apply pick_in, K2 in Hk; apply Hk].
    fold xs in Ne. unfold improves. destruct xs as [|x xs']; [contradiction|]. exists x. split; [lia|]. split; [reflexivity|]. lia.
  - exists (pick (seq 1 (length xs)) cs). split; [apply pick_increasing, seq_increasing|]. split.
    { assert (Lu : length us = length xs) by apply L2. fold xs in Ne. destruct us as [|v us]; [destruct xs; [contradiction|discriminate Lu]|].
      assert (Lx : 0 < length (evaluated acts)) by (fold xs; rewrite <- Lu; cbn; lia).
      destruct (evaluation_exists _ _ Lx) as [b1 [x1 X]].
      assert (Hv : (1 <= v)%N) by (rewrite (proj2 L2 1 b1 x1 v X eq_refl); lia).
      destruct (consult_first pow10 _ _ E0 (v :: us) cs _ v us L1 eq_refl Hv L3) as [cs' ->]. rewrite <- Lu. left. reflexivity. }
    split; [|exact U2]. intros k Hk. apply pick_in, in_seq in Hk. lia.
Qed.

(** Which improvements are in the .dat file: those that reach a new level of the logarithmic targets. *)
Theorem C72_targets : forall log10 pow10 o,
  log10_accurate log10 -> log10_monotone log10 ->
  (2 <= number_target_triggers o <= 1000000)%N ->
  fin (log_target_precision o) -> (bpow radix2 (-1000) <= val (log_target_precision o))%R ->
  exists level, log_levels (number_target_triggers o) (log_target_precision o) level /\
    forall (C : class) (I : data C -> Prop) f g opt (p : problem C) acts ys total best_gap dat_file tdat_file,
    observable I f g opt p -> plain C -> usual p -> sized (number_of_variables (head p)) (calls_of acts) ->
    let xs := evaluated acts in
    let m := performance p f g opt in
    (forall x, In x xs -> fin (dsub (m x) opt)) ->
    old_experiment log10 pow10 o p acts = Ok (ys, Some (total, best_gap, dat_file, tdat_file)) ->
    exists ks, increasing ks /\ Forall2 (line_at o p f g opt acts) ks dat_file /\
      forall k, In k ks <-> k = 1 \/
        (2 <= k /\ improves m xs k /\ new_at m opt xs (fun v => IZR (level v)) (IZR INT_MAX) k).
Proof.
  intros log10 pow10 o Ha Hm Hn Fp Hp.
  destruct (C23_log_targets log10 pow10 _ _ Ha Hm Hn Fp Hp) as (level & L1 & L2 & L3 & L4 & L5 & _ & _ & _ & LC).
  exists level. split; [split; [exact L1|]; split; [exact L2|]; split; [exact L3|]; split; [exact L4|exact L5]|].
  intros C I f g opt p acts ys total bg d t [HC [Hi [[rest Hb] [Ho H0]]]] HP HU S xs m Fin H.
  pose proof (old_files log10 pow10 I f g o p opt rest HC Hi Hb Ho H0 HP HU ltac:(lia) acts ys _ S H) as K. cbv zeta in K.
  destruct K as [Ne [_ [_ [[ks [vs [bs [t' [K1 [K2 [K3 [K4 K5]]]]]]]] _]]]].
  fold m xs in K2, K3, K5. exists (1 :: pick ks bs). split.
  { constructor; [apply pick_increasing; exact K1|]. apply Forall_forall. intros k H1. apply pick_in, K2 in H1. lia. }
  split; [exact K5|]. unfold T0, new_targets in K4. cbn [no_linear known_optima lin_target_precision number_target_triggers log_target_precision] in K4.
  replace ((0 <? number_target_triggers o)%N && true) with true in K4
    by (destruct (N.ltb_spec 0 (number_target_triggers o)); [reflexivity|lia]).
  destruct (consult_targets log10 pow10 vs _ _ _ _ K4) as [bl [bg' [tl [tg [Cl [Cg Cb]]]]]].
  assert (Fv : Forall fin vs).
  { clear - K3 Fin. unfold gaps_are in K3. induction K3 as [|k v ks vs [x [E ->]] K3 IH]; constructor; [|exact IH].
    apply Fin. eapply nth_error_In; exact E. }
  destruct (LC vs Fv) as [bg2 [tg2 [Cg2 Mg]]]. rewrite Cg in Cg2. assert (bg2 = bg') by congruence. subst bg2.
  pose proof (marks_new m opt xs _ _ ks vs bg' K1 K2 K3 Mg) as Ng.
  assert (Nl : forall i, nth_error bl i <> Some true).
  { clear - Cl. match type of Cl with consult _ ?t _ = _ => assert (T : li_precision t = B754_infinity false) by reflexivity; revert T Cl; generalize t end.
    revert bl. induction vs as [|v vs IH]; intros bl t0 T Cl i; cbn [consult] in Cl.
    - assert (bl = []) by congruence. subst bl. destruct i; discriminate.
    - rewrite (lin_never _ _ T) in Cl. cbn [bind] in Cl. apply bind_Ok in Cl as [[bs' t1] [E Cl]].
      assert (bl = false :: bs') by congruence. subst bl. destruct i as [|i]; [discriminate|]. cbn [nth_error]. exact (IH bs' t0 T ltac:(rewrite E; congruence) i). }
  intros k. cbn [In]. rewrite in_pick. split.
  - intros [<-|[i [E B]]]; [left; reflexivity|right]. apply Cb in B as [B|B]; [destruct (Nl i B)|].
    destruct (proj1 (Ng k) (ex_intro _ i (conj E B))) as [P [Q R]]. auto.
  - intros [->|[P [Q R]]]; [left; reflexivity|]; right.
    destruct (proj2 (Ng k) (conj P (conj Q R))) as [i [E B]]. exists i. split; [exact E|]. apply Cb. auto.
Qed.

(** The evaluation numbers in the .tdat file. *)
Theorem C72_tdat : forall log10 pow10 (C : class) (I : data C -> Prop) f g opt o (p : problem C) acts ys total best_gap dat_file tdat_file l,
  pow10_accurate pow10 -> base_evaluation_triggers o <> [] -> range_string (base_evaluation_triggers o) ->
  range_denotes (base_evaluation_triggers o) 1 0 l -> (1 <= length l < 1000)%nat -> within_decade l ->
  1 <= number_of_variables (head p) -> (forall b, In b l -> (N.of_nat (number_of_variables (head p)) * b < 2 ^ 64)%N) ->
  observable I f g opt p -> plain C -> usual p -> (0 < number_target_triggers o)%N ->
  sized (number_of_variables (head p)) (calls_of acts) ->
  counted_constraints (calls_of acts) = 0 -> (N.of_nat (length (evaluated acts)) < 10 ^ 11)%N ->
  old_experiment log10 pow10 o p acts = Ok (ys, Some (total, best_gap, dat_file, tdat_file)) ->
  exists ks, increasing ks /\
    (forall k, In k ks <-> 1 <= k <= length (evaluated acts) /\
       (power_number (N.of_nat k) \/ base_number (N.of_nat (number_of_variables (head p))) l (N.of_nat k))) /\
    file_is (line_at o p f g opt acts) (line_end o p f g opt acts) (length (evaluated acts)) ks tdat_file.
Proof.
  intros log10 pow10 C I f g opt o p acts ys total bg d0 t0 l Ha B1 B2 B3 B4 B5 B6 B7 [HC [Hi [[rest Hb] [Ho H0]]]] HP HU HN S Nc Small H.
  pose proof (old_files log10 pow10 I f g o p opt rest HC Hi Hb Ho H0 HP HU HN acts ys _ S H) as K. cbv zeta in K.
  destruct K as [Ne [_ [_ [_ [E0 [vs [bs [t [HE [Tv [Cs Fi]]]]]]]]]]].
  destruct (C25_evaluation_numbers pow10 _ l (N.of_nat (number_of_variables (head p))) Ha B1 B2 B3 B4 B5 ltac:(lia) B7) as [ev [Hev Con]].
  assert (ev = E0) by congruence. subst ev.
  destruct (Con (length (evaluated acts)) Small) as [bs' [ev' [Cs' [Lb Iff]]]].
  assert (Vs : vs = counts (length (evaluated acts))).
  { destruct Tv as [L1 T1]. apply nth_ext with (d := 0%N) (d' := 0%N).
    - unfold counts. rewrite map_length, seq_length. exact L1.
    - intros i Hi'. rewrite L1 in Hi'.
      assert (X : exists before x, evaluation_at acts (Datatypes.S i) before x).
      { clear - Hi'. revert i Hi'. induction acts as [|a acts' IH] using rev_ind; intros i Hi; [cbn in Hi; lia|].
        rewrite evaluated_app, app_length in Hi.
        destruct (Nat.lt_ge_cases i (length (evaluated acts'))) as [L|L].
        - destruct (IH i L) as [before [x E]]. exists before, x. apply evaluation_at_extend. exact E.
        - destruct (counts_eval a) eqn:Ca.
          + destruct a as [[z|z|z]|]; try discriminate Ca. cbn [counts_eval] in Ca. apply regularb_spec in Ca.
            rewrite (evaluated_eval z Ca) in Hi. cbn [List.length] in Hi. exists acts', z.
            replace i with (length (evaluated acts')) by lia. apply evaluation_at_last. exact Ca.
          + rewrite (evaluated_one a Ca) in Hi. cbn [List.length] in Hi. lia. }
      destruct X as [before [x X]]. pose proof X as [after [Ea [_ _]]].
      assert (Z : counted_constraints (calls_of before) = 0).
      { rewrite Ea, calls_of_app, counted_c_app in Nc. lia. }
      assert (Nv : nth_error vs i = Some (nth i vs 0%N)) by (apply nth_error_nth'; lia).
      rewrite (T1 (Datatypes.S i) before x (nth i vs 0%N) X); [|rewrite Nat.sub_succ, Nat.sub_0_r; exact Nv].
      unfold counts. change 0%N with (N.of_nat 0). rewrite map_nth. rewrite seq_nth by exact Hi'. rewrite Z. lia. }
  subst vs. rewrite Cs in Cs'. assert (bs' = bs) by congruence. subst bs'.
  exists (pick (seq 1 (length (evaluated acts))) bs). split; [apply pick_increasing, seq_increasing|]. split; [|exact Fi].
  intros k. rewrite in_pick. split.
  - intros [i [E B]]. assert (Hi' : i < length (evaluated acts)).
    { rewrite <- (seq_length (length (evaluated acts)) 1). apply nth_error_Some. congruence. }
    assert (k = Datatypes.S i).
    { apply (nth_error_nth _ _ 0) in E. rewrite seq_nth in E by exact Hi'. lia. }
    subst k. split; [lia|]. replace (Datatypes.S i) with (i + 1) by lia. apply (Iff i true B). reflexivity.
  - intros [Rg D]. exists (k - 1). split.
    + rewrite (nth_error_nth' _ 0) by (rewrite seq_length; lia). rewrite seq_nth by lia. f_equal. lia.
    + destruct (nth_error bs (k - 1)) as [b|] eqn:Eb.
      * f_equal. apply (Iff (k - 1) b Eb). replace (k - 1 + 1) with k by lia. exact D.
      * apply nth_error_None in Eb. lia.
Qed.


(** ** The bbob logger without linear targets *)

(** Its records of an experiment with the same evaluations and constraint evaluations. *)
Theorem C72_agrees : forall log10 pow10 (C : class) (I : data C -> Prop) f g opt o (p : problem C) acts acts' ys ys'
    total total' best_gap best_gap' dat_file tdat_file F,
  observable I f g opt p -> plain C -> usual p -> (0 < number_target_triggers o)%N ->
  sized (number_of_variables (head p)) (calls_of acts) -> sized (number_of_variables (head p)) (calls_of acts') ->
  evaluations_only acts = evaluations_only acts' ->
  old_experiment log10 pow10 o p acts = Ok (ys, Some (total, best_gap, dat_file, tdat_file)) ->
  experiment log10 pow10 (no_linear o) p acts' = Ok (ys', Some (total', best_gap', F)) ->
  total = total' /\ best_gap = best_gap' /\ tdat_file = tdat F /\
  (dat F = dat_file \/ exists c, line_end o p f g opt acts' c /\ dat F = dat_file ++ [c]).
Proof.
  intros log10 pow10 C I f g opt o p acts acts' ys ys' total total' bg bg' d t F [HC [Hi [[rest Hb] [Ho H0]]]] HP HU HN S S' E H H'.
  pose proof (old_files log10 pow10 I f g o p opt rest HC Hi Hb Ho H0 HP HU HN acts ys _ S H) as K.
  pose proof (experiment_files log10 pow10 I f g (no_linear o) p opt rest HC Hi Hb Ho H0 acts' ys' _ S' H') as K'.
  cbv zeta in K, K'.
  pose proof (same_evaluated kept kept_e _ _ E) as Ev.
  destruct K as [_ [T [[b [v [B Bg]]] [[ks [vs [bs [t1 [K1 [K2 [K3 [K4 K5]]]]]]]] [E0 [us [cs [u [L1 [L2 [L3 L4]]]]]]]]]]].
  destruct K' as [_ [T' [[b' [v' [B' Bg']]] [[ks' [vs' [bs' [t' [K1' [K2' [K3' [K4' K5']]]]]]]] [[E0' [us' [cs' [u' [L1' [L2' [L3' [_ L4']]]]]]]] _]]]]].
  rewrite Ev in *.
  destruct (first_best_unique _ _ _ _ _ _ (m_number p f g opt Ho) B B') as [Qv _].
  assert (ks = ks') by (apply increasing_ext; [exact K1|exact K1'|]; intros k; rewrite K2, K2'; tauto). subst ks'.
  assert (Vv : vs = vs') by (eapply Forall2_unique; [|exact K3|exact K3']; intros k a c _ [x [Ex ->]] [x' [Ex' ->]]; congruence). rewrite Vv, K4' in K4.
  assert (Eb : bs = bs') by congruence. rewrite Eb in K5.
  change (base_evaluation_triggers (no_linear o)) with (base_evaluation_triggers o) in L1'.
  assert (E0' = E0) by congruence. subst E0'.
  assert (Uu : us = us') by exact (totals_same _ _ _ kept_e kept_c E _ _ L2 L2'). rewrite Uu, L3' in L3.
  assert (Ec : cs = cs') by congruence. rewrite Ec in L4.
  split; [congruence|]. split; [congruence|]. split.
  - exact (file_same o p f g opt Ho _ _ _ kept_e kept_c E _ _ _ _ L4 L4').
  - destruct K5' as [ls [F1 F2]].
    assert (ls = d) by (eapply Forall2_unique; [|exact F1|exact K5]; intros k a c _ X Y; symmetry; exact (line_same o p f g opt Ho _ _ _ kept_e kept_c E k c a Y X)). subst ls.
    destruct F2 as [[_ ->]|[_ [c [Hc ->]]]]; [left; reflexivity|right]. exists c. split; [exact Hc|reflexivity].
Qed.

(** ** Deviations *)

(** Reading the best parameter does not keep a problem from being logged, whereas the bbob logger refuses it. *)
Theorem C72_tainted_refuted : exists acts x h', sized 1 (calls_of acts) /\
  coco_problem_get_best_parameter (head (square_problem 0)) = (Some x, h') /\
  is_ok (old_experiment (fun v => v) step_pow10 (some_options true (ddec 1 5)) (Build_problem square h' 0) acts) = true /\
  experiment (fun v => v) step_pow10 (some_options true (ddec 1 5)) (Build_problem square h' 0) acts = Err.
Proof.
  exists [Call (Evaluate [dint 1])]. eexists. eexists. split; [repeat constructor|]. split; [reflexivity|]. split; vm_compute; reflexivity.
Qed.

(** The .dat file has no line for the last evaluation if that was not an improvement. *)
Theorem C72_last_refuted : exists acts, sized 1 (calls_of acts) /\
  match old_experiment (fun v => v) step_pow10 (some_options true (ddec 1 5)) (square_problem 0) acts with
  | Ok (_, Some (total, _, d, t)) => map f_evaluations d = [1]%N /\ map f_evaluations t = [1; 2]%N /\ total = 2%N
  | _ => False
  end.
Proof. exists [Call (Evaluate [dint 3]); Call (Evaluate [dint 5])]. split; [repeat constructor|]. vm_compute. auto. Qed.

(** Noise: f(x) = x0^2 observed with one added.  The bbob logger has the noise-free value on file. *)
Definition noisy_square : class :=
  {| data := double;
     evaluate_function := fun _ _ x => do v <- mget x 0; Ok ([dadd (dmul v v) (dint 1)], dmul v v);
     evaluate_constraint := None; recommend_solution := None; last_noise_free := fun d => Some [d] |}.
Definition noisy_problem : problem noisy_square :=
  Build_problem noisy_square (coco_problem_allocate 1 1 0 0 (Some [dint 1]) (Some [dint 1])) dzero.
Theorem C72_noisy_refuted : exists acts, sized 1 (calls_of acts) /\
  match old_experiment (fun v => v) step_pow10 (some_options true (ddec 1 5)) noisy_problem acts,
        experiment (fun v => v) step_pow10 (some_options true (ddec 1 5)) noisy_problem acts with
  | Ok (_, Some (_, _, d, _)), Ok (_, Some (_, _, F)) =>
    map (fun l => deq (measured l) (dint 10)) d = [true] /\ map (fun l => deq (measured l) (dint 9)) (dat F) = [true]
  | _, _ => False
  end.
Proof. exists [Call (Evaluate [dint 3])]. split; [repeat constructor|]. vm_compute. auto. Qed.

(** Coordinates: on file if there are fewer than 22 continuous variables, instead of fewer than 22 variables. *)
Definition mixed_problem : problem square :=
  Build_problem square (coco_problem_allocate 24 1 0 3 (Some [dint 1]) (Some (repeat (dint 1) 24))) 0.
Theorem C72_coordinates_refuted : exists acts, sized 24 (calls_of acts) /\
  match old_experiment (fun v => v) step_pow10 (some_options true (ddec 1 5)) mixed_problem acts,
        experiment (fun v => v) step_pow10 (some_options true (ddec 1 5)) mixed_problem acts with
  | Ok (_, Some (_, _, d, _)), Ok (_, Some (_, _, F)) =>
    map (fun l => length (coordinates l)) d = [24] /\ map (fun l => length (coordinates l)) (dat F) = [0]
  | _, _ => False
  end.
Proof. exists [Call (Evaluate (repeat (dint 2) 24))]. split; [repeat constructor|]. vm_compute. auto. Qed.

(** ** Examples *)
Example C72_example_usual : forall nc, plain square /\ usual (square_problem nc).
Proof. intros nc. repeat split; try reflexivity; [discriminate|cbn; lia|left; cbn; lia]. Qed.

(** The records of the history of C27: without a closing line and without restarts. *)
Example C72_example :
  match old_experiment (fun v => v) step_pow10 (some_options true (ddec 1 5)) (square_problem 1) some_actions with
  | Ok (_, Some (total, best_gap, d, t)) => (total, deq best_gap (ddec 5 1), map f_evaluations d, map f_evaluations t)
  | _ => (0%N, false, [], [])
  end = (8%N, true, [1; 2; 3; 4; 6]%N, [1; 2; 3; 4; 5; 6; 7; 8]%N).
Proof. vm_compute. reflexivity. Qed.

Print Assumptions C72_files.
Print Assumptions C72_targets.
Print Assumptions C72_tdat.
Print Assumptions C72_agrees.
Print Assumptions C72_tainted_refuted.
Print Assumptions C72_last_refuted.
Print Assumptions C72_noisy_refuted.
Print Assumptions C72_coordinates_refuted.
