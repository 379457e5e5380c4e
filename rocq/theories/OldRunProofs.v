(** Whole experiments with the old bbob logger. *)
From Coq Require Import List Arith NArith ZArith Reals Bool Lia Lra Sorted.
From Flocq Require Import Core BinarySingleNaN.
Import ListNotations.
From Verif Require Import CBase DblModel DblSpec DblProofs TrigModel ProbModel ProbSpec ProbProofs
  BbobModel BbobSpec BbobProofs BbobFileProofs BbobRunProofs BbobTargetProofs BbobPartProofs OldModel OldSpec OldProofs.
Local Open Scope nat_scope.

Definition kept (a : action) : bool := match a with Call (Recommend _) => false | Restart => false | _ => true end.
Lemma kept_e x : kept (Call (Evaluate x)) = true. Proof. reflexivity. Qed.
Lemma kept_c x : kept (Call (Constrain x)) = true. Proof. reflexivity. Qed.

Lemma filter_twice {A} (P : A -> bool) l : filter P (filter P l) = filter P l.
Proof. induction l as [|a l IH]; [reflexivity|]. cbn [filter]. destruct (P a) eqn:E; [cbn [filter]; rewrite E, IH; reflexivity|exact IH]. Qed.

Lemma evaluated_only acts : evaluated (evaluations_only acts) = evaluated acts.
Proof. exact (keeps_evaluated kept kept_e acts). Qed.

Lemma evaluation_only acts k before x : evaluation_at (evaluations_only acts) k before x ->
  exists before', evaluation_at acts k before' x /\ counted_constraints (calls_of before') = counted_constraints (calls_of before).
Proof.
  intros H. destruct (evaluation_at_range _ _ _ _ H) as [R1 R2]. rewrite evaluated_only in R1.
  destruct k as [|k]; [lia|]. destruct (evaluation_exists acts k ltac:(lia)) as [b [x' A]].
  destruct (same_evaluation kept kept_e kept_c acts (evaluations_only acts) _ _ _ _ _ (eq_sym (filter_twice kept acts)) A H) as [-> E]. exists b. auto.
Qed.

Section Lines.
Context {C : class}.
Variables (o : observer_options) (p : problem C) (f : list double -> double) (g : list double -> list double) (opt : double).

Lemma line_only acts k l : line_at o p f g opt (evaluations_only acts) k l -> line_at o p f g opt acts k l.
Proof.
  intros [b [x [c [v (A & B & F1 & F2 & F)]]]]. destruct (evaluation_only _ _ _ _ A) as [b' [A' E]]. exists b', x, c, v.
  rewrite evaluated_only in B. rewrite E. auto.
Qed.
Lemma end_only acts l : line_end o p f g opt (evaluations_only acts) l -> line_end o p f g opt acts l.
Proof.
  intros [b [x [c [v (A & B & F1 & F2 & F)]]]]. rewrite evaluated_only in *. destruct (evaluation_only _ _ _ _ A) as [b' [A' E]]. exists b', x, c, v.
  rewrite E. auto.
Qed.
Lemma file_only acts n ks file :
  file_is (line_at o p f g opt (evaluations_only acts)) (line_end o p f g opt (evaluations_only acts)) n ks file ->
  file_is (line_at o p f g opt acts) (line_end o p f g opt acts) n ks file.
Proof.
  intros [ls [F H]]. exists ls. split.
  - clear H. induction F; constructor; [apply line_only; assumption|assumption].
  - destruct H as [H|[N [c [H E]]]]; [left; exact H|right]. split; [exact N|]. exists c. split; [apply end_only, H|exact E].
Qed.
End Lines.

Lemma sized_only n acts : sized n (calls_of acts) -> sized n (calls_of (evaluations_only acts)).
Proof.
  unfold sized. rewrite !Forall_forall. intros H c Hc. apply H. unfold calls_of in *. apply in_flat_map in Hc as [a [Ha Hc]]. apply filter_In in Ha as [Ha _].
  apply in_flat_map. exists a. auto.
Qed.
Lemma totals_only acts vs : totals_are (evaluations_only acts) vs -> totals_are acts vs.
Proof.
  intros [L H]. rewrite evaluated_only in L. split; [exact L|]. intros k before x v A E.
  pose proof (keeps_evaluation_at kept kept_e acts k before x A) as A'. rewrite (H k _ x v A' E). rewrite (keeps_constraints kept kept_c before). reflexivity.
Qed.

Section Run.
Variables log10 pow10 : double -> double.
Context {C : class}.
Variables (I : data C -> Prop) (f : list double -> double) (g : list double -> list double).
Variables (o : observer_options) (p : problem C) (opt : double) (rest : list double).
Notation h0 := (head p).
Notation n := (number_of_variables h0).
Hypothesis HC : computes C n I f g.
Hypothesis Hi : I (body p).
Hypothesis Hb : best_value h0 = Some (opt :: rest).
Hypothesis Ho : fin opt.
Hypothesis H0 : evaluations_constraints h0 = 0%N.
Hypothesis HP : plain C.
Hypothesis HU : usual p.
Hypothesis HN : (0 < number_target_triggers o)%N.
Notation M := (performance p f g opt).
Notation NewC := (logger_bbob_class log10 pow10 C).

Lemma old_inv acts ys r : sized n (calls_of acts) -> old_experiment log10 pow10 o p acts = Ok (ys, r) ->
  exists E0 (q : problem NewC), coco_observer_evaluations (base_evaluation_triggers o) (N.of_nat n) = Ok E0 /\
    inv log10 pow10 I f g h0 (k0 o p opt) (T0 (no_linear o)) E0 (evaluations_only acts) q /\ fit log10 pow10 q /\
    logger_bbob_old_free (forget (body q)) = Ok r.
Proof.
  intros S H. unfold old_experiment in H. rewrite (new_old log10 pow10 o p opt rest Hb HN) in H. rewrite bind_rmap in H.
  apply bind_Ok in H as [q0 [L H]]. destruct HU as [U1 [U2 [U3 U4]]]. destruct HP as [P1 P2].
  pose proof (new_fit log10 pow10 o p opt rest q0 Hb HN Ho U1 U2 U3 U4 L) as K0.
  apply bind_Ok in H as [[ys' q'] [O H]]. apply bind_Ok in H as [r' [F H]]. assert (r' = r) by congruence. subst r'.
  pose proof (observe_old log10 pow10 P1 P2 acts q0 K0) as Q. rewrite O in Q. cbn [rmap snd] in Q.
  destruct (observe log10 pow10 q0 (evaluations_only acts)) as [[zs q]| |] eqn:O2; [|discriminate Q|discriminate Q]. cbn [rmap snd] in Q.
  assert (q' = old_of log10 pow10 q) by congruence. subst q'.
  assert (K : fit log10 pow10 q).
  { eapply observe_fit; [|exact K0|exact O2]. apply Forall_forall. intros a Ha. apply filter_In in Ha as [_ Ha]. destruct a as [[x|x|x]|]; try discriminate Ha; exact Logic.I. }
  unfold logger_bbob in L. rewrite Hb in L. cbn [mget nth_error bind] in L. apply bind_Ok in L as [E0 [HE L]].
  match type of L with Ok ?r = _ => assert (Q0 : q0 = r) by congruence end. clear L.
  exists E0, q. split; [exact HE|]. split; [|split; [exact K|exact F]].
  change (evaluations_only acts) with ([] ++ evaluations_only acts).
  eapply (inv_observe log10 pow10 I f g h0 (k0 o p opt) (T0 (no_linear o)) E0 HC eq_refl eq_refl Ho H0); [|exact (sized_only _ _ S)|exact O2].
  subst q0. apply inv_start; cbn; auto. split; [reflexivity|exact Hi].
Qed.

Lemma old_files acts ys r : sized n (calls_of acts) -> old_experiment log10 pow10 o p acts = Ok (ys, r) ->
  let xs := evaluated acts in
  match r with
  | None => xs = []
  | Some (total, best_gap, d, t) =>
    xs <> [] /\ total = N.of_nat (length xs) /\
    (exists b v, first_best M xs b v /\ best_gap = dsub v opt) /\
    (exists ks vs bs t, increasing ks /\ (forall k, In k ks <-> 2 <= k /\ improves M xs k) /\
       gaps_are M opt xs ks vs /\ consult (targets_trigger log10 pow10) (T0 (no_linear o)) vs = Ok (bs, t) /\
       Forall2 (line_at o p f g opt acts) (1 :: pick ks bs) d) /\
    (exists E0 vs bs u, coco_observer_evaluations (base_evaluation_triggers o) (N.of_nat n) = Ok E0 /\
       totals_are acts vs /\ consult (evaluations_trigger pow10) E0 vs = Ok (bs, u) /\
       file_is (line_at o p f g opt acts) (line_end o p f g opt acts) (length xs) (pick (seq 1 (length xs)) bs) t)
  end.
Proof.
  intros S H xs. destruct (old_inv acts ys r S H) as [E0 [q [HE [V [K Fr]]]]].
  pose proof V as [V1 V2 V3 V4 V5 V6 V7 V8 V9 V10]. unfold logger_bbob_old_free in Fr. cbn [old_output forget] in Fr.
  rewrite evaluated_only in *. fold xs in V5, V7.
  destruct (output (body q)) as [F0|] eqn:Out; cbn [option_map] in Fr.
  2:{ assert (r = None) by congruence. subst r. unfold xs in *. destruct (evaluated acts) eqn:E; [reflexivity|exfalso].
      destruct (V7 ltac:(discriminate)) as [Q _]. congruence. }
  cbn [old_best old_written old_setting old_evaluations old_constraints old_solution forget] in Fr.
  destruct (num_func_evaluations (body q) =? 0)%N eqn:Nz; [discriminate Fr|]. apply N.eqb_neq in Nz.
  apply bind_Ok in Fr as [t1 [Ft Fr]]. match type of Fr with Ok ?r0 = _ => assert (Q : r = r0) by congruence end. subst r. clear Fr.
  assert (Ne : xs <> []) by (intros E; rewrite E in V5; cbn in V5; lia).
  unfold dat_is in V8. unfold tdat_is in V9. rewrite Out in V8, V9. cbn [logger_bbob_initialize] in V8, V9. rewrite evaluated_only in *. fold xs in V8, V9.
  destruct V8 as [[V8 _]|[_ [ks [vs [bs [K1 [K2 [K3 [K4 [K5 K6]]]]]]]]]]; [contradiction|].
  split; [exact Ne|]. split; [exact V5|]. split.
  { destruct (V7 Ne) as [_ [[b [B1 [B2 B3]]] _]]. exists b, (best_found_value (body q)). rewrite evaluated_only in B3. rewrite V4. auto. }
  split.
  - exists ks, vs, bs, (target_triggers (body q)). split; [exact K1|]. split; [exact K2|]. split; [exact K3|]. split; [exact K4|].
    clear - K5. induction K5; constructor; [apply line_only; assumption|assumption].
  - destruct V9 as [us [cs [U1 [U2 [U3 U4]]]]]. exists E0, us, cs, (evaluation_triggers (body q)).
    split; [exact HE|]. split; [apply totals_only, U1|]. split; [exact U2|].
    assert (P : forall k, In k (pick (seq 1 (length xs)) cs) -> k <= length xs).
    { intros k Hk. apply pick_in, in_seq in Hk. lia. }
    apply file_only.
    assert (Fl : final_line (body q) (last_logged_eval_tdat (body q)) (tdat F0) = Ok t1).
    { unfold final_line. destruct (last_logged_eval_tdat (body q)) as [z|] eqn:La.
      - rewrite N.eqb_sym in Ft. destruct (num_func_evaluations (body q) =? z)%N; cbn [negb] in Ft; [exact Ft|].
        rewrite <- write_end; [exact Ft|apply (f_integers _ _ K)|apply (f_size _ _ K)].
      - exfalso. assert (Lu : length us = length xs) by (destruct U1 as [U1 _]; rewrite evaluated_only in U1; exact U1).
        destruct us as [|u us]; [destruct xs; [contradiction|discriminate Lu]|].
        assert (L1 : 0 < length (evaluated (evaluations_only acts))) by (rewrite evaluated_only; fold xs; rewrite <- Lu; cbn; lia).
        destruct (evaluation_exists _ _ L1) as [b1 [x1 X]].
        assert (Hu : (1 <= u)%N) by (rewrite (proj2 U1 1 b1 x1 u X eq_refl); lia).
        destruct (consult_first pow10 _ _ E0 (u :: us) cs _ u us HE eq_refl Hu U2) as [cs' ->].
        assert (Q : last_of (pick (seq 1 (length xs)) (true :: cs')) <> None).
        { rewrite <- Lu. cbn [length seq]. unfold pick. cbn [combine filter snd map fst]. unfold last_of. intros Q. destruct (rev _) eqn:Rv in Q; [|discriminate Q]. apply (f_equal (@length nat)) in Rv. rewrite rev_length in Rv. discriminate Rv. }
        congruence. }
    assert (Lx : length xs = length (evaluated (evaluations_only acts))) by (rewrite evaluated_only; reflexivity).
    assert (Ne' : evaluated (evaluations_only acts) <> []) by (rewrite evaluated_only; exact Ne).
    rewrite Lx in U3, U4, P |- *.
    eapply (final_line_file log10 pow10 I f g h0 (k0 o p opt) (T0 (no_linear o)) E0 eq_refl); [exact V|exact Ne'| |exact P|exact U4|exact U3|exact Fl].
    apply pick_increasing, seq_increasing.
Qed.
End Run.
