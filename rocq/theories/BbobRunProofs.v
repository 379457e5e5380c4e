(** Whole experiments with the bbob logger. *)
From Coq Require Import List Arith NArith ZArith Reals Bool Lia Lra Sorted.
From Flocq Require Import Core BinarySingleNaN.
Import ListNotations.
From Verif Require Import CBase DblModel DblSpec DblProofs TrigModel ProbModel ProbSpec ProbProofs
  BbobModel BbobSpec BbobProofs BbobFileProofs.
Open Scope nat_scope.

Lemma seq_increasing : forall z s, increasing (seq s z).
Proof.
  induction z as [|z IH]; intros s; [constructor|].
  cbn [seq]. constructor; [apply IH|]. apply Forall_forall. intros k Hk. apply in_seq in Hk. lia.
Qed.

Section Run.
Variables log10 pow10 : double -> double.
Context {C : class}.
Variables (I : data C -> Prop) (f : list double -> double) (g : list double -> list double).
Variables (o : observer_options) (p : problem C) (opt : double) (rest : list double).
Notation h0 := (head p).
Notation n := (number_of_variables h0).
Notation nc := (number_of_constraints h0).
Definition k0 : settings :=
  {| optimal_value := opt; variables := n; integers := number_of_integer_variables h0; constraints := nc;
     log_discrete_as_int := discrete_as_int o |}.
Definition T0 : targets :=
  new_targets (known_optima o) (lin_target_precision o) (number_target_triggers o) (log_target_precision o).
Hypothesis HC : computes C n I f g.
Hypothesis Hi : I (body p).
Hypothesis Hb : best_value h0 = Some (opt :: rest).
Hypothesis Ho : fin opt.
Hypothesis H0 : evaluations_constraints h0 = 0%N.
Notation M := (performance p f g opt).
Notation LC := (logger_bbob_class log10 pow10 C).

Lemma experiment_inv : forall acts ys r, sized n (calls_of acts) -> experiment log10 pow10 o p acts = Ok (ys, r) ->
  exists E0 (q : problem LC), coco_observer_evaluations (base_evaluation_triggers o) (N.of_nat n) = Ok E0 /\
    inv log10 pow10 I f g h0 k0 T0 E0 acts q /\ logger_bbob_free (body q) = Ok r.
Proof.
  intros acts ys r S H. unfold experiment in H. apply bind_Ok in H as [q0 [L H]].
  apply bind_Ok in H as [[ys' q] [O H]]. apply bind_Ok in H as [r' [F H]]. assert (r' = r) by congruence. subst r'.
  unfold logger_bbob in L. rewrite Hb in L. cbn [mget nth_error bind] in L.
  apply bind_Ok in L as [E0 [HE L]].
  match type of L with Ok ?r = _ => assert (Q : q0 = r) by congruence end. clear L.
  exists E0, q. split; [exact HE|]. split; [|exact F].
  change acts with ([] ++ acts).
  eapply (inv_observe log10 pow10 I f g h0 k0 T0 E0 HC eq_refl eq_refl Ho H0); [|exact S|exact O].
  subst q0. apply inv_start; cbn; auto. split; [reflexivity|exact Hi].
Qed.

Lemma improves_le : forall (m : list double -> double) xs k, improves m xs k -> k <= length xs.
Proof. intros m xs k H. apply improves_range in H. lia. Qed.

Lemma experiment_files : forall acts ys r, sized n (calls_of acts) -> experiment log10 pow10 o p acts = Ok (ys, r) ->
  let xs := evaluated acts in
  match r with
  | None => xs = []
  | Some (total, best_gap, F) =>
    xs <> [] /\ total = N.of_nat (length xs) /\
    (exists b v, first_best M xs b v /\ best_gap = dsub v opt) /\
    (exists ks vs bs t, increasing ks /\ (forall k, In k ks <-> 2 <= k /\ improves M xs k) /\
       gaps_are M opt xs ks vs /\ consult (targets_trigger log10 pow10) T0 vs = Ok (bs, t) /\
       file_is (line_at o p f g opt acts) (line_end o p f g opt acts) (length xs) (1 :: pick ks bs) (dat F)) /\
    (exists E0 vs bs t, coco_observer_evaluations (base_evaluation_triggers o) (N.of_nat n) = Ok E0 /\
       totals_are acts vs /\ consult (evaluations_trigger pow10) E0 vs = Ok (bs, t) /\
       In 1 (pick (seq 1 (length xs)) bs) /\
       file_is (line_at o p f g opt acts) (line_end o p f g opt acts) (length xs) (pick (seq 1 (length xs)) bs) (tdat F)) /\
    (exists ks, increasing ks /\ (forall k, In k ks <-> restart_before acts k) /\ Forall2 (line_at o p f g opt acts) ks (rdat F))
  end.
Proof.
  intros acts ys r S H xs. destruct (experiment_inv acts ys r S H) as [E0 [q [HE [V Fr]]]].
  pose proof V as [V1 V2 V3 V4 V5 V6 V7 V8 V9 V10]. unfold logger_bbob_free in Fr.
  destruct (output (body q)) as [F0|] eqn:Out.
  2:{ assert (r = None) by congruence. subst r. unfold xs. destruct (evaluated acts) eqn:E; [reflexivity|exfalso].
      destruct (V7 ltac:(discriminate)) as [K _]. congruence. }
  apply bind_Ok in Fr as [d [Fd Fr]]. apply bind_Ok in Fr as [t [Ft Fr]]. apply bind_Ok in Fr as [md [_ Fr]].
  match type of Fr with Ok ?r0 = _ => assert (Q : r = r0) by congruence end. subst r. clear Fr.
  cbn [dat tdat rdat].
  unfold dat_is in V8. unfold tdat_is in V9. unfold rdat_is in V10. rewrite Out in V8, V9, V10.
  cbn [logger_bbob_initialize] in V8, V9, V10.
  destruct V8 as [[_ [_ [La _]]]|[Ne [ks [vs [bs [K1 [K2 [K3 [K4 [K5 K6]]]]]]]]]].
  { rewrite La in Fd. discriminate Fd. }
  split; [exact Ne|]. split; [exact V5|]. split.
  { destruct (V7 Ne) as [_ [[b [B1 [B2 B3]]] _]]. exists b, (best_found_value (body q)). rewrite V4. auto. }
  split; [|split].
  - exists ks, vs, bs, (target_triggers (body q)). split; [exact K1|]. split; [exact K2|]. split; [exact K3|]. split; [exact K4|].
    assert (P2 : forall k, In k (pick ks bs) -> 2 <= k <= length (evaluated acts)).
    { intros k Hk. apply pick_in, K2 in Hk as [P Hk]. split; [exact P|]. exact (improves_le _ _ _ Hk). }
    eapply (final_line_file log10 pow10 I f g h0 k0 T0 E0 eq_refl); [exact V|exact Ne| | |exact K6|exact K5|exact Fd].
    + constructor; [apply pick_increasing; exact K1|]. apply Forall_forall. intros k Hk. apply P2 in Hk. lia.
    + intros k [<-|Hk]; [|apply P2 in Hk; lia]. destruct (evaluated acts); [contradiction|cbn [length]; lia].
  - destruct V9 as [us [cs [U1 [U2 [U3 U4]]]]]. exists E0, us, cs, (evaluation_triggers (body q)).
    split; [exact HE|]. split; [exact U1|]. split; [exact U2|]. 
    assert (P : forall k, In k (pick (seq 1 (length xs)) cs) -> k <= length xs).
    { intros k Hk. apply pick_in, in_seq in Hk. lia. }
    split.
    + assert (Lu : length us = length xs) by apply U1.
      destruct us as [|u us].
      { exfalso. apply Ne. destruct (evaluated acts) eqn:Ex; [reflexivity|]. discriminate Lu. }
      assert (1 <= u)%N.
      { destruct U1 as [_ U1]. destruct (V7 Ne) as [_ [_ [before [x [A1 A2]]]]].
        assert (X : exists before x, evaluation_at acts 1 before x).
        { clear - Ne. destruct (evaluated acts) as [|x xs'] eqn:E; [contradiction|clear Ne].
          revert x xs' E. induction acts as [|a acts' IH]; intros x xs' E; [discriminate E|].
          change (a :: acts') with ([a] ++ acts') in *. rewrite evaluated_app in E.
          destruct (counts_eval a) eqn:Ca.
          - destruct a as [[z|z|z]|]; try discriminate Ca. exists [], z, acts'. split; [reflexivity|].
            split; [apply regularb_spec; exact Ca|reflexivity].
          - rewrite (evaluated_one a Ca) in E. destruct (IH _ _ E) as [before [z [after [Q1 [Q2 Q3]]]]].
            exists (a :: before), z, after. split; [cbn; f_equal; exact Q1|]. split; [exact Q2|].
            rewrite <- Q3. change (a :: before) with ([a] ++ before). rewrite calls_of_app, counted_app, counted_one, Ca. reflexivity. }
        destruct X as [b1 [x1 X]]. rewrite (U1 1 b1 x1 u X eq_refl). lia. }
      destruct (consult_first pow10 _ _ E0 (u :: us) cs _ u us HE eq_refl H1 U2) as [cs' ->].
      unfold xs in *. destruct (evaluated acts); [contradiction|]. cbn. left. reflexivity.
    + eapply (final_line_file log10 pow10 I f g h0 k0 T0 E0 eq_refl); [exact V|exact Ne| |exact P|exact U4|exact U3|exact Ft].
      apply pick_increasing, seq_increasing.
  - exact V10.
Qed.
End Run.

(** ** Progress *)
Lemma dsub_inf : forall a c, num a -> ~ fin a -> fin c -> dsub a c = a.
Proof.
  intros a c Na Fa Fc. destruct a as [s|s| |s m e H]; try (exfalso; apply Fa; reflexivity).
  - destruct c as [s'|s'| |s' m' e' H']; try discriminate Fc; destruct s; reflexivity.
  - discriminate Na.
Qed.

Lemma dsub_num : forall a c, num a -> fin c -> num (dsub a c).
Proof.
  intros a c Na Fc. destruct (is_finite a) eqn:F.
  - exact (proj1 (dsub_val a c F Fc)).
  - rewrite dsub_inf; auto. unfold fin. congruence.
Qed.

Lemma clamp_range : forall r, (- bpow radix2 1024 <= clamp r <= bpow radix2 1024)%R.
Proof.
  intros r. unfold clamp. pose proof (bpow_gt_0 radix2 1024). unfold Rmax, Rmin.
  repeat destruct Rle_dec; lra.
Qed.

Lemma dsub_mono : forall a b c, num a -> num b -> fin c -> (val a <= val b)%R -> (val (dsub a c) <= val (dsub b c))%R.
Proof.
  intros a b c Na Nb Fc H. pose proof (bpow_gt_0 radix2 1024) as P.
  destruct (is_finite a) eqn:Fa; destruct (is_finite b) eqn:Fb.
  - rewrite (proj2 (dsub_val a c Fa Fc)), (proj2 (dsub_val b c Fb Fc)). apply clamp_mono, rnd_mono. lra.
  - assert (Nf : ~ fin b) by (unfold fin; congruence). rewrite (dsub_inf b) by auto.
    pose proof (val_range (dsub a c)). pose proof (val_bound a Fa). destruct (inf_val b Nb Nf) as [E|E]; rewrite E in *; lra.
  - assert (Nf : ~ fin a) by (unfold fin; congruence). rewrite (dsub_inf a) by auto.
    pose proof (val_range (dsub b c)). pose proof (val_bound b Fb). destruct (inf_val a Na Nf) as [E|E]; rewrite E in *; lra.
  - assert (Nf : ~ fin a) by (unfold fin; congruence). assert (Nf' : ~ fin b) by (unfold fin; congruence).
    rewrite !dsub_inf by auto. exact H.
Qed.

Section Progress.
Variables (m : list double -> double) (opt : double) (xs : list (list double)).
Hypothesis Mn : forall x, num (m x).
Hypothesis Ho : fin opt.

Definition shows (k : nat) (l : line) : Prop :=
  exists b v, first_best m (firstn k xs) b v /\ f_evaluations l = N.of_nat k /\ gap l = dsub v opt.

Lemma shows_le : forall k k' l l', k < k' -> shows k l -> shows k' l' ->
  (f_evaluations l < f_evaluations l')%N /\ num (gap l) /\ num (gap l') /\ (val (gap l') <= val (gap l))%R.
Proof.
  intros k k' l l' Hk [b [v [[i [E1 [-> _]]] [F1 ->]]]] [b' [v' [[i' [E2 [-> [A _]]]] [F2 ->]]]].
  split; [lia|]. split; [apply dsub_num; auto|]. split; [apply dsub_num; auto|].
  apply dsub_mono; auto. destruct (Rle_or_lt (val (m b')) (val (m b))) as [L|L]; [exact L|exfalso].
  apply (A b).
  - apply nth_error_In in E1.
    assert (Q : firstn k xs = firstn k (firstn k' xs)) by (rewrite firstn_firstn; f_equal; lia).
    rewrite Q in E1. clear - E1. rewrite <- (firstn_skipn k (firstn k' xs)). apply in_app_iff. left. exact E1.
  - split; [apply Mn|]. split; [apply Mn|]. exact L.
Qed.

Lemma shows_progress : forall ks ls, increasing ks -> Forall2 shows ks ls -> progresses ls.
Proof.
  intros ks ls S F. revert S. induction F as [|k l ks ls A F IH]; intros S; [constructor|].
  inversion S as [|? ? S1 S2]; subst. constructor; [apply IH; assumption|].
  clear IH S S1. induction F as [|k' l' ks ls A' F IH]; [constructor|].
  inversion S2; subst. constructor; [apply (shows_le k k'); assumption|]. apply IH. assumption.
Qed.
End Progress.

Lemma file_progress : forall m opt xs (line_of : nat -> line -> Prop) (closing : line -> Prop) ks file,
  (forall x, num (m x)) -> fin opt ->
  (forall k l, line_of k l -> shows m opt xs k l) -> (forall l, closing l -> shows m opt xs (length xs) l) ->
  increasing ks -> ks <> [] -> (forall k, In k ks -> k <= length xs) ->
  file_is line_of closing (length xs) ks file ->
  progresses file /\ exists front l, file = front ++ [l] /\ f_evaluations l = N.of_nat (length xs) /\
    exists b v, first_best m xs b v /\ gap l = dsub v opt.
Proof.
  intros m opt xs line_of closing ks file Mn Ho L1 L2 Inc Nk B [ls [Ls H]].
  assert (Sh : Forall2 (shows m opt xs) ks ls).
  { clear - Ls L1. induction Ls; constructor; auto. }
  assert (K : exists ks', increasing ks' /\ Forall2 (shows m opt xs) ks' file /\ exists front, ks' = front ++ [length xs]).
  { destruct H as [[Hin ->]|[Hn [c [Hc ->]]]].
    - exists ks. split; [exact Inc|]. split; [exact Sh|].
      apply (last_in ks _ Inc B) in Hin. unfold last_of in Hin. destruct ks as [|k ks] using rev_ind; [contradiction|].
      clear IHks. rewrite rev_app_distr in Hin. cbn in Hin. exists ks. f_equal. f_equal. apply Nat2N.inj. congruence.
    - exists (ks ++ [length xs]). split.
      + apply increasing_snoc; [exact Inc|]. intros j Hj. pose proof (B j Hj).
        destruct (Nat.eq_dec j (length xs)); [subst; contradiction|lia].
      + split; [apply Forall2_app; [exact Sh|constructor; [auto|constructor]]|]. exists ks. reflexivity. }
  destruct K as [ks' [I' [S' [front ->]]]]. split; [eapply shows_progress; eauto|].
  apply Forall2_app_inv_l in S' as [f1 [f2 [_ [S2 ->]]]].
  inversion S2 as [|? l ? ? [b [v [F1 [F2 F3]]]] S3]; subst. inversion S3; subst.
  exists f1, l. split; [reflexivity|]. split; [exact F2|]. exists b, v. rewrite firstn_all in F1. auto.
Qed.

Lemma first_best_unique : forall m xs b v b' v', (forall x, num (m x)) ->
  first_best m xs b v -> first_best m xs b' v' -> v = v' /\ b = b'.
Proof.
  intros m xs b v b' v' Mn [i [E [-> [A B]]]] [i' [E' [-> [A' B']]]].
  destruct (Nat.lt_trichotomy i i') as [L|[<-|L]].
  - exfalso. apply (A b'); [eapply nth_error_In; exact E'|]. apply (B' i b L E).
  - assert (b = b') by congruence. subst. auto.
  - exfalso. apply (A' b); [eapply nth_error_In; exact E|]. apply (B i' b' L E').
Qed.
