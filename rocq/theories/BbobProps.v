(** C27-C29, C54: the files of the bbob logger. *)
From Coq Require Import List Arith NArith ZArith Reals Bool Lia Lra Sorted Ascii String.
From Flocq Require Import Core BinarySingleNaN.
Import ListNotations.
From Verif Require Import CBase StrModel StrSpec OptModel DblModel DblSpec DblProofs TrigModel TrigSpec DigitProofs TrigProps ProbModel ProbSpec ProbProofs
  ProbProps BbobModel BbobSpec BbobProofs BbobFileProofs BbobRunProofs BbobTargetProofs.
Open Scope nat_scope.
Local Notation length := List.length.

(** ** C27: what is on file after the problem is freed *)
Theorem C27_files : forall log10 pow10 (C : class) (I : data C -> Prop) f g opt o (p : problem C) acts ys r,
  observable I f g opt p -> sized (number_of_variables (head p)) (calls_of acts) ->
  experiment log10 pow10 o p acts = Ok (ys, r) ->
  let xs := evaluated acts in
  let m := performance p f g opt in
  match r with
  | None => xs = []
  | Some (total, best_gap, F) =>
    xs <> [] /\ total = N.of_nat (length xs) /\
    (exists b v, first_best m xs b v /\ best_gap = dsub v opt) /\
    (exists ks, increasing ks /\ In 1 ks /\ (forall k, In k ks -> improves m xs k) /\
       file_is (line_at o p f g opt acts) (line_end o p f g opt acts) (length xs) ks (dat F)) /\
    (exists ks, increasing ks /\ In 1 ks /\ (forall k, In k ks -> k <= length xs) /\
       file_is (line_at o p f g opt acts) (line_end o p f g opt acts) (length xs) ks (tdat F))
  end.
Proof.
  intros log10 pow10 C I f g opt o p acts ys r [HC [Hi [[rest Hb] [Ho H0]]]] S H xs m.
  pose proof (experiment_files log10 pow10 I f g o p opt rest HC Hi Hb Ho H0 acts ys r S H) as K. cbv zeta in K.
  destruct r as [[[total bg] F]|]; [|exact K].
  destruct K as [Ne [T [B [[ks [vs [bs [t [K1 [K2 [_ [_ K3]]]]]]]] [[E0 [us [cs [u [_ [_ [_ [U1 U2]]]]]]]] _]]]]].
  split; [exact Ne|]. split; [exact T|]. split; [exact B|]. split.
  - exists (1 :: pick ks bs). split.
    { constructor; [apply pick_increasing; exact K1|]. apply Forall_forall. intros k Hk. apply pick_in, K2 in Hk. lia. }
    split; [left; reflexivity|]. split; [|exact K3].
    intros k [<-|Hk]; [|apply pick_in, K2 in Hk; apply Hk].
    fold xs in Ne. unfold improves. destruct xs as [|x xs']; [contradiction|]. exists x. split; [lia|]. split; [reflexivity|]. lia.
  - exists (pick (seq 1 (length xs)) cs). split; [apply pick_increasing, seq_increasing|]. split; [exact U1|].
    split; [|exact U2]. intros k Hk. apply pick_in, in_seq in Hk. lia.
Qed.

(** The last lines of both files carry the total and the final difference; the numbers of evaluations
    increase, the differences do not; both files start with the first evaluation. *)
Theorem C27_progress : forall log10 pow10 (C : class) (I : data C -> Prop) f g opt o (p : problem C) acts ys total best_gap F,
  observable I f g opt p -> sized (number_of_variables (head p)) (calls_of acts) ->
  experiment log10 pow10 o p acts = Ok (ys, Some (total, best_gap, F)) ->
  forall file, file = dat F \/ file = tdat F ->
    progresses file /\
    (exists front l, file = front ++ [l] /\ f_evaluations l = total /\ gap l = best_gap) /\
    (exists l rest, file = l :: rest /\ f_evaluations l = 1%N).
Proof.
  intros log10 pow10 C I f g opt o p acts ys total bg F Ob S H file Hf.
  pose proof (C27_files log10 pow10 C I f g opt o p acts ys _ Ob S H) as K. cbv zeta in K.
  destruct Ob as [HC [Hi [[rest Hb] [Ho H0]]]].
  destruct K as [Ne [T [[b [v [B Bg]]] [[ks [K1 [K2 [K3 K4]]]] [ks' [L1 [L2 [L3 L4]]]]]]]].
  set (m := performance p f g opt) in *. set (xs := evaluated acts) in *.
  assert (Mn : forall x, num (m x)) by (intros x; apply merit_num; exact Ho).
  assert (A : exists ks, increasing ks /\ In 1 ks /\ (forall k, In k ks -> 1 <= k <= length xs) /\
                file_is (line_at o p f g opt acts) (line_end o p f g opt acts) (length xs) ks file).
  { destruct Hf as [->| ->].
    - exists ks. split; [exact K1|]. split; [exact K2|]. split; [|exact K4].
      intros k Hk. apply K3, improves_range in Hk. exact Hk.
    - exists (filter (fun k => 1 <=? k) ks'). destruct L4 as [ls [Fa L4]].
      assert (Q : filter (fun k => 1 <=? k) ks' = ks').
      { clear - Fa. induction Fa as [|k l ks ls [before [x [b [v [[after [_ [_ E]]] _]]]]] Fa IH]; [reflexivity|].
        cbn [filter]. rewrite IH. destruct (Nat.leb_spec 1 k); [reflexivity|lia]. }
      rewrite Q. split; [exact L1|]. split; [exact L2|]. split; [|exists ls; auto].
      intros k Hk. split; [|apply L3; exact Hk]. rewrite <- Q in Hk. apply filter_In in Hk as [_ Hk].
      apply Nat.leb_le in Hk. exact Hk. }
  clear ks K1 K2 K3 K4 ks' L1 L2 L3 L4 Hf. destruct A as [ks [K1 [K2 [K3 K4]]]].
  assert (Lk : forall k l, line_at o p f g opt acts k l -> shows m opt xs k l).
  { intros k l [before [x [b' [v' [_ [F1 [F2 [_ [F3 _]]]]]]]]]. exists b', v'. auto. }
  assert (Lc : forall l, line_end o p f g opt acts l -> shows m opt xs (length xs) l).
  { intros l [before [x [b' [v' [_ [F1 [F2 [_ [F3 _]]]]]]]]]. exists b', v'. rewrite firstn_all. auto. }
  assert (Nk : ks <> []) by (intros ->; destruct K2).
  destruct (file_progress m opt xs _ _ ks file Mn Ho Lk Lc K1 Nk (fun k Hk => proj2 (K3 k Hk)) K4) as [P [front [l [E [E1 [b' [v' [B' E2]]]]]]]].
  split; [exact P|]. split.
  - exists front, l. split; [exact E|]. split; [congruence|].
    destruct (first_best_unique m xs b v b' v' Mn B B') as [-> _]. congruence.
  - destruct K4 as [ls [Fa K4]]. destruct ks as [|k ks]; [contradiction|]. inversion Fa as [|? l1 ? ls' A1 A2]; subst.
    assert (k = 1).
    { destruct K2 as [->|K2]; [reflexivity|]. unfold increasing in K1. inversion K1; subst.
      pose proof (proj1 (Forall_forall _ _) H4 1 K2). pose proof (K3 k (or_introl eq_refl)). lia. }
    subst k. apply Lk in A1 as [b1 [v1 [_ [A1 _]]]].
    destruct K4 as [[_ Q]|[_ [c [_ Q]]]].
    + rewrite Q. exists l1, ls'. split; [reflexivity|]. exact A1.
    + exists l1, (ls' ++ [c]). split; [rewrite Q; reflexivity|]. exact A1.
Qed.

(** Without constraint evaluations the .tdat file has exactly the documented evaluation numbers (and the
    last one). *)
Theorem C27_tdat : forall log10 pow10 (C : class) (I : data C -> Prop) f g opt o (p : problem C) acts ys total best_gap F l,
  pow10_accurate pow10 -> base_evaluation_triggers o <> [] -> range_string (base_evaluation_triggers o) ->
  range_denotes (base_evaluation_triggers o) 1 0 l -> (1 <= length l < 1000)%nat -> within_decade l ->
  1 <= number_of_variables (head p) -> (forall b, In b l -> (N.of_nat (number_of_variables (head p)) * b < 2 ^ 64)%N) ->
  observable I f g opt p -> sized (number_of_variables (head p)) (calls_of acts) ->
  counted_constraints (calls_of acts) = 0 -> (N.of_nat (length (evaluated acts)) < 10 ^ 11)%N ->
  experiment log10 pow10 o p acts = Ok (ys, Some (total, best_gap, F)) ->
  exists ks, increasing ks /\
    (forall k, In k ks <-> 1 <= k <= length (evaluated acts) /\
       (power_number (N.of_nat k) \/ base_number (N.of_nat (number_of_variables (head p))) l (N.of_nat k))) /\
    file_is (line_at o p f g opt acts) (line_end o p f g opt acts) (length (evaluated acts)) ks (tdat F).
Proof.
  intros log10 pow10 C I f g opt o p acts ys total bg F l Ha B1 B2 B3 B4 B5 B6 B7 [HC [Hi [[rest Hb] [Ho H0]]]] S Nc Small H.
  pose proof (experiment_files log10 pow10 I f g o p opt rest HC Hi Hb Ho H0 acts ys _ S H) as K. cbv zeta in K.
  destruct K as [Ne [_ [_ [_ [[E0 [vs [bs [t [HE [Tv [Cs [_ Fi]]]]]]]] _]]]]].
  destruct (C25_evaluation_numbers pow10 _ l (N.of_nat (number_of_variables (head p))) Ha B1 B2 B3 B4 B5 ltac:(lia) B7) as [ev [Hev Con]].
  assert (ev = E0) by congruence. subst ev.
  destruct (Con (length (evaluated acts)) Small) as [bs' [ev' [Cs' [Lb Iff]]]].
  assert (Vs : vs = counts (length (evaluated acts))).
  { destruct Tv as [L1 T1]. apply nth_ext with (d := 0%N) (d' := 0%N).
    - unfold counts. rewrite map_length, seq_length. exact L1.
    - intros i Hi'. rewrite L1 in Hi'.
      assert (X : exists before x, evaluation_at acts (Datatypes.S i) before x).
      { clear - Hi'. revert i Hi'. induction acts as [|a acts' IH] using rev_ind; intros i Hi; [cbn in Hi; lia|].
        rewrite evaluated_app, app_length in Hi.
        destruct (Nat.lt_ge_cases i (length (evaluated acts'))) as [L|L].
        - destruct (IH i L) as [before [x E]]. exists before, x. apply evaluation_at_extend. exact E.
        - destruct (counts_eval a) eqn:Ca.
          + destruct a as [[z|z|z]|]; try discriminate Ca. cbn [counts_eval] in Ca. apply regularb_spec in Ca.
            rewrite (evaluated_eval z Ca) in Hi. cbn [List.length] in Hi. exists acts', z.
            replace i with (length (evaluated acts')) by lia. apply evaluation_at_last. exact Ca.
          + rewrite (evaluated_one a Ca) in Hi. cbn [List.length] in Hi. lia. }
      destruct X as [before [x X]]. pose proof X as [after [Ea [_ _]]].
      assert (Z : counted_constraints (calls_of before) = 0).
      { rewrite Ea, calls_of_app, counted_c_app in Nc. lia. }
      assert (Nv : nth_error vs i = Some (nth i vs 0%N)) by (apply nth_error_nth'; lia).
      rewrite (T1 (Datatypes.S i) before x (nth i vs 0%N) X); [|rewrite Nat.sub_succ, Nat.sub_0_r; exact Nv].
      unfold counts. change 0%N with (N.of_nat 0). rewrite map_nth. rewrite seq_nth by exact Hi'. rewrite Z. lia. }
  subst vs. rewrite Cs in Cs'. assert (bs' = bs) by congruence. subst bs'.
  exists (pick (seq 1 (length (evaluated acts))) bs). split; [apply pick_increasing, seq_increasing|]. split; [|exact Fi].
  intros k. rewrite in_pick. split.
  - intros [i [E B]]. assert (Hi' : i < length (evaluated acts)).
    { rewrite <- (seq_length (length (evaluated acts)) 1). apply nth_error_Some. congruence. }
    assert (k = Datatypes.S i).
    { apply (nth_error_nth _ _ 0) in E. rewrite seq_nth in E by exact Hi'. lia. }
    subst k. split; [lia|]. replace (Datatypes.S i) with (i + 1) by lia. apply (Iff i true B). reflexivity.
  - intros [Rg D]. exists (k - 1). split.
    + rewrite (nth_error_nth' _ 0) by (rewrite seq_length; lia). rewrite seq_nth by lia. f_equal. lia.
    + destruct (nth_error bs (k - 1)) as [b|] eqn:Eb.
      * f_equal. apply (Iff (k - 1) b Eb). replace (k - 1 + 1) with k by lia. exact D.
      * apply nth_error_None in Eb. lia.
Qed.

(** A problem with recommendations but without evaluations cannot be freed: the numbers of the last logged
    evaluations are read before they are written. *)
Definition some_options (known : bool) (precision : double) : observer_options :=
  {| known_optima := known; lin_target_precision := precision; number_target_triggers := 100;
     log_target_precision := ddec 1 8; base_evaluation_triggers := str "1,2,5"; discrete_as_int := false |}.

Definition is_ok {A : Type} (r : res A) : bool := match r with Ok _ => true | _ => false end.
Theorem C27_recommend_only_refuted : forall log10 pow10, exists x,
  sized 1 [Recommend x] /\
  is_ok (do q <- logger_bbob log10 pow10 (some_options false (ddec 1 5)) (square_problem 0);
         observe log10 pow10 q [Call (Recommend x)]) = true /\
  experiment log10 pow10 (some_options false (ddec 1 5)) (square_problem 0) [Call (Recommend x)] = UB.
Proof.
  intros log10 pow10. exists [dint 2]. split; [repeat constructor|].
  split; vm_compute; reflexivity.
Qed.

(** ** C28: the lines of the .dat file *)
Theorem C28_targets : forall log10 pow10 o,
  log10_accurate log10 -> log10_monotone log10 -> known_optima o = true ->
  (2 <= number_target_triggers o <= 1000000)%N ->
  fin (log_target_precision o) -> (bpow radix2 (-1000) <= val (log_target_precision o))%R ->
  fin (lin_target_precision o) -> (val (ddec 1 12) < val (lin_target_precision o))%R ->
  exists level up, log_levels (number_target_triggers o) (log_target_precision o) level /\
    rounds_up (lin_target_precision o) up /\
    forall (C : class) (I : data C -> Prop) f g opt (p : problem C) acts ys total best_gap F,
    observable I f g opt p -> sized (number_of_variables (head p)) (calls_of acts) ->
    let xs := evaluated acts in
    let m := performance p f g opt in
    (forall x, In x xs -> fin (dsub (m x) opt)) ->
    experiment log10 pow10 o p acts = Ok (ys, Some (total, best_gap, F)) ->
    exists ks, increasing ks /\
      file_is (line_at o p f g opt acts) (line_end o p f g opt acts) (length xs) ks (dat F) /\
      forall k, In k ks <-> k = 1 \/
        (2 <= k /\ improves m xs k /\
         (new_at m opt xs (fun v => IZR (level v)) (IZR INT_MAX) k \/
          new_at m opt xs (rounded_key up) (val DBL_MAX) k)).
Proof.
  intros log10 pow10 o Ha Hm Hk Hn Fp Hp Fl Hl.
  destruct (C23_log_targets log10 pow10 _ _ Ha Hm Hn Fp Hp) as (level & L1 & L2 & L3 & L4 & L5 & _ & _ & _ & LC).
  destruct (C24_lin_targets _ Fl Hl) as (up & U1 & U2 & U3 & U4 & UC).
  exists level, up. split; [split; [exact L1|]; split; [exact L2|]; split; [exact L3|]; split; [exact L4|exact L5]|].
  split; [split; [exact U1|]; split; [exact U2|]; split; [exact U3|exact U4]|].
  intros C I f g opt p acts ys total bg F [HC [Hi [[rest Hb] [Ho H0]]]] S xs m Fin H.
  pose proof (experiment_files log10 pow10 I f g o p opt rest HC Hi Hb Ho H0 acts ys _ S H) as K. cbv zeta in K.
  destruct K as [Ne [_ [_ [[ks [vs [bs [t [K1 [K2 [K3 [K4 K5]]]]]]]] _]]]].
  fold m xs in K2, K3, K5. exists (1 :: pick ks bs). split.
  { constructor; [apply pick_increasing; exact K1|]. apply Forall_forall. intros k H1. apply pick_in, K2 in H1. lia. }
  split; [exact K5|]. unfold T0, new_targets in K4. rewrite Hk in K4.
  replace ((0 <? number_target_triggers o)%N && true) with true in K4
    by (destruct (N.ltb_spec 0 (number_target_triggers o)); [reflexivity|lia]).
  destruct (consult_targets log10 pow10 vs _ _ _ _ K4) as [bl [bg' [tl [tg [Cl [Cg Cb]]]]]].
  assert (Fv : Forall fin vs).
  { clear - K3 Fin. unfold gaps_are in K3. induction K3 as [|k v ks vs [x [E ->]] K3 IH]; constructor; [|exact IH].
    apply Fin. eapply nth_error_In; exact E. }
  destruct (LC vs Fv) as [bg2 [tg2 [Cg2 Mg]]]. rewrite Cg in Cg2. assert (bg2 = bg') by congruence. subst bg2.
  destruct (UC vs) as [bl2 [tl2 [Cl2 Ml]]]. rewrite Cl in Cl2. assert (bl2 = bl) by congruence. subst bl2.
  pose proof (marks_new m opt xs _ _ ks vs bg' K1 K2 K3 Mg) as Ng.
  pose proof (marks_new m opt xs _ _ ks vs bl K1 K2 K3 Ml) as Nl.
  intros k. cbn [In]. rewrite in_pick. split.
  - intros [<-|[i [E B]]]; [left; reflexivity|right]. apply Cb in B as [B|B].
    + destruct (proj1 (Nl k) (ex_intro _ i (conj E B))) as [P [Q R]]. auto.
    + destruct (proj1 (Ng k) (ex_intro _ i (conj E B))) as [P [Q R]]. auto.
  - intros [->|[P [Q [R|R]]]]; [left; reflexivity| |]; right.
    + destruct (proj2 (Ng k) (conj P (conj Q R))) as [i [E B]]. exists i. split; [exact E|]. apply Cb. auto.
    + destruct (proj2 (Nl k) (conj P (conj Q R))) as [i [E B]]. exists i. split; [exact E|]. apply Cb. auto.
Qed.

(** Without known optima only the linear targets count. *)
Theorem C28_linear : forall log10 pow10 o,
  known_optima o = false \/ number_target_triggers o = 0%N ->
  fin (lin_target_precision o) -> (val (ddec 1 12) < val (lin_target_precision o))%R ->
  exists up, rounds_up (lin_target_precision o) up /\
    forall (C : class) (I : data C -> Prop) f g opt (p : problem C) acts ys total best_gap F,
    observable I f g opt p -> sized (number_of_variables (head p)) (calls_of acts) ->
    let xs := evaluated acts in
    let m := performance p f g opt in
    experiment log10 pow10 o p acts = Ok (ys, Some (total, best_gap, F)) ->
    exists ks, increasing ks /\
      file_is (line_at o p f g opt acts) (line_end o p f g opt acts) (length xs) ks (dat F) /\
      forall k, In k ks <-> k = 1 \/
        (2 <= k /\ improves m xs k /\ new_at m opt xs (rounded_key up) (val DBL_MAX) k).
Proof.
  intros log10 pow10 o Hk Fl Hl.
  destruct (C24_lin_targets _ Fl Hl) as (up & U1 & U2 & U3 & U4 & UC).
  exists up. split; [split; [exact U1|]; split; [exact U2|]; split; [exact U3|exact U4]|].
  intros C I f g opt p acts ys total bg F [HC [Hi [[rest Hb] [Ho H0]]]] S xs m H.
  pose proof (experiment_files log10 pow10 I f g o p opt rest HC Hi Hb Ho H0 acts ys _ S H) as K. cbv zeta in K.
  destruct K as [Ne [_ [_ [[ks [vs [bs [t [K1 [K2 [K3 [K4 K5]]]]]]]] _]]]].
  fold m xs in K2, K3, K5. exists (1 :: pick ks bs). split.
  { constructor; [apply pick_increasing; exact K1|]. apply Forall_forall. intros k H1. apply pick_in, K2 in H1. lia. }
  split; [exact K5|]. unfold T0, new_targets in K4.
  replace ((0 <? number_target_triggers o)%N && known_optima o) with false in K4
    by (destruct Hk as [-> | ->]; [rewrite andb_false_r|]; reflexivity).
  destruct (consult_linear log10 pow10 vs _ _ _ K4) as [tl Cl].
  destruct (UC vs) as [bl2 [tl2 [Cl2 Ml]]]. rewrite Cl in Cl2. assert (bl2 = bs) by congruence. subst bl2.
  pose proof (marks_new m opt xs _ _ ks vs bs K1 K2 K3 Ml) as Nl.
  intros k. cbn [In]. rewrite in_pick, Nl. split; intros [K|K]; auto.
Qed.

(** An improvement at the second evaluation is always written, whatever target the first evaluation has
    reached. *)
Theorem C28_second : forall log10 pow10 o,
  log10_accurate log10 -> log10_monotone log10 -> known_optima o = true ->
  (2 <= number_target_triggers o <= 1000000)%N ->
  fin (log_target_precision o) -> (bpow radix2 (-1000) <= val (log_target_precision o))%R ->
  fin (lin_target_precision o) -> (val (ddec 1 12) < val (lin_target_precision o))%R ->
  forall (C : class) (I : data C -> Prop) f g opt (p : problem C) acts ys total best_gap F,
  observable I f g opt p -> sized (number_of_variables (head p)) (calls_of acts) ->
  (forall x, In x (evaluated acts) -> fin (dsub (performance p f g opt x) opt)) ->
  experiment log10 pow10 o p acts = Ok (ys, Some (total, best_gap, F)) ->
  improves (performance p f g opt) (evaluated acts) 2 ->
  exists l, In l (dat F) /\ f_evaluations l = 2%N.
Proof.
  intros log10 pow10 o Ha Hm Hk Hn Fp Hp Fl Hl C I f g opt p acts ys total bg F Ob S Fin H Im.
  destruct (C23_log_targets log10 pow10 _ _ Ha Hm Hn Fp Hp) as (level & L1 & L2 & L3 & L4 & L5 & _ & _ & LT & LC).
  destruct Ob as [HC [Hi [[rest Hb] [Ho H0]]]].
  pose proof (experiment_files log10 pow10 I f g o p opt rest HC Hi Hb Ho H0 acts ys _ S H) as K. cbv zeta in K.
  destruct K as [Ne [_ [_ [[ks [vs [bs [t [K1 [K2 [K3 [K4 K5]]]]]]]] _]]]].
  assert (H2 : In 2 ks) by (apply K2; split; [lia|exact Im]).
  destruct ks as [|k ks]; [destruct H2|].
  assert (k = 2).
  { destruct H2 as [->|H2]; [reflexivity|]. unfold increasing in K1. inversion K1 as [|? ? _ Q]; subst.
    pose proof (proj1 (Forall_forall _ _) Q 2 H2). pose proof (proj1 (proj1 (K2 k) (or_introl eq_refl))). lia. }
  subst k. unfold gaps_are in K3. inversion K3 as [|? v ? vs' [x [Ex Ev]] K3' Q1 Q2]; subst.
  assert (Fv : fin (dsub (performance p f g opt x) opt)) by (apply Fin; eapply nth_error_In; exact Ex).
  assert (B : exists bs', bs = true :: bs').
  { unfold T0, new_targets in K4. rewrite Hk in K4.
    replace ((0 <? number_target_triggers o)%N && true) with true in K4
      by (destruct (N.ltb_spec 0 (number_target_triggers o)); [reflexivity|lia]).
    destruct (consult_targets log10 pow10 _ _ _ _ _ K4) as [bl [bg' [tl [tg [Cl [Cg Cb]]]]]].
    assert (Fs : Forall fin (dsub (performance p f g opt x) opt :: vs')).
    { constructor; [exact Fv|]. clear - K3' Fin. induction K3' as [|k v ks vs [y [E ->]] K3 IH]; constructor; [|exact IH].
      apply Fin. eapply nth_error_In; exact E. }
    destruct (LC _ Fs) as [bg2 [tg2 [Cg2 [Lg Mg]]]]. rewrite Cg in Cg2. assert (bg2 = bg') by congruence. subst bg2.
    destruct bg' as [|b bg']; [discriminate Lg|].
    assert (Bt : b = true).
    { apply (Mg 0 _ b eq_refl eq_refl). split; [apply IZR_lt, LT, Fv|]. intros j w Hj. lia. }
    assert (B0 : nth_error bs 0 = Some true) by (apply Cb; right; cbn; congruence).
    destruct bs as [|b' bs]; [discriminate B0|]. exists bs. cbn in B0. congruence. }
  destruct B as [bs' ->]. destruct K5 as [ls [Fa K5]].
  cbn [pick combine filter snd map fst] in Fa.
  inversion Fa as [|? l1 ? ls1 _ Fa1 Q1 Q2]; subst. inversion Fa1 as [|? l2 ? ls2 A2 Fa2 Q1 Q2]; subst.
  exists l2. split.
  - destruct K5 as [[_ ->]|[_ [c [_ ->]]]]; [right; left; reflexivity|]. apply in_app_iff. left. right. left. reflexivity.
  - destruct A2 as [before [y [b [v [_ [_ [A2 _]]]]]]]. exact A2.
Qed.

(** ** C29: restarts *)
Theorem C29_restarts : forall log10 pow10 (C : class) (I : data C -> Prop) f g opt o (p : problem C) acts ys total best_gap F,
  observable I f g opt p -> sized (number_of_variables (head p)) (calls_of acts) ->
  experiment log10 pow10 o p acts = Ok (ys, Some (total, best_gap, F)) ->
  exists ks, increasing ks /\ (forall k, In k ks <-> restart_before acts k) /\
    Forall2 (line_at o p f g opt acts) ks (rdat F).
Proof.
  intros log10 pow10 C I f g opt o p acts ys total bg F [HC [Hi [[rest Hb] [Ho H0]]]] S H.
  pose proof (experiment_files log10 pow10 I f g o p opt rest HC Hi Hb Ho H0 acts ys _ S H) as K. cbv zeta in K.
  apply K.
Qed.

(** ** Examples *)

(** f(x) = x0^2 with 1 - x0 <= 0 can be observed, and so can it without the constraint. *)
Definition square_of (x : list double) : double := dmul (hd dnan x) (hd dnan x).
Example square_observable : forall nc, observable (fun _ => True) square_of constraint_of (dint 1) (square_problem nc).
Proof.
  intros nc. split; [|split; [exact Logic.I|split; [exists []; reflexivity|split; reflexivity]]].
  split; [exact square_constraints|]. split.
  - intros h d x y d' _ _ L _ H. cbn [square evaluate_function last_noise_free] in *.
    apply bind_Ok in H as [v [M H]]. destruct x as [|w x]; [discriminate M|].
    cbn in M. assert (w = v) by congruence. subst w. unfold square_of. cbn [hd].
    assert (Y : y = [dmul v v]) by congruence. rewrite Y. reflexivity.
  - intros. reflexivity.
Qed.

(** A pow(10, k/20) that is good enough for small k. *)
Definition step_pow10 (y : double) : double :=
  match to_int (dfloor (dadd (dmul y (dint 20)) (ddec 5 1))) with
  | Ok k => Nat.iter (Z.to_nat k) (dmul (ddec 112201846 8)) (dint 1)
  | _ => dnan
  end.
Definition numbers (r : res (list (list double) * option (N * double * files)))
    : option (N * list N * list N * list N * list N) :=
  match r with
  | Ok (_, Some (total, _, F)) =>
    Some (total, map f_evaluations (dat F), map f_evaluations (tdat F), map f_evaluations (rdat F),
          map f_evaluations (mdat F))
  | _ => None
  end.

(** Differences to the optimum: 8, 7.41, 7.3521, 3, 24, 0.5 (infeasible), 3, 3; the precision is 1.
    The second evaluation is logged although the first one has reached the target 8 already; the last line
    of dat is the closing line. *)
Definition some_actions : list action :=
  [Restart; Call (Constrain [dint 7]); Call (Evaluate [dint 3]); Restart; Call (Recommend [dint 2]);
   Call (Evaluate [dnan]); Call (Evaluate [ddec 29 1]); Call (Evaluate [ddec 289 2]); Call (Evaluate [dint 2]);
   Restart; Restart; Call (Evaluate [dint 5]); Call (Evaluate [ddec 5 1]); Call (Evaluate [dint 2]);
   Call (Evaluate [dint 2]); Restart].
Example C27_example :
  numbers (experiment (fun v => v) step_pow10 (some_options false (dint 1)) (square_problem 1) some_actions)
  = Some (8, [1; 2; 4; 6; 8], [1; 2; 3; 4; 5; 6; 7; 8], [2; 5], [1; 8])%N.
Proof. vm_compute. reflexivity. Qed.
Example C27_example_sized : sized 1 (calls_of some_actions).
Proof. unfold some_actions, sized. repeat constructor. Qed.

(** The restarts of the example: before the evaluations 2 and 5 only. *)
Example C29_example : restart_before some_actions 2 /\ restart_before some_actions 5.
Proof.
  split.
  - exists [Restart; Call (Constrain [dint 7]); Call (Evaluate [dint 3])],
      [Call (Recommend [dint 2]); Call (Evaluate [dnan])], [ddec 29 1]. eexists.
    split; [reflexivity|]. split; [constructor; [vm_compute; reflexivity|constructor]|].
    split; [vm_compute; lia|]. split; vm_compute; reflexivity.
  - exists (firstn 10 some_actions), [], [dint 5]. eexists.
    split; [reflexivity|]. split; [constructor; [vm_compute; reflexivity|constructor]|].
    split; [vm_compute; lia|]. split; vm_compute; reflexivity.
Qed.

(** Targets: a second line within the target of the first line. *)
Theorem C28_same_target_refuted : exists o acts, sized 1 (calls_of acts) /\
  (let gaps := match experiment (fun v => v) step_pow10 o (square_problem 0) acts with
               | Ok (_, Some (_, _, F)) => map gap (dat F) | _ => [] end in
   let target v := match coco_double_round_up_with_precision v (lin_target_precision o) with Ok t => t | _ => dnan end in
   match gaps with
   | [a; b] => deq (target a) (target b) = true /\ dlt b a = true
   | _ => False
   end).
Proof.
  exists (some_options false (dint 1)), [Call (Evaluate [dint 3]); Call (Evaluate [ddec 29 1])].
  split; [repeat constructor|]. vm_compute. split; reflexivity.
Qed.

(** The assumptions of C28_targets on the options. *)
Example C28_example : let o := some_options true (ddec 1 5) in
  known_optima o = true /\ (2 <= number_target_triggers o <= 1000000)%N /\
  fin (log_target_precision o) /\ (bpow radix2 (-1000) <= val (log_target_precision o))%R /\
  fin (lin_target_precision o) /\ (val (ddec 1 12) < val (lin_target_precision o))%R.
Proof.
  cbv zeta. cbn [some_options known_optima number_target_triggers log_target_precision lin_target_precision].
  split; [reflexivity|]. split; [lia|]. split; [vm_compute; reflexivity|]. split.
  - destruct (ddec_inv 8 ltac:(lia)) as (_ & ->).
    assert (Q : bpow radix2 (-1000) = rnd (bpow radix2 (-1000))).
    { symmetry. apply round_generic; [auto with typeclass_instances|]. apply generic_format_bpow. unfold FLT_exp. lia. }
    rewrite Q. apply rnd_mono. apply Rle_trans with (bpow radix2 (-27)); [apply bpow_le; lia|].
    change (/ IZR (10 ^ 8))%R with (/ 100000000)%R. simpl. lra.
  - split; [vm_compute; reflexivity|]. apply (dlt_val (ddec 1 12) (ddec 1 5)); vm_compute; reflexivity.
Qed.

Print Assumptions C27_files.
Print Assumptions C27_progress.
Print Assumptions C27_tdat.
Print Assumptions C27_recommend_only_refuted.
Print Assumptions C28_targets.
Print Assumptions C28_linear.
Print Assumptions C28_second.
Print Assumptions C28_same_target_refuted.
Print Assumptions C29_restarts.
