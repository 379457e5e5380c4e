(** Proofs about the toy and the real-world logger. *)
From Coq Require Import List Arith NArith ZArith Reals Bool Lia Lra.
From Flocq Require Import Core BinarySingleNaN.
Import ListNotations.
From Verif Require Import CBase OptModel DblModel DblSpec DblProofs TrigModel TrigSpec TrigProofs LogProofs ProbModel ProbSpec ProbProofs
  BbobModel BbobSpec BbobProofs LogsModel LogsSpec.
Open Scope nat_scope.

(** ** Logs *)

Lemma combine_snoc : forall A B (l : list A) (m : list B) a b, length l = length m ->
  combine (l ++ [a]) (m ++ [b]) = combine l m ++ [(a, b)].
Proof.
  induction l as [|u l IH]; intros [|v m] a b H; try discriminate H; [reflexivity|].
  cbn. f_equal. apply IH. cbn in H. lia.
Qed.

Lemma chosen_snoc : forall A (rs : list A) bs r b, length bs = length rs ->
  chosen (rs ++ [r]) (bs ++ [b]) = chosen rs bs ++ (if b then [(S (length rs), r)] else []).
Proof.
  intros A rs bs r b H. unfold chosen. rewrite app_length. cbn [length]. rewrite Nat.add_1_r, seq_S.
  rewrite combine_snoc by (now rewrite seq_length).
  rewrite combine_snoc by (rewrite combine_length, seq_length; lia).
  rewrite filter_app, map_app. cbn [filter snd]. destruct b; reflexivity.
Qed.

Lemma logs_nil : forall A B (P : list A -> A -> Prop) (L : nat -> A -> B -> Prop), logs P L [] [].
Proof. intros. exists []. split; [reflexivity|]. split; [intros [|i] r b K; discriminate K|]. constructor. Qed.

Lemma logs_snoc : forall A B (P : list A -> A -> Prop) (L : nat -> A -> B -> Prop) rs ls r (b : bool) new, logs P L rs ls ->
  (b = true <-> P rs r) ->
  (if b then exists l, new = [l] /\ L (S (length rs)) r l else new = []) ->
  logs P L (rs ++ [r]) (ls ++ new).
Proof.
  intros A B P L rs ls r b new (bs & E & M & F) Hb Hn. exists (bs ++ [b]).
  split; [rewrite !app_length; cbn; lia|]. split.
  - intros i r' b' Hr Hb'. destruct (Nat.lt_ge_cases i (length rs)) as [Lt|Ge].
    + rewrite nth_error_app1 in Hr by auto. rewrite nth_error_app1 in Hb' by lia.
      rewrite firstn_app, (proj2 (Nat.sub_0_le i (length rs))) by lia. cbn [firstn]. rewrite app_nil_r. eauto.
    + assert (i = length rs).
      { assert (nth_error (rs ++ [r]) i <> None) by congruence. apply nth_error_Some in H. rewrite app_length in H. cbn in H. lia. }
      subst i. rewrite nth_error_app2, Nat.sub_diag in Hr by lia. rewrite nth_error_app2, E, Nat.sub_diag in Hb' by lia.
      cbn in Hr, Hb'. assert (r' = r) by congruence. assert (b' = b) by congruence. subst.
      rewrite firstn_app, Nat.sub_diag, firstn_all. cbn [firstn]. rewrite app_nil_r. exact Hb.
  - rewrite chosen_snoc by assumption. apply Forall2_app; [assumption|].
    destruct b; [destruct Hn as (l & -> & K)|subst new]; constructor; [exact K|constructor].
Qed.

(** ** Sessions *)

Lemma session_snoc : forall C cs (p : problem C) c ys q, session p (cs ++ [c]) = Ok (ys, q) ->
  exists ys' y p1, session p cs = Ok (ys', p1) /\ perform p1 c = Ok (y, q) /\ ys = ys' ++ [y].
Proof.
  intros C. induction cs as [|d cs IH]; intros p c ys q H; cbn [app session] in H.
  - apply bind_Ok in H as [[y p1] [H K]]. cbn [bind] in K. exists [], y, p.
    assert (ys = [y]) by congruence. assert (p1 = q) by congruence. subst. auto.
  - apply bind_Ok in H as [[y p1] [H K]]. apply bind_Ok in K as [[ys' p2] [K M]].
    assert (ys = y :: ys') by congruence. assert (p2 = q) by congruence. subst.
    apply IH in K as (zs & z & p3 & K1 & K2 & ->). exists (y :: zs), z, p3. cbn [session]. rewrite H. cbn [bind]. rewrite K1. auto.
Qed.

Lemma session_length : forall C cs (p : problem C) ys q, session p cs = Ok (ys, q) -> length ys = length cs.
Proof.
  intros C. induction cs as [|d cs IH]; intros p ys q H; cbn [session] in H; [assert (ys = []) by congruence; subst; reflexivity|].
  apply bind_Ok in H as [[y p1] [H K]]. apply bind_Ok in K as [[ys' p2] [K M]].
  assert (ys = y :: ys') by congruence. subst. cbn. f_equal. eauto.
Qed.

Definition entry_of (c : call) (y : list double) (n : N) : list entry :=
  match c with Evaluate x => if regularb x then [(x, y, n)] else [] | _ => [] end.

Lemma entries_snoc : forall cs c0 c ys y, length ys = length cs ->
  entries c0 (cs ++ [c]) (ys ++ [y]) = entries c0 cs ys ++ entry_of c y (c0 + N.of_nat (counted_constraints cs))%N.
Proof.
  induction cs as [|d cs IH]; intros c0 c [|z ys] y H; try discriminate H.
  - cbn [app entries counted_constraints filter length]. change (N.of_nat (counted_constraints [])) with 0%N.
    rewrite N.add_0_r. destruct c as [x|x|x]; cbn; reflexivity.
  - cbn [app entries]. cbn in H. rewrite counted_c_cons.
    destruct d as [x|x|x]; cbn [weight_c]; rewrite ?IH by lia; rewrite ?N.add_0_l.
    + destruct (regularb x); reflexivity.
    + destruct (regularb x); [|rewrite N.add_0_l; reflexivity].
      replace (c0 + 1 + N.of_nat (counted_constraints cs))%N with (c0 + (1 + N.of_nat (counted_constraints cs)))%N by lia.
      reflexivity.
    + reflexivity.
Qed.

Lemma print_first_spec : forall n x vs, print_first n x = Ok vs -> vs = firstn n x /\ n <= length x.
Proof.
  induction n as [|n IH]; intros x vs H; [cbn in H; split; [cbn; congruence|lia]|].
  destruct x as [|v x]; [discriminate H|]. cbn [print_first] in H. apply bind_Ok in H as [ws [E H]].
  apply IH in E as [-> L]. cbn [firstn length]. split; [congruence|lia].
Qed.

Lemma rw_variables_spec : forall ni b n i x ps, length x = n -> rw_variables n i ni b x = Ok ps ->
  length ps = n /\ forall j v p, nth_error x j = Some v -> nth_error ps j = Some p -> prints ni b (i + j) v p.
Proof.
  intros ni b. induction n as [|n IH]; intros i x ps L H; cbn [rw_variables] in H.
  - assert (ps = []) by congruence. subst ps. split; [reflexivity|]. intros [|j] v p A B; discriminate B.
  - destruct x as [|v x]; [discriminate L|]. cbn [length] in L.
    apply bind_Ok in H as [c [E H]]. apply bind_Ok in H as [cs [E' H]].
    assert (ps = c :: cs) by congruence. subst ps. clear H.
    destruct (IH (S i) x cs ltac:(lia) E') as [Lc P]. split; [cbn [length]; lia|].
    intros [|j] w p A B; cbn [nth_error] in A, B.
    + assert (w = v) by congruence. assert (p = c) by congruence. subst w p. rewrite Nat.add_0_r.
      destruct (Nat.ltb_spec i ni); cbn [andb] in E.
      * destruct b eqn:D.
        -- apply bind_Ok in E as [z [E1 E2]]. assert (c = inl z) by congruence. subst c. cbn. auto.
        -- assert (c = inr v) by congruence. subst c. cbn. split; [intros [_ K]; discriminate K|reflexivity].
      * assert (c = inr v) by congruence. subst c. cbn. split; [lia|reflexivity].
    + replace (i + S j) with (S i + j) by lia. eapply P; eauto.
Qed.

(** ** Toy logger *)

Section Toy.
Variables log10 pow10 : double -> double.
Hypothesis Hacc : log10_accurate log10.
Hypothesis Hmon : log10_monotone log10.
Variable n : N.
Hypothesis Hn : (2 <= n <= 1000000)%N.
Variable p : double.
Hypothesis Fp : fin p.
Hypothesis Hp : (bpow radix2 (-1000) <= val p)%R.
Let lev := LogProofs.level log10 n p.

Lemma log_hit : forall s v s', lt_triggers s = n -> lt_precision s = p -> fin v ->
  log_targets_trigger log10 pow10 s v = Ok (true, s') -> lt_value s' = hit pow10 n lev v.
Proof.
  intros s v s' Es Ep F H.
  pose proof (level_range log10 Hacc n Hn p Fp Hp v F) as LR.
  unfold log_targets_trigger in H. rewrite Es, Ep in H. cbv zeta in H.
  unfold hit. cbv zeta. destruct (dle dzero v) eqn:D.
  - apply bind_Ok in H as [e [E H]]. destruct (Z.ltb_spec e (lt_exponent s)) as [Lt|]; [|congruence].
    assert (e = lev v).
    { destruct (log_step log10 pow10 Hacc n Hn p Fp Hp s v Es Ep F) as (b & s2 & E2 & _ & _ & B & X).
      unfold log_targets_trigger in E2. rewrite Es, Ep in E2. cbv zeta in E2. rewrite D, E in E2. cbn [bind] in E2.
      destruct (Z.ltb_spec e (lt_exponent s)); [|lia].
      match type of E2 with Ok (true, ?u) = _ => assert (s2 = u) by congruence; assert (b = true) by congruence end.
      subst s2. cbn [lt_exponent] in X. fold lev in X. lia. }
    subst e. match type of H with Ok (true, ?u) = _ => assert (s' = u) by congruence end. subst s'. reflexivity.
  - apply bind_Ok in H as [e [E H]]. apply bind_Ok in H as [e0 [E0 H]]. apply bind_Ok in H as [e1 [E1 H]].
    apply bind_Ok in H as [e2 [E2 H]]. apply bind_Ok in H as [e3 [E3 H]].
    destruct (Z.ltb_spec e3 (lt_exponent s)) as [Lt|]; [|congruence].
    match type of H with Ok (true, ?u) = _ => assert (s' = u) by congruence end. subst s'. cbn [lt_value].
    assert (IR : forall a b, int_range a = Ok b -> b = a).
    { intros a b. unfold int_range. destruct ((INT_MIN <=? a) && (a <=? INT_MAX))%Z; congruence. }
    apply IR in E1. apply IR in E2. apply IR in E3.
    assert (V : (val v < 0)%R).
    { destruct (Rlt_or_le (val v) 0) as [|K]; auto. apply (dle_zero v F) in K. congruence. }
    assert (Z0 : e0 = lev dzero).
    { destruct (p10_val n Hn p Fp Hp) as (F10 & V10 & _). destruct (L_ceil log10 Hacc n Hn (ddiv p (dint 10)) F10 V10) as (K & _).
      unfold lev. rewrite (level_zero log10 n p dzero eq_refl eq_refl). congruence. }
    assert (Z1 : e = (2 * lev dzero - lev v - 1)%Z); [|rewrite Z1; reflexivity].
    destruct (below_val p Fp v F V) as (Fb & Vb).
    destruct (L_floor log10 Hacc n Hn (LogProofs.below p v) Fb) as (K & _).
    { rewrite Vb. eapply Rlt_le_trans; [|apply Rmax_l]. apply p_pos. assumption. }
    unfold lev. rewrite (level_neg log10 n p v F V), (level_zero log10 n p dzero eq_refl eq_refl).
    unfold LogProofs.below in K. rewrite K in E. assert (e = Zfloor (L log10 n (LogProofs.below p v))) by (unfold LogProofs.below; congruence).
    lia.
Qed.

Lemma lev_depths : depths n p lev.
Proof.
  intros v F V. unfold lev at 1. rewrite (level_zero log10 n p dzero eq_refl eq_refl).
  match goal with |- at_depth _ _ (?a - ?b - 1)%Z => replace (a - b - 1)%Z with (a - 1 - b)%Z by lia end.
  apply level_depth_at; assumption.
Qed.

Context {C : class}.
Let TC := logger_toy_class log10 pow10 C.

(** What the logger itself remembers *)
Definition toy_same (l l' : toy_data C) : Prop :=
  t_targets l' = t_targets l /\ t_evaluations l' = t_evaluations l /\ t_lines l' = t_lines l.

Lemma toy_constraint_same : forall f h l x u vs l', evaluate_constraint TC = Some f -> f h l x u = Ok (vs, l') -> toy_same l l'.
Proof.
  intros f h l x u vs l' E H. cbn [TC logger_toy_class evaluate_constraint] in E.
  match type of E with Some ?u = _ => assert (f = u) by congruence end. subst f.
  apply bind_Ok in H as [[ws q] [H K]]. assert (l' = toy_set_inner l q) by congruence. subst l'. repeat split.
Qed.

Definition toy_inv (nv : nat) (rs : list entry) (q : problem TC) : Prop :=
  let l : toy_data C := body q in
  number_of_variables (head q) = nv /\ t_evaluations l = N.of_nat (length rs) /\
  lt_triggers (t_targets l) = n /\ lt_precision (t_targets l) = p /\
  (forall v, fin v -> ((lev v < lt_exponent (t_targets l))%Z <-> forall e, In e rs -> (lev v < lev (first_value e))%Z)) /\
  logs (toy_logged lev) (toy_line_is (hit pow10 n lev)) rs (t_lines l).

Lemma toy_inv_same : forall nv rs (q q' : problem TC), static (head q) (head q') -> toy_same (body q) (body q') ->
  toy_inv nv rs q -> toy_inv nv rs q'.
Proof.
  intros nv rs q q' St (S1 & S2 & S3) (A1 & A2 & A3 & A4 & A5 & A6). unfold toy_inv.
  rewrite S1, S2, S3, (static_nv _ _ St). do 5 (split; [assumption|]). assumption.
Qed.

Lemma toy_evaluate_inv : forall nv rs (q : problem TC) x y l c, toy_inv nv rs q -> length x = nv ->
  fin (hd dnan y) ->
  logger_toy_evaluate log10 pow10 (head q) (body q) x = Ok (y, l) ->
  forall h, static (head q) h -> toy_inv nv (rs ++ [(x, y, c)]) (Build_problem TC h l).
Proof.
  intros nv rs q x y l c (A1 & A2 & A3 & A4 & A5 & A6) Lx F H h St. unfold logger_toy_evaluate in H.
  set (old := body q : toy_data C) in *.
  apply bind_Ok in H as [[y' q1] [E1 H]]. cbv zeta in H. apply bind_Ok in H as [y0 [M H]].
  apply bind_Ok in H as [[b t] [E2 H]]. apply bind_Ok in H as [ls [E3 H]].
  match type of H with Ok (_, ?u) = _ => assert (y' = y) by congruence; assert (l = u) by congruence end. subst y' l. clear H.
  assert (y0 = hd dnan y). { destruct y as [|v y]; [discriminate M|]. cbn in M. cbn. congruence. } subst y0. clear M.
  destruct (log_step log10 pow10 Hacc n Hn p Fp Hp (t_targets old) (hd dnan y) A3 A4 F) as (b' & t' & T1 & T2 & T3 & T4 & T5).
  rewrite T1 in E2. assert (Hb' : b' = b) by congruence. assert (t' = t) by congruence. subst t'. rewrite Hb' in T1, T4. clear Hb' E2 b'. fold lev in T4, T5.
  unfold toy_inv. cbn [head body]. cbn [t_evaluations t_targets t_lines].
  split; [rewrite (static_nv _ _ St); assumption|].
  split; [rewrite A2, app_length; cbn [length]; lia|].
  split; [assumption|]. split; [assumption|]. split.
  - intros v Fv. rewrite T5. split.
    + intros K e I. apply in_app_iff in I. destruct I as [I|[<-|[]]].
      * apply (proj1 (A5 v Fv)); [lia|assumption].
      * unfold first_value. cbn [fst snd]. lia.
    + intros K. apply Z.min_glb_lt.
      * apply (proj2 (A5 v Fv)). intros e I. apply K. apply in_app_iff. auto.
      * apply (K (x, y, c)). apply in_app_iff. right. left. reflexivity.
  - assert (HB : b = true <-> toy_logged lev rs (x, y, c)).
    { unfold toy_logged. change (first_value (x, y, c)) with (hd dnan y). rewrite <- (A5 _ F), T4. apply Z.ltb_lt. }
    assert (NEW : exists new, ls = t_lines old ++ new /\
       if b then exists l, new = [l] /\ toy_line_is (hit pow10 n lev) (S (length rs)) (x, y, c) l else new = []).
    { destruct b.
      - apply bind_Ok in E3 as [vs [P E3]]. apply print_first_spec in P as [-> _].
        eexists. split; [symmetry; match type of E3 with Ok ?u = _ => assert (ls = u) as -> by congruence end; reflexivity|].
        eexists. split; [reflexivity|]. unfold toy_line_is. cbn [t_evaluation t_value t_target t_variables fst snd].
        split; [rewrite A2; lia|]. split; [reflexivity|]. split.
        + exact (log_hit (t_targets old) _ _ A3 A4 F T1).
        + rewrite A1, <- Lx. apply firstn_all.
      - exists []. split; [rewrite app_nil_r; congruence|reflexivity]. }
    destruct NEW as (new & -> & NEW). eapply logs_snoc; eauto.
Qed.

Lemma toy_session : forall cs p0 ys q, sized (number_of_variables (head p0)) cs ->
  session (logger_toy log10 pow10 n p p0) cs = Ok (ys, q) ->
  Forall (fun e => fin (first_value e)) (entries 0 cs ys) ->
  toy_inv (number_of_variables (head p0)) (entries 0 cs ys) q.
Proof.
  intros cs p0. set (nv := number_of_variables (head p0)).
  induction cs as [|c cs IH] using rev_ind; intros ys q Sz H F.
  - cbn [session] in H. match type of H with Ok (_, ?u) = _ => assert (q = u) by congruence end. subst q. assert (ys = []) by congruence. subst ys.
    unfold toy_inv, logger_toy. cbn [head body]. cbn [t_evaluations t_targets t_lines].
    split; [reflexivity|]. split; [reflexivity|]. split; [reflexivity|]. split; [reflexivity|]. split.
    + intros v Fv. split; [intros _ e I; destruct I|]. intros _.
      pose proof (level_range log10 Hacc n Hn p Fp Hp v Fv). cbn [new_log_targets lt_exponent]. unfold INT_MAX, lev. lia.
    + apply logs_nil.
  - apply session_snoc in H as (ys' & y & q1 & H1 & H2 & ->). pose proof (session_length _ _ _ _ _ H1) as Len.
    rewrite entries_snoc in F |- * by assumption. unfold sized in Sz. apply Forall_app in Sz as [Sz Sc].
    apply Forall_app in F as [F1 F2]. specialize (IH ys' q1 Sz H1 F1). inversion Sc as [|? ? Lc _]; subst.
    set (rs := entries 0 cs ys') in *. fold nv in Lc.
    assert (NV : number_of_variables (head q1) = nv) by apply IH.
    destruct (perform_counts q1 c y q ltac:(congruence) H2) as (St & _ & _).
    destruct c as [x|x|x]; cbn [perform argument entry_of] in *.
    + destruct (classify x) as [[R E]|[[R E]|[R E]]]; rewrite E in F2 |- *.
      * destruct (eval_regular q1 x y q ltac:(congruence) R H2) as (d & E1 & _ & D). cbv zeta in D.
        inversion F2 as [|? ? Fv _]; subst. unfold first_value in Fv. cbn [fst snd] in Fv.
        pose proof (toy_evaluate_inv nv rs q1 x y d (0 + N.of_nat (counted_constraints cs))%N IH Lc Fv E1) as K.
        destruct D as [[_ ->]|[_ [[_ ->]|[_ (f & vs & d' & b & Ef & Ev & _ & ->)]]]].
        -- apply K. apply static_with.
        -- apply K. apply static_with.
        -- apply (toy_inv_same _ _ (Build_problem TC (head q1) d)); [|exact (toy_constraint_same _ _ _ _ _ _ _ Ef Ev)|apply K; apply static_refl].
           cbn [head]. destruct b; apply static_with.
      * rewrite (eval_inf q1 x ltac:(congruence) R) in H2. apply Ok_pair_snd in H2. subst q. rewrite app_nil_r. assumption.
      * rewrite (eval_nan q1 x ltac:(congruence) R) in H2. apply Ok_pair_snd in H2. subst q. rewrite app_nil_r. assumption.
    + rewrite app_nil_r. apply (toy_inv_same _ _ q1); [assumption| |assumption].
      destruct (classify x) as [[R E]|[[R E]|[R E]]].
      * destruct (cons_regular q1 x true y q ltac:(congruence) R H2) as (f & Ef & Ev & _). exact (toy_constraint_same _ _ _ _ _ _ _ Ef Ev).
      * unfold coco_evaluate_constraint in H2. rewrite (cons_inf _ q1 x true eq_refl ltac:(congruence) R) in H2. apply Ok_pair_snd in H2. subst q. repeat split.
      * unfold coco_evaluate_constraint in H2. rewrite (cons_nan _ q1 x true eq_refl ltac:(congruence) R) in H2. apply Ok_pair_snd in H2. subst q. repeat split.
    + rewrite app_nil_r. apply (toy_inv_same _ _ q1); [assumption| |assumption].
      apply bind_Ok in H2 as [q2 [H2 K]]. apply Ok_pair_snd in K. subst q2.
      unfold coco_recommend_solution in H2. cbn [TC logger_toy_class recommend_solution] in H2.
      apply bind_Ok in H2 as [d [H2 K]]. apply bind_Ok in H2 as [i [_ H2]].
      assert (q = set_body q1 d) by congruence. subst q. cbn [body set_body].
      assert (d = toy_set_inner (body q1) i) by congruence. subst d. repeat split.
Qed.
End Toy.

(** ** Real-world logger *)

Section Rw.
Context {C : class}.
Variables (n : nat) (I : data C -> Prop) (g : list double -> list double).
Hypothesis HC : constraints_are C n I g.
Let RC := logger_rw_class C.

Definition good_inner (p : problem C) : Prop := number_of_variables (head p) = n /\ I (body p).

Lemma inner_evaluate : forall p x y q, good_inner p -> length x = n -> coco_evaluate_function p x = Ok (y, q) -> good_inner q.
Proof.
  intros p x y q [V B] L H. pose proof (eval_counts p x y q ltac:(lia) H) as [St _].
  split; [rewrite (static_nv _ _ St); exact V|].
  exact (perform_inv n I g p (Evaluate x) y q HC V L B H).
Qed.

Lemma inner_constraint : forall p x u vs q, good_inner p -> length x = n ->
  coco_evaluate_constraint_optional_update p x u = Ok (vs, q) -> good_inner q.
Proof.
  intros p x u vs q [V B] L H. destruct HC as [_ [_ Pc]]. split.
  - pose proof (cons_counts p x u vs q ltac:(lia) H) as K. rewrite K. exact V.
  - destruct (classify x) as [[R E]|[[R E]|[R E]]].
    + destruct (cons_regular p x u vs q ltac:(lia) R H) as [e [Ee [Ev _]]].
      exact (proj1 (Pc e Ee _ _ _ _ _ _ B V Ev)).
    + destruct (evaluate_constraint C) as [e|] eqn:F.
      * rewrite (cons_inf e p x u F ltac:(lia) R) in H. apply Ok_pair_snd in H. subst q. exact B.
      * unfold coco_evaluate_constraint_optional_update in H. rewrite F in H. discriminate H.
    + destruct (evaluate_constraint C) as [e|] eqn:F.
      * rewrite (cons_nan e p x u F ltac:(lia) R) in H. apply Ok_pair_snd in H. subst q. exact B.
      * unfold coco_evaluate_constraint_optional_update in H. rewrite F in H. discriminate H.
Qed.

Lemma inner_recommend : forall p x q, good_inner p -> length x = n -> coco_recommend_solution p x = Ok q -> good_inner q.
Proof.
  intros p x q [V B] L H. split; [now rewrite (recommend_head p x q H)|].
  apply (perform_inv n I g p (Recommend x) [] q HC V L B). cbn [perform]. rewrite H. reflexivity.
Qed.

Lemma inner_values : forall nc p x vs q, good_inner p -> length x = n -> regular x ->
  inner_constraints nc p x = Ok (vs, q) ->
  good_inner q /\ vs = if (nc =? 0)%nat then None else Some (g x).
Proof.
  intros nc p x vs q [V B] L R H. destruct HC as [_ [_ Pc]]. unfold inner_constraints in H.
  destruct (Nat.ltb_spec 0 nc); destruct (Nat.eqb_spec nc 0); try lia.
  - destruct (evaluate_constraint C) as [e|] eqn:F; [|discriminate H].
    apply bind_Ok in H as [[ws d] [E H]].
    assert (vs = Some ws) by congruence. apply Ok_pair_snd in H. subst vs q.
    destruct (Pc e eq_refl _ _ _ _ _ _ B V E) as [B' G]. split; [split; [exact V|exact B']|].
    rewrite (G L R). reflexivity.
  - assert (vs = None) by congruence. apply Ok_pair_snd in H. subst vs q. split; [split; assumption|reflexivity].
Qed.

Definition rw_same (l l' : rw_data C) : Prop := l' = rw_set_inner l (r_inner l') /\ (good_inner (r_inner l) -> good_inner (r_inner l')).

Lemma rw_constraint_same : forall f h l x u vs l', length x = n -> evaluate_constraint RC = Some f -> f h l x u = Ok (vs, l') -> rw_same l l'.
Proof.
  intros f h l x u vs l' L E H. cbn [RC logger_rw_class evaluate_constraint] in E.
  match type of E with Some ?u = _ => assert (f = u) by congruence end. subst f.
  apply bind_Ok in H as [[ws q] [H K]]. assert (l' = rw_set_inner l q) by congruence. subst l'. split; [reflexivity|].
  intros G. exact (inner_constraint _ _ _ _ _ G L H).
Qed.

Variables (o : observer_rw_data) (as_int : bool) (h0 : header).
Hypothesis Hn : number_of_variables h0 = n.
Let single := (number_of_objectives h0 =? 1)%nat.
Let only := negb (observer_only_better o =? 0)%Z.

Definition rw_inv (c : N) (rs : list entry) (q : problem RC) : Prop :=
  let l : rw_data C := body q in
  static h0 (head q) /\ evaluations_constraints (head q) = c /\ good_inner (r_inner l) /\
  r_evaluations l = N.of_nat (length rs) /\
  r_log_vars l = rw_log_vars o h0 /\ r_log_cons l = rw_log_cons o h0 /\ r_only_better l = only && single /\
  r_log_time l = negb (observer_log_time o =? 0)%Z /\ r_as_int l = as_int /\
  (single = true -> forall v, below v (r_best l) <-> below v DBL_MAX /\ forall e, In e rs -> num (first_value e) -> below v (first_value e)) /\
  logs (rw_logged only (number_of_objectives h0)) (rw_line_is o as_int h0 g) rs (r_lines l).

Lemma rw_inv_same : forall c c' rs (q q' : problem RC), static (head q) (head q') -> evaluations_constraints (head q') = c' ->
  rw_same (body q) (body q') -> rw_inv c rs q -> rw_inv c' rs q'.
Proof.
  intros c c' rs q q' St Ec (S1 & S2) (A0 & A1 & A2 & A3 & A4 & A5 & A6 & A7 & A8 & A9 & A10). unfold rw_inv.
  split; [eapply static_trans; eauto|]. split; [assumption|]. split; [apply S2; assumption|].
  rewrite S1. cbn [rw_set_inner r_evaluations r_log_vars r_log_cons r_only_better r_log_time r_as_int r_best r_lines].
  do 7 (split; [assumption|]). assumption.
Qed.

Lemma static_fields : forall h h', static h h' -> number_of_objectives h' = number_of_objectives h /\
  number_of_constraints h' = number_of_constraints h /\ number_of_integer_variables h' = number_of_integer_variables h /\
  number_of_variables h' = number_of_variables h.
Proof. intros h h' E. rewrite E. cbn [with_counters number_of_objectives number_of_constraints number_of_integer_variables number_of_variables]. auto. Qed.

Lemma shown_vars : rw_log_vars o h0 = shown (log_vars_mode o) (low_dim_vars o) (number_of_variables h0).
Proof.
  unfold rw_log_vars, shown. destruct (log_vars_mode o); try reflexivity.
  destruct (N.ltb_spec (low_dim_vars o) (N.of_nat (number_of_variables h0))); destruct (N.leb_spec (N.of_nat (number_of_variables h0)) (low_dim_vars o)); try reflexivity; lia.
Qed.
Lemma shown_cons : forall (A : Type) (l : list A), (if rw_log_cons o h0 then firstn (number_of_constraints h0) l else []) =
  (if shown (log_cons_mode o) (low_dim_cons o) (number_of_constraints h0) then firstn (number_of_constraints h0) l else []).
Proof.
  intros A l. unfold rw_log_cons, shown. destruct (Nat.eqb_spec (number_of_constraints h0) 0) as [E|NE].
  - rewrite E. cbn [firstn]. rewrite orb_true_r. cbn [negb]. destruct (log_cons_mode o); try reflexivity.
    destruct (N.of_nat 0 <=? low_dim_cons o)%N; reflexivity.
  - rewrite orb_false_r. destruct (log_cons_mode o); try reflexivity.
    destruct (N.ltb_spec (low_dim_cons o) (N.of_nat (number_of_constraints h0))); destruct (N.leb_spec (N.of_nat (number_of_constraints h0)) (low_dim_cons o)); try reflexivity; lia.
Qed.

Lemma below_num : forall a b c, below a b -> num c -> ~ below c b -> below a c.
Proof.
  intros a b c (H1 & H2 & H3) H4 H5. unfold below. split; [assumption|]. split; [assumption|].
  destruct (Rlt_or_le (val a) (val c)) as [|K]; [assumption|]. exfalso. apply H5. split; [assumption|]. split; [assumption|]. lra.
Qed.

Lemma rw_evaluate_inv : forall c rs (q : problem RC) x y l, rw_inv c rs q -> length x = n -> regular x -> 0 < length y ->
  logger_rw_evaluate (head q) (body q) x = Ok (y, l) ->
  forall h, static (head q) h -> evaluations_constraints h = c -> rw_inv c (rs ++ [(x, y, c)]) (Build_problem RC h l).
Proof.
  intros c rs q x y l (A0 & A1 & A2 & A3 & A4 & A5 & A6 & A7 & A8 & A9 & A10) Lx R Ly H h St Ec. unfold logger_rw_evaluate in H.
  set (old := body q : rw_data C) in *. destruct (static_fields _ _ A0) as (F1 & F2 & F3 & F4). rewrite F1, F2, F3, F4, A1 in H.
  fold single in H.
  apply bind_Ok in H as [[y' q1] [E1 H]]. cbv zeta in H. apply bind_Ok in H as [cur [E2 H]].
  apply bind_Ok in H as [[cons q2] [E3 H]]. apply bind_Ok in H as [ls [E4 H]].
  match type of H with Ok (_, ?u) = _ => assert (y' = y) by congruence; assert (l = u) by congruence end. subst y' l. clear H.
  pose proof (inner_evaluate _ _ _ _ A2 Lx E1) as G1. destruct (inner_values _ _ _ _ _ G1 Lx R E3) as [G2 Hcons].
  assert (Hcur : single = true -> cur = hd dnan y).
  { intros K. rewrite K in E2. destruct y as [|v y]; [discriminate E2|]. cbn in E2. cbn. congruence. }
  unfold rw_inv. cbn [head body]. cbn [r_inner r_evaluations r_log_vars r_log_cons r_only_better r_log_time r_as_int r_best r_lines].
  split; [eapply static_trans; eauto|]. split; [assumption|]. split; [assumption|].
  split; [rewrite A3, app_length; cbn [length]; lia|].
  split; [assumption|]. split; [assumption|]. split; [assumption|]. split; [assumption|]. split; [assumption|].
  split.
  - intros K v. specialize (A9 K). rewrite K in *. cbn [andb]. specialize (Hcur eq_refl). subst cur.
    assert (IFF : (forall e, In e (rs ++ [(x, y, c)]) -> num (first_value e) -> below v (first_value e)) <->
       (forall e, In e rs -> num (first_value e) -> below v (first_value e)) /\ (num (hd dnan y) -> below v (hd dnan y))).
    { split.
      - intros W. split; [intros e Ie; apply W; apply in_app_iff; auto|]. apply (W (x, y, c)). apply in_app_iff. right. left. reflexivity.
      - intros [W1 W2] e Ie. apply in_app_iff in Ie as [Ie|[<-|[]]]; [auto|]. exact W2. }
    rewrite IFF. destruct (dlt (hd dnan y) (r_best old)) eqn:D.
    + apply below_dlt in D. split.
      * intros V. pose proof (below_trans _ _ _ V D) as V2. apply A9 in V2. tauto.
      * intros (V1 & V2 & V3). apply V3. apply D.
    + split.
      * intros V. pose proof (proj1 (A9 v) V). split; [tauto|]. split; [tauto|]. intros Nm.
        apply (below_num v (r_best old)); [assumption|assumption|]. intros B. apply below_dlt in B. congruence.
      * intros (V1 & V2 & _). apply A9. auto.
  - set (better := single && dlt cur (r_best old)) in *.
    set (this := if better then true else if single then negb (r_only_better old) else true) in *.
    set (b := (r_evaluations old + 1 =? 1)%N || this) in *.
    assert (HB : b = true <-> rw_logged only (number_of_objectives h0) rs (x, y, c)).
    { unfold b, this, better, rw_logged. rewrite A3, A6. change (first_value (x, y, c)) with (hd dnan y).
      destruct rs as [|r rs]; [cbn [length]; change (N.of_nat 0 + 1 =? 1)%N with true; cbn [orb]; split; [intros _ _ _ K; exfalso; apply K; reflexivity|reflexivity]|].
      replace (N.of_nat (length (r :: rs)) + 1 =? 1)%N with false by (symmetry; apply N.eqb_neq; cbn [length]; lia). cbn [orb].
      destruct single eqn:Sg.
      - specialize (A9 eq_refl). rewrite (Hcur eq_refl). cbn [andb]. rewrite andb_true_r.
        assert (NO : number_of_objectives h0 = 1) by (now apply Nat.eqb_eq).
        destruct (dlt (hd dnan y) (r_best old)) eqn:D.
        + apply below_dlt in D. apply A9 in D. split; [intros _ _ _ _; exact D|reflexivity].
        + destruct only; cbn [negb]; [|split; [intros _ K; discriminate K|reflexivity]].
          split; [discriminate|]. intros K. exfalso.
          assert (NE : r :: rs <> []) by (intros Q; discriminate Q). pose proof (K eq_refl NO NE) as K2.
          assert (B : below (hd dnan y) (r_best old)) by (apply A9; exact K2). apply below_dlt in B. congruence.
      - cbn [andb]. split; [intros _ _ K; exfalso; apply Nat.eqb_neq in Sg; auto|reflexivity]. }
    assert (NEW : exists new, ls = r_lines old ++ new /\
       if b then exists l, new = [l] /\ rw_line_is o as_int h0 g (S (length rs)) (x, y, c) l else new = []).
    { destruct b.
      - apply bind_Ok in E4 as [obs [P1 E4]]. apply bind_Ok in E4 as [vs [P2 E4]]. apply bind_Ok in E4 as [ws [P3 E4]].
        eexists. split; [symmetry; match type of E4 with Ok ?u = _ => assert (ls = u) as -> by congruence end; reflexivity|].
        eexists. split; [reflexivity|]. unfold rw_line_is.
        cbn [r_function r_constraint r_objectives r_variables r_constraints r_timed].
        apply print_first_spec in P1 as [-> P1].
        split; [rewrite A3; lia|]. split; [reflexivity|]. split; [reflexivity|]. split; [assumption|]. split; [|split].
        + rewrite A4, shown_vars, A8 in P2. destruct (shown (log_vars_mode o) (low_dim_vars o) (number_of_variables h0)); [|congruence].
          apply rw_variables_spec in P2; [|rewrite Hn; assumption]. rewrite Hn, <- Lx in P2. exact P2.
        + rewrite <- shown_cons. rewrite A5 in P3. destruct (rw_log_cons o h0) eqn:Lc; [|congruence].
          rewrite Hcons in P3. destruct (Nat.eqb_spec (number_of_constraints h0) 0) as [Z|NZ].
          * rewrite Z in *. cbn in P3. cbn [firstn]. congruence.
          * apply print_first_spec in P3 as [-> _]. reflexivity.
        + assumption.
      - exists []. split; [rewrite app_nil_r; congruence|reflexivity]. }
    destruct NEW as (new & -> & NEW). eapply logs_snoc; eauto.
Qed.
End Rw.

Lemma rw_session : forall (C : class) (I : data C -> Prop) g o as_int cs (p0 : problem C) ys q,
  constraints_are C (number_of_variables (head p0)) I g -> I (body p0) ->
  sized (number_of_variables (head p0)) cs ->
  session (logger_rw o as_int p0) cs = Ok (ys, q) ->
  let c := evaluations_constraints (head p0) in
  rw_inv (number_of_variables (head p0)) I g o as_int (head p0) (c + N.of_nat (counted_constraints cs)) (entries c cs ys) q.
Proof.
  intros C I g o as_int cs p0 ys q HC HI Sz H c. set (nv := number_of_variables (head p0)) in *.
  set (RC := logger_rw_class C). revert ys q Sz H.
  induction cs as [|d cs IH] using rev_ind; intros ys q Sz H.
  - cbn [session] in H. match type of H with Ok (_, ?u) = _ => assert (q = u) by congruence end. subst q. assert (ys = []) by congruence. subst ys.
    unfold rw_inv, logger_rw. cbn [head body entries].
    cbn [r_inner r_evaluations r_log_vars r_log_cons r_only_better r_log_time r_as_int r_best r_lines].
    change (N.of_nat (counted_constraints [])) with 0%N.
    split; [apply static_refl|]. split; [lia|]. split; [split; [reflexivity|assumption]|]. split; [reflexivity|].
    do 5 (split; [reflexivity|]). split; [|apply logs_nil].
    intros _ v. split; [intros K; split; [assumption|intros e []]|]. tauto.
  - apply session_snoc in H as (ys' & y & q1 & H1 & H2 & ->). pose proof (session_length _ _ _ _ _ H1) as Len.
    rewrite entries_snoc by assumption. unfold sized in Sz. apply Forall_app in Sz as [Sz Sc].
    specialize (IH ys' q1 Sz H1). inversion Sc as [|? ? Lc _]; subst.
    set (rs := entries c cs ys') in *.
    set (c1 := (c + N.of_nat (counted_constraints cs))%N) in *.
    assert (NV : number_of_variables (head q1) = nv) by (apply static_nv; apply IH).
    destruct (perform_counts q1 d y q ltac:(congruence) H2) as (St & _ & Ec).
    assert (Eq1 : evaluations_constraints (head q1) = c1) by apply IH.
    assert (Ecnt : (c + N.of_nat (counted_constraints (cs ++ [d])))%N = (c1 + weight_c d)%N).
    { unfold counted_constraints. rewrite filter_app, app_length. fold (counted_constraints cs). unfold c1.
      destruct d as [x|x|x]; cbn [filter weight_c length]; try lia. destruct (regularb x); cbn [length]; lia. }
    rewrite Ecnt. rewrite Eq1 in Ec.
    destruct d as [x|x|x]; cbn [perform argument entry_of weight_c] in *.
    + rewrite N.add_0_r in *. destruct (classify x) as [[R E]|[[R E]|[R E]]]; rewrite E.
      * destruct (eval_regular q1 x y q ltac:(congruence) R H2) as (dd & E1 & Ly & D). cbv zeta in D.
        pose proof (rw_evaluate_inv nv I g HC o as_int (head p0) eq_refl c1 rs q1 x y dd IH Lc R Ly E1) as K.
        destruct D as [[_ ->]|[_ [[_ ->]|[_ (f & vs & d' & b & Ef & Ev & _ & ->)]]]].
        -- apply K; [apply static_with|assumption].
        -- apply K; [apply static_with|assumption].
        -- apply (rw_inv_same nv I g o as_int (head p0) c1 c1 _ (Build_problem RC (head q1) dd));
             [| |exact (rw_constraint_same nv I g HC _ _ _ _ _ _ _ Lc Ef Ev)|apply K; [apply static_refl|assumption]].
           ++ cbn [head]. destruct b; apply static_with.
           ++ cbn [head]. destruct b; cbn [bumped with_counters evaluations_constraints]; assumption.
      * rewrite (eval_inf q1 x ltac:(congruence) R) in H2. apply Ok_pair_snd in H2. subst q. rewrite app_nil_r. assumption.
      * rewrite (eval_nan q1 x ltac:(congruence) R) in H2. apply Ok_pair_snd in H2. subst q. rewrite app_nil_r. assumption.
    + rewrite app_nil_r. apply (rw_inv_same nv I g o as_int (head p0) c1 _ _ q1); [assumption|assumption| |assumption].
      destruct (classify x) as [[R E]|[[R E]|[R E]]].
      * destruct (cons_regular q1 x true y q ltac:(congruence) R H2) as (f & Ef & Ev & _). exact (rw_constraint_same nv I g HC _ _ _ _ _ _ _ Lc Ef Ev).
      * unfold coco_evaluate_constraint in H2. rewrite (cons_inf _ q1 x true eq_refl ltac:(congruence) R) in H2. apply Ok_pair_snd in H2. subst q.
        split; [destruct (body q1); reflexivity|tauto].
      * unfold coco_evaluate_constraint in H2. rewrite (cons_nan _ q1 x true eq_refl ltac:(congruence) R) in H2. apply Ok_pair_snd in H2. subst q.
        split; [destruct (body q1); reflexivity|tauto].
    + rewrite app_nil_r. apply (rw_inv_same nv I g o as_int (head p0) c1 _ _ q1); [assumption|assumption| |assumption].
      apply bind_Ok in H2 as [q2 [H2 K]]. apply Ok_pair_snd in K. subst q2.
      unfold coco_recommend_solution in H2. cbn [logger_rw_class recommend_solution] in H2.
      apply bind_Ok in H2 as [dd [H2 K]]. apply bind_Ok in H2 as [i [W H2]].
      assert (q = set_body q1 dd) by congruence. subst q. cbn [body set_body].
      assert (dd = rw_set_inner (body q1) i) by congruence. subst dd. split; [reflexivity|].
      intros G. exact (inner_recommend nv I g HC _ _ _ G Lc W).
Qed.
