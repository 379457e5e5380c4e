(** The two trees of the bi-objective logger. *)
From Coq Require Import List Arith ZArith Bool Lia ZifyBool ZifyNat Sorted Permutation.
Import ListNotations.
From Verif Require Import CBase MoModel BiobjModel FrontSpec BiobjSpec MoProofs FrontProofs AreaProofs KeptProofs.
Open Scope Z_scope.

Definition entry_of (i : item) : entry := (npt i, (eval_no i, data i)).

(** Contributions. *)
Definition next_w (i : item) : Z := if within i then fst (npt i) else one.
Definition expected_contribution (w : Z) (i : item) : Z :=
  if within i then (w - fst (npt i)) * (one - snd (npt i)) else 0.
Fixpoint contribs (w : Z) (l : list item) : Prop :=
  match l with
  | [] => True
  | i :: l' => contribution i = expected_contribution w i /\ contribs (next_w i) l'
  end.
Definition after_w (w : Z) (l : list item) : Z := fold_left (fun _ i => next_w i) l w.
Definition total (l : list item) : Z := fold_right (fun i s => contribution i + s) 0 l.

Lemma contribs_app : forall l1 l2 w, contribs w (l1 ++ l2) <-> contribs w l1 /\ contribs (after_w w l1) l2.
Proof.
  induction l1 as [|i l1 IH]; intros l2 w; simpl; [tauto|]. rewrite IH. unfold after_w. simpl. tauto.
Qed.
Lemma after_w_app : forall l1 l2 w, after_w w (l1 ++ l2) = after_w (after_w w l1) l2.
Proof. intros. unfold after_w. apply fold_left_app. Qed.
Lemma total_app : forall l1 l2, total (l1 ++ l2) = total l1 + total l2.
Proof. induction l1 as [|i l1 IH]; intros l2; simpl; auto. rewrite IH. lia. Qed.

(** Points inside the region of interest. *)
Lemma within_grid : forall p, on_grid p -> 0 <= fst p -> 0 <= snd p ->
  mo_is_within_ROI p = (fst p <=? one) && (snd p <=? one).
Proof.
  intros [u v] [[a Ha] [b Hb]] H1 H2. cbn [fst snd] in *.
  unfold mo_is_within_ROI, value_within, almost_equal, mo_precision, one. cbn [fst snd]. subst.
  assert (G : forall c, 0 <= 10 * c ->
    ((Z.abs (10 * c - 0) <? 2) || (Z.abs (10 * c - 20000000000000) <? 2) || ((0 <? 10 * c) && (10 * c <? 20000000000000)))
    = (10 * c <=? 20000000000000)) by (intros c Hc; lia).
  rewrite !G by auto. reflexivity.
Qed.

Definition wf_item (i : item) : Prop :=
  on_grid (npt i) /\ 0 <= fst (npt i) /\ 0 <= snd (npt i) /\ within i = mo_is_within_ROI (npt i) /\ feasible i = true.

Lemma wf_within : forall i, wf_item i -> within i = (fst (npt i) <=? one) && (snd (npt i) <=? one).
Proof. intros i (H1 & H2 & H3 & -> & _). now apply within_grid. Qed.

(** The contributions add up to the area. *)
Lemma filter_none : forall A (f : A -> bool) l, Forall (fun x => f x = false) l -> filter f l = [].
Proof. intros A f l H. induction H; simpl; auto. now rewrite H. Qed.

Lemma contribs_outside : forall l w, contribs w l -> Forall (fun i => within i = false) l -> total l = 0.
Proof.
  induction l as [|i l IH]; intros w; simpl; auto. intros [C Cs] F. inversion F; subst.
  unfold expected_contribution in C. rewrite H1 in C. rewrite C. rewrite (IH _ Cs); auto.
Qed.

Lemma contribs_total : forall l w, contribs w l -> stair item npt l -> Forall wf_item l ->
  (w = one \/ (w <= one /\ Forall (fun i => fst (npt i) < w) l)) ->
  total l = stair_area one w (map npt (filter within l)).
Proof.
  induction l as [|i l IH]; intros w C Hs Hw Hc; [reflexivity|].
  cbn [contribs] in C. destruct C as [C Cs]. inversion Hw; subst. unfold stair in Hs. inversion Hs; subst.
  pose proof (wf_within i H1) as Wi.
  cbn [total fold_right filter]. fold (total l). unfold expected_contribution in C. unfold next_w in Cs.
  rewrite Forall_forall in H4.
  destruct (within i) eqn:W.
  - cbn [map stair_area]. rewrite C. f_equal. apply IH; auto.
    right. split; [lia|]. rewrite Forall_forall. intros j Hj. specialize (H4 j Hj). unfold step in H4. lia.
  - rewrite C. destruct Hc as [->|[Hc1 Hc2]].
    + rewrite (IH one); auto.
    + inversion Hc2; subst.
      assert (F : Forall (fun j => within j = false) l).
      { rewrite Forall_forall. intros j Hj. specialize (H4 j Hj). unfold step in H4.
        rewrite Forall_forall in H2. rewrite (wf_within j) by auto. lia. }
      rewrite (contribs_outside l _ Cs F). rewrite (filter_none _ _ _ F). reflexivity.
Qed.

(** Records. *)
Definition buf_ok (t : trees) : Prop :=
  (forall b, In b (buffer t) -> exists a, In a (archive t) /\ addr a = addr b /\ eval_no a = eval_no b) /\
  StronglySorted (fun a b => (eval_no a < eval_no b)%nat) (buffer t).
Definition eval_inj (l : list item) : Prop := forall a b, In a l -> In b l -> eval_no a = eval_no b -> a = b.
Definition owned (t : trees) : list nat := freed t ++ map addr (archive t).

Lemma is_freed_false : forall f i, ~ In (addr i) f -> is_freed f i = false.
Proof.
  intros f i H. unfold is_freed. destruct (existsb _ f) eqn:X; auto.
  apply existsb_exists in X as (a & Ha & E). apply Nat.eqb_eq in E. subst. contradiction.
Qed.

Lemma alive : forall t i, NoDup (owned t) -> In i (archive t) -> ~ In (addr i) (freed t).
Proof.
  intros t i N Hi Hf. unfold owned in N. revert N Hf. generalize (freed t) as f. induction f as [|a f IH]; simpl; auto.
  intros N [->|Hf].
  - inversion N; subst. apply H1, in_or_app. right. now apply in_map.
  - inversion N; subst. auto.
Qed.

Lemma touch_archive : forall t i, NoDup (owned t) -> In i (archive t) -> touch (freed t) i = Ok tt.
Proof. intros. unfold touch. rewrite is_freed_false; auto. now apply alive. Qed.

Lemma touch_all_ok : forall f l, (forall i, In i l -> ~ In (addr i) f) -> touch_all f l = Ok tt.
Proof.
  intros f l H. unfold touch_all. destruct (existsb _ l) eqn:X; auto.
  apply existsb_exists in X as (i & Hi & E). rewrite is_freed_false in E by auto. discriminate.
Qed.

Lemma touch_all_archive : forall t, NoDup (owned t) -> touch_all (freed t) (archive t) = Ok tt.
Proof. intros t N. apply touch_all_ok. intros. now apply alive. Qed.

Lemma touch_all_buffer : forall t, NoDup (owned t) -> buf_ok t -> touch_all (freed t) (buffer t) = Ok tt.
Proof.
  intros t N [B _]. apply touch_all_ok. intros i Hi. destruct (B i Hi) as (a & Ha & <- & _). now apply alive.
Qed.

Lemma compare_eval_eq : forall a b, (compare_eval a b =? 0) = Nat.eqb (eval_no a) (eval_no b).
Proof.
  intros a b. unfold compare_eval. destruct (Nat.ltb_spec (eval_no a) (eval_no b)), (Nat.ltb_spec (eval_no b) (eval_no a)), (Nat.eqb_spec (eval_no a) (eval_no b)); simpl; auto; lia.
Qed.
Lemma compare_eval_lt : forall a b, (compare_eval a b <? 0) = Nat.ltb (eval_no a) (eval_no b).
Proof.
  intros a b. unfold compare_eval. destruct (Nat.ltb_spec (eval_no a) (eval_no b)), (Nat.ltb_spec (eval_no b) (eval_no a)); simpl; auto; lia.
Qed.

Definition by_eval (a b : item) : Prop := (eval_no a < eval_no b)%nat.

Lemma delete_eval : forall n l, StronglySorted by_eval l ->
  StronglySorted by_eval (delete_item item compare_eval n l) /\
  forall b, In b (delete_item item compare_eval n l) <-> In b l /\ eval_no b <> eval_no n.
Proof.
  intros n l Hs. induction Hs as [|e l Hs [IH1 IH2] Hf]; simpl.
  - split; [constructor | tauto].
  - rewrite compare_eval_eq. rewrite Forall_forall in Hf. destruct (Nat.eqb_spec (eval_no n) (eval_no e)).
    + split; auto. intros b. split.
      * intros Hb. split; auto. specialize (Hf b Hb). unfold by_eval in Hf. lia.
      * intros [[->|Hb] Hn]; auto. lia.
    + split.
      * constructor; auto. rewrite Forall_forall. intros b Hb. apply IH2 in Hb. now apply Hf.
      * intros b. simpl. rewrite IH2. split.
        { intros [->|[Hb Hn]]; auto. }
        { intros [[->|Hb] Hn]; auto. }
Qed.

Lemma remove_node_spec : forall n l1 l2, NoDup (map addr (l1 ++ n :: l2)) -> remove_node n (l1 ++ n :: l2) = l1 ++ l2.
Proof.
  intros n l1 l2 N. unfold remove_node. rewrite filter_app. simpl. rewrite Nat.eqb_refl. simpl.
  rewrite map_app in N. simpl in N. apply NoDup_remove in N as [_ N]. rewrite in_app_iff in N.
  rewrite !filter_id; auto.
  - intros i Hi. apply negb_true_iff, Nat.eqb_neq. intros E. apply N. right. rewrite <- E. now apply in_map.
  - intros i Hi. apply negb_true_iff, Nat.eqb_neq. intros E. apply N. left. rewrite <- E. now apply in_map.
Qed.

Lemma NoDup_app_r : forall A (l1 l2 : list A), NoDup (l1 ++ l2) -> NoDup l2.
Proof. induction l1; simpl; auto. intros l2 N. inversion N; subst. auto. Qed.

Lemma drop_node_ok : forall compute t n l1 l2, archive t = l1 ++ n :: l2 -> NoDup (owned t) -> buf_ok t ->
  eval_inj (archive t) ->
  exists t', drop_node compute t n = Ok t' /\ archive t' = l1 ++ l2 /\ Permutation (owned t') (owned t) /\ buf_ok t' /\
             current_value t' = (if compute then current_value t - contribution n else current_value t) /\
             incl (buffer t') (buffer t).
Proof.
  intros compute t n l1 l2 E N B I. unfold drop_node.
  assert (Hn : In n (archive t)) by (rewrite E; apply in_or_app; right; now left).
  rewrite touch_archive by auto. cbn [bind]. rewrite touch_all_buffer by auto. cbn [bind].
  unfold free_item. rewrite is_freed_false by now apply alive. cbn [bind].
  eexists. split; [reflexivity|]. unfold owned, buf_ok. cbn [archive buffer freed current_value].
  assert (R : remove_node n (archive t) = l1 ++ l2).
  { rewrite E. apply remove_node_spec. rewrite <- E. now apply NoDup_app_r in N. }
  rewrite R. split; auto. split; [|split; [|split; auto; intros b Hb; now apply (delete_eval n (buffer t) (proj2 B)) in Hb]].
  - rewrite E, !map_app. simpl. apply Permutation_trans with (freed t ++ addr n :: map addr l1 ++ map addr l2).
    + apply Permutation_middle.
    + apply Permutation_app_head, Permutation_middle.
  - destruct B as [B1 B2]. destruct (delete_eval n (buffer t) B2) as [D1 D2]. split; auto.
    intros b Hb. apply D2 in Hb as [Hb Hne]. destruct (B1 b Hb) as (a & Ha & E1 & E2). exists a. split; auto.
    rewrite E in Ha. rewrite in_app_iff in Ha |- *. destruct Ha as [Ha|[<-|Ha]]; auto. congruence.
Qed.

Lemma eval_inj_sub : forall l l', eval_inj l -> (forall a, In a l' -> In a l) -> eval_inj l'.
Proof. unfold eval_inj. intros. apply H; auto. Qed.

Lemma drop_loop_ok : forall compute x l t l1, archive t = l1 ++ l -> NoDup (owned t) -> buf_ok t ->
  eval_inj (archive t) -> on_grid (npt x) -> gridded item npt l ->
  exists t' D, drop_loop compute t (npt x) l = Ok t' /\ l = D ++ drop_dominated item npt x l /\
    Forall (fun n => dominates (npt x) (npt n) = true) D /\
    archive t' = l1 ++ drop_dominated item npt x l /\ Permutation (owned t') (owned t) /\ buf_ok t' /\
    current_value t' = (if compute then current_value t - total D else current_value t) /\
    incl (buffer t') (buffer t).
Proof.
  intros compute x l. induction l as [|n l IH]; intros t l1 E N B I Hx Hg.
  - exists t, []. simpl. split; auto. split; auto. split; auto. split; auto. split; auto. split; auto.
    split; [destruct compute; lia | apply incl_refl].
  - inversion Hg; subst. cbn [drop_loop].
    rewrite touch_archive by (auto; rewrite E; apply in_or_app; right; now left). cbn [bind].
    destruct (grid_dominance (npt x) (npt n) Hx H1) as [-> _]. simpl drop_dominated.
    destruct (dominates (npt x) (npt n)) eqn:D.
    + destruct (drop_node_ok compute t n l1 l E N B I) as (t1 & -> & E1 & P1 & B1 & C1 & I1). cbn [bind].
      destruct (IH t1 l1) as (t2 & D2 & X1 & X2 & X3 & X4 & X5 & X6 & X7 & X8); auto.
      { eapply Permutation_NoDup; [apply Permutation_sym, P1 | exact N]. }
      { eapply eval_inj_sub; [exact I|]. intros a. rewrite E, E1, !in_app_iff. simpl. tauto. }
      exists t2, (n :: D2). split; auto. split; [simpl; f_equal; auto|]. split; auto. split; auto.
      split; [eapply Permutation_trans; eauto|]. split; auto.
      split; [|eapply incl_tran; eauto]. rewrite X7, C1. destruct compute; auto. simpl. lia.
    + exists t, []. simpl. split; auto. split; auto. split; auto. split; auto. split; auto. split; auto.
      split; [destruct compute; lia | apply incl_refl].
Qed.

(** New contributions. *)
Definition with_contribution (i : item) (c : Z) : item :=
  {| addr := addr i; npt := npt i; data := data i; feasible := feasible i; eval_no := eval_no i;
     contribution := c; within := within i |}.

Lemma set_contribution_other : forall a c l, ~ In a (map addr l) -> set_contribution a c l = l.
Proof.
  induction l as [|i l IH]; simpl; auto. intros H. rewrite IH by tauto.
  destruct (Nat.eqb_spec (addr i) a); auto. tauto.
Qed.

Lemma set_contribution_spec : forall l1 i l2 c, NoDup (map addr (l1 ++ i :: l2)) ->
  set_contribution (addr i) c (l1 ++ i :: l2) = l1 ++ with_contribution i c :: l2.
Proof.
  intros l1 i l2 c N. rewrite map_app in N. simpl in N. apply NoDup_remove in N as [_ N]. rewrite in_app_iff in N.
  unfold set_contribution. rewrite map_app. simpl. rewrite Nat.eqb_refl.
  fold (set_contribution (addr i) c l1). fold (set_contribution (addr i) c l2).
  rewrite !set_contribution_other by tauto. reflexivity.
Qed.

Lemma last_opt_snoc : forall A (l : list A) n, last_opt (l ++ [n]) = Some n.
Proof. intros. unfold last_opt. rewrite rev_app_distr. reflexivity. Qed.

Lemma last_opt_cons : forall A (l : list A) a, last_opt (a :: l) = match last_opt l with Some p => Some p | None => Some a end.
Proof.
  intros A l a. destruct (last_opt_cases A l) as [[-> ->]|(l0 & n & -> & ->)]; [reflexivity|].
  change (a :: l0 ++ [n]) with ((a :: l0) ++ [n]). apply last_opt_snoc.
Qed.

Lemma neighbours_spec : forall L x H prev, ~ In (addr x) (map addr L) ->
  neighbours (addr x) prev (L ++ x :: H) = (match last_opt L with Some p => Some p | None => prev end, nth_error H 0).
Proof.
  induction L as [|i L IH]; intros x H prev N; simpl.
  - rewrite Nat.eqb_refl. reflexivity.
  - simpl in N. destruct (Nat.eqb_spec (addr i) (addr x)); [tauto|].
    rewrite IH by tauto. rewrite last_opt_cons. destruct (last_opt L); reflexivity.
Qed.

Lemma after_w_last : forall L w, after_w w L = match last_opt L with Some p => next_w p | None => w end.
Proof.
  intros L w. destruct (last_opt_cases _ L) as [[-> ->]|(l0 & n & -> & ->)]; [reflexivity|].
  rewrite after_w_app. reflexivity.
Qed.

Definition same_but_contribution (l l' : list item) : Prop :=
  map (fun i => with_contribution i 0) l = map (fun i => with_contribution i 0) l'.

Lemma same_map : forall B (f : item -> B) l l', (forall i c, f (with_contribution i c) = f i) ->
  same_but_contribution l l' -> map f l = map f l'.
Proof.
  intros B f l l' Hf S. unfold same_but_contribution in S.
  assert (E : forall l, map f l = map f (map (fun i => with_contribution i 0) l)).
  { intros k. rewrite map_map. apply map_ext. intros. now rewrite Hf. }
  rewrite (E l), (E l'), S. reflexivity.
Qed.

Lemma contributions_ok : forall x L H w0 cur, NoDup (map addr (L ++ x :: H)) -> contribution x = 0 -> within x = true ->
  stair item npt (L ++ x :: H) -> Forall wf_item (L ++ x :: H) -> contribs one L -> contribs w0 H ->
  cur = total (L ++ x :: H) ->
  exists l', contributions x (L ++ x :: H) cur = Ok (l', total l') /\ contribs one l' /\
             same_but_contribution l' (L ++ x :: H).
Proof.
  intros x L H w0 cur N C0 Wx Hs Hw CL CH ->.
  assert (Nx : ~ In (addr x) (map addr L)).
  { rewrite map_app in N. simpl in N. apply NoDup_remove in N as [_ N]. rewrite in_app_iff in N. tauto. }
  unfold contributions. rewrite neighbours_spec by auto.
  apply stair_app in Hs as (S1 & S2 & S3). unfold stair in S2. inversion S2 as [|? ? S4 S5]; subst.
  rewrite Forall_app in Hw. destruct Hw as [W1 W2]. inversion W2; subst.
  pose proof (wf_within x H2) as Xw. rewrite Wx in Xw.
  (* the successor *)
  assert (STEP1 : exists H1, Forall wf_item H1 /\
    (match nth_error H 0 with
     | Some s => if within s then
         let c := (fst (npt x) - fst (npt s)) * (one - snd (npt s)) in
         if 0 <=? c then Ok (set_contribution (addr s) c (L ++ x :: H), total (L ++ x :: H) - contribution s + c) else UB
       else Ok (L ++ x :: H, total (L ++ x :: H))
     | None => Ok (L ++ x :: H, total (L ++ x :: H)) end) = Ok (L ++ x :: H1, total (L ++ x :: H1)) /\
    contribs (fst (npt x)) H1 /\ same_but_contribution H1 H).
  { destruct H as [|s H]; cbn [nth_error].
    - exists []. repeat split; auto.
    - inversion H3; subst. cbn [contribs] in CH. destruct CH as [Cs CH]. inversion S5; subst. unfold step in H6.
      pose proof (wf_within s H4) as Xs. destruct (within s) eqn:Ws.
      + cbv zeta. set (c := (fst (npt x) - fst (npt s)) * (one - snd (npt s))).
        assert (0 <= c) by (apply Z.mul_nonneg_nonneg; lia).
        destruct (Z.leb_spec 0 c); [|lia].
        exists (with_contribution s c :: H). split; [constructor; auto|]. split; [|split].
        * f_equal. f_equal.
          { change (L ++ x :: s :: H) with (L ++ [x] ++ s :: H) in *. rewrite app_assoc in *.
            rewrite set_contribution_spec by auto. rewrite <- app_assoc. reflexivity. }
          { rewrite !total_app. cbn [total fold_right contribution with_contribution]. unfold total. lia. }
        * cbn [contribs]. split; [|exact CH]. unfold expected_contribution. cbn [within with_contribution contribution npt].
          rewrite Ws. reflexivity.
        * reflexivity.
      + exists (s :: H). split; auto. split; auto. split; [|reflexivity]. cbn [contribs].
        split; auto. rewrite Cs. unfold expected_contribution. now rewrite Ws. }
  destruct STEP1 as (H1 & WH1 & ST & CH1 & SH1). cbv zeta in ST |- *. rewrite ST. cbn [bind].
  set (w := match match last_opt L with Some p => Some p | None => None end with
            | Some p => if within p then fst (npt p) else one | None => one end).
  assert (Ew : w = after_w one L).
  { rewrite after_w_last. unfold w. destruct (last_opt L); reflexivity. }
  assert (fst (npt x) <= w).
  { unfold w. destruct (last_opt_cases _ L) as [[-> E]|(l0 & n & -> & E)]; [lia|].
    destruct (within n); [|lia]. specialize (S3 n x). unfold step in S3. rewrite E in S3.
    assert (In n (l0 ++ [n])) by (apply in_or_app; right; now left). specialize (S3 H0 (or_introl eq_refl)). lia. }
  set (c := (w - fst (npt x)) * (one - snd (npt x))).
  assert (0 <= c) by (apply Z.mul_nonneg_nonneg; lia).
  destruct (Z.leb_spec 0 c); [|lia].
  assert (N1 : NoDup (map addr (L ++ x :: H1))).
  { assert (E : map addr H1 = map addr H) by (apply same_map; auto).
    rewrite map_app in N |- *. cbn [map] in N |- *. rewrite E. exact N. }
  rewrite set_contribution_spec by auto.
  exists (L ++ with_contribution x c :: H1). split; [|split].
  - f_equal. f_equal. rewrite !total_app. cbn [total fold_right contribution with_contribution]. rewrite C0. lia.
  - apply contribs_app. split; auto. cbn [contribs]. split.
    + unfold expected_contribution. cbn [within with_contribution contribution npt]. rewrite Wx, <- Ew. reflexivity.
    + unfold next_w. cbn [within with_contribution npt]. rewrite Wx. exact CH1.
  - unfold same_but_contribution in *. rewrite !map_app. simpl. rewrite SH1. reflexivity.
Qed.

Definition numbers_sorted (es : list entry) : Prop := StronglySorted (fun e f : entry => (fst (snd e) < fst (snd f))%nat) es.

Record tinv (compute : bool) (es : list entry) (fa : list nat) (t : trees) : Prop := {
  ti_front : map entry_of (archive t) = front es;
  ti_wf : Forall wf_item (archive t);
  ti_addr : Permutation (owned t) fa;
  ti_buf : buf_ok t;
  ti_contrib : compute = true -> contribs one (archive t);
  ti_cur : current_value t = if compute then total (archive t) else 0 }.

Lemma front_sub : forall es (e : entry), In e (front es) -> In e es.
Proof. intros es e H. apply front_In in H. now apply (kf_sub es (kept_facts_all es)). Qed.

Lemma sorted_inj : forall es (e f : entry), numbers_sorted es -> In e es -> In f es -> fst (snd e) = fst (snd f) -> e = f.
Proof.
  intros es e f Hs. induction Hs as [|g es Hs IH Hf]; simpl; [tauto|]. rewrite Forall_forall in Hf.
  intros [->|He] [->|Hf'] E; auto.
  - specialize (Hf f Hf'). lia.
  - specialize (Hf e He). lia.
Qed.

Lemma stair_entry : forall l, stair _ ept (map entry_of l) -> stair item npt l.
Proof.
  induction l as [|i l IH]; intros H; [constructor|]. unfold stair in *. simpl in H. inversion H; subst. constructor; auto.
  rewrite Forall_forall in *. intros j Hj. apply (H3 (entry_of j)). now apply in_map.
Qed.

Lemma tinv_stair : forall compute es fa t, tinv compute es fa t -> stair item npt (archive t).
Proof. intros compute es fa t I. apply stair_entry. rewrite (ti_front _ _ _ _ I). apply front_stair. Qed.

Lemma stair_distinct : forall A pt (l : list A) a b, stair A pt l -> In a l -> In b l -> pt a = pt b -> a = b.
Proof.
  intros A pt l a b Hs. unfold stair in Hs. induction Hs as [|e l Hs IH Hf]; simpl; [tauto|].
  rewrite Forall_forall in Hf. intros [->|Ha] [->|Hb] E; auto.
  - specialize (Hf b Hb). unfold step in Hf. rewrite E in Hf. lia.
  - specialize (Hf a Ha). unfold step in Hf. rewrite E in Hf. lia.
Qed.

Lemma tinv_inj : forall compute es fa t, tinv compute es fa t -> numbers_sorted es -> eval_inj (archive t).
Proof.
  intros compute es fa t I Hn a b Ha Hb E.
  apply (stair_distinct item npt (archive t)); auto; [eapply tinv_stair; eauto|].
  assert (F : forall i, In i (archive t) -> In (entry_of i) es).
  { intros i Hi. apply front_sub. rewrite <- (ti_front _ _ _ _ I). now apply in_map. }
  assert (G : entry_of a = entry_of b) by (apply (sorted_inj es); auto).
  now injection G.
Qed.

Lemma tinv_grid : forall compute es fa t, tinv compute es fa t -> gridded item npt (archive t).
Proof.
  intros compute es fa t I. pose proof (ti_wf _ _ _ _ I) as W. unfold gridded. rewrite Forall_forall in *.
  intros i Hi. apply (W i Hi).
Qed.

Lemma tinv_weakly : forall compute es fa t x, tinv compute es fa t ->
  existsb (fun e => weakly (npt e) (npt x)) (archive t) = negb (accepted es (entry_of x)).
Proof.
  intros compute es fa t x I. rewrite accepted_front, negb_involutive, <- (ti_front _ _ _ _ I).
  induction (archive t) as [|i l IH]; simpl; auto. now rewrite IH.
Qed.

Lemma map_updated : forall x l, map entry_of (updated item npt x l) = updated _ ept (entry_of x) (map entry_of l).
Proof.
  intros x l. unfold updated. rewrite map_app. simpl.
  assert (F : forall (f : item -> bool) (g : entry -> bool) k, (forall i, f i = g (entry_of i)) ->
              map entry_of (filter f k) = filter g (map entry_of k)).
  { intros f g k Hfg. induction k as [|i k IH]; simpl; auto. rewrite Hfg. destruct (g (entry_of i)); simpl; congruence. }
  unfold undominated, low, high.
  f_equal; [|f_equal].
  - rewrite (F _ (fun e => negb (dominates (ept (entry_of x)) (ept e)))) by reflexivity. f_equal.
    apply F. reflexivity.
  - rewrite (F _ (fun e => negb (dominates (ept (entry_of x)) (ept e)))) by reflexivity. f_equal.
    apply F. reflexivity.
Qed.

Lemma insert_eval_last : forall x l, (forall b, In b l -> (eval_no b < eval_no x)%nat) ->
  insert item compare_eval x l = Some (l ++ [x]).
Proof.
  intros x l H. unfold insert, search.
  assert (F : find (fun e => compare_eval x e =? 0) l = None).
  { destruct (find _ l) eqn:F; auto. apply find_some in F as [F1 F2]. rewrite compare_eval_eq in F2.
    specialize (H _ F1). apply Nat.eqb_eq in F2. lia. }
  rewrite F.
  assert (S : split_right item compare_eval x l = (l, [])).
  { clear F. induction l as [|e l IH]; simpl; auto. rewrite compare_eval_lt.
    destruct (Nat.ltb_spec (eval_no x) (eval_no e)); [specialize (H e (or_introl eq_refl)); lia|].
    rewrite IH; auto. intros; apply H. now right. }
  rewrite S. reflexivity.
Qed.

Lemma sorted_snoc : forall A (R : A -> A -> Prop) l x, StronglySorted R l -> (forall a, In a l -> R a x) ->
  StronglySorted R (l ++ [x]).
Proof.
  intros A R l x Hs. induction Hs as [|e l Hs IH Hf]; intros H; simpl.
  - repeat constructor.
  - constructor; [apply IH; intros; apply H; now right|]. apply Forall_app. split; auto. constructor; auto. apply H. now left.
Qed.

Lemma sorted_snoc_inv : forall A (R : A -> A -> Prop) l x, StronglySorted R (l ++ [x]) ->
  StronglySorted R l /\ forall a, In a l -> R a x.
Proof.
  induction l as [|e l IH]; intros x H; simpl in *.
  - split; [constructor | tauto].
  - inversion H; subst. apply IH in H2 as [H1 H2]. apply Forall_app in H3 as [H3 H4]. inversion H4; subst.
    split; [constructor; auto|]. intros a [->|Ha]; auto.
Qed.

Lemma drop_last : forall A (l : list A) n, removelast (l ++ [n]) = l.
Proof. intros. apply removelast_last. Qed.

(** Removing the predecessor. *)
Lemma drop_predecessor : forall compute es fa t x, tinv compute es fa t -> NoDup fa -> numbers_sorted es -> wf_item x ->
  accepted es (entry_of x) = true ->
  exists t1 D,
    (match last_opt (low item npt x (archive t)) with
       | None => Ok (t, true)
       | Some n =>
         let d := dominance (npt x) (npt n) in
         if -1 <? d then
           if d =? 1 then do t1 <- drop_node compute t n; Ok (t1, true) else Ok (t, true)
         else Ok (t, false)
       end) = Ok (t1, true) /\
    low item npt x (archive t) = undominated item npt x (low item npt x (archive t)) ++ D /\
    Forall (fun n => dominates (npt x) (npt n) = true) D /\
    archive t1 = undominated item npt x (low item npt x (archive t)) ++ high item npt x (archive t) /\
    Permutation (owned t1) (owned t) /\ buf_ok t1 /\
    current_value t1 = (if compute then current_value t - total D else current_value t) /\
    incl (buffer t1) (buffer t).
Proof.
  intros compute es fa t x I N Hn Wx A.
  pose proof (tinv_stair _ _ _ _ I) as Hs. pose proof (tinv_grid _ _ _ _ I) as Hg. pose proof (tinv_inj _ _ _ _ I Hn) as Hi.
  assert (No : NoDup (owned t)) by (eapply Permutation_NoDup; [apply Permutation_sym, (ti_addr _ _ _ _ I) | exact N]).
  assert (Hw : existsb (fun e => weakly (npt e) (npt x)) (archive t) = false).
  { rewrite (tinv_weakly _ _ _ _ _ I), A. reflexivity. }
  pose proof (low_undominated item npt x (archive t) Hs Hw) as LU.
  pose proof (weakly_by_last item npt x (archive t) Hs) as WL. rewrite Hw in WL.
  pose proof (low_high item npt x (archive t) Hs) as LH.
  destruct (last_opt_cases _ (low item npt x (archive t))) as [[Q E]|(l0 & n & Q & E)]; rewrite Q in *.
  - exists t, []. rewrite E in LH |- *. cbn [undominated filter app]. split; auto. split; auto. split; auto. split; auto. split; auto.
    split; [apply (ti_buf _ _ _ _ I)|]. split; [destruct compute; cbn [total fold_right]; lia | apply incl_refl].
  - assert (Gn : on_grid (npt n)).
    { unfold gridded in Hg. rewrite Forall_forall in Hg. apply Hg. rewrite LH, E, !in_app_iff. left. right. now left. }
    destruct (grid_dominance (npt x) (npt n) (proj1 Wx) Gn) as [G1 G2]. cbv zeta. rewrite G1, G2, <- WL. cbn [negb].
    rewrite LU. destruct (dominates (npt x) (npt n)) eqn:D.
    + assert (E2 : archive t = l0 ++ n :: high item npt x (archive t)).
      { rewrite LH at 1. rewrite E, <- app_assoc. reflexivity. }
      destruct (drop_node_ok compute t n l0 (high item npt x (archive t)) E2 No (ti_buf _ _ _ _ I) Hi)
        as (t1 & -> & X1 & X2 & X3 & X4 & X5).
      exists t1, [n]. cbn [bind]. rewrite E, drop_last. split; auto. split; auto. split; [constructor; auto|].
      split; auto. split; auto. split; auto. split; auto. rewrite X4. destruct compute; auto. cbn [total fold_right]. lia.
    + exists t, []. rewrite app_nil_r. split; auto. split; auto. split; auto. split; auto. split; auto.
      split; [apply (ti_buf _ _ _ _ I)|]. split; [destruct compute; cbn [total fold_right]; lia | apply incl_refl].
Qed.

Lemma entry_numbers : forall compute es fa t x, tinv compute es fa t -> numbers_sorted (es ++ [entry_of x]) ->
  forall b, In b (buffer t) -> (eval_no b < eval_no x)%nat.
Proof.
  intros compute es fa t x I Hn b Hb. destruct (ti_buf _ _ _ _ I) as [B _]. destruct (B b Hb) as (a & Ha & _ & <-).
  apply sorted_snoc_inv in Hn as [_ Hn]. apply (Hn (entry_of a)). apply front_sub. rewrite <- (ti_front _ _ _ _ I). now apply in_map.
Qed.

Lemma tree_update_ok : forall compute es fa t x, tinv compute es fa t -> NoDup (fa ++ [addr x]) ->
  numbers_sorted (es ++ [entry_of x]) -> wf_item x -> contribution x = 0 ->
  exists t' B, tree_update compute t x = Ok (t', accepted es (entry_of x)) /\
    tinv compute (es ++ [entry_of x]) (fa ++ [addr x]) t' /\
    buffer t' = B ++ (if accepted es (entry_of x) then [x] else []) /\ incl B (buffer t) /\
    (accepted es (entry_of x) = true -> ~ In (addr x) (freed t')).
Proof.
  intros compute es fa t x I N Hn Wx C0.
  assert (N0 : NoDup fa /\ ~ In (addr x) fa).
  { apply NoDup_remove in N. rewrite app_nil_r in N. exact N. }
  destruct N0 as [N0 Nx].
  destruct (sorted_snoc_inv _ _ _ _ Hn) as [Hn0 _].
  pose proof (tinv_stair _ _ _ _ I) as Hs. pose proof (tinv_grid _ _ _ _ I) as Hg. pose proof (tinv_inj _ _ _ _ I Hn0) as Hi.
  assert (No : NoDup (owned t)) by (eapply Permutation_NoDup; [apply Permutation_sym, (ti_addr _ _ _ _ I) | exact N0]).
  pose proof (proj1 Wx) as Gx.
  unfold tree_update. pose proof Wx as (W1 & W2 & W3 & W4 & W5). rewrite W5. cbn [negb].
  rewrite touch_all_archive by auto. cbn [bind].
  change compare_obj with (cmp_pt item npt). rewrite split_right_spec by auto.
  destruct (accepted es (entry_of x)) eqn:A.
  - destruct (drop_predecessor compute es fa t x I N0 Hn0 Wx A) as (t1 & D1 & ST & X1 & X2 & X3 & X4 & X5 & X6 & X7).
    cbv zeta in ST |- *. rewrite ST. cbn [bind negb].
    assert (Hw : existsb (fun e => weakly (npt e) (npt x)) (archive t) = false).
    { rewrite (tinv_weakly _ _ _ _ _ I), A. reflexivity. }
    pose proof (low_high item npt x (archive t) Hs) as LH.
    assert (HH : high item npt x (archive t) <> [] -> True) by auto.
    assert (N1 : NoDup (owned t1)) by (eapply Permutation_NoDup; [apply Permutation_sym, X4 | exact No]).
    assert (I1 : eval_inj (archive t1)).
    { eapply eval_inj_sub; [exact Hi|]. intros a. rewrite X3, in_app_iff. unfold undominated, low, high. rewrite !filter_In. tauto. }
    assert (G1 : gridded item npt (high item npt x (archive t))).
    { unfold gridded in *. rewrite Forall_forall in *. intros i Hh. apply Hg. unfold high in Hh. now apply filter_In in Hh. }
    destruct (drop_loop_ok compute x (high item npt x (archive t)) t1 _ X3 N1 X5 I1 Gx G1)
      as (t2 & D2 & -> & Y1 & Y2 & Y3 & Y4 & Y5 & Y6 & Y7). cbn [bind].
    assert (DD : drop_dominated item npt x (high item npt x (archive t)) = undominated item npt x (high item npt x (archive t))).
    { apply drop_dominated_spec; [apply stair_filter, Hs|]. intros e He. unfold high in He. apply filter_In in He. lia. }
    rewrite DD in *.
    pose proof (insert_updated item npt x (archive t) Hs Hg Gx Hw) as INS.
    set (L := undominated item npt x (low item npt x (archive t))) in *.
    set (H := undominated item npt x (high item npt x (archive t))) in *.
    assert (UP : updated item npt x (archive t) = L ++ x :: H) by reflexivity.
    assert (N2 : NoDup (owned t2)) by (eapply Permutation_NoDup; [apply Permutation_sym, Y4 | exact N1]).
    rewrite touch_all_archive by auto. cbn [bind]. rewrite Y3, INS.
    rewrite touch_all_buffer by auto. cbn [bind].
    rewrite insert_eval_last.
    2: { intros b Hb. eapply entry_numbers; eauto. }
    rewrite UP.
    assert (Ar : archive t = L ++ (D1 ++ D2) ++ H).
    { rewrite LH, X1. fold L. rewrite Y1 at 1. rewrite <- !app_assoc. reflexivity. }
    assert (Su : stair item npt (L ++ x :: H)) by (rewrite <- UP; now apply updated_stair).
    assert (Wu : Forall wf_item (L ++ x :: H)).
    { rewrite Forall_forall. intros i Hh. rewrite <- UP in Hh. apply updated_In in Hh; auto. destruct Hh as [->|[Hh _]]; auto.
      pose proof (ti_wf _ _ _ _ I) as F. rewrite Forall_forall in F. auto. }
    assert (Pe : Permutation (freed t2 ++ map addr (L ++ x :: H)) (fa ++ [addr x])).
    { apply Permutation_trans with (owned t2 ++ [addr x]).
      - unfold owned. rewrite Y3, !map_app. simpl. rewrite <- !app_assoc. apply Permutation_app_head, Permutation_app_head.
        apply (Permutation_cons_append (map addr H) (addr x)).
      - apply Permutation_app_tail. eapply Permutation_trans; [exact Y4|]. eapply Permutation_trans; [exact X4|]. apply (ti_addr _ _ _ _ I). }
    assert (Nu : NoDup (freed t2 ++ map addr (L ++ x :: H))) by (eapply Permutation_NoDup; [apply Permutation_sym, Pe | exact N]).
    assert (Fx : ~ In (addr x) (freed t2)).
    { clear -Nu. rewrite map_app in Nu. cbn [map] in Nu. rewrite app_assoc in Nu. apply NoDup_remove in Nu as [_ Nu].
      intros F. apply Nu. rewrite !in_app_iff. auto. }
    assert (Fr : map entry_of (L ++ x :: H) = front (es ++ [entry_of x])).
    { rewrite <- UP, map_updated, front_accepted, (ti_front _ _ _ _ I); auto. }
    assert (Bf : forall a1, map addr a1 = map addr (L ++ x :: H) -> map eval_no a1 = map eval_no (L ++ x :: H) ->
       forall f c, buf_ok {| archive := a1; buffer := buffer t2 ++ [x]; freed := f; current_value := c |}).
    { intros a1 E1 E2 f c. unfold buf_ok. cbn [archive buffer]. destruct Y5 as [B1 B2]. split.
      - assert (TR : forall a, In a (L ++ x :: H) -> exists a', In a' a1 /\ addr a' = addr a /\ eval_no a' = eval_no a).
        { clear -E1 E2. revert a1 E1 E2. induction (L ++ x :: H) as [|i l IH]; intros a1 E1 E2 a Ha; [destruct Ha|].
          destruct a1 as [|j a1]; [discriminate|]. cbn [map] in *. injection E1 as ? ?. injection E2 as ? ?.
          destruct Ha as [<-|Ha]; [exists j; split; [now left|auto]|].
          destruct (IH a1 H1 H3 a Ha) as (a' & ? & ?). exists a'. split; [now right|auto]. }
        intros b Hb. apply in_app_or in Hb as [Hb|[<-|[]]].
        + destruct (B1 b Hb) as (a & Ha & Q1 & Q2). rewrite Y3 in Ha.
          destruct (TR a) as (a' & ? & ? & ?); [rewrite in_app_iff in *; simpl; tauto|].
          exists a'. split; auto. split; congruence.
        + destruct (TR x) as (a' & ? & ? & ?); [rewrite in_app_iff; simpl; tauto|]. exists a'. auto.
      - apply sorted_snoc; auto. intros b Hb. eapply entry_numbers; eauto. }
    destruct compute; cbn [andb].
    + pose proof (ti_contrib _ _ _ _ I eq_refl) as Cs. rewrite Ar in Cs. rewrite app_assoc in Cs.
      apply contribs_app in Cs as [Cs CH]. apply contribs_app in Cs as [CL CD].
      assert (T2 : current_value t2 = total (L ++ x :: H)).
      { rewrite Y6, X6, (ti_cur _ _ _ _ I), Ar, !total_app. cbn [total fold_right]. rewrite C0. fold (total H). lia. }
      destruct (within x) eqn:Wi.
      * destruct (contributions_ok x L H _ (current_value t2) (NoDup_app_r _ _ _ Nu) C0 Wi Su Wu CL CH T2)
          as (l' & -> & CC & SB). cbn [bind].
        eexists _, (buffer t2). split; [reflexivity|].
        assert (EA : map addr l' = map addr (L ++ x :: H)) by (now apply same_map).
        split; [|split; [reflexivity|split; [eapply incl_tran; eauto|auto]]].
        constructor; cbn [archive buffer freed current_value]; auto.
        { rewrite <- Fr. now apply same_map. }
        { assert (EW : Forall wf_item (map (fun i => with_contribution i 0) l')).
          { unfold same_but_contribution in SB. rewrite SB. rewrite Forall_map. exact Wu. }
          rewrite Forall_map in EW. exact EW. }
        { unfold owned. cbn [archive freed]. rewrite EA. exact Pe. }
        { apply Bf; auto. now apply same_map. }
      * cbn [bind]. eexists _, (buffer t2). split; [reflexivity|].
        split; [|split; [reflexivity|split; [eapply incl_tran; eauto|auto]]].
        constructor; cbn [archive buffer freed current_value]; auto.
        intros _. apply contribs_app. split; auto. cbn [contribs]. split.
        { unfold expected_contribution. now rewrite Wi. }
        unfold next_w. rewrite Wi. destruct H as [|s H'] eqn:EH; [exact Logic.I|]. cbn [contribs] in CH |- *. destruct CH as [Cs CH].
        split; auto. rewrite Cs. unfold expected_contribution. destruct (within s) eqn:Ws; auto. f_equal. f_equal.
        (* all that came before s lies beyond the reference point *)
        rewrite after_w_last.
        destruct (last_opt_cases _ (L ++ D1 ++ D2)) as [[-> E]|(l0 & p & -> & E)]; auto.
        apply stair_app in Su as (_ & Su & Sl). unfold stair in Su. inversion Su as [|? ? _ Ss]; subst.
        inversion Ss as [|? ? Sxs _]; subst. unfold step in Sxs.
        rewrite Forall_app in Wu. destruct Wu as [_ Wu]. inversion Wu as [|? ? _ Wu']; subst. inversion Wu' as [|? ? Wfs _]; subst.
        pose proof (wf_within s Wfs) as Vs. pose proof (wf_within x Wx) as Vx. rewrite Wi in Vx. rewrite Ws in Vs.
        assert (Pp : In p (archive t)).
        { rewrite Ar. rewrite app_assoc, E, !in_app_iff. left. right. now left. }
        pose proof (ti_wf _ _ _ _ I) as F. rewrite Forall_forall in F. pose proof (wf_within p (F p Pp)) as Vp.
        unfold next_w. destruct (within p) eqn:Wp; auto. exfalso.
        assert (PL : In p (L ++ D1 ++ D2)) by (rewrite E, in_app_iff; right; now left).
        rewrite !in_app_iff in PL. destruct PL as [PL|PL].
        { specialize (Sl p x PL (or_introl eq_refl)). unfold step in Sl. lia. }
        { assert (Dp : dominates (npt x) (npt p) = true).
          { rewrite Forall_forall in X2, Y2. destruct PL; auto. }
          unfold dominates, weakly in Dp. lia. }
    + cbn [bind]. eexists _, (buffer t2). split; [reflexivity|].
      split; [|split; [reflexivity|split; [eapply incl_tran; eauto|auto]]].
      constructor; cbn [archive buffer freed current_value]; auto; try discriminate.
      rewrite Y6, X6. apply (ti_cur _ _ _ _ I).
  - assert (Hw : existsb (fun e => weakly (npt e) (npt x)) (archive t) = true).
    { rewrite (tinv_weakly _ _ _ _ _ I), A. reflexivity. }
    pose proof (weakly_by_last item npt x (archive t) Hs) as WL. rewrite Hw in WL.
    pose proof (low_high item npt x (archive t) Hs) as LH.
    destruct (last_opt_cases _ (low item npt x (archive t))) as [[Q E]|(l0 & n & Q & E)]; rewrite Q in *; [discriminate|].
    assert (Gn : on_grid (npt n)).
    { unfold gridded in Hg. rewrite Forall_forall in Hg. apply Hg. rewrite LH, E, !in_app_iff. left. right. now left. }
    destruct (grid_dominance (npt x) (npt n) Gx Gn) as [G1 G2]. cbv zeta. rewrite G2, <- WL. cbn [negb bind].
    assert (Fx : ~ In (addr x) (freed t)).
    { intros F. apply Nx. eapply Permutation_in; [apply (ti_addr _ _ _ _ I)|]. unfold owned. apply in_or_app. auto. }
    unfold free_item. rewrite is_freed_false by auto. cbn [bind].
    eexists _, (buffer t). split; [reflexivity|].
    split; [|split; [cbn [buffer]; now rewrite app_nil_r|split; [apply incl_refl|discriminate]]].
    destruct I as [I1 I2 I3 I4 I5 I6].
    constructor; cbn [archive buffer freed current_value]; auto.
    + rewrite front_rejected; auto.
    + unfold owned in *. cbn [archive freed]. eapply Permutation_trans; [|apply Permutation_app_tail, I3].
      rewrite <- app_comm_cons. apply Permutation_cons_append.
Qed.
