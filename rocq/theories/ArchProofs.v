From Coq Require Import List Arith ZArith Bool Lia ZifyBool Sorted.
Import ListNotations.
From Verif Require Import CBase MoModel ArchModel ArchSpec MoSpec MoProofs FrontProofs AreaProofs KeptProofs.
Open Scope Z_scope.

Definition entry_of (i : item) : entry := (ny i, text i).

Definition tree_grid (l : list item) : Prop := gridded item ny l.

Lemma delete_dominated_spec : forall a x l, on_grid (ny x) -> tree_grid l ->
  (forall n, In n l -> dominates (ny x) (ny n) = true -> may_delete a n = Ok tt) ->
  delete_dominated a (ny x) l = Ok (drop_dominated item ny x l).
Proof.
  intros a x l Hx Hg Hm. induction Hg as [|n l Hn Hg IH]; [reflexivity|]. simpl.
  destruct (grid_dominance (ny x) (ny n) Hx Hn) as [-> _].
  destruct (dominates (ny x) (ny n)) eqn:D; [|reflexivity].
  rewrite (Hm n); auto; [|now left]. simpl. apply IH. intros; apply Hm; auto. now right.
Qed.

(** One addition, at the level of sequences. *)
Lemma add_list : forall a k txt,
  let x := {| id := next_id a; ny := mo_normalize k; text := txt |} in
  stair item ny (tree a) -> tree_grid (tree a) -> on_grid (ny x) ->
  (forall n, In n (tree a) -> dominates (ny x) (ny n) = true -> may_delete a n = Ok tt) ->
  exists a', coco_archive_add_solution a k txt =
    Ok (a', if existsb (fun e => weakly (ny e) (ny x)) (tree a) then 0 else 1) /\
    tree a' = (if existsb (fun e => weakly (ny e) (ny x)) (tree a) then tree a else updated item ny x (tree a)) /\
    up_to_date a' = (if existsb (fun e => weakly (ny e) (ny x)) (tree a) then up_to_date a else false) /\
    number_of_solutions a' = number_of_solutions a /\ hypervolume a' = hypervolume a /\
    current a' = current a /\ extreme1 a' = extreme1 a /\ extreme2 a' = extreme2 a /\
    extremes_returned a' = extremes_returned a /\ next_id a' = S (next_id a).
Proof.
  intros a k txt x Hs Hg Hx Hm. unfold coco_archive_add_solution. fold x.
  change item_compare with (cmp_pt item ny).
  rewrite split_right_spec by auto.
  pose proof (weakly_by_last item ny x (tree a) Hs) as HW.
  pose proof (low_undominated item ny x (tree a) Hs) as HU.
  assert (HgH : tree_grid (high item ny x (tree a))).
  { unfold tree_grid, gridded, high in *. rewrite Forall_forall in *. intros e He. apply filter_In in He. now apply Hg. }
  assert (DD : delete_dominated a (ny x) (high item ny x (tree a)) = Ok (undominated item ny x (high item ny x (tree a)))).
  { rewrite delete_dominated_spec; auto.
    - f_equal. apply drop_dominated_spec; [now apply stair_filter|]. intros e He. unfold high in He. apply filter_In in He. lia.
    - intros n Hn. unfold high in Hn. apply filter_In in Hn. now apply Hm. }
  destruct (last_opt_cases _ (low item ny x (tree a))) as [[E1 E2] | (l0 & n & E1 & E2)]; rewrite E1 in *.
  - (* no element below *)
    rewrite HW in *. cbn [bind]. rewrite E2, DD. cbn [bind].
    pose proof (insert_updated item ny x (tree a) Hs Hg Hx HW) as I. rewrite E2 in I. cbn [undominated filter app] in I |- *.
    rewrite I.
    eexists. split; [reflexivity|]. cbn. repeat split.
  - assert (Hn : In n (tree a)).
    { assert (In n (low item ny x (tree a))) by (rewrite E2; apply in_or_app; right; now left).
      unfold low in H. apply filter_In in H. tauto. }
    assert (Gn : on_grid (ny n)). { unfold tree_grid, gridded in Hg. rewrite Forall_forall in Hg. auto. }
    destruct (grid_dominance (ny x) (ny n) Hx Gn) as [D1 D2]. rewrite D1, D2.
    rewrite HW in *. destruct (weakly (ny n) (ny x)) eqn:W; cbn [negb bind].
    + eexists. split; [reflexivity|]. cbn. repeat split.
    + specialize (HU eq_refl). pose proof (insert_updated item ny x (tree a) Hs Hg Hx HW) as I.
      rewrite HU in I. destruct (dominates (ny x) (ny n)) eqn:D.
      * rewrite (Hm n Hn D). cbn [bind]. rewrite DD. cbn [bind]. rewrite I.
        eexists. split; [reflexivity|]. cbn. repeat split.
      * cbn [bind]. rewrite DD. cbn [bind]. rewrite I.
        eexists. split; [reflexivity|]. cbn. repeat split.
Qed.

(** Sequences of items and of entries. *)
Lemma updated_map : forall x l, map entry_of (updated item ny x l) = updated entry ept (entry_of x) (map entry_of l).
Proof.
  intros x l. unfold updated, undominated, low, high. rewrite map_app. simpl.
  assert (F : forall (g : Z * Z -> bool) l, map entry_of (filter (fun i => g (ny i)) l) =
              filter (fun e => g (ept e)) (map entry_of l)).
  { intros g. induction l0; simpl; auto. unfold ept at 1. simpl. destruct (g (ny a)); simpl; now f_equal. }
  rewrite (F (fun p => negb (dominates (ny x) p))). rewrite (F (fun p => snd p <=? snd (ny x))).
  rewrite (F (fun p => negb (dominates (ny x) p))). rewrite (F (fun p => snd (ny x) <? snd p)). reflexivity.
Qed.

Lemma stair_entry : forall l, stair entry ept (map entry_of l) -> stair item ny l.
Proof.
  unfold stair. induction l as [|i l IH]; intros H; [constructor|]. inversion H; subst. constructor; auto.
  rewrite Forall_forall in *. intros j Hj. apply (H3 (entry_of j)). now apply in_map.
Qed.

Lemma existsb_map : forall (f : entry -> bool) l, existsb f (map entry_of l) = existsb (fun i => f (entry_of i)) l.
Proof. induction l; simpl; auto. now rewrite IHl. Qed.

(** Position of the reading. *)
Definition reading_state (a : archive) (i1 : item) (mid : list item) (i2 : item) (pos : nat) : Prop :=
  (extremes_returned a = false /\ ((current a = None /\ pos = 0%nat) \/ (current a = Some (id i2) /\ pos = 1%nat))) \/
  (extremes_returned a = true /\ (2 <= pos)%nat /\
    ((pos = 2%nat /\ current a = Some (id i1)) \/
     (exists l1 l2, mid = l1 ++ l2 /\ (length l1 + 2 = pos)%nat /\ current a = option_map id (nth_error (l2 ++ [i2]) 0)) \/
     (current a = None /\ (length mid + 2 <= pos)%nat))).

Record inv (t1 t2 : cstr) (h : list entry) (a : archive) (pos : nat) : Prop := {
  i_tree : map entry_of (tree a) = front h;
  i_hist : Forall (fun e => on_grid (fst e) /\ proper (fst e)) h;
  i_ids : NoDup (map id (tree a));
  i_lt : Forall (fun i => (id i < next_id a)%nat) (tree a);
  i_shape : exists i1 mid i2, tree a = i1 :: mid ++ [i2] /\
    entry_of i1 = ((unit, 0), t1) /\ entry_of i2 = ((0, unit), t2) /\
    extreme1 a = Some (id i1) /\ extreme2 a = Some (id i2) /\
    (if up_to_date a
     then number_of_solutions a = length (front h) /\ hypervolume a = area unit (map fst h) /\
          reading_state a i1 mid i2 pos
     else pos = 0%nat) }.

Lemma inv_stair : forall t1 t2 h a pos, inv t1 t2 h a pos -> stair item ny (tree a).
Proof. intros. apply stair_entry. rewrite (i_tree _ _ _ _ _ H). apply front_stair. Qed.

Lemma inv_points : forall t1 t2 h a pos, inv t1 t2 h a pos ->
  forall i, In i (tree a) -> on_grid (ny i) /\ proper (ny i).
Proof.
  intros t1 t2 h a pos H i Hi. pose proof (i_hist _ _ _ _ _ H) as F. rewrite Forall_forall in F.
  apply (F (entry_of i)). apply (kf_sub h (kept_facts_all h)). rewrite <- front_In, <- (i_tree _ _ _ _ _ H).
  now apply in_map.
Qed.

Lemma proper_undominated : forall p, proper p ->
  dominates p (unit, 0) = false /\ dominates p (0, unit) = false.
Proof. intros [a b]. unfold proper, dominates, weakly, unit. cbn [fst snd]. lia. Qed.

Lemma proper_accepted : forall p, proper p -> weakly (unit, 0) p = false -> weakly (0, unit) p = false ->
  0 < fst p < unit /\ 0 < snd p < unit.
Proof. intros [a b]. unfold proper, weakly, unit. cbn [fst snd]. lia. Qed.

Lemma NoDup_id_eq : forall l (i j : item), NoDup (map id l) -> In i l -> In j l -> id i = id j -> i = j.
Proof.
  induction l as [|x l IH]; intros i j N Hi Hj E; [destruct Hi|]. simpl in N. inversion N; subst.
  destruct Hi as [->|Hi], Hj as [->|Hj]; auto.
  - exfalso. apply H1. rewrite E. now apply in_map.
  - exfalso. apply H1. rewrite <- E. now apply in_map.
Qed.

Lemma NoDup_map_filter : forall (f : item -> bool) l, NoDup (map id l) -> NoDup (map id (filter f l)).
Proof.
  induction l as [|x l IH]; intros N; simpl; auto. simpl in N. inversion N; subst.
  destruct (f x); simpl; auto. constructor; auto. intros H. apply H1.
  apply in_map_iff in H as (y & E & Hy). apply filter_In in Hy as [Hy _]. rewrite <- E. now apply in_map.
Qed.

Lemma nodup_app : forall A (l1 l2 : list A),
  NoDup (l1 ++ l2) <-> NoDup l1 /\ NoDup l2 /\ (forall x, In x l1 -> In x l2 -> False).
Proof.
  induction l1 as [|a l1 IH]; intros l2; simpl.
  - split; [intros H; split; [constructor|]; tauto | tauto].
  - split.
    + intros H. inversion H; subst. apply IH in H3 as (A1 & A2 & A3). rewrite in_app_iff in H2.
      split; [constructor; tauto|]. split; auto. intros x [->|Hx] Hy; [tauto|eauto].
    + intros (H1 & H2 & H3). inversion H1; subst. constructor.
      * rewrite in_app_iff. intros [X|X]; [tauto|]. eapply H3; eauto.
      * apply IH. split; auto. split; auto. intros x Hx Hy. eapply H3; eauto.
Qed.

Lemma updated_ids : forall x l, stair item ny l -> NoDup (map id l) -> ~ In (id x) (map id l) ->
  NoDup (map id (updated item ny x l)).
Proof.
  intros x l Hs N Hx. rewrite (low_high item ny x l Hs) in N, Hx. unfold updated.
  set (l1 := low item ny x l) in *. set (l2 := high item ny x l) in *. clearbody l1 l2.
  rewrite map_app in *. rewrite nodup_app in N. rewrite in_app_iff in Hx. destruct N as (N1 & N2 & N3).
  assert (I : forall l, incl (map id (undominated item ny x l)) (map id l)).
  { intros l0 y Hy. apply in_map_iff in Hy as (z & <- & Hz). apply filter_In in Hz. now apply in_map. }
  apply nodup_app. split; [now apply NoDup_map_filter|]. split.
  - simpl. constructor; [|now apply NoDup_map_filter]. intros X. apply (I l2) in X. tauto.
  - intros y Hy [<-|Hz]; [apply (I l1) in Hy; tauto|]. apply (I l1) in Hy. apply (I l2) in Hz. eauto.
Qed.

Lemma inv_may_delete : forall t1 t2 h a pos p, inv t1 t2 h a pos -> proper p ->
  forall n, In n (tree a) -> dominates p (ny n) = true -> may_delete a n = Ok tt.
Proof.
  intros t1 t2 h a pos p H Hp n Hn D. destruct (i_shape _ _ _ _ _ H) as (i1 & mid & i2 & T & E1 & E2 & X1 & X2 & _).
  destruct (proper_undominated p Hp) as [U1 U2].
  unfold may_delete, is_node. rewrite X1, X2.
  destruct (Nat.eqb_spec (id i1) (id n)).
  { assert (i1 = n). { eapply NoDup_id_eq; eauto using i_ids. rewrite T. now left. }
    subst n. unfold entry_of in E1. injection E1 as E1 _. rewrite E1 in D. congruence. }
  destruct (Nat.eqb_spec (id i2) (id n)); [|reflexivity].
  assert (i2 = n). { eapply NoDup_id_eq; eauto using i_ids. rewrite T. right. apply in_or_app. right. now left. }
  subst n. unfold entry_of in E2. injection E2 as E2 _. rewrite E2 in D. congruence.
Qed.

(** Additions preserve the invariant and answer as expected. *)
Lemma add_inv : forall t1 t2 h a pos k txt, inv t1 t2 h a pos ->
  let e := (normalised k, txt) in
  exists a', coco_archive_add_solution a k txt = Ok (a', if accepted h e then 1 else 0) /\
             inv t1 t2 (h ++ [e]) a' (if accepted h e then 0%nat else pos).
Proof.
  intros t1 t2 h a pos k txt H e.
  assert (Hp : proper (normalised k)) by apply normalised_proper.
  assert (Hgk : on_grid (normalised k)) by apply normalised_grid.
  pose proof (inv_stair _ _ _ _ _ H) as Hs. pose proof (inv_points _ _ _ _ _ H) as Hpts.
  destruct (add_list a k txt Hs) as (a' & E & T' & U' & N' & V' & C' & X1' & X2' & R' & I').
  { unfold tree_grid, gridded. rewrite Forall_forall. intros i Hi. now apply Hpts. }
  { simpl. rewrite normalize_spec. exact Hgk. }
  { simpl. rewrite normalize_spec. eapply inv_may_delete; eauto. }
  simpl in E, T', U'. rewrite normalize_spec in *.
  set (x := {| id := next_id a; ny := normalised k; text := txt |}) in *.
  assert (A : accepted h e = negb (existsb (fun i => weakly (ny i) (normalised k)) (tree a))).
  { rewrite accepted_front, <- (i_tree _ _ _ _ _ H), existsb_map. reflexivity. }
  assert (Hh : Forall (fun e => on_grid (fst e) /\ proper (fst e)) (h ++ [e])).
  { apply Forall_app. split; [apply (i_hist _ _ _ _ _ H)|]. constructor; [split; assumption | constructor]. }
  exists a'. destruct (existsb _ (tree a)) eqn:X; simpl in A; rewrite A; rewrite E; split; auto.
  - (* rejected *)
    assert (FR : front (h ++ [e]) = front h) by (apply front_rejected; auto).
    constructor; auto.
    + rewrite T', FR. apply (i_tree _ _ _ _ _ H).
    + rewrite T'. apply (i_ids _ _ _ _ _ H).
    + rewrite T', I'. pose proof (i_lt _ _ _ _ _ H) as L. rewrite Forall_forall in *. intros i Hi. specialize (L i Hi). lia.
    + destruct (i_shape _ _ _ _ _ H) as (i1 & mid & i2 & T & E1 & E2 & X1 & X2 & RS).
      exists i1, mid, i2. rewrite T', X1', X2', U'. repeat (split; auto).
      destruct (up_to_date a); auto. destruct RS as (RS1 & RS2 & RS3).
      rewrite N', V', FR. split; auto. split.
      * rewrite RS2. apply area_ext. intros c _. rewrite (covered_front h), (covered_front (h ++ [e])), FR. reflexivity.
      * unfold reading_state. rewrite R', C'. exact RS3.
  - (* accepted *)
    assert (EX : entry_of x = e) by reflexivity.
    constructor; auto.
    + rewrite T', front_accepted by auto. rewrite updated_map, EX, (i_tree _ _ _ _ _ H). reflexivity.
    + rewrite T'. apply updated_ids; auto; [apply (i_ids _ _ _ _ _ H)|]. intros Y.
      apply in_map_iff in Y as (j & Ej & Hj). pose proof (i_lt _ _ _ _ _ H) as L. rewrite Forall_forall in L.
      specialize (L j Hj). simpl in Ej. lia.
    + rewrite T', I'. pose proof (i_lt _ _ _ _ _ H) as L. rewrite Forall_forall in *. intros i Hi.
      apply updated_In in Hi; auto. destruct Hi as [->|[Hi _]]; [simpl; lia|]. specialize (L i Hi). lia.
    + destruct (i_shape _ _ _ _ _ H) as (i1 & mid & i2 & T & E1 & E2 & X1 & X2 & RS).
      exists i1, (updated item ny x mid), i2. rewrite X1', X2', U', T'. repeat (split; auto).
      assert (P1 : ny i1 = (unit, 0)) by (unfold entry_of in E1; congruence).
      assert (P2 : ny i2 = (0, unit)) by (unfold entry_of in E2; congruence).
      assert (W : forall i, In i (tree a) -> weakly (ny i) (normalised k) = false).
      { intros i Hi. destruct (weakly (ny i) (normalised k)) eqn:Y; auto.
        assert (existsb (fun i => weakly (ny i) (normalised k)) (tree a) = true) by (apply existsb_exists; eauto). congruence. }
      assert (B : 0 < fst (normalised k) < unit /\ 0 < snd (normalised k) < unit).
      { apply proper_accepted; auto; [rewrite <- P1 | rewrite <- P2]; apply W; rewrite T; [now left|].
        right. apply in_or_app. right. now left. }
      destruct (proper_undominated _ Hp) as [D1 D2].
      rewrite T. unfold updated, undominated, low, high. simpl. rewrite P1. cbn [fst snd].
      destruct (Z.leb_spec 0 (snd (normalised k))); [|lia].
      destruct (Z.ltb_spec (snd (normalised k)) 0); [lia|].
      rewrite !filter_app. simpl. rewrite P1, P2, D1. cbn [fst snd].
      destruct (Z.leb_spec unit (snd (normalised k))); [lia|].
      destruct (Z.ltb_spec (snd (normalised k)) unit); [|lia]. simpl. rewrite P2, D2. simpl.
      rewrite app_nil_r, <- app_assoc. reflexivity.
Qed.

(** The hypervolume loop. *)
Lemma hyp_loop_spec : forall l i hyp,
  stair item ny (i :: l) -> (forall j, In j (i :: l) -> 0 <= fst (ny j) <= unit /\ 0 <= snd (ny j) <= unit) ->
  hyp_loop i l hyp = Ok (hyp + stair_area unit (fst (ny i)) (map ny l)).
Proof.
  induction l as [|j l IH]; intros i hyp Hs Hb; cbn [hyp_loop map stair_area]; cbv zeta.
  - f_equal. lia.
  - assert (R : forall n, In n (i :: j :: l) -> mo_is_within_ROI (ny n) = true).
    { intros n Hn. specialize (Hb n Hn). unfold mo_is_within_ROI, value_within, almost_equal, mo_precision, one.
      unfold unit in Hb. lia. }
    rewrite (R j), (R i) by (simpl; auto).
    unfold stair in Hs. inversion Hs as [|? ? Hs' Hf]; subst. inversion Hf as [|? ? Hij _]; subst.
    unfold step in Hij. pose proof (Hb i (or_introl eq_refl)). pose proof (Hb j (or_intror (or_introl eq_refl))).
    destruct (Z.leb_spec 0 ((fst (ny i) - fst (ny j)) * (one - snd (ny j)))).
    + rewrite IH; auto; [|intros; apply Hb; now right]. f_equal. change one with unit. lia.
    + exfalso. change one with unit in *. nia.
Qed.

Lemma front_bounds : forall t1 t2 h a pos, inv t1 t2 h a pos ->
  forall i, In i (tree a) -> 0 <= fst (ny i) <= unit /\ 0 <= snd (ny i) <= unit.
Proof.
  intros t1 t2 h a pos H i Hi. pose proof (inv_points _ _ _ _ _ H i Hi) as [_ P].
  pose proof (inv_stair _ _ _ _ _ H) as Hs.
  destruct (i_shape _ _ _ _ _ H) as (i1 & mid & i2 & T & E1 & E2 & _).
  assert (P1 : ny i1 = (unit, 0)) by (unfold entry_of in E1; congruence).
  assert (P2 : ny i2 = (0, unit)) by (unfold entry_of in E2; congruence).
  rewrite T in Hs, Hi. change (i1 :: mid ++ [i2]) with ((i1 :: mid) ++ [i2]) in *.
  unfold proper in P. split.
  - apply stair_app in Hs as (H1 & _ & _). unfold stair in H1. inversion H1 as [|? ? _ F]; subst.
    rewrite Forall_forall in F. apply in_app_or in Hi as [[<-|Hi]|[<-|[]]].
    + rewrite P1. unfold unit; simpl; lia.
    + specialize (F i Hi). unfold step in F. rewrite P1 in F. cbn [fst snd] in F. lia.
    + rewrite P2. unfold unit; simpl; lia.
  - apply stair_app in Hs as (_ & _ & G). apply in_app_or in Hi as [Hi|[<-|[]]].
    + specialize (G i i2 Hi (or_introl eq_refl)). unfold step in G. rewrite P2 in G. cbn [fst snd] in G. lia.
    + rewrite P2. unfold unit; simpl; lia.
Qed.

Lemma update_inv : forall t1 t2 h a pos, inv t1 t2 h a pos ->
  exists a', coco_archive_update a = Ok a' /\ inv t1 t2 h a' pos /\ up_to_date a' = true.
Proof.
  intros t1 t2 h a pos H. unfold coco_archive_update. destruct (up_to_date a) eqn:U; [eauto|].
  pose proof (inv_stair _ _ _ _ _ H) as Hs. pose proof (front_bounds _ _ _ _ _ H) as Hb.
  destruct (i_shape _ _ _ _ _ H) as (i1 & mid & i2 & T & E1 & E2 & X1 & X2 & RS). rewrite U in RS. subst pos.
  assert (P1 : ny i1 = (unit, 0)) by (unfold entry_of in E1; congruence).
  rewrite T in *. rewrite hyp_loop_spec by auto. cbn [bind].
  assert (AR : area unit (map fst h) = 0 + stair_area unit (fst (ny i1)) (map ny (mid ++ [i2]))).
  { rewrite area_front.
    - rewrite <- (i_tree _ _ _ _ _ H), T, map_map. cbn [map entry_of fst stair_area].
      rewrite P1. cbn [fst snd]. rewrite Z.sub_diag. reflexivity.
    - intros p Hp. rewrite <- (i_tree _ _ _ _ _ H), T, map_map in Hp. apply in_map_iff in Hp as (j & <- & Hj).
      apply (Hb j Hj). }
  eexists. split; [reflexivity|]. split; [|reflexivity].
  constructor; cbn [tree next_id extreme1 extreme2 up_to_date number_of_solutions hypervolume].
  - rewrite <- T. apply (i_tree _ _ _ _ _ H).
  - apply (i_hist _ _ _ _ _ H).
  - rewrite <- T. apply (i_ids _ _ _ _ _ H).
  - rewrite <- T. apply (i_lt _ _ _ _ _ H).
  - exists i1, mid, i2. split; auto. split; auto. split; auto. split; auto. split; auto. split; [|split].
    + rewrite <- (i_tree _ _ _ _ _ H), T, map_length. reflexivity.
    + rewrite AR. reflexivity.
    + left. cbn. auto.
Qed.

Lemma node_of_In : forall a i, NoDup (map id (tree a)) -> In i (tree a) -> node_of a (id i) = Some i.
Proof.
  intros a i N Hi. unfold node_of. destruct (find _ _) as [j|] eqn:F.
  - apply find_some in F as [F1 F2]. apply Nat.eqb_eq in F2. f_equal. eapply NoDup_id_eq; eauto.
  - exfalso. apply (find_none _ _ F) in Hi. rewrite Nat.eqb_refl in Hi. discriminate.
Qed.

Lemma next_of_app : forall l1 i l2, NoDup (map id (l1 ++ i :: l2)) ->
  next_of (l1 ++ i :: l2) (id i) = option_map id (nth_error l2 0).
Proof.
  induction l1 as [|j l1 IH]; intros i l2 N; simpl.
  - rewrite Nat.eqb_refl. reflexivity.
  - destruct (Nat.eqb_spec (id i) (id j)).
    + simpl in N. inversion N; subst. exfalso. apply H1. rewrite <- e. apply in_map, in_or_app. right. now left.
    + apply IH. simpl in N. now inversion N.
Qed.

Lemma reading_mid : forall t1 t2 h a pos i1 mid i2, inv t1 t2 h a pos -> tree a = i1 :: mid ++ [i2] ->
  entry_of i1 = ((unit, 0), t1) -> entry_of i2 = ((0, unit), t2) ->
  reading t1 t2 h = t1 :: t2 :: map text mid.
Proof.
  intros t1 t2 h a pos i1 mid i2 H T E1 E2. unfold reading. rewrite <- (i_tree _ _ _ _ _ H), T.
  pose proof (inv_stair _ _ _ _ _ H) as Hs. rewrite T in Hs.
  cbn [map]. rewrite map_app. cbn [map]. rewrite E1, E2. cbn [filter].
  change (between ((unit, 0), t1)) with false. cbv iota.
  rewrite filter_app. cbn [filter]. change (between ((0, unit), t2)) with false. cbv iota. rewrite app_nil_r.
  assert (P1 : ny i1 = (unit, 0)) by (unfold entry_of in E1; congruence).
  assert (P2 : ny i2 = (0, unit)) by (unfold entry_of in E2; congruence).
  assert (B : forall i, In i mid -> between (entry_of i) = true).
  { intros i Hi. change (i1 :: mid ++ [i2]) with ((i1 :: mid) ++ [i2]) in Hs.
    apply stair_app in Hs as (H1 & _ & G). unfold stair in H1. inversion H1 as [|? ? _ F]; subst.
    rewrite Forall_forall in F. specialize (F i Hi). specialize (G i i2 (or_intror Hi) (or_introl eq_refl)).
    unfold step in *. rewrite P1 in F. rewrite P2 in G. cbn [fst snd] in *. unfold between, entry_of. cbn [fst snd]. lia. }
  cbn [app]. do 2 f_equal. clear -B. induction mid as [|i mid IH]; [reflexivity|].
  cbn [map filter]. rewrite B by now left. cbn [map]. f_equal. apply IH. intros; apply B. now right.
Qed.

Lemma set_reading_inv : forall t1 t2 h a pos i1 mid i2 c r pos', inv t1 t2 h a pos ->
  tree a = i1 :: mid ++ [i2] -> up_to_date a = true ->
  reading_state (set_reading a c r) i1 mid i2 pos' -> inv t1 t2 h (set_reading a c r) pos'.
Proof.
  intros t1 t2 h a pos i1 mid i2 c r pos' H T U R.
  constructor; cbn [tree set_reading next_id up_to_date extreme1 extreme2 number_of_solutions hypervolume]; try apply H.
  destruct (i_shape _ _ _ _ _ H) as (j1 & mid' & j2 & T' & E1 & E2 & X1 & X2 & RS). rewrite U in *.
  rewrite T in T'. injection T' as <- T'. apply app_inj_tail in T' as [<- <-].
  exists i1, mid, i2. intuition.
Qed.

(** Reading one text. *)
Lemma next_inv : forall t1 t2 h a pos, inv t1 t2 h a pos ->
  exists a', coco_archive_get_next_solution_text a = Ok (Some (nth pos (reading t1 t2 h) []), a') /\
             inv t1 t2 h a' (S pos).
Proof.
  intros t1 t2 h a0 pos H0. unfold coco_archive_get_next_solution_text.
  destruct (update_inv _ _ _ _ _ H0) as (a & EU & H & U). clear H0.
  assert (UU : forall c r, coco_archive_update (set_reading a c r) = Ok (set_reading a c r)).
  { intros. unfold coco_archive_update. cbn [up_to_date set_reading]. now rewrite U. }
  destruct (i_shape _ _ _ _ _ H) as (i1 & mid & i2 & T & E1 & E2 & X1 & X2 & RS). rewrite U in RS.
  destruct RS as (_ & _ & RS).
  pose proof (i_ids _ _ _ _ _ H) as N.
  rewrite (reading_mid _ _ _ _ _ i1 mid i2 H T E1 E2).
  assert (N1 : node_of a (id i1) = Some i1) by (apply node_of_In; auto; rewrite T; now left).
  assert (N2 : node_of a (id i2) = Some i2).
  { apply node_of_In; auto. rewrite T. right. apply in_or_app. right. now left. }
  assert (T1 : text i1 = t1) by (unfold entry_of in E1; congruence).
  assert (T2 : text i2 = t2) by (unfold entry_of in E2; congruence).
  assert (NX : forall l1 i l2, i1 :: mid ++ [i2] = l1 ++ i :: l2 -> next_of (tree a) (id i) = option_map id (nth_error l2 0)).
  { intros l1 i l2 E. rewrite T in *. rewrite E in *. now apply next_of_app. }
  assert (D12 : id i1 <> id i2).
  { rewrite T in N. simpl in N. inversion N; subst. intros X. apply H2. rewrite X, map_app. apply in_or_app. right. now left. }
  assert (DM : forall i, In i mid -> id i <> id i1 /\ id i <> id i2).
  { intros i Hi. rewrite T in N. simpl in N. inversion N as [|? ? A1 A2]; subst. split.
    - intros X. apply A1. rewrite <- X. apply in_map, in_or_app. now left.
    - intros X. rewrite map_app in A2. apply nodup_app in A2 as (_ & _ & A3). apply (A3 (id i)); [now apply in_map|].
      rewrite X. now left. }
  cbn [next_text]. rewrite EU. cbn [bind]. cbv zeta.
  (* reading at an inner position *)
  assert (INNER : forall fuel l1 l2, mid = l1 ++ l2 -> (length l1 + 2 = pos)%nat ->
    exists a', next_text (S fuel) (set_reading a (option_map id (nth_error (l2 ++ [i2]) 0)) true) =
      Ok (Some (nth pos (t1 :: t2 :: map text mid) []), a') /\ inv t1 t2 h a' (S pos)).
  { intros fuel l1 l2 EM EL. cbn [next_text]. rewrite UU. cbn [bind]. cbv zeta.
    cbn [extremes_returned set_reading negb current extreme1 extreme2 tree]. rewrite X1, X2.
    destruct l2 as [|i l2].
    - cbn [app nth_error option_map opt_eqb]. rewrite Nat.eqb_refl, orb_true_r.
      change (node_of (set_reading a (Some (id i2)) true) (id i2)) with (node_of a (id i2)). rewrite N2.
      rewrite (NX (i1 :: mid) i2 []) by reflexivity. cbn [nth_error option_map].
      assert (E : set_reading (set_reading a (Some (id i2)) true) None true = set_reading a None true) by reflexivity.
      rewrite E. destruct fuel; cbn [next_text]; rewrite UU; cbn [bind]; cbv zeta;
      cbn [extremes_returned set_reading negb current].
      all: rewrite app_nil_r in EM; subst l1; exists (set_reading a None true); split;
        [ f_equal; f_equal; f_equal; symmetry; apply nth_overflow; cbn [length]; rewrite map_length; lia
        | eapply set_reading_inv; eauto; right; cbn; split; auto; split; [lia|]; right; right; split; auto; lia ].
    - cbn [app nth_error option_map opt_eqb].
      assert (Hi : In i mid) by (rewrite EM; apply in_or_app; right; now left).
      destruct (DM i Hi) as [D1 D2].
      destruct (Nat.eqb_spec (id i) (id i1)); [tauto|]. destruct (Nat.eqb_spec (id i) (id i2)); [tauto|]. cbn [orb].
      change (node_of (set_reading a (Some (id i)) true) (id i)) with (node_of a (id i)).
      rewrite node_of_In; auto; [|rewrite T; right; apply in_or_app; now left]. cbn [bind].
      rewrite (NX (i1 :: l1) i (l2 ++ [i2])); [|rewrite EM; cbn [app]; now rewrite <- app_assoc].
      eexists. split.
      + f_equal. f_equal. f_equal. rewrite <- EL, EM, map_app. cbn [map].
        replace (length l1 + 2)%nat with (S (S (length l1))) by lia. cbn [nth].
        rewrite app_nth2; rewrite map_length; [|lia]. now rewrite Nat.sub_diag.
      + change (inv t1 t2 h (set_reading a (option_map id (nth_error (l2 ++ [i2]) 0)) true) (S pos)).
        eapply set_reading_inv; eauto. right. cbn. split; auto. split; [lia|]. right. left.
        exists (l1 ++ [i]), l2. rewrite <- app_assoc. split; auto. split; auto. rewrite app_length. simpl. lia. }
  unfold reading_state in RS.
  destruct RS as [(R & [(C & ->)|(C & ->)])|(R & GE & [(-> & C)|[(l1 & l2 & EM & EL & C)|(C & GE2)]])]; rewrite R; cbn [negb]; rewrite C.
  - rewrite X1, N1. cbn [bind]. rewrite T1. eexists. split; [reflexivity|]. rewrite X2.
    eapply set_reading_inv; eauto. left. cbn. auto.
  - rewrite X2. cbn [opt_eqb]. rewrite Nat.eqb_refl, N2. cbn [bind]. rewrite T2. eexists. split; [reflexivity|].
    rewrite T. cbn [nth_error option_map].
    eapply set_reading_inv; eauto. right. cbn. auto.
  - rewrite X1. cbn [opt_eqb]. rewrite Nat.eqb_refl. cbn [orb]. rewrite N1.
    rewrite (NX [] i1 (mid ++ [i2])) by reflexivity. apply (INNER 0%nat [] mid); auto.
  - (* the record is unchanged by setting what it already holds *)
    assert (SA : set_reading a (option_map id (nth_error (l2 ++ [i2]) 0)) true = a).
    { rewrite <- C, <- R. destruct a; reflexivity. }
    pose proof (INNER 1%nat l1 l2 EM EL) as I. rewrite SA in I. cbn [next_text] in I.
    assert (EA : coco_archive_update a = Ok a) by (unfold coco_archive_update; now rewrite U).
    rewrite EA in I. cbn [bind] in I. cbv zeta in I. rewrite R in I. cbn [negb] in I. rewrite C in I. exact I.
  - exists a. split.
    + f_equal. f_equal. f_equal. symmetry. apply nth_overflow. cbn [length]. rewrite map_length. lia.
    + assert (SA : set_reading a None true = a) by (rewrite <- C, <- R; destruct a; reflexivity).
      rewrite <- SA. eapply set_reading_inv; eauto. right. cbn. split; auto. split; [lia|]. right. right. split; auto; lia.
Qed.

(** The fresh archive. *)
Lemma archive_inv : forall t1 t2, exists a, coco_archive t1 t2 = Ok a /\ inv t1 t2 (extremes t1 t2) a 0.
Proof.
  intros t1 t2. eexists. split; [reflexivity|]. constructor; cbn [tree next_id up_to_date extreme1 extreme2].
  - reflexivity.
  - unfold extremes. repeat constructor; cbn [fst snd].
    all: try (unfold unit; lia).
    all: try (exists 2000000000000; reflexivity). all: exists 0; reflexivity.
  - repeat constructor; simpl; intuition; discriminate.
  - repeat constructor.
  - do 3 eexists. split; [|split; [|split; [|split; [|split]]]]; try reflexivity.
Qed.

Theorem perform_all_expected : forall t1 t2 us h a pos, inv t1 t2 h a pos ->
  exists a' pos', perform_all a us = Ok (expected t1 t2 h pos us, a') /\ inv t1 t2 (h ++ added us) a' pos'.
Proof.
  intros t1 t2 us. induction us as [|u us IH]; intros h a pos H.
  - exists a, pos. simpl. rewrite app_nil_r. auto.
  - destruct u as [k txt| | |]; cbn [perform_all perform expected added].
    + destruct (add_inv _ _ _ _ _ k txt H) as (a1 & E & H1). rewrite E. cbn [bind].
      destruct (accepted h (normalised k, txt)); destruct (IH _ _ _ H1) as (a2 & p2 & E2 & I2); rewrite E2;
        exists a2, p2; rewrite <- app_assoc in I2; split; auto.
    + destruct (next_inv _ _ _ _ _ H) as (a1 & E & H1). rewrite E. cbn [bind].
      destruct (IH _ _ _ H1) as (a2 & p2 & E2 & I2). rewrite E2. exists a2, p2. auto.
    + unfold coco_archive_get_number_of_solutions. destruct (update_inv _ _ _ _ _ H) as (a1 & E & H1 & U). rewrite E. cbn [bind].
      destruct (IH _ _ _ H1) as (a2 & p2 & E2 & I2). rewrite E2. cbn [bind].
      destruct (i_shape _ _ _ _ _ H1) as (i1 & mid & i2 & T & E1' & E2' & X1 & X2 & RS). rewrite U in RS.
      destruct RS as (-> & _). exists a2, p2. auto.
    + unfold coco_archive_get_hypervolume. destruct (update_inv _ _ _ _ _ H) as (a1 & E & H1 & U). rewrite E. cbn [bind].
      destruct (IH _ _ _ H1) as (a2 & p2 & E2 & I2). rewrite E2. cbn [bind].
      destruct (i_shape _ _ _ _ _ H1) as (i1 & mid & i2 & T & E1' & E2' & X1 & X2 & RS). rewrite U in RS.
      destruct RS as (_ & -> & _). exists a2, p2. auto.
Qed.
