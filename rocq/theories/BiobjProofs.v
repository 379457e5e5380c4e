From Coq Require Import List Arith ZArith Bool Lia ZifyBool ZifyNat Reals Lra Sorted Permutation.
Import ListNotations.
From Verif Require Import CBase MoModel BiobjModel FrontSpec BiobjSpec FrontProofs AreaProofs KeptProofs BiobjTreeProofs BiobjDistProofs.
Open Scope nat_scope.
Strategy 1000 [area].

(** Histories. *)
Lemma along_snoc : forall B (f : list evaluation -> evaluation -> list B) h E v,
  along f E (h ++ [v]) = along f E h ++ f (E ++ h) v.
Proof.
  induction h as [|w h IH]; intros E v; simpl.
  - now rewrite !app_nil_r.
  - rewrite IH, <- !app_assoc. reflexivity.
Qed.

Lemma last_number_snoc : forall h v n, last_number n (h ++ [v]) = number v.
Proof. intros. unfold last_number. now rewrite fold_left_app. Qed.

Lemma entries_snoc : forall h v, entries (h ++ [v]) = entries h ++ (if satisfied v then [entry_at v] else []).
Proof. intros. unfold entries. rewrite filter_app, map_app. simpl. destruct (satisfied v); reflexivity. Qed.

Lemma positions_snoc : forall h v i, feasible_positions i (h ++ [v]) =
  feasible_positions i h ++ (if satisfied v then [i + length h] else []).
Proof.
  induction h as [|w h IH]; intros v i; simpl.
  - rewrite Nat.add_0_r. now rewrite app_nil_r.
  - rewrite IH, <- app_assoc. simpl. now rewrite Nat.add_succ_r.
Qed.

Lemma positions_range : forall h i a, In a (feasible_positions i h) -> i <= a < i + length h.
Proof.
  induction h as [|w h IH]; intros i a; simpl; [tauto|]. rewrite in_app_iff. intros [H|H].
  - destruct (satisfied w); [destruct H as [<-|[]]|destruct H]; lia.
  - apply IH in H. lia.
Qed.

Lemma positions_nodup : forall h i, NoDup (feasible_positions i h).
Proof.
  induction h as [|w h IH]; intros i; simpl; [constructor|]. destruct (satisfied w); simpl; auto.
  constructor; auto. intros H. apply positions_range in H. lia.
Qed.

(** Numbers: positive and increasing. *)
Definition numbered (h : list evaluation) : Prop :=
  Forall (fun v => 0 < number v) h /\ StronglySorted (fun v w => number v < number w) h.

Lemma numbered_snoc : forall h v, numbered h -> last_number 0 h < number v -> numbered (h ++ [v]).
Proof.
  intros h v [H1 H2] L. split.
  - apply Forall_app. split; auto. constructor; auto. lia.
  - apply sorted_snoc; auto. intros a Ha. apply in_split in Ha as (h1 & h2 & ->).
    destruct h2 as [|w h2 _] using rev_ind.
    + rewrite last_number_snoc in L. exact L.
    + rewrite app_comm_cons, app_assoc, last_number_snoc in L. rewrite app_comm_cons, app_assoc in H2.
      apply sorted_snoc_inv in H2 as [_ H2]. specialize (H2 a). rewrite in_app_iff in H2. simpl in H2.
      specialize (H2 (or_intror (or_introl eq_refl))). lia.
Qed.

Lemma numbered_entries : forall h, numbered h -> numbers_sorted (entries h).
Proof.
  intros h [_ H]. unfold numbers_sorted, entries. induction H as [|v h H IH F]; simpl; [constructor|].
  destruct (satisfied v); auto. simpl. constructor; auto. rewrite Forall_forall in *. intros e He.
  apply in_map_iff in He as (w & <- & Hw). apply filter_In in Hw as [Hw _]. simpl. auto.
Qed.

Lemma last_number_zero : forall h, numbered h -> last_number 0 h = 0 -> h = [].
Proof.
  intros h [H _] E. destruct h as [|v h _] using rev_ind; auto. rewrite last_number_snoc in E.
  apply Forall_app in H as [_ H]. inversion H; subst. lia.
Qed.

(** The value of a history after an evaluation that brings no new solution. *)
Lemma value_same : forall best h v, is_new h v = false -> entries h <> [] -> value best (h ++ [v]) = value best h.
Proof.
  intros best h v N E. unfold value. rewrite entries_snoc. unfold is_new in N. destruct (satisfied v).
  - simpl in N. destruct (entries h) as [|e l] eqn:X; [congruence|]. rewrite <- X in *.
    destruct (entries h ++ [entry_at v]) eqn:Y; [rewrite X in Y; discriminate|]. rewrite <- Y.
    rewrite X at 1. rewrite <- X. rewrite area_rejected, nearest_rejected by auto. rewrite X. reflexivity.
  - now rewrite app_nil_r.
Qed.

Section Logger.
Variable best : R.
Variables TS ES : Type.
Variable targets_trigger : TS -> R -> bool * TS.
Variable evaluations_trigger : ES -> nat -> bool * ES.
Variables (ts0 : TS) (es0 : ES) (m : mode).

Definition ttrig (s : TS) (x : line) : bool * TS := targets_trigger s (snd x).
Definition etrig (s : ES) (x : line) : bool * ES := evaluations_trigger s (fst x).

Fixpoint fired_state {S : Type} (trigger : S -> line -> bool * S) (s : S) (l : list line) : S :=
  match l with [] => s | x :: l' => fired_state trigger (snd (trigger s x)) l' end.

Lemma fired_app : forall S (tr : S -> line -> bool * S) l1 l2 s,
  fired tr s (l1 ++ l2) = fired tr s l1 ++ fired tr (fired_state tr s l1) l2.
Proof.
  induction l1 as [|x l1 IH]; intros l2 s; simpl; auto. destruct (tr s x) as [b s']. simpl. rewrite IH. now rewrite app_assoc.
Qed.
Lemma fired_state_app : forall S (tr : S -> line -> bool * S) l1 l2 s,
  fired_state tr s (l1 ++ l2) = fired_state tr (fired_state tr s l1) l2.
Proof. induction l1; intros; simpl; auto. Qed.

Lemma gap_loop_spec : forall js es v, exists b,
  gap_loop ES evaluations_trigger es js v =
  (b, fired_state etrig es (map (fun j => (j, v)) js), fired etrig es (map (fun j => (j, v)) js)).
Proof.
  induction js as [|j js IH]; intros es v; simpl; [eauto|].
  change (etrig es (j, v)) with (evaluations_trigger es j).
  destruct (evaluations_trigger es j) as [b es1] eqn:E. cbn [snd].
  destruct (IH es1 v) as [b' ->]. eauto.
Qed.

Lemma fired_incl : forall S (tr : S -> line -> bool * S) l s, incl (fired tr s l) l.
Proof.
  induction l as [|x l IH]; intros s; simpl; [apply incl_refl|]. destruct (tr s x) as [b s'].
  intros y Hy. apply in_app_or in Hy as [Hy|Hy]; [destruct b; [destruct Hy as [<-|[]]; now left|destruct Hy]|].
  right. eapply IH; eauto.
Qed.

Notation indicator := (indicator TS ES).

Record ind_inv (h : list evaluation) (i : indicator) : Prop := {
  ii_pen : penalty _ _ i = match entries h with [] => None | _ => Some (nearest (entries h)) end;
  ii_over : overall _ _ i = final_value best h;
  ii_dat : dat _ _ i = fired ttrig ts0 (improvements best h);
  ii_ts : tstate _ _ i = fired_state ttrig ts0 (improvements best h);
  ii_tdat : tdat _ _ i = fired etrig es0 (with_values best m h);
  ii_es : estate _ _ i = fired_state etrig es0 (with_values best m h);
  ii_dat_le : Forall (fun x => fst x <= last_number 0 h) (dat _ _ i);
  ii_tdat_le : Forall (fun x => fst x <= last_number 0 h) (tdat _ _ i);
  ii_hit : target_hit _ _ i = existsb (fun x => Nat.eqb (fst x) (last_number 0 h)) (dat _ _ i);
  ii_logged : evaluation_logged _ _ i = existsb (fun x => Nat.eqb (fst x) (last_number 0 h)) (tdat _ _ i) }.

Definition node_for (a : nat) (v : evaluation) : item :=
  node_create a (quotients v) (printed v) (satisfied v) (number v).

Lemma node_entry : forall a v, entry_of (node_for a v) = entry_at v.
Proof. intros. unfold entry_of, entry_at, node_for, node_create. cbn [npt eval_no data]. now rewrite normalize_spec. Qed.

Lemma node_wf : forall a v, satisfied v = true -> wf_item (node_for a v).
Proof.
  intros a v Hs. unfold wf_item, node_for, node_create. cbn [npt within feasible]. rewrite normalize_spec.
  split; [apply normalised_grid|]. destruct (normalised_proper (quotients v)) as (? & ? & _). auto.
Qed.

Lemma existsb_small : forall n k (l : list line), Forall (fun x => fst x <= n) l -> n < k ->
  existsb (fun x => Nat.eqb (fst x) k) l = false.
Proof.
  intros n k l H L. induction H; simpl; auto. rewrite IHForall. destruct (Nat.eqb_spec (fst x) k); auto. lia.
Qed.

Lemma indicator_output_ok : forall h v i a t prev rs,
  ind_inv h i -> numbered h -> last_number 0 h < number v ->
  (satisfied v = false -> h = [] -> number v = 1) ->
  (m = NondomRead -> prev = last_number 0 h) ->
  (exists fa, tinv true (entries (h ++ [v])) fa t) ->
  (satisfied v = false \/ is_new h v = true -> ~ In a (freed t)) ->
  exists i', indicator_output best TS ES targets_trigger evaluations_trigger m (number v) prev rs (current_value t) (freed t) i
               (is_new h v) (node_for a v) = Ok i' /\
             ind_inv (h ++ [v]) i' /\
             rdat _ _ i' = rdat _ _ i ++ (if rs then [(number v, value best (h ++ [v]))] else []).
Proof.
  intros h v i a t prev rs I Nh L S1 Pv [fa Ti] Fr.
  assert (NE : h ++ [v] <> []) by (destruct h; discriminate).
  assert (FV : final_value best (h ++ [v]) = value best (h ++ [v])).
  { unfold final_value. destruct (h ++ [v]); [congruence|reflexivity]. }
  unfold indicator_output.
  (* the first part *)
  match goal with |- context [bind (if is_new h v then ?A else ?B) _] => set (FIRST := if is_new h v then A else B) end.
  set (consult := is_new h v || (Nat.eqb (number v) 1 && negb (satisfied v))).
  assert (F1 : exists pen ov hit ts, FIRST = Ok (pen, ov, hit, ts) /\
     pen = match entries (h ++ [v]) with [] => None | _ => Some (nearest (entries (h ++ [v]))) end /\
     ov = value best (h ++ [v]) /\
     (if consult then (hit, ts) = targets_trigger (tstate _ _ i) ov else hit = false /\ ts = tstate _ _ i)).
  { unfold FIRST, consult. clear FIRST consult. destruct (is_new h v) eqn:IN.
    - unfold is_new in IN. apply andb_true_iff in IN as [Sv Av].
      assert (EN : entries (h ++ [v]) = entries h ++ [entry_at v]) by (rewrite entries_snoc, Sv; reflexivity).
      assert (PEN : (if almost_equal (current_value t) 0 (mo_precision * one)
                     then do _ <- touch (freed t) (node_for a v);
                          Ok (Some (penalty_min (penalty TS ES i) (distance_to_ROI (npt (node_for a v)))))
                     else Ok (Some 0%R)) = Ok (Some (nearest (entries (h ++ [v]))))).
      { destruct (almost_equal _ _ _) eqn:AE.
        - unfold touch. rewrite is_freed_false by (apply Fr; auto). cbn [bind]. f_equal. f_equal.
          destruct (node_wf a v Sv) as (G & P0 & P1 & _). rewrite distance_spec by auto.
          assert (EP : npt (node_for a v) = fst (entry_at v)) by (rewrite <- (node_entry a v); reflexivity).
          rewrite EP, EN, nearest_snoc, (ii_pen _ _ I). destruct (entries h); reflexivity.
        - f_equal. f_equal. rewrite (tinv_area _ _ _ Ti) in AE.
          destruct (area_positive unit (map fst (entries (h ++ [v])))) as (p & Hp & Q1 & Q2).
          { unfold almost_equal in AE. rewrite Z.sub_0_r in AE. pose proof (area_nonneg unit (map fst (entries (h ++ [v])))).
            assert (0 < mo_precision * one)%Z by reflexivity.
            destruct (Z.ltb_spec (Z.abs (area unit (map fst (entries (h ++ [v]))))) (mo_precision * one)); [discriminate|lia]. }
          apply in_map_iff in Hp as (e & <- & He).
          apply Rle_antisym; [apply nearest_nonneg|]. rewrite <- (dist_zero _ Q1 Q2). now apply nearest_le. }
      rewrite PEN. cbn [bind].
      assert (OV : (best - IZR (current_value t) / (IZR one * IZR one) + nearest (entries (h ++ [v])))%R = value best (h ++ [v])).
      { unfold value. rewrite (tinv_area _ _ _ Ti). rewrite EN. destruct (entries h ++ [entry_at v]) eqn:X; [destruct (entries h); discriminate|].
        reflexivity. }
      rewrite OV. destruct (targets_trigger (tstate _ _ i) (value best (h ++ [v]))) as [hit ts] eqn:TT.
      eexists _, _, _, _. split; [reflexivity|]. split.
      + rewrite EN. destruct (entries h ++ [entry_at v]) eqn:X; [destruct (entries h); discriminate|reflexivity].
      + split; auto. cbn [orb]. auto.
    - cbn [orb].
      assert (PE : match entries (h ++ [v]) with [] => None | _ => Some (nearest (entries (h ++ [v]))) end = penalty _ _ i).
      { rewrite (ii_pen _ _ I). rewrite entries_snoc. unfold is_new in IN. destruct (satisfied v); [|now rewrite app_nil_r].
        cbn [andb] in IN. rewrite nearest_rejected by auto. destruct (entries h); [discriminate IN|reflexivity]. }
      destruct (satisfied v) eqn:Sv.
      + assert (E0 : entries h <> []).
        { intros E. unfold is_new in IN. rewrite Sv, E in IN. discriminate. }
        assert (h <> []) by (intros ->; apply E0; reflexivity).
        assert (number v <> 1).
        { intros E. assert (last_number 0 h = 0) by lia. apply last_number_zero in H0; auto. }
        destruct (Nat.eqb_spec (number v) 1); [congruence|]. cbn [bind andb].
        eexists _, _, _, _. split; [reflexivity|]. split; auto. split; auto.
        rewrite value_same by auto. rewrite (ii_over _ _ I). unfold final_value. destruct h; [congruence|reflexivity].
      + destruct (Nat.eqb_spec (number v) 1) as [E1|E1].
        * assert (h = []) by (apply last_number_zero; auto; lia). subst h.
          unfold touch. rewrite is_freed_false by (apply Fr; auto). cbn [bind andb negb feasible node_for node_create].
          rewrite Sv. cbn [negb].
          assert (V : value best ([] ++ [v]) = infinity_for_logging).
          { unfold value. rewrite entries_snoc, Sv. reflexivity. }
          destruct (targets_trigger (tstate _ _ i) infinity_for_logging) as [hit ts] eqn:TT.
          eexists _, _, _, _. split; [reflexivity|]. split; auto.
        * cbn [bind andb]. eexists _, _, _, _. split; [reflexivity|]. split; auto. split; auto.
          rewrite (ii_over _ _ I). destruct h as [|w h]; [exfalso; apply E1, S1; auto|].
          unfold final_value, value. rewrite entries_snoc, Sv, app_nil_r. reflexivity. }
  destruct F1 as (pen & ov & hit & ts & -> & P1 & P2 & P3). cbn [bind].
  (* the gap *)
  assert (GAP : exists b, (match m with
    | NondomRead => gap_loop ES evaluations_trigger (estate TS ES i) (seq (S prev) (number v - 1 - prev)) (overall TS ES i)
    | _ => (false, estate TS ES i, []) end) =
    (b, fired_state etrig (estate _ _ i) (match m with
       | NondomRead => map (fun j => (j, match h with [] => 0%R | _ => value best h end))
                           (seq (S (last_number 0 h)) (number v - 1 - last_number 0 h))
       | _ => [] end),
     fired etrig (estate _ _ i) (match m with
       | NondomRead => map (fun j => (j, match h with [] => 0%R | _ => value best h end))
                           (seq (S (last_number 0 h)) (number v - 1 - last_number 0 h))
       | _ => [] end))).
  { destruct m; try (exists false; reflexivity).
    rewrite (Pv eq_refl). rewrite (ii_over _ _ I). apply gap_loop_spec. }
  destruct GAP as [b GAP]. rewrite GAP. clear GAP.
  set (gap := match m with
       | NondomRead => map (fun j => (j, match h with [] => 0%R | _ => value best h end))
                           (seq (S (last_number 0 h)) (number v - 1 - last_number 0 h))
       | _ => [] end).
  destruct (evaluations_trigger (fired_state etrig (estate _ _ i) gap) (number v)) as [logged es2] eqn:ET.
  assert (IM : improvements best (h ++ [v]) = improvements best h ++ (if consult then [(number v, value best (h ++ [v]))] else [])).
  { unfold improvements. rewrite along_snoc. reflexivity. }
  assert (WV : with_values best m (h ++ [v]) = with_values best m h ++ gap ++ [(number v, value best (h ++ [v]))]).
  { unfold with_values. rewrite along_snoc. reflexivity. }
  assert (GL : Forall (fun x : line => fst x <= number v - 1) gap).
  { unfold gap. destruct m; try constructor. apply Forall_forall. intros x Hx. apply in_map_iff in Hx as (j & <- & Hj).
    apply in_seq in Hj. cbn [fst]. lia. }
  assert (FG : Forall (fun x : line => fst x <= number v - 1) (fired etrig (estate _ _ i) gap)).
  { rewrite Forall_forall in *. intros x Hx. apply GL. eapply fired_incl; eauto. }
  assert (OLD : forall k (l : list line), Forall (fun x => fst x <= last_number 0 h) l -> last_number 0 h <= k -> Forall (fun x => fst x <= k) l).
  { intros k l F Hk. rewrite Forall_forall in *. intros x Hx. specialize (F x Hx). cbn in F. lia. }
  eexists. split; [reflexivity|]. subst ov.
  split; [|reflexivity].
  constructor; cbn [penalty overall dat tstate tdat estate target_hit evaluation_logged]; rewrite ?last_number_snoc; auto.
  - rewrite IM, fired_app, <- (ii_dat _ _ I), <- (ii_ts _ _ I). f_equal. destruct consult.
    + simpl. unfold ttrig. cbn [snd]. rewrite <- P3. now rewrite app_nil_r.
    + destruct P3 as [-> ->]. reflexivity.
  - rewrite IM, fired_state_app, <- (ii_ts _ _ I). destruct consult.
    + simpl. unfold ttrig. cbn [snd]. rewrite <- P3. reflexivity.
    + destruct P3 as [-> ->]. reflexivity.
  - rewrite WV, !fired_app, <- (ii_tdat _ _ I), <- (ii_es _ _ I). f_equal. f_equal.
    simpl. unfold etrig at 1. cbn [fst]. rewrite ET. now rewrite app_nil_r.
  - rewrite WV, !fired_state_app, <- (ii_es _ _ I). simpl. unfold etrig at 1. cbn [fst]. rewrite ET. reflexivity.
  - apply Forall_app. split; [apply OLD; [apply (ii_dat_le _ _ I)|lia]|]. destruct hit; repeat constructor.
  - apply Forall_app. split; [apply OLD; [apply (ii_tdat_le _ _ I)|lia]|]. apply Forall_app. split.
    + eapply Forall_impl; [|exact FG]. cbn. intros; lia.
    + destruct logged; repeat constructor.
  - rewrite existsb_app, (existsb_small (last_number 0 h)) by (auto; apply (ii_dat_le _ _ I)).
    destruct hit; simpl; rewrite ?Nat.eqb_refl; reflexivity.
  - rewrite existsb_app, (existsb_small (last_number 0 h)) by (auto; apply (ii_tdat_le _ _ I)).
    rewrite existsb_app, (existsb_small (number v - 1)) by (auto; lia).
    destruct logged; simpl; rewrite ?Nat.eqb_refl; reflexivity.
Qed.

Variable c : bool.
Notation logger := (logger TS ES).

Record linv (h : list evaluation) (lg : logger) : Prop := {
  li_mode : log_mode _ _ lg = m;
  li_comp : compute_indicators _ _ lg = c;
  li_evals : evals _ _ lg = last_number 0 h;
  li_next : next_addr _ _ lg = length h;
  li_num : numbered h;
  li_tree : tinv c (entries h) (feasible_positions 0 h) (tr _ _ lg);
  li_buf : m = NondomAll -> buffer (tr _ _ lg) = [];
  li_ind : c = true -> ind_inv h (ind _ _ lg);
  li_adat : adat _ _ lg = match m with NondomAll => archive_lines NondomAll h | _ => [] end }.

Lemma infeasible_update : forall t x, feasible x = false -> tree_update c t x = Ok (t, false).
Proof. intros t x H. unfold tree_update. now rewrite H. Qed.

(** The trees after an evaluation. *)
Lemma update_ok : forall h t v, tinv c (entries h) (feasible_positions 0 h) t -> numbered h -> last_number 0 h < number v ->
  exists t' B, tree_update c t (node_for (length h) v) = Ok (t', is_new h v) /\
    tinv c (entries (h ++ [v])) (feasible_positions 0 (h ++ [v])) t' /\
    buffer t' = B ++ (if is_new h v then [node_for (length h) v] else []) /\ incl B (buffer t) /\
    (satisfied v = false \/ is_new h v = true -> ~ In (length h) (freed t')).
Proof.
  intros h t v I Nh L.
  assert (NP : ~ In (length h) (feasible_positions 0 h)).
  { intros H. apply positions_range in H. lia. }
  destruct (satisfied v) eqn:Sv.
  - assert (IN : is_new h v = accepted (entries h) (entry_of (node_for (length h) v))).
    { unfold is_new. rewrite Sv, node_entry. reflexivity. }
    destruct (tree_update_ok c (entries h) (feasible_positions 0 h) t (node_for (length h) v)) as (t' & B & X1 & X2 & X3 & X4 & X5); auto.
    + cbn [addr node_for node_create]. apply (NoDup_Add (a := length h) (l := feasible_positions 0 h)).
      * rewrite <- (app_nil_r (feasible_positions 0 h)) at 1. apply Add_app.
      * split; auto. apply positions_nodup.
    + rewrite node_entry. pose proof (numbered_entries _ (numbered_snoc h v Nh L)) as E. rewrite entries_snoc, Sv in E. exact E.
    + now apply node_wf.
    + rewrite <- IN in *. exists t', B. split; auto. rewrite entries_snoc, positions_snoc, Sv. rewrite node_entry in X2.
      split; auto. split; auto. split; auto. intros [H|H]; [discriminate|]. apply X5, H.
  - assert (IN : is_new h v = false) by (unfold is_new; now rewrite Sv). rewrite IN.
    exists t, (buffer t). rewrite infeasible_update by exact Sv. split; auto.
    rewrite entries_snoc, positions_snoc, Sv, !app_nil_r. split; auto. split; auto. split; [apply incl_refl|].
    intros _ H. apply NP. eapply Permutation_in; [apply (ti_addr _ _ _ _ I)|]. unfold owned. apply in_or_app. auto.
Qed.

Notation happen := (happen best TS ES targets_trigger evaluations_trigger).
Notation happen_all := (happen_all best TS ES targets_trigger evaluations_trigger).

Lemma tinv_purge : forall es fa t, tinv c es fa t ->
  tinv c es fa {| archive := archive t; buffer := []; freed := freed t; current_value := current_value t |}.
Proof.
  intros es fa t [I1 I2 I3 I4 I5 I6]. constructor; auto. split; [intros b []|constructor].
Qed.

(** The common part of evaluate and feed. *)
Lemma record_ok : forall h v lg0 t,
  log_mode _ _ lg0 = m -> compute_indicators _ _ lg0 = c -> evals _ _ lg0 = number v -> next_addr _ _ lg0 = S (length h) ->
  tr _ _ lg0 = t -> (c = true -> ind_inv h (ind _ _ lg0)) -> numbered h -> last_number 0 h < number v ->
  (satisfied v = false -> h = [] -> number v = 1) -> (m = NondomRead -> previous_evals _ _ lg0 = last_number 0 h) ->
  tinv c (entries (h ++ [v])) (feasible_positions 0 (h ++ [v])) t ->
  (satisfied v = false \/ is_new h v = true -> ~ In (length h) (freed t)) ->
  (m = NondomAll -> buffer t = []) ->
  adat _ _ lg0 = (match m with NondomAll => archive_lines NondomAll (h ++ [v]) | _ => [] end) ->
  exists lg', biobj_output best TS ES targets_trigger evaluations_trigger lg0 (is_new h v) (node_for (length h) v) = Ok lg' /\
    linv (h ++ [v]) lg' /\ observer _ _ lg' = observer _ _ lg0 /\ restarted _ _ lg' = false /\
    (c = true -> rdat _ _ (ind _ _ lg') = rdat _ _ (ind _ _ lg0) ++
       (if restarted _ _ lg0 then [(number v, value best (h ++ [v]))] else [])).
Proof.
  intros h v lg0 t H1 H2 H3 H4 H5 H6 H7 H8 H9 H10 H11 H12 H13 H14.
  unfold biobj_output. rewrite H1, H2, H3, H5.
  assert (EX : exists i', (if c then indicator_output best TS ES targets_trigger evaluations_trigger m (number v)
       (previous_evals TS ES lg0) (restarted TS ES lg0) (current_value t) (freed t) (ind TS ES lg0) (is_new h v) (node_for (length h) v)
       else Ok (ind TS ES lg0)) = Ok i' /\ (c = true -> ind_inv (h ++ [v]) i') /\
     (c = true -> rdat _ _ i' = rdat _ _ (ind _ _ lg0) ++ (if restarted _ _ lg0 then [(number v, value best (h ++ [v]))] else []))).
  { destruct c eqn:Ec.
    - destruct (indicator_output_ok h v (ind _ _ lg0) (length h) t (previous_evals _ _ lg0) (restarted _ _ lg0)) as (i' & X1 & X2 & X3); auto.
      { exists (feasible_positions 0 (h ++ [v])). exact H11. }
      exists i'. auto.
    - exists (ind _ _ lg0). split; auto. split; discriminate. }
  destruct EX as (i' & -> & E1 & E2). cbn [bind].
  eexists. split; [reflexivity|]. cbn [observer restarted ind]. split; [|auto].
  constructor; cbn [log_mode compute_indicators evals next_addr tr ind adat]; auto.
  - now rewrite last_number_snoc.
  - rewrite app_length. simpl. lia.
  - now apply numbered_snoc.
Qed.

Lemma evaluate_ok : forall h lg k d f, linv h lg -> m <> NondomRead ->
  let v := {| number := S (evals _ _ lg); quotients := k; printed := d; satisfied := f |} in
  exists lg', happen lg (Evaluate k d f) = Ok lg' /\ linv (h ++ [v]) lg' /\ observer _ _ lg' = observer _ _ lg /\
    restarted _ _ lg' = false /\
    (c = true -> rdat _ _ (ind _ _ lg') = rdat _ _ (ind _ _ lg) ++
       (if restarted _ _ lg then [(number v, value best (h ++ [v]))] else [])).
Proof.
  intros h lg k d f I Hm v. destruct I as [I1 I2 I3 I4 I5 I6 I7 I8 I9].
  cbn [BiobjModel.happen]. unfold evaluate.
  change (node_create (next_addr TS ES lg) k d f (S (evals TS ES lg))) with (node_for (next_addr TS ES lg) v).
  rewrite I4, I2, I1.
  assert (L : last_number 0 h < number v) by (cbn [number v]; lia).
  destruct (update_ok h (tr _ _ lg) v I6 I5 L) as (t' & B & -> & X2 & X3 & X4 & X5). cbn [bind].
  assert (OUT : exists t1 out, (match m with
     | NondomAll => if is_new h v then do _ <- touch_all (freed t') (buffer t');
          Ok ({| archive := archive t'; buffer := []; freed := freed t'; current_value := current_value t' |}, tree_output (buffer t'))
        else Ok (t', [])
     | _ => Ok (t', []) end) = Ok (t1, out) /\
     tinv c (entries (h ++ [v])) (feasible_positions 0 (h ++ [v])) t1 /\ freed t1 = freed t' /\ current_value t1 = current_value t' /\
     (m = NondomAll -> buffer t1 = []) /\
     adat _ _ lg ++ out = (match m with NondomAll => archive_lines NondomAll (h ++ [v]) | _ => [] end)).
  { rewrite I9. destruct m; try (exists t', []; split; [reflexivity|]; split; [exact X2|]; split; auto; split; auto; split; [discriminate|auto]; fail).
    specialize (I7 eq_refl). rewrite I7 in X4. apply incl_l_nil in X4. subst B. simpl in X3.
      cbn [archive_lines]. rewrite along_snoc. cbn [app]. destruct (is_new h v) eqn:IN.
      + assert (No : NoDup (owned t')).
        { eapply Permutation_NoDup; [apply Permutation_sym, (ti_addr _ _ _ _ X2)|]. apply positions_nodup. }
        rewrite touch_all_buffer by (auto; apply (ti_buf _ _ _ _ X2)). cbn [bind].
        eexists _, _. split; [reflexivity|]. split; [apply tinv_purge, X2|]. split; auto. split; auto. split; auto.
        rewrite X3. reflexivity.
      + exists t', []. split; [reflexivity|]. split; [exact X2|]. split; [reflexivity|]. split; [reflexivity|].
        split; [intros _; exact X3|reflexivity]. }
  destruct OUT as (t1 & out & OE & Y1 & Y2 & Y3 & Y4 & Y5). rewrite OE. cbn [bind].
  destruct (record_ok h v {| log_mode := m; compute_indicators := c; observer := observer TS ES lg; evals := S (evals TS ES lg);
      previous_evals := previous_evals TS ES lg; restarted := restarted TS ES lg; next_addr := S (length h);
      tr := t1; ind := ind TS ES lg; adat := adat TS ES lg ++ out; mdat := mdat TS ES lg |} t1)
    as (lg' & Z1 & Z2 & Z3 & Z4 & Z5); auto.
  - intros _ ->. cbn [number v]. rewrite I3. reflexivity.
  - congruence.
  - rewrite Y2. exact X5.
  - exists lg'. auto.
Qed.

Lemma feed_ok : forall h lg e k, linv h lg -> m = NondomRead -> evals _ _ lg < e ->
  let v := {| number := e; quotients := k; printed := []; satisfied := true |} in
  exists lg', feed best TS ES targets_trigger evaluations_trigger lg e k = Ok (lg', is_new h v) /\
    linv (h ++ [v]) lg' /\ observer _ _ lg' = observer _ _ lg /\
    restarted _ _ lg' = false /\
    (c = true -> rdat _ _ (ind _ _ lg') = rdat _ _ (ind _ _ lg) ++
       (if restarted _ _ lg then [(number v, value best (h ++ [v]))] else [])).
Proof.
  intros h lg e k I Hm He v. destruct I as [I1 I2 I3 I4 I5 I6 I7 I8 I9].
  unfold feed. rewrite I1, Hm. destruct (Nat.leb_spec e (evals _ _ lg)); [lia|].
  change (node_create (next_addr TS ES lg) k [] true e) with (node_for (next_addr TS ES lg) v).
  rewrite I4, I2.
  assert (L : last_number 0 h < number v) by (cbn [number v]; lia).
  destruct (update_ok h (tr _ _ lg) v I6 I5 L) as (t' & B & -> & X2 & X3 & X4 & X5). cbn [bind].
  destruct (record_ok h v {| log_mode := NondomRead; compute_indicators := c; observer := observer TS ES lg; evals := e;
      previous_evals := evals TS ES lg; restarted := restarted TS ES lg; next_addr := S (length h);
      tr := t'; ind := ind TS ES lg; adat := adat TS ES lg; mdat := mdat TS ES lg |} t')
    as (lg' & Z1 & Z2 & Z3 & Z4 & Z5); auto.
  - discriminate.
  - congruence.
  - rewrite Hm in I9 |- *. exact I9.
  - rewrite Z1. exists lg'. auto.
Qed.

Lemma linv_flags : forall h lg ob rs md, linv h lg ->
  linv h {| log_mode := log_mode _ _ lg; compute_indicators := compute_indicators _ _ lg; observer := ob; evals := evals _ _ lg;
            previous_evals := previous_evals _ _ lg; restarted := rs; next_addr := next_addr _ _ lg; tr := tr _ _ lg;
            ind := ind _ _ lg; adat := adat _ _ lg; mdat := md |}.
Proof. intros h lg ob rs md [I1 I2 I3 I4 I5 I6 I7 I8 I9]. constructor; auto. Qed.

Lemma happen_all_ok : forall evs h lg, linv h lg -> proper_use m (evals _ _ lg) (observer _ _ lg) evs ->
  exists lg', happen_all lg evs = Ok lg' /\ linv (h ++ history (evals _ _ lg) evs) lg' /\
    (c = true -> rdat _ _ (ind _ _ lg') = rdat _ _ (ind _ _ lg) ++ restarts best (evals _ _ lg) (restarted _ _ lg) h evs).
Proof.
  induction evs as [|ev evs IH]; intros h lg I P.
  - exists lg. cbn [happen_all history restarts]. rewrite !app_nil_r. auto.
  - cbn [BiobjModel.happen_all]. destruct ev as [k d f|d|e k| |]; cbn [proper_use] in P; cbn [history restarts].
    + destruct P as [Pm P]. destruct (evaluate_ok h lg k d f I Pm) as (lg1 & -> & X1 & X2 & X3 & X4). cbn [bind].
      pose proof (li_evals _ _ X1) as Ev. rewrite last_number_snoc in Ev. cbn [number] in Ev.
      destruct (IH _ lg1 X1) as (lg' & Y1 & Y2 & Y3); [rewrite Ev, X2; exact P|].
      exists lg'. split; auto. rewrite Ev, <- app_assoc in Y2. split; auto.
      intros Hc. rewrite (Y3 Hc), (X4 Hc), X3, Ev, <- app_assoc. reflexivity.
    + destruct P as [Po P]. cbn [BiobjModel.happen]. unfold recommend. rewrite Po. cbn [bind].
      match goal with |- context [BiobjModel.happen_all _ _ _ _ _ ?l evs] => set (lg1 := l) end.
      destruct (IH h lg1) as (lg' & Y1 & Y2 & Y3); [now apply linv_flags|cbn [evals observer lg1]; rewrite Po in P; exact P|].
      exists lg'. auto.
    + destruct P as (Pm & Pe & P). cbn [BiobjModel.happen].
      destruct (feed_ok h lg e k I Pm Pe) as (lg1 & -> & X1 & X2 & X3 & X4). cbn [bind].
      pose proof (li_evals _ _ X1) as Ev. rewrite last_number_snoc in Ev. cbn [number] in Ev.
      destruct (IH _ lg1 X1) as (lg' & Y1 & Y2 & Y3); [rewrite Ev, X2; exact P|].
      exists lg'. split; auto. rewrite Ev, <- app_assoc in Y2. split; auto.
      intros Hc. rewrite (Y3 Hc), (X4 Hc), X3, Ev, <- app_assoc. reflexivity.
    + cbn [BiobjModel.happen bind].
      destruct (IH h (signal_restart _ _ lg)) as (lg' & Y1 & Y2 & Y3); [now apply linv_flags|exact P|].
      exists lg'. split; auto. split; auto. intros Hc. rewrite (Y3 Hc). cbn [ind evals restarted signal_restart].
      f_equal. f_equal. destruct (Nat.ltb_spec 0 (evals _ _ lg)), (Nat.eqb_spec (evals _ _ lg) 0); try lia;
        destruct (restarted _ _ lg); reflexivity.
    + cbn [BiobjModel.happen bind].
      destruct (IH h (nullify_observer _ _ lg)) as (lg' & Y1 & Y2 & Y3); [now apply linv_flags|exact P|].
      exists lg'. auto.
Qed.

Lemma initial_linv : linv [] (logger_biobj TS ES m c ts0 es0).
Proof.
  constructor; try reflexivity; auto.
  - split; constructor.
  - constructor; cbn; auto.
    + split; [intros b []|constructor].
    + destruct c; reflexivity.
  - intros _. constructor; try reflexivity; constructor.
  - destruct m; reflexivity.
Qed.

(** Closing. *)
Lemma free_all_ok : forall l f, NoDup (f ++ map addr l) -> exists f', free_all f l = Ok f' /\ Permutation f' (f ++ map addr l).
Proof.
  induction l as [|i l IH]; intros f N.
  - exists f. split; auto. rewrite app_nil_r. apply Permutation_refl.
  - cbn [free_all map] in *. unfold free_item.
    assert (~ In (addr i) f).
    { apply NoDup_remove in N as [_ N]. intros H. apply N, in_or_app. auto. }
    rewrite is_freed_false by auto. cbn [bind].
    destruct (IH (addr i :: f)) as (f' & E & P).
    { eapply Permutation_NoDup; [|exact N]. simpl. apply Permutation_sym, Permutation_middle. }
    exists f'. split; auto. eapply Permutation_trans; [exact P|]. simpl. apply Permutation_middle.
Qed.

Definition line_of (i : item) : nat * cstr := (eval_no i, data i).

Lemma insert_eval_spec : forall x l, StronglySorted by_eval l -> (forall b, In b l -> eval_no b <> eval_no x) ->
  exists l', insert item compare_eval x l = Some l' /\ StronglySorted by_eval l' /\ Permutation l' (x :: l).
Proof.
  intros x l Hs Hn. unfold insert, search.
  assert (F : find (fun e => Z.eqb (compare_eval x e) 0) l = None).
  { destruct (find _ l) eqn:F; auto. apply find_some in F as [F1 F2]. rewrite compare_eval_eq in F2.
    specialize (Hn _ F1). apply Nat.eqb_eq in F2. congruence. }
  rewrite F. clear F.
  assert (S : forall l, StronglySorted by_eval l -> (forall b, In b l -> eval_no b <> eval_no x) ->
     let (p, r) := split_right item compare_eval x l in l = p ++ r /\
     (forall b, In b p -> by_eval b x) /\ (forall b, In b r -> by_eval x b)).
  { clear. intros l Hs. induction Hs as [|e l Hs IH Hf]; intros Hn; simpl.
    - repeat split; intros b [].
    - rewrite compare_eval_lt. destruct (Nat.ltb_spec (eval_no x) (eval_no e)).
      + split; auto. split; [intros b []|]. intros b [<-|Hb]; [exact H|].
        rewrite Forall_forall in Hf. specialize (Hf b Hb). unfold by_eval in *. lia.
      + destruct (split_right _ _ _ l) as [p r]. destruct IH as (I1 & I2 & I3); [intros; apply Hn; now right|].
        split; [simpl; congruence|]. split; auto. intros b [<-|Hb]; auto. unfold by_eval.
        specialize (Hn e (or_introl eq_refl)). lia. }
  specialize (S l Hs Hn). destruct (split_right _ _ _ l) as [p r]. destruct S as (-> & S1 & S2).
  exists (p ++ x :: r). split; auto. split; [|apply Permutation_sym, Permutation_middle].
  clear Hn. induction p as [|e p IH]; simpl in *.
  - constructor; auto. now apply Forall_forall.
  - inversion Hs; subst. constructor; [apply IH; auto|]. rewrite Forall_app in H2 |- *. destruct H2 as [A1 A2]. split; auto.
Qed.

Lemma resorted_spec : forall l, NoDup (map eval_no l) ->
  StronglySorted by_eval (resorted l) /\ Permutation (resorted l) l.
Proof.
  intros l Hd. unfold resorted.
  assert (G : forall l acc, StronglySorted by_eval acc -> NoDup (map eval_no (acc ++ l)) ->
     let r := fold_left (fun acc i => match insert item compare_eval i acc with Some a => a | None => acc end) l acc in
     StronglySorted by_eval r /\ Permutation r (acc ++ l)).
  { clear. induction l as [|i l IH]; intros acc Hs Hd; cbv zeta; simpl.
    - rewrite app_nil_r. split; auto.
    - destruct (insert_eval_spec i acc Hs) as (acc' & -> & S' & P').
      { intros b Hb E. rewrite map_app in Hd. cbn [map] in Hd. apply NoDup_remove in Hd as [_ Hd]. apply Hd, in_or_app.
        left. rewrite <- E. now apply in_map. }
      assert (PP : Permutation (acc' ++ l) (acc ++ i :: l)).
      { eapply Permutation_trans; [apply Permutation_app_tail, P'|]. simpl. apply Permutation_middle. }
      destruct (IH acc') as [Q1 Q2]; auto.
      + eapply Permutation_NoDup; [apply Permutation_map, Permutation_sym, PP|exact Hd].
      + split; auto. eapply Permutation_trans; eauto. }
  apply (G l []); auto. constructor.
Qed.

Lemma sorted_lines_unique : forall l1 l2 : list (nat * cstr), StronglySorted (fun a b => fst a < fst b) l1 ->
  StronglySorted (fun a b => fst a < fst b) l2 -> (forall e, In e l1 <-> In e l2) -> l1 = l2.
Proof.
  induction l1 as [|a l1 IH]; intros l2 H1 H2 E.
  - destruct l2 as [|b l2]; auto. destruct (proj2 (E b) (or_introl eq_refl)).
  - destruct l2 as [|b l2]; [destruct (proj1 (E a) (or_introl eq_refl))|].
    inversion H1 as [|? ? S1 F1]; subst. inversion H2 as [|? ? S2 F2]; subst. rewrite Forall_forall in F1, F2.
    assert (a = b).
    { destruct (proj1 (E a) (or_introl eq_refl)) as [->|Ha]; auto.
      destruct (proj2 (E b) (or_introl eq_refl)) as [->|Hb]; auto.
      specialize (F1 b Hb). specialize (F2 a Ha). lia. }
    subst b. f_equal. apply IH; auto. intros e. split; intros He.
    + destruct (proj1 (E e) (or_intror He)) as [->|]; auto. specialize (F1 e He). lia.
    + destruct (proj2 (E e) (or_intror He)) as [->|]; auto. specialize (F2 e He). lia.
Qed.

Lemma kept_after_sorted : forall (h E : list entry), numbers_sorted h -> numbers_sorted (kept_after E h).
Proof.
  induction h as [|e h IH]; intros E H; simpl; [constructor|]. inversion H; subst.
  destruct (_ || _); simpl; [now apply IH|]. constructor; [now apply IH|].
  rewrite Forall_forall in *. intros f Hf. apply H3. apply kept_after_In in Hf as (h1 & h2 & -> & _).
  apply in_or_app. right. now left.
Qed.

Lemma final_lines : forall h t, tinv c (entries h) (feasible_positions 0 h) t -> numbered h ->
  tree_output (resorted (archive t)) = map snd (kept (entries h)).
Proof.
  intros h t I Nh. pose proof (numbered_entries h Nh) as Ns.
  pose proof (tinv_inj _ _ _ _ I Ns) as Hi.
  assert (ND : NoDup (map eval_no (archive t))).
  { assert (NA : NoDup (archive t)).
    { apply (NoDup_map_inv addr). apply NoDup_app_r with (l1 := freed t).
      eapply Permutation_NoDup; [apply Permutation_sym, (ti_addr _ _ _ _ I)|]. apply positions_nodup. }
    clear -NA Hi. induction NA as [|i l Hn NA IH]; simpl; constructor.
    - intros H. apply in_map_iff in H as (j & E & Hj). assert (j = i) by (apply Hi; simpl; auto). congruence.
    - apply IH. eapply eval_inj_sub; [exact Hi|]. simpl; auto. }
  destruct (resorted_spec _ ND) as [R1 R2]. apply sorted_lines_unique.
  - unfold tree_output. clear -R1. induction R1 as [|i l R1 IH F]; simpl; constructor; auto.
    rewrite Forall_forall in *. intros e He. apply in_map_iff in He as (j & <- & Hj). apply (F j Hj).
  - pose proof (kept_after_sorted (entries h) [] Ns) as K. fold (kept (entries h)) in K.
    clear -K. induction K as [|e l K IH F]; simpl; constructor; auto.
    rewrite Forall_forall in *. intros f Hf. apply in_map_iff in Hf as (g & <- & Hg). apply (F g Hg).
  - intros e. unfold tree_output. rewrite !in_map_iff. split.
    + intros (i & <- & Hii). exists (entry_of i). split; auto. apply front_In. rewrite <- (ti_front _ _ _ _ I).
      apply in_map. eapply Permutation_in; eauto.
    + intros (g & <- & Hg). apply front_In in Hg. rewrite <- (ti_front _ _ _ _ I) in Hg.
      apply in_map_iff in Hg as (i & <- & Hii). exists i. split; auto. eapply Permutation_in; [apply Permutation_sym, R2|exact Hii].
Qed.

Notation logger_free := (logger_free TS ES).

Lemma logger_free_ok : forall h lg, linv h lg -> exists cl, logger_free lg = Ok cl /\
  c_adat cl = archive_lines m h /\ Permutation (c_freed cl) (feasible_positions 0 h) /\
  (c = true -> c_dat cl = with_final (last_number 0 h) (final_value best h) (fired ttrig ts0 (improvements best h)) /\
               c_tdat cl = with_final (last_number 0 h) (final_value best h) (fired etrig es0 (with_values best m h)) /\
               c_rdat cl = rdat _ _ (ind _ _ lg)).
Proof.
  intros h lg [I1 I2 I3 I4 I5 I6 I7 I8 I9]. unfold BiobjModel.logger_free.
  assert (No : NoDup (owned (tr _ _ lg))).
  { eapply Permutation_NoDup; [apply Permutation_sym, (ti_addr _ _ _ _ I6)|]. apply positions_nodup. }
  rewrite touch_all_archive by auto. cbn [bind].
  destruct (free_all_ok (archive (tr _ _ lg)) (freed (tr _ _ lg)) No) as (f' & -> & P). cbn [bind].
  eexists. split; [reflexivity|]. cbn [c_adat c_dat c_tdat c_rdat c_freed]. split; [|split].
  - rewrite I1, I9. destruct m; try reflexivity.
    + rewrite (final_lines h); auto.
    + now rewrite app_nil_r.
  - eapply Permutation_trans; [exact P|]. apply (ti_addr _ _ _ _ I6).
  - intros Hc. specialize (I8 Hc). rewrite I2, Hc, I3. cbn [andb]. unfold with_final.
    rewrite <- (ii_dat _ _ I8), <- (ii_hit _ _ I8), <- (ii_tdat _ _ I8), <- (ii_logged _ _ I8), (ii_over _ _ I8).
    split; [|split; auto].
    + destruct (target_hit _ _ _); cbn [negb]; [apply app_nil_r|reflexivity].
    + destruct (evaluation_logged _ _ _); cbn [negb]; [apply app_nil_r|reflexivity].
Qed.
End Logger.
