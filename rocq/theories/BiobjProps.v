(** C35-C37: the bi-objective logger. *)
From Coq Require Import String List Arith ZArith Bool Lia Reals Lra Sorted Permutation.
Import ListNotations.
From Verif Require Import CBase MoModel BiobjModel FrontSpec BiobjSpec FrontProofs AreaProofs KeptProofs BiobjTreeProofs BiobjDistProofs BiobjProofs.
Open Scope nat_scope.
Strategy 1000 [area].

Lemma session_ok : forall TS ES best (tt : TS -> R -> bool * TS) (et : ES -> nat -> bool * ES) m c ts0 es0 evs,
  proper_use m 0 true evs ->
  let h := history 0 evs in
  exists cl, session best tt et m c ts0 es0 evs = Ok cl /\
    c_adat cl = archive_lines m h /\ Permutation (c_freed cl) (feasible_positions 0 h) /\
    (c = true ->
     c_dat cl = with_final (last_number 0 h) (final_value best h) (fired (fun s x => tt s (snd x)) ts0 (improvements best h)) /\
     c_tdat cl = with_final (last_number 0 h) (final_value best h) (fired (fun s x => et s (fst x)) es0 (with_values best m h)) /\
     c_rdat cl = restarts best 0 false [] evs).
Proof.
  intros TS ES best tt et m c ts0 es0 evs P h.
  destruct (happen_all_ok best TS ES tt et ts0 es0 m c evs [] _ (initial_linv best TS ES tt et ts0 es0 m c) P) as (lg & E & I & R).
  destruct (logger_free_ok best TS ES tt et ts0 es0 m c _ lg I) as (cl & F & A1 & A2 & A3).
  exists cl. unfold session. rewrite E. cbn [bind]. split; auto. split; auto. split; auto.
  intros Hc. destruct (A3 Hc) as (B1 & B2 & B3). split; auto. split; auto. rewrite B3, (R Hc). reflexivity.
Qed.

(** C35: all indicator files carry the exact value of the history at each evaluation. *)
Theorem C35_files : forall TS ES best (tt : TS -> R -> bool * TS) (et : ES -> nat -> bool * ES) m ts0 es0 evs,
  proper_use m 0 true evs ->
  let h := history 0 evs in
  exists cl, session best tt et m true ts0 es0 evs = Ok cl /\
    c_dat cl = with_final (last_number 0 h) (final_value best h) (fired (fun s x => tt s (snd x)) ts0 (improvements best h)) /\
    c_tdat cl = with_final (last_number 0 h) (final_value best h) (fired (fun s x => et s (fst x)) es0 (with_values best m h)) /\
    c_rdat cl = restarts best 0 false [] evs.
Proof.
  intros TS ES best tt et m ts0 es0 evs P h.
  destruct (session_ok TS ES best tt et m true ts0 es0 evs P) as (cl & E & _ & _ & A). exists cl. split; auto.
Qed.

(** The additional term is the distance of the nearest solution to the region of interest, 0 if one
    of them lies inside. *)
Theorem C35_distance : forall k, is_distance (normalised k) (dist_to_square (normalised k)).
Proof. intros k. destruct (normalised_proper k) as (? & ? & _). now apply dist_is_distance. Qed.

Theorem C35_nearest : forall l : list entry, l <> [] ->
  (exists e, In e l /\ nearest l = dist_to_square (fst e)) /\ (forall e, In e l -> (nearest l <= dist_to_square (fst e))%R).
Proof. intros l H. split; [now apply nearest_attained | apply nearest_le]. Qed.

Theorem C35_inside : forall l (e : entry), In e l -> (fst (fst e) <= unit)%Z -> (snd (fst e) <= unit)%Z -> nearest l = 0%R.
Proof.
  intros l e He H1 H2. apply Rle_antisym; [|apply nearest_nonneg]. rewrite <- (dist_zero _ H1 H2). now apply nearest_le.
Qed.

(** The value never gets worse. *)
Theorem C35_monotone : forall best h l, entries h <> [] -> (value best (h ++ l) <= value best h)%R.
Proof.
  intros best h l H. unfold value.
  assert (E : entries (h ++ l) = entries h ++ entries l) by (unfold entries; now rewrite filter_app, map_app).
  rewrite E. destruct (entries h) as [|e es] eqn:X; [congruence|]. rewrite <- X in *.
  destruct (entries h ++ entries l) eqn:Y; [rewrite X in Y; discriminate|]. rewrite <- Y. rewrite X at 2. rewrite <- X.
  assert (A : (area unit (map fst (entries h)) <= area unit (map fst (entries h ++ entries l)))%Z).
  { apply area_mono. intros c _ C. rewrite map_app, covered_app, C. reflexivity. }
  assert (N : (nearest (entries h ++ entries l) <= nearest (entries h))%R) by now apply nearest_app_le.
  apply IZR_le in A. pose proof unit_pos.
  assert (I : (0 < / (IZR unit * IZR unit))%R) by (apply Rinv_0_lt_compat, Rmult_lt_0_compat; auto).
  assert (M : (IZR (area unit (map fst (entries h))) / (IZR unit * IZR unit) <=
               IZR (area unit (map fst (entries h ++ entries l))) / (IZR unit * IZR unit))%R)
    by (unfold Rdiv; apply Rmult_le_compat_r; lra).
  lra.
Qed.

(** Deviation: for the evaluations before the first solution that is fed, a reading logger writes
    the value 0, better than any target. *)
Theorem C35_reading_gap_refuted : exists (tt : bool -> R -> bool * bool) (et : bool -> nat -> bool * bool) evs,
  proper_use NondomRead 0 true evs /\ ~ In 1 (map number (history 0 evs)) /\
  forall best, exists cl, session best tt et NondomRead true true true evs = Ok cl /\ In (1, 0%R) (c_tdat cl).
Proof.
  exists (fun s _ => (true, s)), (fun s _ => (true, s)), [Feed 3 (5, 5)%Z].
  assert (P : proper_use NondomRead 0 true [Feed 3 (5, 5)%Z]) by (cbn; repeat split; lia).
  split; auto. split; [cbn; lia|]. intros best.
  destruct (C35_files bool bool best (fun s _ => (true, s)) (fun s _ => (true, s)) NondomRead true true _ P) as (cl & E & _ & T & _).
  exists cl. split; auto. rewrite T. unfold with_final. destruct (existsb _ _).
  - left. reflexivity.
  - apply in_or_app. left. left. reflexivity.
Qed.

(** C36: the archive file. *)
Theorem C36_archive_file : forall TS ES best (tt : TS -> R -> bool * TS) (et : ES -> nat -> bool * ES) m c ts0 es0 evs,
  proper_use m 0 true evs ->
  exists cl, session best tt et m c ts0 es0 evs = Ok cl /\ c_adat cl = archive_lines m (history 0 evs).
Proof.
  intros TS ES best tt et m c ts0 es0 evs P.
  destruct (session_ok TS ES best tt et m c ts0 es0 evs P) as (cl & E & A & _). exists cl. auto.
Qed.

Lemma along_In : forall B (f : list evaluation -> evaluation -> list B) h E b,
  In b (along f E h) <-> exists h1 v h2, h = h1 ++ v :: h2 /\ In b (f (E ++ h1) v).
Proof.
  induction h as [|w h IH]; intros E b; simpl.
  - split; [tauto|]. intros (h1 & v & h2 & X & _). destruct h1; discriminate.
  - rewrite in_app_iff, IH. split.
    + intros [H|(h1 & v & h2 & -> & H)].
      * exists [], w, h. rewrite app_nil_r. auto.
      * exists (w :: h1), v, h2. split; auto. now rewrite <- app_assoc in H.
    + intros (h1 & v & h2 & X & H). destruct h1 as [|u h1].
      * injection X as -> ->. rewrite app_nil_r in H. auto.
      * injection X as -> ->. right. exists h1, v, h2. split; auto. now rewrite <- app_assoc.
Qed.

(** Which solutions are in the file. *)
Theorem C36_all : forall h l, In l (archive_lines NondomAll h) <->
  exists h1 v h2, h = h1 ++ v :: h2 /\ l = (number v, printed v) /\ satisfied v = true /\
    forall w, In w h1 -> satisfied w = true -> weakly (normalised (quotients w)) (normalised (quotients v)) = false.
Proof.
  intros h l. cbn [archive_lines]. rewrite along_In. split.
  - intros (h1 & v & h2 & -> & H). exists h1, v, h2. cbn [app] in H. destruct (is_new h1 v) eqn:N; [|destruct H].
    destruct H as [<-|[]]. unfold is_new in N. apply andb_true_iff in N as [N1 N2]. repeat split; auto.
    intros w Hw Sw. apply (proj1 (accepted_true _ _) N2 (entry_at w)). unfold entries. apply in_map, filter_In. auto.
  - intros (h1 & v & h2 & -> & -> & Sv & H). exists h1, v, h2. split; auto. cbn [app].
    assert (is_new h1 v = true) as ->; [|now left]. unfold is_new. rewrite Sv. apply accepted_true. intros f Hf.
    unfold entries in Hf. apply in_map_iff in Hf as (w & <- & Hw). apply filter_In in Hw as [Hw Sw]. now apply H.
Qed.

Theorem C36_final : forall h l, In l (archive_lines NondomFinal h) <->
  exists e1 e e2, entries h = e1 ++ e :: e2 /\ l = snd e /\
    (forall f, In f e1 -> weakly (fst f) (fst e) = false) /\ (forall f, In f e2 -> dominates (fst f) (fst e) = false).
Proof.
  intros h l. cbn [archive_lines]. rewrite in_map_iff. split.
  - intros (e & <- & H). unfold kept in H. apply kept_after_In in H as (h1 & h2 & X & A & B). exists h1, e, h2. auto.
  - intros (e1 & e & e2 & X & -> & A & B). exists e. split; auto. unfold kept. apply kept_after_In. exists e1, e2. auto.
Qed.

Lemma sorted_increasing : forall l, StronglySorted (fun a b : nat * cstr => fst a < fst b) l -> increasing l.
Proof.
  intros l H. induction H as [|a l H IH F]; simpl; auto. destruct l as [|b l]; auto. inversion F; subst. auto.
Qed.

Lemma history_numbered : forall m evs n ob h, proper_use m n ob evs -> numbered h -> last_number 0 h = n ->
  numbered (h ++ history n evs).
Proof.
  induction evs as [|ev evs IH]; intros n ob h P N L; cbn [history]; [now rewrite app_nil_r|].
  destruct ev; cbn [proper_use] in P; try (now apply (IH n ob)); try (now apply (IH n false)).
  - destruct P as [_ P]. match goal with |- numbered (h ++ ?v :: _) => set (v0 := v) end.
    replace (h ++ v0 :: history (S n) evs) with ((h ++ [v0]) ++ history (S n) evs) by now rewrite <- app_assoc.
    apply (IH (S n) ob); auto; [apply numbered_snoc; auto; subst; cbn; lia|apply last_number_snoc].
  - destruct P as (_ & Pe & P). match goal with |- numbered (h ++ ?v :: _) => set (v0 := v) end.
    replace (h ++ v0 :: history e evs) with ((h ++ [v0]) ++ history e evs) by now rewrite <- app_assoc.
    apply (IH e ob); auto; [apply numbered_snoc; auto; subst; cbn; lia|apply last_number_snoc].
Qed.

(** Each evaluation at most once, in order. *)
Theorem C36_increasing : forall m evs, proper_use m 0 true evs -> increasing (archive_lines m (history 0 evs)).
Proof.
  intros m evs P.
  pose proof (history_numbered m evs 0 true [] P) as N. cbn [app] in N.
  assert (numbered (history 0 evs)) as Nh by (apply N; [split; constructor|reflexivity]). clear N P.
  generalize dependent (history 0 evs). clear evs. intros h N.
  destruct m; cbn [archive_lines]; try exact I.
  - apply sorted_increasing. pose proof (kept_after_sorted (entries h) [] (numbered_entries h N)) as K.
    fold (kept (entries h)) in K. induction K as [|e l K IH F]; simpl; constructor; auto.
    rewrite Forall_forall in *. intros f Hf. apply in_map_iff in Hf as (g & <- & Hg). apply (F g Hg).
  - apply sorted_increasing. destruct N as [_ N]. generalize (@nil evaluation).
    induction N as [|v h N IH F]; intros b; simpl; [constructor|].
    destruct (is_new b v); simpl; auto. constructor; auto. rewrite Forall_forall in *. intros l Hl.
    apply along_In in Hl as (h1 & w & h2 & -> & H). destruct (is_new _ w); [|destruct H]. destruct H as [<-|[]].
    apply F, in_or_app. right. now left.
Qed.

(** C37: no undefined behaviour; every feasible solution's record is freed exactly once. *)
Theorem C37_safe : forall TS ES best (tt : TS -> R -> bool * TS) (et : ES -> nat -> bool * ES) m c ts0 es0 evs,
  proper_use m 0 true evs ->
  exists cl, session best tt et m c ts0 es0 evs = Ok cl /\ Permutation (c_freed cl) (feasible_positions 0 (history 0 evs)).
Proof.
  intros TS ES best tt et m c ts0 es0 evs P.
  destruct (session_ok TS ES best tt et m c ts0 es0 evs P) as (cl & E & _ & A & _). exists cl. auto.
Qed.

(** Deviations: the records of infeasible solutions are never freed, and recommending a solution
    after the observer has been freed reads through a null pointer. *)
Theorem C37_leak_refuted : exists (tt : bool -> R -> bool * bool) (et : bool -> nat -> bool * bool) evs,
  proper_use NondomAll 0 true evs /\ length (history 0 evs) = 3 /\
  forall best, exists cl, session best tt et NondomAll true true true evs = Ok cl /\ length (c_freed cl) = 1.
Proof.
  exists (fun s _ => (false, s)), (fun s _ => (false, s)),
    [Evaluate (5, 5)%Z [] false; Evaluate (7, 7)%Z [] true; Evaluate (2, 3)%Z [] false].
  assert (P : proper_use NondomAll 0 true [Evaluate (5, 5)%Z [] false; Evaluate (7, 7)%Z [] true; Evaluate (2, 3)%Z [] false])
    by (cbn; repeat split; discriminate).
  split; auto. split; auto. intros best.
  destruct (C37_safe bool bool best (fun s _ => (false, s)) (fun s _ => (false, s)) NondomAll true true true _ P) as (cl & E & A).
  exists cl. split; auto. apply Permutation_length in A. rewrite A. reflexivity.
Qed.

Theorem C37_recommend_refuted : exists (tt : bool -> R -> bool * bool) (et : bool -> nat -> bool * bool) evs,
  forall best, session best tt et NondomAll true true true evs = UB.
Proof.
  exists (fun s _ => (false, s)), (fun s _ => (false, s)), [FreeObserver; Recommend []]. intros best. reflexivity.
Qed.

(** Examples. *)
Example C35_example_use :
  let evs := [Evaluate (1000000000000, 1500000000000)%Z (str "a"%string) true; Restart; Evaluate (3, 4)%Z (str "b"%string) false;
              Evaluate (1500000000000, 1000000000000)%Z (str "c"%string) true; FreeObserver;
              Evaluate (3000000000000, 1)%Z (str "d"%string) true; Evaluate (900000000000, 900000000000)%Z (str "e"%string) true] in
  proper_use NondomFinal 0 true evs /\
  map snd (kept (entries (history 0 evs))) = [(4, str "d"%string); (5, str "e"%string)] /\
  archive_lines NondomAll (history 0 evs) = [(1, str "a"%string); (3, str "c"%string); (4, str "d"%string); (5, str "e"%string)] /\
  map fst (restarts 1%R 0 false [] evs) = [2] /\ feasible_positions 0 (history 0 evs) = [0; 2; 3; 4].
Proof. cbn [proper_use]. split; [repeat split; discriminate|]. repeat split. Qed.

(** The indicator of the trees for such solutions, in units of 1/400. *)
Fixpoint updates (t : trees) (l : list (Z * Z)) : list (option Z) :=
  match l with
  | [] => []
  | k :: l' =>
    match tree_update true t (node_create (length l') k [] true (100 - length l')) with
    | Ok (t', _) => Some (current_value t' / (one * one / 400))%Z :: updates t' l'
    | _ => [None]
    end
  end.
Example C35_example_values :
  updates {| archive := []; buffer := []; freed := []; current_value := 0 |}
    [(1000000000000, 1500000000000)%Z; (1500000000000, 1000000000000)%Z; (3000000000000, 1)%Z; (1200000000000, 1700000000000)%Z;
     (900000000000, 900000000000)%Z] =
  [Some 50; Some 75; Some 75; Some 75; Some 121]%Z.
Proof. vm_compute. reflexivity. Qed.

Print Assumptions C35_files.
Print Assumptions C35_distance.
Print Assumptions C35_nearest.
Print Assumptions C35_inside.
Print Assumptions C35_monotone.
Print Assumptions C35_reading_gap_refuted.
Print Assumptions C36_archive_file.
Print Assumptions C36_all.
Print Assumptions C36_final.
Print Assumptions C36_increasing.
Print Assumptions C37_safe.
Print Assumptions C37_leak_refuted.
Print Assumptions C37_recommend_refuted.
