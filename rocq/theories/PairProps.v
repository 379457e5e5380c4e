(** C43, C44, C56: numbering, instances and reference values of bi-objective problems. *)
From Coq Require Import List Arith NArith ZArith Reals Bool Lia ZifyBool ZifyNat ZifyN Ascii String FinFun.
From Flocq Require Import Core.
From Verif Require Import CBase DblModel IdModel IdSpec IdProps PairModel PairSpec PairProofs.
Import ListNotations.
Local Notation length := List.length.
Open Scope N_scope.

(** ** C44 *)

(** In exact arithmetic the formula inverts the numbering of pairs for every number n of functions. *)
Theorem C44_formula : forall n idx,
  (forall i j, pair_number n i j idx -> formula_row n idx = Z.of_nat i /\ formula_column n idx = Z.of_nat j) /\
  ((2 * idx < n * (n + 1))%nat <-> exists i j, pair_number n i j idx).
Proof.
  intros n idx. split; [intros i j; apply formula_spec|]. pose proof (row_start_total n) as T. split.
  - intros H. apply pair_number_exists. lia.
  - intros [i [j H]]. apply pair_number_bound in H. lia.
Qed.

Theorem C44_formula_unique : forall n idx i j i' j', pair_number n i j idx -> pair_number n i' j' idx -> i = i' /\ j = j'.
Proof.
  intros n idx i j i' j' H H'. apply formula_spec in H, H'. lia.
Qed.

(** The code (binary64) for the 92 functions. *)
Definition pairs_of_code : list (res (N * N)) := map base_functions (map N.of_nat (seq 1 92)).
Definition pair_list : list (N * N) := Eval vm_compute in map (fun r => match r with Ok p => p | _ => (0, 0) end) pairs_of_code.
Lemma pairs_computed : pairs_of_code = map Ok pair_list.
Proof. vm_compute. reflexivity. Qed.

Lemma pair_at : forall f, 1 <= f <= 92 -> base_functions f = Ok (nth (N.to_nat (f - 1)) pair_list (0, 0)).
Proof.
  intros f H.
  assert (E : nth_error pairs_of_code (N.to_nat (f - 1)) = Some (base_functions f)).
  { unfold pairs_of_code. rewrite !map_map. rewrite (nth_error_nth' _ (base_functions 0)) by (rewrite map_length, seq_length; lia).
    f_equal. assert (L : (N.to_nat (f - 1) < List.length (seq 1 92))%nat) by (rewrite seq_length; lia).
    rewrite (nth_indep _ (base_functions 0) (base_functions (N.of_nat 0))) by (rewrite map_length; exact L).
    rewrite (map_nth (fun x => base_functions (N.of_nat x))), seq_nth by lia. f_equal. lia. }
  rewrite pairs_computed in E.
  assert (L : (N.to_nat (f - 1) < List.length (map (@Ok (N * N)) pair_list))%nat) by (rewrite map_length; change (List.length pair_list) with 92%nat; lia).
  rewrite (nth_error_nth' _ (Ok (0, 0)) L) in E. rewrite map_nth in E. congruence.
Qed.

(** Numbers 1 to 55 are the pairs of selected functions (a <= b) in lexicographic order of their positions, 56 to 92
    the additional pairs; each pair has one number; other numbers are an error. *)
Definition is_ext (p : N * N) : bool :=
  let (a, b) := p in (1 <=? a) && (a <? b) && (b <=? 24) && (group a =? group b) && negb (a =? 16) && negb (b =? 16) &&
    negb (existsb (N.eqb a) [1; 2; 6; 8; 13; 14; 15; 17; 20; 21] && existsb (N.eqb b) [1; 2; 6; 8; 13; 14; 15; 17; 20; 21]).
Lemma in_existsb : forall f l, existsb (N.eqb f) l = true <-> In f l.
Proof.
  intros f l. rewrite existsb_exists. split; [intros [x [H E]]; apply N.eqb_eq in E; subst; exact H|].
  intros H. exists f. split; [exact H|apply N.eqb_refl].
Qed.
Lemma is_ext_spec : forall a b, is_ext (a, b) = true <-> extension a b.
Proof.
  intros a b. unfold is_ext, extension, selected, selected_functions. rewrite <- !in_existsb.
  destruct (existsb (N.eqb a) [1; 2; 6; 8; 13; 14; 15; 17; 20; 21]), (existsb (N.eqb b) [1; 2; 6; 8; 13; 14; 15; 17; 20; 21]);
    cbn [andb negb]; rewrite ?andb_true_r, ?andb_false_r; (split; [intros H; try discriminate H|intros H]);
    repeat match goal with H : _ /\ _ |- _ => destruct H end; try (repeat split; try lia; intros []; discriminate); try lia.
  all: exfalso; match goal with H : ~ _ |- _ => apply H; split; reflexivity end.
Qed.

Definition wide_pairs : list (N * N) := flat_map (fun a => map (pair a) (map N.of_nat (seq 1 24))) (map N.of_nat (seq 1 24)).
Lemma in_wide : forall a b, 1 <= a <= 24 -> 1 <= b <= 24 -> In (a, b) wide_pairs.
Proof.
  intros a b H H'. unfold wide_pairs. apply in_flat_map. exists a.
  assert (G : forall x, 1 <= x <= 24 -> In x (map N.of_nat (seq 1 24))).
  { intros x Hx. apply in_map_iff. exists (N.to_nat x). split; [lia|]. apply in_seq. lia. }
  split; [apply G; exact H|]. apply in_map. apply G. exact H'.
Qed.

Definition pair_eqb (p q : N * N) : bool := (fst p =? fst q) && (snd p =? snd q).
Lemma pair_eqb_spec : forall p q, pair_eqb p q = true <-> p = q.
Proof. intros [a b] [c d]. unfold pair_eqb. cbn. rewrite andb_true_iff, !N.eqb_eq. split; [intros [-> ->]; reflexivity|intros H; injection H; auto]. Qed.

Theorem C44_pairs : forall f,
  (1 <= f <= 55 -> exists i j, pair_number 10 i j (N.to_nat (f - 1)) /\
     base_functions f = Ok (nth i selected_functions 0, nth j selected_functions 0)) /\
  (56 <= f <= 92 -> exists a b, base_functions f = Ok (a, b) /\ extension a b) /\
  (f < 2 ^ 64 -> f = 0 \/ 92 < f -> base_functions f = Err).
Proof.
  intros f. split; [|split].
  - intros H. rewrite pair_at by lia.
    assert (In (N.to_nat (f - 1)) (seq 0 55)) as K by (apply in_seq; lia). 
    set (k := N.to_nat (f - 1)) in *. clearbody k. cbn [seq] in K.
    assert (G : forallb (fun k => existsb (fun i => existsb (fun j => (i <=? j)%nat && (k =? row_start 10 i + (j - i))%nat &&
      pair_eqb (nth k pair_list (0, 0)) (nth i sel_bbob_functions 0, nth j sel_bbob_functions 0)) (seq 0 10)) (seq 0 10)) (seq 0 55) = true)
      by (vm_compute; reflexivity).
    rewrite forallb_forall in G. specialize (G k K). apply existsb_exists in G as [i [Hi G]]. apply existsb_exists in G as [j [Hj G]].
    apply andb_prop in G as [G E]. apply andb_prop in G as [G1 G2]. apply pair_eqb_spec in E. apply in_seq in Hi, Hj.
    exists i, j. split; [unfold pair_number; lia|]. rewrite E. reflexivity.
  - intros H. rewrite pair_at by lia. destruct (nth (N.to_nat (f - 1)) pair_list (0, 0)) as [a b] eqn:E.
    exists a, b. split; [reflexivity|]. apply is_ext_spec. rewrite <- E.
    assert (In (N.to_nat (f - 1)) (seq 55 37)) as K by (apply in_seq; lia).
    set (k := N.to_nat (f - 1)) in *. clearbody k.
    assert (G : forallb (fun k => is_ext (nth k pair_list (0, 0))) (seq 55 37) = true) by (vm_compute; reflexivity).
    rewrite forallb_forall in G. apply G. exact K.
  - intros B H. unfold base_functions, function_indices.
    assert (W : 92 <= wrap (Z.of_N f - 1)).
    { destruct H as [->|H]; [vm_compute; discriminate|]. rewrite wrap_small by lia. lia. }
    set (x := wrap (Z.of_N f - 1)) in *. clearbody x. destruct (N.ltb_spec x 55); [lia|].
    rewrite (proj2 (nth_error_None more_pairs _)) by (cbn; lia). reflexivity.
Qed.

(** Every pair of either kind has exactly one number. *)
Theorem C44_numbers : forall a b,
  (forall f f', 1 <= f <= 92 -> 1 <= f' <= 92 -> base_functions f = Ok (a, b) ->
     base_functions f' = Ok (a, b) \/ base_functions f' = Ok (b, a) -> f = f') /\
  (selected a -> selected b -> a <= b -> exists f, 1 <= f <= 55 /\ base_functions f = Ok (a, b)) /\
  (extension a b -> exists f, 56 <= f <= 92 /\ base_functions f = Ok (a, b)).
Proof.
  intros a b. split; [|split].
  - intros f f' H H' E E'. rewrite pair_at in E by exact H. rewrite !pair_at in E' by exact H'.
    assert (K : In (N.to_nat (f - 1)) (seq 0 92)) by (apply in_seq; lia).
    assert (K' : In (N.to_nat (f' - 1)) (seq 0 92)) by (apply in_seq; lia).
    assert (Q : N.to_nat (f - 1) = N.to_nat (f' - 1)); [|lia].
    set (k := N.to_nat (f - 1)) in *. set (k' := N.to_nat (f' - 1)) in *. clearbody k k'.
    assert (G : forallb (fun k => forallb (fun k' => (k =? k')%nat || negb (pair_eqb (nth k pair_list (0, 0)) (nth k' pair_list (0, 0)) ||
      pair_eqb (nth k pair_list (0, 0)) (snd (nth k' pair_list (0, 0)), fst (nth k' pair_list (0, 0))))) (seq 0 92)) (seq 0 92) = true)
      by (vm_compute; reflexivity).
    rewrite forallb_forall in G. specialize (G k K). rewrite forallb_forall in G. specialize (G k' K').
    destruct (Nat.eqb_spec k k') as [Eq|Ne]; [exact Eq|]. cbn [orb] in G. exfalso.
    assert (E0 : nth k pair_list (0, 0) = (a, b)) by congruence. rewrite E0 in G.
    destruct E' as [E'|E'];
      [assert (E1 : nth k' pair_list (0, 0) = (a, b)) by congruence|assert (E1 : nth k' pair_list (0, 0) = (b, a)) by congruence];
      rewrite E1 in G; cbn [fst snd] in G; rewrite (proj2 (pair_eqb_spec (a, b) (a, b)) eq_refl) in G;
      rewrite ?orb_true_r in G; discriminate G.
  - intros Ha Hb L.
    assert (G : forallb (fun a => forallb (fun b => negb (a <=? b) || existsb (fun k => pair_eqb (nth k pair_list (0, 0)) (a, b)) (seq 0 55))
      sel_bbob_functions) sel_bbob_functions = true) by (vm_compute; reflexivity).
    rewrite forallb_forall in G. specialize (G a Ha). rewrite forallb_forall in G. specialize (G b Hb).
    destruct (N.leb_spec a b); [|lia]. cbn [negb orb] in G. apply existsb_exists in G as [k [Hk G]]. apply in_seq in Hk.
    apply pair_eqb_spec in G. exists (N.of_nat k + 1). split; [lia|]. rewrite pair_at by lia.
    replace (N.to_nat (N.of_nat k + 1 - 1)) with k by lia. rewrite G. reflexivity.
  - intros Ex. assert (Hw : In (a, b) wide_pairs) by (destruct Ex as [? [? _]]; apply in_wide; lia).
    assert (G : forallb (fun p => negb (is_ext p) || existsb (fun k => pair_eqb (nth k pair_list (0, 0)) p) (seq 55 37)) wide_pairs = true)
      by (vm_compute; reflexivity).
    rewrite forallb_forall in G. specialize (G _ Hw). apply is_ext_spec in Ex. rewrite Ex in G. cbn [negb orb] in G.
    apply existsb_exists in G as [k [Hk G]]. apply in_seq in Hk. apply pair_eqb_spec in G.
    exists (N.of_nat k + 1). split; [lia|]. rewrite pair_at by lia.
    replace (N.to_nat (N.of_nat k + 1 - 1)) with k by lia. rewrite G. reflexivity.
Qed.

Example C44_example : base_functions 1 = Ok (1, 1) /\ base_functions 20 = Ok (6, 6) /\ base_functions 55 = Ok (21, 21) /\
  base_functions 65 = Ok (6, 7) /\ base_functions 92 = Ok (23, 24) /\ base_functions 93 = Err /\
  pair_number 10 2 4 21 /\ extension 6 7.
Proof. do 6 (split; [vm_compute; reflexivity|]). split; [unfold pair_number; cbn; lia|]. apply is_ext_spec. reflexivity. Qed.

(** ** C56: instances *)
Theorem C56_known : forall too_close dims i, 1 <= i <= 15 ->
  base_instances too_close i dims = Ok (published_instances i).
Proof.
  intros too_close dims i H. assert (K : In (N.to_nat i) (seq 1 15)) by (apply in_seq; lia).
  assert (E : i = N.of_nat (N.to_nat i)) by lia. rewrite E. set (k := N.to_nat i) in *. clearbody k. clear - K. cbn in K.
  repeat (destruct K as [<-|K]; [reflexivity|]). destruct K.
Qed.

(** New instances: the first base instance is 2i + 1 and the second one the first acceptable number behind it, among
    the next thousand. *)
Theorem C56_new : forall too_close dims i, i < 2 ^ 62 -> i = 0 \/ 15 < i ->
  (forall i1 i2, base_instances too_close i dims = Ok (i1, i2) <->
     i1 = 2 * i + 1 /\ i1 < i2 <= i1 + 1000 /\ acceptable too_close dims i1 i2 /\
     forall j, i1 < j < i2 -> ~ acceptable too_close dims i1 j) /\
  (base_instances too_close i dims = Err <-> forall j, 2 * i + 1 < j <= 2 * i + 1001 -> ~ acceptable too_close dims (2 * i + 1) j) /\
  base_instances too_close i dims <> UB.
Proof.
  intros too_close dims i B H. unfold base_instances.
  assert (F : find (fun e => fst e =? i) suite_biobj_instances = None).
  { destruct (find (fun e => fst e =? i) suite_biobj_instances) as [e|] eqn:E; [exfalso|reflexivity].
    apply find_some in E as [E1 E2]. apply N.eqb_eq in E2. cbn in E1.
    repeat (destruct E1 as [<-|E1]; [cbn in E2; lia|]). destruct E1. }
  rewrite F. assert (W : wrap (2 * Z.of_N i + 1) = 2 * i + 1) by (rewrite wrap_small; lia). rewrite W. cbv zeta.
  destruct (new_instance_spec too_close 1000 0 (2 * i + 1) dims ltac:(lia)) as [S1 [S2 S3]].
  replace (2 * i + 1 + 0) with (2 * i + 1) in * by lia. change (N.of_nat 1000) with 1000 in *.
  destruct (new_instance too_close 1000 0 (2 * i + 1) dims) as [k| |] eqn:E; cbn [bind].
  - split; [|split; [split; [discriminate|]|discriminate]].
    + intros i1 i2. split.
      * intros Q. injection Q as <- <-. split; [reflexivity|]. apply S1. reflexivity.
      * intros [-> K]. apply S1 in K. congruence.
    + intros K. exfalso. assert (Q : Ok k = @Err N) by (apply S2; intros j Hj; apply K; lia). discriminate Q.
  - split; [|split; [split; [|reflexivity]|discriminate]].
    + intros i1 i2. split; [discriminate|]. intros [-> K]. apply S1 in K. discriminate K.
    + intros _ j Hj. apply S2; [reflexivity|lia].
  - exfalso. apply S3. reflexivity.
Qed.

(** The choice depends on the suite only through the set of dimensions that are not filtered out; a larger set
    never gives a smaller instance. *)
Theorem C56_dimensions : forall too_close dims dims' i i1 i2 i1' i2', i < 2 ^ 62 -> i = 0 \/ 15 < i ->
  (forall d, d <> 0 -> In d dims -> In d dims') ->
  base_instances too_close i dims = Ok (i1, i2) -> base_instances too_close i dims' = Ok (i1', i2') ->
  i1 = i1' /\ i2 <= i2' /\ ((forall d, d <> 0 -> In d dims' -> In d dims) -> i2 = i2').
Proof.
  intros too_close dims dims' i i1 i2 i1' i2' B H S E E'.
  apply (C56_new too_close dims i B H) in E as [-> [R [A F]]]. apply (C56_new too_close dims' i B H) in E' as [-> [R' [A' F']]].
  assert (M : forall ds ds', (forall d, d <> 0 -> In d ds -> In d ds') -> forall x y, acceptable too_close ds' x y -> acceptable too_close ds x y).
  { intros ds ds' Sub x y K d Hd Nd. apply K; auto. }
  split; [reflexivity|]. split.
  - destruct (N.le_gt_cases i2 i2'); [assumption|]. exfalso. apply (F i2'); [lia|]. exact (M _ _ S _ _ A').
  - intros S'. destruct (N.lt_trichotomy i2 i2') as [L|[L|L]]; [exfalso|exact L|exfalso].
    + apply (F' i2); [lia|]. exact (M _ _ S' _ _ A).
    + apply (F i2'); [lia|]. exact (M _ _ S _ _ A').
Qed.

(** So the same problem id can stand for different problems when dimensions are filtered out. *)
Theorem C56_filter_refuted : exists too_close i i1 i2 i2', i2 <> i2' /\
  base_instances too_close i [2; 3; 5; 10; 20; 40] = Ok (i1, i2) /\ base_instances too_close i [2; 3; 0; 0; 0; 0] = Ok (i1, i2').
Proof.
  exists (fun d f1 i1 f2 i2 => (d =? 40) && (i2 =? 34)), 16, 33, 35, 34. split; [discriminate|]. vm_compute. auto.
Qed.

Example C56_example : base_instances (fun d f1 i1 f2 i2 => (f1 =? f2) && (i2 <? 45)) 20 [2; 0] = Ok (41, 45) /\
  base_instances (fun d f1 i1 f2 i2 => true) 20 [2; 0] = Err /\ base_instances (fun d f1 i1 f2 i2 => true) 9 [] = Ok (19, 21) /\
  base_instances (fun d f1 i1 f2 i2 => true) 20 [0; 0] = Ok (41, 42).
Proof. vm_compute. auto. Qed.

(** ** C43 *)
Theorem C43_found : forall V (default : V) table key i v, nth_error table i = Some (key, v) ->
  (forall j k w, (j < i)%nat -> nth_error table j = Some (k, w) -> k <> key) ->
  suite_biobj_get_best_hyp_value default true table key = v.
Proof. intros V default table key i v E H. unfold suite_biobj_get_best_hyp_value. exact (hyp_found V table key default i v E H). Qed.

Theorem C43_absent : forall V (default : V) table key, (forall w, ~ In (key, w) table) ->
  suite_biobj_get_best_hyp_value default true table key = last (map snd table) default.
Proof. intros V default table key H. apply hyp_absent. exact H. Qed.

Theorem C43_unknown : forall V (default : V) table key, suite_biobj_get_best_hyp_value default false table key = default.
Proof. reflexivity. Qed.

(** The default value documented for missing keys is not what is returned. *)
Theorem C43_default_refuted : exists table key, (forall w, ~ In (key, w) table) /\
  suite_biobj_get_best_hyp_value 1 true table key <> 1.
Proof.
  exists [(str "bbob-biobj_f01_i01_d02", 5)], (str "bbob-biobj_f01_i16_d02"). split; [|vm_compute; discriminate].
  intros w [Q|[]]. discriminate Q.
Qed.

(** With the shipped table: every problem of bbob-biobj-ext with instances 1-15 gets its own value, all others the
    last value (which is the default 1.0 in the file). *)
Lemma shipped_in : forall f i d, In (f, i, d) shipped_problems <-> 1 <= f <= 92 /\ 1 <= i <= 15 /\ In d [2; 3; 5; 10; 20; 40].
Proof.
  intros f i d. unfold shipped_problems. rewrite in_flat_map.
  assert (G : forall n x, In x (map N.of_nat (seq 1 n)) <-> 1 <= x <= N.of_nat n).
  { intros n x. rewrite in_map_iff. split; [intros [y [<- Hy]]; apply in_seq in Hy; lia|]. intros Hx. exists (N.to_nat x). split; [lia|]. apply in_seq. lia. }
  split.
  - intros [f' [Hf Hx]]. apply in_flat_map in Hx as [i' [Hi Hx]]. apply in_map_iff in Hx as [d' [Q Hd]]. injection Q as -> -> ->.
    apply G in Hf, Hi. split; [exact Hf|]. split; [exact Hi|exact Hd].
  - intros [Hf [Hi Hd]]. exists f. split; [apply G; exact Hf|]. apply in_flat_map. exists i. split; [apply G; exact Hi|].
    apply in_map_iff. exists d. auto.
Qed.

Lemma shipped_nodup : NoDup shipped_problems.
Proof.
  unfold shipped_problems.
  assert (G : forall A B (g : A -> list B) (key : B -> A) l, NoDup l -> (forall a, NoDup (g a)) -> (forall a b, In b (g a) -> key b = a) -> NoDup (flat_map g l)).
  { intros A B g key l N Hg Hk. induction N as [|a l Na N IH]; [constructor|]. cbn [flat_map].
    assert (App : forall l1 l2 : list B, NoDup l1 -> NoDup l2 -> (forall x, In x l1 -> ~ In x l2) -> NoDup (l1 ++ l2)).
    { induction l1 as [|x l1 I1]; intros l2 N1 N2 D; [exact N2|]. inversion N1; subst. cbn [app]. constructor.
      - intros K. apply in_app_or in K as [K|K]; [contradiction|]. apply (D x); [left; reflexivity|exact K].
      - apply I1; auto. intros y Hy. apply D. right. exact Hy. }
    apply App; [apply Hg|exact IH|]. intros b Hb K. apply in_flat_map in K as [a' [Ha' K]].
    apply Hk in Hb, K. congruence. }
  assert (Sq : forall n, NoDup (map N.of_nat (seq 1 n))).
  { intros n. apply Injective_map_NoDup; [intros x y E; lia|apply seq_NoDup]. }
  apply (G _ _ _ (fun t => fst (fst t))); [apply Sq| |].
  - intros f. apply (G _ _ _ (fun t => snd (fst t))); [apply Sq| |].
    + intros i. apply Injective_map_NoDup; [intros x y E; congruence|]. repeat constructor; cbn; lia.
    + intros i b Hb. apply in_map_iff in Hb as [d [<- _]]. reflexivity.
  - intros f b Hb. apply in_flat_map in Hb as [i [_ Hb]]. apply in_map_iff in Hb as [d [<- _]]. reflexivity.
Qed.

Theorem C43_shipped : forall V (default : V) (table : list (cstr * V)),
  Forall2 (fun p e => let '(f, i, d) := p in suite_problem_id BbobBiobj f i d = Ok (fst e)) shipped_problems table ->
  forall f i d id, f < 2 ^ 64 -> i < 2 ^ 64 -> d < 2 ^ 64 -> suite_problem_id BbobBiobj f i d = Ok id ->
  (forall k, nth_error shipped_problems k = Some (f, i, d) ->
     exists v, nth_error table k = Some (id, v) /\ suite_biobj_get_best_hyp_value default true table id = v) /\
  (~ In (f, i, d) shipped_problems -> suite_biobj_get_best_hyp_value default true table id = last (map snd table) default).
Proof.
  intros V default table T f i d id Bf Bi Bd E.
  assert (Row : forall k id' v, nth_error table k = Some (id', v) -> exists f' i' d', nth_error shipped_problems k = Some (f', i', d') /\
            suite_problem_id BbobBiobj f' i' d' = Ok id').
  { clear - T. induction T as [|[[f i] d] [a b] ps es H T IH]; intros [|k] id' v Q; try discriminate Q.
    - cbn in Q. injection Q as -> ->. exists f, i, d. split; [reflexivity|exact H].
    - cbn in Q. apply (IH k id' v Q). }
  assert (Own : forall k id' v, nth_error table k = Some (id', v) -> id' = id -> nth_error shipped_problems k = Some (f, i, d)).
  { intros k id' v Q ->. apply Row in Q as [f' [i' [d' [Q1 Q2]]]]. rewrite Q1.
    pose proof (nth_error_In _ _ Q1) as M. apply shipped_in in M as [M1 [M2 M3]].
    assert (d' <= 40) by (cbn in M3; lia).
    destruct (C41_distinct BbobBiobj f' i' d' f i d id) as [-> [-> ->]]; auto; lia. }
  split.
  - intros k Hk.
    assert (X : exists e, nth_error table k = Some e /\ suite_problem_id BbobBiobj f i d = Ok (fst e)).
    { clear - T Hk. revert k Hk. induction T as [|[[f0 i0] d0] e ps es H T IH]; intros [|k] Q; try discriminate Q.
      - cbn in Q. injection Q as -> -> ->. exists e. split; [reflexivity|exact H].
      - cbn in Q. apply (IH k Q). }
    destruct X as [[id' v] [X1 X2]]. cbn [fst] in X2. assert (id' = id) by congruence. subst id'.
    exists v. split; [exact X1|]. apply C43_found with (i := k); [exact X1|].
    intros j id' w L Q ->. apply (Own j id w) in Q; [|reflexivity].
    assert (j = k); [|lia]. apply (proj1 (NoDup_nth_error shipped_problems) shipped_nodup); [apply nth_error_Some; congruence|congruence].
  - intros Ni. apply C43_absent. intros w Hw. apply In_nth_error in Hw as [k Hk]. apply Ni.
    apply (Own k id w) in Hk; [|reflexivity]. eapply nth_error_In. exact Hk.
Qed.

Example C43_example :
  suite_biobj_get_best_hyp_value 1 true [(str "a", 7); (str "b", 8); (str "a", 9)] (str "a") = 7 /\
  suite_biobj_get_best_hyp_value 1 true [(str "a", 7); (str "b", 8); (str "a", 9)] (str "c") = 9 /\
  suite_biobj_get_best_hyp_value 1 true [] (str "c") = 1 /\
  nth_error shipped_problems 8279 = Some (92, 15, 40) /\ nth_error shipped_problems 91 = Some (2, 1, 3) /\
  length (map (fun p : N * N * N => let '(f, i, d) := p in (suite_problem_id BbobBiobj f i d, 1)) shipped_problems) = 8280%nat.
Proof. repeat split. Qed.

Print Assumptions C43_found.
Print Assumptions C43_absent.
Print Assumptions C43_unknown.
Print Assumptions C43_default_refuted.
Print Assumptions C43_shipped.
Print Assumptions C44_formula.
Print Assumptions C44_formula_unique.
Print Assumptions C44_pairs.
Print Assumptions C44_numbers.
Print Assumptions C56_known.
Print Assumptions C56_new.
Print Assumptions C56_dimensions.
Print Assumptions C56_filter_refuted.
