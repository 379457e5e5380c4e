(** Proofs about suites. *)
From Coq Require Import List Arith NArith ZArith Ascii String Bool Lia.
From Coq Require Import ZifyBool ZifyNat ZifyN.
From Verif Require Import CBase StrModel StrSpec StrProofs OptModel SuiteModel SuiteSpec.
Import ListNotations.

(** ** Index arithmetic *)
Lemma W_eq : W = (2 ^ 64)%N. Proof. reflexivity. Qed.

Lemma wmul_small : forall a b, (a * b < 2 ^ 64)%N -> wmul a b = (a * b)%N.
Proof. intros. unfold wmul. rewrite W_eq. apply N.mod_small. auto. Qed.

Lemma wadd_small : forall a b, (a + b < 2 ^ 64)%N -> wadd a b = (a + b)%N.
Proof. intros. unfold wadd. rewrite W_eq. apply N.mod_small. auto. Qed.

Lemma wsub1_pos : forall a, (0 < a < 2 ^ 64)%N -> wsub1 a = (a - 1)%N.
Proof.
  intros a H. unfold wsub1. rewrite W_eq.
  replace (a + (2 ^ 64 - 1))%N with ((a - 1) + 1 * 2 ^ 64)%N by lia.
  rewrite N.mod_add by lia. apply N.mod_small. lia.
Qed.

Section Index.
Variable s : suite.
Hypothesis Hsize : size_ok s.
Hypothesis HF : (0 < nF s)%N.
Hypothesis HD : (0 < nD s)%N.
Hypothesis HI : (0 < nI s)%N.

Let F := nF s. Let D := nD s. Let I := nI s.

Lemma size_IFD : (I * F * D < 2 ^ 64)%N.
Proof. exact Hsize. Qed.

Lemma number_of_problems_eq : coco_suite_get_number_of_problems s = (I * F * D)%N.
Proof.
  pose proof size_IFD as H. unfold coco_suite_get_number_of_problems. fold I F D.
  rewrite (wmul_small I F) by (unfold I, F, D in *; nia). apply wmul_small. auto.
Qed.

Lemma encode_eq : forall f d i, (f < F)%N -> (d < D)%N -> (i < I)%N ->
  coco_suite_encode_problem_index s f d i = (i + f * I + d * I * F)%N /\
  (i + f * I + d * I * F < I * F * D)%N.
Proof.
  intros f d i Hf Hd Hi. pose proof size_IFD as H.
  assert (B: (i + f * I + d * I * F < I * F * D)%N).
  { assert ((i + f * I < I * F)%N) by nia.
    assert ((d * (I * F) + I * F <= D * (I * F))%N) by nia. nia. }
  split; auto.
  unfold coco_suite_encode_problem_index. fold I F D.
  rewrite (wmul_small f I) by nia.
  rewrite (wmul_small d I) by nia.
  rewrite (wmul_small (d * I) F) by nia.
  rewrite (wadd_small i) by nia.
  apply wadd_small. lia.
Qed.

Lemma decode_eq : forall idx f0 d0 i0, (idx < I * F * D)%N ->
  coco_suite_decode_problem_index s idx f0 d0 i0 =
    Ok ((idx / I) mod F, idx / (I * F), idx mod I)%N.
Proof.
  intros idx f0 d0 i0 H. pose proof size_IFD as Hs.
  unfold coco_suite_decode_problem_index. rewrite number_of_problems_eq. fold I F D.
  rewrite wsub1_pos by lia.
  replace (I * F * D - 1 <? idx)%N with false by lia.
  rewrite (wmul_small I F) by (unfold I, F, D in *; nia).
  replace ((I =? 0) || (F =? 0) || (I * F =? 0))%N with false by (unfold I, F in *; nia).
  reflexivity.
Qed.

Lemma decode_encode : forall f d i f0 d0 i0, (f < F)%N -> (d < D)%N -> (i < I)%N ->
  coco_suite_decode_problem_index s (coco_suite_encode_problem_index s f d i) f0 d0 i0
  = Ok (f, d, i).
Proof.
  intros f d i f0 d0 i0 Hf Hd Hi. destruct (encode_eq f d i Hf Hd Hi) as [E B].
  rewrite E, decode_eq by auto.
  assert (E1: ((i + f * I + d * I * F) / I = f + d * F)%N).
  { symmetry. apply N.div_unique with (r := i); auto. nia. }
  assert (E2: ((i + f * I + d * I * F) mod I = i)%N).
  { symmetry. apply N.mod_unique with (q := (f + d * F)%N); auto. nia. }
  assert (E3: ((i + f * I + d * I * F) / (I * F) = d)%N).
  { symmetry. apply N.div_unique with (r := (i + f * I)%N); nia. }
  rewrite E1, E2, E3. f_equal. f_equal. f_equal.
  symmetry. apply N.mod_unique with (q := d); auto. nia.
Qed.

Lemma encode_decode : forall idx f0 d0 i0, (idx < I * F * D)%N ->
  exists f d i, coco_suite_decode_problem_index s idx f0 d0 i0 = Ok (f, d, i) /\
    (f < F)%N /\ (d < D)%N /\ (i < I)%N /\ coco_suite_encode_problem_index s f d i = idx.
Proof.
  intros idx f0 d0 i0 H. rewrite decode_eq by auto. do 3 eexists. split; [reflexivity|].
  assert (Hf: ((idx / I) mod F < F)%N) by (apply N.mod_lt; unfold F; lia).
  assert (Hi: (idx mod I < I)%N) by (apply N.mod_lt; unfold I; lia).
  assert (Hd: (idx / (I * F) < D)%N) by (apply N.div_lt_upper_bound; unfold I, F in *; nia).
  repeat split; auto.
  destruct (encode_eq _ _ _ Hf Hd Hi) as [-> _].
  rewrite <- N.div_div by (unfold I, F; lia).
  pose proof (N.div_mod idx I). pose proof (N.div_mod (idx / I) F).
  set (q := (idx / I)%N) in *. unfold I, F in *. nia.
Qed.

Lemma decode_large : forall idx f0 d0 i0, (I * F * D <= idx)%N ->
  coco_suite_decode_problem_index s idx f0 d0 i0 = Ok (f0, d0, i0).
Proof.
  intros idx f0 d0 i0 H. pose proof size_IFD.
  unfold coco_suite_decode_problem_index. rewrite number_of_problems_eq.
  rewrite wsub1_pos; [|split; [|auto]; unfold I, F, D; nia].
  replace (I * F * D - 1 <? idx)%N with true; auto. unfold I, F, D in *. nia.
Qed.
End Index.

(** ** Iteration *)
Lemma positions_from_next : forall l p v t,
  positions_from l p = v :: t ->
  p <= v < List.length l /\ nth v l 0%N <> 0%N /\ t = positions_from l (S v) /\
  forall k, p <= k < v -> nth k l 0%N = 0%N.
Proof.
  intros l p v t. unfold positions_from.
  remember (List.length l - p) as n eqn:En. revert p En.
  induction n as [|n IH]; intros p En H; simpl in H; [discriminate|].
  destruct (N.eqb_spec (nth p l 0%N) 0) as [E|E]; simpl in H.
  - destruct (IH (S p)) as (A & B & C & Dd); auto; [lia|].
    repeat split; auto; try lia. intros k Hk.
    destruct (Nat.eq_dec k p) as [->|]; auto. apply Dd. lia.
  - injection H as <- <-. replace (List.length l - S p) with n by lia.
    repeat split; auto; lia.
Qed.

Lemma positions_from_nil : forall l p, positions_from l p = [] ->
  forall k, p <= k < List.length l -> nth k l 0%N = 0%N.
Proof.
  intros l p H k Hk. destruct (N.eq_dec (nth k l 0%N) 0) as [|E]; auto. exfalso.
  assert (K: In k (positions_from l p)).
  { unfold positions_from. apply filter_In. split; [apply in_seq; lia|].
    apply negb_true_iff. apply N.eqb_neq. auto. }
  rewrite H in K. destruct K.
Qed.

Lemma positions_from_In : forall l p k, In k (positions_from l p) <->
  p <= k < List.length l /\ nth k l 0%N <> 0%N.
Proof.
  intros. unfold positions_from. rewrite filter_In, in_seq, negb_true_iff, N.eqb_neq.
  intuition lia.
Qed.

Lemma zitem_ok : forall l k, k < List.length l -> zitem l (Z.of_nat k) = Ok (nth k l 0%N).
Proof.
  intros l k H. unfold zitem. destruct (Z.ltb_spec (Z.of_nat k) 0); [lia|].
  rewrite Nat2Z.id. unfold mget. rewrite (nth_error_nth' l 0%N H). reflexivity.
Qed.

Lemma advance_spec : forall fuel l p,
  p < List.length l -> List.length l - p <= fuel ->
  exists c, advance l (Z.of_nat p - 1) fuel = Ok (Z.of_nat c) /\ p <= c < List.length l /\
    (forall k, p <= k < c -> nth k l 0%N = 0%N) /\
    (nth c l 0%N <> 0%N \/ c = List.length l - 1).
Proof.
  induction fuel as [|fuel IH]; intros l p Hp Hf; [lia|].
  cbn [advance]. replace (Z.of_nat p - 1 + 1)%Z with (Z.of_nat p) by lia.
  destruct (Z.ltb_spec (Z.of_nat p) (Z.of_nat (List.length l) - 1)).
  - rewrite zitem_ok by auto. cbn [bind].
    destruct (N.eqb_spec (nth p l 0%N) 0) as [E|E].
    + destruct (IH l (S p)) as (c & A & B & C & Dd); try lia.
      exists c. replace (Z.of_nat p) with (Z.of_nat (S p) - 1)%Z by lia.
      repeat split; auto; try lia.
      intros k Hk. destruct (Nat.eq_dec k p) as [->|]; auto. apply C. lia.
    + exists p. repeat split; auto; try lia.
  - exists p. repeat split; auto; lia.
Qed.

Lemma advance_found : forall l p fuel v t, p < List.length l -> List.length l - p <= fuel ->
  positions_from l p = v :: t -> advance l (Z.of_nat p - 1) fuel = Ok (Z.of_nat v).
Proof.
  intros l p fuel v t Hp Hf H. destruct (advance_spec fuel l p Hp Hf) as (c & A & B & C & Dd).
  destruct (positions_from_next _ _ _ _ H) as (E1 & E2 & _ & E4).
  rewrite A. do 2 f_equal.
  destruct (Nat.lt_trichotomy c v) as [K|[K|K]]; auto.
  - destruct Dd as [Dd|Dd]; [|lia]. exfalso. apply Dd. apply E4. lia.
  - exfalso. apply E2. apply C. lia.
Qed.

Lemma advance_none : forall l p fuel, p < List.length l -> List.length l - p <= fuel ->
  positions_from l p = [] ->
  advance l (Z.of_nat p - 1) fuel = Ok (Z.of_nat (List.length l - 1)).
Proof.
  intros l p fuel Hp Hf H. destruct (advance_spec fuel l p Hp Hf) as (c & A & B & C & Dd).
  rewrite A. do 2 f_equal. destruct Dd as [Dd|Dd]; auto.
  exfalso. apply Dd. apply positions_from_nil with (p := p); auto. 
Qed.

Lemma restart_items_spec : forall l v t, positions l = v :: t ->
  restart_items l = Ok (false, Z.of_nat v).
Proof.
  intros l v t H. pose proof (positions_from_next _ _ _ _ H) as (E1 & E2 & _).
  unfold restart_items.
  change (-1)%Z with (Z.of_nat 0 - 1)%Z.
  rewrite (advance_found l 0 (List.length l + 1) v t) by (auto; lia). cbn [bind].
  rewrite zitem_ok by lia. cbn [bind]. apply N.eqb_neq in E2. rewrite E2. reflexivity.
Qed.

(** The next present item behind position p - 1, or the first one. *)
Lemma next_item_spec : forall l p v0 t0, positions l = v0 :: t0 -> p <= List.length l ->
  is_next_item_found l (Z.of_nat p - 1) =
    match positions_from l p with
    | v :: _ => Ok (true, Z.of_nat v)
    | [] => Ok (false, Z.of_nat v0)
    end.
Proof.
  intros l p v0 t0 H Hp. unfold is_next_item_found.
  rewrite (restart_items_spec l v0 t0) by auto.
  destruct (Z.eqb_spec (Z.of_nat p - 1) (Z.of_nat (List.length l) - 1)) as [E|E]; cbn [negb].
  - assert (p = List.length l) as -> by lia.
    unfold positions_from. rewrite Nat.sub_diag. reflexivity.
  - destruct (positions_from l p) as [|v t] eqn:Ep.
    + rewrite advance_none by (auto; lia). cbn [bind].
      replace (Z.of_nat (List.length l - 1) <? Z.of_nat (List.length l))%Z with true by lia.
      cbn [negb]. rewrite zitem_ok by lia. cbn [bind].
      rewrite (positions_from_nil l p Ep) by lia. reflexivity.
    + rewrite (advance_found l p _ v t) by (auto; lia). cbn [bind].
      destruct (positions_from_next _ _ _ _ Ep) as (E1 & E2 & _).
      replace (Z.of_nat v <? Z.of_nat (List.length l))%Z with true by lia.
      cbn [negb]. rewrite zitem_ok by lia. cbn [bind]. apply N.eqb_neq in E2. rewrite E2. reflexivity.
Qed.

(** The state of the iteration: current dimension d and function f, next instance position p. *)
Definition at_state (s : suite) (d f p : nat) : Prop :=
  In d (positions (dimensions s)) /\ In f (positions (functions s)) /\ p <= List.length (instances s) /\
  cur_dimension s = Z.of_nat d /\ cur_function s = Z.of_nat f /\ cur_instance s = (Z.of_nat p - 1)%Z.

Ltac at_state_tac :=
  unfold at_state;
  cbn [cur_function cur_dimension cur_instance set_cur dimensions functions instances];
  repeat split; auto; lia.

Definition row (s : suite) (d f : nat) (p : nat) : list (nat * nat * nat) :=
  map (fun i => (d, f, i)) (positions_from (instances s) p).
Definition remaining (s : suite) (d f p : nat) : list (nat * nat * nat) :=
  row s d f p ++
  flat_map (fun f' => row s d f' 0) (positions_from (functions s) (S f)) ++
  flat_map (fun d' => flat_map (fun f' => row s d' f' 0) (positions (functions s)))
           (positions_from (dimensions s) (S d)).

Lemma get_problem_at : forall s d f i, size_ok s ->
  d < List.length (dimensions s) -> f < List.length (functions s) -> i < List.length (instances s) ->
  nth d (dimensions s) 0%N <> 0%N -> nth f (functions s) 0%N <> 0%N -> nth i (instances s) 0%N <> 0%N ->
  get_problem_from_indices s f d i = Ok (Some (problem_at s (d, f, i))).
Proof.
  intros s d f i Hs Hd Hf Hi Ed Ef Ei. unfold get_problem_from_indices, item, mget.
  rewrite (nth_error_nth' _ 0%N Hd), (nth_error_nth' _ 0%N Hf), (nth_error_nth' _ 0%N Hi).
  cbn [bind]. apply N.eqb_neq in Ed, Ef, Ei. rewrite Ed, Ef, Ei.
  unfold problem_at. do 3 f_equal.
  edestruct (encode_eq s) as [E _]; [exact Hs| | | | | | |rewrite E]; unfold nF, nD, nI; lia.
Qed.

Lemma get_problem_In : forall s d f i, size_ok s ->
  In d (positions (dimensions s)) -> In f (positions (functions s)) -> In i (positions (instances s)) ->
  get_problem_from_indices s f d i = Ok (Some (problem_at s (d, f, i))).
Proof.
  intros s d f i Hs Hd Hf Hi.
  apply positions_from_In in Hd as [? ?], Hf as [? ?], Hi as [? ?].
  apply get_problem_at; auto; lia.
Qed.

Lemma positions_from_sub : forall l p k, In k (positions_from l p) -> In k (positions l).
Proof. intros l p k H. apply positions_from_In in H. apply positions_from_In. intuition lia. Qed.

Lemma problem_at_same : forall s t c, same_items s t -> problem_at s c = problem_at t c.
Proof. intros s t [[d f] i] (A & B & C). unfold problem_at. rewrite A, B, C. reflexivity. Qed.

Lemma same_items_set_cur : forall s f d i, same_items (set_cur s f d i) s.
Proof. intros. repeat split. Qed.

Lemma same_items_refl : forall s, same_items s s.
Proof. repeat split. Qed.

Lemma same_items_trans : forall s t u, same_items s t -> same_items t u -> same_items s u.
Proof. intros s t u (A & B & C) (A' & B' & C'). repeat split; congruence. Qed.

Lemma remaining_same : forall s t d f p, same_items s t -> remaining s d f p = remaining t d f p.
Proof. intros s t d f p (A & B & C). unfold remaining, row. rewrite A, B, C. reflexivity. Qed.

(** First positions of a suite. *)
Definition firsts (s : suite) (d f i : nat) : Prop :=
  exists ds fs is, positions (dimensions s) = d :: ds /\ positions (functions s) = f :: fs /\
                   positions (instances s) = i :: is.

Lemma next_problem_step : forall s d f p d0 f0 i0, size_ok s -> firsts s d0 f0 i0 ->
  at_state s d f p ->
  match remaining s d f p with
  | c :: rest =>
      exists s' d' f' p', coco_suite_get_next_problem s = Ok (Some (problem_at s c), s') /\
        same_items s' s /\ at_state s' d' f' p' /\ remaining s d' f' p' = rest
  | [] =>
      exists s', coco_suite_get_next_problem s = Ok (None, s') /\
        same_items s' s /\ at_state s' d0 f0 (S i0)
  end.
Proof.
  intros s d f p d0 f0 i0 Hsz (ds & fs & is_ & PD & PF & PI) (Id & If & Hp & Ed & Ef & Ei).
  unfold coco_suite_get_next_problem, is_next_instance_found.
  rewrite Ei, (next_item_spec _ p i0 is_) by auto.
  assert (Hi0: In i0 (positions (instances s))) by (rewrite PI; left; auto).
  assert (Hf0: In f0 (positions (functions s))) by (rewrite PF; left; auto).
  assert (Hd0: In d0 (positions (dimensions s))) by (rewrite PD; left; auto).
  assert (Hi0': i0 < List.length (instances s)) by (apply positions_from_In in Hi0; lia).
  destruct (positions_from (instances s) p) as [|i t] eqn:EI.
  - (* no further instance *)
    cbn [bind]. unfold is_next_function_found. cbn [functions cur_function set_cur cur_dimension instances cur_instance dimensions].
    rewrite Ef. replace (Z.of_nat f) with (Z.of_nat (S f) - 1)%Z by lia.
    assert (Hf: f < List.length (functions s)) by (apply positions_from_In in If; lia).
    rewrite (next_item_spec _ (S f) f0 fs) by auto.
    unfold remaining at 1, row at 1. rewrite EI. cbn [map app].
    destruct (positions_from (functions s) (S f)) as [|f1 ft] eqn:EF.
    + (* no further function *)
      cbn [bind]. unfold is_next_instance_found.
      cbn [functions cur_function set_cur cur_dimension instances cur_instance dimensions].
      change (-1)%Z with (Z.of_nat 0 - 1)%Z. rewrite (next_item_spec _ 0 i0 is_) by (auto; lia).
      fold (positions (instances s)). rewrite PI. cbn [bind].
      unfold is_next_dimension_found.
      cbn [functions cur_function set_cur cur_dimension instances cur_instance dimensions].
      rewrite Ed. replace (Z.of_nat d) with (Z.of_nat (S d) - 1)%Z by lia.
      assert (Hd: d < List.length (dimensions s)) by (apply positions_from_In in Id; lia).
      rewrite (next_item_spec _ (S d) d0 ds) by auto.
      destruct (positions_from (dimensions s) (S d)) as [|d1 dt] eqn:ED; cbn [bind negb flat_map app].
      * eexists. split; [reflexivity|]. split; [repeat split|].
        at_state_tac.
      * rewrite PF. cbn [flat_map app]. unfold row at 1. fold (positions (instances s)). rewrite PI.
        cbn [map app].
        assert (Hd1: In d1 (positions (dimensions s))).
        { apply positions_from_sub with (p := S d). rewrite ED. left. auto. }
        cbn [cur_function cur_dimension cur_instance set_cur].
        replace ((Z.of_nat f0 <? 0) || (Z.of_nat d1 <? 0) || (Z.of_nat i0 <? 0))%Z with false by lia.
        rewrite !Nat2Z.id.
        rewrite get_problem_In by (auto; exact Hsz). cbn [bind].
        do 4 eexists. split; [reflexivity|]. split; [repeat split|]. split.
        -- instantiate (1 := S i0). instantiate (1 := f0). instantiate (1 := d1).
           at_state_tac.
        -- unfold remaining, row.
           destruct (positions_from_next _ _ _ _ PI) as (_ & _ & -> & _).
           destruct (positions_from_next _ _ _ _ PF) as (_ & _ & -> & _).
           destruct (positions_from_next _ _ _ _ ED) as (_ & _ & -> & _).
           rewrite <- app_assoc. f_equal. f_equal. rewrite PF. reflexivity.
    + (* next function; the instances have been reset to the first *)
      cbn [bind negb flat_map app]. unfold row at 1. fold (positions (instances s)). rewrite PI.
      cbn [map app].
      assert (Hf1: In f1 (positions (functions s))).
      { apply positions_from_sub with (p := S f). rewrite EF. left. auto. }
      cbn [cur_function cur_dimension cur_instance set_cur]. rewrite Ed.
      replace ((Z.of_nat f1 <? 0) || (Z.of_nat d <? 0) || (Z.of_nat i0 <? 0))%Z with false by lia.
      rewrite !Nat2Z.id.
      rewrite get_problem_In by (auto; exact Hsz). cbn [bind].
      do 4 eexists. split; [reflexivity|]. split; [repeat split|]. split.
      * instantiate (1 := S i0). instantiate (1 := f1). instantiate (1 := d).
        at_state_tac.
      * unfold remaining, row.
        destruct (positions_from_next _ _ _ _ PI) as (_ & _ & -> & _).
        destruct (positions_from_next _ _ _ _ EF) as (_ & _ & -> & _).
        rewrite <- app_assoc. f_equal.
  - (* next instance *)
    unfold remaining at 1, row at 1. rewrite EI. cbn [map app].
    cbn [bind negb cur_function cur_dimension cur_instance set_cur]. rewrite Ed, Ef.
    replace ((Z.of_nat f <? 0) || (Z.of_nat d <? 0) || (Z.of_nat i <? 0))%Z with false by lia.
    rewrite !Nat2Z.id.
    assert (Hi: In i (positions (instances s))).
    { apply positions_from_sub with (p := p). rewrite EI. left. auto. }
    rewrite get_problem_In by (auto; exact Hsz). cbn [bind].
    do 4 eexists. split; [reflexivity|]. split; [repeat split|]. split.
    + instantiate (1 := S i). instantiate (1 := f). instantiate (1 := d).
      apply positions_from_In in Hi. at_state_tac.
    + unfold remaining, row.
      destruct (positions_from_next _ _ _ _ EI) as (_ & _ & -> & _). reflexivity.
Qed.

Lemma firsts_same : forall s t d f i, same_items s t -> firsts t d f i -> firsts s d f i.
Proof.
  intros s t d f i (A & B & C) (ds & fs & is_ & H). unfold firsts. rewrite A, B, C.
  exists ds, fs, is_. auto.
Qed.

Lemma size_ok_same : forall s t, same_items s t -> size_ok t -> size_ok s.
Proof. intros s t (A & B & C). unfold size_ok. rewrite A, B, C. auto. Qed.

Lemma next_calls_from : forall rest s d f p d0 f0 i0, size_ok s -> firsts s d0 f0 i0 ->
  at_state s d f p -> remaining s d f p = rest ->
  exists s', next_calls (S (List.length rest)) s =
               Ok (map (fun c => Some (problem_at s c)) rest ++ [None], s') /\
             same_items s' s /\ at_state s' d0 f0 (S i0).
Proof.
  induction rest as [|c rest IH]; intros s d f p d0 f0 i0 Hs Hf Ha Hr.
  - pose proof (next_problem_step s d f p d0 f0 i0 Hs Hf Ha) as H. rewrite Hr in H.
    destruct H as (s' & E & Hsame & Hat). exists s'. cbn [List.length next_calls]. rewrite E.
    cbn [bind map app]. auto.
  - pose proof (next_problem_step s d f p d0 f0 i0 Hs Hf Ha) as H. rewrite Hr in H.
    destruct H as (s1 & d1 & f1 & p1 & E & Hsame & Hat & Hrem).
    destruct (IH s1 d1 f1 p1 d0 f0 i0) as (s2 & E2 & Hsame2 & Hat2); auto.
    + eapply size_ok_same; eauto.
    + eapply firsts_same; eauto.
    + rewrite (remaining_same s1 s); auto.
    + exists s2. cbn [List.length]. remember (S (List.length rest)) as m. cbn [next_calls]. rewrite E.
      cbn [bind]. rewrite E2. cbn [bind map app]. split; [|split; auto].
      * f_equal. f_equal. f_equal. f_equal. apply map_ext. intros x. f_equal.
        apply problem_at_same; auto.
      * eapply same_items_trans; eauto.
Qed.

Lemma remaining_start : forall s d f i, firsts s d f i -> remaining s d f 0 = combinations s.
Proof.
  intros s d f i (ds & fs & is_ & PD & PF & PI). unfold remaining, combinations, row.
  fold (positions (instances s)).
  pose proof (positions_from_next _ _ _ _ PD) as (_ & _ & Ed & _).
  pose proof (positions_from_next _ _ _ _ PF) as (_ & _ & Ef & _).
  rewrite <- Ed, <- Ef. rewrite PD. cbn [flat_map]. rewrite PF. cbn [flat_map].
  rewrite <- app_assoc. reflexivity.
Qed.

Lemma fresh_firsts : forall s, fresh s -> positions (instances s) <> [] ->
  exists d f i, firsts s d f i /\ at_state s d f 0.
Proof.
  intros s (f & d & fs & ds & PF & PD & E1 & E2 & E3) HI.
  destruct (positions (instances s)) as [|i is_] eqn:PI; [easy|].
  exists d, f, i. split; [exists ds, fs, is_; auto|].
  repeat split; auto; try lia; [rewrite PD|rewrite PF]; left; auto.
Qed.

Theorem iteration_complete : forall s, size_ok s -> fresh s -> positions (instances s) <> [] ->
  exists s', next_calls (S (List.length (combinations s))) s =
               Ok (map Some (all_problems s) ++ [None], s') /\ same_items s' s.
Proof.
  intros s Hs Hf HI. destruct (fresh_firsts s Hf HI) as (d & f & i & H1 & H2).
  destruct (next_calls_from (combinations s) s d f 0 d f i) as (s' & E & Hsame & _); auto.
  - eapply remaining_start; eauto.
  - exists s'. split; auto. rewrite E. unfold all_problems. rewrite map_map. reflexivity.
Qed.

(** Any number of further passes: each returns all problems but the first, then NULL. *)
Lemma next_calls_app : forall n m s, next_calls (n + m) s =
  do (a, s1) <- next_calls n s; do (b, s2) <- next_calls m s1; Ok (a ++ b, s2).
Proof.
  induction n as [|n IH]; intros m s.
  - cbn [next_calls Nat.add bind app]. destruct (next_calls m s) as [[b s2]| |]; reflexivity.
  - cbn [next_calls Nat.add]. destruct (coco_suite_get_next_problem s) as [[p s1]| |]; cbn [bind]; auto.
    rewrite IH. destruct (next_calls n s1) as [[a s2]| |]; cbn [bind]; auto.
    destruct (next_calls m s2) as [[b s3]| |]; cbn [bind]; auto.
Qed.

Lemma remaining_after_first : forall s d f i, firsts s d f i ->
  combinations s = (d, f, i) :: remaining s d f (S i).
Proof.
  intros s d f i H. rewrite <- (remaining_start s d f i H).
  destruct H as (ds & fs & is_ & PD & PF & PI). unfold remaining, row.
  fold (positions (instances s)).
  pose proof (positions_from_next _ _ _ _ PI) as (_ & _ & Ei & _).
  rewrite <- Ei, PI. reflexivity.
Qed.


Lemma further_passes : forall k s d f i, size_ok s -> firsts s d f i -> at_state s d f (S i) ->
  exists s', next_calls (k * List.length (combinations s)) s =
     Ok (times k (map Some (tl (all_problems s)) ++ [None]), s') /\ same_items s' s.
Proof.
  induction k as [|k IH]; intros s d f i Hs Hf Ha.
  - exists s. split; auto. apply same_items_refl.
  - pose proof (remaining_after_first s d f i Hf) as Ec.
    destruct (next_calls_from (remaining s d f (S i)) s d f (S i) d f i) as (s1 & E & Hsame & Hat); auto.
    destruct (IH s1 d f i) as (s2 & E2 & Hsame2).
    { eapply size_ok_same; eauto. } { eapply firsts_same; eauto. } { auto. }
    assert (Hc: combinations s1 = combinations s).
    { destruct Hsame as (A & B & C). unfold combinations. rewrite A, B, C. reflexivity. }
    assert (Hall: all_problems s1 = all_problems s).
    { unfold all_problems. rewrite Hc. apply map_ext. intros x. apply problem_at_same; auto. }
    exists s2. rewrite Hc, Hall in E2. split; [|eapply same_items_trans; eauto].
    cbn [Nat.mul]. rewrite next_calls_app. rewrite Ec at 1. cbn [List.length]. rewrite E.
    cbn [bind]. rewrite E2. cbn [bind times].
    f_equal. f_equal. f_equal. f_equal.
    unfold all_problems. rewrite Ec. cbn [map tl]. rewrite map_map. reflexivity.
Qed.

Theorem iteration_passes : forall k s, size_ok s -> fresh s -> positions (instances s) <> [] ->
  exists s', next_calls (S (List.length (combinations s)) + k * List.length (combinations s)) s =
     Ok ((map Some (all_problems s) ++ [None]) ++ times k (map Some (tl (all_problems s)) ++ [None]), s').
Proof.
  intros k s Hs Hf HI. destruct (fresh_firsts s Hf HI) as (d & f & i & H1 & H2).
  destruct (next_calls_from (combinations s) s d f 0 d f i) as (s1 & E & Hsame & Hat); auto.
  { eapply remaining_start; eauto. }
  destruct (further_passes k s1 d f i) as (s2 & E2 & _).
  { eapply size_ok_same; eauto. } { eapply firsts_same; eauto. } { auto. }
  assert (Hc: combinations s1 = combinations s).
  { destruct Hsame as (A & B & C). unfold combinations. rewrite A, B, C. reflexivity. }
  assert (Hall: all_problems s1 = all_problems s).
  { unfold all_problems. rewrite Hc. apply map_ext. intros x. apply problem_at_same; auto. }
  exists s2. rewrite next_calls_app, E. cbn [bind]. rewrite Hc, Hall in E2. rewrite E2. cbn [bind].
  unfold all_problems. rewrite map_map. reflexivity.
Qed.

(** ** Fetching by index *)
Lemma item_nth : forall l k, k < List.length l -> item l k = Ok (nth k l 0%N).
Proof. intros. unfold item, mget. rewrite (nth_error_nth' l 0%N) by auto. reflexivity. Qed.

(** NULL exactly for combinations that were filtered out. *)
Lemma get_problem_from_indices_spec : forall s f d i, size_ok s ->
  f < List.length (functions s) -> d < List.length (dimensions s) -> i < List.length (instances s) ->
  get_problem_from_indices s f d i =
    Ok (if (nth f (functions s) 0 =? 0)%N || (nth d (dimensions s) 0 =? 0)%N ||
           (nth i (instances s) 0 =? 0)%N
        then None else Some (problem_at s (d, f, i))).
Proof.
  intros s f d i Hs Hf Hd Hi.
  destruct ((nth f (functions s) 0 =? 0)%N || (nth d (dimensions s) 0 =? 0)%N ||
           (nth i (instances s) 0 =? 0)%N) eqn:E.
  - unfold get_problem_from_indices. rewrite !item_nth by auto. cbn [bind].
    destruct (N.eqb_spec (nth f (functions s) 0%N) 0); auto.
    destruct (N.eqb_spec (nth d (dimensions s) 0%N) 0); auto.
    destruct (N.eqb_spec (nth i (instances s) 0%N) 0); auto. discriminate.
  - apply get_problem_at; auto; lia.
Qed.


Theorem get_problem_in_range : forall s f d i, size_ok s ->
  f < List.length (functions s) -> d < List.length (dimensions s) -> i < List.length (instances s) ->
  coco_suite_get_problem s (N.of_nat (i + f * List.length (instances s) +
                             d * List.length (instances s) * List.length (functions s))) =
    Ok (if (nth f (functions s) 0 =? 0)%N || (nth d (dimensions s) 0 =? 0)%N ||
           (nth i (instances s) 0 =? 0)%N
        then None else Some (problem_at s (d, f, i))).
Proof.
  intros s f d i Hs Hf Hd Hi. unfold coco_suite_get_problem.
  assert (E: N.of_nat (i + f * List.length (instances s) +
                       d * List.length (instances s) * List.length (functions s)) =
             coco_suite_encode_problem_index s (N.of_nat f) (N.of_nat d) (N.of_nat i)).
  { edestruct (encode_eq s) as [E _]; [exact Hs| | | | | | |rewrite E]; unfold nF, nD, nI; lia. }
  rewrite E. rewrite decode_encode; try (unfold nF, nD, nI; lia); auto.
  cbn [bind]. rewrite !Nat2N.id. apply get_problem_from_indices_spec; auto.
Qed.

Theorem get_problem_out_of_range : forall s idx, size_ok s -> all_sizes_positive s ->
  (coco_suite_get_number_of_problems s <= idx)%N ->
  coco_suite_get_problem s idx =
    Ok (if (nth 0 (functions s) 0 =? 0)%N || (nth 0 (dimensions s) 0 =? 0)%N ||
           (nth 0 (instances s) 0 =? 0)%N
        then None else Some (problem_at s (0, 0, 0))).
Proof.
  intros s idx Hs (HF & HD & HI) H. unfold coco_suite_get_problem.
  rewrite number_of_problems_eq in H by (auto; unfold nF, nD, nI; lia).
  rewrite decode_large by (auto; unfold nF, nD, nI; lia).
  cbn [bind]. change (N.to_nat 0) with 0. apply get_problem_from_indices_spec; auto.
Qed.

(** ** Fetching by numbers *)
Lemma find_item_spec : forall l v i,
  match find_item l v i with
  | Some k => exists j, k = i + j /\ first_position l v j
  | None => ~ In v l
  end.
Proof.
  induction l as [|x l IH]; intros v i; cbn [find_item]; [easy|].
  destruct (N.eqb_spec x v) as [->|E].
  - exists 0. split; [lia|]. split; auto. intros j Hj. lia.
  - specialize (IH v (S i)). destruct (find_item l v (S i)) as [k|].
    + destruct IH as (j & -> & H1 & H2). exists (S j). split; [lia|]. split; auto.
      intros [|j'] Hj; cbn; [congruence|]. apply H2. lia.
    + intros [H|H]; auto.
Qed.

Lemma first_position_unique : forall l v j k, first_position l v j -> first_position l v k -> j = k.
Proof.
  intros l v j k [H1 H2] [K1 K2]. destruct (Nat.lt_trichotomy j k) as [H|[H|H]]; auto.
  - exfalso. eapply K2; eauto.
  - exfalso. eapply H2; eauto.
Qed.

Lemma find_item_first : forall l v k, first_position l v k -> find_item l v 0 = Some k.
Proof.
  intros l v k H. pose proof (find_item_spec l v 0) as S. destruct (find_item l v 0) as [m|].
  - destruct S as (j & -> & Hj). f_equal. cbn. eapply first_position_unique; eauto.
  - exfalso. apply S. apply nth_error_In with (n := k). apply H.
Qed.

Lemma first_position_exists : forall l v, In v l -> exists k, first_position l v k.
Proof.
  intros l v H. pose proof (find_item_spec l v 0) as S. destruct (find_item l v 0) as [m|].
  - destruct S as (j & _ & Hj). eauto.
  - contradiction.
Qed.

Theorem by_numbers_found : forall s f d i fk dk ik, size_ok s ->
  f <> 0%N -> d <> 0%N -> i <> 0%N ->
  first_position (functions s) f fk -> first_position (dimensions s) d dk ->
  first_position (instances s) i ik ->
  get_problem_by_numbers s f d i = Ok (Some (problem_at s (dk, fk, ik))) /\
  dep_function (problem_at s (dk, fk, ik)) = f /\ dep_dimension (problem_at s (dk, fk, ik)) = d /\
  dep_instance (problem_at s (dk, fk, ik)) = i.
Proof.
  intros s f d i fk dk ik Hs Hf Hd Hi F D I. unfold get_problem_by_numbers.
  rewrite (find_item_first _ _ _ F), (find_item_first _ _ _ D), (find_item_first _ _ _ I).
  destruct F as [F _], D as [D _], I as [I _].
  pose proof (nth_error_nth _ _ 0%N F) as F'. pose proof (nth_error_nth _ _ 0%N D) as D'.
  pose proof (nth_error_nth _ _ 0%N I) as I'.
  split; [|cbn; auto].
  apply get_problem_at; auto; try congruence; apply nth_error_Some; congruence.
Qed.

Theorem by_numbers_missing : forall s f d i, size_ok s ->
  (f = 0%N \/ d = 0%N \/ i = 0%N \/ ~ In f (functions s) \/ ~ In d (dimensions s) \/
   ~ In i (instances s)) ->
  get_problem_by_numbers s f d i = Ok None.
Proof.
  intros s f d i Hs H. unfold get_problem_by_numbers.
  pose proof (find_item_spec (functions s) f 0) as F. destruct (find_item (functions s) f 0) as [fk|]; auto.
  pose proof (find_item_spec (dimensions s) d 0) as D. destruct (find_item (dimensions s) d 0) as [dk|]; auto.
  pose proof (find_item_spec (instances s) i 0) as I. destruct (find_item (instances s) i 0) as [ik|]; auto.
  destruct F as (fj & -> & F & _), D as (dj & -> & D & _), I as (ij & -> & I & _). cbn [Nat.add].
  pose proof (nth_error_nth _ _ 0%N F) as F'. pose proof (nth_error_nth _ _ 0%N D) as D'.
  pose proof (nth_error_nth _ _ 0%N I) as I'.
  rewrite get_problem_from_indices_spec; auto; try (apply nth_error_Some; congruence).
  apply nth_error_In in F, D, I.
  destruct H as [->|[->|[->|[H|[H|H]]]]]; try contradiction; rewrite F', D', I'; cbn [orb N.eqb];
    rewrite ?orb_true_r; reflexivity.
Qed.

(** ** Getters *)
Theorem instance_getter : forall s k,
  get_instance_from_index s k =
    if List.length (instances s) <=? k then Err
    else match nth_error (functions s) k with Some v => Ok v | None => UB end.
Proof. reflexivity. Qed.

(** ** Filters *)
Lemma found_in_spec : forall l pre rest v,
  found_in (map Some pre ++ map Some l ++ rest) v (List.length pre) (List.length l) =
    Ok (existsb (fun n => (n =? v)%N) l).
Proof.
  induction l as [|n l IH]; intros pre rest v; cbn [List.length found_in existsb]; auto.
  unfold number_at. cbn [map app]. rewrite <- (map_length (@Some N) pre) at 1.
  rewrite mget_middle. cbn [bind]. destruct (N.eqb_spec n v); cbn [orb]; auto.
  replace (map Some pre ++ Some n :: map Some l ++ rest)
    with (map Some (pre ++ [n]) ++ map Some l ++ rest) by (rewrite map_app, <- app_assoc; reflexivity).
  replace (S (List.length pre)) with (List.length (pre ++ [n])) by (rewrite app_length; cbn; lia).
  apply IH.
Qed.

Lemma found_in_holds : forall buf l size v, holds buf l size ->
  found_in buf v 0 (List.length l) = Ok (existsb (fun n => (n =? v)%N) l).
Proof. intros buf l size v [_ [rest ->]]. apply (found_in_spec l [] (Some 0%N :: rest) v). Qed.

Lemma existsb_In : forall l v, existsb (fun n => (n =? v)%N) l = true <-> In v l.
Proof.
  intros. rewrite existsb_exists. split.
  - intros (x & H & E). apply N.eqb_eq in E. subst. auto.
  - intros H. exists v. split; auto. apply N.eqb_refl.
Qed.

Lemma existsb_notIn : forall l v, existsb (fun n => (n =? v)%N) l = false <-> ~ In v l.
Proof.
  intros. rewrite <- existsb_In. destruct (existsb _ l); split; intros; auto; congruence.
Qed.

Lemma filter_loop_spec : forall items i buf l size, holds buf l size ->
  exists r, filter_loop items (N.of_nat i) buf (List.length l) = Ok r /\
    List.length r = List.length items /\
    forall k x, nth_error items k = Some x ->
      (In (N.of_nat (i + k)) l -> nth_error r k = Some x) /\
      (~ In (N.of_nat (i + k)) l -> nth_error r k = Some 0%N).
Proof.
  induction items as [|x items IH]; intros i buf l size H.
  - exists []. repeat split; auto; destruct k; discriminate.
  - cbn [filter_loop]. rewrite (found_in_holds buf l size) by auto. cbn [bind].
    replace (N.of_nat i + 1)%N with (N.of_nat (S i)) by lia.
    destruct (IH (S i) buf l size H) as (r & -> & Hl & Hr). cbn [bind].
    eexists. split; [reflexivity|]. split; [cbn; lia|].
    intros [|k] y Hy; cbn [nth_error] in *.
    + injection Hy as <-. rewrite Nat.add_0_r. split; intros K.
      * apply existsb_In in K. rewrite K. reflexivity.
      * apply existsb_notIn in K. rewrite K. reflexivity.
    + replace (i + S k) with (S i + k) by lia. apply Hr. auto.
Qed.

Theorem filter_indices_spec : forall items buf l size, holds buf l size ->
  Forall (fun v => (v <> 0)%N) l -> List.length l < MAX_INSTANCES ->
  exists r, coco_suite_filter_indices items buf = Ok r /\ keep_positions items l r.
Proof.
  intros items buf l size H F Hl. unfold coco_suite_filter_indices.
  rewrite (count_numbers_spec buf l size) by (auto; lia).
  replace (List.length l =? MAX_INSTANCES) with false by lia. cbn [bind].
  destruct (filter_loop_spec items 1 buf l size H) as (r & E & H1 & H2).
  exists r. split; auto. split; auto.
Qed.

Theorem filter_dimensions_spec : forall items buf l size, holds buf l size ->
  Forall (fun v => (v <> 0)%N) l -> List.length l < MAX_INSTANCES ->
  exists r, coco_suite_filter_dimensions items buf = Ok r /\ keep_values items l r.
Proof.
  intros items buf l size H F Hl. unfold coco_suite_filter_dimensions.
  rewrite (count_numbers_spec buf l size) by (auto; lia).
  replace (List.length l =? MAX_INSTANCES) with false by lia. cbn [bind].
  clear F Hl. induction items as [|x items (r & E & H1 & H2)].
  - exists []. repeat split; auto; destruct k; discriminate.
  - cbn [filter_dim_loop]. rewrite (found_in_holds buf l size) by auto. cbn [bind].
    rewrite E. cbn [bind]. eexists. split; [reflexivity|]. split; [cbn; lia|].
    intros [|k] y Hy; cbn [nth_error] in *; [|apply H2; auto].
    injection Hy as <-. split; intros K.
    + apply existsb_In in K. rewrite K. reflexivity.
    + apply existsb_notIn in K. rewrite K. reflexivity.
Qed.
