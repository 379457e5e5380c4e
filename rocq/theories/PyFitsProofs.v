(** Every suite that can be made has numbers of size_t only: the numbers come from strtol or from the suite. *)
From Coq Require Import List Arith NArith ZArith Ascii String Bool Lia.
From Verif Require Import CBase StrModel StrSpec OptModel OptSpec SuiteModel SuiteSpec SuiteProofs SuiteBuildProofs PySuiteModel PySuiteSpec.
Import ListNotations.
Local Notation length := List.length.
Open Scope nat_scope.

Definition ok (n : N) : Prop := (n < 2 ^ 64)%N.
Definition cell (c : option N) : Prop := match c with Some n => ok n | None => True end.
Lemma LM : (LONG_MAX < 2 ^ 64)%N. Proof. reflexivity. Qed.
Lemma strtol_acc_ok : forall s acc, (acc <= LONG_MAX)%N -> (strtol_acc acc s <= LONG_MAX)%N.
Proof. induction s as [|c s IH]; intros acc H; [exact H|]. cbn [strtol_acc]. destruct (isdigit c); [|exact H]. apply IH. apply N.le_min_l. Qed.
Lemma strtol_ok : forall s, ok (strtol s).
Proof. intros s. unfold ok. eapply N.le_lt_trans; [apply strtol_acc_ok; discriminate|exact LM]. Qed.
Lemma upd_Forall : forall (P : option N -> Prop) b i v, Forall P b -> P v -> Forall P (upd b i v).
Proof. intros P b. induction b as [|a b IH]; intros [|i] v F H; cbn [upd]; try exact F; inversion F; subst; constructor; auto. Qed.
Lemma mset_ok : forall (b : list (option N)) i v r, Forall cell b -> cell v -> mset b i v = Ok r -> Forall cell r.
Proof. intros b i v r F H E. unfold mset in E. destruct (i <? length b); [|discriminate E]. injection E as <-. apply upd_Forall; assumption. Qed.
Lemma read_range_ok : forall r min max n0 n1, ok min -> ok max -> read_range r min max = Ok (RNums n0 n1) -> ok n1.
Proof.
  intros r min max n0 n1 A B E. unfold read_range in E. destruct (1 <? count_char DASH r); [discriminate E|]. destruct (count_char DASH r =? 0); [injection E as <- <-; apply strtol_ok|].
  destruct (coco_string_split r DASH) as [l| |]; [|discriminate E|discriminate E]. cbn [bind] in E. destruct l as [|a [|b [|c l]]]; [| | |discriminate E].
  - destruct ((min =? 0)%N || (max =? 0)%N); [discriminate E|]. injection E as <- <-. exact B.
  - destruct r as [|c r]; [discriminate E|]. destruct (Ascii.eqb c DASH).
    + destruct (min =? 0)%N; [discriminate E|]. injection E as <- <-. apply strtol_ok.
    + destruct (max =? 0)%N; [discriminate E|]. injection E as <- <-. exact B.
  - injection E as <- <-. apply strtol_ok.
Qed.
Lemma write_range_ok : forall n buf i j hi b' i', ok hi -> Forall cell buf -> write_range buf i n j hi = Ok (b', i') -> Forall cell b'.
Proof.
  induction n as [|n IH]; intros buf i j hi b' i' A F E; cbn [write_range] in E.
  - destruct (j <=? hi)%N; injection E as <- <-; exact F.
  - destruct (N.leb_spec j hi); [|injection E as <- <-; exact F]. destruct (mset buf i (Some j)) as [b1| |] eqn:M; [|discriminate E|discriminate E]. cbn [bind] in E.
    eapply IH; [exact A| |exact E]. eapply mset_ok; [exact F| |exact M]. cbn. unfold ok in *. lia.
Qed.
Lemma ranges_loop_ok : forall rs min max mc buf i b' i', ok min -> ok max -> Forall cell buf -> ranges_loop rs min max mc buf i = Ok (b', i') -> Forall cell b'.
Proof.
  induction rs as [|r rs IH]; intros min max mc buf i b' i' A B F E; cbn [ranges_loop] in E; [injection E as <- <-; exact F|].
  destruct (read_range r min max) as [[|n0 n1]| |] eqn:R; cbn [bind] in E; try discriminate E; [injection E as <- <-; exact F|].
  apply read_range_ok in R; try assumption. destruct (clamp_hi max n1 <? clamp_lo min n0)%N; [injection E as <- <-; exact F|].
  destruct (write_range buf i (mc - i) (clamp_lo min n0) (clamp_hi max n1)) as [[b1 i1]| |] eqn:Wr; cbn [bind] in E; try discriminate E.
  eapply IH; [exact A|exact B| |exact E]. eapply write_range_ok; [|exact F|exact Wr]. unfold clamp_hi. destruct (_ && _); assumption.
Qed.
Definition cells (r : option numbers) : Prop := match r with Some l => Forall cell l | None => True end.
Lemma parse_ok : forall s min max mc r, ok min -> ok max -> coco_string_parse_ranges s min max mc = Ok r -> cells r.
Proof.
  intros s min max mc r A B E. unfold coco_string_parse_ranges in E. destruct s as [|c s]; [injection E as <-; exact I|].
  destruct (negb _); [injection E as <-; exact I|]. destruct (_ && _); [injection E as <-; exact I|].
  destruct (coco_string_split (c :: s) COMMA) as [l| |]; cbn [bind] in E; try discriminate E.
  destruct (ranges_loop l min max mc (repeat None (mc + 1)) 0) as [[b i]| |] eqn:L; cbn [bind] in E; try discriminate E.
  apply ranges_loop_ok in L; try assumption; [|apply Forall_forall; intros x Hx; apply repeat_spec in Hx; subst x; exact I].
  destruct (i =? 0); [injection E as <-; exact I|]. destruct (mset b i (Some 0%N)) as [b2| |] eqn:M; cbn [bind] in E; try discriminate E. injection E as <-.
  cbn. eapply mset_ok; [exact L| |exact M]. reflexivity.
Qed.
Lemma one_ok : ok 1. Proof. reflexivity. Qed.
Lemma zero_ok : ok 0. Proof. reflexivity. Qed.
Lemma get_instance_indices_ok : forall d s r, get_instance_indices d s = Ok r -> cells r.
Proof.
  intros d s r E. unfold get_instance_indices in E.
  destruct (coco_strfind s k_year) as [i| |]; try discriminate. cbn [bind] in E.
  destruct (coco_strfind s k_instances) as [j| |]; try discriminate. cbn [bind] in E.
  destruct (_ && _); [injection E as <-; exact I|]. destruct (precedence i j) as [py pi].
  match type of E with (bind ?x _ = _) => destruct x as [r1| |] eqn:E1; try discriminate end.
  assert (P1 : cells r1).
  { destruct (_ && py); [|injection E1 as <-; exact I].
    destruct (coco_options_read_int s k_year) as [[n v]| |]; try discriminate. cbn [bind] in E1.
    destruct (negb _); [|injection E1 as <-; exact I].
    destruct (sd_year d _) as [ys| |]; try discriminate. cbn [bind] in E1. exact (parse_ok _ _ _ _ _ one_ok zero_ok E1). }
  cbn [bind] in E. destruct (_ && pi); [|injection E as <-; exact P1].
  destruct (coco_options_read_values s k_instances INSTANCES_CAP) as [[[|n] [v|]]| |]; try discriminate;
    cbn [bind] in E; try (injection E as <-; exact P1). exact (parse_ok _ _ _ _ _ one_ok zero_ok E).
Qed.
Lemma read_numbers_ok : forall l n r, Forall cell l -> read_numbers l n = Ok r -> Forall ok r.
Proof.
  induction l as [|c l IH]; intros [|n] r F E; cbn [read_numbers] in E; try discriminate E; try (injection E as <-; constructor; fail).
  destruct c as [v|]; try discriminate E. destruct (read_numbers l n) as [q| |] eqn:R; cbn [bind] in E; try discriminate E. injection E as <-.
  inversion F; subst. constructor; [assumption|]. eapply IH; eassumption.
Qed.
Lemma set_instance_ok : forall r ins, cells r -> coco_suite_set_instance r = Ok ins -> Forall ok ins.
Proof.
  intros [l|] ins F E; cbn [coco_suite_set_instance] in E; [|discriminate E]. destruct (coco_count_numbers l MAX_INSTANCES) as [n| |]; cbn [bind] in E; try discriminate E.
  destruct (n =? 0); [discriminate E|]. eapply read_numbers_ok; eassumption.
Qed.
Lemma filter_loop_ok : forall items i idx c r, Forall ok items -> filter_loop items i idx c = Ok r -> Forall ok r.
Proof.
  induction items as [|x items IH]; intros i idx c r F E; cbn [filter_loop] in E; [injection E as <-; constructor|].
  destruct (found_in idx i 0 c) as [b| |]; cbn [bind] in E; try discriminate E. destruct (filter_loop items (i + 1) idx c) as [q| |] eqn:Q; cbn [bind] in E; try discriminate E.
  injection E as <-. inversion F; subst. constructor; [destruct b; [assumption|reflexivity]|]. eapply IH; eassumption.
Qed.
Lemma filter_dim_loop_ok : forall dims nums c r, Forall ok dims -> filter_dim_loop dims nums c = Ok r -> Forall ok r.
Proof.
  induction dims as [|x dims IH]; intros nums c r F E; cbn [filter_dim_loop] in E; [injection E as <-; constructor|].
  destruct (found_in nums x 0 c) as [b| |]; cbn [bind] in E; try discriminate E. destruct (filter_dim_loop dims nums c) as [q| |] eqn:Q; cbn [bind] in E; try discriminate E.
  injection E as <-. inversion F; subst. constructor; [destruct b; [assumption|reflexivity]|]. eapply IH; eassumption.
Qed.
Lemma apply_index_ok : forall options key items r, Forall ok items -> apply_index_option options key items = Ok r -> Forall ok r.
Proof.
  intros options key items r F E. unfold apply_index_option in E. destruct (coco_options_read_values options key PATH_CAP) as [[n v]| |]; cbn [bind] in E; try discriminate E.
  destruct n as [|n]; [injection E as <-; exact F|]. destruct v as [t|]; [|injection E as <-; exact F].
  match type of E with (bind ?x _ = _) => destruct x as [[l|]| |]; cbn [bind] in E; try discriminate E end; [|injection E as <-; exact F].
  unfold coco_suite_filter_indices in E. destruct (coco_count_numbers l MAX_INSTANCES) as [c| |]; cbn [bind] in E; try discriminate E. eapply filter_loop_ok; eassumption.
Qed.
Lemma apply_dimensions_ok : forall options dims r, Forall ok dims -> apply_dimensions_option options dims = Ok (Some r) -> Forall ok r.
Proof.
  intros options dims r F E. unfold apply_dimensions_option in E. destruct (coco_options_read_values options k_dimensions PATH_CAP) as [[n v]| |]; cbn [bind] in E; try discriminate E.
  destruct n as [|n]; [injection E as <-; exact F|]. destruct v as [t|]; [|injection E as <-; exact F]. destruct (negb _); [discriminate E|].
  destruct (item dims 0) as [lo| |]; cbn [bind] in E; try discriminate E. destruct (item dims (length dims - 1)) as [hi| |]; cbn [bind] in E; try discriminate E.
  destruct (coco_string_parse_ranges t lo hi MAX_INSTANCES) as [[l|]| |]; cbn [bind] in E; try discriminate E; [|injection E as <-; exact F].
  destruct (coco_suite_filter_dimensions dims l) as [q| |] eqn:Q; cbn [bind] in E; try discriminate E. injection E as <-.
  unfold coco_suite_filter_dimensions in Q. destruct (coco_count_numbers l MAX_INSTANCES) as [c| |]; cbn [bind] in Q; try discriminate Q. eapply filter_dim_loop_ok; eassumption.
Qed.
Lemma apply_options_fits : forall s options s', fits s -> apply_options s options = Ok (Some s') -> fits s'.
Proof.
  intros s options s' (A & B & C) E. unfold apply_options in E. destruct options as [|c options]; [injection E as <-; repeat split; assumption|]. set (o := c :: options) in *.
  destruct (apply_index_option o k_function_indices (functions s)) as [fs| |] eqn:E1; cbn [bind] in E; try discriminate E. apply apply_index_ok in E1; [|exact A].
  destruct (apply_index_option o k_instance_indices (instances s)) as [ins| |] eqn:E2; cbn [bind] in E; try discriminate E. apply apply_index_ok in E2; [|exact C].
  destruct (coco_strfind o k_dimensions) as [df| |]; cbn [bind] in E; try discriminate E. destruct (coco_strfind o k_dimension_indices) as [dif| |]; cbn [bind] in E; try discriminate E.
  destruct (precedence df dif) as [pd pdi].
  match type of E with (bind ?x _ = _) => destruct x as [ds1| |] eqn:E3; cbn [bind] in E; try discriminate E end.
  assert (F1 : Forall ok ds1) by (destruct (_ && pdi); [eapply apply_index_ok; [|exact E3]; exact B|injection E3 as <-; exact B]).
  match type of E with (bind ?x _ = _) => destruct x as [[ds|]| |] eqn:E4; cbn [bind] in E; try discriminate E end.
  assert (F2 : Forall ok ds) by (destruct (_ && pd); [eapply apply_dimensions_ok; [|exact E4]; exact F1|injection E4 as <-; exact F1]).
  destruct (check_keys known_keys_o o info_o valid_o) as [w| |]; cbn [bind] in E; try discriminate E. injection E as <-. repeat split; assumption.
Qed.
Lemma instance_items : forall s b s', is_next_instance_found s = Ok (b, s') -> same_items s' s.
Proof.
  intros s b s' E. unfold is_next_instance_found in E. destruct (is_next_item_found (instances s) (cur_instance s)) as [[b1 c]| |]; cbn [bind] in E; try discriminate E.
  injection E as <- <-. apply same_items_set_cur.
Qed.
Lemma function_items : forall s b s', is_next_function_found s = Ok (b, s') -> same_items s' s.
Proof.
  intros s b s' E. unfold is_next_function_found in E. destruct (is_next_item_found (functions s) (cur_function s)) as [[b1 c]| |]; cbn [bind] in E; try discriminate E.
  destruct b1; [injection E as <- <-; apply same_items_set_cur|].
  match type of E with (bind ?x _ = _) => destruct x as [[b2 s2]| |] eqn:E2; cbn [bind] in E; try discriminate E end. injection E as <- <-.
  apply instance_items in E2. eapply same_items_trans; [exact E2|]. eapply same_items_trans; apply same_items_set_cur.
Qed.
Lemma dimension_items : forall s b s', is_next_dimension_found s = Ok (b, s') -> same_items s' s.
Proof.
  intros s b s' E. unfold is_next_dimension_found in E. destruct (is_next_item_found (dimensions s) (cur_dimension s)) as [[b1 c]| |]; cbn [bind] in E; try discriminate E.
  injection E as <- <-. apply same_items_set_cur.
Qed.
Lemma fits_same : forall s t, same_items s t -> fits t -> fits s.
Proof. intros s t (A & B & C) F. unfold fits in *. rewrite A, B, C. exact F. Qed.
Lemma forallb_ok : forall l, forallb (fun n => (n <? 2 ^ 64)%N) l = true -> Forall ok l.
Proof. intros l H. apply Forall_forall. intros x Hx. apply N.ltb_lt. exact (proj1 (forallb_forall _ _) H x Hx). Qed.
Lemma desc_fits : forall name d, coco_suite_initialize name = Ok d -> Forall ok (functions (coco_suite_allocate d)) /\ Forall ok (dimensions (coco_suite_allocate d)).
Proof.
  intros name d. unfold coco_suite_initialize.
  repeat match goal with |- context [if ?b then _ else _] => destruct b end; intros E; try discriminate; injection E as <-;
  split; apply forallb_ok; vm_compute; reflexivity.
Qed.
Lemma suite_fits : forall name d inst options s, coco_suite_initialize name = Ok d -> coco_suite d inst options = Ok (Some s) -> fits s.
Proof.
  intros name d inst options s D E. destruct (desc_fits name d D) as [A B]. unfold coco_suite in E.
  match type of E with (bind ?x _ = _) => destruct x as [nums| |] eqn:E1; try discriminate E end.
  assert (C : cells nums).
  { destruct inst as [|c inst]; [eapply get_instance_indices_ok; exact E1|].
    destruct (get_instance_indices d (c :: inst)) as [r| |] eqn:G; cbn [bind] in E1; try discriminate E1.
    match type of E1 with (bind ?x _ = _) => destruct x as [r'| |] eqn:E2; cbn [bind] in E1; try discriminate E1 end.
    destruct (check_keys known_keys_i (c :: inst) info_i valid_i) as [w| |]; cbn [bind] in E1; try discriminate E1. injection E1 as <-.
    destruct r as [l|]; [injection E2 as <-|]; eapply get_instance_indices_ok; eassumption. }
  cbn [bind] in E. destruct (coco_suite_set_instance nums) as [ins| |] eqn:S; cbn [bind] in E; try discriminate E. apply set_instance_ok in S; [|exact C].
  match type of E with (bind ?x _ = _) => destruct x as [[s1|]| |] eqn:E3; cbn [bind] in E; try discriminate E end.
  apply apply_options_fits in E3; [|repeat split; assumption]. destruct (negb (enough_left s1)); [discriminate E|].
  destruct (is_next_function_found s1) as [[b2 s2]| |] eqn:E4; cbn [bind] in E; try discriminate E.
  destruct (is_next_dimension_found s2) as [[b3 s3]| |] eqn:E5; cbn [bind] in E; try discriminate E. injection E as <-.
  apply function_items in E4. apply dimension_items in E5. eapply fits_same; [exact E5|]. eapply fits_same; [exact E4|exact E3].
Qed.
Lemma made_fits : forall name inst options s ps, made_from name inst options s ps -> fits s.
Proof. intros name inst options s ps (d & ps0 & os & D & S & _). eapply suite_fits; eassumption. Qed.
