(** Final statements for suites (C01 - C08). *)
From Coq Require Import List Arith NArith ZArith Ascii String Bool Lia Sorted.
From Verif Require Import CBase StrModel StrSpec OptModel OptSpec SuiteModel SuiteSpec.
From Verif Require Import OptProofs SuiteProofs SuiteBuildProofs.
Import ListNotations.

(** A suite with 24 functions, 6 dimensions and 3 instances, used in the examples. *)
Definition ex_suite : suite :=
  match coco_suite desc_bbob (str "instances: 4-6") (str "function_indices: 1,3 dimensions: 5,20") with
  | Ok (Some s) => s
  | _ => coco_suite_allocate desc_bbob
  end.

Lemma desc_bbob_ok : desc_ok desc_bbob.
Proof. repeat split; try (apply Nat.leb_le; reflexivity); try discriminate. repeat constructor; discriminate. Qed.

Lemma ex_suite_built : coco_suite desc_bbob (str "instances: 4-6")
  (str "function_indices: 1,3 dimensions: 5,20") = Ok (Some ex_suite).
Proof. vm_compute. reflexivity. Qed.

Lemma ex_suite_sizes : size_ok ex_suite /\ (0 < nF ex_suite /\ 0 < nD ex_suite /\ 0 < nI ex_suite)%N.
Proof. vm_compute. repeat split. Qed.

(** ** C01 *)
Theorem C01_encode_in_range : forall s f d i, size_ok s ->
  (f < nF s)%N -> (d < nD s)%N -> (i < nI s)%N ->
  (coco_suite_encode_problem_index s f d i < coco_suite_get_number_of_problems s)%N /\
  coco_suite_get_number_of_problems s = (nF s * nD s * nI s)%N.
Proof.
  intros s f d i Hs Hf Hd Hi.
  edestruct (encode_eq s Hs) as [E B]; [| | |exact Hf|exact Hd|exact Hi|]; try lia.
  rewrite E. rewrite (number_of_problems_eq s Hs) by lia. split; [exact B|lia].
Qed.

Theorem C01_decode_encode : forall s f d i f0 d0 i0, size_ok s ->
  (f < nF s)%N -> (d < nD s)%N -> (i < nI s)%N ->
  coco_suite_decode_problem_index s (coco_suite_encode_problem_index s f d i) f0 d0 i0 = Ok (f, d, i).
Proof. intros s f d i f0 d0 i0 Hs Hf Hd Hi. apply decode_encode; auto; lia. Qed.

Theorem C01_encode_injective : forall s f d i f' d' i', size_ok s ->
  (f < nF s)%N -> (d < nD s)%N -> (i < nI s)%N -> (f' < nF s)%N -> (d' < nD s)%N -> (i' < nI s)%N ->
  coco_suite_encode_problem_index s f d i = coco_suite_encode_problem_index s f' d' i' ->
  (f, d, i) = (f', d', i').
Proof.
  intros s f d i f' d' i' Hs Hf Hd Hi Hf' Hd' Hi' E.
  pose proof (C01_decode_encode s f d i 0 0 0 Hs Hf Hd Hi) as A.
  pose proof (C01_decode_encode s f' d' i' 0 0 0 Hs Hf' Hd' Hi') as B.
  rewrite E, B in A. injection A as -> -> ->. reflexivity.
Qed.

Theorem C01_encode_decode : forall s idx f0 d0 i0, size_ok s ->
  (idx < coco_suite_get_number_of_problems s)%N ->
  exists f d i, coco_suite_decode_problem_index s idx f0 d0 i0 = Ok (f, d, i) /\
    (f < nF s)%N /\ (d < nD s)%N /\ (i < nI s)%N /\
    coco_suite_encode_problem_index s f d i = idx.
Proof.
  intros s idx f0 d0 i0 Hs H.
  assert (K: coco_suite_get_number_of_problems s <> 0%N) by lia.
  assert (P: (0 < nI s /\ 0 < nF s /\ 0 < nD s)%N).
  { unfold coco_suite_get_number_of_problems in K.
    destruct (N.eq_dec (nI s) 0) as [E|]; [rewrite E in K; exfalso; apply K; reflexivity|].
    destruct (N.eq_dec (nF s) 0) as [E|]; [rewrite E in K; exfalso; apply K; unfold wmul; rewrite N.mul_0_r; reflexivity|].
    destruct (N.eq_dec (nD s) 0) as [E|]; [rewrite E in K; exfalso; apply K; unfold wmul; rewrite N.mul_0_r; reflexivity|].
    lia. }
  rewrite (number_of_problems_eq s Hs) in H by lia.
  apply encode_decode; auto; lia.
Qed.

Example C01_example :
  coco_suite_get_number_of_problems ex_suite = 432%N /\
  coco_suite_encode_problem_index ex_suite 23 5 2 = 431%N /\
  coco_suite_decode_problem_index ex_suite 200 0 0 0 = Ok (18, 2, 2)%N.
Proof. vm_compute. repeat split. Qed.

(** ** C02 *)
Theorem C02_get_problem : forall s f d i, size_ok s ->
  f < List.length (functions s) -> d < List.length (dimensions s) -> i < List.length (instances s) ->
  coco_suite_get_problem s (N.of_nat (i + f * List.length (instances s) +
                             d * List.length (instances s) * List.length (functions s))) =
    Ok (if (nth f (functions s) 0 =? 0)%N || (nth d (dimensions s) 0 =? 0)%N ||
           (nth i (instances s) 0 =? 0)%N
        then None else Some (problem_at s (d, f, i))).
Proof. exact get_problem_in_range. Qed.

(** Deviation: an index that is too large yields the first combination. *)
Theorem C02_get_problem_out_of_range : forall s idx, size_ok s -> all_sizes_positive s ->
  (coco_suite_get_number_of_problems s <= idx)%N ->
  coco_suite_get_problem s idx =
    Ok (if (nth 0 (functions s) 0 =? 0)%N || (nth 0 (dimensions s) 0 =? 0)%N ||
           (nth 0 (instances s) 0 =? 0)%N
        then None else Some (problem_at s (0, 0, 0))).
Proof. exact get_problem_out_of_range. Qed.

Theorem C02_out_of_range_null_refuted : exists d inst s idx p,
  coco_suite d inst [] = Ok (Some s) /\ (coco_suite_get_number_of_problems s <= idx)%N /\
  coco_suite_get_problem s idx = Ok (Some p).
Proof.
  exists desc_bbob, (str "instances: 1-15").
  eexists. exists 999999%N. eexists. split; [vm_compute; reflexivity|]. split; [vm_compute; discriminate|].
  vm_compute. reflexivity.
Qed.

Example C02_example :
  coco_suite_get_problem ex_suite (1 + 2 * 3 + 2 * 3 * 24) = Ok (Some (mk_problem 3 5 5 151)) /\
  coco_suite_get_problem ex_suite (1 + 1 * 3 + 2 * 3 * 24) = Ok None.
Proof. vm_compute. repeat split. Qed.

(** ** C03 *)

(** Every suite the constructor returns is ready for iteration, and iteration yields the
    combinations one by one and then NULL. *)
Theorem C03_iteration : forall d inst options s, desc_ok d -> small inst -> small options ->
  coco_suite d inst options = Ok (Some s) ->
  exists s', next_calls (S (List.length (combinations s))) s =
               Ok (map Some (map (problem_at s) (combinations s)) ++ [None], s').
Proof.
  intros d inst options s Hd Hi Ho E.
  destruct (coco_suite_built d inst options s Hd Hi Ho E) as (Hf & (_ & _ & Hn) & Hs & _).
  destruct (iteration_complete s Hs Hf Hn) as (s' & H & _). eauto.
Qed.

(** The fixed data of all suites known to the library are fine. *)
Theorem C03_known_suites : forall name d, coco_suite_initialize name = Ok d -> desc_ok d.
Proof.
  intros name d. unfold coco_suite_initialize.
  repeat match goal with |- context [if ?b then _ else _] => destruct b end; intros E; try discriminate;
  injection E as <-; repeat split; try (apply Nat.leb_le; reflexivity); try discriminate;
  repeat constructor; discriminate.
Qed.

(** The combinations are exactly those with no part filtered out ... *)
Theorem C03_combinations : forall s d f i, In (d, f, i) (combinations s) <->
  (exists x, nth_error (dimensions s) d = Some x /\ x <> 0%N) /\
  (exists x, nth_error (functions s) f = Some x /\ x <> 0%N) /\
  (exists x, nth_error (instances s) i = Some x /\ x <> 0%N).
Proof. exact combinations_In. Qed.

(** ... each once, ordered by dimension, function and instance. *)
Theorem C03_order : forall s, StronglySorted lexlt (combinations s).
Proof. exact combinations_sorted. Qed.

Example C03_example :
  List.length (combinations ex_suite) = 12 /\
  match next_calls 13 ex_suite with
  | Ok (ps, _) => map (option_map (fun p => (dep_dimension p, dep_function p, dep_instance p))) ps =
     [Some (5, 1, 4); Some (5, 1, 5); Some (5, 1, 6); Some (5, 3, 4); Some (5, 3, 5); Some (5, 3, 6);
      Some (20, 1, 4); Some (20, 1, 5); Some (20, 1, 6); Some (20, 3, 4); Some (20, 3, 5);
      Some (20, 3, 6); None]%N
  | _ => False
  end.
Proof. vm_compute. repeat split. Qed.

(** ** C04 *)

(** After the first pass every further pass lacks the first problem. *)
Theorem C04_further_passes : forall k d inst options s, desc_ok d -> small inst -> small options ->
  coco_suite d inst options = Ok (Some s) ->
  exists s', next_calls (S (List.length (combinations s)) + k * List.length (combinations s)) s =
     Ok ((map Some (all_problems s) ++ [None]) ++
         times k (map Some (tl (all_problems s)) ++ [None]), s').
Proof.
  intros k d inst options s Hd Hi Ho E.
  destruct (coco_suite_built d inst options s Hd Hi Ho E) as (Hf & (_ & _ & Hn) & Hs & _).
  apply iteration_passes; auto.
Qed.

Theorem C04_second_pass_refuted : exists d inst options s ps s' ps2 s2,
  coco_suite d inst options = Ok (Some s) /\
  next_calls 3 s = Ok (map Some ps ++ [None], s') /\
  next_calls 2 s' = Ok (map Some ps2 ++ [None], s2) /\ ps2 <> ps.
Proof.
  exists desc_bbob, (str "instances: 1-2"), (str "function_indices: 5 dimensions: 3").
  eexists. eexists [_; _]. eexists. eexists [_]. eexists.
  split; [vm_compute; reflexivity|]. split; [vm_compute; reflexivity|].
  split; [vm_compute; reflexivity|]. discriminate.
Qed.

(** ** C05 *)

(** What the constructor returns contains the selected items. *)
Theorem C05_selection : forall d inst options s, desc_ok d -> small inst -> small options ->
  coco_suite d inst options = Ok (Some s) ->
  exists ins, 1 <= List.length ins < 1000 /\ Forall (fun v => v <> 0%N) ins /\
    (forall l, instance_list d inst l -> inst <> [] -> l <> [] -> ins = l) /\
    (forall l, instance_list d (sd_default d) l -> inst = [] \/ instance_list d inst [] -> ins = l) /\
    select_positions options (str "function_indices") (all_functions d) (functions s) /\
    select_positions options (str "instance_indices") ins (instances s) /\
    select_dimensions options (sd_dimensions d) (dimensions s).
Proof. intros. apply coco_suite_built; auto. Qed.

(** One position filter: undefined behaviour for texts that are too long, the error for 1000 or
    more numbers, otherwise exactly the selected positions are kept. *)
Theorem C05_position_filter : forall options key items t l, key <> [] -> small options ->
  option_text options key t -> text_numbers t 1 (N.of_nat (List.length items)) l ->
  if (4097 <=? N.of_nat (List.length t))%N then apply_index_option options key items = UB
  else if 1000 <=? List.length l then apply_index_option options key items = Err
  else exists r, apply_index_option options key items = Ok r /\
       (l = [] /\ r = items \/ l <> [] /\ keep_positions items l r).
Proof. exact apply_index_spec. Qed.

Theorem C05_dimension_filter : forall options dims t l, small options -> dims <> [] ->
  option_text options (str "dimensions") t ->
  text_numbers t (nth 0 dims 0%N) (last dims 0%N) l ->
  if (4097 <=? N.of_nat (List.length t))%N then apply_dimensions_option options dims = UB
  else (~ plain_list t /\ apply_dimensions_option options dims = Ok None) \/
       (plain_list t /\
        if 1000 <=? List.length (upto_zero l)
        then apply_dimensions_option options dims = Err
        else exists r, apply_dimensions_option options dims = Ok (Some r) /\
               (l = [] /\ r = dims \/ l <> [] /\ keep_values dims (upto_zero l) r)).
Proof. exact apply_dimensions_spec. Qed.

Example C05_example :
  functions ex_suite = ([1; 0; 3] ++ repeat 0 21)%N /\
  dimensions ex_suite = [0; 0; 5; 0; 20; 0]%N /\ instances ex_suite = [4; 5; 6]%N.
Proof. vm_compute. repeat split. Qed.

(** The texts of the example. *)
Example C05_example_text : exists t l,
  option_text (str "function_indices: 1,3 dimensions: 5,20") (str "function_indices") t /\
  text_numbers t 1 24 l /\ l = [1; 3]%N.
Proof.
  exists (str "1,3"), [1; 3]%N.
  assert (Hn: str "function_indices" <> []) by discriminate.
  split; [|split; auto].
  - right. exists (str " 1,3 dimensions: 5,20"). split.
    + exists 0, 16. split; [|split; [|reflexivity]].
      * split; [|intros; lia]. exists [], (str ": 1,3 dimensions: 5,20"). split; reflexivity.
      * apply (first_colon (str "function_indices") (str " 1,3 dimensions: 5,20")).
        intros H. cbn in H. repeat (destruct H as [H|H]; [discriminate|]). destruct H.
    + exists (str " 1,3 "), (str "dimensions: 5,20"). split; [reflexivity|].
      split; [repeat constructor|]. split; [right; eexists _, _; split; reflexivity|reflexivity].
  - left. split; [discriminate|]. split; [|split; [right; discriminate|]].
    + apply StrProofs.range_string_allowed. reflexivity.
    + exists [str "1"; str "3"], [Interval (Some 1%N) (Some 1%N); Interval (Some 3%N) (Some 3%N)].
      split; [|split; [|reflexivity]].
      * apply (pieces_cons ","%char [] (str "1") (str ",3")); [constructor|discriminate| |right; eexists; reflexivity|].
        { intros H. cbn in H. destruct H as [H|H]; [discriminate|destruct H]. }
        apply (pieces_cons ","%char (str ",") (str "3") []); [repeat constructor|discriminate| |auto|apply pieces_end; constructor].
        intros H. cbn in H. destruct H as [H|H]; [discriminate|destruct H].
      * constructor; [apply (means_single (str "1")); [easy|repeat constructor]|].
        constructor; [apply (means_single (str "3")); [easy|repeat constructor]|constructor].
Qed.

(** ** C06 *)

(** Deviation: the getter reads the list of functions. *)
Theorem C06_instance_getter : forall s k,
  get_instance_from_index s k =
    if List.length (instances s) <=? k then Err
    else match nth_error (functions s) k with Some v => Ok v | None => UB end.
Proof. exact instance_getter. Qed.

Theorem C06_instance_getter_refuted : exists d inst s k x y,
  coco_suite d inst [] = Ok (Some s) /\ nth_error (instances s) k = Some x /\
  get_instance_from_index s k = Ok y /\ x <> y.
Proof.
  exists desc_bbob, (str "instances: 4-6"). eexists. exists 1, 5%N, 2%N.
  split; [vm_compute; reflexivity|]. repeat split. discriminate.
Qed.

Theorem C06_instance_getter_unsafe_refuted : exists d inst s k,
  coco_suite d inst [] = Ok (Some s) /\ k < List.length (instances s) /\
  get_instance_from_index s k = UB.
Proof.
  exists desc_bbob, (str "instances: 1-30"). eexists. exists 27.
  split; [vm_compute; reflexivity|]. split; [vm_compute; lia|vm_compute; reflexivity].
Qed.

(** ** C07 *)
Theorem C07_by_numbers_found : forall s f d i fk dk ik, size_ok s ->
  f <> 0%N -> d <> 0%N -> i <> 0%N ->
  first_position (functions s) f fk -> first_position (dimensions s) d dk ->
  first_position (instances s) i ik ->
  get_problem_by_numbers s f d i = Ok (Some (problem_at s (dk, fk, ik))) /\
  dep_function (problem_at s (dk, fk, ik)) = f /\ dep_dimension (problem_at s (dk, fk, ik)) = d /\
  dep_instance (problem_at s (dk, fk, ik)) = i.
Proof. exact by_numbers_found. Qed.

Theorem C07_by_numbers_missing : forall s f d i, size_ok s ->
  (f = 0%N \/ d = 0%N \/ i = 0%N \/ ~ In f (functions s) \/ ~ In d (dimensions s) \/
   ~ In i (instances s)) ->
  get_problem_by_numbers s f d i = Ok None.
Proof. exact by_numbers_missing. Qed.

Example C07_example :
  get_problem_by_numbers ex_suite 3 20 6 = Ok (Some (mk_problem 3 20 6 (2 + 2 * 3 + 4 * 3 * 24))) /\
  get_problem_by_numbers ex_suite 2 20 6 = Ok None.
Proof. vm_compute. repeat split. Qed.

(** ** C08 *)

(** The precedence rules are part of [select_dimensions] and [instance_list]. *)
Theorem C08_dimension_options : forall s options s', small options -> dimensions s <> [] ->
  apply_options s options = Ok (Some s') -> select_dimensions options (dimensions s) (dimensions s').
Proof. intros s options s' Ho Hd E. apply (apply_options_spec s options s' Ho Hd E). Qed.

Theorem C08_instance_keys : forall d s l, small s -> instance_list d s l ->
  exists r, get_instance_indices d s = Ok r /\ gives r l.
Proof. exact get_instance_indices_spec. Qed.

(** Deviations: with one of the keys at the very start of the string the first one does not win. *)
Theorem C08_first_dimension_key_refuted : exists inst o1 o2 s,
  first_occurrence o1 (str "dimension_indices") 0 /\
  coco_suite desc_bbob inst o1 = Ok None /\
  o2 = " "%char :: o1 /\ coco_suite desc_bbob inst o2 = Ok (Some s).
Proof.
  exists [], (str "dimension_indices: 1 dimensions: 5"). eexists. eexists.
  split; [|split; [vm_compute; reflexivity|split; [reflexivity|vm_compute; reflexivity]]].
  split; [|intros; lia]. exists [], (str ": 1 dimensions: 5"). split; reflexivity.
Qed.

Theorem C08_first_instance_key_refuted : exists i1 i2 s1 s2,
  first_occurrence i1 (str "year") 0 /\ i2 = " "%char :: i1 /\
  coco_suite desc_bbob i1 [] = Ok (Some s1) /\ coco_suite desc_bbob i2 [] = Ok (Some s2) /\
  instances s1 = [7]%N /\ instances s2 = [1; 2; 3; 4; 5; 1; 2; 3; 4; 5; 1; 2; 3; 4; 5]%N.
Proof.
  exists (str "year: 2009 instances: 7"). eexists. eexists. eexists.
  split; [|split; [reflexivity|split; [vm_compute; reflexivity|split; [vm_compute; reflexivity|split; reflexivity]]]].
  split; [|intros; lia]. exists [], (str ": 2009 instances: 7"). split; reflexivity.
Qed.

Print Assumptions C01_encode_in_range.
Print Assumptions C01_decode_encode.
Print Assumptions C01_encode_injective.
Print Assumptions C01_encode_decode.
Print Assumptions C02_get_problem.
Print Assumptions C02_get_problem_out_of_range.
Print Assumptions C02_out_of_range_null_refuted.
Print Assumptions C03_iteration.
Print Assumptions C03_known_suites.
Print Assumptions C03_combinations.
Print Assumptions C03_order.
Print Assumptions C04_further_passes.
Print Assumptions C04_second_pass_refuted.
Print Assumptions C05_selection.
Print Assumptions C05_position_filter.
Print Assumptions C05_dimension_filter.
Print Assumptions C06_instance_getter.
Print Assumptions C06_instance_getter_refuted.
Print Assumptions C06_instance_getter_unsafe_refuted.
Print Assumptions C07_by_numbers_found.
Print Assumptions C07_by_numbers_missing.
Print Assumptions C08_dimension_options.
Print Assumptions C08_instance_keys.
Print Assumptions C08_first_dimension_key_refuted.
Print Assumptions C08_first_instance_key_refuted.
