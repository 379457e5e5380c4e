(** Final statements for option strings (C14 - C16). *)
From Coq Require Import List Arith NArith ZArith Ascii String Bool Lia.
From Verif Require Import CBase StrModel StrSpec StrProofs OptModel OptSpec OptProofs SuiteModel.
Import ListNotations.

(** ** C14 *)

(** Every non-empty name is missing, without colon, or has a text. *)
Theorem C14_cases : forall options name, name <> [] ->
  absent options name \/ named_no_colon options name \/ exists v, named_text options name v.
Proof. exact named_cases. Qed.

(** String values: a word or a quoted text behind the colon; without anything behind the colon the
    function reports success (-1) but stores nothing. *)
Theorem C14_string_word : forall options name v w cap, name <> [] -> small options ->
  named_text options name v -> first_word v w -> nth_error w 0 <> Some """"%char ->
  coco_options_read_string options name cap =
    if (N.of_nat (List.length w) <? cap)%N then Ok (1%Z, Some w) else UB.
Proof. exact read_string_word. Qed.

Theorem C14_string_quoted : forall options name v w cap, name <> [] -> small options ->
  named_text options name v -> quoted_text v w ->
  coco_options_read_string options name cap =
    if (N.of_nat (List.length w) <? cap)%N then Ok (1%Z, Some w) else UB.
Proof. exact read_string_quoted. Qed.

Theorem C14_string_no_value : forall options name v cap, name <> [] -> small options ->
  named_text options name v -> blank v ->
  coco_options_read_string options name cap = Ok ((-1)%Z, None).
Proof. exact read_string_no_value. Qed.

Theorem C14_string_absent : forall options name cap, name <> [] -> small options ->
  (forall c r, name = c :: r -> isspace c = false) ->
  absent options name \/ named_no_colon options name ->
  coco_options_read_string options name cap = Ok (0%Z, None).
Proof. exact read_string_absent. Qed.

Theorem C14_values : forall options name v t cap, name <> [] -> small options ->
  named_text options name v -> value_list v t ->
  coco_options_read_values options name cap =
    if (N.of_nat (List.length t) <? cap)%N then Ok (List.length t, Some t) else UB.
Proof. exact read_values_spec. Qed.

Theorem C14_values_absent : forall options name cap, name <> [] -> small options ->
  absent options name \/ named_no_colon options name ->
  coco_options_read_values options name cap = Ok (0, None).
Proof. exact read_values_absent. Qed.

(** In a string of entries the text of a key is the one written for it, if the key does not occur
    inside an earlier key or text. *)
Theorem C14_written : forall l1 k v l2, key_like k -> separated (l1 ++ (k, v) :: l2) ->
  Forall (fun e => absent (fst e) k /\ absent (snd e) k) l1 ->
  named_text (written (l1 ++ (k, v) :: l2)) k (v ++ written l2).
Proof. exact written_value_found. Qed.

(** Deviation: the value of one option is taken from inside the value of another. *)
Theorem C14_inside_value_refuted : exists l k v w,
  In (k, v) l /\ separated l /\ first_word v w /\
  coco_options_read_string (written l) k 100 <> Ok (1%Z, Some w).
Proof.
  exists [(str "algorithm_info", str " ""old result_folder: B"" "); (str "result_folder", str " A ");
          (str "precision_x", str " 3")], (str "result_folder"), (str " A "), (str "A").
  split; [right; left; reflexivity|]. split.
  { cbn [separated]. repeat split; intros; try (now destruct H).
    - exists (str " ""old result_folder: B"""). reflexivity.
    - exists (str " A"). reflexivity. }
  split.
  { exists (str " "), (str " "). split; [reflexivity|]. split; [repeat constructor|].
    split; [discriminate|]. split; [repeat constructor|]. right. eexists _, _. split; reflexivity. }
  vm_compute. discriminate.
Qed.

Example C14_example :
  coco_options_read_string (str "result_folder: ""my exp"" precision_x: 4") (str "result_folder") 100
    = Ok (1%Z, Some (str "my exp")) /\
  coco_options_read_string (str "algorithm_name:  foo-1 x") (str "algorithm_name") 100
    = Ok (1%Z, Some (str "foo-1")) /\
  coco_options_read_values (str "dimensions: 2, 3,5 function_indices: 7") (str "dimensions") 100
    = Ok (5, Some (str "2,3,5")).
Proof. vm_compute. repeat split. Qed.

Example C14_written_example :
  let l := [(str "a", str " 1 "); (str "bc", str " 2, 3 "); (str "d", str " 4")] in
  separated l /\ key_like (str "bc") /\
  Forall (fun e => absent (fst e) (str "bc") /\ absent (snd e) (str "bc")) [(str "a", str " 1 ")] /\
  named_text (written l) (str "bc") (str " 2, 3 d: 4").
Proof.
  assert (S: separated [(str "a", str " 1 "); (str "bc", str " 2, 3 "); (str "d", str " 4")]).
  { cbn [separated]. repeat split; intros; try (now destruct H).
    - exists (str " 1"). reflexivity.
    - exists (str " 2, 3"). reflexivity. }
  assert (K: key_like (str "bc")).
  { split; [discriminate|]. split; [|repeat constructor].
    intros H. cbn in H. repeat (destruct H as [H|H]; [discriminate|]). destruct H. }
  assert (F: Forall (fun e => absent (fst e) (str "bc") /\ absent (snd e) (str "bc")) [(str "a", str " 1 ")]).
  { constructor; [|constructor]. cbn [fst snd].
    split; intros i H; pose proof (occurs_at_length _ _ _ H) as L; cbn in L.
    - lia.
    - destruct H as (p & q & E & Hp). destruct p as [|? [|? ?]]; try discriminate; cbn in *; try lia. }
  split; [exact S|]. split; [exact K|]. split; [exact F|].
  exact (C14_written [(str "a", str " 1 ")] (str "bc") (str " 2, 3 ") [(str "d", str " 4")] K S F).
Qed.

(** ** C15 *)
Theorem C15_keys : forall l, proper_entries l ->
  coco_option_keys (written l) =
    if 220 <=? List.length (written l) then Err else Ok (Some (map fst l)).
Proof. exact option_keys_written. Qed.

Theorem C15_redundant : forall known given k,
  In k (redundant known given) <-> In k given /\ ~ In k known.
Proof. exact redundant_spec. Qed.

(** The warning of the suite constructor appears exactly when a key is not known, and names those. *)
Theorem C15_warning : forall known l info valid, proper_entries l ->
  List.length (written l) < 220 -> List.length info <= 200 ->
  (N.of_nat (List.length (valid ++ listing known)) <= 441)%N ->
  check_keys known (written l) info valid =
    Ok (match redundant known (map fst l) with
        | [] => None
        | r => Some (info ++ listing r ++ valid ++ listing known)
        end).
Proof. exact check_keys_written. Qed.

(** The keys of the suite constructor: no warning exactly if all keys are among these. *)
Theorem C15_suite_keys : forall l, proper_entries l -> List.length (written l) < 220 ->
  (check_keys known_keys_o (written l) info_o valid_o = Ok None <->
   forall k, In k (map fst l) -> In k (map str ["dimensions"; "dimension_indices"; "function_indices"; "instance_indices"]%string)) /\
  (check_keys known_keys_i (written l) info_i valid_i = Ok None <->
   forall k, In k (map fst l) -> In k (map str ["year"; "instances"]%string)).
Proof.
  intros l H L. rewrite !check_keys_written; try assumption; try (vm_compute; lia); try (vm_compute; discriminate).
  assert (R : forall known, match redundant known (map fst l) with [] => True | _ => False end <-> forall k, In k (map fst l) -> In k known).
  { intros known. pose proof (redundant_spec known (map fst l)) as S. destruct (redundant known (map fst l)) as [|x r].
    - split; [|intros; exact I]. intros _ k K. destruct (in_dec (list_eq_dec ascii_dec) k known) as [J|J]; [exact J|]. exfalso. apply (proj2 (S k)). split; assumption.
    - split; [intros []|]. intros Q. destruct (proj1 (S x) (or_introl eq_refl)) as [A B]. apply B, Q, A. }
  split; [rewrite <- (R known_keys_o)|rewrite <- (R known_keys_i)]; match goal with |- context [redundant ?a ?b] => destruct (redundant a b) end; split; intros Q; try exact I; try reflexivity; try discriminate Q; destruct Q.
Qed.

Example C15_example :
  let l := [(str "dimensions", str " 2,3 "); (str "foo", str " 1 "); (str "function_indices", str " 4")] in
  proper_entries l /\
  coco_option_keys (written l) = Ok (Some [str "dimensions"; str "foo"; str "function_indices"]) /\
  redundant known_keys_o (map fst l) = [str "foo"].
Proof.
  split; [|split; vm_compute; reflexivity].
  split; [discriminate|]. split.
  - cbn [separated]. repeat split; intros; try (now destruct H).
    + exists (str " 2,3"). reflexivity.
    + exists (str " 1"). reflexivity.
  - assert (T: forall s, forallb (fun c => negb (Ascii.eqb c """"%char) && negb (Ascii.eqb c "%"%char) &&
        negb (Ascii.eqb c NUL) && negb (high_char c)) s = true -> tame s).
    { intros s H. rewrite forallb_forall in H. apply Forall_forall. intros c Hc. specialize (H c Hc).
      rewrite !andb_true_iff, !negb_true_iff, !Ascii.eqb_neq in H. tauto. }
    assert (N: forall c s, existsb (Ascii.eqb c) s = false -> ~ In c s).
    { intros c s H K. assert (E: existsb (Ascii.eqb c) s = true); [|congruence].
      apply existsb_exists. exists c. split; auto. apply Ascii.eqb_refl. }
    repeat constructor; try discriminate; try (apply N; reflexivity); try (apply T; reflexivity).
Qed.

(** Deviation: an option string of 220 characters without quotation marks terminates the program. *)
Theorem C15_long_options_refuted : exists options,
  coco_option_keys options = Err /\ List.length options = 220.
Proof.
  exists (str "dimensions: " ++ repeat "2"%char 208). split; vm_compute; reflexivity.
Qed.

(** Deviation: a percent sign is interpreted as a printf conversion. *)
Theorem C15_percent_refuted : exists options, coco_option_keys options = UB /\ List.length options < 20.
Proof. exists (str "dimensions: 5%s"). split; [vm_compute; reflexivity|vm_compute; lia]. Qed.

(** Deviation: the last key is lost if nothing follows its colon. *)
Theorem C15_last_key_refuted : coco_option_keys (str "dimensions: 2 foo:") = Ok (Some [str "dimensions"]).
Proof. vm_compute. reflexivity. Qed.

(** ** C16 *)
Theorem C16_values_fit : forall options name v t cap, name <> [] -> small options ->
  named_text options name v -> value_list v t ->
  (coco_options_read_values options name cap <> UB <-> (N.of_nat (List.length t) < cap)%N).
Proof.
  intros options name v t cap Hn Hs Hv Ht. rewrite (read_values_spec options name v t cap) by auto.
  destruct (N.ltb_spec (N.of_nat (List.length t)) cap); split; intros; auto; try discriminate; try lia.
  congruence.
Qed.

Theorem C16_value_text_exists : forall s, exists t, value_list s t.
Proof. exact value_list_exists. Qed.

(** The buffers of the suite constructor overflow. *)
Theorem C16_instances_overflow_refuted : exists inst,
  coco_suite desc_bbob inst [] = UB /\ no_nul inst.
Proof.
  exists (str "instances: " ++ repeat "1"%char 1000). split; [vm_compute; reflexivity|].
  intros H. apply in_app_iff in H as [H|H].
  - cbn in H. repeat (destruct H as [H|H]; [discriminate|]). destruct H.
  - apply repeat_spec in H. discriminate.
Qed.

Theorem C16_options_overflow_refuted : exists n,
  coco_suite desc_bbob [] (str "dimensions: " ++ repeat "1"%char n) = UB.
Proof. exists (N.to_nat 4097). vm_compute. reflexivity. Qed.

(** The text of the warning about unknown keys overflows its buffer. *)
Theorem C16_warning_overflow_refuted : exists options,
  check_keys known_keys_o options info_o valid_o = UB /\ List.length options < 500.
Proof.
  exists (str "a: ""x"" " ++ repeat "b"%char 400 ++ str ": 1"). split; [vm_compute; reflexivity|].
  apply Nat.ltb_lt. vm_compute. reflexivity.
Qed.

Example C16_example :
  coco_options_read_values (str "instances: 1-5, 7") (str "instances") 6 = Ok (5, Some (str "1-5,7")) /\
  coco_options_read_values (str "instances: 1-5, 7") (str "instances") 5 = UB.
Proof. vm_compute. repeat split. Qed.

Print Assumptions C14_cases.
Print Assumptions C14_string_word.
Print Assumptions C14_string_quoted.
Print Assumptions C14_string_no_value.
Print Assumptions C14_string_absent.
Print Assumptions C14_values.
Print Assumptions C14_values_absent.
Print Assumptions C14_written.
Print Assumptions C14_inside_value_refuted.
Print Assumptions C15_keys.
Print Assumptions C15_redundant.
Print Assumptions C15_warning.
Print Assumptions C15_long_options_refuted.
Print Assumptions C15_percent_refuted.
Print Assumptions C15_last_key_refuted.
Print Assumptions C16_values_fit.
Print Assumptions C16_value_text_exists.
Print Assumptions C16_instances_overflow_refuted.
Print Assumptions C16_options_overflow_refuted.
Print Assumptions C16_warning_overflow_refuted.
Print Assumptions C15_suite_keys.
