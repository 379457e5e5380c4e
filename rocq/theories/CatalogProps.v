(** Final statements about the content of the suites (C97). *)
From Coq Require Import List Arith NArith ZArith Ascii String Bool Lia.
From Verif Require Import CBase StrModel StrSpec OptModel OptSpec SuiteModel SuiteSpec CatalogSpec.
From Verif Require Import OptProofs SuiteProofs SuiteBuildProofs.
Import ListNotations.
Local Notation length := List.length.
Open Scope nat_scope.

Definition desc_of (k : suite_kind) : suite_desc :=
  match k with
  | Toy => desc_toy | Bbob => desc_bbob | Boxed => desc_boxed | Biobj => desc_biobj | BiobjExt => desc_biobj_ext | Largescale => desc_largescale
  | Constrained => desc_constrained | Mixint => desc_mixint | BiobjMixint => desc_biobj_mixint | Noisy => desc_noisy
  end.
Lemma called_desc : forall name k, called name k -> coco_suite_initialize name = Ok (desc_of k).
Proof. intros name k H. destruct k; cbn [called] in H; try (subst name; reflexivity). destruct H as [rest ->]. reflexivity. Qed.
Lemma is_prefix_app : forall p s, is_prefix p s = true -> exists rest, s = p ++ rest.
Proof.
  induction p as [|a p IH]; intros s H; [exists s; reflexivity|]. destruct s as [|b s]; [discriminate H|]. cbn in H.
  apply andb_true_iff in H as [E H]. apply Ascii.eqb_eq in E. subst b. destruct (IH s H) as [rest ->]. exists rest. reflexivity.
Qed.
(** The known names are the ten (with a family for the constrained suites), every other name ends the program. *)
Theorem C97_names : forall name,
  (forall k, called name k -> exists d, coco_suite_initialize name = Ok d) /\
  ((forall k, ~ called name k) -> coco_suite_initialize name = Err).
Proof.
  intros name. split; [intros k H; exists (desc_of k); apply called_desc; exact H|]. intros N. unfold coco_suite_initialize.
  assert (S : forall x, name <> x -> streq name x = false) by (intros x Q; destruct (streq name x) eqn:E; [apply streq_spec in E; contradiction|reflexivity]).
  rewrite !S; [|exact (N Noisy)|exact (N BiobjMixint)|exact (N Mixint)|exact (N Largescale)|exact (N BiobjExt)|exact (N Biobj)|exact (N Boxed)|exact (N Bbob)|exact (N Toy)].
  destruct (is_prefix _ name) eqn:E; [|reflexivity]. exfalso. apply (N Constrained). apply is_prefix_app. exact E.
Qed.
(** Without options: all functions, all dimensions, the default instances. *)
Theorem C97_default : forall name k, called name k -> exists d s, coco_suite_initialize name = Ok d /\ coco_suite d [] [] = Ok (Some s) /\
  functions s = function_numbers k /\ dimensions s = dimension_numbers k /\ instances s = default_numbers k.
Proof.
  intros name k H. exists (desc_of k). rewrite (called_desc name k H).
  destruct k; (eexists; split; [reflexivity|]; split; [vm_compute; reflexivity|]; vm_compute; repeat split).
Qed.

Definition year_string (v : cstr) : cstr := str "year:" ++ v.
Lemma year_written_entry : forall v, year_string v = written [(str "year", v)].
Proof. intros v. unfold year_string. cbn [written]. rewrite app_nil_r. reflexivity. Qed.
Definition plain (c : ascii) : Prop := isspace c = true \/ isdigit c = true.
Lemma plain_tame : forall c, plain c -> (c <> """"%char /\ c <> "%"%char /\ c <> NUL /\ high_char c = false) /\ c <> ":"%char /\ c <> "i"%char.
Proof.
  intros c [H|H]; repeat split; try (intros ->; discriminate H); unfold high_char, isspace, isdigit in *; destruct (Nat.leb_spec 128 (code c)); try reflexivity; exfalso; lia.
Qed.
Lemma year_text_plain : forall v y, year_text v y -> Forall plain v /\ v <> [].
Proof.
  intros v y (b & w & e & -> & Hb & He & Hw & Nw & _). split.
  - apply Forall_app. split; [eapply Forall_impl; [|exact Hb]; left; assumption|]. apply Forall_app. split; eapply Forall_impl; try eassumption; intros c Q; [right|left]; exact Q.
  - intros Q. apply app_eq_nil in Q as [_ Q]. apply app_eq_nil in Q as [Q _]. contradiction.
Qed.
Lemma year_proper : forall v y, year_text v y -> proper_entries [(str "year", v)].
Proof.
  intros v y H. apply year_text_plain in H as [P NE]. split; [discriminate|]. split; [cbn; tauto|]. constructor; [|constructor]. cbn [fst snd].
  split; [repeat split; [discriminate|intros Q; cbn in Q; repeat destruct Q as [Q|Q]; try discriminate Q; exact Q|repeat constructor]|].
  split; [repeat constructor; discriminate|]. split; [eapply Forall_impl; [|exact P]; intros c Q; apply plain_tame in Q; tauto|].
  split; [|exact NE]. intros Q. rewrite Forall_forall in P. apply P, plain_tame in Q. tauto.
Qed.
Lemma year_named : forall v y, year_text v y -> named_text (year_string v) (str "year") v.
Proof.
  intros v y H. pose proof (year_proper v y H) as (_ & Sp & F). inversion F as [|a b (K & _) _ Q]; subst. cbn [fst] in K. rewrite year_written_entry.
  pose proof (written_value_found [] (str "year") v [] K Sp (Forall_nil _)) as W. cbn [app] in W. cbn [written app] in W. rewrite app_nil_r in W.
  cbn [written]. rewrite app_nil_r. exact W.
Qed.
Lemma year_no_instances : forall v y, year_text v y -> absent (year_string v) (str "instances").
Proof.
  intros v y H i (p & q & E & _). apply year_text_plain in H as [P _].
  assert (I : In "i"%char (year_string v)) by (rewrite E; apply in_or_app; right; left; reflexivity).
  unfold year_string in I. apply in_app_or in I as [I|I]; [cbn in I; repeat destruct I as [I|I]; try discriminate I; exact I|].
  rewrite Forall_forall in P. apply P, plain_tame in I. tauto.
Qed.
Lemma year_first : forall v, first_occurrence (year_string v) (str "year") 0.
Proof. intros v. split; [exists [], (":"%char :: v); split; reflexivity|intros; lia]. Qed.
Lemma scan_zeros : forall base w e acc, (1 < base <= 16)%Z -> Forall (eq "0"%char) w -> blank e -> acc = Some 0%Z \/ acc = None /\ w <> [] ->
  scan_digits base (w ++ e) acc = Some 0%Z.
Proof.
  intros base w e acc Hb F. revert acc. induction F as [|c w <- F IH]; intros acc He A.
  - destruct A as [->|[_ A]]; [|contradiction]. destruct He as [|c e Hc He]; [reflexivity|]. cbn [app scan_digits].
    assert (D : digit_in base c = None).
    { unfold digit_in, hex_val. unfold isspace, isdigit in *. destruct ((48 <=? code c) && (code c <=? 57)) eqn:E; [exfalso; lia|].
      destruct ((97 <=? Z.of_nat (code c)) && (Z.of_nat (code c) <=? 102))%Z eqn:E2; [exfalso; lia|]. destruct ((65 <=? Z.of_nat (code c)) && (Z.of_nat (code c) <=? 70))%Z eqn:E3; [exfalso; lia|]. reflexivity. }
    rewrite D. reflexivity.
  - cbn [app scan_digits]. assert (D : digit_in base "0"%char = Some 0%Z) by (unfold digit_in; change (hex_val "0"%char) with (Some 0%Z); cbv iota; destruct (Z.ltb_spec 0 base); [reflexivity|lia]).
    rewrite D. apply IH; [exact He|]. left. destruct A as [->|[-> _]]; reflexivity.
Qed.
Lemma sscanf_zeros : forall w e, w <> [] -> Forall (eq "0"%char) w -> blank e -> sscanf_int (w ++ e) = Ok (1%Z, Some 0%Z).
Proof.
  intros w e NE F He. pose proof (scan_zeros 8 w e None ltac:(lia) F He (or_intror (conj eq_refl NE))) as S8.
  pose proof (scan_zeros 10 w e None ltac:(lia) F He (or_intror (conj eq_refl NE))) as S10.
  destruct F as [|c w <- F]; [contradiction|]. unfold sscanf_int. cbn [app leading_space]. change (isspace "0") with false. cbn [skipn].
  change (Ascii.eqb "0" "-") with false. change (Ascii.eqb "0" "+") with false. cbv iota zeta.
  assert (U : scan_unsigned ("0"%char :: w ++ e) = Some 0%Z).
  { unfold scan_unsigned. destruct (w ++ e) as [|x r] eqn:E; [cbn [app] in S10; rewrite E in S10; exact S10|].
    assert (X : Ascii.eqb x "x" || Ascii.eqb x "X" = false).
    { assert (P : plain x). { assert (I : In x (w ++ e)) by (rewrite E; left; reflexivity). apply in_app_or in I as [I|I].
      - rewrite Forall_forall in F. apply F in I. subst x. right. reflexivity.
      - unfold blank in He. rewrite Forall_forall in He. left. apply He. exact I. }
      destruct (Ascii.eqb_spec x "x") as [->|_]; [destruct P as [P|P]; discriminate P|]. destruct (Ascii.eqb_spec x "X") as [->|_]; [destruct P as [P|P]; discriminate P|]. reflexivity. }
    rewrite X. cbn [app] in S8. rewrite E in S8. exact S8. }
  rewrite U. reflexivity.
Qed.
Lemma year_read : forall v y, year_text v y -> (y <= int_max)%Z -> small (year_string v) -> coco_options_read_int (year_string v) k_year = Ok (1%Z, Some y).
Proof.
  intros v y H M Hs. pose proof (year_named v y H) as N. destruct H as (b & w & e & -> & Hb & He & Hw & Nw & -> & [C|Z]).
  - apply (read_int_year _ (b ++ w ++ e)); [exact Hs|exact N| |exact M]. exists b, w, e. repeat split; try assumption.
    intros c r ->. inversion He as [|a t Q _ X]; subst. unfold isspace, isdigit in *. destruct ((48 <=? code c) && (code c <=? 57)) eqn:E; [exfalso; lia|reflexivity].
  - unfold coco_options_read_int. change k_year with (str "year"). rewrite (value_text_spec _ (str "year") (b ++ w ++ e) b (w ++ e)); try assumption; try discriminate; try reflexivity.
    + cbn [bind]. rewrite sscanf_zeros by assumption. replace (dec w) with 0%N; [reflexivity|]. clear - Z. induction Z as [|c w <- F IH]; [reflexivity|]. cbn [dec]. rewrite <- IH. reflexivity.
    + destruct Z as [|c w <- F]; [contradiction|reflexivity].
Qed.
Definition finish (d : suite_desc) (nums : option numbers) : res (option suite) :=
  do ins <- coco_suite_set_instance nums;
  do o <- apply_options (mk_suite (functions (coco_suite_allocate d)) (dimensions (coco_suite_allocate d)) ins (-1) (-1) (-1)) [];
  match o with
  | None => Ok None
  | Some s1 => if negb (enough_left s1) then Ok None else do (_, s2) <- is_next_function_found s1; do (_, s3) <- is_next_dimension_found s2; Ok (Some s3)
  end.
Definition by_year (d : suite_desc) (y : Z) : res (option suite) :=
  do r <- (do ys <- sd_year d y; coco_string_parse_ranges ys 1 0 MAX_INSTANCES);
  do r' <- match r with Some _ => Ok r | None => get_instance_indices d (sd_default d) end; finish d r'.
Lemma suite_by_year : forall d v y, year_text v y -> (y <= int_max)%Z -> length v <= 200 -> coco_suite d (year_string v) [] = by_year d y.
Proof.
  intros d v y H M L.
  assert (Hs : small (year_string v)) by (unfold small, year_string; rewrite app_length; cbn [length]; change (length (str "year:")) with 5; lia).
  assert (G : get_instance_indices d (year_string v) = do ys <- sd_year d y; coco_string_parse_ranges ys 1 0 MAX_INSTANCES).
  { unfold get_instance_indices. change k_instances with (str "instances"). rewrite (strfind_absent _ (str "instances")); [|discriminate|eapply year_no_instances; exact H].
    change k_year with (str "year"). rewrite (strfind_at _ (str "year") 0); [|discriminate|exact Hs|apply year_first]. cbn [bind]. change (Z.of_nat 0) with 0%Z. cbn [precedence Z.ltb Z.leb Z.compare andb].
    change (str "year") with k_year. rewrite (year_read v y) by assumption. cbn [bind]. change (1 =? 0)%Z with false. cbn [negb].
    destruct (sd_year d y) as [ys| |]; [|reflexivity|reflexivity]. cbn [bind]. destruct (coco_string_parse_ranges ys 1 0 MAX_INSTANCES); reflexivity. }
  assert (C : check_keys known_keys_i (year_string v) info_i valid_i = Ok None).
  { rewrite year_written_entry, check_keys_written; [reflexivity|eapply year_proper; exact H| |vm_compute; lia|vm_compute; discriminate].
    rewrite <- year_written_entry. unfold year_string. rewrite app_length. change (length (str "year:")) with 5. lia. }
  unfold coco_suite, by_year. destruct (year_string v) as [|c t] eqn:E; [discriminate E|]. rewrite G.
  destruct (do ys <- sd_year d y; coco_string_parse_ranges ys 1 0 MAX_INSTANCES) as [r| |]; [|reflexivity|reflexivity]. cbn [bind].
  destruct r as [nums|]; cbn [bind]; [rewrite C; reflexivity|].
  destruct (get_instance_indices d (sd_default d)) as [r'| |]; [|reflexivity|reflexivity]. cbn [bind]. rewrite C. reflexivity.
Qed.
(** The texts for the lists of instances *)
Definition texts : list (cstr * list N) :=
  [(str "1-15", from_to 1 15); (str "1-10", from_to 1 10); (str "1-5,1-5,1-5", from_to 1 5 ++ from_to 1 5 ++ from_to 1 5); (str "1-5,21-30", five_and_ten 21);
   (str "1-5,31-40", five_and_ten 31); (str "1-5,41-50", five_and_ten 41); (str "1-5,51-60", five_and_ten 51); (str "1-5,61-70", five_and_ten 61);
   (str "1-5,71-80", five_and_ten 71); (str "1-5,91-100", five_and_ten 91); (str "1-5,101-110", five_and_ten 101)].
Definition matches (r : res cstr) (o : option (list N)) : Prop :=
  match r, o with Ok t, Some l => In (t, l) texts | Err, None => True | _, _ => False end.
Ltac step := match goal with
  | |- context [(?a <=? ?b)%Z] => let H := fresh in destruct (Z.leb_spec a b) as [H|H]; try (exfalso; clear - H; lia)
  | |- context [(?a =? ?b)%Z] => destruct (Z.eqb_spec a b) end; cbn [andb orb negb].
Ltac found := unfold texts, matches; repeat (first [left; reflexivity|right]).
Lemma years_match : forall k y, (0 <= y <= 2147483647)%Z -> matches (sd_year (desc_of k) y) (instances_of_year k y).
Proof.
  intros k y H. unfold instances_of_year, int_max. destruct k;
    cbn [years find fst snd desc_of sd_year desc_toy desc_bbob desc_boxed desc_biobj desc_biobj_ext desc_largescale desc_constrained desc_mixint desc_biobj_mixint desc_noisy];
    unfold year_bbob, year_biobj, int_max; repeat (step; try lia); cbn [option_map snd]; try exact I; found.
Qed.
Lemma finished : forall k t l, In (t, l) texts -> exists s,
  (do r <- coco_string_parse_ranges t 1 0 MAX_INSTANCES;
   do r' <- match r with Some _ => Ok r | None => get_instance_indices (desc_of k) (sd_default (desc_of k)) end; finish (desc_of k) r') = Ok (Some s) /\
  functions s = function_numbers k /\ dimensions s = dimension_numbers k /\ instances s = l.
Proof.
  intros k t l H. unfold texts in H. repeat (destruct H as [H|H]; [injection H as <- <-; destruct k; (eexists; split; [vm_compute; reflexivity|]; vm_compute; repeat split)|]). destruct H.
Qed.
(** A year in the instance string: the instances of that year, or the end of the program. *)
Theorem C97_year : forall name k v y, called name k -> year_text v y -> (y <= 2147483647)%Z -> length v <= 200 ->
  exists d, coco_suite_initialize name = Ok d /\
  match instances_of_year k y with
  | Some l => exists s, coco_suite d (str "year:" ++ v) [] = Ok (Some s) /\
      functions s = function_numbers k /\ dimensions s = dimension_numbers k /\ instances s = l
  | None => coco_suite d (str "year:" ++ v) [] = Err
  end.
Proof.
  intros name k v y H T M L. exists (desc_of k). split; [apply called_desc; exact H|]. fold (year_string v). rewrite (suite_by_year (desc_of k) v y T M L).
  assert (P : (0 <= y)%Z) by (destruct T as (b & w & e & _ & _ & _ & _ & _ & -> & _); lia). clear H T L.
  pose proof (years_match k y (conj P M)) as Q. unfold by_year. destruct (sd_year (desc_of k) y) as [t| |]; destruct (instances_of_year k y) as [l|]; try contradiction.
  - cbn [bind]. apply finished. exact Q.
  - reflexivity.
Qed.
Example C97_example : called (str "bbob") Bbob /\ year_text (str " 2009") 2009 /\ year_text (str " 0000") 0 /\
  instances_of_year Bbob 2009 = Some [1; 2; 3; 4; 5; 1; 2; 3; 4; 5; 1; 2; 3; 4; 5]%N /\ instances_of_year Boxed 2024 = None.
Proof.
  split; [reflexivity|]. split; [|split; [|split; reflexivity]].
  - exists (str " "), (str "2009"), []. repeat split; try (repeat constructor; fail); try discriminate. left. exists "2"%char, (str "009"). split; [reflexivity|discriminate].
  - exists (str " "), (str "0000"), []. repeat split; try (repeat constructor; fail); try discriminate.
Qed.

Print Assumptions C97_names.
Print Assumptions C97_default.
Print Assumptions C97_year.
