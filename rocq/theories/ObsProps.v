(** C26 and C58: what the options of an observer mean. *)
From Coq Require Import String List Arith NArith ZArith Ascii Bool Lia Reals.
Import ListNotations.
From Flocq Require Import Core BinarySingleNaN.
From Verif Require Import CBase StrModel StrSpec StrProofs OptModel OptSpec OptProofs FsModel FsSpec FsProofs FsProps DblModel DblSpec DblProofs
  ProbModel TrigModel TrigSpec TrigProofs EvProofs TrigProps BbobModel LogsModel ObsModel ObsSpec ObsProofs.
Local Notation length := List.length.
Open Scope nat_scope.

(** * C58 *)

(** An observer that is returned is the one of the given name, has a new folder below the outer folder, and every setting is
    the one given in the options or its default. *)
Theorem C58_settings : forall K keq (resolve : cstr -> K) others refuses opens strtod l name w o ms w',
  (forall a b, keq a b = true <-> a = b) -> strtod_local strtod -> entries_ok l ->
  coco_observer K keq resolve others refuses opens strtod (Some name) (written l) w = Ok (Some o, ms, w') ->
  observer_called name (observer_kind o) /\ observer_name o = name /\
  (exists outer inner path k w1, string_setting l (str "outer_folder") (str "exdata") outer /\
     string_setting l (str "result_folder") (str "default") inner /\
     (length (joined outer [inner]) < N.to_nat 4095 -> path = joined outer [inner]) /\
     k <= N.to_nat 9998 /\ result_folder o = candidate path k /\ made_new K resolve (result_folder o) w1 /\
     (observer_kind o <> LToy -> w' = w1)) /\
  string_setting l (str "algorithm_name") (str "ALG") (algorithm_name o) /\
  string_setting l (str "algorithm_info") [] (algorithm_info o) /\
  size_setting l (str "number_target_triggers") 100 0 (number_target_triggers o) /\
  double_setting strtod l (str "log_target_precision") (ddec 1 8) (log_target_precision o) /\
  double_setting strtod l (str "lin_target_precision") (ddec 1 5) (lin_target_precision o) /\
  size_setting l (str "number_evaluation_triggers") 20 4 (number_evaluation_triggers o) /\
  string_setting l (str "base_evaluation_triggers") (str "1,2,5") (base_evaluation_triggers o) /\
  int_setting l (str "precision_x") 8 1 32 (precision_x o) /\
  int_setting l (str "precision_f") 15 1 32 (precision_f o) /\
  int_setting l (str "precision_g") 3 1 32 (precision_g o) /\
  int_setting l (str "log_discrete_as_int") 0 0 1 (log_discrete_as_int o) /\
  data_kind (observer_special o) = observer_kind o /\
  special_settings l (result_folder o) (observer_special o) (is_active o).
Proof.
  intros K keq resolve others refuses opens strtod l name w o ms w' Hk Hl H E.
  apply observer_parts in E as (m & path & w1 & P).
  destruct P as [Pk Pn (outer & inner & P1 & P2 & P3) Pf Pa Pi Pb (m1 & m2 & m3 & m4 & m5 & m6 & m7 & m8 & _ & N1 & N2 & N3 & N4 & N5 & N6 & N7 & N8) Ps _].
  pose proof Ps as S. apply special_ok in S; [|exact strtod|exact H]. destruct S as [S1 S2].
  split; [apply dispatch_spec; exact Pk|]. split; [exact Pn|]. split.
  - destruct (C18_unique_directory K keq resolve others refuses path w _ _ Hk Pf) as (k & Q1 & Q2 & _ & Q4).
    exists outer, inner, path, k, w1. split; [eapply string_option_ok; [exact H|key|exact P1]|].
    split; [eapply string_option_ok; [exact H|key|exact P2]|]. split; [intros L; eapply join_ok; eassumption|].
    split; [exact Q1|]. split; [exact Q2|]. split; [exact Q4|].
    intros Nt. destruct (observer_kind o); cbn [special] in Ps; [congruence|..].
    + step_bind Ps. congruence.
    + congruence.
    + step_bind Ps. destruct a. congruence.
    + step_bind Ps. congruence.
  - split; [eapply string_option_ok; [exact H|key|exact Pa]|]. split; [eapply string_option_ok; [exact H|key|exact Pi]|].
    split; [eapply size_option_ok; [exact H|key| |exact N1]; intros v; destruct (N.ltb_spec v 0); [lia|reflexivity]|].
    split; [eapply precision_option_ok; [exact Hl|exact H|key|exact N2]|].
    split; [eapply precision_option_ok; [exact Hl|exact H|key|exact N3]|].
    split; [eapply size_option_ok; [exact H|key|intros v; reflexivity|exact N4]|].
    split; [eapply string_option_ok; [exact H|key|exact Pb]|].
    split; [eapply int_option_ok; [exact H|key|exact N5]|]. split; [eapply int_option_ok; [exact H|key|exact N6]|].
    split; [eapply int_option_ok; [exact H|key|exact N7]|]. split; [eapply int_option_ok; [exact H|key|exact N8]|].
    split; assumption.
Qed.

(** An observer is returned for every name of an observer when the values are of the right form and the folder can be made. *)
Theorem C58_total : forall K keq (resolve : cstr -> K) others refuses opens strtod l k name w,
  strtod_local strtod -> entries_ok l -> proper_entries l -> length (written l) < 220 -> values_fit l -> observer_called name k ->
  (forall outer inner, string_setting l (str "outer_folder") (str "exdata") outer ->
     string_setting l (str "result_folder") (str "default") inner ->
     exists folder w1, coco_create_unique_directory K keq resolve others refuses (joined outer [inner]) w = Ok (folder, w1) /\
       (k = LToy -> forall file, string_setting l (str "file_name") (str "first_hitting_times.dat") file ->
          length (joined folder [file]) < N.to_nat 4095 /\
          exists r w2, coco_create_directory K keq resolve others refuses folder w1 = Ok (r, w2) /\ opens w2 (joined folder [file]) = true)) ->
  exists o ms w', coco_observer K keq resolve others refuses opens strtod (Some name) (written l) w = Ok (Some o, ms, w').
Proof. exact observer_total. Qed.

Lemma valid_keys_are : forall k x, In x (valid_keys k) <-> In x known_observer_keys \/ In x (additional_keys k).
Proof. intros k x. unfold valid_keys. rewrite map_app, in_app_iff. destruct k; reflexivity. Qed.
(** What is said: one message for every rejected value, one if there are keys that this observer does not have; nothing else. *)
Theorem C58_messages : forall K keq (resolve : cstr -> K) others refuses opens strtod l name w o ms w',
  strtod_local strtod -> entries_ok l -> proper_entries l -> length (written l) < 220 -> values_fit l ->
  coco_observer K keq resolve others refuses opens strtod (Some name) (written l) w = Ok (Some o, ms, w') ->
  (forall k, In (Unsuitable k) ms <-> rejected strtod l k) /\
  ((exists t, In (IgnoredKeys t) ms) <->
     exists k, In k (map fst l) /\ ~ In k (valid_keys (observer_kind o))) /\
  forall x, In x ms -> (exists k, x = Unsuitable k) \/ (exists t, x = IgnoredKeys t).
Proof.
  intros K keq resolve others refuses opens strtod l name w o ms w' Hl H Hp L V E.
  apply observer_parts in E as (m & path & w1 & P).
  destruct P as [_ _ _ _ _ _ _ (m1 & m2 & m3 & m4 & m5 & m6 & m7 & m8 & Em & N1 & N2 & N3 & N4 & N5 & N6 & N7 & N8) _ (warning & Ew & Ems)].
  destruct (numbers_said strtod l o m1 m2 m3 m4 m5 m6 m7 m8 Hl H V N1 N2 N3 N4 N5 N6 N7 N8) as [S1 S2].
  rewrite <- Em in S1, S2. clear N1 N2 N3 N4 N5 N6 N7 N8 Em.
  rewrite warning_ok in Ew by assumption.
  set (known := option_keys_add known_observer_keys (additional_keys (observer_kind o))) in *.
  pose proof (redundant_spec known (map fst l)) as R. unfold known in R. subst ms. split; [|split].
  - intros k. rewrite in_app_iff, S2. split; [|auto]. intros [X|X]; [exact X|].
    destruct warning; [destruct X as [X|[]]; discriminate X|destruct X].
  - split.
    + intros [t X]. apply in_app_iff in X as [X|X].
      * apply S1 in X as [k X]. discriminate X.
      * destruct (redundant known (map fst l)) as [|k r] eqn:Er.
        -- destruct warning; [discriminate Ew|destruct X].
        -- exists k. assert (I : In k (redundant known (map fst l))) by (rewrite Er; left; reflexivity).
           apply R in I as [I1 I2]. split; [exact I1|]. rewrite known_keys in I2. rewrite valid_keys_are. tauto.
    + intros (k & I & J). rewrite valid_keys_are in J. assert (X : In k (redundant known (map fst l))).
      { apply R. split; [exact I|]. rewrite known_keys. tauto. }
      destruct (redundant known (map fst l)) as [|k' r]; [destruct X|].
      destruct warning as [t|]; [|discriminate Ew]. exists t. apply in_app_iff. right. left. reflexivity.
  - intros x X. apply in_app_iff in X as [X|X]; [left; apply S1; exact X|].
    destruct warning; [destruct X as [<-|[]]; right; eexists; reflexivity|destruct X].
Qed.

(** Without an observer: "no_observer" asks for none; an empty name is reported; both leave everything as it is.  A name that is
    no observer is reported, after the folder has been made. *)
Theorem C58_no_observer : forall K keq (resolve : cstr -> K) others refuses opens strtod options w,
  let observer := coco_observer K keq resolve others refuses opens strtod in
  observer (Some (str "no_observer")) options w = Ok (None, [], w) /\
  observer (Some []) options w = Ok (None, [EmptyName], w) /\
  forall name ms w', observer (Some name) options w = Ok (None, ms, w') -> name <> str "no_observer" -> name <> [] ->
    (forall k, ~ observer_called name k) /\ (exists m, ms = m ++ [UnknownObserver name]) /\
    exists path folder, coco_create_unique_directory K keq resolve others refuses path w = Ok (folder, w').
Proof.
  intros K keq resolve others refuses opens strtod options w. cbv zeta. split; [reflexivity|]. split; [reflexivity|].
  intros name ms w' E Na Nb. unfold coco_observer in E.
  destruct (streq name (str "no_observer")) eqn:Q1.
  { apply streq_spec in Q1. contradiction. }
  destruct (length name =? 0) eqn:Q2.
  { destruct name; [congruence|discriminate Q2]. }
  do 3 step_bind E. destruct (coco_create_unique_directory _ _ _ _ _ a1 w) as [[folder w1]| |] eqn:U; [cbn [bind] in E|discriminate E|discriminate E].
  do 2 step_bind E. step_bind E. destruct a4 as [ntt m1]. step_bind E. destruct a4 as [logp m2]. step_bind E. destruct a4 as [linp m3].
  step_bind E. destruct a4 as [net m4]. step_bind E. step_bind E. destruct a5 as [px m5]. step_bind E. destruct a5 as [pf m6].
  step_bind E. destruct a5 as [pg m7]. step_bind E. destruct a5 as [asint m8]. cbv zeta in E.
  destruct (dispatch name) as [k|] eqn:D.
  - exfalso. step_bind E. destruct a5 as [[d ac] w2]. step_bind E. discriminate E.
  - split; [intros k C; apply dispatch_spec in C; congruence|]. split.
    + exists (m1 ++ m2 ++ m3 ++ m4 ++ m5 ++ m6 ++ m7 ++ m8). congruence.
    + exists a1, folder. congruence.
Qed.

(** ** Deviations *)

(** A name of NULL is documented to give no observer. *)
Theorem C58_null_refuted : forall K keq (resolve : cstr -> K) others refuses opens strtod options w,
  coco_observer K keq resolve others refuses opens strtod None options w = UB.
Proof. reflexivity. Qed.

(** A world in which [made] exists, nobody else is at work, and every call succeeds; a strtod for texts of digits. *)
Definition world_of (made : list string) : world cstr := {| fs := map (fun s => (str s, KDir)) made; clock := 0; log := [] |}.
Definition digits_strtod (s : cstr) : option double :=
  match scan_digits 10 s None with Some v => Some (dint v) | None => None end.
Definition alone (name options : string) : res (option observer * list message * world cstr) :=
  coco_observer cstr streq (fun p => p) (fun _ f => f) (fun _ _ _ => false) (fun _ _ => true) digits_strtod
    (Some (str name)) (str options) (world_of []).

(** A negative number of targets is neither rejected nor reported. *)
Theorem C58_negative_refuted : exists o w,
  alone "bbob" "number_target_triggers: -5" = Ok (Some o, [], w) /\ number_target_triggers o = (2 ^ 64 - 5)%N.
Proof.
  assert (E : match alone "bbob" "number_target_triggers: -5" with
              | Ok (Some o, [], _) => N.eqb (number_target_triggers o) (2 ^ 64 - 5) | _ => false end = true)
    by (vm_compute; reflexivity).
  destruct (alone "bbob" "number_target_triggers: -5") as [[[[o|] [|x ms]] w]| |]; try discriminate E.
  exists o, w. split; [reflexivity|]. apply N.eqb_eq. exact E.
Qed.

(** A key without a text is undefined behaviour. *)
Theorem C58_no_value_refuted : alone "bbob" "algorithm_name:" = UB /\ alone "bbob-biobj" "compute_indicators: " = UB.
Proof. split; vm_compute; reflexivity. Qed.

(** An unknown name leaves a folder behind. *)
Theorem C58_folder_left_refuted : exists w,
  alone "bbobs" "" = Ok (None, [UnknownObserver (str "bbobs")], w) /\ In (str "exdata/default") (map fst (fs cstr w)).
Proof.
  assert (E : match alone "bbobs" "" with
              | Ok (None, [UnknownObserver n], w) => streq n (str "bbobs") && existsb (streq (str "exdata/default")) (map fst (fs cstr w))
              | _ => false end = true) by (vm_compute; reflexivity).
  destruct (alone "bbobs" "") as [[[[o|] [|[|k|n|t] [|y ms]]] w]| |]; try discriminate E.
  apply andb_prop in E as [E1 E2]. apply streq_spec in E1. subst n. exists w. split; [reflexivity|].
  apply existsb_exists in E2 as (x & I & Ex). apply streq_spec in Ex. subst x. exact I.
Qed.

(** Options of 220 characters end the program. *)
Theorem C58_long_options_refuted : exists options, length options = 220 /\
  coco_observer cstr streq (fun p => p) (fun _ f => f) (fun _ _ _ => false) (fun _ _ => true) digits_strtod
    (Some (str "bbob")) options (world_of []) = Err.
Proof.
  exists (str "algorithm_name: " ++ repeat "a"%char 204). split; [reflexivity|]. vm_compute. reflexivity.
Qed.

(** ** Examples *)
Lemma digits_strtod_local : strtod_local digits_strtod.
Proof.
  intros c s t Hc. unfold digits_strtod.
  assert (G : forall acc, scan_digits 10 (s ++ c :: t) acc = scan_digits 10 (s ++ [c]) acc).
  { assert (Nc : digit_in 10 c = None) by (destruct c as [[] [] [] [] [] [] [] []]; try discriminate Hc; reflexivity).
    induction s as [|a s IH]; intros acc.
    - cbn [app scan_digits]. rewrite Nc. reflexivity.
    - cbn [app scan_digits]. destruct (digit_in 10 a) as [n|]; [apply IH|reflexivity]. }
  rewrite G. reflexivity.
Qed.

(** Deciding whether entries are fine *)
Definition absent_b (s t : cstr) : bool := forallb (fun i => negb (is_prefix t (skipn i s))) (seq 0 (S (length s))).
Lemma absent_dec : forall s t, absent_b s t = true -> absent s t.
Proof.
  intros s t H i O. unfold absent_b in H. rewrite forallb_forall in H.
  pose proof (occurs_at_bound s t i O) as B. specialize (H i). rewrite in_seq in H. specialize (H ltac:(lia)).
  assert (P : is_prefix t (skipn i s) = true).
  { rewrite <- (firstn_skipn i s) in O.
    assert (Li : length (firstn i s) = i) by (rewrite firstn_length; lia). rewrite <- Li in O at 3.
    apply occurs_at_prefix in O. exact O. }
  rewrite P in H. discriminate H.
Qed.
Definition entry_b (e : cstr * cstr) : bool :=
  negb (length (fst e) =? 0) && forallb (fun c => negb (Ascii.eqb c ":" || isspace c)) (fst e) &&
  existsb (fun c => negb (isspace c)) (snd e) && forallb (fun c => negb (Ascii.eqb c """")) (snd e) &&
  forallb (fun k => absent_b (snd e) k && (streq (fst e) k || absent_b (fst e) k)) all_keys.
Lemma entry_dec : forall e, entry_b e = true -> key_like (fst e) /\ complete_text (snd e) /\
  forall k, In k all_keys -> absent (snd e) k /\ (fst e = k \/ absent (fst e) k).
Proof.
  intros e H. unfold entry_b in H. apply andb_prop in H as [H H5]. apply andb_prop in H as [H H4].
  apply andb_prop in H as [H H3]. apply andb_prop in H as [H1 H2]. rewrite forallb_forall in H2, H4, H5.
  split; [|split].
  - split; [intros E; rewrite E in H1; discriminate H1|]. split.
    + intros I. apply H2 in I. discriminate I.
    + apply Forall_forall. intros c I. apply H2 in I. destruct (isspace c); [|reflexivity]. rewrite orb_true_r in I. discriminate I.
  - split.
    + intros B. apply existsb_exists in H3 as (c & I & E). unfold blank in B. rewrite Forall_forall in B.
      rewrite (B c I) in E. discriminate E.
    + left. intros I. apply H4 in I. discriminate I.
  - intros k I. specialize (H5 k I). apply andb_prop in H5 as [A B]. split; [apply absent_dec; exact A|].
    apply orb_prop in B as [B|B]; [left; apply streq_spec; exact B|right; apply absent_dec; exact B].
Qed.

Definition some_entries : list (cstr * cstr) :=
  [(str "result_folder", str " run "); (str "precision_x", str " 40 "); (str "number_target_triggers", str " 7 ");
   (str "log_target_precision", str " 3 "); (str "prefix", str " mine "); (str "foo", str " 1")].
Lemma some_entries_ok : entries_ok some_entries /\ proper_entries some_entries /\ length (written some_entries) < 220 /\
  values_fit some_entries.
Proof.
  assert (S : separated some_entries).
  { cbn [separated some_entries]. split; [exists (str " run"); reflexivity|]. split; [exists (str " 40"); reflexivity|].
    split; [exists (str " 7"); reflexivity|]. split; [exists (str " 3"); reflexivity|]. split; [exists (str " mine"); reflexivity|].
    split; [intros X; contradiction|exact I]. }
  assert (D : forallb entry_b some_entries = true) by (vm_compute; reflexivity).
  rewrite forallb_forall in D.
  split; [|split; [|split]].
  - split; [exact S|]. split; [vm_compute; discriminate|]. apply Forall_forall. intros e I. apply entry_dec, D, I.
  - split; [discriminate|]. split; [exact S|].
    apply Forall_forall. intros e I.
    assert (T : forallb (fun e => forallb (fun c => negb (Ascii.eqb c """" || Ascii.eqb c "%" || Ascii.eqb c NUL || high_char c)) (fst e ++ snd e) &&
      forallb (fun c => negb (Ascii.eqb c ":")) (snd e) && negb (length (snd e) =? 0)) some_entries = true) by (vm_compute; reflexivity).
    rewrite forallb_forall in T. specialize (T e I). apply andb_prop in T as [T T3]. apply andb_prop in T as [T1 T2].
    assert (F : tame (fst e ++ snd e)).
    { apply Forall_forall. intros c J. rewrite forallb_forall in T1. specialize (T1 c J).
      destruct (Ascii.eqb_spec c """"%char) as [X|X]; [discriminate T1|]. destruct (Ascii.eqb_spec c "%"%char) as [Y|Y]; [discriminate T1|].
      destruct (Ascii.eqb_spec c NUL) as [Z|Z]; [discriminate T1|]. destruct (high_char c); [discriminate T1|]. auto. }
    apply Forall_app in F as [F1 F2]. split; [apply (entry_dec e (D e I))|]. split; [exact F1|]. split; [exact F2|]. split.
    + intros J. rewrite forallb_forall in T2. apply T2 in J. discriminate J.
    + destruct e as [k [|c v]]; [discriminate T3|discriminate].
  - vm_compute. lia.
  - assert (Dec : forall a d z, digits (str d) -> (forall c r, str d = c :: r -> c <> "0"%char) -> str d <> [] -> z = Z.of_N (dec (str d)) ->
      (a = [] \/ a = [" "%char]) -> decimal_written (" "%char :: str d ++ a) z).
    { intros a d z H1 H2 H3 -> Ha. exists [" "%char], [], (str d), a. split; [reflexivity|]. split; [repeat constructor|].
      split; [exact H1|]. split.
      - destruct (str d) as [|c r]; [congruence|]. exists c, r. split; [reflexivity|]. left. apply (H2 c r eq_refl).
      - split; [|left; split; reflexivity]. intros c r E. destruct Ha as [->| ->]; [discriminate E|]. injection E as <- <-. reflexivity. }
    assert (Wd : forall a d, Forall (fun c => isspace c = false) (str d) -> str d <> [] -> (forall c r, str d = c :: r -> c <> """"%char) ->
      (a = [] \/ a = [" "%char]) -> string_written (" "%char :: str d ++ a) (str d)).
    { intros a d H1 H2 H3 Ha. left. split.
      - exists [" "%char], a. split; [reflexivity|]. split; [repeat constructor|]. split; [exact H2|]. split; [exact H1|].
        destruct Ha as [->| ->]; [left; reflexivity|right]. exists " "%char, []. split; reflexivity.
      - destruct (str d) as [|c r]; [congruence|]. cbn. intros E. injection E as E. apply (H3 c r eq_refl E). }
    intros k v E. cbn [lookup some_entries] in E.
    repeat match type of E with (if streq ?a k then _ else _) = _ =>
      destruct (streq a k) eqn:?Q; [match goal with Q : streq a k = true |- _ => apply streq_spec in Q; subst k end; injection E as <-|] end;
      [| | | | | |discriminate E].
    + split; [|split; intros J; exfalso; cbn in J; repeat (destruct J as [J|J]; [discriminate J|]); exact J].
      intros _. exists (str "run"). apply (Wd [" "%char] "run"%string); [repeat constructor|discriminate| |right; reflexivity].
      intros c r J. injection J as <- _. discriminate.
    + split; [intros J; exfalso; cbn in J; repeat (destruct J as [J|J]; [discriminate J|]); exact J|].
      split; [|intros J; exfalso; cbn in J; repeat (destruct J as [J|J]; [discriminate J|]); exact J].
      intros _. exists 40%Z. split; [|vm_compute; split; discriminate]. apply (Dec [" "%char] "40"%string); [repeat constructor| |discriminate|reflexivity|right; reflexivity].
      intros c r J. injection J as <- _. discriminate.
    + split; [intros J; exfalso; cbn in J; repeat (destruct J as [J|J]; [discriminate J|]); exact J|].
      split; [intros J; exfalso; cbn in J; repeat (destruct J as [J|J]; [discriminate J|]); exact J|].
      intros _. exists 7%Z. split; [|vm_compute; split; reflexivity]. apply (Dec [" "%char] "7"%string); [repeat constructor| |discriminate|reflexivity|right; reflexivity].
      intros c r J. injection J as <- _. discriminate.
    + split; [|split]; intros J; exfalso; cbn in J; repeat (destruct J as [J|J]; [discriminate J|]); exact J.
    + split; [|split; intros J; exfalso; cbn in J; repeat (destruct J as [J|J]; [discriminate J|]); exact J].
      intros _. exists (str "mine"). apply (Wd [" "%char] "mine"%string); [repeat constructor|discriminate| |right; reflexivity].
      intros c r J. injection J as <- _. discriminate.
    + split; [|split]; intros J; exfalso; cbn in J; repeat (destruct J as [J|J]; [discriminate J|]); exact J.
Qed.

(** The bbob observer with these options: 40 digits are too many, "foo" is not known. *)
Example C58_example : exists o w t,
  coco_observer cstr streq (fun p => p) (fun _ f => f) (fun _ _ _ => false) (fun _ _ => true) digits_strtod
    (Some (str "bbob")) (written some_entries) (world_of ["exdata"; "exdata/run"]%string) =
    Ok (Some o, [Unsuitable (str "precision_x"); IgnoredKeys t], w) /\
  observer_kind o = LBbob /\ result_folder o = str "exdata/run-0001" /\ number_target_triggers o = 7%N /\
  precision_x o = 8%Z /\ algorithm_name o = str "ALG" /\ observer_special o = BbobData (str "mine") /\
  dle (log_target_precision o) (dint 3) = true /\ dle (dint 3) (log_target_precision o) = true /\
  In (str "exdata/run-0001") (map fst (fs cstr w)).
Proof.
  match goal with |- context [coco_observer ?a ?b ?c ?d ?e ?f ?g ?h ?i ?j] => set (r := coco_observer a b c d e f g h i j) end.
  assert (E : match r with
              | Ok (Some o, [Unsuitable k; IgnoredKeys _], w) =>
                  streq k (str "precision_x") && match observer_kind o with LBbob => true | _ => false end &&
                  streq (result_folder o) (str "exdata/run-0001") && N.eqb (number_target_triggers o) 7 && Z.eqb (precision_x o) 8 &&
                  streq (algorithm_name o) (str "ALG") && match observer_special o with BbobData p => streq p (str "mine") | _ => false end &&
                  dle (log_target_precision o) (dint 3) && dle (dint 3) (log_target_precision o) &&
                  existsb (streq (str "exdata/run-0001")) (map fst (fs cstr w))
              | _ => false end = true) by (vm_compute; reflexivity).
  clearbody r. destruct r as [[[[o|] [|[|k|n|t] [|[|k'|n'|t'] [|y ms]]]] w]| |]; try discriminate E.
  repeat match type of E with (_ && _ = true)%bool => let E' := fresh "E" in apply andb_prop in E as [E E'] end.
  apply streq_spec in E. subst k. exists o, w, t'. split; [reflexivity|].
  split; [destruct (observer_kind o); try discriminate E8; reflexivity|].
  split; [apply streq_spec; exact E7|]. split; [apply N.eqb_eq; exact E6|]. split; [apply Z.eqb_eq; exact E5|].
  split; [apply streq_spec; exact E4|]. split.
  - destruct (observer_special o); try discriminate E3. apply streq_spec in E3. subst prefix. reflexivity.
  - split; [exact E2|]. split; [exact E1|]. apply existsb_exists in E0 as (x & I & Ex). apply streq_spec in Ex. subst x. exact I.
Qed.

(** * C26 *)

(** Observers that differ in the option number_evaluation_triggers only, whatever its two values, have the same folder and
    differ in that field only; the loggers do not read it. *)
Theorem C26_no_effect : forall K keq (resolve : cstr -> K) others refuses opens strtod l1 l2 v v' name w o ms w1 o' ms' w2,
  strtod_local strtod ->
  entries_ok (l1 ++ (str "number_evaluation_triggers", v) :: l2) -> entries_ok (l1 ++ (str "number_evaluation_triggers", v') :: l2) ->
  coco_observer K keq resolve others refuses opens strtod (Some name)
    (written (l1 ++ (str "number_evaluation_triggers", v) :: l2)) w = Ok (Some o, ms, w1) ->
  coco_observer K keq resolve others refuses opens strtod (Some name)
    (written (l1 ++ (str "number_evaluation_triggers", v') :: l2)) w = Ok (Some o', ms', w2) ->
  same_but_evaluation_triggers o o' /\ w2 = w1 /\
  forall C (p : problem C) log10 pow10,
    (forall optima acts, experiment log10 pow10 (bbob_options o' optima) p acts = experiment log10 pow10 (bbob_options o optima) p acts) /\
    logger_toy log10 pow10 (number_target_triggers o') (log_target_precision o') p =
      logger_toy log10 pow10 (number_target_triggers o) (log_target_precision o) p /\
    forall d, observer_special o = RwData d -> observer_special o' = RwData d /\
      logger_rw d (negb (log_discrete_as_int o' =? 0)%Z) p = logger_rw d (negb (log_discrete_as_int o =? 0)%Z) p.
Proof.
  intros K keq resolve others refuses opens strtod l1 l2 v v' name w o ms w1 o' ms' w2 Hl H H' E E'.
  destruct (same_observer K keq resolve others refuses opens strtod name _ _ w o ms w1 o' ms' w2
    (same_reads_entries strtod l1 l2 v v' Hl H H') E E') as [S ->].
  split; [exact S|]. split; [reflexivity|]. intros C p log10 pow10. unfold same_but_evaluation_triggers in S. rewrite S. clear.
  split; [reflexivity|]. split; [reflexivity|]. intros d Ed. split; [exact Ed|reflexivity].
Qed.

(** The option is documented as the number of logged evaluations per decade, floor(10^(i/n)).  With 4, which is accepted,
    evaluation 11 is logged in dimension 40 although it is not one of these numbers. *)
Theorem C26_documented_refuted : forall pow10, pow10_accurate pow10 ->
  exists o w, alone "bbob" "number_evaluation_triggers: 4" = Ok (Some o, [], w) /\ number_evaluation_triggers o = 4%N /\
  exists ev bs ev', coco_observer_evaluations (base_evaluation_triggers o) 40 = Ok ev /\
    consult (evaluations_trigger pow10) ev (counts 11) = Ok (bs, ev') /\ nth_error bs 10 = Some true /\
    ~ documented_number 4 11 /\ ~ base_number 40 [1; 2; 5]%N 11.
Proof.
  intros pow10 HA.
  assert (E : match alone "bbob" "number_evaluation_triggers: 4" with
              | Ok (Some o, [], _) => N.eqb (number_evaluation_triggers o) 4 && streq (base_evaluation_triggers o) (str "1,2,5")
              | _ => false end = true) by (vm_compute; reflexivity).
  destruct (alone "bbob" "number_evaluation_triggers: 4") as [[[[o|] [|x ms]] w]| |]; try discriminate E.
  apply andb_prop in E as [E1 E2]. apply N.eqb_eq in E1. apply streq_spec in E2. exists o, w. split; [reflexivity|].
  split; [exact E1|]. rewrite E2.
  destruct (C25_evaluation_numbers pow10 (str "1,2,5") [1; 2; 5]%N 40 HA) as (ev & Ev & G).
  - discriminate.
  - apply fine_125.
  - exact denotes_125.
  - cbn. lia.
  - apply fine_125.
  - lia.
  - intros b I. cbn in I. destruct I as [<-|[<-|[<-|[]]]]; reflexivity.
  - destruct (G 11 ltac:(reflexivity)) as (bs & ev' & C & Lb & T). exists ev, bs, ev'. split; [exact Ev|]. split; [exact C|].
    assert (NB : ~ base_number 40 [1; 2; 5]%N 11).
    { intros (b & e & I & X). pose proof (N.pow_nonzero 10 e ltac:(lia)) as Hp. set (q := (10 ^ e)%N) in *. cbn in I. lia. }
    split; [|split; [|exact NB]].
    + destruct (nth_error bs 10) as [b|] eqn:Eb.
      * f_equal. apply (T 10 b Eb). left. exists 21. vm_compute. split; [discriminate|reflexivity].
      * apply nth_error_None in Eb. lia.
    + intros [i Hi]. destruct (N.le_gt_cases i 4) as [B|B].
      * pose proof (N.pow_le_mono_r 10 i 4 ltac:(lia) B) as P. change (10 ^ 4)%N with 10000%N in P. change (11 ^ 4)%N with 14641%N in Hi. lia.
      * pose proof (N.pow_le_mono_r 10 5 i ltac:(lia) ltac:(lia)) as P. change (10 ^ 5)%N with 100000%N in P.
        change ((11 + 1) ^ 4)%N with 20736%N in Hi. lia.
Qed.

(** Entries for the statement that the option has no effect *)
Example C26_example : exists o o' w,
  entries_ok [(str "number_evaluation_triggers", str " 4")] /\ entries_ok [(str "number_evaluation_triggers", str " 100")] /\
  alone "bbob" "number_evaluation_triggers: 4" = Ok (Some o, [], w) /\
  alone "bbob" "number_evaluation_triggers: 100" = Ok (Some o', [], w) /\
  number_evaluation_triggers o = 4%N /\ number_evaluation_triggers o' = 100%N.
Proof.
  assert (D : forall v, entry_b (str "number_evaluation_triggers", v) = true -> small (written [(str "number_evaluation_triggers", v)]) ->
    entries_ok [(str "number_evaluation_triggers", v)]).
  { intros v H S. split; [split; [congruence|exact I]|]. split; [exact S|]. constructor; [apply entry_dec; exact H|constructor]. }
  assert (D1 : entries_ok [(str "number_evaluation_triggers", str " 4")]) by (apply D; [vm_compute; reflexivity|vm_compute; discriminate]).
  assert (D2 : entries_ok [(str "number_evaluation_triggers", str " 100")]) by (apply D; [vm_compute; reflexivity|vm_compute; discriminate]).
  assert (E : match alone "bbob" "number_evaluation_triggers: 4" with Ok (Some o, [], _) => N.eqb (number_evaluation_triggers o) 4
              | _ => false end = true) by (vm_compute; reflexivity).
  assert (E' : match alone "bbob" "number_evaluation_triggers: 100" with Ok (Some o, [], _) => N.eqb (number_evaluation_triggers o) 100
               | _ => false end = true) by (vm_compute; reflexivity).
  destruct (alone "bbob" "number_evaluation_triggers: 4") as [[[[o|] [|x ms]] w]| |] eqn:A; try discriminate E.
  destruct (alone "bbob" "number_evaluation_triggers: 100") as [[[[o'|] [|x ms]] w']| |] eqn:A'; try discriminate E'.
  destruct (C26_no_effect _ _ _ _ _ _ _ [] [] (str " 4") (str " 100") _ _ _ _ _ _ _ _ digits_strtod_local D1 D2 A A') as (_ & -> & _).
  exists o, o', w. split; [exact D1|]. split; [exact D2|]. split; [reflexivity|]. split; [reflexivity|].
  split; apply N.eqb_eq; assumption.
Qed.

Print Assumptions C58_settings.
Print Assumptions C58_total.
Print Assumptions C58_messages.
Print Assumptions C58_no_observer.
Print Assumptions C58_null_refuted.
Print Assumptions C58_negative_refuted.
Print Assumptions C58_no_value_refuted.
Print Assumptions C58_folder_left_refuted.
Print Assumptions C58_long_options_refuted.
Print Assumptions C26_no_effect.
Print Assumptions C26_documented_refuted.
