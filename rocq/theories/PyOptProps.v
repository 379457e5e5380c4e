(** C81: observer options given as a Python dictionary. *)
From Coq Require Import List Arith NArith ZArith Ascii String Bool Lia.
From Verif Require Import CBase StrModel StrSpec StrProofs OptModel OptSpec OptProofs FsModel FsSpec DblModel LogsModel ObsModel ObsSpec ObsProofs ObsProps
  PyOptModel PyOptSpec PyOptProofs PyOptProofs2.
Import ListNotations.
Local Open Scope nat_scope.
Local Notation length := List.length.

(** The text that arrives: one entry per item in the order of the dictionary; of every string a last "u" and all braces
    are lost, and commas become spaces.  The dictionary may be passed directly if it has no double quotation marks. *)
Theorem C81_text : forall d, all_strings quiet d ->
  as_string d = written (entries d) /\
  (all_strings no_double d -> observer_text d = written (entries d)).
Proof. intros d H. split; [apply as_string_written, H|apply observer_text_written, H]. Qed.

(** For dictionaries of words and integers the observer has the settings that are given, and the default for the others. *)
Theorem C81_settings : forall K keq (resolve : cstr -> K) others refuses opens strtod d name w o ms w',
  (forall a b, keq a b = true <-> a = b) -> strtod_local strtod -> plain_dict d ->
  py_observer K keq resolve others refuses opens strtod name (inl d) w = Some (Ok (Some o, ms, w')) ->
  let given_word k default x :=
    (forall s, In (str k, VStr s) d -> x = s) /\ (~ In (str k) (map fst d) -> x = default) in
  let given_int k default lo hi x :=
    (forall z, In (str k, VInt z) d -> (INT_MIN <= z <= INT_MAX)%Z -> x = if ((lo <=? z) && (z <=? hi))%Z then z else default) /\
    (~ In (str k) (map fst d) -> x = default) in
  let given_size k default least x :=
    (forall z, In (str k, VInt z) d -> (0 <= z < 2 ^ 64)%Z -> x = if (least <=? Z.to_N z)%N then Z.to_N z else default) /\
    (~ In (str k) (map fst d) -> x = default) in
  observer_name o = name /\
  given_word "algorithm_name"%string (str "ALG") (algorithm_name o) /\
  given_word "algorithm_info"%string [] (algorithm_info o) /\
  (exists outer inner, given_word "outer_folder"%string (str "exdata") outer /\
     given_word "result_folder"%string (str "default") inner /\
     (length (joined outer [inner]) < N.to_nat 4095 ->
        exists k, result_folder o = candidate (joined outer [inner]) k)) /\
  given_size "number_target_triggers"%string 100%N 0%N (number_target_triggers o) /\
  given_size "number_evaluation_triggers"%string 20%N 4%N (number_evaluation_triggers o) /\
  given_int "precision_x"%string 8%Z 1%Z 32%Z (precision_x o) /\
  given_int "precision_f"%string 15%Z 1%Z 32%Z (precision_f o) /\
  given_int "precision_g"%string 3%Z 1%Z 32%Z (precision_g o) /\
  given_int "log_discrete_as_int"%string 0%Z 0%Z 1%Z (log_discrete_as_int o).
Proof.
  intros K keq resolve others refuses opens strtod d name w o ms w' Hk Hl H E.
  unfold py_observer in E. cbn [fst snd] in E. rewrite (plain_ascii d H) in E.
  unfold bstring in E. destruct (existsb high_char name); [discriminate E|]. injection E as E.
  pose proof (plain_entries_ok d H) as Ok.
  pose proof (C58_settings K keq resolve others refuses opens strtod (entries d) name w o ms w' Hk Hl Ok E) as S.
  destruct S as (_ & S1 & (outer & inner & path & k & w1 & F1 & F2 & F3 & _ & F4 & _) & S2 & S3 & S4 & _ & _ & S5 & _ & S6 & S7 & S8 & S9 & _).
  cbv zeta. split; [exact S1|]. split; [exact (string_from_dict d _ _ _ H S2)|]. split; [exact (string_from_dict d _ _ _ H S3)|]. split.
  { exists outer, inner. split; [exact (string_from_dict d _ _ _ H F1)|]. split; [exact (string_from_dict d _ _ _ H F2)|].
    intros L. exists k. rewrite <- (F3 L). exact F4. }
  split; [exact (size_from_dict d _ _ _ _ H S4)|]. split; [exact (size_from_dict d _ _ _ _ H S5)|].
  split; [exact (int_from_dict d _ _ _ _ _ H S6)|]. split; [exact (int_from_dict d _ _ _ _ _ H S7)|].
  split; [exact (int_from_dict d _ _ _ _ _ H S8)|]. exact (int_from_dict d _ _ _ _ _ H S9).
Qed.

(** update replaces, update_gracefully does not. *)
Theorem C81_update : forall d o k, NoDup (map fst o) ->
  dict_get (update d o) k = match dict_get o k with Some v => Some v | None => dict_get d k end /\
  dict_get (update_gracefully d o) k = match dict_get d k with Some v => Some v | None => dict_get o k end.
Proof. intros d o k N. split; [apply get_update, N|apply get_gracefully, N]. Qed.

(** ** Deviations *)

(** The observer that is made when nobody else is at work and every call succeeds. *)
Definition py_alone (name : string) (options : pydict + cstr) : option (res (option observer * list message * world cstr)) :=
  py_observer cstr streq (fun p => p) (fun _ f => f) (fun _ _ _ => false) (fun _ _ => true) digits_strtod
    (str name) options (world_of []).
Definition seen {A} (f : observer -> A) (r : option (res (option observer * list message * world cstr))) : option A :=
  match r with Some (Ok (Some o, _, _)) => Some (f o) | _ => None end.
Definition text_of (s : string) : pydict := [(str "algorithm_name", VStr (str s))].

(** The last letter of a word is lost if it is a "u", whatever the word. *)
Theorem C81_last_letter_refuted : forall s d, all_strings quiet d -> quiet s ->
  Forall (fun c => ~ In c (str ",{}")) s ->
  left_of (VStr (s ++ ["u"%char])) = s /\
  as_string ((str "algorithm_name", VStr (s ++ ["u"%char])) :: d) =
    str "algorithm_name: " ++ s ++ match d with [] => [] | _ => str "  " ++ as_string d end.
Proof.
  intros s d Q H C. assert (L : left_of (VStr (s ++ ["u"%char])) = s).
  { cbn [left_of]. rewrite lose_u. cbn. apply cleaned_none. intros c I. rewrite Forall_forall in C. specialize (C c I).
    repeat split; intros ->; apply C; cbn; tauto. }
  split; [exact L|]. rewrite !as_string_written; [|exact Q|].
  - cbn [entries written]. rewrite L. destruct d as [|e d].
    + cbn [entries written]. rewrite !app_nil_r. reflexivity.
    + cbn [str list_ascii_of_string app]. rewrite <- !app_assoc. reflexivity.
  - constructor; [|exact Q]. split; [|constructor; [|constructor]].
    + cbn [fst]. unfold quiet. apply Forall_forall. intros c I. cbn in I.
      repeat (destruct I as [<-|I]; [split; [cbv; lia|split; discriminate]|]). destruct I.
    + apply Forall_app. split; [exact H|]. constructor; [|constructor]. split; [cbv; lia|split; discriminate].
Qed.
Theorem C81_cases_refuted :
  seen algorithm_name (py_alone "bbob" (inl (text_of "bleu"))) = Some (str "ble") /\
  (* a text of several words, even in double quotation marks *)
  seen algorithm_name (py_alone "bbob" (inl (text_of "my solver"))) = Some (str "my") /\
  seen algorithm_name (py_alone "bbob" (inl (text_of """my solver"""))) = Some (str "my") /\
  (* the numbers of evaluations to be logged *)
  seen base_evaluation_triggers (py_alone "bbob" (inl [(str "base_evaluation_triggers", VStr (str "1,2,5"))])) = Some (str "1") /\
  (* not ASCII *)
  py_alone "bbob" (inl (text_of (string_of_list_ascii ["228"%char]))) = None.
Proof.
  split; [|split; [|split; [|split]]]; vm_compute; reflexivity.
Qed.

(** The property as_string keeps double quotation marks, and with them texts of several words. *)
Theorem C81_quoted : forall k s, quiet s -> s <> [] -> Forall (fun c => ~ In c (str ",{}""")) s -> key_like k -> quiet k ->
  cleaned (without_last_u k) = k ->
  as_string [(k, VStr (["""" %char] ++ s ++ ["""" %char]))] = written [(k, str " """ ++ s ++ str """")] /\
  string_written (str " """ ++ s ++ str """") s.
Proof.
  intros k s H Ne C Kk Qk Ck. split.
  - rewrite as_string_written.
    + cbn [entries written]. rewrite Ck. cbn [left_of]. rewrite (app_assoc ["""" %char] s), lose_u.
      change (Ascii.eqb  "u") with false. cbv iota. rewrite cleaned_none; [rewrite !app_nil_r; cbn [str list_ascii_of_string app]; reflexivity|].
      intros c I. rewrite <- app_assoc in I. destruct I as [<-|I]; [repeat split; discriminate|].
      cbn [app] in I. apply in_app_iff in I as [I|I]; [|destruct I as [<-|[]]; repeat split; discriminate].
      rewrite Forall_forall in C. specialize (C c I). repeat split; intros ->; apply C; cbn; tauto.
    + constructor; [|constructor]. split; [exact Qk|]. constructor; [|constructor].
      assert (D : quiet ["""" %char]) by (constructor; [split; [cbv; lia|split; discriminate]|constructor]).
      apply Forall_app. split; [exact D|]. apply Forall_app. split; [exact H|exact D].
  - right. exists [" "%char], ["""" %char]. split; [reflexivity|]. split; [repeat constructor|]. split; [exact Ne|].
    split; [|right; exists []; reflexivity]. intros I. rewrite Forall_forall in C. apply (C _ I). cbn. tauto.
Qed.

(** ** Examples *)
Definition some_options : pydict :=
  [(str "algorithm_name", VStr (str "BFGS-2")); (str "result_folder", VStr (str "run")); (str "precision_x", VInt 12);
   (str "number_target_triggers", VInt 40)].
Definition word_b (s : cstr) : bool :=
  negb (length s =? 0) &&
  forallb (fun c => (33 <=? code c) && (code c <? 127) && negb (existsb (Ascii.eqb c) (str ",'\{}"" "))) s &&
  negb (ends_in "u" s).
Lemma word_dec : forall s, word_b s = true -> plain_word s.
Proof.
  intros s H. unfold word_b in H. apply andb_prop in H as [H H3]. apply andb_prop in H as [H1 H2]. rewrite forallb_forall in H2.
  split; [destruct s; [discriminate H1|discriminate]|]. split.
  - apply Forall_forall. intros c I. specialize (H2 c I). apply andb_prop in H2 as [H2 Hc]. apply andb_prop in H2 as [Ha Hb].
    apply Nat.leb_le in Ha. apply Nat.ltb_lt in Hb. split; [lia|].
    assert (N : ~ In c (str ",'\{}"" ")).
    { intros J. apply negb_true_iff in Hc. rewrite <- not_true_iff_false in Hc. apply Hc. apply existsb_exists. exists c.
      split; [exact J|apply Ascii.eqb_refl]. }
    split; [intros J; apply N; cbn in *; tauto|]. intros ->. apply N. cbn. tauto.
  - intros r ->. rewrite ends_app1 in H3. discriminate H3.
Qed.
Lemma some_options_plain : plain_dict some_options.
Proof.
  split; [|split].
  - cbn [map fst some_options]. repeat constructor; cbn [In]; intros J; repeat (destruct J as [J|J]; [discriminate J|]); exact J.
  - vm_compute. discriminate.
  - assert (D : forallb (fun e => word_b (fst e) && negb (has ":"%char (fst e)) &&
        forallb (fun k => streq (fst e) k || absent_b (fst e) k) all_keys &&
        match snd e with VStr s => word_b s && forallb (absent_b s) all_keys | VInt _ => true | VOther _ => false end) some_options = true)
      by (vm_compute; reflexivity).
    rewrite forallb_forall in D. apply Forall_forall. intros e I. specialize (D e I).
    apply andb_prop in D as [D D4]. apply andb_prop in D as [D D3]. apply andb_prop in D as [D1 D2].
    rewrite forallb_forall in D3. split; [apply word_dec, D1|]. split.
    + intros J. apply negb_true_iff in D2. rewrite <- not_true_iff_false in D2. apply D2. unfold has. apply existsb_exists.
      exists ":"%char. split; [exact J|reflexivity].
    + split.
      * intros k K. specialize (D3 k K). apply orb_prop in D3 as [B|B]; [left; apply streq_spec, B|right; apply absent_dec, B].
      * destruct (snd e) as [s|z|t]; [|exact Logic.I|discriminate D4]. apply andb_prop in D4 as [W A]. rewrite forallb_forall in A.
        split; [apply word_dec, W|]. intros k K. apply absent_dec, A, K.
Qed.
Example C81_example :
  plain_dict some_options /\ all_strings quiet some_options /\ all_strings no_double some_options /\
  observer_text some_options =
    str "algorithm_name: BFGS-2  result_folder: run  precision_x: 12  number_target_triggers: 40" /\
  (let r := py_alone "bbob" (inl some_options) in
   seen algorithm_name r = Some (str "BFGS-2") /\ seen result_folder r = Some (str "exdata/run") /\
   seen precision_x r = Some 12%Z /\ seen number_target_triggers r = Some 40%N /\ seen precision_f r = Some 15%Z) /\
  seen algorithm_info (py_alone "bbob" (inr (as_string [(str "algorithm_info", VStr (str """a short note"""))]))) =
    Some (str "a short note").
Proof.
  split; [exact some_options_plain|]. destruct (plain_all _ some_options_plain) as [Q N]. split; [exact Q|]. split; [exact N|].
  split; [vm_compute; reflexivity|]. split; [|vm_compute; reflexivity]. cbv zeta. repeat split; vm_compute; reflexivity.
Qed.

Print Assumptions C81_text.
Print Assumptions C81_settings.
Print Assumptions C81_update.
Print Assumptions C81_last_letter_refuted.
Print Assumptions C81_cases_refuted.
Print Assumptions C81_quoted.
