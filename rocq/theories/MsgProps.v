(** C95: messages and log levels. *)
From Coq Require Import List Arith NArith Ascii String Bool Lia.
From Verif Require Import CBase OptModel IdModel MsgModel MsgSpec.
Import ListNotations.
Local Notation length := List.length.

Lemma streq_iff : forall a b, streq a b = true <-> a = b.
Proof. exact streq_spec. Qed.
Lemma streq_false : forall a b, a <> b -> streq a b = false.
Proof. intros a b H. destruct (streq a b) eqn:E; [|reflexivity]. apply streq_iff in E. contradiction. Qed.
Definition warned : cstr := str "coco_set_log_level(): unknown level %s".
(** The cases of coco_set_log_level *)
Definition changed (r : runtime) (name : cstr) (s : state) : res state :=
  if in_dec (list_eq_dec ascii_dec) name names then
    Ok (mk_state (if streq name (str "error") then 0 else if streq name (str "warning") then 1 else if streq name (str "info") then 2 else 3) (written s) (exited s))
  else if list_eq_dec ascii_dec name [] then Ok s else call r coco_warning warned [AStr name] s.
Lemma set_level : forall r name s l old, coco_log_level s = l -> nth_error names l = Some old ->
  coco_set_log_level r name s = do s' <- changed r name s; Ok (old, s').
Proof.
  intros r name s l old E N. unfold coco_set_log_level. match goal with |- bind ?u _ = _ => replace u with (changed r name s) end.
  - destruct (changed r name s) as [s'| |]; cbn [bind]; try reflexivity. rewrite E.
    destruct l as [|[|[|[|l]]]]; cbn in N; try (injection N as <-); try reflexivity. destruct l; discriminate N.
  - unfold changed. destruct (in_dec (list_eq_dec ascii_dec) name names) as [I|I].
    + destruct I as [<-|[<-|[<-|[<-|[]]]]]; reflexivity.
    + assert (H : forall x, In x names -> streq name x = false) by (intros x Hx; apply streq_false; intros ->; contradiction).
      rewrite !H by (cbn; tauto). destruct (list_eq_dec ascii_dec name []) as [->|Z]; [reflexivity|]. rewrite streq_false by exact Z. reflexivity.
Qed.
Lemma level_of : forall name l, nth_error names l = Some name ->
  (if streq name (str "error") then 0 else if streq name (str "warning") then 1 else if streq name (str "info") then 2 else 3) = l.
Proof. intros name [|[|[|[|l]]]] H; cbn in H; try (injection H as <-; reflexivity). destruct l; discriminate H. Qed.
Lemma known_level : forall name, known name -> exists l, nth_error names l = Some name.
Proof. intros name H. apply In_nth_error in H. exact H. Qed.
Lemma level_after_snoc_set : forall p name l, nth_error names l = Some name -> level_after (p ++ [Level name]) l.
Proof. intros p name l H. apply (last_set _ p [] name l); [reflexivity|exact H|]. intros o []. Qed.
Lemma level_after_snoc : forall p e l, (forall name, e = Level name -> ~ known name) -> level_after p l -> level_after (p ++ [e]) l.
Proof.
  intros p e l H L. destruct L as [N|a b name l E K N].
  - apply never_set. intros o I. apply in_app_iff in I as [I|[I|[]]]; [apply N, I|apply H; exact I].
  - subst p. apply (last_set _ a (b ++ [e]) name l); [rewrite <- app_assoc; reflexivity|exact K|]. intros o I.
    apply in_app_iff in I as [I|[I|[]]]; [apply N, I|apply H; exact I].
Qed.
Lemma level_bound : forall p l, level_after p l -> exists name, nth_error names l = Some name.
Proof. intros p l [N|a b name l' E K N]; [exists (str "info"); reflexivity|eauto]. Qed.
Lemma line_of_model : forall f t, (stream_of f, prefix f ++ t ++ suffix f) = line_of f t.
Proof. intros [] t; try reflexivity. cbn. rewrite app_nil_r. reflexivity. Qed.
Lemma enabled_severity : forall f l, enabled f l = (severity f <=? l).
Proof. intros [] l; reflexivity. Qed.
Lemma vsprintf_s : forall a name, ~ In PERCENT a -> vsprintf (a ++ str "%s") [AStr name] = Ok (a ++ name).
Proof.
  induction a as [|c a IH]; intros name H; [cbn; rewrite app_nil_r; reflexivity|]. cbn [app vsprintf]. destruct (Ascii.eqb_spec c PERCENT) as [->|_]; [exfalso; apply H; left; reflexivity|].
  cbn [negb]. rewrite IH by (intros I; apply H; right; exact I). reflexivity.
Qed.
Lemma no_percent : forall c, existsb (Ascii.eqb PERCENT) c = false -> ~ In PERCENT c.
Proof. intros c H I. assert (T : existsb (Ascii.eqb PERCENT) c = true) by (apply existsb_exists; exists PERCENT; split; [exact I|apply Ascii.eqb_refl]). congruence. Qed.
Lemma warned_text : forall name, vsprintf warned [AStr name] = Ok (str "coco_set_log_level(): unknown level " ++ name).
Proof. intros name. change warned with (str "coco_set_log_level(): unknown level " ++ str "%s"). apply vsprintf_s, no_percent. reflexivity. Qed.
Lemma vsprintf_plain : forall t, ~ In PERCENT t -> vsprintf t [] = Ok t.
Proof.
  induction t as [|c t IH]; intros H; [reflexivity|]. cbn [vsprintf]. destruct (Ascii.eqb_spec c PERCENT) as [->|_]; [exfalso; apply H; left; reflexivity|].
  cbn [negb]. rewrite IH by (intros I; apply H; right; exact I). reflexivity.
Qed.
Lemma c_step : forall p e s l, level_after p l -> coco_log_level s = l -> exited s = false -> well_formed e -> no_error e ->
  exists o s', step C e s = Ok s' /\ written s' = written s ++ o /\ shows p e o /\ level_after (p ++ [e]) (coco_log_level s') /\ exited s' = false.
Proof.
  intros p e s l L E X W N. destruct (level_bound p l L) as [old O]. destruct e as [name|f fmt args]; cbn [step].
  - rewrite (set_level C name s l old E O). unfold changed. destruct (in_dec (list_eq_dec ascii_dec) name names) as [I|I].
    + cbn [bind]. destruct (known_level name I) as [k K]. exists [], (mk_state k (written s) (exited s)). rewrite (level_of name k K).
      split; [reflexivity|]. split; [cbn; rewrite app_nil_r; reflexivity|]. split; [apply shows_level; left; exact I|]. split; [apply level_after_snoc_set; exact K|exact X].
    + assert (LA : level_after (p ++ [Level name]) l) by (apply level_after_snoc; [intros o' E'; injection E' as <-; exact I|exact L]).
      destruct (list_eq_dec ascii_dec name []) as [->|Z].
      * exists [], s. cbn [bind]. split; [reflexivity|]. split; [rewrite app_nil_r; reflexivity|]. split; [apply shows_level; right; reflexivity|]. rewrite E. split; [exact LA|exact X].
      * unfold call. cbn [enabled]. rewrite E. destruct (Nat.leb_spec COCO_WARNING l) as [G|G].
        -- unfold message. rewrite warned_text. cbn [bind]. eexists. eexists. split; [reflexivity|]. split; [cbn [written]; reflexivity|].
           split; [|split; [exact LA|reflexivity]]. cbn [stream_of prefix suffix]. rewrite !app_assoc. change (str "COCO WARNING: " ++ str "coco_set_log_level(): unknown level ") with (str "COCO WARNING: coco_set_log_level(): unknown level ").
           rewrite <- app_assoc. apply (shows_unknown p name l); assumption.
        -- exists [], s. cbn [bind]. split; [reflexivity|]. split; [rewrite app_nil_r; reflexivity|]. rewrite E. split; [|split; [exact LA|exact X]].
           apply shows_unknown_none; [exact I|exact Z|]. unfold COCO_WARNING in G. replace l with 0 in L by lia. exact L.
  - assert (LA : level_after (p ++ [Say f fmt args]) l) by (apply level_after_snoc; [discriminate|exact L]).
    destruct W as [t W]. unfold call. rewrite enabled_severity, E. destruct (Nat.leb_spec (severity f) l) as [G|G].
    + unfold message. rewrite W. cbn [bind]. eexists. eexists. split; [reflexivity|]. split; [cbn [written]; reflexivity|].
      split; [rewrite line_of_model; apply (shows_message p f fmt args l t); assumption|]. split; [exact LA|]. destruct f; [contradiction|reflexivity..].
    + exists [], s. split; [reflexivity|]. split; [rewrite app_nil_r; reflexivity|]. split; [apply (shows_none p f fmt args l); assumption|]. rewrite E. split; [exact LA|exact X].
Qed.
Lemma run_app : forall r a b s, run r (a ++ b) s = do s' <- run r a s; run r b s'.
Proof.
  induction a as [|e a IH]; intros b s; [reflexivity|]. cbn [app run]. destruct (exited s) eqn:X; [cbn [bind]; destruct b; cbn [run]; rewrite ?X; reflexivity|].
  destruct (step r e s); cbn [bind]; [apply IH|reflexivity|reflexivity].
Qed.
(** For every sequence of messages and changes of the level, without coco_error: each call shows what it should, in the order of the calls, nothing
    else is written, and the level is the last one that was set. *)
Theorem C95_c : forall p, Forall well_formed p -> Forall no_error p ->
  exists s shown, run C p start = Ok s /\ written s = List.concat shown /\ length shown = length p /\
    (forall k e, nth_error p k = Some e -> exists o, nth_error shown k = Some o /\ shows (firstn k p) e o) /\
    level_after p (coco_log_level s) /\ exited s = false.
Proof.
  intros p. induction p as [|e p IH] using rev_ind; intros W N.
  - exists start, []. repeat split; try reflexivity. + intros [|k] e E; discriminate E. + apply never_set. intros name [].
  - apply Forall_app in W as [W1 W2]. apply Forall_app in N as [N1 N2]. inversion W2; subst. inversion N2; subst.
    destruct (IH W1 N1) as (s & shown & R & E & L & S & LA & X). destruct (c_step p e s (coco_log_level s) LA eq_refl X) as (o & s' & T & E' & S' & LA' & X'); [assumption..|].
    exists s', (shown ++ [o]). split; [rewrite run_app, R; cbn [bind run]; rewrite X, T; reflexivity|]. split; [rewrite E', E, List.concat_app; cbn; rewrite app_nil_r; reflexivity|].
    split; [rewrite !app_length, L; reflexivity|]. split; [|split; [exact LA'|exact X']]. intros k e' K.
    destruct (Nat.lt_trichotomy k (length p)) as [B|[->|B]].
    + rewrite nth_error_app1 in K by exact B. destruct (S k e' K) as (o' & O1 & O2). exists o'. rewrite nth_error_app1 by lia. split; [exact O1|].
      rewrite firstn_app. replace (k - length p) with 0 by lia. rewrite app_nil_r. exact O2.
    + rewrite nth_error_app2, Nat.sub_diag in K by lia. injection K as <-. exists o. rewrite nth_error_app2, L, Nat.sub_diag by lia. split; [reflexivity|].
      rewrite firstn_app, firstn_all, Nat.sub_diag, app_nil_r. exact S'.
    + exfalso. assert (K2 : nth_error (p ++ [e]) k <> None) by (rewrite K; discriminate). apply nth_error_Some in K2. rewrite app_length in K2. cbn in K2. lia.
Qed.
(** coco_error shows its message on every level and is the last thing that happens. *)
Theorem C95_error : forall p fmt args t q s, Forall well_formed p -> Forall no_error p -> vsprintf fmt args = Ok t ->
  run C p start = Ok s -> exists s', run C (p ++ Say coco_error fmt args :: q) start = Ok s' /\
    written s' = written s ++ [line_of coco_error t] /\ exited s' = true.
Proof.
  intros p fmt args t q s W N V R. destruct (C95_c p W N) as (s1 & shown & R1 & _ & _ & _ & _ & X). rewrite R in R1. injection R1 as <-.
  rewrite run_app, R. cbn [bind run]. rewrite X. cbn [step]. unfold call. cbn [enabled]. unfold message. rewrite V. cbn [bind].
  eexists. split; [destruct q; reflexivity|]. split; reflexivity.
Qed.
(** coco_set_log_level returns the name of the level before, and giving that back restores the level, whatever was given in between. *)
Theorem C95_previous : forall p s new, Forall well_formed p -> Forall no_error p -> run C p start = Ok s ->
  exists l old s' s'', level_after p l /\ nth_error names l = Some old /\ coco_set_log_level C new s = Ok (old, s') /\
    (forall k, nth_error names k = Some new -> coco_log_level s' = k) /\ (~ known new -> coco_log_level s' = l) /\
    (exists ret, coco_set_log_level C old s' = Ok (ret, s'')) /\ coco_log_level s'' = l.
Proof.
  intros p s new W N R. destruct (C95_c p W N) as (s1 & shown & R1 & _ & _ & _ & LA & X). rewrite R in R1. injection R1 as <-.
  set (l := coco_log_level s) in *. destruct (level_bound p l LA) as [old O].
  assert (CH : forall name x, exists y, changed C name x = Ok y /\ (forall k, nth_error names k = Some name -> coco_log_level y = k) /\ (~ known name -> coco_log_level y = coco_log_level x)).
  { intros name x. unfold changed. destruct (in_dec (list_eq_dec ascii_dec) name names) as [I|I].
    - eexists. split; [reflexivity|]. split; [intros k K; apply level_of; exact K|intros H; contradiction].
    - assert (NK : forall k, nth_error names k <> Some name) by (intros k K; apply I; eapply nth_error_In; exact K).
      destruct (list_eq_dec ascii_dec name []); [eexists; split; [reflexivity|]; split; [intros k K; destruct (NK k K)|reflexivity]|].
      unfold call. destruct (enabled coco_warning (coco_log_level x)); [|eexists; split; [reflexivity|]; split; [intros k K; destruct (NK k K)|reflexivity]].
      unfold message. rewrite warned_text. cbn [bind]. eexists. split; [reflexivity|]. split; [intros k K; destruct (NK k K)|reflexivity]. }
  destruct (CH new s) as (s' & C1 & C2 & C3). destruct (CH old s') as (s'' & D1 & D2 & _).
  exists l, old, s', s''. split; [exact LA|]. split; [exact O|]. split; [rewrite (set_level C new s l old eq_refl O), C1; reflexivity|].
  split; [exact C2|]. split; [exact C3|]. split; [|apply D2; exact O].
  assert (B : exists o, nth_error names (coco_log_level s') = Some o).
  { destruct (in_dec (list_eq_dec ascii_dec) new names) as [I|I]; [destruct (known_level new I) as [k K]; rewrite (C2 k K); eauto|rewrite (C3 I); eauto]. }
  destruct B as [o B]. exists o. rewrite (set_level C old s' _ o eq_refl B), D1. reflexivity.
Qed.
(** The MATLAB runtime shows the same text if no message is too long or has a percent sign. *)
Theorem C95_matlab : forall p s, Forall plain p -> run C p start = Ok s ->
  exists s', run Matlab p start = Ok s' /\ map snd (written s') = map snd (written s) /\ coco_log_level s' = coco_log_level s /\ exited s' = exited s.
Proof.
  assert (CALL : forall f fmt args t s s1 x, vsprintf fmt args = Ok t -> length t < 500 -> ~ In PERCENT t -> map snd (written s1) = map snd (written s) ->
            coco_log_level s1 = coco_log_level s -> exited s1 = exited s -> call C f fmt args s = Ok x ->
            exists y, call Matlab f fmt args s1 = Ok y /\ map snd (written y) = map snd (written x) /\ coco_log_level y = coco_log_level x /\ exited y = exited x).
  { intros f fmt args t s s1 x V L P E1 E2 E3 H. unfold call in *. rewrite E2. destruct (enabled f (coco_log_level s)).
    - unfold message in *. rewrite V in *. cbn [bind] in *. injection H as <-. destruct (Nat.leb_spec 500 (length t)); [lia|]. rewrite vsprintf_plain by exact P. cbn [bind].
      eexists. split; [reflexivity|]. cbn [written coco_log_level exited]. rewrite !map_app, E1. auto.
    - injection H as <-. exists s1. auto. }
  enough (G : forall p s s1 x, Forall plain p -> map snd (written s1) = map snd (written s) -> coco_log_level s1 = coco_log_level s -> exited s1 = exited s ->
            (exists old, nth_error names (coco_log_level s) = Some old) -> run C p s = Ok x ->
            exists y, run Matlab p s1 = Ok y /\ map snd (written y) = map snd (written x) /\ coco_log_level y = coco_log_level x /\ exited y = exited x).
  { intros p s P R. apply (G p start start s P); try reflexivity; [exists (str "info"); reflexivity|exact R]. }
  induction p as [|e p IH]; intros s s1 x P E1 E2 E3 [old O] R; cbn [run] in *.
  - injection R as <-. exists s1. auto.
  - pose proof E3 as E3'. rewrite E3. destruct (exited s) eqn:X; [injection R as <-; exists s1; repeat split; congruence|]. inversion P as [|a b P1 P2 Q]; subst.
    destruct (step C e s) as [z| |] eqn:ST; cbn [bind] in R; try discriminate R. clear E3'. assert (E4 : exited s1 = exited s) by congruence. clear E3. rename E4 into E3.
    assert (K : exists z1, step Matlab e s1 = Ok z1 /\ map snd (written z1) = map snd (written z) /\ coco_log_level z1 = coco_log_level z /\ exited z1 = exited z /\
                (exists old, nth_error names (coco_log_level z) = Some old)).
    { destruct e as [name|f fmt args]; cbn [step plain] in *.
      - rewrite (set_level C name s _ old eq_refl O) in ST. rewrite (set_level Matlab name s1 _ old E2 O). unfold changed in *.
        destruct (in_dec (list_eq_dec ascii_dec) name names) as [I|I]; cbn [bind] in *.
        + injection ST as <-. eexists. split; [reflexivity|]. cbn [written coco_log_level exited]. split; [exact E1|]. split; [reflexivity|]. split; [congruence|].
          destruct (known_level name I) as [k K]. pose proof (level_of name k K) as LO. cbn in LO. rewrite LO. eauto.
        + destruct (list_eq_dec ascii_dec name []) as [Z|Z]; cbn [bind] in *; [injection ST as <-; exists s1; repeat split; eauto|].
          destruct (call C coco_warning warned [AStr name] s) as [z0| |] eqn:CA; cbn [bind] in ST; try discriminate ST. injection ST as <-.
          destruct (CALL coco_warning warned [AStr name] _ s s1 z0 (warned_text name)) as (y & Y1 & Y2 & Y3 & Y4); try assumption.
          * destruct P1 as [P1 _]. rewrite app_length. change (length (str "coco_set_log_level(): unknown level ")) with 36. lia.
          * intros I2. apply in_app_iff in I2 as [I2|I2]; [revert I2; apply no_percent; reflexivity|destruct P1 as [_ P1]; contradiction].
          * rewrite Y1. cbn [bind]. exists y. repeat split; try assumption. unfold call in CA. destruct (enabled _ _); [|injection CA as <-; eauto].
            unfold message in CA. rewrite warned_text in CA. cbn [bind] in CA. injection CA as <-. cbn. eauto.
      - destruct P1 as (t & V & L & NP). destruct (CALL f fmt args t s s1 z V L NP E1 E2 E3 ST) as (y & Y1 & Y2 & Y3 & Y4). exists y. repeat split; try assumption.
        unfold call in ST. destruct (enabled _ _); [|injection ST as <-; eauto]. unfold message in ST. rewrite V in ST. cbn [bind] in ST. injection ST as <-. cbn. eauto. }
    destruct K as (z1 & K1 & K2 & K3 & K4 & K5). rewrite K1. cbn [bind]. apply (IH z z1 x); assumption.
Qed.
(** Deviations in MATLAB: each message of 500 characters or more is written beyond its buffer, *)
Theorem C95_long_refuted : forall name, 464 <= length name ->
  coco_set_log_level Matlab name start = UB /\ exists s, coco_set_log_level C name start = Ok (str "info", s) /\ coco_log_level s = coco_log_level start.
Proof.
  intros name L. assert (I : ~ In name names). { intros [<-|[<-|[<-|[<-|[]]]]]; cbn in L; lia. }
  assert (Z : name <> []) by (intros ->; cbn in L; lia).
  rewrite (set_level Matlab name start 2 (str "info") eq_refl eq_refl), (set_level C name start 2 (str "info") eq_refl eq_refl). unfold changed.
  destruct (in_dec (list_eq_dec ascii_dec) name names); [contradiction|]. destruct (list_eq_dec ascii_dec name []); [contradiction|].
  unfold call. cbn [enabled start coco_log_level]. change (COCO_WARNING <=? COCO_INFO) with true. cbv iota. unfold message. rewrite warned_text. cbn [bind]. split.
  - destruct (Nat.leb_spec 500 (length (str "coco_set_log_level(): unknown level " ++ name))) as [_|G]; [reflexivity|].
    exfalso. rewrite app_length in G. change (length (str "coco_set_log_level(): unknown level ")) with 36 in G. lia.
  - eexists. split; reflexivity.
Qed.
(** also the one that names the folder of the results; *)
Theorem C95_folder_refuted : forall path s, 467 <= length path -> COCO_INFO <= coco_log_level s ->
  call Matlab coco_info (str "Results will be output to folder %s") [AStr path] s = UB.
Proof.
  intros path s L G. unfold call. cbn [enabled]. destruct (Nat.leb_spec COCO_INFO (coco_log_level s)); [|lia]. unfold message.
  change (str "Results will be output to folder %s") with (str "Results will be output to folder " ++ str "%s"). rewrite vsprintf_s by (apply no_percent; reflexivity). cbn [bind].
  destruct (Nat.leb_spec 500 (length (str "Results will be output to folder " ++ path))) as [_|K]; [reflexivity|].
  exfalso. rewrite app_length in K. change (length (str "Results will be output to folder ")) with 33 in K. lia.
Qed.
(** a message is expanded twice: a percent sign in a name of the user is taken for a conversion. *)
Theorem C95_percent_refuted : exists path, call Matlab coco_info (str "Results will be output to folder %s") [AStr path] start = UB /\
  exists p2 s, call Matlab coco_info (str "Results will be output to folder %s") [AStr p2] start = Ok s /\
    call C coco_info (str "Results will be output to folder %s") [AStr p2] start <> Ok s /\
    map snd (written s) = [str "COCO INFO: Results will be output to folder 50%" ++ ["010"%char]] /\ p2 = str "50%%".
Proof.
  exists (str "exdata/50%s"). split; [reflexivity|]. exists (str "50%%"). eexists. split; [vm_compute; reflexivity|]. split; [vm_compute; discriminate|]. split; reflexivity.
Qed.
Example C95_example : let p := [Say coco_debug (str "not shown") []; Level (str "Debug"); Say coco_info (str "f%lu") [ANum 7]; Level (str "error"); Level (str "x");
    Say coco_warning (str "no") []; Level (str "debug"); Level []; Say coco_debug (str "%s") [AStr (str "yes")]] in
  Forall well_formed p /\ Forall no_error p /\ Forall plain p /\
  match run C p start with
  | Ok s => written s = [(StdErr, str "COCO WARNING: coco_set_log_level(): unknown level Debug" ++ ["010"%char]); (StdOut, str "COCO INFO: f7" ++ ["010"%char]);
                         (StdOut, str "COCO DEBUG: yes" ++ ["010"%char])]
  | _ => False
  end.
Proof.
  split; [repeat (constructor; try (eexists; vm_compute; reflexivity))|]. split; [repeat constructor|]. split; [|reflexivity].
  repeat constructor; try (apply no_percent; reflexivity); try (cbn; lia); (eexists; split; [vm_compute; reflexivity|]; split; [cbn; lia|apply no_percent; reflexivity]).
Qed.

Print Assumptions C95_c.
Print Assumptions C95_error.
Print Assumptions C95_previous.
Print Assumptions C95_matlab.
Print Assumptions C95_long_refuted.
Print Assumptions C95_folder_refuted.
Print Assumptions C95_percent_refuted.
