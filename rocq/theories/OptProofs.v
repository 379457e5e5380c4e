(** Proofs about option strings. *)
From Coq Require Import List Arith NArith ZArith Ascii String Bool Lia.
From Coq Require Import ZifyBool ZifyNat ZifyN.
From Verif Require Import CBase StrModel StrSpec StrProofs OptModel OptSpec.
Import ListNotations.

Lemma occurs_at_length : forall s t i, occurs_at s t i -> i + List.length t <= List.length s.
Proof. intros s t i (p & q & -> & <-). rewrite !app_length. lia. Qed.

Lemma first_occurrence_unique : forall s t i j,
  first_occurrence s t i -> first_occurrence s t j -> i = j.
Proof. intros s t i j [A B] [C D]. apply B in C. apply D in A. lia. Qed.

Lemma strfind_at : forall s t i, t <> [] -> small s -> first_occurrence s t i ->
  coco_strfind s t = Ok (Z.of_nat i).
Proof.
  intros s t i Hne Hs H. destruct (strfind_correct s t Hne) as [(j & Hj & E)|[Hn _]].
  - rewrite E. pose proof (first_occurrence_unique _ _ _ _ H Hj) as <-.
    pose proof (occurs_at_length _ _ _ (proj1 H)). unfold small in Hs.
    replace (1000000000 <? N.of_nat i)%N with false by lia. reflexivity.
  - exfalso. eapply Hn. apply H.
Qed.

Lemma strfind_absent : forall s t, t <> [] -> absent s t -> coco_strfind s t = Ok (-1)%Z.
Proof.
  intros s t Hne H. destruct (strfind_correct s t Hne) as [(j & Hj & E)|[_ E]]; auto.
  exfalso. eapply H. apply Hj.
Qed.

Lemma small_skipn : forall s i, small s -> small (skipn i s).
Proof. intros s i H. unfold small in *. rewrite skipn_length. lia. Qed.

Lemma occurs_at_char : forall s c, (exists i, occurs_at s [c] i) <-> In c s.
Proof.
  intros. split.
  - intros (i & p & q & -> & _). apply in_app_iff. right. left. auto.
  - intros H. apply in_split in H as (p & q & ->). exists (List.length p), p, q. auto.
Qed.

(** [locate] in the three situations. *)
Lemma locate_absent : forall options name, name <> [] -> absent options name ->
  locate options name = Ok None.
Proof.
  intros options name Hne H. unfold locate. destruct options; auto.
  rewrite strfind_absent by auto. reflexivity.
Qed.

Lemma locate_found : forall options name i c, name <> [] -> small options ->
  first_occurrence options name i -> first_occurrence (skipn i options) [":"%char] c ->
  locate options name = Ok (Some (i, i + c + 1)).
Proof.
  intros options name i c Hne Hs Hi Hc. unfold locate.
  destruct options as [|x o].
  { destruct Hi as [(p & q & E & _) _]. destruct p, name; try discriminate. easy. }
  rewrite (strfind_at _ _ i) by auto. cbn [bind].
  destruct (Z.ltb_spec (Z.of_nat i) 0); [lia|]. rewrite Nat2Z.id.
  change (str ":") with [":"%char].
  rewrite (strfind_at _ _ c) by (auto using small_skipn; easy). cbn [bind].
  do 3 f_equal. lia.
Qed.

Lemma locate_no_colon : forall options name i, name <> [] -> small options ->
  first_occurrence options name i -> ~ In ":"%char (skipn i options) ->
  locate options name = Ok (Some (i, i)).
Proof.
  intros options name i Hne Hs Hi Hc. unfold locate.
  destruct options as [|x o].
  { destruct Hi as [(p & q & E & _) _]. destruct p, name; try discriminate. easy. }
  rewrite (strfind_at _ _ i) by auto. cbn [bind].
  destruct (Z.ltb_spec (Z.of_nat i) 0); [lia|]. rewrite Nat2Z.id.
  change (str ":") with [":"%char].
  rewrite strfind_absent; [|easy|intros j Hj; apply Hc, occurs_at_char; eauto]. cbn [bind].
  do 3 f_equal. lia.
Qed.

(** *** Lists of values *)
Lemma isalpha_isspace : forall c, isalpha c = true -> isspace c = false.
Proof. intros c. unfold isalpha, isspace. lia. Qed.

Lemma values_loop_spec : forall s t, value_list s t -> forall out cap,
  values_loop s out cap =
    if (N.of_nat (List.length t) <? cap)%N then Ok (out ++ t) else UB.
Proof.
  intros s t (u & rest & -> & Hu & Hr & ->). induction Hu as [|c u Hc Hu IH]; intros out cap.
  - cbn [app filter List.length]. destruct Hr as [->|(c & r & -> & Hc)]; cbn [values_loop].
    + rewrite app_nil_r. reflexivity.
    + rewrite Hc, app_nil_r. reflexivity.
  - cbn [app values_loop]. rewrite Hc. cbn [filter]. destruct (isspace c); cbn [negb].
    + apply IH.
    + rewrite IH. cbn [List.length].
      destruct (N.ltb_spec 0 cap).
      * destruct (N.ltb_spec (N.of_nat (List.length (filter (fun c => negb (isspace c)) u))) (cap - 1));
        destruct (N.ltb_spec (N.of_nat (S (List.length (filter (fun c => negb (isspace c)) u)))) cap);
          try lia; auto. rewrite <- app_assoc. reflexivity.
      * destruct (N.ltb_spec (N.of_nat (S (List.length (filter (fun c => negb (isspace c)) u)))) cap); auto. lia.
Qed.

Theorem value_list_exists : forall s, exists t, value_list s t.
Proof.
  induction s as [|c s (t & u & rest & E & Hu & Hr & Ht)].
  - exists [], [], []. repeat split; auto.
  - destruct (isalpha c) eqn:Ha.
    + exists [], [], (c :: s). repeat split; auto. right. eauto.
    + eexists. exists (c :: u), rest. subst. repeat split; auto.
Qed.

Theorem read_values_spec : forall options name v t cap, name <> [] -> small options ->
  named_text options name v -> value_list v t ->
  coco_options_read_values options name cap =
    if (N.of_nat (List.length t) <? cap)%N then Ok (List.length t, Some t) else UB.
Proof.
  intros options name v t cap Hne Hs (i & c & Hi & Hc & ->) Hv.
  unfold coco_options_read_values. rewrite (locate_found _ _ i c) by auto. cbn [bind].
  replace (i + c + 1 <=? i) with false by lia.
  rewrite (values_loop_spec _ t Hv). destruct (_ <? _)%N; reflexivity.
Qed.

Theorem read_values_absent : forall options name cap, name <> [] -> small options ->
  absent options name \/ named_no_colon options name ->
  coco_options_read_values options name cap = Ok (0, None).
Proof.
  intros options name cap Hne Hs [H|(i & Hi & Hc)]; unfold coco_options_read_values.
  - rewrite locate_absent by auto. reflexivity.
  - rewrite (locate_no_colon _ _ i) by auto. cbn [bind]. rewrite Nat.leb_refl. reflexivity.
Qed.

(** Every string falls into one of the three cases. *)
Theorem named_cases : forall options name, name <> [] ->
  absent options name \/ named_no_colon options name \/ exists v, named_text options name v.
Proof.
  intros options name Hne. destruct (strfind_correct options name Hne) as [(i & Hi & _)|[H _]]; auto.
  right. destruct (in_dec ascii_dec ":"%char (skipn i options)) as [H|H].
  - right. destruct (strfind_correct (skipn i options) [":"%char]) as [(c & Hc & _)|[K _]]; [easy| |].
    + eexists. exists i, c. eauto.
    + exfalso. apply occurs_at_char in H as [j Hj]. eapply K; eauto.
  - left. exists i. auto.
Qed.

(** *** Single values *)
Lemma leading_space_app : forall l s, blank l -> leading_space (l ++ s) = List.length l + leading_space s.
Proof. induction 1 as [|c l Hc Hl IH]; cbn; auto. rewrite Hc, IH. reflexivity. Qed.

Lemma leading_space_nonspace : forall c s, isspace c = false -> leading_space (c :: s) = 0.
Proof. intros. cbn. rewrite H. reflexivity. Qed.

Lemma skipn_skipn' : forall A (l : list A) a b, skipn a (skipn b l) = skipn (b + a) l.
Proof.
  intros A l a b. revert l. induction b; intros l; cbn; auto. destruct l; [|apply IHb].
  apply skipn_nil.
Qed.

Lemma value_text_spec : forall options name v l s, name <> [] -> small options ->
  named_text options name v -> v = l ++ s -> blank l -> leading_space s = 0 ->
  value_text options name = Ok (Some s).
Proof.
  intros options name v l s Hne Hs (i & c & Hi & Hc & Ev) El Hl Hsp.
  unfold value_text. rewrite (locate_found _ _ i c) by auto. cbn [bind].
  rewrite <- Ev, El, leading_space_app, Hsp by auto.
  replace (i + c + 1 + (List.length l + 0) <=? i) with false by lia.
  do 2 f_equal. rewrite Nat.add_0_r, <- (skipn_skipn' _ options), <- Ev, El.
  rewrite skipn_app, skipn_all, Nat.sub_diag. reflexivity.
Qed.

Lemma word_spec : forall w rest, Forall (fun c => isspace c = false) w ->
  (rest = [] \/ exists c r, rest = c :: r /\ isspace c = true) -> word (w ++ rest) = w.
Proof.
  induction 1 as [|c w Hc Hw IH]; intros Hr; cbn.
  - destruct Hr as [->|(c & r & -> & Hc)]; auto. cbn. rewrite Hc. reflexivity.
  - rewrite Hc, IH; auto.
Qed.

Lemma until_quote_spec : forall w rest, ~ In """"%char w ->
  (rest = [] \/ exists r, rest = """"%char :: r) -> until_quote (w ++ rest) = w.
Proof.
  induction w as [|c w IH]; intros rest Hw Hr; cbn.
  - destruct Hr as [->|(r & ->)]; auto.
  - destruct (Ascii.eqb_spec c """"%char) as [->|]; [exfalso; apply Hw; left; auto|].
    rewrite IH; auto. intro K. apply Hw. right. auto.
Qed.

Theorem read_string_word : forall options name v w cap, name <> [] -> small options ->
  named_text options name v -> first_word v w -> nth_error w 0 <> Some """"%char ->
  coco_options_read_string options name cap =
    if (N.of_nat (List.length w) <? cap)%N then Ok (1%Z, Some w) else UB.
Proof.
  intros options name v w cap Hne Hs Hv (l & rest & E & Hl & Hw & Fw & Hr) Hq.
  destruct w as [|c w]; [easy|]. inversion Fw as [|? ? Hc Fw']; subst.
  unfold coco_options_read_string.
  rewrite (value_text_spec _ _ _ l ((c :: w) ++ rest) Hne Hs Hv) by (auto; cbn; rewrite Hc; auto).
  cbn [bind app]. cbn in Hq.
  destruct (Ascii.eqb_spec c """"%char) as [->|Hcq]; [congruence|].
  change (c :: w ++ rest) with ((c :: w) ++ rest). rewrite word_spec by (auto; constructor; auto).
  unfold store. destruct (_ <? _)%N; reflexivity.
Qed.

Theorem read_string_quoted : forall options name v w cap, name <> [] -> small options ->
  named_text options name v -> quoted_text v w ->
  coco_options_read_string options name cap =
    if (N.of_nat (List.length w) <? cap)%N then Ok (1%Z, Some w) else UB.
Proof.
  intros options name v w cap Hne Hs Hv (l & rest & E & Hl & Hw & Hq & Hr).
  unfold coco_options_read_string.
  rewrite (value_text_spec _ _ _ l (""""%char :: w ++ rest) Hne Hs Hv) by auto.
  cbn [bind]. rewrite Ascii.eqb_refl. destruct w as [|c w]; [easy|]. cbn [app].
  destruct (Ascii.eqb_spec c """"%char) as [->|Hcq]; [exfalso; apply Hq; left; auto|].
  change (c :: w ++ rest) with ((c :: w) ++ rest). rewrite until_quote_spec by auto.
  unfold store. destruct (_ <? _)%N; reflexivity.
Qed.

(** A name without a value: the reading function reports success (non-zero) but stores nothing. *)
Theorem read_string_no_value : forall options name v cap, name <> [] -> small options ->
  named_text options name v -> blank v ->
  coco_options_read_string options name cap = Ok ((-1)%Z, None).
Proof.
  intros options name v cap Hne Hs Hv Hb. unfold coco_options_read_string.
  rewrite (value_text_spec _ _ _ v [] Hne Hs Hv) by (auto; rewrite app_nil_r; auto). reflexivity.
Qed.

Theorem read_string_absent : forall options name cap, name <> [] -> small options ->
  (forall c r, name = c :: r -> isspace c = false) ->
  absent options name \/ named_no_colon options name ->
  coco_options_read_string options name cap = Ok (0%Z, None).
Proof.
  intros options name cap Hne Hs Hsp [H|(i & Hi & Hc)]; unfold coco_options_read_string, value_text.
  - rewrite locate_absent by auto. reflexivity.
  - rewrite (locate_no_colon _ _ i) by auto. cbn [bind].
    destruct Hi as [(p & q & E & Hp) _]. subst i.
    destruct name as [|c name]; [easy|]. specialize (Hsp c name eq_refl).
    rewrite E at 1. rewrite skipn_app, skipn_all, Nat.sub_diag. cbn [app skipn].
    rewrite leading_space_nonspace by auto. rewrite Nat.add_0_r, Nat.leb_refl. reflexivity.
Qed.

(** *** Well formed option strings *)

(** An occurrence cannot straddle a character that is not part of the name. *)
Lemma occurs_split : forall a d b name i, ~ In d name -> name <> [] ->
  occurs_at (a ++ d :: b) name i ->
  occurs_at a name i \/ (List.length a < i /\ occurs_at b name (i - List.length a - 1)).
Proof.
  intros a d b name i Hd Hne (p & q & E & Hp).
  destruct (Nat.lt_ge_cases (List.length a) (List.length p)) as [H|H].
  - right. split; [lia|]. 
    assert (E': exists p', p = a ++ d :: p').
    { clear - E H. revert p E H. induction a as [|x a IH]; intros [|y p] E H; cbn in *; try lia.
      - injection E as <- _. eauto.
      - injection E as <- E. destruct (IH p E) as [p' ->]; [lia|]. exists p'. reflexivity. }
    destruct E' as [p' ->]. rewrite <- app_assoc in E. apply app_inv_head in E. cbn in E.
    injection E as E. exists p', q. split; auto. rewrite app_length in Hp. cbn in Hp. lia.
  - left. assert (E': exists a', a = p ++ a').
    { clear - E H. revert a E H. induction p as [|y p IH]; intros [|x a] E H; cbn in *; try lia.
      - exists []. auto.
      - exists (x :: a). auto.
      - injection E as <- E. destruct (IH a E) as [a' ->]; [lia|]. exists a'. reflexivity. }
    destruct E' as [a' ->]. rewrite <- app_assoc in E. apply app_inv_head in E.
    clear H. revert a' E. induction name as [|x name IH]; intros a' E; [easy|].
    destruct a' as [|y a']; cbn in E.
    + injection E as E _. exfalso. apply Hd. left. auto.
    + injection E as -> E. destruct name as [|x' name].
      * exists p, a'. split; auto.
      * destruct (IH) with (a' := a') as (p2 & q2 & E2 & Hp2); auto; try easy.
        { intro K. apply Hd. right. auto. }
        assert (Ea: a' = (x' :: name) ++ q2).
        { assert (L: List.length p2 = List.length p) by lia.
          revert E2 L. clear. revert p2. induction p as [|z p IH]; intros [|z2 p2] E2 L; cbn in *; try lia; auto.
          injection E2 as <- E2. apply (IH p2); auto. }
        rewrite Ea. exists p, q2. split; auto.
Qed.

Lemma absent_app : forall a d b name, ~ In d name -> name <> [] ->
  absent a name -> absent b name -> absent (a ++ d :: b) name.
Proof.
  intros a d b name Hd Hne Ha Hb i Hi. apply occurs_split in Hi as [Hi|[_ Hi]]; auto.
  - eapply Ha; eauto.
  - eapply Hb; eauto.
Qed.

Lemma absent_nil : forall name, name <> [] -> absent [] name.
Proof.
  intros name Hne i (p & q & E & _). destruct p, name; try discriminate. easy.
Qed.

Lemma key_like_space : forall k, key_like k -> ~ In " "%char k.
Proof.
  intros k (_ & _ & F) H. rewrite Forall_forall in F. apply F in H. discriminate.
Qed.

Lemma absent_prefix : forall a b name, absent (a ++ b) name -> absent a name.
Proof.
  intros a b name H i (p & q & -> & Hp). apply (H i). exists p, (q ++ b).
  rewrite <- !app_assoc. auto.
Qed.

Lemma written_absent : forall l name, key_like name ->
  Forall (fun e => absent (fst e) name /\ absent (snd e) name /\ ends_with_space (snd e)) l ->
  forall rest, absent rest name -> absent (written l ++ rest) name.
Proof.
  intros l name Hk F rest Hr. induction F as [|[k v] l (A & B & v' & Ev) F IH]; cbn [written app]; auto.
  cbn [fst snd] in *. subst v. rewrite <- app_assoc. cbn [app].
  apply absent_app; try apply Hk; auto. rewrite <- !app_assoc. cbn [app].
  apply absent_app; auto using key_like_space; [apply Hk|]. eapply absent_prefix; eauto.
Qed.

Lemma first_occurrence_after : forall pre d name q, ~ In d name -> name <> [] -> absent pre name ->
  first_occurrence (pre ++ d :: name ++ q) name (List.length pre + 1).
Proof.
  intros pre d name q Hd Hne Ha. split.
  - exists (pre ++ [d]), q. split; [rewrite <- app_assoc; reflexivity|].
    rewrite app_length. cbn. lia.
  - intros j Hj. apply occurs_split in Hj as [Hj|[Hj _]]; auto; [|lia].
    exfalso. eapply Ha; eauto.
Qed.

Lemma first_colon : forall name v, ~ In ":"%char name ->
  first_occurrence (name ++ ":"%char :: v) [":"%char] (List.length name).
Proof.
  intros name v H. split.
  - exists name, v. auto.
  - intros j (p & q & E & Hp). destruct (Nat.lt_ge_cases j (List.length name)) as [L|L]; auto.
    exfalso. apply H. assert (K: nth_error (name ++ ":"%char :: v) j = Some ":"%char).
    { rewrite E, <- Hp, nth_error_app2, Nat.sub_diag by lia. reflexivity. }
    rewrite nth_error_app1 in K by auto. apply nth_error_In in K. auto.
Qed.

Lemma written_app : forall l1 l2, written (l1 ++ l2) = written l1 ++ written l2.
Proof.
  induction l1 as [|[k v] l1 IH]; intros l2; cbn [app written]; auto.
  rewrite IH, <- !app_assoc. cbn [app]. rewrite <- !app_assoc. reflexivity.
Qed.

Lemma separated_before : forall l1 e l2, separated (l1 ++ e :: l2) ->
  Forall (fun e => ends_with_space (snd e)) l1.
Proof.
  induction l1 as [|[k v] l1 IH]; intros e l2 H; auto. cbn [app separated] in H. destruct H as [H1 H2].
  constructor; [apply H1; destruct l1; discriminate|]. eapply IH; eauto.
Qed.

Lemma written_ends : forall l, l <> [] -> Forall (fun e => ends_with_space (snd e)) l ->
  ends_with_space (written l).
Proof.
  induction l as [|[k v] l IH]; intros Hn F; [easy|]. inversion F as [|? ? (v' & Ev) F']; subst.
  cbn [snd] in Ev. subst v. cbn [written]. destruct l as [|e l].
  - exists (k ++ ":"%char :: v'). cbn [written]. rewrite app_nil_r, <- app_assoc. reflexivity.
  - destruct (IH ltac:(discriminate) F') as (w & Ew). rewrite Ew.
    exists (k ++ ":"%char :: (v' ++ [" "%char]) ++ w).
    rewrite <- !app_assoc. cbn [app]. rewrite <- !app_assoc. reflexivity.
Qed.

(** The text written for a key is the text found for it, provided the key does not occur inside
    an earlier key or text. *)
Theorem written_value_found : forall l1 k v l2, key_like k -> separated (l1 ++ (k, v) :: l2) ->
  Forall (fun e => absent (fst e) k /\ absent (snd e) k) l1 ->
  named_text (written (l1 ++ (k, v) :: l2)) k (v ++ written l2).
Proof.
  intros l1 k v l2 Hk Hsep F. pose proof Hk as (Hne & Hcol & _).
  pose proof (key_like_space k Hk) as Hsp.
  pose proof (separated_before _ _ _ Hsep) as Fs.
  assert (Hw: exists i, first_occurrence (written (l1 ++ (k, v) :: l2)) k i /\
    skipn i (written (l1 ++ (k, v) :: l2)) = k ++ ":"%char :: v ++ written l2).
  { rewrite written_app. cbn [written]. destruct l1 as [|e l1].
    - exists 0. cbn [app written skipn]. split; auto. split; [|intros; lia].
      eexists [], _. split; reflexivity.
    - assert (A: absent (written (e :: l1)) k).
      { rewrite <- (app_nil_r (written (e :: l1))). apply written_absent; auto; [|now apply absent_nil].
        rewrite Forall_forall in *. intros x Hx. destruct (F x Hx). auto. }
      destruct (written_ends (e :: l1) ltac:(discriminate) Fs) as (w & Ew). rewrite Ew in *.
      rewrite <- !app_assoc. cbn [app]. exists (List.length w + 1). split.
      + apply first_occurrence_after; auto. eapply absent_prefix; eauto.
      + rewrite skipn_app, skipn_all2 by lia.
        replace (List.length w + 1 - List.length w) with 1 by lia. reflexivity. }
  destruct Hw as (i & Hi & Es). exists i, (List.length k). split; [|split]; auto.
  - rewrite Es. apply first_colon. auto.
  - rewrite <- Nat.add_assoc, <- (skipn_skipn' _ _ (List.length k + 1)), Es.
    rewrite skipn_app, skipn_all2 by lia.
    replace (List.length k + 1 - List.length k) with 1 by lia. reflexivity.
Qed.

(** ** Keys *)
Lemma tame_app : forall a b, tame (a ++ b) <-> tame a /\ tame b.
Proof. intros. apply Forall_app. Qed.

Lemma tame_no_nul : forall s, tame s -> no_nul s.
Proof. intros s H K. unfold tame in H. rewrite Forall_forall in H. apply H in K. easy. Qed.

Lemma after_last_space_none : forall k, ~ In " "%char k -> after_last_space k = None.
Proof.
  induction k as [|c k IH]; intros H; cbn; auto. rewrite IH by (intro; apply H; right; auto).
  destruct (Ascii.eqb_spec c SPACE) as [->|]; auto. exfalso. apply H. left. auto.
Qed.

Lemma after_last_space_app : forall x k, ~ In " "%char k -> after_last_space (x ++ " "%char :: k) = Some k.
Proof.
  induction x as [|c x IH]; intros k H; cbn [app after_last_space].
  - rewrite after_last_space_none by auto. reflexivity.
  - rewrite IH; auto.
Qed.

(** The text between two colons gives back the second key. *)
Lemma trim_nonblank : forall s, tame s -> ~ blank s -> exists l c m r, s = l ++ (c :: m) ++ r /\
  blank l /\ blank r /\ isspace c = false /\ trimmed (c :: m) /\ coco_string_trim s = Ok (c :: m).
Proof.
  intros s Ht Hb. destruct (trim_decomposition_exists s Hb) as (l & c & m & r & E & Hl & Hr & Hc & Htr).
  exists l, c, m, r. repeat split; auto; try apply Htr. subst s.
  rewrite trim_general; auto; [|apply tame_no_nul; auto].
  apply tame_app in Ht as [_ Ht]. inversion Ht as [|? ? (_ & _ & _ & Hh)]; subst. rewrite Hh. reflexivity.
Qed.

Lemma trim_safe : forall s, tame s -> exists t, coco_string_trim s = Ok t.
Proof.
  intros s Ht. destruct (forallb isspace s) eqn:E.
  - exists []. apply trim_blank. apply Forall_forall. rewrite forallb_forall in E. auto.
  - destruct (trim_nonblank s Ht) as (l & c & m & r & _ & _ & _ & _ & _ & K); eauto.
    intros H. unfold blank in H. rewrite Forall_forall in H. rewrite <- forallb_forall in H. congruence.
Qed.

Lemma key_like_trimmed : forall k, key_like k -> trimmed k.
Proof.
  intros k (_ & _ & F). rewrite Forall_forall in F. split.
  - intros c r ->. apply F. left. auto.
  - intros l c ->. apply F. apply in_app_iff. right. left. auto.
Qed.

Lemma chunk_key : forall v k, key_like k -> tame v -> tame k -> ends_with_space v ->
  exists t, coco_string_trim (v ++ k) = Ok t /\
    match after_last_space t with Some r => r | None => t end = k.
Proof.
  intros v k Hk Hv Htk (v' & ->). pose proof (key_like_space k Hk) as Hsp.
  pose proof (key_like_trimmed k Hk) as [Ht1 Ht2].
  pose proof Hk as (Hne & _ & F). destruct k as [|c k]; [easy|].
  inversion F as [|? ? Hc F']; subst.
  assert (Hhi: high_char c = false) by (inversion Htk as [|? ? (_ & _ & _ & K)]; auto).
  destruct (forallb isspace (v' ++ [" "%char])) eqn:E.
  - exists (c :: k). split.
    + rewrite <- (app_nil_r (c :: k)) at 1. rewrite trim_general; auto.
      * rewrite Hhi. reflexivity.
      * rewrite app_nil_r. apply tame_no_nul, tame_app. auto.
      * apply Forall_forall. rewrite forallb_forall in E. auto.
      * constructor.
      * split; auto.
    + rewrite after_last_space_none by auto. reflexivity.
  - destruct (trim_decomposition_exists (v' ++ [" "%char])) as (l & c' & m & r & Ed & Hl & Hr & Hc' & Htr).
    { intros H. unfold blank in H. rewrite Forall_forall in H. rewrite <- forallb_forall in H. congruence. }
    exists ((c' :: m) ++ r ++ c :: k). 
    assert (Er: exists r', r = r' ++ [" "%char]).
    { destruct r as [|x r] using rev_ind.
      - exfalso. rewrite app_nil_r in Ed. destruct Htr as [_ Htr].
        destruct (@exists_last _ (c' :: m)) as (m' & z & Ez); [discriminate|].
        rewrite Ez in Ed. rewrite app_assoc in Ed. apply app_inj_tail in Ed as [_ <-].
        specialize (Htr m' " "%char Ez). discriminate.
      - exists r. rewrite !app_assoc in Ed. apply app_inj_tail in Ed as [_ <-]. reflexivity. }
    split.
    + rewrite Ed. rewrite <- !app_assoc. cbn [app].
      change (c' :: m ++ r ++ c :: k) with ((c' :: (m ++ r ++ c :: k))).
      rewrite <- (app_nil_r (c' :: m ++ r ++ c :: k)) at 1.
      rewrite trim_general; auto.
      * assert (Hh: high_char c' = false).
        { rewrite Ed in Hv. apply tame_app in Hv as [_ Hv]. inversion Hv as [|? ? (_ & _ & _ & K)]; auto. }
        rewrite Hh. reflexivity.
      * rewrite app_nil_r. apply tame_no_nul.
        assert (K: tame ((l ++ (c' :: m) ++ r) ++ c :: k)) by (apply tame_app; rewrite <- Ed; auto).
        rewrite <- !app_assoc in K. exact K.
      * constructor.
      * split.
        -- intros c0 r0 E0. injection E0 as <- _. auto.
        -- intros l0 c0 E0. destruct (@exists_last _ (c :: k)) as (k' & z & Ez); [discriminate|].
           rewrite Ez in E0. change (c' :: m ++ r ++ k' ++ [z]) with ((c' :: m) ++ r ++ k' ++ [z]) in E0.
           rewrite !app_assoc in E0. apply app_inj_tail in E0 as [_ <-]. eapply Ht2; eauto.
    + destruct Er as (r' & ->). rewrite <- app_assoc. cbn [app].
      change (c' :: m ++ r' ++ " "%char :: c :: k) with ((c' :: m) ++ r' ++ " "%char :: c :: k).
      rewrite app_assoc. rewrite after_last_space_app by auto. reflexivity.
Qed.

(** The pieces between colons. *)
Fixpoint tail_chunks (v : cstr) (l : list (cstr * cstr)) : list cstr :=
  match l with
  | [] => [v]
  | (k, v') :: l' => (v ++ k) :: tail_chunks v' l'
  end.

Lemma tail_chunks_pieces : forall l v, v <> [] -> ~ In ":"%char v ->
  Forall (fun e => ~ In ":"%char (fst e) /\ ~ In ":"%char (snd e) /\ snd e <> []) l ->
  pieces ":"%char (":"%char :: v ++ written l) (tail_chunks v l).
Proof.
  induction l as [|[k v'] l IH]; intros v Hne Hv F; cbn [written tail_chunks].
  - rewrite app_nil_r. change (":"%char :: v) with ([":"%char] ++ v).
    rewrite <- (app_nil_r v) at 1. apply pieces_cons; auto.
    apply pieces_end. constructor.
  - inversion F as [|? ? (A & B & C) F']; subst. cbn [fst snd] in *.
    change (":"%char :: v ++ k ++ ":"%char :: v' ++ written l)
      with ([":"%char] ++ v ++ k ++ ":"%char :: v' ++ written l).
    rewrite (app_assoc v k). apply pieces_cons; auto.
    + destruct v; [easy|discriminate].
    + intros K. apply in_app_iff in K as [K|K]; auto.
    + right. eauto.
Qed.

Lemma split_is : forall s d toks, pieces d s toks -> coco_string_split s d = Ok toks.
Proof.
  intros s d toks H. destruct (split_correct s d) as (t & E & P).
  rewrite E. f_equal. eapply pieces_unique; eauto.
Qed.

Lemma keys_loop_spec : forall l v, separated l ->
  Forall (fun e => key_like (fst e) /\ tame (fst e) /\ tame (snd e)) l ->
  tame v -> (l <> [] -> ends_with_space v) ->
  keys_loop (tail_chunks v l) false = Ok (map fst l).
Proof.
  induction l as [|[k v'] l IH]; intros v Hsep F Hv He; cbn [tail_chunks keys_loop map].
  - destruct (trim_safe v Hv) as [t ->]. reflexivity.
  - inversion F as [|? ? (A & B & C) F']; subst. destruct Hsep as [S1 S2]. cbn [fst snd] in *.
    destruct (chunk_key v k A Hv B) as (t & -> & Ek); [apply He; discriminate|]. cbn [bind negb andb].
    assert (Hnn: tail_chunks v' l <> []) by (destruct l as [|[? ?] ?]; discriminate).
    destruct (tail_chunks v' l) eqn:Et; [easy|]. rewrite <- Et in *.
    rewrite IH by auto. cbn [bind]. rewrite Ek. reflexivity.
Qed.

Lemma format_expand_tame : forall s, Forall (fun c => c <> "%"%char) s -> format_expand s = Ok s.
Proof.
  induction 1 as [|c s Hc Hs IH]; cbn; auto.
  destruct (Ascii.eqb_spec c PERCENT); [easy|]. rewrite IH. reflexivity.
Qed.

Lemma written_tame : forall l, Forall (fun e => tame (fst e) /\ tame (snd e)) l -> tame (written l).
Proof.
  induction 1 as [|[k v] l [A B] F IH]; cbn [written]; [constructor|]. cbn [fst snd] in *.
  apply tame_app. split; auto. constructor; [repeat split; discriminate|]. apply tame_app. auto.
Qed.

Lemma unquoted_split : forall s, s <> [] -> ~ In QUOTE s -> coco_string_split s QUOTE = Ok [s].
Proof.
  intros s Hne Hq. apply split_is. rewrite <- (app_nil_r s) at 1.
  apply (pieces_cons QUOTE [] s [] []); auto. apply pieces_end. constructor.
Qed.

Theorem option_keys_written : forall l, proper_entries l ->
  coco_option_keys (written l) =
    if 220 <=? List.length (written l) then Err else Ok (Some (map fst l)).
Proof.
  intros l (Hne & Hsep & F).
  assert (Ht: tame (written l)).
  { apply written_tame. eapply Forall_impl; [|exact F]. intros a H. cbv beta in H. tauto. }
  destruct l as [|[k v] l]; [easy|]. inversion F as [|? ? (A1 & A2 & A3 & A4 & A5) F']; subst.
  cbn [fst snd] in *. destruct Hsep as [S1 S2].
  unfold coco_option_keys. remember (written ((k, v) :: l)) as s eqn:Es.
  assert (Hs: s <> []). { subst s. cbn. destruct k; discriminate. }
  destruct s as [|c0 s0]; [easy|]. remember (c0 :: s0) as s eqn:E0. clear E0 c0 s0.
  assert (Hq: ~ In QUOTE s).
  { intros K. unfold tame in Ht. rewrite Forall_forall in Ht. apply Ht in K. destruct K. auto. }
  unfold cleaned. rewrite unquoted_split by auto. cbn [bind].
  unfold strdupf_plain, fmt_max. destruct (220 <=? List.length s); [reflexivity|].
  rewrite format_expand_tame.
  2:{ eapply Forall_impl; [|exact Ht]. cbn. tauto. }
  cbn [bind clean_rest].
  rewrite (split_is s COLON (k :: tail_chunks v l)).
  - cbn [bind keys_loop negb andb].
    assert (Ek: coco_string_trim k = Ok k).
    { destruct A1 as (K1 & K2 & K3). destruct k as [|c k]; [easy|].
      rewrite <- (app_nil_r (c :: k)) at 1. inversion K3; subst. change ((c :: k) ++ []) with ([] ++ (c :: k) ++ []).
      rewrite trim_general; auto; try constructor.
      - inversion A2 as [|? ? (_ & _ & _ & Hh)]; subst. rewrite Hh. reflexivity.
      - cbn [app]. rewrite app_nil_r. apply tame_no_nul. auto.
      - intros c' r E. injection E as <- _. auto.
      - intros l' c' E. rewrite Forall_forall in K3. apply K3. rewrite E. apply in_app_iff. right. left. auto. }
    rewrite Ek. cbn [bind].
    rewrite keys_loop_spec; auto.
    eapply Forall_impl; [|exact F']. intros a Ha. cbv beta in Ha. tauto.
  - subst s. cbn [written]. apply (pieces_cons COLON [] k); auto.
    + apply A1.
    + apply A1.
    + right. eauto.
    + apply tail_chunks_pieces; auto. eapply Forall_impl; [|exact F']. intros a (B1 & B2 & B3 & B4 & B5).
      split; [apply B1|]. auto.
Qed.

Theorem redundant_spec : forall known given k,
  In k (redundant known given) <-> In k given /\ ~ In k known.
Proof.
  intros known given k. unfold redundant. rewrite filter_In, negb_true_iff.
  assert (H: existsb (fun q => streq k q) known = true <-> In k known).
  { rewrite existsb_exists. split.
    - intros (x & Hx & E). apply streq_spec in E. subst. auto.
    - intros Hk. exists k. split; auto. apply streq_spec. auto. }
  rewrite <- H. destruct (existsb _ known); intuition congruence.
Qed.

Lemma output_string_listing : forall keys info,
  (N.of_nat (List.length (info ++ listing keys)) <= 441)%N ->
  coco_option_keys_get_output_string keys info = Ok (info ++ listing keys).
Proof.
  unfold coco_option_keys_get_output_string.
  induction keys as [|k keys IH]; intros info H; cbn [output_string_loop listing] in *.
  - rewrite app_nil_r. reflexivity.
  - assert (E: info ++ SPACE :: k ++ "010"%char :: listing keys =
               (info ++ SPACE :: k ++ ["010"%char]) ++ listing keys).
    { rewrite <- app_assoc. cbn [app]. rewrite <- app_assoc. reflexivity. }
    change " "%char with SPACE in *. rewrite E in *. unfold strdupf_result. rewrite (app_length _ (listing keys)) in H.
    destruct (N.ltb_spec 443 (N.of_nat (List.length (info ++ SPACE :: k ++ ["010"%char])))); [lia|].
    destruct (N.ltb_spec 441 (N.of_nat (List.length (info ++ SPACE :: k ++ ["010"%char])))); [lia|].
    cbn [bind]. apply IH. rewrite app_length. lia.
Qed.

Lemma listing_written : forall known l, proper_entries l ->
  List.length (listing (redundant known (map fst l))) <= List.length (written l).
Proof.
  intros known l (_ & _ & F). unfold redundant.
  induction F as [|[k v] l (_ & _ & _ & _ & Hv) F IH]; cbn [map filter listing written]; auto.
  cbn [fst snd] in *. rewrite app_length. cbn [List.length]. rewrite app_length.
  destruct (negb _); cbn [listing List.length]; [|lia].
  rewrite app_length. cbn [List.length]. destruct v; [easy|]. cbn [List.length]. lia.
Qed.

Theorem check_keys_written : forall known l info valid, proper_entries l ->
  List.length (written l) < 220 -> List.length info <= 200 ->
  (N.of_nat (List.length (valid ++ listing known)) <= 441)%N ->
  check_keys known (written l) info valid =
    Ok (match redundant known (map fst l) with
        | [] => None
        | r => Some (info ++ listing r ++ valid ++ listing known)
        end).
Proof.
  intros known l info valid Hp Hl Hi Hv. unfold check_keys.
  rewrite option_keys_written by auto.
  destruct (Nat.leb_spec 220 (List.length (written l))); [lia|]. cbn [bind].
  destruct (redundant known (map fst l)) as [|r rs] eqn:E; auto. rewrite <- E.
  pose proof (listing_written known l Hp) as L.
  rewrite output_string_listing by (rewrite app_length; lia). cbn [bind].
  rewrite output_string_listing by auto. cbn [bind]. rewrite E. rewrite <- app_assoc. reflexivity.
Qed.
