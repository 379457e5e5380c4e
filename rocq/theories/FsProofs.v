(** Proofs for paths and directories. *)
From Coq Require Import List Arith NArith ZArith Ascii String Bool Lia.
From Coq Require Import ZifyBool ZifyNat.
Import ListNotations.
From Verif Require Import CBase FsModel FsSpec.

(** * Joining *)
Lemma strncat_ok : forall cap m dst src,
  m <= cap -> List.length dst < m ->
  strncat cap dst src (m - List.length dst - 1) = Ok (firstn (m - 1) (dst ++ src)).
Proof.
  intros cap m dst src Hc Hd. unfold strncat.
  assert (E : firstn (m - 1) (dst ++ src) = dst ++ firstn (m - List.length dst - 1) src).
  { rewrite firstn_app. f_equal; [apply firstn_all2; lia|f_equal; lia]. }
  rewrite E.
  replace (_ <? _) with true; auto.
  symmetry. apply Nat.ltb_lt. rewrite app_length, firstn_length. lia.
Qed.

Lemma joined_prefix : forall cs b, b <> [] -> exists s, joined b cs = b ++ s.
Proof.
  induction cs as [|c cs IH]; intros b Hb.
  - exists []. simpl. now rewrite app_nil_r.
  - simpl. destruct b as [|x b]; [congruence|].
    destruct (IH ((x :: b) ++ "/"%char :: c)) as [s E]; [discriminate|].
    rewrite E. exists (("/"%char :: c) ++ s). rewrite app_assoc. reflexivity.
Qed.

Lemma firstn_prefix : forall (A : Type) n (a s : list A), firstn n (firstn n a ++ s) = firstn n (a ++ s) \/ List.length a < n.
Proof.
  intros. destruct (le_lt_dec n (List.length a)); [left|right; auto].
  rewrite !firstn_app, firstn_firstn, Nat.min_id, firstn_length.
  replace (n - Nat.min n (List.length a)) with 0 by lia.
  replace (n - List.length a) with 0 by lia. reflexivity.
Qed.

Lemma firstn_joined : forall cs n b,
  1 <= n -> firstn n (joined (firstn n b) cs) = firstn n (joined b cs).
Proof.
  intros cs n b Hn.
  destruct (le_lt_dec n (List.length b)) as [L|L].
  - destruct b as [|x b]; [destruct n; simpl in *; lia|].
    destruct (joined_prefix cs (x :: b)) as [s E]; [discriminate|].
    destruct (joined_prefix cs (firstn n (x :: b))) as [s' E'].
    { destruct n; [lia|discriminate]. }
    rewrite E, E', !firstn_app, firstn_firstn, Nat.min_id, firstn_length.
    replace (n - Nat.min n (List.length (x :: b))) with 0 by lia.
    replace (n - List.length (x :: b)) with 0 by lia. reflexivity.
  - rewrite (firstn_all2 b) by lia. reflexivity.
Qed.

Lemma join_loop_spec : forall cap m plen (comps : list cstr) (path : cstr),
  m <= cap -> (List.length path < m \/ m <= plen + 1) ->
  join_loop cap m plen path comps =
    if forallb (fun c => plen + 1 + List.length c <? m) comps
    then Ok (match comps with [] => path | _ => firstn (m - 1) (joined path comps) end)
    else Err.
Proof.
  intros cap m plen comps path Hm. revert path.
  induction comps as [|c cs IH]; intros path Hp; [reflexivity|].
  cbn [join_loop forallb].
  destruct (Nat.ltb_spec (plen + 1 + List.length c) m) as [L|L].
  2: { destruct (Nat.leb_spec m (plen + 1 + List.length c)); [reflexivity|lia]. }
  destruct (Nat.leb_spec m (plen + 1 + List.length c)); [lia|].
  assert (Hp' : List.length path < m) by lia.
  set (base1 := match path with [] => c | _ => path ++ "/"%char :: c end).
  assert (E : exists p1, (if 0 <? List.length path
      then do n <- bound_left m (List.length path); strncat cap path [SLASH] n
      else Ok path) = Ok p1 /\ List.length p1 < m /\ firstn (m - 1) (p1 ++ c) = firstn (m - 1) base1).
  { destruct path as [|x path].
    - exists []. repeat split; auto.
    - set (pp := x :: path) in *.
      replace (0 <? List.length pp) with true by (symmetry; reflexivity).
      unfold bound_left. destruct (Nat.leb_spec (List.length pp + 1) m); [|lia].
      cbn [bind]. rewrite strncat_ok by lia.
      eexists; split; [reflexivity|]. split; [rewrite firstn_length; lia|].
      destruct (firstn_prefix ascii (m - 1) (pp ++ [SLASH]) c) as [F|F].
      + rewrite F. unfold base1, pp. rewrite <- app_assoc. reflexivity.
      + rewrite (firstn_all2 (pp ++ [SLASH])) by lia. unfold base1, pp. rewrite <- app_assoc. reflexivity. }
  destruct E as (p1 & -> & L1 & F1). cbn [bind].
  unfold bound_left. destruct (Nat.leb_spec (List.length p1 + 1) m); [|lia].
  cbn [bind]. rewrite strncat_ok by lia. cbn [bind]. rewrite F1.
  rewrite IH by (left; rewrite firstn_length; lia).
  cbn [andb]. match goal with |- context [forallb ?f ?l] => destruct (forallb f l) end; [|reflexivity].
  cbn [joined]. fold base1.
  destruct cs as [|c' cs']; [reflexivity|].
  rewrite firstn_joined by lia. reflexivity.
Qed.

Lemma join_path_ok : forall cap m base comps,
  m <= cap -> comps <> [] -> each_fits m base comps ->
  coco_join_path cap m base comps = Ok (firstn (m - 1) (joined base comps)).
Proof.
  intros cap m base comps Hm Hne Hf. unfold coco_join_path.
  assert (F : forallb (fun c => List.length base + 1 + List.length c <? m) comps = true).
  { apply forallb_forall. intros c Hc. apply Nat.ltb_lt. auto. }
  rewrite join_loop_spec; auto.
  - rewrite F. destruct comps; [congruence|reflexivity].
  - left. destruct comps as [|c cs]; [congruence|]. specialize (Hf c (or_introl eq_refl)). lia.
Qed.

Lemma join_path_err : forall cap m base comps,
  m <= cap -> ~ each_fits m base comps -> coco_join_path cap m base comps = Err.
Proof.
  intros cap m base comps Hm Hf. unfold coco_join_path.
  rewrite join_loop_spec; auto.
  - match goal with |- context [forallb ?f ?l] => destruct (forallb f l) eqn:F end; [|reflexivity].
    exfalso. apply Hf. intros c Hc.
    rewrite forallb_forall in F. apply F in Hc. now apply Nat.ltb_lt in Hc.
  - lia.
Qed.

Lemma join_path_none : forall cap m base, coco_join_path cap m base [] = Ok base.
Proof. reflexivity. Qed.

Lemma join_path_complete : forall cap m base comps,
  m <= cap -> comps <> [] -> List.length (joined base comps) < m -> each_fits m base comps ->
  coco_join_path cap m base comps = Ok (joined base comps).
Proof.
  intros. rewrite join_path_ok; auto. rewrite firstn_all2; auto. lia.
Qed.

Lemma joined_length : forall cs b,
  List.length b <= List.length (joined b cs) /\ (forall c, In c cs -> List.length c <= List.length (joined b cs)) /\
  (b <> [] -> forall c, In c cs -> List.length b + 1 + List.length c <= List.length (joined b cs)).
Proof.
  induction cs as [|c cs IH]; intros b; [simpl; repeat split; intros; try easy; lia|].
  cbn [joined]. set (b1 := match b with [] => c | _ => b ++ "/"%char :: c end).
  assert (Lb : List.length b <= List.length b1 /\ List.length c <= List.length b1 /\
               (b <> [] -> List.length b + 1 + List.length c <= List.length b1)).
  { unfold b1. destruct b as [|x b]; simpl.
    - repeat split; try lia. congruence.
    - rewrite app_length. simpl. repeat split; intros; lia. }
  destruct (IH b1) as (I1 & I2 & I3). destruct Lb as (L1 & L2 & L3). repeat split.
  - lia.
  - intros c' [->|Hc]; [lia|auto].
  - intros Hb c' [->|Hc]; [specialize (L3 Hb); lia|].
    assert (b1 <> []) by (intro Z; rewrite Z in L1; destruct b; [congruence|simpl in L1; lia]).
    specialize (I3 H c' Hc). lia.
Qed.

Lemma join_path_total : forall cap m base comps,
  m <= cap -> List.length (joined base comps) + (match base with [] => 1 | _ => 0 end) < m ->
  coco_join_path cap m base comps = Ok (joined base comps).
Proof.
  intros cap m base comps Hm Hl. destruct comps as [|c cs]; [reflexivity|].
  apply join_path_complete; auto; [discriminate|lia|].
  intros c' Hc. destruct (joined_length (c :: cs) base) as (_ & A & B).
  destruct base as [|x b]; [specialize (A _ Hc); simpl; lia|].
  specialize (B ltac:(discriminate) _ Hc). lia.
Qed.

(** * Unique directories *)
Lemma digit_spec : forall n, n < 10 -> digit n = nth n (str "0123456789") "0"%char.
Proof. intros n H. do 10 (destruct n as [|n]; [reflexivity|]). lia. Qed.

Lemma numbered_candidate : forall p k, 1 <= k <= N.to_nat 9998 -> numbered p k = candidate p k.
Proof.
  intros p k H. unfold numbered, candidate. destruct k as [|k']; [lia|]. set (k := S k') in *.
  assert (E : four_digits k = decimal4 k).
  { unfold four_digits, decimal4. cbn [map].
    assert (A : k / 1000 < 10) by (apply Nat.div_lt_upper_bound; lia).
    pose proof (Nat.mod_upper_bound (k / 100) 10). pose proof (Nat.mod_upper_bound (k / 10) 10).
    pose proof (Nat.mod_upper_bound k 10).
    rewrite (Nat.mod_small (k / 1000) 10) by lia.
    rewrite !digit_spec by lia. reflexivity. }
  rewrite E. reflexivity.
Qed.

Lemma numbered_length : forall p k, List.length (numbered p k) = List.length p + 5.
Proof. intros. unfold numbered. rewrite app_length. reflexivity. Qed.

Lemma numbered_ne : forall p k, numbered p k <> [].
Proof. intros p k H. apply (f_equal (@List.length _)) in H. rewrite numbered_length in H. simpl in H. lia. Qed.

Lemma strdupf_Ok : forall t x, coco_strdupf t = Ok x -> x = t /\ List.length t <= 441.
Proof.
  intros t x H. unfold coco_strdupf in H.
  destruct (Nat.ltb_spec 443 (List.length t)); [discriminate|].
  destruct (Nat.ltb_spec 441 (List.length t)); [discriminate|].
  injection H as <-. auto.
Qed.

Lemma strip_slash_spec : forall p q, without_slash p q -> strip_slash p = Ok q.
Proof.
  intros p q [->|(-> & Hne & Hq)]; unfold strip_slash.
  - rewrite rev_app_distr. cbn. rewrite rev_involutive. reflexivity.
  - destruct (rev q) as [|c t] eqn:E.
    + apply (f_equal (@rev _)) in E. rewrite rev_involutive in E. simpl in E. congruence.
    + apply (f_equal (@rev _)) in E. rewrite rev_involutive in E. simpl in E.
      destruct (Ascii.eqb_spec c SLASH); [|reflexivity].
      subst c. exfalso. apply (Hq (rev t)). exact E.
Qed.

Lemma without_slash_exists : forall p, p <> [] -> exists q, without_slash p q.
Proof.
  intros p Hp. destruct (rev p) as [|c t] eqn:E.
  - apply (f_equal (@rev _)) in E. rewrite rev_involutive in E. simpl in E. congruence.
  - apply (f_equal (@rev _)) in E. rewrite rev_involutive in E. simpl in E.
    destruct (Ascii.eqb_spec c SLASH) as [->|N].
    + exists (rev t). left. exact E.
    + exists p. right. repeat split; auto. intros q' H. rewrite E in H.
      apply app_inj_tail in H as [_ H]. apply N. exact H.
Qed.

Section Dirs.
Variable K : Type.
Variable keq : K -> K -> bool.
Variable resolve : cstr -> K.
Variable others : nat -> files K -> files K.
Variable refuses : nat -> files K -> K -> bool.
Hypothesis keq_spec : forall a b, keq a b = true <-> a = b.

Notation world := (world K).
Notation mkdir := (coco_mkdir K keq resolve others refuses).
Notation prefixes := (mkdir_prefixes K keq resolve others refuses).
Notation create := (coco_create_directory K keq resolve others refuses).
Notation unique_loop := (unique_directory_loop K keq resolve others refuses).
Notation unique := (coco_create_unique_directory K keq resolve others refuses).

Lemma present_In : forall f k, present K keq f k = true <-> In k (map fst f).
Proof.
  intros. unfold present. rewrite existsb_exists, in_map_iff. split.
  - intros (e & H & E). apply keq_spec in E. eauto.
  - intros (e & E & H). exists e. split; auto. now apply keq_spec.
Qed.

Notation last_call := (last_call K).
Notation taken_in := (taken_in K resolve).

Lemma drive_form_spec : forall p, drive_form p = true <-> drive p.
Proof.
  intros p. unfold drive_form, drive. split.
  - destruct p as [|a [|b [|]]]; try discriminate. intro H. apply Ascii.eqb_eq in H. subst. eauto.
  - intros [c ->]. reflexivity.
Qed.

Lemma mkdir_spec : forall p w r w', mkdir p w = Ok (r, w') ->
  (r = 0 /\ ~ drive p /\ exists f, last_call w' p Created f /\ ~ In (resolve p) (map fst f) /\
     fs K w' = (resolve p, KDir) :: f /\ f = others (clock K w) (fs K w)) \/
  (r = 1 /\ (drive p /\ w' = w \/
     ~ drive p /\ exists f, last_call w' p Exists f /\ In (resolve p) (map fst f) /\ fs K w' = f /\ f = others (clock K w) (fs K w))).
Proof.
  intros p w r w' H. unfold coco_mkdir in H.
  destruct (drive_form p) eqn:D.
  - injection H as <- <-. right. split; auto. left. split; auto. now apply drive_form_spec.
  - assert (ND : ~ drive p) by (rewrite <- drive_form_spec; congruence).
    unfold sys_mkdir in H. cbv zeta in H.
    destruct (present K keq (others (clock K w) (fs K w)) (resolve p)) eqn:P.
    + injection H as <- <-. right. split; auto. right. split; auto.
      exists (others (clock K w) (fs K w)). cbn [fs log clock]. repeat split.
      * eexists; reflexivity.
      * now apply present_In.
    + destruct (refuses _ _ _); [discriminate|]. injection H as <- <-. left. repeat split; auto.
      exists (others (clock K w) (fs K w)). cbn [fs log clock]. repeat split.
      * eexists; reflexivity.
      * intro I. apply present_In in I. congruence.
Qed.

(** The log only grows. *)
Definition grows (w w' : world) : Prop := exists l, log K w' = l ++ log K w.

Lemma grows_refl : forall w, grows w w.
Proof. exists []. reflexivity. Qed.

Lemma grows_trans : forall a b c, grows a b -> grows b c -> grows a c.
Proof. intros a b c [l H] [l' H']. exists (l' ++ l). rewrite H', H, app_assoc. reflexivity. Qed.

Lemma mkdir_grows : forall p w r w', mkdir p w = Ok (r, w') -> grows w w'.
Proof.
  intros p w r w' H. unfold coco_mkdir in H. destruct (drive_form p).
  - injection H as <- <-. apply grows_refl.
  - unfold sys_mkdir in H. cbv zeta in H. destruct (present _ _ _ _); [|destruct (refuses _ _ _)]; try discriminate;
      injection H as <- <-; eexists [_]; reflexivity.
Qed.

Lemma prefixes_grows : forall rest dn w w', prefixes dn rest w = Ok w' -> grows w w'.
Proof.
  induction rest as [|c t IH]; intros dn w w' H; cbn [mkdir_prefixes] in H.
  - injection H as <-. apply grows_refl.
  - destruct (Ascii.eqb c SLASH); [|eauto].
    destruct dn as [|x dn]; [eauto|].
    apply bind_Ok in H as ([r w1] & H1 & H2). eapply grows_trans; [eapply mkdir_grows; eauto|eauto].
Qed.

Lemma create_spec : forall p w r w', create p w = Ok (r, w') ->
  exists q, without_slash p q /\ grows w w' /\
   ((r = 0 /\ exists f, last_call w' q Created f /\ ~ In (resolve q) (map fst f) /\
       fs K w' = (resolve q, KDir) :: f) \/
    (r = 1 /\ (drive q \/ exists f, last_call w' q Exists f /\ In (resolve q) (map fst f)))).
Proof.
  intros p w r w' H. unfold coco_create_directory in H.
  apply bind_Ok in H as (tmp & H1 & H). apply bind_Ok in H as (w1 & H2 & H3).
  assert (Hne : p <> []) by (intro Z; subst p; discriminate).
  destruct (without_slash_exists p Hne) as [q Hq].
  rewrite (strip_slash_spec _ _ Hq) in H1. injection H1 as <-.
  exists q. split; auto. split.
  - eapply grows_trans; [eapply prefixes_grows|eapply mkdir_grows]; eauto.
  - apply mkdir_spec in H3 as [(-> & ND & f & A & B & C & _)|(-> & [[D ->]|(ND & f & A & B & C & _)])].
    + left. split; auto. exists f. auto.
    + right. auto.
    + right. split; auto. right. exists f. auto.
Qed.

Lemma taken_grows : forall w w' name, grows w w' -> taken_in (log K w) name -> taken_in (log K w') name.
Proof.
  intros w w' name [l E] (q & Hq & [D|(f & I & P)]); exists q; split; auto.
  right. exists f. split; auto. rewrite E. apply in_or_app. auto.
Qed.

Definition success (path name : cstr) (k : nat) (w' : world) : Prop :=
  name = candidate path k /\
  (forall j, j < k -> taken_in (log K w') (candidate path j)) /\
  made_new K resolve name w'.

Lemma unique_loop_spec : forall n counter path w name w',
  1 <= counter -> counter + n = N.to_nat 9999 ->
  (forall j, j < counter -> taken_in (log K w) (candidate path j)) ->
  unique_loop n counter path w = Ok (name, w') ->
  exists k, k <= N.to_nat 9998 /\ success path name k w'.
Proof.
  induction n as [|n IH]; intros counter path w name w' Hc Hn Ht H; [discriminate|].
  cbn [unique_directory_loop] in H.
  apply bind_Ok in H as (np & H1 & H). apply bind_Ok in H as ([r w1] & H2 & H).
  apply strdupf_Ok in H1 as [-> _].
  rewrite numbered_candidate in * by lia.
  apply create_spec in H2 as (q & Hq & G & [(-> & f & A & B & C)|(-> & T)]).
  - simpl in H. injection H as <- <-. exists counter. split; [lia|]. split; auto. split.
    + intros j Hj. eapply taken_grows; eauto.
    + exists q, f. auto.
  - simpl in H. apply IH in H; auto; try lia.
    intros j Hj. destruct (Nat.eq_dec j counter) as [->|].
    + exists q. split; auto. destruct T as [D|(f & [l E] & I)]; auto.
      right. exists f. split; auto. rewrite E. left. reflexivity.
    + eapply taken_grows; eauto. apply Ht. lia.
Qed.

Lemma unique_spec : forall path w name w',
  unique path w = Ok (name, w') -> exists k, k <= N.to_nat 9998 /\ success path name k w'.
Proof.
  intros path w name w' H. unfold coco_create_unique_directory in H.
  apply bind_Ok in H as ([r w1] & H1 & H).
  apply create_spec in H1 as (q & Hq & G & [(-> & f & A & B & C)|(-> & T)]).
  - simpl in H. injection H as <- <-. exists 0. split; [lia|]. split; auto. split; [lia|]. exists q, f. auto.
  - change (1 =? 0) with false in H. cbv iota in H. eapply unique_loop_spec in H; eauto; try lia.
    intros j Hj. assert (j = 0) by lia. subst j. exists q. split; auto.
    destruct T as [D|(f & [l E] & I)]; auto.
    right. exists f. split; auto. rewrite E. left. reflexivity.
Qed.

(** Running out of candidates: when nothing is refused and the name is short enough,
    the only error is that all 9999 candidates were found taken. *)
Hypothesis no_refusal : forall t f k, refuses t f k = false.

Lemma mkdir_total : forall p w, exists r w', mkdir p w = Ok (r, w').
Proof.
  intros p w. unfold coco_mkdir, sys_mkdir. cbv zeta. destruct (drive_form p); eauto.
  destruct (present _ _ _ _); eauto. rewrite no_refusal. eauto.
Qed.

Lemma prefixes_total : forall rest dn w, exists w', prefixes dn rest w = Ok w'.
Proof.
  induction rest as [|c t IH]; intros dn w; cbn [mkdir_prefixes]; eauto.
  destruct (Ascii.eqb c SLASH); [|eauto]. destruct dn as [|x dn]; [eauto|].
  destruct (mkdir_total (x :: dn) w) as (r & w1 & ->). cbn [bind]. eauto.
Qed.

Lemma create_total : forall p w, p <> [] -> exists r w', create p w = Ok (r, w').
Proof.
  intros p w Hp. unfold coco_create_directory.
  destruct (without_slash_exists p Hp) as [q Hq]. rewrite (strip_slash_spec _ _ Hq). cbn [bind].
  destruct (prefixes_total q [] w) as [w1 ->]. cbn [bind]. apply mkdir_total.
Qed.

Lemma unique_loop_total : forall n counter path w,
  List.length path <= 436 ->
  (exists name w', unique_loop n counter path w = Ok (name, w')) \/ unique_loop n counter path w = Err.
Proof.
  induction n as [|n IH]; intros counter path w Hp; [right; reflexivity|].
  cbn [unique_directory_loop]. unfold coco_strdupf at 1 2. rewrite numbered_length.
  destruct (Nat.ltb_spec 443 (List.length path + 5)); [lia|].
  destruct (Nat.ltb_spec 441 (List.length path + 5)); [lia|]. cbn [bind].
  destruct (create_total (numbered path counter) w (numbered_ne _ _)) as (r & w1 & ->). cbn [bind].
  destruct (r =? 0); eauto.
Qed.

Lemma unique_short : forall path w,
  path <> [] -> List.length path <= 436 ->
  (exists name w', unique path w = Ok (name, w')) \/ unique path w = Err.
Proof.
  intros path w Hne Hp. unfold coco_create_unique_directory.
  destruct (create_total path w Hne) as (r & w1 & ->). cbn [bind].
  destruct (r =? 0); [eauto|]. apply unique_loop_total; auto.
Qed.

End Dirs.

(** A file system nobody else touches. *)
Section Quiet.
Variable K : Type.
Variable keq : K -> K -> bool.
Variable resolve : cstr -> K.
Variable refuses : nat -> files K -> K -> bool.
Hypothesis keq_spec : forall a b, keq a b = true <-> a = b.
Let others : nat -> files K -> files K := fun _ f => f.

(** Entries are only added. *)
Definition adds (w w' : world K) : Prop := exists l, fs K w' = l ++ fs K w /\ forall e, In e l -> snd e = KDir.

Lemma adds_refl : forall w, adds w w.
Proof. exists []. split; auto. intros e []. Qed.

Lemma adds_trans : forall a b c, adds a b -> adds b c -> adds a c.
Proof.
  intros a b c (l & H & F) (l' & H' & F'). exists (l' ++ l). rewrite H', H, app_assoc. split; auto.
  intros e He. apply in_app_or in He as [He|He]; auto.
Qed.

Lemma mkdir_adds : forall p w r w', coco_mkdir K keq resolve others refuses p w = Ok (r, w') -> adds w w'.
Proof.
  intros p w r w' H. apply (mkdir_spec K keq resolve others refuses keq_spec) in H as [(_ & _ & f & _ & _ & E & F)|(_ & [[_ ->]|(_ & f & _ & _ & E & F)])].
  - exists [(resolve p, KDir)]. rewrite E, F. split; auto. intros e [<-|[]]. reflexivity.
  - apply adds_refl.
  - exists []. rewrite E, F. split; auto. intros e [].
Qed.

Lemma prefixes_adds : forall rest dn w w', mkdir_prefixes K keq resolve others refuses dn rest w = Ok w' -> adds w w'.
Proof.
  induction rest as [|c t IH]; intros dn w w' H; cbn [mkdir_prefixes] in H.
  - injection H as <-. apply adds_refl.
  - destruct (Ascii.eqb c SLASH); [|eauto].
    destruct dn as [|x dn]; [eauto|].
    apply bind_Ok in H as ([r w1] & H1 & H2). eapply adds_trans; [eapply mkdir_adds; eauto|eauto].
Qed.

Lemma create_adds : forall p w r w', coco_create_directory K keq resolve others refuses p w = Ok (r, w') -> adds w w'.
Proof.
  intros p w r w' H. unfold coco_create_directory in H.
  apply bind_Ok in H as (tmp & _ & H). apply bind_Ok in H as (w1 & H2 & H3).
  eapply adds_trans; [eapply prefixes_adds|eapply mkdir_adds]; eauto.
Qed.

Lemma unique_loop_adds : forall n counter path w name w',
  unique_directory_loop K keq resolve others refuses n counter path w = Ok (name, w') -> adds w w'.
Proof.
  induction n as [|n IH]; intros counter path w name w' H; [discriminate|].
  cbn [unique_directory_loop] in H.
  apply bind_Ok in H as (np & H1 & H). apply bind_Ok in H as ([r w1] & H2 & H).
  apply create_adds in H2. destruct (r =? 0).
  - injection H as <- <-. auto.
  - eapply adds_trans; eauto.
Qed.

Lemma unique_adds : forall path w name w',
  coco_create_unique_directory K keq resolve others refuses path w = Ok (name, w') -> adds w w'.
Proof.
  intros path w name w' H. unfold coco_create_unique_directory in H.
  apply bind_Ok in H as ([r w1] & H1 & H). apply create_adds in H1. destruct (r =? 0).
  - injection H as <- <-. auto.
  - eapply adds_trans; eauto. eapply unique_loop_adds; eauto.
Qed.

(** A free candidate is found when nothing is refused. *)
Hypothesis no_refusal : forall t f k, refuses t f k = false.

Definition free (key : K) (w : world K) : Prop := ~ In key (map fst (fs K w)).

Lemma mkdir_keeps_free : forall p w r w' key, coco_mkdir K keq resolve others refuses p w = Ok (r, w') ->
  free key w -> resolve p <> key \/ r <> 0 -> free key w'.
Proof.
  intros p w r w' key H F N. unfold free in *.
  apply (mkdir_spec K keq resolve others refuses keq_spec) in H as [(-> & _ & f & _ & _ & E & D)|(-> & [[_ ->]|(_ & f & _ & _ & E & D)])]; auto.
  - unfold others in D. subst f. rewrite E. simpl. intros [I|I]; auto. destruct N; congruence.
  - unfold others in D. congruence.
Qed.

Lemma prefixes_keep_free : forall rest dn w w' key, mkdir_prefixes K keq resolve others refuses dn rest w = Ok w' ->
  free key w -> (forall s, parent_of s (dn ++ rest) -> resolve s <> key) -> free key w'.
Proof.
  induction rest as [|c t IH]; intros dn w w' key H F N; cbn [mkdir_prefixes] in H.
  - injection H as <-. auto.
  - assert (N' : forall s, parent_of s ((dn ++ [c]) ++ t) -> resolve s <> key).
    { intros s. rewrite <- app_assoc. apply N. }
    destruct (Ascii.eqb_spec c SLASH) as [->|]; [|eapply IH; eauto].
    destruct dn as [|x dn]; [eapply IH; eauto|].
    apply bind_Ok in H as ([r w1] & H1 & H2). eapply IH; [exact H2| |exact N'].
    eapply mkdir_keeps_free; eauto. left. apply N. exists t. split; [discriminate|reflexivity].
Qed.

Lemma create_keeps_free : forall p w r w' key, coco_create_directory K keq resolve others refuses p w = Ok (r, w') ->
  free key w -> (forall s, parent_of s p -> resolve s <> key) -> r <> 0 -> free key w'.
Proof.
  intros p w r w' key H F N Hr. unfold coco_create_directory in H.
  apply bind_Ok in H as (q & H1 & H). apply bind_Ok in H as (w1 & H2 & H3).
  assert (Hne : p <> []) by (intro Z; subst p; discriminate).
  destruct (without_slash_exists p Hne) as [q' Hq].
  rewrite (strip_slash_spec _ _ Hq) in H1. injection H1 as ->.
  eapply mkdir_keeps_free; [exact H3| |auto].
  eapply prefixes_keep_free; [exact H2|exact F|].
  intros s (t & Hs & E). apply N. destruct Hq as [->|(-> & _)].
  - exists (t ++ str "/"). split; auto. simpl in E. rewrite E. rewrite <- app_assoc. reflexivity.
  - exists t. auto.
Qed.

Lemma create_free : forall p q w, without_slash p q -> ~ drive q -> free (resolve q) w ->
  (forall s, parent_of s p -> resolve s <> resolve q) ->
  exists w', coco_create_directory K keq resolve others refuses p w = Ok (0, w').
Proof.
  intros p q w Hq ND F N. unfold coco_create_directory. rewrite (strip_slash_spec _ _ Hq). cbn [bind].
  destruct (prefixes_total K keq resolve others refuses no_refusal q [] w) as [w1 E]. rewrite E. cbn [bind].
  assert (F1 : free (resolve q) w1).
  { eapply prefixes_keep_free; [exact E|exact F|].
    intros s (t & Hs & E'). apply N. destruct Hq as [->|(-> & _)].
    - exists (t ++ str "/"). split; auto. simpl in E'. rewrite E'. rewrite <- app_assoc. reflexivity.
    - exists t. auto. }
  unfold coco_mkdir. destruct (drive_form q) eqn:D; [apply drive_form_spec in D; contradiction|].
  unfold sys_mkdir. cbv zeta. destruct (present K keq _ (resolve q)) eqn:P.
  - apply (present_In K keq keq_spec) in P. contradiction.
  - rewrite no_refusal. eauto.
Qed.

Lemma unique_loop_finds : forall n counter path q k w,
  1 <= counter <= k -> k < counter + n -> k <= N.to_nat 9998 -> List.length path <= 436 ->
  without_slash (candidate path k) q -> ~ drive q -> free (resolve q) w ->
  (forall j s, j <= k -> parent_of s (candidate path j) -> resolve s <> resolve q) ->
  exists j w', counter <= j <= k /\ unique_directory_loop K keq resolve others refuses n counter path w = Ok (candidate path j, w').
Proof.
  induction n as [|n IH]; intros counter path q k w Hc Hk Hm Hl Hq ND F N; [lia|].
  cbn [unique_directory_loop]. unfold coco_strdupf. rewrite numbered_length.
  destruct (Nat.ltb_spec 443 (List.length path + 5)); [lia|].
  destruct (Nat.ltb_spec 441 (List.length path + 5)); [lia|]. cbn [bind].
  destruct (create_total K keq resolve others refuses no_refusal (numbered path counter) w (numbered_ne _ _)) as (r & w1 & E).
  rewrite E. cbn [bind]. rewrite numbered_candidate in * by lia.
  destruct (Nat.eqb_spec r 0) as [->|Hr].
  - exists counter, w1. split; [lia|reflexivity].
  - destruct (Nat.eq_dec counter k) as [->|].
    + destruct (create_free (candidate path k) q w) as [w' E']; auto. { intros s. apply N. auto. }
      congruence.
    + destruct (IH (S counter) path q k w1) as (j & w' & Hj & E'); auto; try lia.
      * eapply create_keeps_free; eauto. intros s. apply N. lia.
      * exists j, w'. split; [lia|exact E'].
Qed.

Lemma unique_finds : forall path q k w,
  path <> [] -> k <= N.to_nat 9998 -> List.length path <= 436 ->
  without_slash (candidate path k) q -> ~ drive q -> free (resolve q) w ->
  (forall j s, j <= k -> parent_of s (candidate path j) -> resolve s <> resolve q) ->
  exists j w', j <= k /\ coco_create_unique_directory K keq resolve others refuses path w = Ok (candidate path j, w').
Proof.
  intros path q k w Hne Hk Hl Hq ND F N. unfold coco_create_unique_directory.
  destruct (create_total K keq resolve others refuses no_refusal path w Hne) as (r & w1 & E).
  rewrite E. cbn [bind]. destruct (Nat.eqb_spec r 0) as [->|Hr].
  - exists 0, w1. split; [lia|reflexivity].
  - destruct k as [|k].
    + destruct (create_free path q w) as [w' E']; auto. { intros s. apply (N 0 s). auto. } congruence.
    + destruct (unique_loop_finds (N.to_nat 9998) 1 path q (S k) w1) as (j & w' & Hj & E'); auto; try lia.
      * eapply create_keeps_free; eauto. intros s. apply (N 0 s). lia.
      * exists j, w'. split; [lia|exact E'].
Qed.

(** The call that creates a directory adds exactly that key, all other calls none. *)
Lemma unique_fresh : forall path w name w',
  coco_create_unique_directory K keq resolve others refuses path w = Ok (name, w') ->
  exists q, without_slash name q /\ ~ In (resolve q) (map fst (fs K w)) /\ In (resolve q, KDir) (fs K w').
Proof.
  intros path w name w' H.
  (* the world before the last call *)
  assert (G : forall p w0 w1, coco_create_directory K keq resolve others refuses p w0 = Ok (0, w1) ->
     exists q, without_slash p q /\ ~ In (resolve q) (map fst (fs K w0)) /\ In (resolve q, KDir) (fs K w1)).
  { intros p w0 w1 E. unfold coco_create_directory in E.
    apply bind_Ok in E as (tmp & E1 & E). apply bind_Ok in E as (w2 & E2 & E3).
    assert (Hne : p <> []) by (intro Z; subst p; discriminate).
    destruct (without_slash_exists p Hne) as [q Hq].
    rewrite (strip_slash_spec _ _ Hq) in E1. injection E1 as <-.
    exists q. split; auto.
    apply prefixes_adds in E2 as (l & A & _).
    apply (mkdir_spec K keq resolve others refuses keq_spec) in E3 as [(_ & _ & f & _ & B & C & D)|(X & _)]; [|discriminate].
    unfold others in D. subst f. split.
    - intro I. apply B. rewrite A, map_app. apply in_or_app. auto.
    - rewrite C. left. reflexivity. }
  unfold coco_create_unique_directory in H.
  apply bind_Ok in H as ([r w1] & H1 & H). destruct (Nat.eqb_spec r 0) as [->|].
  - injection H as <- <-. eauto.
  - apply create_adds in H1. revert H1 H. generalize 1 at 1. generalize (N.to_nat 9998).
    intros m. revert w1. induction m as [|m IH]; intros w1 c A H; [discriminate|].
    cbn [unique_directory_loop] in H.
    apply bind_Ok in H as (np & H1 & H). apply bind_Ok in H as ([r' w2] & H2 & H).
    destruct (Nat.eqb_spec r' 0) as [->|].
    + injection H as <- <-. destruct (G _ _ _ H2) as (q & Q1 & Q2 & Q3). exists q. repeat split; auto.
      intro I. apply Q2. destruct A as (l & A & _). rewrite A, map_app. apply in_or_app. auto.
    + apply create_adds in H2. eapply IH; [|exact H]. eapply adds_trans; eauto.
Qed.
End Quiet.

(** * Unique file names *)
Lemma checked_path_fits : forall path name ext,
  List.length path < N.to_nat 4097 -> List.length name + List.length ext < N.to_nat 4096 ->
  exists p, checked_path path name ext = Ok p /\
    p = firstn (N.to_nat 4097) (joined [] [path; name ++ ext]).
Proof.
  intros path name ext Hp Hn. unfold checked_path, COCO_PATH_MAX.
  rewrite (firstn_all2 name) by lia.
  rewrite strncat_ok by lia. cbn [bind].
  rewrite firstn_all2 by (rewrite app_length; lia).
  eexists. split.
  - apply join_path_ok; [lia|discriminate|]. intros c [<-|[<-|[]]]; simpl; try rewrite app_length; lia.
  - reflexivity.
Qed.

Section Names.
Variable file_exists : nat -> cstr -> bool.

Lemma unique_filename_loop_spec : forall n counter path name ext r,
  1 <= counter -> counter + n = N.to_nat 9999 ->
  unique_filename_loop file_exists n counter path name ext = Ok r ->
  exists k p, counter <= k <= N.to_nat 9998 /\ r = candidate name k /\
    checked_path path r ext = Ok p /\ file_exists k p = false /\
    forall j, counter <= j < k -> exists p', checked_path path (candidate name j) ext = Ok p' /\ file_exists j p' = true.
Proof.
  induction n as [|n IH]; intros counter path name ext r Hc Hn H; [discriminate|].
  cbn [unique_filename_loop] in H.
  apply bind_Ok in H as (nn & H1 & H). apply bind_Ok in H as (p & H2 & H).
  apply strdupf_Ok in H1 as [-> _]. rewrite numbered_candidate in * by lia.
  destruct (file_exists counter p) eqn:E.
  - apply IH in H as (k & p' & Hk & -> & A & B & C); try lia.
    exists k, p'. repeat split; auto; try lia.
    intros j Hj. destruct (Nat.eq_dec j counter) as [->|]; eauto. apply C. lia.
  - injection H as <-. exists counter, p. repeat split; auto; try lia.
Qed.

Lemma unique_filename_spec : forall path name ext r,
  coco_create_unique_filename file_exists path name ext = Ok r ->
  exists k p, k <= N.to_nat 9998 /\ r = candidate name k /\
    checked_path path r ext = Ok p /\ file_exists k p = false /\
    forall j, j < k -> exists p', checked_path path (candidate name j) ext = Ok p' /\ file_exists j p' = true.
Proof.
  intros path name ext r H. unfold coco_create_unique_filename in H.
  apply bind_Ok in H as (p & H1 & H). destruct (file_exists 0 p) eqn:E.
  - apply unique_filename_loop_spec in H as (k & p' & Hk & -> & A & B & C); try lia.
    exists k, p'. repeat split; auto; try lia. intros j Hj. destruct j; eauto. apply C. lia.
  - injection H as <-. exists 0, p. repeat split; auto; lia.
Qed.

Lemma unique_filename_short : forall path name ext,
  List.length path < N.to_nat 4097 -> List.length name <= 436 -> List.length name + 5 + List.length ext < N.to_nat 4096 ->
  (exists r, coco_create_unique_filename file_exists path name ext = Ok r) \/
  coco_create_unique_filename file_exists path name ext = Err.
Proof.
  intros path name ext Hp Hn He. unfold coco_create_unique_filename.
  destruct (checked_path_fits path name ext) as (p & -> & _); [lia|lia|]. cbn [bind].
  destruct (file_exists 0 p); [|eauto]. clear p.
  generalize 1. generalize (N.to_nat 9998) as n. induction n as [|n IH]; intros c; [right; reflexivity|].
  cbn [unique_filename_loop]. unfold coco_strdupf at 1 2. rewrite numbered_length.
  destruct (Nat.ltb_spec 443 (List.length name + 5)); [lia|].
  destruct (Nat.ltb_spec 441 (List.length name + 5)); [lia|]. cbn [bind].
  destruct (checked_path_fits path (numbered name c) ext) as (p & -> & _); [lia|rewrite numbered_length; lia|]. cbn [bind].
  destruct (file_exists c p); eauto.
Qed.
End Names.
