(** Proofs about the string functions. *)
From Coq Require Import List Arith NArith ZArith Ascii String Bool Lia.
From Verif Require Import CBase StrModel StrSpec.
Import ListNotations.

Ltac list_eq := simpl; repeat rewrite <- app_assoc; simpl; repeat rewrite <- app_assoc; simpl;
  reflexivity.

(** ** strfind *)

Lemma strfind_match_spec : forall rest base i j pre post,
  base = pre ++ post -> List.length pre = i + j -> List.length rest <= List.length post ->
  strfind_match base i j rest = Ok (is_prefix rest post).
Proof.
  induction rest as [|c rest IH]; intros base i j pre post Hb Hl Hle; simpl; auto.
  destruct post as [|b post]; [simpl in Hle; lia|].
  rewrite <- Hl. rewrite (cget_in base (List.length pre) b)
    by (rewrite Hb; apply nth_error_app_middle).
  simpl bind.
  rewrite (Ascii.eqb_sym b c). destruct (Ascii.eqb_spec c b) as [->|Hne]; simpl; auto.
  apply IH with (pre := pre ++ [b]).
  - rewrite Hb, <- app_assoc. reflexivity.
  - rewrite app_length. simpl. lia.
  - simpl in Hle. lia.
Qed.

Lemma is_prefix_spec : forall p s, is_prefix p s = true <-> exists q, s = p ++ q.
Proof.
  induction p as [|a p IH]; intros s; simpl.
  - split; intros; eauto.
  - destruct s as [|b s]; simpl.
    + split; [easy|]. intros [q Hq]; easy.
    + rewrite andb_true_iff, Ascii.eqb_eq, IH. split.
      * intros [-> [q ->]]. eauto.
      * intros [q Hq]. injection Hq as -> ->. eauto.
Qed.

Lemma occurs_at_prefix : forall pre post t,
  occurs_at (pre ++ post) t (List.length pre) <-> is_prefix t post = true.
Proof.
  intros pre post t. rewrite is_prefix_spec. split.
  - intros (p & q & H & Hl).
    assert (pre = p /\ post = t ++ q) as [-> ->].
    { clear - H Hl. revert p H Hl. induction pre as [|a pre IH]; destruct p as [|b p]; simpl;
      intros H Hl; try discriminate; auto.
      injection H as -> H. injection Hl as Hl. destruct (IH p H Hl) as [-> ->]. auto. }
    eauto.
  - intros [q ->]. exists pre, q. auto.
Qed.

Lemma occurs_at_bound : forall s t i, occurs_at s t i -> i + List.length t <= List.length s.
Proof.
  intros s t i (p & q & -> & <-). rewrite !app_length. lia.
Qed.



(** The result of the outer loop from position i on. *)
Lemma strfind_loop_spec : forall n base seq pre post,
  seq <> [] ->
  base = pre ++ post ->
  List.length post + 1 = n + List.length seq ->
  (exists i, List.length pre <= i /\ occurs_at base seq i /\
             (forall j, List.length pre <= j -> occurs_at base seq j -> i <= j) /\
             strfind_loop base seq (List.length pre) n =
               if (1000000000 <? N.of_nat i)%N then Err else Ok (Z.of_nat i)) \/
  ((forall j, List.length pre <= j -> ~ occurs_at base seq j) /\
   strfind_loop base seq (List.length pre) n = Ok (-1)%Z).
Proof.
  induction n as [|n IH]; intros base seq pre post Hne Hb Hl.
  - right. split; [|reflexivity].
    intros j Hj Ho. apply occurs_at_bound in Ho. subst base. rewrite app_length in Ho. lia.
  - assert (Hseq: List.length seq >= 1) by (destruct seq; simpl; [easy|lia]).
    destruct post as [|b post]; [simpl in Hl; lia|].
    simpl strfind_loop.
    rewrite (cget_in base (List.length pre) b)
      by (subst base; apply nth_error_app_middle).
    destruct seq as [|s0 seq]; [easy|].
    change (cget (s0 :: seq) 0) with (Ok s0).
    cbn [bind].
    assert (Hm: strfind_match base (List.length pre) 0 (s0 :: seq)
                = Ok (is_prefix (s0 :: seq) (b :: post))).
    { eapply strfind_match_spec; eauto. simpl in *. lia. }
    assert (Hnext: is_prefix (s0 :: seq) (b :: post) = false ->
      (exists i, List.length pre <= i /\ occurs_at base (s0 :: seq) i /\
             (forall j, List.length pre <= j -> occurs_at base (s0 :: seq) j -> i <= j) /\
             strfind_loop base (s0 :: seq) (S (List.length pre)) n =
               if (1000000000 <? N.of_nat i)%N then Err else Ok (Z.of_nat i)) \/
      ((forall j, List.length pre <= j -> ~ occurs_at base (s0 :: seq) j) /\
       strfind_loop base (s0 :: seq) (S (List.length pre)) n = Ok (-1)%Z)).
    { intros Hnp.
      assert (Hno: ~ occurs_at base (s0 :: seq) (List.length pre)).
      { subst base. rewrite occurs_at_prefix. congruence. }
      destruct (IH base (s0 :: seq) (pre ++ [b]) post Hne) as [(i & Hi & Ho & Hmin & Hr)|[Hn Hr]].
      - rewrite Hb, <- app_assoc. reflexivity.
      - simpl in *. lia.
      - rewrite app_length in *. simpl in *.
        replace (List.length pre + 1) with (S (List.length pre)) in * by lia.
        left. exists i. repeat split; auto; try lia.
        intros j Hj Hoj. apply Hmin; auto.
        destruct (Nat.eq_dec j (List.length pre)) as [->|]; [contradiction|lia].
      - rewrite app_length in *. simpl in *.
        replace (List.length pre + 1) with (S (List.length pre)) in * by lia.
        right. split; auto. intros j Hj Hoj.
        destruct (Nat.eq_dec j (List.length pre)) as [->|]; [contradiction|].
        apply (Hn j); auto. lia. }
    destruct (Ascii.eqb_spec b s0) as [->|Hbs].
    + rewrite Hm. cbn [bind].
      destruct (is_prefix (s0 :: seq) (s0 :: post)) eqn:Hp; [|apply Hnext; auto].
      left. exists (List.length pre). repeat split; auto.
      subst base. now rewrite occurs_at_prefix.
    + apply Hnext. simpl. apply Ascii.eqb_neq in Hbs. rewrite Ascii.eqb_sym, Hbs. reflexivity.
Qed.

Theorem strfind_correct : forall base seq, seq <> [] ->
  (exists i, first_occurrence base seq i /\
             coco_strfind base seq =
               if (1000000000 <? N.of_nat i)%N then Err else Ok (Z.of_nat i)) \/
  ((forall i, ~ occurs_at base seq i) /\ coco_strfind base seq = Ok (-1)%Z).
Proof.
  intros base seq Hne. unfold coco_strfind.
  destruct (Nat.ltb_spec (List.length base) (List.length seq)) as [Hlt|Hge].
  - right. split; auto. intros i Ho. apply occurs_at_bound in Ho. lia.
  - destruct (strfind_loop_spec (List.length base - List.length seq + 1) base seq [] base)
      as [(i & _ & Ho & Hmin & Hr)|[Hn Hr]]; auto; try lia; simpl in Hr.
    + left. exists i. split; auto. split; auto. intros j Hj. apply Hmin; auto. simpl. lia.
    + right. split; auto. intros i Hi. apply (Hn i); auto. simpl. lia.
Qed.

Lemma strfind_empty_loop : forall n base pre post,
  no_nul base -> base = pre ++ post -> List.length post + 1 = n ->
  strfind_loop base [] (List.length pre) n =
    if (1000000000 <? N.of_nat (List.length base))%N then Err else Ok (Z.of_nat (List.length base)).
Proof.
  induction n as [|n IH]; intros base pre post Hnn Hb Hl; [lia|].
  simpl strfind_loop. change (cget [] 0) with (Ok NUL).
  destruct post as [|b post].
  - rewrite app_nil_r in Hb. subst base. rewrite cget_end. cbn [bind].
    rewrite Ascii.eqb_refl. reflexivity.
  - rewrite (cget_in base (List.length pre) b) by (subst base; apply nth_error_app_middle).
    cbn [bind].
    destruct (Ascii.eqb_spec b NUL) as [->|Hb0].
    + exfalso. apply Hnn. subst base. apply in_app_iff. right. left. auto.
    + replace (S (List.length pre)) with (List.length (pre ++ [b]))
        by (rewrite app_length; simpl; lia).
      apply IH with (post := post); simpl in Hl; try lia; auto.
      rewrite Hb, <- app_assoc. reflexivity.
Qed.

Theorem strfind_empty : forall base, no_nul base -> small base ->
  coco_strfind base [] = Ok (Z.of_nat (List.length base)).
Proof.
  intros base Hn Hs. unfold coco_strfind. simpl.
  rewrite Nat.sub_0_r.
  pose proof (strfind_empty_loop (List.length base + 1) base [] base Hn eq_refl eq_refl) as H.
  simpl in H. rewrite H.
  destruct (N.ltb_spec 1000000000 (N.of_nat (List.length base))); auto.
  unfold small in Hs. lia.
Qed.

(** ** split *)

Lemma pieces_skip : forall d s toks, pieces d s toks -> pieces d (d :: s) toks.
Proof.
  intros d s toks H. inversion H; subst.
  - constructor. constructor; auto.
  - apply (pieces_cons d (d :: ds)); auto.
Qed.

(** Accumulator form: cur is a delimiter-free prefix of the current token (reversed). *)
Lemma strtok_all_pieces : forall d s cur,
  ~ In d cur ->
  match cur with
  | [] => pieces d s (strtok_all d s [])
  | _ => exists w rest toks, s = w ++ rest /\ ~ In d w /\
           (rest = [] \/ exists r, rest = d :: r) /\ pieces d rest toks /\
           strtok_all d s cur = (rev cur ++ w) :: toks
  end.
Proof.
  induction s as [|c s IH]; intros cur Hcur.
  - destruct cur as [|a cur]; simpl.
    + constructor. constructor.
    + exists [], [], []. simpl. rewrite app_nil_r. repeat split; auto; try (intro K; destruct K; fail).
      constructor. constructor.
  - destruct cur as [|a cur].
    + simpl. destruct (Ascii.eqb_spec c d) as [->|Hcd].
      * apply pieces_skip. apply (IH []). easy.
      * destruct (IH [c]) as (w & rest & toks & Hs & Hw & Hr & Hp & He).
        { intros [K|K]; [congruence|destruct K]. }
        rewrite He, Hs. simpl.
        change (c :: w ++ rest) with ([] ++ (c :: w) ++ rest).
        constructor; auto; try easy.
        intros [K|K]; [congruence|contradiction].
    + simpl. destruct (Ascii.eqb_spec c d) as [->|Hcd].
      * exists [], (d :: s), (strtok_all d s []). simpl. rewrite app_nil_r.
        repeat split; auto; try (intro K; destruct K; fail); eauto.
        apply pieces_skip. apply (IH []). easy.
      * destruct (IH (c :: a :: cur)) as (w & rest & toks & Hs & Hw & Hr & Hp & He).
        { intros [K|K]; [congruence|contradiction]. }
        exists (c :: w), rest, toks. subst s. simpl. repeat split; auto.
        { intros [K|K]; [congruence|contradiction]. }
        rewrite He. simpl. f_equal. rewrite <- !app_assoc. reflexivity.
Qed.

Lemma count_char_app : forall d s t, count_char d (s ++ t) = count_char d s + count_char d t.
Proof. induction s; simpl; intros; auto. rewrite IHs. lia. Qed.

Lemma count_char_notin : forall d s, ~ In d s -> count_char d s = 0.
Proof.
  induction s; simpl; intros; auto. destruct (Ascii.eqb_spec a d); [exfalso; auto|].
  apply IHs. auto.
Qed.


(** Direct bound on the number of tokens. *)
Lemma strtok_all_count : forall d s cur,
  List.length (strtok_all d s cur) <= count_char d s + 1.
Proof.
  induction s as [|c s IH]; intros cur; simpl.
  - destruct cur; simpl; lia.
  - destruct (Ascii.eqb c d).
    + destruct cur; simpl; [specialize (IH []); lia|specialize (IH []); lia].
    + apply IH.
Qed.

Theorem split_correct : forall s d,
  exists toks, coco_string_split s d = Ok toks /\ pieces d s toks.
Proof.
  intros s d. unfold coco_string_split. exists (strtok_all d s []). split.
  - pose proof (strtok_all_count d s []).
    destruct (Nat.ltb_spec (List.length (strtok_all d s [])) (1 + count_char d s + 1)); auto. lia.
  - apply (strtok_all_pieces d s []). easy.
Qed.

Lemma Forall_eq_app_inv : forall (d : ascii) ds1 w1 ds2 w2,
  Forall (eq d) ds1 -> Forall (eq d) ds2 ->
  (w1 = [] \/ exists c t, w1 = c :: t /\ c <> d) ->
  (w2 = [] \/ exists c t, w2 = c :: t /\ c <> d) ->
  ds1 ++ w1 = ds2 ++ w2 -> ds1 = ds2 /\ w1 = w2.
Proof.
  induction ds1 as [|a ds1 IH]; intros w1 ds2 w2 F1 F2 H1 H2 E.
  - destruct ds2 as [|b ds2]; auto. simpl in E.
    inversion F2; subst. destruct H1 as [H1|(c & t & H1 & Hc)]; congruence.
  - inversion F1; subst. destruct ds2 as [|b ds2].
    + simpl in E. destruct H2 as [->|(c & t & -> & Hc)]; [discriminate|].
      injection E as -> _. congruence.
    + simpl in E. injection E as <- E. inversion F2; subst.
      destruct (IH w1 ds2 w2) as [-> ->]; auto.
Qed.

Lemma notin_app_inv : forall (d : ascii) w1 r1 w2 r2,
  ~ In d w1 -> ~ In d w2 ->
  (r1 = [] \/ exists r, r1 = d :: r) -> (r2 = [] \/ exists r, r2 = d :: r) ->
  w1 ++ r1 = w2 ++ r2 -> w1 = w2 /\ r1 = r2.
Proof.
  induction w1 as [|a w1 IH]; intros r1 w2 r2 N1 N2 H1 H2 E.
  - destruct w2 as [|b w2]; auto. simpl in E. exfalso. apply N2.
    destruct H1 as [->|[r ->]]; [discriminate|]. injection E as -> _. left; auto.
  - destruct w2 as [|b w2].
    + simpl in E. exfalso. apply N1. destruct H2 as [->|[r ->]]; [discriminate|].
      injection E as -> _. left; auto.
    + simpl in E. injection E as <- E.
      destruct (IH r1 w2 r2) as [-> ->]; auto; intro K; [apply N1|apply N2]; right; auto.
Qed.

Theorem pieces_unique : forall d s t1, pieces d s t1 -> forall t2, pieces d s t2 -> t1 = t2.
Proof.
  intros d s t1 H. induction H; intros t2 H'.
  - inversion H'; subst; auto.
    exfalso. destruct w as [|c w]; [auto|].
    rewrite Forall_app in H. destruct H as [_ H]. inversion H; subst. apply H2. left. auto.
  - assert (Hw: exists c t, w ++ rest = c :: t /\ c <> d).
    { destruct w as [|c w]; [easy|]. simpl. do 2 eexists. split; eauto.
      intros ->. apply H1. left. auto. }
    inversion H' as [ds2 F2 E|ds2 w2 rest2 toks2 F2 N2 I2 R2 P2 E]; subst.
    + exfalso. destruct Hw as (c & t & Hw & Hc). rewrite Forall_app in F2. destruct F2 as [_ F2].
      rewrite Hw in F2. inversion F2; subst. congruence.
    + assert (Hw2: exists c t, w2 ++ rest2 = c :: t /\ c <> d).
      { destruct w2 as [|c w2]; [easy|]. simpl. do 2 eexists. split; eauto.
        intros ->. apply I2. left. auto. }
      destruct (Forall_eq_app_inv d ds2 (w2 ++ rest2) ds (w ++ rest)) as [-> E2]; auto.
      destruct (notin_app_inv d w2 rest2 w rest) as [-> ->]; auto.
      f_equal. auto.
Qed.

(** ** strstr and remove_from_string *)

Lemma strstr_correct : forall s t,
  match strstr s t with
  | Some i => first_occurrence s t i
  | None => forall i, ~ occurs_at s t i
  end.
Proof.
  induction s as [|c s IH]; intros t; simpl.
  - destruct (is_prefix t []) eqn:Hp.
    + split; [apply (occurs_at_prefix [] [] t); auto|]. intros; lia.
    + intros i Ho. pose proof (occurs_at_bound _ _ _ Ho). simpl in H.
      assert (i = 0) as -> by lia.
      apply (occurs_at_prefix [] [] t) in Ho. congruence.
  - destruct (is_prefix t (c :: s)) eqn:Hp.
    + split; [apply (occurs_at_prefix [] (c :: s) t); auto|]. intros; lia.
    + assert (Hsh: forall i, occurs_at (c :: s) t (S i) <-> occurs_at s t i).
      { intros i. split.
        - intros (p & q & E & L). destruct p as [|a p]; [discriminate|].
          injection E as -> E. injection L as L. exists p, q. auto.
        - intros (p & q & E & L). exists (c :: p), q. simpl. subst. auto. }
      assert (H0: ~ occurs_at (c :: s) t 0).
      { intros H0. apply (occurs_at_prefix [] (c :: s) t) in H0. congruence. }
      specialize (IH t). destruct (strstr s t) as [i|]; simpl.
      * destruct IH as [Ho Hm]. split; [apply Hsh; auto|].
        intros [|j] Hj; [contradiction|]. apply Hsh, Hm in Hj. lia.
      * intros [|i] Hi; [contradiction|]. apply Hsh in Hi. apply (IH i); auto.
Qed.

(** ** trim *)

Lemma mget_middle : forall A (p : list A) x q, mget (p ++ x :: q) (List.length p) = Ok x.
Proof. intros. unfold mget. rewrite nth_error_app_middle. reflexivity. Qed.

Lemma isspace_ascii7 : forall c, isspace c = true -> code c < 128.
Proof.
  intros c. unfold isspace. rewrite orb_true_iff, andb_true_iff, !Nat.leb_le, Nat.eqb_eq. lia.
Qed.

Lemma isspace_char_space : forall c, isspace c = true -> isspace_char c = Ok true.
Proof.
  intros c H. unfold isspace_char, high_char. rewrite H. apply isspace_ascii7 in H.
  destruct (Nat.leb_spec 128 (code c)); auto. lia.
Qed.

Lemma isspace_NUL : isspace NUL = false.
Proof. reflexivity. Qed.

Lemma blank_decompose : forall s,
  blank s \/ exists l c m r, s = l ++ (c :: m) ++ r /\ blank l /\ blank r /\ isspace c = false /\
                             trimmed (c :: m).
Proof.
  assert (Hfront: forall s, blank s \/ exists l c t, s = l ++ c :: t /\ blank l /\ isspace c = false).
  { induction s as [|a s [IH|(l & c & t & -> & Hl & Hc)]].
    - left. constructor.
    - destruct (isspace a) eqn:Ha.
      + left. constructor; auto.
      + right. exists [], a, s. repeat split; auto. constructor.
    - destruct (isspace a) eqn:Ha.
      + right. exists (a :: l), c, t. repeat split; auto. constructor; auto.
      + right. exists [], a, (l ++ c :: t). repeat split; auto. constructor. }
  assert (Hback: forall t c, isspace c = false ->
    exists m r, c :: t = (c :: m) ++ r /\ blank r /\ trimmed (c :: m)).
  { intros t c Hc. induction t as [|a t IH] using rev_ind.
    - exists [], []. repeat split; auto; try constructor.
      + intros c0 r E. congruence.
      + intros l c0 E. destruct l as [|x [|y l]]; simpl in E; congruence.
    - destruct IH as (m & r & E & Hr & Ht).
      destruct (isspace a) eqn:Ha.
      + exists m, (r ++ [a]). repeat split.
        * change (c :: t ++ [a]) with ((c :: t) ++ [a]). rewrite E, <- app_assoc. reflexivity.
        * apply Forall_app; split; [assumption|constructor; auto].
        * apply Ht.
        * apply Ht.
      + exists (t ++ [a]), []. repeat split.
        * now rewrite app_nil_r.
        * constructor.
        * intros c0 r0 E0. congruence.
        * intros l0 c0 E0. change (c :: t ++ [a]) with ((c :: t) ++ [a]) in E0.
          apply app_inj_tail in E0 as [_ ->]. auto. }
  intros s. destruct (Hfront s) as [H|(l & c & t & -> & Hl & Hc)]; [left; auto|right].
  destruct (Hback t c Hc) as (m & r & E & Hr & Ht).
  exists l, c, m, r. rewrite E. auto.
Qed.

Lemma all_ws_blank : forall s pre post, blank s ->
  trim_all_ws (pre ++ s ++ post) (List.length pre) (List.length s) = Ok true.
Proof.
  induction s as [|c s IH]; intros pre post Hb; simpl; auto.
  inversion Hb; subst. rewrite mget_middle. simpl. rewrite isspace_char_space by auto. simpl.
  replace (pre ++ c :: s ++ post) with ((pre ++ [c]) ++ s ++ post)
    by (rewrite <- app_assoc; reflexivity).
  replace (S (List.length pre)) with (List.length (pre ++ [c])) by (rewrite app_length; simpl; lia).
  apply IH; auto.
Qed.

Lemma all_ws_nonblank : forall l pre c t n, blank l -> isspace c = false ->
  List.length l < n ->
  trim_all_ws (pre ++ l ++ c :: t) (List.length pre) n = if high_char c then UB else Ok false.
Proof.
  induction l as [|a l IH]; intros pre c t n Hb Hc Hn; (destruct n as [|n]; [simpl in Hn; lia|]); simpl.
  - rewrite mget_middle. simpl. unfold isspace_char. destruct (high_char c); simpl; auto.
    rewrite Hc. reflexivity.
  - inversion Hb; subst. rewrite mget_middle. simpl. rewrite isspace_char_space by auto. simpl.
    replace (pre ++ a :: l ++ c :: t) with ((pre ++ [a]) ++ l ++ c :: t)
      by (rewrite <- app_assoc; reflexivity).
    replace (S (List.length pre)) with (List.length (pre ++ [a])) by (rewrite app_length; simpl; lia).
    apply IH; auto. simpl in Hn. lia.
Qed.

Lemma trim_front_spec : forall l pre c t n, blank l -> isspace c = false ->
  List.length l < n ->
  trim_front (pre ++ l ++ c :: t) (List.length pre) n = Ok (List.length pre + List.length l).
Proof.
  induction l as [|a l IH]; intros pre c t n Hb Hc Hn; (destruct n as [|n]; [simpl in Hn; lia|]); simpl.
  - rewrite mget_middle. simpl. rewrite Hc. f_equal. lia.
  - inversion Hb; subst. rewrite mget_middle. simpl. rewrite H1.
    replace (pre ++ a :: l ++ c :: t) with ((pre ++ [a]) ++ l ++ c :: t)
      by (rewrite <- app_assoc; reflexivity).
    replace (S (List.length pre)) with (List.length (pre ++ [a])) by (rewrite app_length; simpl; lia).
    rewrite IH; auto; [|simpl in Hn; lia]. f_equal. rewrite app_length. simpl. lia.
Qed.

(** The backwards scan stops at the last non-blank character, whose position is >= frontp. *)
Lemma trim_end_spec : forall r pre c post frontp, blank r -> isspace c = false ->
  frontp <= List.length pre ->
  trim_end (pre ++ c :: r ++ post) (List.length pre + 1 + List.length r) frontp
  = Ok (List.length pre).
Proof.
  induction r as [|a r IH] using rev_ind; intros pre c post frontp Hb Hc Hf.
  - simpl. replace (List.length pre + 1 + 0) with (S (List.length pre)) by lia.
    simpl. rewrite mget_middle. simpl. rewrite Hc. reflexivity.
  - apply Forall_app in Hb as [Hb1 Hb2]. inversion Hb2; subst.
    rewrite app_length. simpl.
    replace (List.length pre + 1 + (List.length r + 1))
      with (S (List.length (pre ++ c :: r))) by (rewrite app_length; simpl; lia).
    simpl.
    replace (pre ++ c :: (r ++ [a]) ++ post) with ((pre ++ c :: r) ++ a :: post)
      by (rewrite <- app_assoc; simpl; rewrite <- app_assoc; reflexivity).
    rewrite mget_middle. simpl. rewrite H1. simpl.
    destruct (Nat.eqb_spec (List.length (pre ++ c :: r)) frontp) as [E|E].
    + rewrite app_length in E. simpl in E. lia.
    + simpl. rewrite <- app_assoc. simpl.
      replace (List.length (pre ++ c :: r)) with (List.length pre + 1 + List.length r)
        by (rewrite app_length; simpl; lia).
      apply (IH pre c (a :: post)); auto.
Qed.

Lemma trim_shift_spec : forall todo done g rest n,
  no_nul todo -> 1 <= List.length g -> List.length todo < n ->
  exists g', List.length g' = List.length g /\
  trim_shift (done ++ g ++ todo ++ NUL :: rest) (List.length done)
             (List.length done + List.length g) n
  = Ok ((done ++ todo) ++ g' ++ NUL :: rest, List.length (done ++ todo)).
Proof.
  induction todo as [|c todo IH]; intros done g rest n Hn Hg Hl;
    (destruct n as [|n]; [simpl in Hl; lia|]).
  - exists g. split; auto. simpl.
    replace (done ++ g ++ NUL :: rest) with ((done ++ g) ++ NUL :: rest)
      by (rewrite <- app_assoc; reflexivity).
    rewrite <- app_length. rewrite mget_middle. simpl. rewrite app_nil_r, <- app_assoc. reflexivity.
  - destruct g as [|x g]; [simpl in Hg; lia|].
    destruct (IH (done ++ [c]) (g ++ [c]) rest n) as (g' & Hg' & E).
    { intro K. apply Hn. right. auto. }
    { rewrite app_length. simpl. lia. }
    { simpl in Hl. lia. }
    exists g'. split. { rewrite Hg', app_length. simpl. lia. }
    cbn [trim_shift].
    replace (done ++ (x :: g) ++ (c :: todo) ++ NUL :: rest)
      with ((done ++ x :: g) ++ c :: todo ++ NUL :: rest)
      by (rewrite <- app_assoc; reflexivity).
    rewrite <- app_length. rewrite mget_middle. cbn [bind].
    destruct (Ascii.eqb_spec c NUL) as [->|Hc].
    { exfalso. apply Hn. left. auto. }
    replace ((done ++ x :: g) ++ c :: todo ++ NUL :: rest)
      with (done ++ x :: (g ++ c :: todo ++ NUL :: rest))
      by (rewrite <- app_assoc; reflexivity).
    rewrite mset_app_middle. cbn [bind].
    replace (S (List.length done)) with (List.length (done ++ [c])) by (rewrite app_length; simpl; lia).
    replace (S (List.length (done ++ x :: g)))
      with (List.length (done ++ [c]) + List.length (g ++ [c])) by (rewrite !app_length; simpl; lia).
    replace (done ++ c :: g ++ c :: todo ++ NUL :: rest)
      with ((done ++ [c]) ++ (g ++ [c]) ++ todo ++ NUL :: rest)
      by list_eq.
    rewrite E. replace ((done ++ [c]) ++ todo) with (done ++ c :: todo) by list_eq. reflexivity.
Qed.

Theorem trim_blank : forall s, blank s -> coco_string_trim s = Ok [].
Proof.
  intros [|c s] H; [reflexivity|].
  unfold coco_string_trim.
  pose proof (all_ws_blank (c :: s) [] [NUL] H) as E. simpl app in E. simpl List.length in *.
  change ((c :: s) ++ [NUL]) with (c :: s ++ [NUL]). rewrite E. cbn [bind]. reflexivity.
Qed.

Lemma no_nul_app : forall a b, no_nul (a ++ b) <-> no_nul a /\ no_nul b.
Proof. intros. unfold no_nul. rewrite in_app_iff. tauto. Qed.

Theorem trim_general : forall l c m r,
  no_nul (l ++ (c :: m) ++ r) -> blank l -> blank r -> isspace c = false -> trimmed (c :: m) ->
  coco_string_trim (l ++ (c :: m) ++ r) = if high_char c then UB else Ok (c :: m).
Proof.
  intros l c m r Hnn Hl Hr Hc Ht.
  set (s := l ++ (c :: m) ++ r).
  assert (Hs: coco_string_trim s =
    let len := List.length s in
      let buf := s ++ [NUL] in
      do allws <- trim_all_ws buf 0 len;
      if allws then Ok (cstr_of (upd buf 0 NUL))
      else
        do frontp <- trim_front buf 0 (len + 1);
        do endp <- (if len =? frontp then Ok len else trim_end buf len frontp);
        do buf1 <- (if negb (len - 1 =? endp) then mset buf (endp + 1) NUL
                    else if negb (frontp =? 0) && (endp =? frontp)
                         then mset buf 0 NUL else Ok buf);
        if negb (frontp =? 0) then
          do (buf2, e2) <- trim_shift buf1 0 frontp (len + 1);
          do buf3 <- mset buf2 e2 NUL;
          Ok (cstr_of buf3)
        else Ok (cstr_of buf1)).
  { unfold s. destruct l; reflexivity. }
  rewrite Hs. cbv zeta. clear Hs.
  assert (Hlen: List.length s = List.length l + 1 + List.length m + List.length r).
  { unfold s. rewrite !app_length. simpl. lia. }
  assert (Hbuf: s ++ [NUL] = l ++ c :: (m ++ r ++ [NUL])).
  { unfold s. rewrite <- !app_assoc. reflexivity. }
  pose proof (all_ws_nonblank l [] c (m ++ r ++ [NUL]) (List.length s) Hl Hc ltac:(lia)) as E1.
  simpl app in E1. simpl List.length in E1 at 1. rewrite <- Hbuf in E1.
  change (trim_all_ws (s ++ [NUL]) 0 (List.length s) = if high_char c then UB else Ok false) in E1.
  rewrite E1. destruct (high_char c); [reflexivity|]. cbn [bind].
  pose proof (trim_front_spec l [] c (m ++ r ++ [NUL]) (List.length s + 1) Hl Hc ltac:(lia)) as E2.
  simpl app in E2. rewrite <- Hbuf in E2. simpl in E2. rewrite E2. cbn [bind].
  destruct (Nat.eqb_spec (List.length s) (List.length l)); [lia|].
  (* last character of c :: m *)
  destruct (@exists_last _ (c :: m)) as (t & z & Htz); [easy|].
  assert (Hz: isspace z = false) by (apply (proj2 Ht t z); auto).
  assert (Htl: List.length t = List.length m).
  { apply (f_equal (@List.length ascii)) in Htz. rewrite app_length in Htz. simpl in Htz. lia. }
  assert (Hbuf2: s ++ [NUL] = (l ++ t) ++ z :: r ++ [NUL]).
  { unfold s. rewrite Htz, <- !app_assoc. reflexivity. }
  pose proof (trim_end_spec r (l ++ t) z [NUL] (List.length l) Hr Hz) as E3.
  rewrite app_length in E3. rewrite <- Hbuf2 in E3.
  replace (List.length l + List.length t + 1 + List.length r) with (List.length s) in E3 by lia.
  rewrite E3 by lia. cbn [bind]. clear E1 E2 E3.
  assert (Hcm: no_nul (c :: m)). { apply no_nul_app in Hnn as [_ H]. apply no_nul_app in H. tauto. }
  (* after the conditional stores the buffer is: (cells) ++ c :: m ++ NUL :: rest, with the same
     number of cells in front, and unchanged front cells if frontp = 0 *)
  assert (Hst: exists l' rest,
    List.length l' = List.length l /\
    (if negb (List.length s - 1 =? List.length l + List.length t)
     then mset (s ++ [NUL]) (List.length l + List.length t + 1) NUL
     else if negb (List.length l =? 0) && (List.length l + List.length t =? List.length l)
          then mset (s ++ [NUL]) 0 NUL else Ok (s ++ [NUL]))
    = Ok (l' ++ (c :: m) ++ NUL :: rest)).
  { destruct r as [|x r].
    - simpl in Hlen. replace (List.length s - 1) with (List.length l + List.length t) by lia.
      rewrite Nat.eqb_refl. simpl negb. cbv iota.
      assert (Hb0: s ++ [NUL] = l ++ (c :: m) ++ [NUL]).
      { unfold s. rewrite app_nil_r, <- app_assoc. reflexivity. }
      rewrite Hb0.
      destruct (negb (List.length l =? 0) && (List.length l + List.length t =? List.length l)) eqn:Eb.
      + destruct l as [|x l]; [discriminate|].
        exists (NUL :: l), []. split; auto.
      + exists l, []. split; auto.
    - simpl in Hlen.
      destruct (Nat.eqb_spec (List.length s - 1) (List.length l + List.length t)); [lia|].
      simpl negb. cbv iota.
      exists l, (r ++ [NUL]). split; auto.
      assert (Hb0: s ++ [NUL] = (l ++ c :: m) ++ x :: r ++ [NUL]).
      { unfold s. list_eq. }
      rewrite Hb0.
      replace (List.length l + List.length t + 1) with (List.length (l ++ c :: m))
        by (rewrite app_length; simpl; lia).
      rewrite mset_app_middle, <- app_assoc. reflexivity. }
  destruct Hst as (l' & rest & Hl' & E). rewrite E. cbn [bind]. clear E.
  destruct (Nat.eqb_spec (List.length l) 0) as [E0|E0]; simpl negb; cbv iota.
  - destruct l'; [|simpl in Hl'; lia]. simpl app.
    f_equal. apply (cstr_of_app_nul (c :: m) rest Hcm).
  - destruct (trim_shift_spec (c :: m) [] l' rest (List.length s + 1)) as (g' & Hg' & E); auto.
    { lia. } { simpl. lia. }
    simpl List.length in E at 1 2. rewrite Hl' in E. simpl plus in E.
    change (trim_shift (l' ++ (c :: m) ++ NUL :: rest) 0 (List.length l) (List.length s + 1) =
            Ok ((c :: m) ++ g' ++ NUL :: rest, List.length (c :: m))) in E.
    rewrite E. cbn [bind].
    destruct g' as [|x g']; [simpl in Hg'; lia|].
    change ((x :: g') ++ NUL :: rest) with (x :: g' ++ NUL :: rest).
    rewrite (mset_app_middle _ (c :: m) x (g' ++ NUL :: rest) NUL). cbn [bind].
    f_equal. apply (cstr_of_app_nul (c :: m) _ Hcm).
Qed.

Lemma trimmed_unique : forall l1 t1 r1 l2 t2 r2,
  blank l1 -> blank r1 -> trimmed t1 -> blank l2 -> blank r2 -> trimmed t2 ->
  l1 ++ t1 ++ r1 = l2 ++ t2 ++ r2 -> t1 = t2.
Proof.
  assert (Hfront: forall l1 u1 l2 u2, blank l1 -> blank l2 ->
    (u1 = [] \/ exists c t, u1 = c :: t /\ isspace c = false) ->
    (u2 = [] \/ exists c t, u2 = c :: t /\ isspace c = false) ->
    l1 ++ u1 = l2 ++ u2 -> u1 = u2).
  { induction l1 as [|a l1 IH]; intros u1 l2 u2 B1 B2 H1 H2 E.
    - destruct l2 as [|b l2]; auto. simpl in E. inversion B2; subst.
      destruct H1 as [H1|(c & t & H1 & Hc)]; congruence.
    - inversion B1; subst. destruct l2 as [|b l2].
      + simpl in E. destruct H2 as [->|(c & t & -> & Hc)]; congruence.
      + simpl in E. injection E as <- E. inversion B2; subst. eapply IH; eauto. }
  assert (Hnb: forall t r, trimmed t -> t <> [] ->
     exists c u, t ++ r = c :: u /\ isspace c = false).
  { intros [|c t] r [H _] Hne; [easy|]. simpl. do 2 eexists. split; eauto. }
  assert (Hrev: forall s, blank (rev s) <-> blank s).
  { intros. unfold blank. rewrite !Forall_forall. split; intros H x Hx; apply H.
    - now rewrite <- in_rev.
    - now rewrite in_rev. }
  assert (Hcase: forall l1 r1 l2 t2 r2, blank l1 -> blank r1 -> blank l2 -> blank r2 ->
     trimmed t2 -> l1 ++ r1 = l2 ++ t2 ++ r2 -> t2 = []).
  { intros l1 r1 l2 t2 r2 B1 B2 B3 B4 T E. destruct t2 as [|c t2]; auto. exfalso.
    assert (Forall (fun c => isspace c = true) (l2 ++ (c :: t2) ++ r2)).
    { rewrite <- E. apply Forall_app. auto. }
    rewrite !Forall_app in H. destruct H as (_ & H & _). inversion H; subst.
    rewrite (proj1 T c t2 eq_refl) in H2. discriminate. }
  intros l1 t1 r1 l2 t2 r2 B1 B2 T1 B3 B4 T2 E.
  destruct t1 as [|c1 t1]; [symmetry; apply (Hcase l1 r1 l2 t2 r2); auto|].
  destruct t2 as [|c2 t2]; [symmetry in E; apply (Hcase l2 r2 l1 (c1 :: t1) r1); auto|].
  assert (E2: (c1 :: t1) ++ r1 = (c2 :: t2) ++ r2).
  { eapply Hfront; [apply B1|apply B3| | |exact E]; right.
    - apply Hnb; auto. easy.
    - apply Hnb; auto. easy. }
  apply (f_equal (@rev ascii)) in E2. rewrite !rev_app_distr in E2.
  assert (Hlast: forall t, trimmed t -> t <> [] -> exists c u, rev t = c :: u /\ isspace c = false).
  { intros t T Hne. destruct (@exists_last _ t Hne) as (u & z & ->).
    rewrite rev_app_distr. simpl. do 2 eexists. split; eauto. apply (proj2 T u z eq_refl). }
  apply Hfront in E2.
  - apply (f_equal (@rev ascii)) in E2. now rewrite !rev_involutive in E2.
  - now apply Hrev.
  - now apply Hrev.
  - right. apply Hlast; auto. easy.
  - right. apply Hlast; auto. easy.
Qed.

(** ** parse_ranges *)
From Coq Require Import ZifyBool ZifyNat ZifyN.

Lemma digit_val_eq : forall c, digit_val c = (N_of_ascii c - 48)%N.
Proof. intros c. unfold digit_val, code, nat_of_ascii. lia. Qed.

Lemma strtol_acc_spec : forall s acc, digits s -> (acc <= LONG_MAX)%N ->
  strtol_acc acc s = N.min (acc * pow10 (List.length s) + dec s) LONG_MAX.
Proof.
  induction s as [|c s IH]; intros acc Hd Ha.
  - cbn [strtol_acc pow10 List.length dec]. lia.
  - inversion Hd as [|? ? Hc Hs]; subst. cbn [strtol_acc]. rewrite Hc, digit_val_eq.
    rewrite IH; auto; [|lia].
    cbn [pow10 List.length dec].
    set (v := (N_of_ascii c - 48)%N). set (k := pow10 (List.length s)).
    assert (Hk: (1 <= k)%N). { unfold k. clear. induction s; cbn [pow10 List.length]; lia. }
    destruct (N.le_gt_cases (10 * acc + v) LONG_MAX) as [H|H].
    + replace (N.min LONG_MAX (10 * acc + v)) with (10 * acc + v)%N by lia. f_equal. nia.
    + replace (N.min LONG_MAX (10 * acc + v)) with LONG_MAX by lia.
      rewrite (N.min_r _ LONG_MAX) by nia.
      rewrite (N.min_r _ LONG_MAX) by nia. reflexivity.
Qed.

Lemma strtol_digits : forall s, digits s -> strtol s = number s.
Proof.
  intros s H. unfold strtol, number. rewrite strtol_acc_spec; auto; try (unfold LONG_MAX; lia).
Qed.

Lemma digit_not_dash : forall c, isdigit c = true -> c <> DASH.
Proof. intros c H ->. discriminate. Qed.

Lemma digits_no_dash : forall s, digits s -> ~ In DASH s.
Proof.
  intros s H K. unfold digits in H. rewrite Forall_forall in H. apply H in K. discriminate.
Qed.

Definition dash_or_digit (c : ascii) : Prop := c = DASH \/ isdigit c = true.

(** Every piece consists of digits, or has one dash between digit strings, or two dashes. *)
Lemma piece_cases : forall p, Forall dash_or_digit p ->
  digits p \/
  (exists a b, digits a /\ digits b /\ p = a ++ DASH :: b) \/
  (exists a b c, p = a ++ DASH :: b ++ DASH :: c).
Proof.
  induction p as [|c p IH]; intros H.
  - left. constructor.
  - inversion H as [|? ? Hc Hp]; subst. destruct (IH Hp) as [D|[(a & b & Da & Db & ->)|(a & b & e & ->)]].
    + destruct Hc as [->|Hc].
      * right. left. exists [], p. repeat split; auto. constructor.
      * left. constructor; auto.
    + destruct Hc as [->|Hc].
      * right. right. exists [], a, b. reflexivity.
      * right. left. exists (c :: a), b. repeat split; auto. constructor; auto.
    + right. right. exists (c :: a), b, e. reflexivity.
Qed.

Theorem means_total : forall p, p <> [] -> Forall dash_or_digit p -> exists m, means p m.
Proof.
  intros p Hne H. destruct (piece_cases p H) as [D|[(a & b & Da & Db & ->)|(a & b & e & ->)]].
  - eexists. apply means_single; auto.
  - eexists. apply means_range; auto.
  - eexists. apply means_bad.
Qed.

Lemma count_dash_digits : forall s, digits s -> count_char DASH s = 0.
Proof. intros. apply count_char_notin. now apply digits_no_dash. Qed.

Lemma count_dash_range : forall a b, digits a -> digits b -> count_char DASH (a ++ DASH :: b) = 1.
Proof.
  intros. rewrite count_char_app. simpl. rewrite !count_dash_digits by auto. reflexivity.
Qed.

Lemma count_dash_bad : forall a b c, 2 <= count_char DASH (a ++ DASH :: b ++ DASH :: c).
Proof.
  intros. rewrite count_char_app. simpl. rewrite count_char_app. simpl. lia.
Qed.

Lemma split_range_dash : forall a b, digits a -> digits b ->
  strtok_all DASH (a ++ DASH :: b) [] =
    (match a with [] => [] | _ => [a] end) ++ (match b with [] => [] | _ => [b] end).
Proof.
  intros a b Ha Hb.
  apply (pieces_unique DASH (a ++ DASH :: b)).
  - apply (strtok_all_pieces DASH (a ++ DASH :: b) []). easy.
  - assert (Hbp: pieces DASH (DASH :: b) (match b with [] => [] | _ => [b] end)).
    { destruct b as [|x b].
      - constructor. constructor; auto.
      - replace (DASH :: x :: b) with ([DASH] ++ (x :: b) ++ []) by (rewrite app_nil_r; reflexivity).
        constructor; auto; try easy.
        + now apply digits_no_dash.
        + constructor. constructor. }
    destruct a as [|x a]; simpl app at 2; auto.
    change (((x :: a) ++ DASH :: b)) with ([] ++ (x :: a) ++ DASH :: b).
    constructor; auto; try easy.
    + now apply digits_no_dash.
    + right. eauto.
Qed.

Lemma clamp_lo_max : forall min n, clamp_lo min n = N.max n min.
Proof. intros. unfold clamp_lo. destruct (N.ltb_spec 0 min), (N.ltb_spec n min); simpl; lia. Qed.

Lemma clamp_hi_min : forall max n, clamp_hi max n = if (max =? 0)%N then n else N.min n max.
Proof.
  intros. unfold clamp_hi.
  destruct (N.ltb_spec 0 max), (N.ltb_spec max n), (N.eqb_spec max 0); simpl; lia.
Qed.

(** What reading a piece yields, in terms of its meaning. *)
Lemma read_range_spec : forall p m min max, p <> [] -> means p m ->
  exists rr, read_range p min max = Ok rr /\
  interval_of min max m =
    match rr with
    | RStop => None
    | RNums n0 n1 =>
        if (clamp_hi max n1 <? clamp_lo min n0)%N then None
        else Some (clamp_lo min n0, clamp_hi max n1)
    end.
Proof.
  intros p m min max Hne Hm. unfold read_range.
  assert (Hfin: forall l h,
    (if (N.max l min <=? (if (max =? 0)%N then h else N.min h max))%N
     then Some (N.max l min, if (max =? 0)%N then h else N.min h max) else None)
    = (if (clamp_hi max h <? clamp_lo min l)%N then None
       else Some (clamp_lo min l, clamp_hi max h))).
  { intros l h. rewrite clamp_lo_max, clamp_hi_min.
    rewrite N.ltb_antisym. destruct (_ <=? _)%N; reflexivity. }
  inversion Hm as [q Hq Hd E1 E2|a b Ha Hb E1 E2|a b c E1 E2]; subst.
  - rewrite count_dash_digits by auto. simpl.
    eexists. split; eauto. rewrite strtol_digits by auto. simpl. apply Hfin.
  - rewrite count_dash_range by auto. simpl Nat.ltb. simpl Nat.eqb. cbv iota.
    unfold coco_string_split. rewrite split_range_dash, count_dash_range by auto.
    destruct a as [|x a]; destruct b as [|y b]; cbn [app List.length Nat.add Nat.ltb Nat.leb bind].
    + unfold bound. simpl interval_of. unfold bound.
      destruct (min =? 0)%N eqn:E0; simpl orb; cbv iota.
      * eexists. split; eauto.
      * destruct (max =? 0)%N eqn:E1; cbv iota.
        -- eexists. split; eauto.
        -- eexists. split; eauto. cbv iota. apply (Hfin min max).
    + replace (Ascii.eqb "-"%char DASH) with true by reflexivity. cbv iota.
      simpl interval_of. unfold bound. rewrite strtol_digits by auto.
      destruct (min =? 0)%N eqn:E0.
      * eexists. split; eauto.
      * eexists. split; eauto. apply Hfin.
    + inversion Ha as [|? ? Hx Ha']; subst.
      assert (Ex: Ascii.eqb x DASH = false).
      { apply Ascii.eqb_neq. now apply digit_not_dash. }
      rewrite Ex. simpl interval_of. unfold bound. rewrite strtol_digits by auto.
      destruct (max =? 0)%N eqn:E0.
      * eexists. split; eauto.
      * eexists. split; eauto. cbv iota.
        apply (Hfin (number (x :: a)) max).
    + rewrite !strtol_digits by auto. eexists. split; eauto. simpl interval_of. apply Hfin.
  - pose proof (count_dash_bad a b c) as Hc.
    change "-"%char with DASH in *.
    destruct (Nat.ltb_spec 1 (count_char DASH (a ++ DASH :: b ++ DASH :: c))); [|lia].
    eexists. split; eauto.
Qed.

(** The write loop appends the first numbers of the interval, as many as there is room for. *)
Lemma numbers_between_cons : forall lo hi, (lo <= hi)%N ->
  numbers_between lo hi = lo :: numbers_between (lo + 1) hi.
Proof.
  intros lo hi H. unfold numbers_between.
  replace (N.to_nat (hi + 1 - lo)) with (S (N.to_nat (hi + 1 - (lo + 1)))) by lia.
  simpl. f_equal; [lia|].
  rewrite <- seq_shift, map_map. apply map_ext. intros. lia.
Qed.

Lemma numbers_between_nil : forall lo hi, (hi < lo)%N -> numbers_between lo hi = [].
Proof.
  intros. unfold numbers_between. replace (N.to_nat (hi + 1 - lo)) with 0 by lia. reflexivity.
Qed.

Lemma write_range_spec : forall n l k j hi,
  n < k ->
  write_range (map Some l ++ repeat None k) (List.length l) n j hi =
  Ok (let l' := l ++ firstn n (numbers_between j hi) in
      (map Some l' ++ repeat None (k - (List.length l' - List.length l)), List.length l')).
Proof.
  induction n as [|n IH]; intros l k j hi Hk.
  - cbn [write_range]. rewrite firstn_O, app_nil_r. cbv zeta.
    rewrite Nat.sub_diag, Nat.sub_0_r. destruct (j <=? hi)%N; reflexivity.
  - cbn [write_range]. destruct (N.leb_spec j hi) as [H|H].
    + destruct k as [|k]; [lia|]. cbn [repeat].
      rewrite <- (map_length (@Some N) l), mset_app_middle, map_length. cbn [bind].
      replace (map Some l ++ Some j :: repeat None k) with (map Some (l ++ [j]) ++ repeat None k)
        by (rewrite map_app, <- app_assoc; reflexivity).
      replace (S (List.length l)) with (List.length (l ++ [j])) by (rewrite app_length; simpl; lia).
      rewrite IH by lia. cbv zeta.
      rewrite (numbers_between_cons j hi) by auto. cbn [firstn].
      replace (l ++ j :: firstn n (numbers_between (j + 1) hi))
        with ((l ++ [j]) ++ firstn n (numbers_between (j + 1) hi)) by list_eq.
      f_equal. f_equal. f_equal. f_equal. rewrite !app_length. cbn [List.length]. lia.
    + rewrite numbers_between_nil by auto. rewrite firstn_nil, app_nil_r. cbv zeta.
      rewrite Nat.sub_diag, Nat.sub_0_r. reflexivity.
Qed.

Lemma ranges_loop_spec : forall toks ms min max mc l,
  Forall (fun p => p <> []) toks -> Forall2 means toks ms ->
  List.length l <= mc ->
  ranges_loop toks min max mc (map Some l ++ repeat None (mc + 1 - List.length l)) (List.length l) =
  Ok (let l' := firstn mc (l ++ denoted min max ms) in
      (map Some l' ++ repeat None (mc + 1 - List.length l'), List.length l')).
Proof.
  induction toks as [|p toks IH]; intros ms min max mc l Hne Hm Hl.
  - inversion Hm; subst. simpl. rewrite app_nil_r, firstn_all2 by auto. reflexivity.
  - inversion Hm as [|? m ? ms' Hp Hms]; subst. inversion Hne; subst.
    cbn [ranges_loop denoted].
    destruct (read_range_spec p m min max) as (rr & E & Hi); auto.
    rewrite E. cbn [bind]. rewrite Hi.
    assert (Hstop: Ok (map Some l ++ repeat None (mc + 1 - List.length l), List.length l) =
       Ok (let l' := firstn mc (l ++ @nil N) in
      (map Some l' ++ repeat (@None N) (mc + 1 - List.length l'), List.length l'))).
    { cbv zeta. rewrite app_nil_r, firstn_all2 by auto. reflexivity. }
    destruct rr as [|n0 n1]; [exact Hstop|].
    destruct (clamp_hi max n1 <? clamp_lo min n0)%N; [exact Hstop|].
    rewrite write_range_spec by lia. cbv zeta. cbn [bind].
    set (nb := numbers_between (clamp_lo min n0) (clamp_hi max n1)).
    set (l2 := l ++ firstn (mc - List.length l) nb).
    assert (Hl2: List.length l2 <= mc).
    { unfold l2. rewrite app_length. pose proof (firstn_le_length (mc - List.length l) nb). 
      rewrite firstn_length. lia. }
    replace (mc + 1 - List.length l - (List.length l2 - List.length l)) with (mc + 1 - List.length l2)
      by (unfold l2 in *; rewrite app_length in *; lia).
    rewrite (IH ms' min max mc l2) by auto. cbv zeta.
    assert (Hf: firstn mc (l2 ++ denoted min max ms') = firstn mc (l ++ nb ++ denoted min max ms')).
    { rewrite (firstn_app _ l2), (firstn_all2 l2) by auto.
      rewrite (firstn_app _ l), (firstn_all2 l) by auto.
      rewrite (firstn_app _ nb). unfold l2. rewrite <- app_assoc. f_equal. f_equal.
      rewrite app_length, firstn_length. f_equal. lia. }
    rewrite Hf. reflexivity.
Qed.

Lemma allowed_piece : forall s toks, forallb allowed_char s = true -> pieces COMMA s toks ->
  Forall (fun p => p <> [] /\ Forall dash_or_digit p) toks.
Proof.
  intros s toks H P. induction P; [constructor|].
  rewrite !forallb_app in H. apply andb_true_iff in H as [_ H]. apply andb_true_iff in H as [Hw Hr].
  constructor; auto. split; auto.
  apply Forall_forall. intros c Hc. rewrite forallb_forall in Hw. specialize (Hw c Hc).
  unfold allowed_char in Hw. rewrite !orb_true_iff, !Ascii.eqb_eq in Hw.
    destruct Hw as [[Hw|Hw]|Hw]; [left; auto|subst c; contradiction|right; auto].
Qed.

Theorem parse_meaning_exists : forall s toks, forallb allowed_char s = true -> pieces COMMA s toks ->
  exists ms, Forall2 means toks ms.
Proof.
  intros s toks H P. pose proof (allowed_piece s toks H P) as F. clear H P.
  induction F as [|p toks [Hne Hd] F [ms IH]]; [exists []; constructor|].
  destruct (means_total p) as [m Hm]; auto. exists (m :: ms). constructor; auto.
Qed.

Theorem parse_ranges_correct : forall s min max mc toks ms,
  s <> [] -> forallb allowed_char s = true -> ~ (0 < max /\ max < min)%N -> 1 <= mc ->
  pieces COMMA s toks -> Forall2 means toks ms ->
  let l := firstn mc (denoted min max ms) in
  (l = [] /\ coco_string_parse_ranges s min max mc = Ok None) \/
  (l <> [] /\ exists buf, coco_string_parse_ranges s min max mc = Ok (Some buf) /\
              holds buf l (mc + 1)).
Proof.
  intros s min max mc toks ms Hne Hall Hb Hmc Hp Hms l.
  unfold coco_string_parse_ranges. destruct s as [|c s]; [easy|].
  rewrite Hall. cbn [negb].
  replace ((0 <? max)%N && (max <? min)%N) with false by lia.
  destruct (split_correct (c :: s) COMMA) as (toks' & E & Hp').
  rewrite E. cbn [bind]. rewrite (pieces_unique _ _ _ Hp' _ Hp).
  pose proof (ranges_loop_spec toks ms min max mc []) as H. simpl List.length in H.
  rewrite Nat.sub_0_r in H. simpl app in H.
  rewrite H; auto; [|clear - Hall Hp; apply (allowed_piece _ _ Hall) in Hp;
                     eapply Forall_impl; [|exact Hp]; simpl; tauto|lia].
  cbv zeta. fold l. cbn [bind].
  assert (Hl: List.length l <= mc) by (unfold l; rewrite firstn_length; lia).
  destruct l as [|x l'] eqn:El; [left; auto|right]. split; [easy|]. rewrite <- El in *.
  assert (Hnz: List.length l =? 0 = false) by (rewrite El; reflexivity). rewrite Hnz.
  replace (mc + 1 - List.length l) with (S (mc - List.length l)) by lia. cbn [repeat].
  rewrite <- (map_length (@Some N) l), mset_app_middle. cbn [bind].
  eexists. split; eauto. split.
  - rewrite app_length. simpl. rewrite repeat_length, !map_length. lia.
  - eauto.
Qed.

(** Numbers denoted lie within the bounds. *)
Lemma numbers_between_In : forall lo hi n, In n (numbers_between lo hi) <-> (lo <= n <= hi)%N.
Proof.
  intros. unfold numbers_between. rewrite in_map_iff. split.
  - intros (k & <- & Hk). apply in_seq in Hk. lia.
  - intros H. exists (N.to_nat (n - lo)). split; [lia|]. apply in_seq. lia.
Qed.

Lemma denoted_bounds : forall ms min max n, In n (denoted min max ms) ->
  (min <= n)%N /\ (max = 0 \/ n <= max)%N.
Proof.
  induction ms as [|m ms IH]; simpl; intros min max n H; [destruct H|].
  destruct (interval_of min max m) as [[l h]|] eqn:E; [|destruct H].
  apply in_app_iff in H as [H|H]; [|apply IH; auto].
  apply numbers_between_In in H.
  unfold interval_of in E. destruct m as [lo hi|]; [|discriminate].
  destruct (match lo with Some n0 => Some n0 | None => bound min end) as [a|]; [|discriminate].
  destruct (match hi with Some n0 => Some n0 | None => bound max end) as [b|]; [|discriminate].
  destruct (N.max a min <=? _)%N; [|discriminate]. injection E as <- <-.
  destruct (N.eqb_spec max 0); lia.
Qed.

Lemma interval_nonempty : forall min max m l h, interval_of min max m = Some (l, h) -> (l <= h)%N.
Proof.
  intros min max m l h E.
  unfold interval_of in E. destruct m as [lo hi|]; [|discriminate].
  destruct (match lo with Some n0 => Some n0 | None => bound min end) as [a|]; [|discriminate].
  destruct (match hi with Some n0 => Some n0 | None => bound max end) as [b|]; [|discriminate].
  destruct (N.leb_spec (N.max a min) (if (max =? 0)%N then b else N.min b max)); [|discriminate].
  injection E as <- <-. auto.
Qed.

Theorem parse_ranges_safe : forall s min max mc, 1 <= mc ->
  coco_string_parse_ranges s min max mc = Ok None \/
  exists buf l, coco_string_parse_ranges s min max mc = Ok (Some buf) /\
    holds buf l (mc + 1) /\ 1 <= List.length l <= mc /\
    Forall (fun n => (min <= n)%N /\ (max = 0 \/ n <= max)%N) l.
Proof.
  intros s min max mc Hmc.
  destruct s as [|c s]; [left; reflexivity|].
  destruct (forallb allowed_char (c :: s)) eqn:Hall.
  2:{ left. unfold coco_string_parse_ranges. rewrite Hall. reflexivity. }
  destruct ((0 <? max)%N && (max <? min)%N) eqn:Hb.
  { left. unfold coco_string_parse_ranges. rewrite Hall, Hb. reflexivity. }
  destruct (split_correct (c :: s) COMMA) as (toks & _ & Hp).
  destruct (parse_meaning_exists _ _ Hall Hp) as [ms Hms].
  destruct (parse_ranges_correct (c :: s) min max mc toks ms) as [[_ E]|[Hl (buf & E & Hh)]];
    auto; try easy; [lia|].
  right. exists buf, (firstn mc (denoted min max ms)). repeat split; auto; try apply Hh.
  - destruct (firstn mc (denoted min max ms)); [easy|simpl; lia].
  - rewrite firstn_length. lia.
  - apply Forall_forall. intros n Hn. apply denoted_bounds with (ms := ms).
    rewrite <- (firstn_skipn mc). apply in_app_iff. auto.
Qed.

(** coco_count_numbers on an array returned by the parser (all numbers positive). *)
Lemma count_loop_spec : forall l pre rest n, Forall (fun v => (v <> 0)%N) l ->
  count_loop (map Some pre ++ map Some l ++ Some 0%N :: rest) (List.length pre) n =
  Ok (List.length pre + Nat.min n (List.length l)).
Proof.
  induction l as [|v l IH]; intros pre rest n F; (destruct n as [|n]; [simpl; f_equal; lia|]);
    cbn [count_loop map app].
  - rewrite <- (map_length (@Some N) pre) at 1. rewrite mget_middle. cbn [bind]. simpl. f_equal. lia.
  - rewrite <- (map_length (@Some N) pre) at 1. rewrite mget_middle. cbn [bind].
    inversion F; subst. destruct (N.eqb_spec v 0); [contradiction|].
    replace (map Some pre ++ Some v :: map Some l ++ Some 0%N :: rest)
      with (map Some (pre ++ [v]) ++ map Some l ++ Some 0%N :: rest)
      by (rewrite map_app, <- app_assoc; reflexivity).
    replace (S (List.length pre)) with (List.length (pre ++ [v])) by (rewrite app_length; simpl; lia).
    rewrite IH by auto. f_equal. rewrite app_length. simpl. lia.
Qed.

Theorem count_numbers_spec : forall buf l size mc, holds buf l size ->
  Forall (fun v => (v <> 0)%N) l -> List.length l <= mc ->
  coco_count_numbers buf mc = if List.length l =? mc then Err else Ok (List.length l).
Proof.
  intros buf l size mc [_ [rest ->]] F Hl. unfold coco_count_numbers.
  pose proof (count_loop_spec l [] rest mc F) as H. simpl in H. rewrite H. cbn [bind].
  rewrite Nat.min_r by auto. reflexivity.
Qed.

Lemma read_numbers_spec : forall l rest, read_numbers (map Some l ++ rest) (List.length l) = Ok l.
Proof.
  induction l as [|a l IH]; simpl; intros rest; [destruct rest; reflexivity|].
  rewrite IH. reflexivity.
Qed.

(** Meanings are unique, so [denoted] is determined by the string. *)
Theorem means_unique : forall p m1 m2, means p m1 -> means p m2 -> m1 = m2.
Proof.
  assert (Hr: forall a b a' b', digits a -> digits b -> digits a' -> digits b' ->
    a ++ DASH :: b = a' ++ DASH :: b' -> a = a' /\ b = b').
  { induction a as [|x a IH]; intros b [|y a'] b' Ha Hb Ha' Hb' E; simpl in E.
    - injection E; auto.
    - injection E as E1 E2. inversion Ha'; subst. discriminate.
    - injection E as E1 E2. inversion Ha; subst. discriminate.
    - injection E as E1 E2. subst. inversion Ha; inversion Ha'; subst.
      destruct (IH b a' b') as [-> ->]; auto. }
  intros p m1 m2 H1 H2.
  assert (C: forall q m, means q m -> match m with
     | Malformed => 2 <= count_char DASH q
     | Interval _ _ => count_char DASH q <= 1 end).
  { intros q m Hm. inversion Hm; subst.
    - rewrite count_dash_digits by auto. lia.
    - change "-"%char with DASH. rewrite count_dash_range by auto. lia.
    - apply count_dash_bad. }
  pose proof (C _ _ H1) as C1. pose proof (C _ _ H2) as C2.
  inversion H1 as [q Hq Hd E1 E2|a b Ha Hb E1 E2|a b c E1 E2]; subst;
  inversion H2 as [q' Hq' Hd' E1' E2'|a' b' Ha' Hb' E1' E2'|a' b' c' E1' E2']; subst;
  auto; try lia.
  - pose proof (count_dash_digits _ Hd) as K. change "-"%char with DASH in K.
    rewrite count_dash_range in K by auto. discriminate.
  - pose proof (count_dash_digits _ Hd') as K. change "-"%char with DASH in K.
    rewrite count_dash_range in K by auto. discriminate.
  - apply Hr in E1' as [-> ->]; auto.
Qed.

(** remove_from_string: with both markers present and in order, the text from the first marker up
    to (not including) the second one is removed. *)
Theorem remove_correct : forall s from to a b,
  (from = [] /\ a = 0 \/ from <> [] /\ first_occurrence s from a) ->
  (to = [] /\ b = List.length s \/ to <> [] /\ first_occurrence s to b) ->
  coco_remove_from_string s from to = if b <? a then Err else Ok (firstn a s ++ skipn b s).
Proof.
  intros s from to a b Hf Ht. unfold coco_remove_from_string.
  assert (E1: match from with [] => Some 0 | _ => strstr s from end = Some a).
  { destruct Hf as [[-> ->]|[Hne Hf]]; auto. destruct from; [easy|].
    pose proof (strstr_correct s (a0 :: from)) as K.
    destruct (strstr s (a0 :: from)) as [i|].
    - f_equal. destruct Hf as [H1 H2], K as [K1 K2]. apply H2 in K1. apply K2 in H1. lia.
    - exfalso. destruct Hf as [H1 _]. eapply K; eauto. }
  assert (E2: match to with [] => Some (List.length s) | _ => strstr s to end = Some b).
  { destruct Ht as [[-> ->]|[Hne Ht]]; auto. destruct to; [easy|].
    pose proof (strstr_correct s (a0 :: to)) as K.
    destruct (strstr s (a0 :: to)) as [i|].
    - f_equal. destruct Ht as [H1 H2], K as [K1 K2]. apply H2 in K1. apply K2 in H1. lia.
    - exfalso. destruct Ht as [H1 _]. eapply K; eauto. }
  rewrite E1, E2. reflexivity.
Qed.

Theorem remove_missing : forall s from to,
  (from <> [] /\ forall i, ~ occurs_at s from i) \/ (to <> [] /\ forall i, ~ occurs_at s to i) ->
  coco_remove_from_string s from to = Err.
Proof.
  intros s from to H. unfold coco_remove_from_string.
  destruct H as [[Hne H]|[Hne H]].
  - destruct from as [|x from]; [easy|]. pose proof (strstr_correct s (x :: from)) as K.
    destruct (strstr s (x :: from)) as [i|]; auto. exfalso. apply (H i). apply K.
  - destruct to as [|x to]; [easy|]. pose proof (strstr_correct s (x :: to)) as K.
    destruct (strstr s (x :: to)) as [i|]; [|destruct from; [|destruct (strstr _ _)]; auto].
    exfalso. apply (H i). apply K.
Qed.

Lemma range_string_allowed : forall s, range_string s <-> forallb allowed_char s = true.
Proof.
  intros s. unfold range_string. rewrite Forall_forall, forallb_forall.
  assert (H: forall c, allowed_char c = true <-> (c = "-"%char \/ c = ","%char \/ isdigit c = true)).
  { intros c. unfold allowed_char, DASH, COMMA. rewrite !orb_true_iff, !Ascii.eqb_eq. tauto. }
  split; intros K c Hc; apply H; apply K; auto.
Qed.

Theorem range_denotes_exists : forall s min max, range_string s -> exists l, range_denotes s min max l.
Proof.
  intros s min max H. apply range_string_allowed in H.
  destruct (split_correct s COMMA) as (toks & _ & Hp).
  destruct (parse_meaning_exists s toks H Hp) as [ms Hms].
  exists (denoted min max ms), toks, ms. auto.
Qed.

Theorem range_denotes_unique : forall s min max l1 l2,
  range_denotes s min max l1 -> range_denotes s min max l2 -> l1 = l2.
Proof.
  intros s min max l1 l2 (t1 & m1 & P1 & F1 & ->) (t2 & m2 & P2 & F2 & ->).
  pose proof (pieces_unique _ _ _ P1 _ P2) as <-. f_equal. clear P1 P2.
  revert m2 F2. induction F1; intros m2 F2; inversion F2; subst; auto.
  f_equal; auto. eapply means_unique; eauto.
Qed.

Theorem parse_ranges_denotes : forall s min max mc l,
  s <> [] -> range_string s -> bounds_fine min max -> 1 <= mc -> range_denotes s min max l ->
  match firstn mc l with
  | [] => coco_string_parse_ranges s min max mc = Ok None
  | _ => exists buf, coco_string_parse_ranges s min max mc = Ok (Some buf) /\
                     holds buf (firstn mc l) (mc + 1)
  end.
Proof.
  intros s min max mc l Hne Hr Hb Hmc (toks & ms & Hp & Hms & ->).
  apply range_string_allowed in Hr.
  destruct (parse_ranges_correct s min max mc toks ms) as [[E H]|[Hl H]]; auto.
  - unfold bounds_fine in Hb. lia.
  - rewrite E. exact H.
  - destruct (firstn mc (denoted min max ms)); [easy|]. exact H.
Qed.

Theorem parse_ranges_rejects : forall s min max mc,
  s = [] \/ ~ range_string s \/ ~ bounds_fine min max ->
  coco_string_parse_ranges s min max mc = Ok None.
Proof.
  intros s min max mc H. unfold coco_string_parse_ranges. destruct s as [|c s]; auto.
  destruct H as [H|[H|H]]; [easy| |].
  - rewrite range_string_allowed in H. destruct (forallb allowed_char (c :: s)); [easy|reflexivity].
  - destruct (forallb allowed_char (c :: s)); [|reflexivity]. cbn [negb].
    unfold bounds_fine in H. replace ((0 <? max)%N && (max <? min)%N) with true by lia. reflexivity.
Qed.

Lemma trim_decomposition_exists : forall s, ~ blank s ->
  exists l c m r, s = l ++ (c :: m) ++ r /\ blank l /\ blank r /\ isspace c = false /\ trimmed (c :: m).
Proof. intros s H. destruct (blank_decompose s); [contradiction|auto]. Qed.
