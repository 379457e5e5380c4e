(** Proofs about the construction of suites. *)
From Coq Require Import List Arith NArith ZArith Ascii String Bool Lia.
From Coq Require Import ZifyBool ZifyNat ZifyN.
From Verif Require Import CBase StrModel StrSpec StrProofs OptModel OptSpec OptProofs.
From Verif Require Import SuiteModel SuiteSpec SuiteProofs.
Import ListNotations.

Lemma option_text_exists : forall options key, key <> [] -> exists t, option_text options key t.
Proof.
  intros options key Hk. destruct (named_cases options key Hk) as [H|[H|(v & H)]].
  - exists []. left. auto.
  - exists []. left. auto.
  - destruct (value_list_exists v) as [t Ht]. exists t. right. eauto.
Qed.

Lemma read_values_text : forall options key cap t, key <> [] -> small options -> (0 < cap)%N ->
  option_text options key t ->
  (N.of_nat (List.length t) < cap)%N /\
    ((exists x, t = [] /\ coco_options_read_values options key cap = Ok (0, x)) \/
     (t <> [] /\ coco_options_read_values options key cap = Ok (List.length t, Some t))) \/
  (cap <= N.of_nat (List.length t))%N /\ coco_options_read_values options key cap = UB.
Proof.
  intros options key cap t Hk Hs Hc [[H ->]|(v & Hn & Hv)].
  - left. split; [cbn; lia|]. left. exists None. split; auto. apply read_values_absent; auto.
  - rewrite (read_values_spec options key v t cap) by auto.
    destruct (N.ltb_spec (N.of_nat (List.length t)) cap).
    + left. split; auto. destruct t; [left; exists (Some []); auto|right; split; auto; discriminate].
    + right. auto.
Qed.

Lemma text_numbers_exists : forall t min max, exists l, text_numbers t min max l.
Proof.
  intros t min max. destruct t as [|c t].
  - exists []. right. auto.
  - destruct (forallb allowed_char (c :: t)) eqn:E.
    + apply range_string_allowed in E. destruct (N.eq_dec max 0) as [->|Hm].
      * destruct (range_denotes_exists (c :: t) min 0 E) as [l Hl]. exists l. left.
        repeat split; auto; [easy|]. left. auto.
      * destruct (N.le_gt_cases min max) as [L|L].
        -- destruct (range_denotes_exists (c :: t) min max E) as [l Hl]. exists l. left.
           repeat split; auto; [easy|]. right. auto.
        -- exists []. right. split; auto. right. right. intros [K|K]; lia.
    + exists []. right. split; auto. right. left. rewrite range_string_allowed. congruence.
Qed.

Lemma parse_text : forall t min max l, text_numbers t min max l ->
  l = [] /\ coco_string_parse_ranges t min max MAX_INSTANCES = Ok None \/
  l <> [] /\ exists buf, coco_string_parse_ranges t min max MAX_INSTANCES = Ok (Some buf) /\
     holds buf (firstn MAX_INSTANCES l) (MAX_INSTANCES + 1).
Proof.
  intros t min max l [(Hn & Hr & Hb & Hd)|[H ->]].
  - assert (Hm: 1 <= MAX_INSTANCES) by (unfold MAX_INSTANCES; apply Nat.leb_le; reflexivity).
    pose proof (parse_ranges_denotes t min max MAX_INSTANCES l Hn Hr Hb Hm Hd) as P.
    destruct l as [|x l].
    + left. split; auto.
    + right. split; [easy|]. destruct (firstn MAX_INSTANCES (x :: l)) eqn:E; auto.
      destruct MAX_INSTANCES; [lia|discriminate].
  - left. split; auto. apply parse_ranges_rejects. auto.
Qed.

Lemma text_numbers_In : forall t min max l n, text_numbers t min max l -> In n l ->
  (min <= n)%N /\ (max = 0 \/ n <= max)%N.
Proof.
  intros t min max l n [(_ & _ & _ & toks & ms & _ & _ & ->)|[_ ->]] H; [|destruct H].
  eapply denoted_bounds; eauto.
Qed.

Lemma firstn_In : forall A n (l : list A) x, In x (firstn n l) -> In x l.
Proof.
  intros A n l x H. rewrite <- (firstn_skipn n l). apply in_app_iff. auto.
Qed.

Lemma Forall_firstn : forall A (P : A -> Prop) n l, Forall P l -> Forall P (firstn n l).
Proof. intros A P n l H. rewrite Forall_forall in *. intros x Hx. apply H. eapply firstn_In; eauto. Qed.

(** The four outcomes of a position filter. *)
Theorem apply_index_spec : forall options key items t l, key <> [] -> small options ->
  option_text options key t -> text_numbers t 1 (N.of_nat (List.length items)) l ->
  if (PATH_CAP <=? N.of_nat (List.length t))%N then apply_index_option options key items = UB
  else if MAX_INSTANCES <=? List.length l then apply_index_option options key items = Err
  else exists r, apply_index_option options key items = Ok r /\
       (l = [] /\ r = items \/ l <> [] /\ keep_positions items l r).
Proof.
  intros options key items t l Hk Hs Ht Hl. unfold apply_index_option.
  destruct (read_values_text options key PATH_CAP t Hk Hs eq_refl Ht) as [[A B]|[A B]].
  - destruct (N.leb_spec PATH_CAP (N.of_nat (List.length t))); [lia|].
    destruct B as [(x & -> & ->)|[Hne ->]]; cbn [bind].
    + destruct Hl as [(C & _)|[_ ->]]; [easy|]. cbn [List.length]. 
      replace (MAX_INSTANCES <=? 0) with false by reflexivity. exists items. auto.
    + destruct t as [|c t]; [easy|]. cbn [List.length].
      destruct (parse_text _ _ _ _ Hl) as [[-> ->]|[Hnl (buf & -> & Hb)]]; cbn [bind].
      * replace (MAX_INSTANCES <=? 0) with false by reflexivity. exists items. auto.
      * assert (F: Forall (fun v => v <> 0%N) l).
        { apply Forall_forall. intros n Hn. pose proof (text_numbers_In _ _ _ _ _ Hl Hn). lia. }
        destruct (Nat.leb_spec MAX_INSTANCES (List.length l)) as [L|L].
        -- unfold coco_suite_filter_indices.
           rewrite (count_numbers_spec _ _ _ MAX_INSTANCES Hb).
           ++ rewrite firstn_length_le by auto. rewrite Nat.eqb_refl. reflexivity.
           ++ apply Forall_firstn; auto.
           ++ rewrite firstn_length. lia.
        -- rewrite firstn_all2 in Hb by lia.
           destruct (filter_indices_spec items buf l _ Hb F L) as (r & E & K). eauto.
  - destruct (N.leb_spec PATH_CAP (N.of_nat (List.length t))); [|lia]. rewrite B. reflexivity.
Qed.

Lemma apply_index_select : forall options key items r, key <> [] -> small options ->
  apply_index_option options key items = Ok r -> select_positions options key items r.
Proof.
  intros options key items r Hk Hs E. destruct (option_text_exists options key Hk) as [t Ht].
  destruct (text_numbers_exists t 1 (N.of_nat (List.length items))) as [l Hl].
  pose proof (apply_index_spec options key items t l Hk Hs Ht Hl) as P. rewrite E in P.
  destruct (PATH_CAP <=? N.of_nat (List.length t))%N; [discriminate|].
  destruct (MAX_INSTANCES <=? List.length l); [discriminate|].
  destruct P as (r' & E' & P). injection E' as <-. exists t, l. auto.
Qed.

Lemma last_item : forall (l : list N), l <> [] -> item l (List.length l - 1) = Ok (last l 0%N).
Proof.
  intros l H. unfold item, mget. destruct (exists_last H) as (l' & x & ->).
  rewrite app_length. cbn [List.length]. replace (List.length l' + 1 - 1) with (List.length l') by lia.
  rewrite nth_error_app2, Nat.sub_diag by lia. cbn [nth_error]. rewrite last_last. reflexivity.
Qed.

Lemma first_item : forall (l : list N), l <> [] -> item l 0 = Ok (nth 0 l 0%N).
Proof. intros [|x l] H; [easy|reflexivity]. Qed.

Lemma plain_list_dec : forall t, forallb (fun c => Ascii.eqb c COMMA || isdigit c) t = true <-> plain_list t.
Proof.
  intros t. unfold plain_list. rewrite forallb_forall, Forall_forall.
  split; intros H c Hc; specialize (H c Hc); rewrite orb_true_iff, Ascii.eqb_eq in *; exact H.
Qed.

Lemma holds_upto_zero : forall buf l size, holds buf l size -> holds buf (upto_zero l) size.
Proof.
  intros buf l size [H1 (rest & ->)]. split; auto. clear H1.
  induction l as [|n l IH]; cbn [upto_zero].
  - exists rest. reflexivity.
  - destruct (N.eqb_spec n 0) as [->|].
    + exists (map Some l ++ Some 0%N :: rest). reflexivity.
    + destruct IH as [rest' E]. exists rest'. cbn [map app]. rewrite E. reflexivity.
Qed.

Lemma upto_zero_nonzero : forall l, Forall (fun v => v <> 0%N) (upto_zero l).
Proof.
  induction l as [|n l IH]; cbn; auto. destruct (N.eqb_spec n 0); auto.
Qed.

Lemma upto_zero_firstn : forall k l, upto_zero (firstn k l) = firstn k (upto_zero l).
Proof.
  induction k as [|k IH]; intros [|n l]; cbn; auto. destruct (n =? 0)%N; auto.
  cbn. rewrite IH. reflexivity.
Qed.

(** The value filter; a text with other characters than digits and commas makes the constructor
    give up. *)
Theorem apply_dimensions_spec : forall options dims t l, small options -> dims <> [] ->
  option_text options (str "dimensions") t ->
  text_numbers t (nth 0 dims 0%N) (last dims 0%N) l ->
  if (PATH_CAP <=? N.of_nat (List.length t))%N then apply_dimensions_option options dims = UB
  else (~ plain_list t /\ apply_dimensions_option options dims = Ok None) \/
       (plain_list t /\
        if MAX_INSTANCES <=? List.length (upto_zero l)
        then apply_dimensions_option options dims = Err
        else exists r, apply_dimensions_option options dims = Ok (Some r) /\
               (l = [] /\ r = dims \/ l <> [] /\ keep_values dims (upto_zero l) r)).
Proof.
  intros options dims t l Hs Hd Ht Hl. unfold apply_dimensions_option.
  change k_dimensions with (str "dimensions").
  destruct (read_values_text options (str "dimensions") PATH_CAP t) as [[A B]|[A B]]; auto; try easy.
  - destruct (N.leb_spec PATH_CAP (N.of_nat (List.length t))); [lia|].
    destruct B as [(x & -> & ->)|[Hne ->]]; cbn [bind].
    + right. split; [constructor|]. destruct Hl as [(C & _)|[_ ->]]; [easy|].
      exists dims. auto.
    + destruct t as [|c t]; [easy|]. cbn [List.length].
      destruct (forallb _ (c :: t)) eqn:Ep; cbn [negb].
      2:{ left. split; auto. rewrite <- plain_list_dec. congruence. }
      right. split; [now apply plain_list_dec|].
      rewrite first_item, last_item by auto. cbn [bind].
      destruct (parse_text _ _ _ _ Hl) as [[-> ->]|[Hnl (buf & -> & Hb)]]; cbn [bind].
      * exists dims. auto.
      * apply holds_upto_zero in Hb. rewrite upto_zero_firstn in Hb.
        destruct (Nat.leb_spec MAX_INSTANCES (List.length (upto_zero l))) as [L|L].
        -- unfold coco_suite_filter_dimensions.
           rewrite (count_numbers_spec _ _ _ MAX_INSTANCES Hb).
           ++ rewrite firstn_length_le by auto. rewrite Nat.eqb_refl. reflexivity.
           ++ apply Forall_firstn, upto_zero_nonzero.
           ++ rewrite firstn_length. lia.
        -- rewrite firstn_all2 in Hb by lia.
           destruct (filter_dimensions_spec dims buf _ _ Hb (upto_zero_nonzero l) L) as (r & E & K).
           rewrite E. exists r. auto.
  - destruct (N.leb_spec PATH_CAP (N.of_nat (List.length t))); [|lia]. rewrite B. reflexivity.
Qed.

Lemma apply_dimensions_select : forall options dims r, small options -> dims <> [] ->
  apply_dimensions_option options dims = Ok (Some r) ->
  select_values options (str "dimensions") dims r.
Proof.
  intros options dims r Hs Hd E.
  destruct (option_text_exists options (str "dimensions")) as [t Ht]; [easy|].
  destruct (text_numbers_exists t (nth 0 dims 0%N) (last dims 0%N)) as [l Hl].
  pose proof (apply_dimensions_spec options dims t l Hs Hd Ht Hl) as P. rewrite E in P.
  destruct (PATH_CAP <=? N.of_nat (List.length t))%N; [discriminate|].
  destruct P as [[_ P]|[_ P]]; [discriminate|].
  destruct (MAX_INSTANCES <=? List.length (upto_zero l)); [discriminate|].
  destruct P as (r' & E' & P). injection E' as <-. exists t, l. auto.
Qed.

Lemma keep_positions_length : forall items sel r, keep_positions items sel r -> List.length r = List.length items.
Proof. intros items sel r [H _]. auto. Qed.

Lemma select_positions_length : forall options key items r, select_positions options key items r ->
  List.length r = List.length items.
Proof. intros options key items r (t & l & _ & _ & [[_ ->]|[_ [H _]]]); auto. Qed.

Lemma select_values_length : forall options key items r, select_values options key items r ->
  List.length r = List.length items.
Proof. intros options key items r (t & l & _ & _ & [[_ ->]|[_ [H _]]]); auto. Qed.

(** Something remains when positions of a complete list are selected. *)
Lemma select_positions_nonempty : forall options key items r, select_positions options key items r ->
  Forall (fun v => v <> 0%N) items -> items <> [] -> positions r <> [].
Proof.
  intros options key items r (t & l & _ & Hl & H) F Hne.
  assert (K: exists k, k < List.length r /\ nth k r 0%N <> 0%N).
  { destruct H as [[_ ->]|[Hnl [H1 H2]]].
    - destruct items as [|x items]; [easy|]. exists 0. cbn. split; [lia|]. inversion F; auto.
    - destruct l as [|n l]; [easy|].
      pose proof (text_numbers_In _ _ _ _ n Hl (or_introl eq_refl)) as [B1 B2].
      assert (Hk: N.to_nat n - 1 < List.length items). { destruct items; [easy|cbn in *; lia]. }
      exists (N.to_nat n - 1). split; [lia|].
      destruct (nth_error items (N.to_nat n - 1)) as [x|] eqn:E; [|apply nth_error_None in E; lia].
      destruct (H2 _ _ E) as [H3 _].
      assert (G: nth_error r (N.to_nat n - 1) = Some x) by (apply H3; left; lia).
      rewrite (nth_error_nth _ _ 0%N G). rewrite Forall_forall in F. apply F.
      eapply nth_error_In; eauto. }
  destruct K as (k & K1 & K2). intros E.
  assert (In k (positions r)) by (apply positions_from_In; split; [lia|auto]). rewrite E in H0. destruct H0.
Qed.

Lemma strfind_or : forall s t, t <> [] -> small s ->
  (exists i, first_occurrence s t i /\ coco_strfind s t = Ok (Z.of_nat i)) \/
  (absent s t /\ coco_strfind s t = Ok (-1)%Z).
Proof.
  intros s t Hne Hs. destruct (strfind_correct s t Hne) as [(i & Hi & E)|[H E]]; [left|right; auto].
  exists i. split; auto. apply strfind_at; auto.
Qed.

Lemma absent_first : forall s t i, absent s t -> first_occurrence s t i -> False.
Proof. intros s t i H [K _]. eapply H; eauto. Qed.

Lemma select_positions_absent : forall options key items, absent options key ->
  select_positions options key items items.
Proof.
  intros. exists [], []. split; [left; auto|]. split; [right; auto|]. left. auto.
Qed.

Lemma select_values_absent : forall options key items, absent options key ->
  select_values options key items items.
Proof.
  intros. exists [], []. split; [left; auto|]. split; [right; auto|]. left. auto.
Qed.

(** All options together. *)
Theorem apply_options_spec : forall s options s', small options -> dimensions s <> [] ->
  apply_options s options = Ok (Some s') ->
  select_positions options (str "function_indices") (functions s) (functions s') /\
  select_positions options (str "instance_indices") (instances s) (instances s') /\
  select_dimensions options (dimensions s) (dimensions s') /\
  cur_function s' = cur_function s /\ cur_dimension s' = cur_dimension s /\
  cur_instance s' = cur_instance s.
Proof.
  intros s options s' Hs Hd E. unfold apply_options in E.
  destruct options as [|c0 o0].
  - injection E as <-. 
    assert (A: forall k, k <> [] -> absent [] k) by (intros; now apply absent_nil).
    repeat split; auto using select_positions_absent; try (apply select_positions_absent, A; easy).
    right. right. split; [intros i j Hi; exfalso; eapply absent_first; [|exact Hi]; apply A; easy|].
    exists (dimensions s). split; [apply select_positions_absent|apply select_values_absent]; apply A; easy.
  - remember (c0 :: o0) as options eqn:Eo. clear Eo c0 o0.
    destruct (apply_index_option options k_function_indices (functions s)) as [fs| |] eqn:E1; try discriminate.
    destruct (apply_index_option options k_instance_indices (instances s)) as [ins| |] eqn:E2; try discriminate.
    cbn [bind] in E.
    apply apply_index_select in E1; [|easy|auto]. apply apply_index_select in E2; [|easy|auto].
    assert (R: exists ds, select_dimensions options (dimensions s) ds /\
      s' = mk_suite fs ds ins (cur_function s) (cur_dimension s) (cur_instance s)).
    { change k_dimensions with (str "dimensions") in E.
      change k_dimension_indices with (str "dimension_indices") in E.
      assert (Fin: forall (ds : option (list N)), match ds with
          | Some ds => do _ <- check_keys known_keys_o options info_o valid_o;
              Ok (Some (mk_suite fs ds ins (cur_function s) (cur_dimension s) (cur_instance s)))
          | None => Ok None end = Ok (Some s') ->
          exists d, ds = Some d /\ s' = mk_suite fs d ins (cur_function s) (cur_dimension s) (cur_instance s)).
      { intros [d|] K; [|discriminate]. destruct (check_keys known_keys_o options info_o valid_o); try discriminate.
        injection K as <-. eauto. }
      destruct (strfind_or options (str "dimensions")) as [(i & Hi & Ei)|[Hi Ei]]; [easy|auto| |];
        rewrite Ei in E; cbn [bind] in E;
      (destruct (strfind_or options (str "dimension_indices")) as [(j & Hj & Ej)|[Hj Ej]]; [easy|auto| |];
        rewrite Ej in E; cbn [bind] in E).
      - unfold precedence in E.
        destruct (Z.ltb_spec 0 (Z.of_nat i)) as [Pi|Pi]; destruct (Z.ltb_spec 0 (Z.of_nat j)) as [Pj|Pj];
          cbn [andb] in E.
        1:{ destruct (Z.ltb_spec (Z.of_nat i) (Z.of_nat j)) as [L|L];
            replace (0 <=? Z.of_nat i)%Z with true in E by lia;
            replace (0 <=? Z.of_nat j)%Z with true in E by lia; cbn [andb bind] in E.
            - destruct (apply_dimensions_option options (dimensions s)) as [ds| |] eqn:Ed; try discriminate.
              cbn [bind] in E. apply Fin in E as (d & -> & ->). exists d. split; auto.
              left. exists i, j. repeat split; auto; try lia; try apply Hi; try apply Hj.
              apply apply_dimensions_select; auto.
            - destruct (apply_index_option options (str "dimension_indices") (dimensions s)) as [d| |] eqn:Ed; try discriminate.
              cbn [bind] in E. apply (Fin (Some d)) in E as (d' & [= <-] & ->). exists d. split; auto.
              right. left. exists i, j. repeat split; auto; try apply Hi; try apply Hj; try lia.
              + assert (i <> j); [|lia]. intros <-. 
                destruct Hi as [(p & q & Ea & Hp) _]. destruct Hj as [(p' & q' & Eb & Hp') _].
                rewrite Ea in Eb. assert (p = p'). 
                { clear - Eb Hp Hp'. rewrite <- Hp' in Hp. clear Hp'. revert p' Hp Eb. induction p; intros [|x p'] Hp Eb; cbn in *; try lia; auto.
                  injection Eb as <- Eb. f_equal. apply IHp; auto. }
                subst p'. apply app_inv_head in Eb. discriminate.
              + apply apply_index_select; auto. easy. }
        all: replace (0 <=? Z.of_nat i)%Z with true in E by lia;
          replace (0 <=? Z.of_nat j)%Z with true in E by lia; cbn [andb bind] in E;
          (destruct (apply_index_option options (str "dimension_indices") (dimensions s)) as [d| |] eqn:Ed; try discriminate);
          cbn [bind] in E; apply apply_index_select in Ed; auto; try easy;
          (assert (Hdd: d <> []) by (apply select_positions_length in Ed; destruct d, (dimensions s); try discriminate; easy));
          (destruct (apply_dimensions_option options d) as [ds| |] eqn:Ev; try discriminate);
          cbn [bind] in E; apply Fin in E as (d' & -> & ->); apply apply_dimensions_select in Ev; auto;
          exists d'; split; auto; right; right; (split; [|exists d; auto]);
          intros i' j' Hi' Hj'; rewrite (first_occurrence_unique _ _ _ _ Hi' Hi), (first_occurrence_unique _ _ _ _ Hj' Hj); lia.
      - unfold precedence in E. replace ((0 <? Z.of_nat i)%Z && (0 <? -1)%Z) with false in E by lia.
        replace (0 <=? Z.of_nat i)%Z with true in E by lia. cbn [andb bind Z.leb Z.compare] in E.
        destruct (apply_dimensions_option options (dimensions s)) as [ds| |] eqn:Ev; try discriminate.
        cbn [bind] in E; apply Fin in E as (d' & -> & ->); apply apply_dimensions_select in Ev; auto.
        exists d'. split; auto. right. right. split; [intros; exfalso; eapply absent_first; eauto|].
        exists (dimensions s). split; auto. apply select_positions_absent; auto.
      - unfold precedence in E. replace ((0 <? -1)%Z && (0 <? Z.of_nat j)%Z) with false in E by lia.
        replace (0 <=? Z.of_nat j)%Z with true in E by lia. cbn [andb bind Z.leb Z.compare] in E.
        destruct (apply_index_option options (str "dimension_indices") (dimensions s)) as [d| |] eqn:Ed; try discriminate.
        cbn [bind] in E. apply (Fin (Some d)) in E as (d' & [= <-] & ->).
        exists d. split; auto. right. right. split; [intros; exfalso; eapply (absent_first _ _ _ Hi); eauto|].
        exists d. split; [apply apply_index_select; auto; easy|]. apply select_values_absent; auto.
      - cbn in E. apply (Fin (Some (dimensions s))) in E as (d' & [= <-] & ->).
        exists (dimensions s). split; auto. right. right. split; [intros; exfalso; eapply absent_first; eauto|].
        exists (dimensions s). split; [apply select_positions_absent|apply select_values_absent]; auto. }
    destruct R as (ds & Hds & ->). cbn. repeat split; auto.
Qed.

(** ** Instance strings *)
Lemma scan_digits_spec : forall w rest acc, digits w -> (forall c r, rest = c :: r -> isdigit c = false) ->
  exists v, scan_digits 10 (w ++ rest) (Some acc) = Some v /\
    v = (acc * Z.of_N (pow10 (List.length w)) + Z.of_N (dec w))%Z.
Proof.
  intros w rest acc Hw Hr. revert acc. induction Hw as [|c w Hc Hw IH]; intros acc.
  - cbn [app List.length pow10 dec]. exists acc. split; [|lia]. destruct rest as [|c r]; auto. cbn [scan_digits].
    unfold digit_in. specialize (Hr c r eq_refl).
    destruct (hex_val c) as [v|] eqn:E; auto. unfold hex_val in E. rewrite Hr in E.
    destruct (Z.ltb_spec v 10); auto. exfalso.
    destruct ((97 <=? Z.of_nat (code c))%Z && (Z.of_nat (code c) <=? 102)%Z) eqn:E1; [injection E as <-; lia|].
    destruct ((65 <=? Z.of_nat (code c))%Z && (Z.of_nat (code c) <=? 70)%Z) eqn:E2; [injection E as <-; lia|discriminate].
  - cbn [app scan_digits]. unfold digit_in, hex_val. rewrite Hc.
    assert (Hd: (0 <= Z.of_nat (code c) - 48 < 10)%Z) by (unfold isdigit in Hc; lia).
    destruct (Z.ltb_spec (Z.of_nat (code c) - 48) 10); [|lia].
    destruct (IH (acc * 10 + (Z.of_nat (code c) - 48))%Z) as (v & E & Ev).
    exists v. split; auto. rewrite Ev. cbn [List.length pow10 dec].
    assert (Ec: Z.of_N (N_of_ascii c) = Z.of_nat (code c)).
    { unfold code, nat_of_ascii. lia. }
    rewrite !N2Z.inj_add, !N2Z.inj_mul. rewrite N2Z.inj_sub by (unfold isdigit in Hc; lia).
    rewrite Ec. change (Z.of_N 48) with 48%Z. change (Z.of_N 10) with 10%Z. ring.
Qed.

Lemma sscanf_year : forall w rest, digits w -> (exists c w', w = c :: w' /\ c <> "0"%char) ->
  (forall c r, rest = c :: r -> isdigit c = false) -> (Z.of_N (dec w) <= INT_MAX)%Z ->
  sscanf_int (w ++ rest) = Ok (1%Z, Some (Z.of_N (dec w))).
Proof.
  intros w rest Hw (c & w' & -> & Hc) Hr Hm. inversion Hw as [|? ? Hd Hw']; subst.
  assert (Hs: isspace c = false) by (unfold isspace, isdigit in *; lia).
  unfold sscanf_int. cbn [app leading_space]. rewrite Hs. cbn [skipn].
  assert (Hu: scan_unsigned (c :: w' ++ rest) = scan_digits 10 (c :: w' ++ rest) None).
  { unfold scan_unsigned. destruct c as [[] [] [] [] [] [] [] []]; try reflexivity.
    exfalso. apply Hc. reflexivity. }
  assert (Ev: scan_digits 10 (c :: w' ++ rest) None = Some (Z.of_N (dec (c :: w')))).
  { cbn [scan_digits]. unfold digit_in, hex_val. rewrite Hd.
    assert (Hd': (0 <= Z.of_nat (code c) - 48 < 10)%Z) by (unfold isdigit in Hd; lia).
    destruct (Z.ltb_spec (Z.of_nat (code c) - 48) 10); [|lia].
    destruct (scan_digits_spec w' rest (Z.of_nat (code c) - 48) Hw' Hr) as (v & -> & ->).
    f_equal. cbn [dec]. assert (Ec: Z.of_N (N_of_ascii c) = Z.of_nat (code c)).
    { unfold code, nat_of_ascii. lia. }
    rewrite !N2Z.inj_add, !N2Z.inj_mul. rewrite N2Z.inj_sub by (unfold isdigit in Hd; lia).
    rewrite Ec. reflexivity. }
  destruct (Ascii.eqb_spec c "-"%char) as [->|_]; [discriminate|].
  destruct (Ascii.eqb_spec c "+"%char) as [->|_]; [discriminate|].
  rewrite Hu, Ev. replace (_ || _) with false; auto. unfold INT_MIN in *. lia.
Qed.

Lemma read_int_year : forall s v y, small s -> named_text s (str "year") v -> year_written v y ->
  (y <= INT_MAX)%Z -> coco_options_read_int s k_year = Ok (1%Z, Some y).
Proof.
  intros s v y Hs Hn (b & w & rest & Ev & Hb & Hw & Hc & Hr & ->) Hy.
  unfold coco_options_read_int. change k_year with (str "year").
  rewrite (value_text_spec s (str "year") v b (w ++ rest)) by
    (auto; try easy; destruct Hc as (c & w' & -> & _); inversion Hw; cbn;
     replace (isspace c) with false; auto; unfold isspace, isdigit in *; lia).
  cbn [bind]. apply sscanf_year; auto.
Qed.


Lemma parse_gives : forall t l, text_numbers t 1 0 l ->
  exists r, coco_string_parse_ranges t 1 0 MAX_INSTANCES = Ok r /\ gives r l.
Proof.
  intros t l H. destruct (parse_text _ _ _ _ H) as [[-> E]|[Hn (buf & E & Hb)]].
  - exists None. split; auto. left. auto.
  - exists (Some buf). split; auto. right. split; auto. exists buf. auto.
Qed.

Lemma year_branch : forall d s l, small s -> year_gives d s l ->
  exists r, (do (n, v) <- coco_options_read_int s k_year;
             if negb (n =? 0)%Z then
               do ys <- sd_year d (match v with Some y => y | None => (-1)%Z end);
               coco_string_parse_ranges ys 1 0 MAX_INSTANCES
             else Ok None) = Ok r /\ gives r l.
Proof.
  intros d s l Hs (v & y & ys & Hn & Hy & Hm & E & Hl).
  rewrite (read_int_year s v y) by auto. cbn [bind negb Z.eqb]. rewrite E. cbn [bind].
  apply parse_gives; auto.
Qed.

Lemma instances_branch : forall s t l (r1 : option numbers), small s -> instances_give s t l ->
  List.length t < 1000 -> t <> [] ->
  exists r, (do (n, v) <- coco_options_read_values s k_instances INSTANCES_CAP;
             match n, v with
             | S _, Some t => coco_string_parse_ranges t 1 0 MAX_INSTANCES
             | _, _ => Ok r1
             end) = Ok r /\ gives r l.
Proof.
  intros s t l r1 Hs [Ht Hl] Hlen Hne.
  destruct (read_values_text s k_instances INSTANCES_CAP t) as [[A B]|[A B]]; auto; try easy.
  - destruct B as [(x & -> & _)|[_ ->]]; [easy|]. cbn [bind]. destruct t as [|c t]; [easy|].
    cbn [List.length]. apply parse_gives; auto.
  - exfalso. unfold INSTANCES_CAP in A. lia.
Qed.

Lemma instances_branch_empty : forall s t (r1 : option numbers), small s ->
  option_text s (str "instances") t -> t = [] ->
  (do (n, v) <- coco_options_read_values s k_instances INSTANCES_CAP;
             match n, v with
             | S _, Some t => coco_string_parse_ranges t 1 0 MAX_INSTANCES
             | _, _ => Ok r1
             end) = Ok r1.
Proof.
  intros s t r1 Hs Ht ->.
  destruct (read_values_text s k_instances INSTANCES_CAP []) as [[A B]|[A B]]; auto; try easy.
  destruct B as [(x & _ & ->)|[K _]]; [|easy]. reflexivity.
Qed.

Theorem get_instance_indices_spec : forall d s l, small s -> instance_list d s l ->
  exists r, get_instance_indices d s = Ok r /\ gives r l.
Proof.
  intros d s l Hs H. unfold get_instance_indices.
  change k_year with (str "year"); change k_instances with (str "instances").
  assert (Hempty: forall t, instances_give s t l -> t = [] -> gives None l).
  { intros t [_ [(K & _)|[_ ->]]] E; [easy|]. left. auto. }
  inversion H as [i j l' Hi Hj Hij Hy|i j t l' Hi Hj Hij Ht Hlen|i j ly t l' Hi Hj Hij Hy Ht Hne Hlen|l' Hj Hy|t l' Hi Ht Hlen];
    subst l'.
  - rewrite (strfind_at s _ i), (strfind_at s _ j) by (auto; easy). cbn [bind].
    replace ((Z.of_nat i <? 0)%Z && (Z.of_nat j <? 0)%Z) with false by lia.
    unfold precedence. replace ((0 <? Z.of_nat i)%Z && (0 <? Z.of_nat j)%Z) with true by lia.
    replace (Z.of_nat i <? Z.of_nat j)%Z with true by lia.
    replace (0 <=? Z.of_nat i)%Z with true by lia. cbn [andb].
    destruct (year_branch d s l Hs Hy) as (r & E & G). change k_year with (str "year") in E. rewrite E. cbn [bind].
    rewrite andb_false_r. eauto.
  - rewrite (strfind_at s _ i), (strfind_at s _ j) by (auto; easy). cbn [bind].
    replace ((Z.of_nat i <? 0)%Z && (Z.of_nat j <? 0)%Z) with false by lia.
    unfold precedence. replace ((0 <? Z.of_nat i)%Z && (0 <? Z.of_nat j)%Z) with true by lia.
    replace (Z.of_nat i <? Z.of_nat j)%Z with false by lia.
    rewrite andb_false_r. replace (0 <=? Z.of_nat j)%Z with true by lia. cbn [andb bind].
    destruct t as [|c t'] eqn:Et.
    + pose proof (instances_branch_empty s [] None Hs (proj1 Ht) eq_refl) as E.
      exists None. split; [exact E|]. eapply Hempty; eauto.
    + destruct (instances_branch s t l None Hs) as (r & E & G); try (subst; auto; easy).
      exists r. split; [exact E|exact G].
  - rewrite (strfind_at s _ i), (strfind_at s _ j) by (auto; easy). cbn [bind].
    replace ((Z.of_nat i <? 0)%Z && (Z.of_nat j <? 0)%Z) with false by lia.
    unfold precedence. replace ((0 <? Z.of_nat i)%Z && (0 <? Z.of_nat j)%Z) with false by lia.
    replace (0 <=? Z.of_nat i)%Z with true by lia.
    replace (0 <=? Z.of_nat j)%Z with true by lia. cbn [andb].
    destruct (year_branch d s ly Hs Hy) as (r & E & G). change k_year with (str "year") in E. rewrite E. cbn [bind].
    destruct (instances_branch s t l r Hs Ht Hlen Hne) as (r' & E' & G').
    exists r'. split; [exact E'|exact G'].
  - destruct Hy as (v & y & ys & (i & c & Hi & Hc & Ev) & Hy').
    assert (Hy: year_gives d s l) by (exists v, y, ys; split; auto; exists i, c; auto).
    rewrite (strfind_at s _ i), (strfind_absent s (str "instances")) by (auto; easy). cbn [bind].
    replace ((Z.of_nat i <? 0)%Z && (-1 <? 0)%Z) with false by lia.
    unfold precedence. replace ((0 <? Z.of_nat i)%Z && (0 <? -1)%Z) with false by lia.
    replace (0 <=? Z.of_nat i)%Z with true by lia. cbn [andb].
    destruct (year_branch d s l Hs Hy) as (r & E & G). change k_year with (str "year") in E. rewrite E. cbn [bind]. 
    exists r. auto.
  - rewrite (strfind_absent s (str "year")) by (auto; easy). cbn [bind].
    destruct (strfind_or s (str "instances")) as [(j & Hj & Ej)|[Hj Ej]]; [easy|auto| |]; rewrite Ej; cbn [bind].
    + replace ((-1 <? 0)%Z && (Z.of_nat j <? 0)%Z) with false by lia.
      unfold precedence. replace ((0 <? -1)%Z && (0 <? Z.of_nat j)%Z) with false by lia.
      replace (0 <=? Z.of_nat j)%Z with true by lia. cbn [andb bind Z.leb Z.compare].
      destruct t as [|c t'] eqn:Et.
      * pose proof (instances_branch_empty s [] None Hs (proj1 Ht) eq_refl) as E.
        exists None. split; [exact E|]. eapply Hempty; eauto.
      * destruct (instances_branch s t l None Hs) as (r & E & G); try (subst; auto; easy).
        exists r. split; [exact E|exact G].
    + exists None. split; [reflexivity|]. apply (Hempty t); auto.
      destruct Ht as [[[_ ->]|(v & (i & c & Hi2 & _) & _)] _]; auto. exfalso. eapply absent_first; eauto.
Qed.

(** ** The constructor *)
Lemma set_instance_gives : forall r l ins, gives r l -> Forall (fun v => v <> 0%N) l ->
  coco_suite_set_instance r = Ok ins -> ins = l /\ 1 <= List.length l < MAX_INSTANCES.
Proof.
  intros r l ins [[-> ->]|[Hn (buf & -> & Hb)]] F E; [discriminate|].
  unfold coco_suite_set_instance in E.
  rewrite (count_numbers_spec _ _ _ MAX_INSTANCES Hb) in E; [|apply Forall_firstn; auto|rewrite firstn_length; lia].
  destruct (Nat.eqb_spec (List.length (firstn MAX_INSTANCES l)) MAX_INSTANCES) as [|L]; [discriminate|].
  cbn [bind] in E. rewrite firstn_length in L. rewrite firstn_all2 in * by lia.
  destruct (Nat.eqb_spec (List.length l) 0); [discriminate|].
  destruct Hb as [_ (rest & ->)]. rewrite read_numbers_spec in E. injection E as <-. split; auto. lia.
Qed.

(** Whatever the string, the numbers are positive and fewer than 1000. *)
Definition plausible (r : option numbers) : Prop := r = None \/
  exists l, l <> [] /\ Forall (fun v => v <> 0%N) l /\ gives r l.

Lemma parse_plausible : forall t r, coco_string_parse_ranges t 1 0 MAX_INSTANCES = Ok r -> plausible r.
Proof.
  intros t r E. destruct (text_numbers_exists t 1 0) as [l Hl].
  destruct (parse_gives t l Hl) as (r' & E' & G). rewrite E in E'. injection E' as <-.
  destruct l as [|n l]; [left; destruct G as [[_ ->]|[K _]]; easy|].
  right. exists (n :: l). repeat split; auto; try easy.
  apply Forall_forall. intros k Hk. pose proof (text_numbers_In _ _ _ _ _ Hl Hk). lia.
Qed.

Lemma get_instance_indices_plausible : forall d s r, get_instance_indices d s = Ok r -> plausible r.
Proof.
  intros d s r E. unfold get_instance_indices in E.
  destruct (coco_strfind s k_year) as [i| |]; try discriminate. cbn [bind] in E.
  destruct (coco_strfind s k_instances) as [j| |]; try discriminate. cbn [bind] in E.
  destruct (_ && _); [injection E as <-; left; auto|].
  destruct (precedence i j) as [py pi].
  match type of E with (bind ?x _ = _) => destruct x as [r1| |] eqn:E1; try discriminate end.
  assert (P1: plausible r1).
  { destruct (_ && py); [|injection E1 as <-; left; auto].
    destruct (coco_options_read_int s k_year) as [[n v]| |]; try discriminate. cbn [bind] in E1.
    destruct (negb _); [|injection E1 as <-; left; auto].
    destruct (sd_year d _) as [ys| |]; try discriminate. cbn [bind] in E1. eapply parse_plausible; eauto. }
  cbn [bind] in E. destruct (_ && pi); [|injection E as <-; auto].
  destruct (coco_options_read_values s k_instances INSTANCES_CAP) as [[[|n] [v|]]| |]; try discriminate;
    cbn [bind] in E; try (injection E as <-; auto). eapply parse_plausible; eauto.
Qed.

Lemma set_instance_plausible : forall r ins, plausible r -> coco_suite_set_instance r = Ok ins ->
  Forall (fun v => v <> 0%N) ins /\ 1 <= List.length ins < MAX_INSTANCES.
Proof.
  intros r ins [->|(l & Hn & F & G)] E; [discriminate|].
  destruct (set_instance_gives r l ins G F E) as [-> H]. auto.
Qed.

Lemma enough_left_dims : forall s, enough_left s = true -> positions (dimensions s) <> [].
Proof.
  intros s H. unfold enough_left in H. apply andb_true_iff in H as [H _]. apply andb_true_iff in H as [H _].
  apply existsb_exists in H as (x & Hin & Hx). apply In_nth with (d := 0%N) in Hin as (k & Hk & E).
  intros P. assert (K: In k (positions (dimensions s))).
  { apply positions_from_In. split; [lia|]. rewrite E. apply negb_true_iff, N.eqb_neq in Hx. auto. }
  rewrite P in K. destruct K.
Qed.

Lemma instance_list_nonzero : forall d s l, instance_list d s l -> Forall (fun v => v <> 0%N) l.
Proof.
  intros d s l H. assert (K: exists t, text_numbers t 1 0 l).
  { inversion H; repeat match goal with
      | H : year_gives _ _ _ |- _ => destruct H as (? & ? & ? & ? & ? & ? & ? & ?)
      | H : instances_give _ _ _ |- _ => destruct H as [? ?] end; eauto. }
  destruct K as [t K]. apply Forall_forall. intros n Hn. pose proof (text_numbers_In _ _ _ _ _ K Hn). lia.
Qed.

Theorem coco_suite_built : forall d inst options s, desc_ok d -> small inst -> small options ->
  coco_suite d inst options = Ok (Some s) ->
  fresh s /\ nonempty s /\ size_ok s /\
  exists ins, 1 <= List.length ins < 1000 /\ Forall (fun v => v <> 0%N) ins /\
    (forall l, instance_list d inst l -> inst <> [] -> l <> [] -> ins = l) /\
    (forall l, instance_list d (sd_default d) l -> inst = [] \/ instance_list d inst [] -> ins = l) /\
    select_positions options (str "function_indices") (all_functions d) (functions s) /\
    select_positions options (str "instance_indices") ins (instances s) /\
    select_dimensions options (sd_dimensions d) (dimensions s).
Proof.
  intros d inst options s (Hf & Hd & Hdl & Hdn & Hdef) Hi Ho E. unfold coco_suite in E.
  match type of E with (bind ?x _ = _) => destruct x as [nums| |] eqn:E1; try discriminate end.
  cbn [bind] in E.
  destruct (coco_suite_set_instance nums) as [ins| |] eqn:E2; try discriminate. cbn [bind] in E.
  set (s0 := mk_suite _ _ _ _ _ _) in E.
  destruct (apply_options s0 options) as [[s1|]| |] eqn:E3; try discriminate. cbn [bind] in E.
  destruct (enough_left s1) eqn:E4; [|discriminate]. cbn [negb] in E.
  assert (Pn: plausible nums /\
    (forall l, instance_list d inst l -> inst <> [] -> l <> [] -> gives nums l) /\
    (forall l, instance_list d (sd_default d) l -> inst = [] \/ instance_list d inst [] -> gives nums l)).
  { destruct inst as [|c inst].
    - split; [eapply get_instance_indices_plausible; eauto|]. split; [easy|]. intros l Hl _.
      destruct (get_instance_indices_spec d (sd_default d) l Hdef Hl) as (r & Er & G).
      rewrite E1 in Er. injection Er as <-. auto.
    - destruct (get_instance_indices d (c :: inst)) as [r| |] eqn:Er; try discriminate. cbn [bind] in E1.
      match type of E1 with (bind ?x _ = _) => destruct x as [r'| |] eqn:Er'; try discriminate end.
      cbn [bind] in E1. destruct (check_keys _ _ _ _); try discriminate. cbn [bind] in E1. injection E1 as <-.
      split; [|split].
      + destruct r; [injection Er' as <-|]; eapply get_instance_indices_plausible; eauto.
      + intros l Hl _ Hn. destruct (get_instance_indices_spec d (c :: inst) l Hi Hl) as (r2 & Er2 & G).
        rewrite Er in Er2. injection Er2 as <-. destruct G as [[K _]|[_ (buf & -> & G)]]; [easy|].
        injection Er' as <-. right. split; auto. exists buf. auto.
      + intros l Hl [K|Hl0]; [easy|].
        destruct (get_instance_indices_spec d (c :: inst) [] Hi Hl0) as (r2 & Er2 & G).
        rewrite Er in Er2. injection Er2 as <-. destruct G as [[_ ->]|[K _]]; [|easy].
        destruct (get_instance_indices_spec d (sd_default d) l Hdef Hl) as (r2 & Er2 & G).
        rewrite Er' in Er2. injection Er2 as <-. auto. }
  destruct Pn as (Pn & G1 & G2).
  destruct (set_instance_plausible nums ins Pn E2) as [Fi Li].
  destruct (apply_options_spec s0 options s1 Ho) as (S1 & S2 & S3 & C1 & C2 & C3); auto.
  cbn [s0 functions dimensions instances cur_function cur_dimension cur_instance] in *.
  assert (PF: positions (functions s1) <> []).
  { eapply select_positions_nonempty; [exact S1| |].
    - cbn. apply Forall_forall. intros x Hx. apply in_map_iff in Hx as (k & <- & _). lia.
    - cbn. destruct (sd_functions d); [lia|discriminate]. }
  assert (PI: positions (instances s1) <> []).
  { eapply select_positions_nonempty; [exact S2|auto|]. destruct ins; [cbn in Li; lia|discriminate]. }
  pose proof (enough_left_dims s1 E4) as PD.
  destruct (positions (functions s1)) as [|f fs] eqn:EF; [easy|].
  destruct (positions (dimensions s1)) as [|dd ds] eqn:ED; [easy|].
  destruct (positions (instances s1)) as [|i0 is_] eqn:EI; [easy|].
  assert (R1: is_next_function_found s1 = Ok (true, set_cur s1 (Z.of_nat f) (-1) (-1))).
  { unfold is_next_function_found. rewrite C1, C2, C3.
    pose proof (next_item_spec (functions s1) 0 f fs EF) as N1. cbn [Z.of_nat Z.sub Z.opp Z.add] in N1.
    rewrite N1 by lia. unfold positions in EF. rewrite EF. cbn [bind]. reflexivity. }
  rewrite R1 in E. cbn [bind] in E.
  assert (R2: is_next_dimension_found (set_cur s1 (Z.of_nat f) (-1) (-1)) =
     Ok (true, set_cur s1 (Z.of_nat f) (Z.of_nat dd) (-1))).
  { unfold is_next_dimension_found. cbn [set_cur dimensions cur_dimension cur_function cur_instance].
    pose proof (next_item_spec (dimensions s1) 0 dd ds ED) as N1. cbn [Z.of_nat Z.sub Z.opp Z.add] in N1.
    rewrite N1 by lia. unfold positions in ED. rewrite ED. cbn [bind]. reflexivity. }
  rewrite R2 in E. cbn [bind] in E. injection E as <-.
  assert (LF: List.length (functions s1) = sd_functions d).
  { rewrite (select_positions_length _ _ _ _ S1). cbn [coco_suite_allocate functions]. rewrite map_length, seq_length. reflexivity. }
  assert (LI: List.length (instances s1) = List.length ins).
  { apply (select_positions_length _ _ _ _ S2). }
  assert (LD: List.length (dimensions s1) = List.length (sd_dimensions d)).
  { destruct S3 as [(i & j & _ & _ & _ & K)|[(i & j & _ & _ & _ & K)|(_ & mid & K & K2)]].
    - apply (select_values_length _ _ _ _ K).
    - apply (select_positions_length _ _ _ _ K).
    - rewrite (select_values_length _ _ _ _ K2). apply (select_positions_length _ _ _ _ K). }
  cbn [set_cur functions dimensions instances cur_function cur_dimension cur_instance].
  split; [|split; [|split]].
  - exists f, dd, fs, ds. cbn. auto.
  - unfold nonempty. cbn [set_cur functions dimensions instances]. rewrite EF, ED, EI. repeat split; discriminate.
  - unfold size_ok. cbn [functions dimensions instances set_cur]. rewrite LF, LI, LD. 
    assert (HM: (N.of_nat MAX_INSTANCES = 1000)%N) by reflexivity.
    assert (HM1: (N.of_nat (sd_functions d) <= 1000)%N) by lia.
    assert (HM2: (N.of_nat (List.length ins) <= 1000)%N) by lia.
    assert (HM3: (N.of_nat (List.length (sd_dimensions d)) <= 1000)%N) by lia.
    apply N.le_lt_trans with (1000 * 1000 * 1000)%N; [|reflexivity].
    apply N.mul_le_mono; auto. apply N.mul_le_mono; auto.
  - exists ins. repeat split; try (apply Li); auto.
    + intros l Hl Hne Hln.
      apply (set_instance_gives nums l ins (G1 l Hl Hne Hln) (instance_list_nonzero _ _ _ Hl) E2).
    + intros l Hl Hor.
      apply (set_instance_gives nums l ins (G2 l Hl Hor) (instance_list_nonzero _ _ _ Hl) E2).
Qed.

(** ** The list of combinations is the expected one *)
From Coq Require Import Sorted.

Theorem combinations_In : forall s d f i, In (d, f, i) (combinations s) <->
  (exists x, nth_error (dimensions s) d = Some x /\ x <> 0%N) /\
  (exists x, nth_error (functions s) f = Some x /\ x <> 0%N) /\
  (exists x, nth_error (instances s) i = Some x /\ x <> 0%N).
Proof.
  assert (P: forall l k, In k (positions l) <-> exists x, nth_error l k = Some x /\ x <> 0%N).
  { intros l k. unfold positions. rewrite positions_from_In. split.
    - intros [H1 H2]. exists (nth k l 0%N). split; auto. apply nth_error_nth'. lia.
    - intros (x & H1 & H2). rewrite (nth_error_nth _ _ 0%N H1). split; auto.
      split; [lia|]. apply nth_error_Some. congruence. }
  intros s d f i. rewrite <- !P. unfold combinations. rewrite in_flat_map. split.
  - intros (d' & Hd & H). apply in_flat_map in H as (f' & Hf & H). apply in_map_iff in H as (i' & E & Hi).
    injection E as <- <- <-. auto.
  - intros (Hd & Hf & Hi). exists d. split; auto. apply in_flat_map. exists f. split; auto.
    apply in_map_iff. eauto.
Qed.

Lemma filter_sorted : forall (p : nat -> bool) l, StronglySorted lt l -> StronglySorted lt (filter p l).
Proof.
  intros p l H. induction H as [|a l H IH F]; cbn; [constructor|]. destruct (p a); auto.
  constructor; auto. rewrite Forall_forall in *. intros x Hx. apply filter_In in Hx. apply F, Hx.
Qed.

Lemma seq_sorted : forall n a, StronglySorted lt (seq a n).
Proof.
  induction n; intros a; cbn; constructor; auto. apply Forall_forall. intros x Hx.
  apply in_seq in Hx. lia.
Qed.

Lemma sorted_app : forall A (R : A -> A -> Prop) l1 l2, StronglySorted R l1 -> StronglySorted R l2 ->
  (forall a b, In a l1 -> In b l2 -> R a b) -> StronglySorted R (l1 ++ l2).
Proof.
  intros A R l1 l2 H1 H2 H. induction H1 as [|a l1 H1 IH F]; cbn; auto. constructor.
  - apply IH. intros; apply H; auto. right. auto.
  - apply Forall_app. split; auto. apply Forall_forall. intros b Hb. apply H; auto. left. auto.
Qed.

Theorem combinations_sorted : forall s, StronglySorted lexlt (combinations s).
Proof.
  intros s. unfold combinations, positions, positions_from.
  assert (H: forall l, StronglySorted lt (filter (fun k => negb (nth k l 0 =? 0)%N) (seq 0 (List.length l - 0)))).
  { intros. apply filter_sorted, seq_sorted. }
  pose proof (H (dimensions s)) as HD. pose proof (H (functions s)) as HF. pose proof (H (instances s)) as HI.
  clear H. set (D := filter _ _) in HD. set (F := filter _ _) in HF. set (I := filter _ _) in HI.
  change (StronglySorted lexlt (flat_map (fun d => flat_map (fun f => map (fun i => (d, f, i)) I) F) D)).
  clearbody D F I. induction HD as [|d D HD IH FD]; cbn [flat_map]; [constructor|].
  apply sorted_app; auto.
  - clear IH. induction HF as [|f F HF IH FF]; cbn [flat_map]; [constructor|].
    apply sorted_app; auto.
    + clear IH. induction HI as [|i I HI IH FI]; cbn [map]; constructor; auto.
      rewrite Forall_forall in *. intros x Hx. apply in_map_iff in Hx as (i' & <- & Hi').
      apply FI in Hi'. cbn. lia.
    + intros a b Ha Hb. apply in_map_iff in Ha as (i & <- & _).
      apply in_flat_map in Hb as (f' & Hf' & Hb). apply in_map_iff in Hb as (i' & <- & _).
      rewrite Forall_forall in FF. apply FF in Hf'. cbn. lia.
  - intros a b Ha Hb. apply in_flat_map in Ha as (f & _ & Ha). apply in_map_iff in Ha as (i & <- & _).
    apply in_flat_map in Hb as (d' & Hd' & Hb). apply in_flat_map in Hb as (f' & _ & Hb).
    apply in_map_iff in Hb as (i' & <- & _). rewrite Forall_forall in FD. apply FD in Hd'. cbn. lia.
Qed.
