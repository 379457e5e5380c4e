(** Proofs about the options of observers. *)
From Coq Require Import String List Arith NArith ZArith Ascii Bool Lia.
From Verif Require Import CBase StrModel StrSpec OptModel OptSpec OptProofs SuiteBuildProofs FsModel FsSpec FsProofs DblModel LogsModel ObsModel ObsSpec.
Import ListNotations.
Local Notation length := List.length.
Open Scope nat_scope.

(** ** Where the text of a key is found *)
Lemma all_keys_like : forall k, In k all_keys -> key_like k.
Proof.
  intros k H. cbn in H.
  repeat (destruct H as [<-|H]; [split; [discriminate|split; [cbn; intuition discriminate|repeat constructor]]|]). destruct H.
Qed.

Lemma lookup_split : forall l k v, lookup l k = Some v -> exists l1 l2, l = l1 ++ (k, v) :: l2 /\ Forall (fun e => fst e <> k) l1.
Proof.
  induction l as [|[k' v'] l IH]; intros k v H; [discriminate|]. cbn in H.
  destruct (streq k' k) eqn:E.
  - apply streq_spec in E. subst. injection H as <-. exists [], l. split; auto.
  - destruct (IH k v H) as (l1 & l2 & -> & F). exists ((k', v') :: l1), l2. split; auto. constructor; auto.
    cbn. intros ->. rewrite (proj2 (streq_spec k k) eq_refl) in E. discriminate.
Qed.
Lemma lookup_none : forall l k, lookup l k = None -> Forall (fun e => fst e <> k) l.
Proof.
  induction l as [|[k' v'] l IH]; intros k H; constructor; cbn in H; destruct (streq k' k) eqn:E; try discriminate; auto.
  cbn. intros ->. rewrite (proj2 (streq_spec k k) eq_refl) in E. discriminate.
Qed.

Lemma blank_leading : forall v, exists b s, v = b ++ s /\ blank b /\ leading_space s = 0 /\ skipn (leading_space v) v = s.
Proof.
  induction v as [|c v (b & s & -> & Hb & Hs & Es)]; [exists [], []; repeat split; constructor|].
  cbn [leading_space]. destruct (isspace c) eqn:E.
  - exists (c :: b), s. split; [reflexivity|]. split; [constructor; auto|]. split; [auto|]. cbn [skipn]. exact Es.
  - exists [], (c :: b ++ s). split; [reflexivity|]. split; [constructor|]. split; [cbn; rewrite E; auto|reflexivity].
Qed.
Definition strip (v : cstr) : cstr := skipn (leading_space v) v.
Definition tail_ok (s tail : cstr) : Prop := tail = [] \/ exists s', s = s' ++ [" "%char].

Lemma written_absent_last : forall l k, key_like k -> separated l ->
  Forall (fun e => absent (fst e) k /\ absent (snd e) k) l -> absent (written l) k.
Proof.
  intros l k Hk S F. induction F as [|[k' v] l [A B] F IH].
  - apply absent_nil. apply Hk.
  - cbn [written fst snd] in *. destruct S as [S1 S2]. apply absent_app; auto; try apply Hk.
    destruct l as [|e l]; [cbn [written]; rewrite app_nil_r; auto|].
    destruct (S1 ltac:(discriminate)) as [v' Ev]. subst v. rewrite <- app_assoc. cbn [app].
    apply absent_app; [apply key_like_space; auto|apply Hk| |apply IH; auto].
    eapply absent_prefix; eauto.
Qed.

Lemma text_of : forall l k, entries_ok l -> In k all_keys ->
  match lookup l k with
  | None => value_text (written l) k = Ok None
  | Some v => exists tail, value_text (written l) k = Ok (Some (strip v ++ tail)) /\ tail_ok (strip v) tail /\
                complete_text v /\ strip v <> []
  end.
Proof.
  intros l k (S & Sm & F) I. pose proof (all_keys_like k I) as Hk. pose proof Hk as (Hne & _ & _).
  destruct (lookup l k) as [v|] eqn:E.
  - apply lookup_split in E as (l1 & l2 & -> & F1).
    assert (F2 : Forall (fun e => absent (fst e) k /\ absent (snd e) k) l1).
    { rewrite Forall_forall in *. intros e He. destruct (F e) as (_ & _ & A); [apply in_app_iff; auto|].
      destruct (A k I) as [A1 [A2|A2]]; [exfalso; exact (F1 e He A2)|auto]. }
    pose proof (written_value_found l1 k v l2 Hk S F2) as N.
    assert (Cv : complete_text v).
    { rewrite Forall_forall in F. destruct (F (k, v)) as (_ & C & _); [apply in_app_iff; right; left; auto|exact C]. }
    destruct (blank_leading v) as (b & s & Ev & Hb & Hs & Es). unfold strip. rewrite Es.
    exists (written l2). assert (Hn : s <> []).
    { intros ->. apply (proj1 Cv). rewrite Ev, app_nil_r. exact Hb. }
    split; [|split; [|split]]; auto.
    + apply (value_text_spec _ k (v ++ written l2) b (s ++ written l2)); auto.
      * rewrite Ev, app_assoc. reflexivity.
      * destruct s as [|c s]; [easy|]. cbn in Hs |- *. destruct (isspace c); [discriminate|auto].
    + destruct l2 as [|e l2]; [left; reflexivity|right].
      assert (Ends : ends_with_space v).
      { clear - S. induction l1 as [|[k' v'] l1 IH]; cbn in S; [apply S; discriminate|apply IH, S]. }
      destruct Ends as [v' Ev']. rewrite Ev in Ev'. destruct (exists_last Hn) as (s' & c & ->).
      rewrite app_assoc in Ev'. apply app_inj_tail in Ev' as [_ ->]. eauto.
  - apply lookup_none in E. unfold value_text. rewrite locate_absent; auto.
    apply written_absent_last; auto. rewrite Forall_forall in *. intros e He. destruct (F e He) as (_ & _ & A).
    destruct (A k I) as [A1 [A2|A2]]; [exfalso; exact (E e He A2)|auto].
Qed.

(** ** The value does not depend on what follows *)
Lemma scan_digits_tail : forall base s tail acc, scan_digits base (s ++ " "%char :: tail) acc = scan_digits base (s ++ [" "%char]) acc.
Proof.
  induction s as [|c s IH]; intros tail acc; [reflexivity|]. cbn [app scan_digits]. destruct (digit_in base c); auto.
Qed.
Lemma scan_unsigned_tail : forall s tail, scan_unsigned (s ++ " "%char :: tail) = scan_unsigned (s ++ [" "%char]).
Proof.
  intros [|c s] tail; [reflexivity|]. cbn [app]. unfold scan_unsigned.
  destruct (Ascii.eqb_spec c "0"%char) as [->|N].
  - destruct s as [|x s]; [reflexivity|]. cbn [app]. destruct (Ascii.eqb x "x" || Ascii.eqb x "X")%char.
    + apply scan_digits_tail.
    + exact (scan_digits_tail 8 ("0"%char :: x :: s) tail None).
  - assert (G : forall t, match c :: t with
      | "0"%char :: x :: s' => if (Ascii.eqb x "x" || Ascii.eqb x "X")%char then scan_digits 16 s' None else scan_digits 8 (c :: t) None
      | _ => scan_digits 10 (c :: t) None end = scan_digits 10 (c :: t) None).
    { intros t. destruct c as [[] [] [] [] [] [] [] []]; try reflexivity. exfalso. apply N. reflexivity. }
    etransitivity; [exact (G _)|]. symmetry. etransitivity; [exact (G _)|]. symmetry.
    exact (scan_digits_tail 10 (c :: s) tail None).
Qed.

Lemma leading_strip : forall v, leading_space (strip v) = 0.
Proof. intros v. destruct (blank_leading v) as (b & s & _ & _ & H & E). unfold strip. rewrite E. exact H. Qed.
Lemma strip_strip : forall v, strip (strip v) = strip v.
Proof. intros v. unfold strip at 1. rewrite leading_strip. reflexivity. Qed.
Lemma strip_app : forall v tail, strip v <> [] -> strip (strip v ++ tail) = strip v ++ tail.
Proof.
  intros v tail H. pose proof (leading_strip v) as L. destruct (strip v) as [|c s]; [easy|].
  unfold strip. cbn [app leading_space] in *. destruct (isspace c); [discriminate|reflexivity].
Qed.

Lemma int_text : forall v tail, strip v <> [] -> tail_ok (strip v) tail -> sscanf_int (strip v ++ tail) = sscanf_int v.
Proof.
  intros v tail Hn Ht. unfold sscanf_int. fold (strip (strip v ++ tail)). fold (strip v). rewrite strip_app by auto.
  pose proof (leading_strip v) as L. destruct Ht as [->|[s' E]]; [rewrite app_nil_r; reflexivity|].
  rewrite E in *. clear E. rewrite <- app_assoc. cbn [app].
  destruct s' as [|c s']; [discriminate L|]. cbn [app].
  rewrite (scan_unsigned_tail s' tail). change (c :: s' ++ " "%char :: tail) with ((c :: s') ++ " "%char :: tail).
  rewrite (scan_unsigned_tail (c :: s') tail). reflexivity.
Qed.
Lemma size_text : forall v tail, strip v <> [] -> tail_ok (strip v) tail -> sscanf_size_t (strip v ++ tail) = sscanf_size_t v.
Proof.
  intros v tail Hn Ht. unfold sscanf_size_t. fold (strip (strip v ++ tail)). fold (strip v). rewrite strip_app by auto.
  pose proof (leading_strip v) as L. destruct Ht as [->|[s' E]]; [rewrite app_nil_r; reflexivity|].
  rewrite E in *. clear E. rewrite <- app_assoc. cbn [app].
  destruct s' as [|c s']; [discriminate L|]. cbn [app].
  destruct (_ || _); [rewrite scan_digits_tail|change (c :: s' ++ " "%char :: tail) with ((c :: s') ++ " "%char :: tail);
    rewrite (scan_digits_tail 10 (c :: s'))]; reflexivity.
Qed.

Definition scan_string (cap : N) (s : cstr) : res (reading cstr) :=
  match s with
  | [] => Ok ((-1)%Z, None)
  | c :: s' =>
      if Ascii.eqb c """"%char then
        match s' with
        | [] => Ok ((-1)%Z, None)
        | c' :: _ => if Ascii.eqb c' """"%char then Ok (0%Z, None)
                     else do w <- store cap (until_quote s'); Ok (1%Z, Some w)
        end
      else do w <- store cap (word s); Ok (1%Z, Some w)
  end.
Lemma word_tail : forall s tail, word (s ++ " "%char :: tail) = word (s ++ [" "%char]).
Proof. induction s as [|c s IH]; intros tail; [reflexivity|]. cbn. destruct (isspace c); [reflexivity|]. f_equal. apply IH. Qed.
Lemma until_quote_tail : forall t r, until_quote (t ++ """"%char :: r) = until_quote (t ++ [""""%char]).
Proof. induction t as [|c t IH]; intros r; [reflexivity|]. cbn. destruct (Ascii.eqb c """"); [reflexivity|]. f_equal. apply IH. Qed.

Lemma quoted_strip : forall v r, complete_text v -> strip v = """"%char :: r -> exists t q, r = t ++ """"%char :: q.
Proof.
  intros v r [_ [N|(b & t & q & E & Hb & _)]] S.
  - exfalso. apply N. destruct (blank_leading v) as (b & s & -> & _ & _ & Es). apply in_app_iff. right.
    unfold strip in S. rewrite Es in S. subst s. left. reflexivity.
  - subst v. unfold strip in S. rewrite leading_space_app in S by auto.
    rewrite leading_space_nonspace, Nat.add_0_r in S by reflexivity.
    rewrite skipn_app, skipn_all, Nat.sub_diag in S. cbn in S. injection S as <-. eauto.
Qed.

Lemma string_text : forall cap v tail, strip v <> [] -> tail_ok (strip v) tail -> complete_text v ->
  scan_string cap (strip v ++ tail) = scan_string cap (strip v).
Proof.
  intros cap v tail Hn Ht Cv. destruct Ht as [->|[s' E]]; [rewrite app_nil_r; reflexivity|].
  pose proof (leading_strip v) as L. pose proof (quoted_strip v) as Q. rewrite E in *. clear E. rewrite <- app_assoc. cbn [app].
  destruct s' as [|c s']; [discriminate L|]. cbn [app scan_string].
  destruct (Ascii.eqb_spec c """"%char) as [->|N].
  - destruct (Q (s' ++ [" "%char]) Cv eq_refl) as (t & q & Eq).
    assert (U : until_quote (s' ++ " "%char :: tail) = until_quote (s' ++ [" "%char])).
    { replace (s' ++ " "%char :: tail) with ((s' ++ [" "%char]) ++ tail) by (rewrite <- app_assoc; reflexivity).
      rewrite Eq. rewrite <- app_assoc. cbn [app]. rewrite until_quote_tail, (until_quote_tail t q). reflexivity. }
    rewrite U. destruct s' as [|c' s']; reflexivity.
  - change (c :: s' ++ " "%char :: tail) with ((c :: s') ++ " "%char :: tail). rewrite (word_tail (c :: s')). reflexivity.
Qed.

Lemma read_int_of : forall l k, entries_ok l -> In k all_keys ->
  coco_options_read_int (written l) k = match lookup l k with None => Ok (0%Z, None) | Some v => sscanf_int v end.
Proof.
  intros l k H I. pose proof (text_of l k H I) as T. unfold coco_options_read_int. destruct (lookup l k) as [v|].
  - destruct T as (tail & -> & Ht & _ & Hn). cbn [bind]. now apply int_text.
  - rewrite T. reflexivity.
Qed.
Lemma read_size_of : forall l k, entries_ok l -> In k all_keys ->
  coco_options_read_size_t (written l) k = match lookup l k with None => Ok (0%Z, None) | Some v => sscanf_size_t v end.
Proof.
  intros l k H I. pose proof (text_of l k H I) as T. unfold coco_options_read_size_t. destruct (lookup l k) as [v|].
  - destruct T as (tail & -> & Ht & _ & Hn). cbn [bind]. now apply size_text.
  - rewrite T. reflexivity.
Qed.
Lemma read_string_of : forall l k cap, entries_ok l -> In k all_keys ->
  coco_options_read_string (written l) k cap = match lookup l k with None => Ok (0%Z, None) | Some v => scan_string cap (strip v) end.
Proof.
  intros l k cap H I. pose proof (text_of l k H I) as T.
  assert (G : coco_options_read_string (written l) k cap =
    do t <- value_text (written l) k; match t with None => Ok (0%Z, None) | Some s => scan_string cap s end).
  { unfold coco_options_read_string, scan_string. destruct (value_text (written l) k) as [[s|]| |]; reflexivity. }
  rewrite G. destruct (lookup l k) as [v|].
  - destruct T as (tail & -> & Ht & Cv & Hn). cbn [bind]. now apply string_text.
  - rewrite T. reflexivity.
Qed.
Lemma read_double_of : forall strtod l k, strtod_local strtod -> entries_ok l -> In k all_keys ->
  coco_options_read_double strtod (written l) k =
    match lookup l k with
    | None => Ok (0%Z, None)
    | Some v => Ok (match strtod (strip v) with Some d => (1%Z, Some d) | None => (0%Z, None) end)
    end.
Proof.
  intros strtod l k Hl H I. pose proof (text_of l k H I) as T. unfold coco_options_read_double. destruct (lookup l k) as [v|].
  - destruct T as (tail & -> & Ht & _ & Hn). cbn [bind].
    assert (E : strtod (strip v ++ tail) = strtod (strip v)).
    { destruct Ht as [->|[s' E]]; [rewrite app_nil_r; reflexivity|]. rewrite E, <- app_assoc. apply Hl. reflexivity. }
    destruct (strip v) as [|c s]; [easy|]. cbn [app] in *. rewrite E. reflexivity.
  - rewrite T. reflexivity.
Qed.

(** ** Values *)
Lemma strip_is : forall b c s, blank b -> isspace c = false -> strip (b ++ c :: s) = c :: s.
Proof.
  intros b c s Hb Hc. unfold strip. rewrite leading_space_app, leading_space_nonspace, Nat.add_0_r by auto.
  rewrite skipn_app, skipn_all, Nat.sub_diag. reflexivity.
Qed.

Lemma scan_written : forall v w cap, string_written v w ->
  scan_string cap (strip v) = if (N.of_nat (length w) <? cap)%N then Ok (1%Z, Some w) else UB.
Proof.
  intros v w cap [[(b & rest & E & Hb & Hw & Fw & Hr) Hq]|(b & rest & E & Hb & Hw & Hq & Hr)].
  - destruct w as [|c w]; [easy|]. inversion Fw as [|? ? Hc Fw']; subst. cbn [app]. rewrite strip_is by auto.
    cbn [scan_string]. cbn in Hq. destruct (Ascii.eqb_spec c """"%char) as [->|Hcq]; [congruence|].
    change (c :: w ++ rest) with ((c :: w) ++ rest). rewrite word_spec by (auto; constructor; auto).
    unfold store. destruct (_ <? _)%N; reflexivity.
  - subst v. rewrite strip_is by (auto; reflexivity). cbn [scan_string]. rewrite Ascii.eqb_refl.
    destruct w as [|c w]; [easy|]. cbn [app].
    destruct (Ascii.eqb_spec c """"%char) as [->|Hcq]; [exfalso; apply Hq; left; auto|].
    change (c :: w ++ rest) with ((c :: w) ++ rest). rewrite until_quote_spec by auto.
    unfold store. destruct (_ <? _)%N; reflexivity.
Qed.

Lemma string_option_ok : forall l k cap default x, entries_ok l -> In k all_keys ->
  string_option (written l) k cap default = Ok x -> string_setting l k default x.
Proof.
  intros l k cap default x H I E. unfold string_option in E. rewrite read_string_of in E by auto. split.
  - intros L. rewrite L in E. cbn in E. congruence.
  - intros v w L W. rewrite L in E. rewrite (scan_written v w _ W) in E. destruct (_ <? _)%N; [|discriminate]. cbn in E. congruence.
Qed.

Lemma mode_option_ok : forall A l k (words : list (cstr * A)) default x, entries_ok l -> In k all_keys ->
  NoDup (map fst words) -> mode_option (written l) k words default = Ok x -> mode_setting l k words default x.
Proof.
  intros A l k words default x H I D E. unfold mode_option in E. rewrite read_string_of in E by auto. split.
  - intros L. rewrite L in E. cbn in E. congruence.
  - intros v w L W. rewrite L in E. rewrite (scan_written v w _ W) in E. destruct (_ <? _)%N; [|discriminate].
    cbn [bind] in E. change (0 <? 1)%Z with true in E. cbv iota in E.
    assert (E' : x = match find (fun w0 => streq w (fst w0)) words with Some w0 => snd w0 | None => default end) by congruence.
    clear E. subst x. split.
    + intros a Ia. destruct (find (fun w0 => streq w (fst w0)) words) as [[w' a']|] eqn:F.
      * apply find_some in F as [Iw Ew]. cbn in Ew. apply streq_spec in Ew. subst w'. cbn.
        clear - D Iw Ia. induction words as [|[w2 a2] ws IH]; [destruct Iw|]. cbn in D. inversion D as [|? ? Nw D']; subst.
        destruct Iw as [Iw|Iw], Ia as [Ia|Ia].
        -- congruence.
        -- exfalso. apply Nw. injection Iw as -> ->. apply (in_map fst) in Ia. exact Ia.
        -- exfalso. apply Nw. injection Ia as -> ->. apply (in_map fst) in Iw. exact Iw.
        -- auto.
      * exfalso. pose proof (find_none _ _ F _ Ia) as K. cbn in K. rewrite (proj2 (streq_spec w w) eq_refl) in K. discriminate.
    + intros N. destruct (find (fun w0 => streq w (fst w0)) words) as [[w' a']|] eqn:F; [|reflexivity].
      apply find_some in F as [Iw Ew]. cbn in Ew. apply streq_spec in Ew. subst w'. exfalso. exact (N a' Iw).
Qed.

Lemma digits_scan : forall d rest, digits d -> d <> [] -> (forall c r, rest = c :: r -> isdigit c = false) ->
  scan_digits 10 (d ++ rest) None = Some (Z.of_N (dec d)).
Proof.
  intros d rest Hd Hn Hr. destruct d as [|c d]; [easy|]. inversion Hd as [|? ? Hc Hd']; subst.
  cbn [app scan_digits]. unfold digit_in, hex_val. rewrite Hc.
  assert (Hc': (0 <= Z.of_nat (code c) - 48 < 10)%Z) by (unfold isdigit in Hc; lia).
  destruct (Z.ltb_spec (Z.of_nat (code c) - 48) 10); [|lia].
  destruct (scan_digits_spec d rest (Z.of_nat (code c) - 48) Hd' Hr) as (v & -> & ->).
  f_equal. cbn [dec]. assert (Ec: Z.of_N (N_of_ascii c) = Z.of_nat (code c)) by (unfold code, nat_of_ascii; lia).
  rewrite !N2Z.inj_add, !N2Z.inj_mul. rewrite N2Z.inj_sub by (unfold isdigit in Hc; lia).
  rewrite Ec. reflexivity.
Qed.
Lemma unsigned_scan : forall d rest, digits d ->
  (exists c d', d = c :: d' /\ (c <> "0"%char \/ d' = [] /\ forall x r, rest = x :: r -> x <> "x"%char /\ x <> "X"%char)) ->
  (forall c r, rest = c :: r -> isdigit c = false) ->
  scan_unsigned (d ++ rest) = Some (Z.of_N (dec d)).
Proof.
  intros d rest Hd (c & d' & -> & Hc) Hr.
  assert (G : scan_unsigned ((c :: d') ++ rest) = scan_digits 10 ((c :: d') ++ rest) None).
  { destruct Hc as [Hc|[-> Hx]].
    - cbn [app]. unfold scan_unsigned. destruct c as [[] [] [] [] [] [] [] []]; try reflexivity. exfalso. apply Hc. reflexivity.
    - cbn [app]. destruct rest as [|x r].
      + unfold scan_unsigned. destruct c as [[] [] [] [] [] [] [] []]; reflexivity.
      + destruct (Ascii.eqb_spec c "0"%char) as [->|N].
        * unfold scan_unsigned. destruct (Hx x r eq_refl) as [X1 X2]. destruct (Ascii.eqb_spec x "x"%char); [congruence|].
          destruct (Ascii.eqb_spec x "X"%char); [congruence|]. cbn [orb]. cbn [scan_digits].
          assert (ND : forall b, (b <= 10)%Z -> digit_in b x = None).
          { intros b Hb. pose proof (Hr x r eq_refl) as Hd0. unfold digit_in, hex_val. rewrite Hd0.
            destruct ((97 <=? Z.of_nat (code x))%Z && (Z.of_nat (code x) <=? 102)%Z) eqn:E1.
            - replace (_ <? b)%Z with false by lia. reflexivity.
            - destruct ((65 <=? Z.of_nat (code x))%Z && (Z.of_nat (code x) <=? 70)%Z) eqn:E2; [|reflexivity].
              replace (_ <? b)%Z with false by lia. reflexivity. }
          rewrite !ND by lia. reflexivity.
        * unfold scan_unsigned. destruct c as [[] [] [] [] [] [] [] []]; try reflexivity. exfalso. apply N. reflexivity. }
  rewrite G. apply digits_scan; auto. discriminate.
Qed.

Lemma digit_facts : forall c, isdigit c = true -> isspace c = false /\ Ascii.eqb c "-" = false /\ Ascii.eqb c "+" = false.
Proof.
  intros c H. split; [unfold isspace, isdigit in *; lia|]. split.
  - destruct (Ascii.eqb_spec c "-"%char) as [->|]; [discriminate H|reflexivity].
  - destruct (Ascii.eqb_spec c "+"%char) as [->|]; [discriminate H|reflexivity].
Qed.

Lemma int_written : forall v z, decimal_written v z -> (INT_MIN <= z <= INT_MAX)%Z -> sscanf_int v = Ok (1%Z, Some z).
Proof.
  intros v z (b & s & d & rest & -> & Hb & Hd & Hc & Hr & Hz) Hm. unfold sscanf_int.
  fold (strip (b ++ s ++ d ++ rest)). pose proof (unsigned_scan d rest Hd Hc Hr) as U.
  destruct Hz as [[-> Ez]|[[-> Ez]|[-> Ez]]]; cbn [app].
  - destruct Hc as (c & d' & -> & _). inversion Hd as [|? ? Hc' Hd']; subst.
    destruct (digit_facts c Hc') as (F1 & F2 & F3). cbn [app] in *. rewrite strip_is by auto. rewrite F2, F3, U.
    replace (_ || _) with false by lia. reflexivity.
  - rewrite strip_is by auto. cbn [Ascii.eqb Bool.eqb]. rewrite U, <- Ez. replace (_ || _) with false by lia. reflexivity.
  - rewrite strip_is by auto. cbn [Ascii.eqb Bool.eqb]. rewrite U. cbn [option_map]. rewrite <- Ez. replace (_ || _) with false by lia. reflexivity.
Qed.
Lemma size_written : forall v z, decimal_written v z -> (- 2 ^ 64 < z < 2 ^ 64)%Z ->
  sscanf_size_t v = Ok (1%Z, Some (Z.to_N (z mod 2 ^ 64))).
Proof.
  intros v z (b & s & d & rest & -> & Hb & Hd & Hc & Hr & Hz) Hm. unfold sscanf_size_t.
  fold (strip (b ++ s ++ d ++ rest)).
  assert (Hn : d <> []) by (destruct Hc as (c & d' & -> & _); discriminate).
  pose proof (digits_scan d rest Hd Hn Hr) as U.
  destruct Hz as [[-> Ez]|[[-> Ez]|[-> Ez]]]; cbn [app].
  - destruct Hc as (c & d' & -> & _). inversion Hd as [|? ? Hc' Hd']; subst.
    destruct (digit_facts c Hc') as (F1 & F2 & F3). cbn [app] in *. rewrite strip_is by auto. rewrite F2, F3. cbn [orb]. rewrite U.
    destruct (Z.ltb_spec (Z.of_N (dec (c :: d'))) (2 ^ 64)); [reflexivity|lia].
  - rewrite strip_is by auto. cbn [Ascii.eqb Bool.eqb orb]. rewrite U, <- Ez.
    destruct (Z.ltb_spec z (2 ^ 64)); [reflexivity|lia].
  - rewrite strip_is by auto. cbn [Ascii.eqb Bool.eqb orb]. rewrite U. subst z.
    destruct (Z.ltb_spec (Z.of_N (dec d)) (2 ^ 64)); [reflexivity|lia].
Qed.

Lemma int_option_ok : forall l k default lo hi x m, entries_ok l -> In k all_keys ->
  int_option (written l) k default lo hi = Ok (x, m) -> int_setting l k default lo hi x.
Proof.
  intros l k default lo hi x m H I E. unfold int_option, checked_option in E. rewrite read_int_of in E by auto. split.
  - intros L. rewrite L in E. cbn in E. congruence.
  - intros v z L W Hm. rewrite L, (int_written v z W Hm) in E. cbn [bind] in E. change (negb (1 =? 0)%Z) with true in E. cbv iota in E.
    replace ((lo <=? z) && (z <=? hi))%Z with (negb ((z <? lo) || (hi <? z)))%Z by lia.
    destruct (negb _); congruence.
Qed.
Lemma size_option_ok : forall l k default least suit x m, entries_ok l -> In k all_keys -> (forall v, suit v = negb (v <? least)%N) ->
  checked_option (coco_options_read_size_t (written l) k) k default suit = Ok (x, m) ->
  size_setting l k default least x.
Proof.
  intros l k default least suit x m H I HS E. unfold checked_option in E. rewrite read_size_of in E by auto. split.
  - intros L. rewrite L in E. cbn in E. congruence.
  - intros v z L W Hm. rewrite L, (size_written v z W Hm) in E. cbn [bind] in E. change (negb (1 =? 0)%Z) with true in E. cbv iota in E.
    cbv zeta. set (n := Z.to_N (z mod 2 ^ 64)) in *. rewrite HS in E. replace (least <=? n)%N with (negb (n <? least)%N) by lia.
    destruct (negb _); congruence.
Qed.
Lemma precision_option_ok : forall strtod l k default x m, strtod_local strtod -> entries_ok l -> In k all_keys ->
  precision_option strtod (written l) k default = Ok (x, m) -> double_setting strtod l k default x.
Proof.
  intros strtod l k default x m Hl H I E. unfold precision_option, checked_option in E. rewrite read_double_of in E by auto. split.
  - intros L. rewrite L in E. cbn [bind] in E. change (negb (0 =? 0)%Z) with false in E. cbv iota in E. congruence.
  - intros v b s d L -> Hb Hs Hd. rewrite L in E.
    pose proof (text_of l k H I) as T. rewrite L in T. destruct T as (_ & _ & _ & _ & Hn).
    assert (S : strip (b ++ s) = s).
    { destruct s as [|c s]; [|apply strip_is; auto; apply (Hs c s eq_refl)]. exfalso. apply Hn. rewrite app_nil_r.
      unfold strip. rewrite <- (app_nil_r b) at 1. rewrite leading_space_app by auto. cbn. rewrite Nat.add_0_r, skipn_all. reflexivity. }
    rewrite S, Hd in E. cbn [bind] in E. change (negb (1 =? 0)%Z) with true in E. cbv iota in E.
    destruct (dle d (dint 0)); cbn [negb] in E; congruence.
Qed.

Lemma raw_int_ok : forall l k default x, entries_ok l -> In k all_keys ->
  raw_option (coco_options_read_int (written l) k) default = Ok x -> int_setting l k default INT_MIN INT_MAX x.
Proof.
  intros l k default x H I E. unfold raw_option in E. rewrite read_int_of in E by auto. split.
  - intros L. rewrite L in E. cbn in E. congruence.
  - intros v z L W Hm. rewrite L, (int_written v z W Hm) in E. cbn in E. 
    replace ((INT_MIN <=? z) && (z <=? INT_MAX))%Z with true by lia. congruence.
Qed.
Lemma raw_size_ok : forall l k default x, entries_ok l -> In k all_keys ->
  raw_option (coco_options_read_size_t (written l) k) default = Ok x -> size_setting l k default 0 x.
Proof.
  intros l k default x H I E. unfold raw_option in E. rewrite read_size_of in E by auto. split.
  - intros L. rewrite L in E. cbn in E. congruence.
  - intros v z L W Hm. rewrite L, (size_written v z W Hm) in E. cbn [bind] in E. change (1 =? 0)%Z with false in E. cbv iota in E. cbv zeta.
    replace (0 <=? Z.to_N (z mod 2 ^ 64))%N with true by lia. congruence.
Qed.

(** ** Names *)
Lemma streq_firstn : forall name p, streq (firstn (length p) name) p = true <-> exists t, name = p ++ t.
Proof.
  intros name p. rewrite streq_spec. split.
  - intros E. exists (skipn (length p) name). rewrite <- E at 1. symmetry. apply firstn_skipn.
  - intros [t ->]. rewrite firstn_app, firstn_all, Nat.sub_diag. cbn. apply app_nil_r.
Qed.
Lemma dispatch_spec : forall name k, dispatch name = Some k <-> observer_called name k.
Proof.
  intros name k. split.
  - unfold dispatch. intros H.
    repeat match type of H with (if ?b then _ else _) = _ => let E := fresh "E" in destruct b eqn:E end; try discriminate;
      injection H as <-;
      match goal with
      | E : streq (firstn 16 name) _ = true |- _ => right; split; [reflexivity|]; exact (proj1 (streq_firstn name (str "bbob-constrained")) E)
      | E : streq name (str ?s) = true |- _ => left; exists s; apply streq_spec in E; split; [exact E|cbn; tauto]
      end.
  - intros [(s & -> & I)|(-> & t & ->)].
    + cbn in I. repeat (destruct I as [I|I]; [injection I as <- <-; reflexivity|]). destruct I.
    + reflexivity.
Qed.

(** ** The parts of coco_observer *)
Ltac step_bind H :=
  match type of H with
  | bind ?r _ = Ok _ =>
    let a := fresh "a" in let E := fresh "E" in
    destruct r as [a| |] eqn:E; [cbn [bind] in H|discriminate H|discriminate H]
  end.
Ltac key := cbn; tauto.

Lemma biobj_ok : forall l d a, entries_ok l -> observer_biobj (written l) = Ok (d, a) ->
  data_kind d = LBiobj /\ forall folder, special_settings l folder d a.
Proof.
  intros l d a H E. unfold observer_biobj in E.
  step_bind E. step_bind E. step_bind E. step_bind E. rename a0 into n, a1 into v, a2 into c, a3 into p.
  apply mode_option_ok in E0; [|auto|key|repeat constructor; cbn; intuition discriminate].
  apply mode_option_ok in E1; [|auto|key|repeat constructor; cbn; intuition discriminate].
  apply raw_int_ok in E2; [|auto|key]. apply raw_int_ok in E3; [|auto|key]. cbv zeta in E.
  destruct (Z.eqb_spec p 0) as [->|Np]; cbn [negb] in E; injection E as <- <-; cbn [special_settings data_kind].
  - split; [reflexivity|]. intros _. split; [exact E3|]. split; [congruence|]. split.
    + intros _. split; [exact E0|]. split; [|exact E2].
      destruct E1 as [E1 E1']. split; [exact E1|]. intros t w L W. destruct (E1' t w L W) as [A B]. split.
      * intros x I. apply A. cbn in I |- *. tauto.
      * intros N. apply B. intros x I. apply (N x). cbn in I |- *. tauto.
    + destruct n; cbn [andb negb]; (split; [|intros [? ?]; try discriminate]); try discriminate.
      * destruct (Z.eqb_spec c 0); [auto|discriminate].
      * subst c. reflexivity.
  - split; [reflexivity|]. intros _. split; [exact E3|]. split; [auto|]. split; [congruence|].
    cbn. split; [discriminate|intros [? _]; discriminate].
Qed.

Lemma rw_ok : forall l d, entries_ok l -> observer_rw (written l) = Ok d ->
  data_kind d = LRw /\ forall folder, special_settings l folder d true.
Proof.
  intros l d H E. unfold observer_rw in E. cbv zeta in E.
  step_bind E. step_bind E. step_bind E. step_bind E. step_bind E. step_bind E.
  apply mode_option_ok in E0; [|auto|key|repeat constructor; cbn; intuition discriminate].
  apply mode_option_ok in E1; [|auto|key|repeat constructor; cbn; intuition discriminate].
  apply raw_size_ok in E2; [|auto|key]. apply raw_size_ok in E3; [|auto|key].
  apply raw_int_ok in E4; [|auto|key]. apply raw_int_ok in E5; [|auto|key].
  injection E as <-. cbn [special_settings data_kind log_vars_mode log_cons_mode low_dim_vars low_dim_cons observer_only_better observer_log_time].
  assert (P : forall k x, mode_setting l k [(str "none", LOG_NEVER); (str "all", LOG_ALWAYS); (str "low_dim", LOG_LOW_DIM)] LOG_ALWAYS x ->
    mode_setting l k mode_words LOG_ALWAYS x).
  { intros k x [Q1 Q2]. split; [exact Q1|]. intros t w L W. destruct (Q2 t w L W) as [A B]. split.
    - intros y I. apply A. cbn in I |- *. tauto.
    - intros N. apply B. intros y I. apply (N y). cbn in I |- *. tauto. }
  split; [reflexivity|]. intros _. split; [reflexivity|]. split; [apply P; exact E0|]. split; [apply P; exact E1|].
  split; [exact E2|]. split; [exact E3|]. split; assumption.
Qed.

(** ** Options that can be read *)
Lemma string_length : forall v w, string_written v w -> length w <= length v.
Proof.
  intros v w [[(b & rest & -> & _) _]|(b & rest & -> & _)].
  - rewrite !app_length. lia.
  - rewrite app_length. cbn [length]. rewrite app_length. lia.
Qed.
Lemma lookup_length : forall l k v, lookup l k = Some v -> length v < length (written l).
Proof.
  induction l as [|[a b] l IH]; cbn [lookup]; intros k v E; [discriminate|]. cbn [written]. rewrite app_length. cbn [length].
  rewrite app_length. destruct (streq a k); [injection E as ->; lia|]. apply IH in E. lia.
Qed.
Lemma string_nonempty : forall v w, string_written v w -> w <> [].
Proof. intros v w [[(b & rest & _ & _ & H & _) _]|(b & rest & _ & _ & H & _)]; exact H. Qed.

Lemma string_total : forall l k cap default, entries_ok l -> values_fit l -> In k all_keys -> In k string_keys ->
  length (written l) <= cap -> exists x, string_option (written l) k cap default = Ok x.
Proof.
  intros l k cap default H V I J L. unfold string_option. rewrite read_string_of by auto.
  destruct (lookup l k) as [v|] eqn:E; [|eexists; reflexivity].
  destruct (V k v E) as [[w W] _]; [exact J|]. rewrite (scan_written v w _ W).
  pose proof (string_length v w W). pose proof (lookup_length l k v E).
  destruct (N.ltb_spec (N.of_nat (length w)) (N.of_nat cap)); [|lia]. eexists; reflexivity.
Qed.
Lemma mode_total : forall A l k (words : list (cstr * A)) default, entries_ok l -> values_fit l -> In k all_keys -> In k string_keys ->
  length (written l) < 220 -> exists x, mode_option (written l) k words default = Ok x.
Proof.
  intros A l k words default H V I J L. unfold mode_option. rewrite read_string_of by auto.
  destruct (lookup l k) as [v|] eqn:E; [|eexists; reflexivity].
  destruct (V k v E) as [[w W] _]; [exact J|]. rewrite (scan_written v w _ W).
  pose proof (string_length v w W). pose proof (lookup_length l k v E).
  destruct (N.ltb_spec (N.of_nat (length w)) (N.of_nat (S COCO_PATH_MAX))) as [B|B]; [eexists; reflexivity|].
  exfalso. unfold COCO_PATH_MAX in B. lia.
Qed.
Lemma raw_int_total : forall l k default, entries_ok l -> values_fit l -> In k all_keys -> In k int_keys ->
  exists x, raw_option (coco_options_read_int (written l) k) default = Ok x.
Proof.
  intros l k default H V I J. unfold raw_option. rewrite read_int_of by auto.
  destruct (lookup l k) as [v|] eqn:E; [|eexists; reflexivity].
  destruct (V k v E) as (_ & Q & _). destruct (Q J) as (z & W & B). rewrite (int_written v z W B). eexists; reflexivity.
Qed.
Lemma raw_size_total : forall l k default, entries_ok l -> values_fit l -> In k all_keys -> In k size_keys ->
  exists x, raw_option (coco_options_read_size_t (written l) k) default = Ok x.
Proof.
  intros l k default H V I J. unfold raw_option. rewrite read_size_of by auto.
  destruct (lookup l k) as [v|] eqn:E; [|eexists; reflexivity].
  destruct (V k v E) as (_ & _ & Q). destruct (Q J) as (z & W & B). rewrite (size_written v z W B). eexists; reflexivity.
Qed.

(** Options with a message; [bad] holds if the value given is not accepted *)
Definition said (m : list message) (k : cstr) (bad : Prop) : Prop :=
  m = [] /\ ~ bad \/ m = [Unsuitable k] /\ bad.
Lemma int_total : forall l k default lo hi, entries_ok l -> values_fit l -> In k all_keys -> In k int_keys ->
  exists x m, int_option (written l) k default lo hi = Ok (x, m) /\
    said m k (exists v, lookup l k = Some v /\ exists z, decimal_written v z /\ (INT_MIN <= z <= INT_MAX)%Z /\ ~ (lo <= z <= hi)%Z).
Proof.
  intros l k default lo hi H V I J. unfold int_option, checked_option. rewrite read_int_of by auto.
  destruct (lookup l k) as [v|] eqn:E.
  - destruct (V k v E) as (_ & Q & _). destruct (Q J) as (z & W & B). rewrite (int_written v z W B).
    cbn [bind]. change (negb (1 =? 0)%Z) with true. cbv iota.
    destruct (negb ((z <? lo)%Z || (hi <? z)%Z)) eqn:T; do 2 eexists; (split; [reflexivity|]).
    + left. split; [reflexivity|]. intros (v' & Ev & z' & W' & B' & N). assert (v' = v) by congruence. subst v'.
      pose proof (int_written v z W B). pose proof (int_written v z' W' B'). assert (z' = z) by congruence. lia.
    + right. split; [reflexivity|]. exists v. split; [reflexivity|]. exists z. split; [auto|]. split; [auto|lia].
  - do 2 eexists. split; [reflexivity|]. left. split; [reflexivity|]. intros (v & Ev & _). discriminate.
Qed.
Lemma size_total : forall l k default least suit, entries_ok l -> values_fit l -> In k all_keys -> In k size_keys ->
  (forall v, suit v = negb (v <? least)%N) ->
  exists x m, checked_option (coco_options_read_size_t (written l) k) k default suit = Ok (x, m) /\
    said m k (exists v, lookup l k = Some v /\ exists z, decimal_written v z /\ (- 2 ^ 64 < z < 2 ^ 64)%Z /\ (z mod 2 ^ 64 < Z.of_N least)%Z).
Proof.
  intros l k default least suit H V I J S. unfold checked_option. rewrite read_size_of by auto.
  destruct (lookup l k) as [v|] eqn:E.
  - destruct (V k v E) as (_ & _ & Q). destruct (Q J) as (z & W & B). rewrite (size_written v z W B).
    cbn [bind]. change (negb (1 =? 0)%Z) with true. cbv iota. rewrite S.
    pose proof (Z.mod_pos_bound z (2 ^ 64) ltac:(reflexivity)) as P.
    destruct (N.ltb_spec (Z.to_N (z mod 2 ^ 64)) least) as [T|T]; cbn [negb]; do 2 eexists; (split; [reflexivity|]).
    + right. split; [reflexivity|]. exists v. split; [reflexivity|]. exists z. split; [auto|]. split; [auto|lia].
    + left. split; [reflexivity|]. intros (v' & Ev & z' & W' & B' & N). assert (v' = v) by congruence. subst v'.
      pose proof (size_written v z W B) as X. pose proof (size_written v z' W' B') as Y.
      pose proof (Z.mod_pos_bound z' (2 ^ 64) ltac:(reflexivity)) as P'.
      assert (Z.to_N (z mod 2 ^ 64) = Z.to_N (z' mod 2 ^ 64)) by congruence. lia.
  - do 2 eexists. split; [reflexivity|]. left. split; [reflexivity|]. intros (v & Ev & _). discriminate.
Qed.
Lemma precision_total : forall strtod l k default, strtod_local strtod -> entries_ok l -> In k all_keys ->
  exists x m, precision_option strtod (written l) k default = Ok (x, m) /\
    said m k (exists v, lookup l k = Some v /\ exists b s d, v = b ++ s /\ blank b /\ (forall c r, s = c :: r -> isspace c = false) /\
                        strtod s = Some d /\ dle d (dint 0) = true).
Proof.
  intros strtod l k default Hl H I. unfold precision_option, checked_option. rewrite read_double_of by auto.
  destruct (lookup l k) as [v|] eqn:E.
  - assert (St : forall b s, v = b ++ s -> blank b -> (forall c r, s = c :: r -> isspace c = false) -> strip v = s).
    { intros b s -> Hb Hs. destruct s as [|c s]; [|apply strip_is; auto; apply (Hs c s eq_refl)].
      rewrite app_nil_r. unfold strip. rewrite <- (app_nil_r b) at 1. rewrite leading_space_app by auto. cbn.
      rewrite Nat.add_0_r, skipn_all. reflexivity. }
    destruct (blank_leading v) as (b & s & Ev & Hb & Hs & Es). fold (strip v) in Es.
    assert (Hs' : forall c r, s = c :: r -> isspace c = false).
    { intros c r ->. cbn in Hs. destruct (isspace c); [discriminate Hs|reflexivity]. }
    rewrite Es. destruct (strtod s) as [d|] eqn:D; cbn [bind].
    + change (negb (1 =? 0)%Z) with true. cbv iota. destruct (dle d (dint 0)) eqn:T; cbn [negb]; do 2 eexists; (split; [reflexivity|]).
      * right. split; [reflexivity|]. exists v. split; [reflexivity|]. exists b, s, d. auto.
      * left. split; [reflexivity|]. intros (v' & Ev' & b' & s' & d' & E1 & E2 & E3 & E4 & E5). assert (v' = v) by congruence. subst v'.
        assert (s' = s) by (rewrite <- Es; symmetry; eapply St; eauto). subst s'. assert (d' = d) by congruence. subst d'. congruence.
    + change (negb (0 =? 0)%Z) with false. cbv iota. do 2 eexists. split; [reflexivity|]. left. split; [reflexivity|].
      intros (v' & Ev' & b' & s' & d' & E1 & E2 & E3 & E4 & E5). assert (v' = v) by congruence. subst v'.
      assert (s' = s) by (rewrite <- Es; symmetry; eapply St; eauto). subst s'. congruence.
  - cbn [bind]. change (negb (0 =? 0)%Z) with false. cbv iota. do 2 eexists. split; [reflexivity|]. left. split; [reflexivity|].
    intros (v & Ev & _). discriminate Ev.
Qed.

Lemma said_in : forall m k bad k', said m k bad -> (In (Unsuitable k') m <-> k' = k /\ bad).
Proof.
  intros m k bad k' [[-> N]|[-> B]]; cbn; split.
  - tauto.
  - intros [_ X]. now apply N.
  - intros [E|[]]. injection E as <-. auto.
  - intros [-> _]. left. reflexivity.
Qed.
Lemma said_none : forall m k bad x, said m k bad -> In x m -> x = Unsuitable k.
Proof. intros m k bad x [[-> N]|[-> B]] I; [destruct I|]. destruct I as [<-|[]]. reflexivity. Qed.

Lemma join_ok : forall a b p, coco_join_path (S COCO_PATH_MAX) COCO_PATH_MAX a [b] = Ok p ->
  length (joined a [b]) < N.to_nat 4095 -> p = joined a [b].
Proof.
  intros a b p E L. rewrite join_path_total in E; [congruence|lia|].
  unfold COCO_PATH_MAX. destruct a; lia.
Qed.

Lemma known_fit : forall k, (N.of_nat (length ((str "Valid keys for observer options are:" ++ ["010"%char]) ++
    listing (option_keys_add known_observer_keys (additional_keys k)))) <= 441)%N.
Proof. intros k. destruct k; vm_compute; discriminate. Qed.

Lemma warning_ok : forall l k, proper_entries l -> length (written l) < 220 ->
  check_keys (option_keys_add known_observer_keys (additional_keys k)) (written l)
    (str "coco_observer(): Some keys in observer options were ignored:" ++ ["010"%char])
    (str "Valid keys for observer options are:" ++ ["010"%char]) =
  Ok (match redundant (option_keys_add known_observer_keys (additional_keys k)) (map fst l) with
      | [] => None
      | r => Some ((str "coco_observer(): Some keys in observer options were ignored:" ++ ["010"%char]) ++ listing r ++
                   (str "Valid keys for observer options are:" ++ ["010"%char]) ++ listing (option_keys_add known_observer_keys (additional_keys k)))
      end).
Proof. intros l k Hp Hl. apply check_keys_written; auto; [vm_compute; lia|apply known_fit]. Qed.

Lemma known_keys : forall k x, In x (option_keys_add known_observer_keys (additional_keys k)) <->
  In x known_observer_keys \/ In x (additional_keys k).
Proof.
  intros k x. unfold option_keys_add. rewrite in_app_iff. tauto.
Qed.

Section World.
Variable K : Type.
Variable keq : K -> K -> bool.
Variable resolve : cstr -> K.
Variable others : nat -> FsModel.files K -> FsModel.files K.
Variable refuses : nat -> FsModel.files K -> K -> bool.
Variable opens : world K -> cstr -> bool.
Variable strtod : cstr -> option double.
Notation coco_observer := (coco_observer K keq resolve others refuses opens strtod).
Notation unique := (coco_create_unique_directory K keq resolve others refuses).

(** What the special part of an observer is made of. *)
Definition special (k : logger_kind) (folder options : cstr) (w1 : world K) : res (observer_data * bool * world K) :=
  match k with
  | LToy => do (d, w2) <- observer_toy K keq resolve others refuses opens folder options w1; Ok (d, true, w2)
  | LBbob => do d <- observer_bbob options; Ok (d, true, w1)
  | LBbobOld => Ok (BbobOldData, true, w1)
  | LBiobj => do (d, a) <- observer_biobj options; Ok (d, a, w1)
  | LRw => do d <- observer_rw options; Ok (d, true, w1)
  end.

Record parts (name options : cstr) (w : world K) (o : observer) (ms : list message) (w' : world K)
    (m : list message) (path : cstr) (w1 : world K) : Prop := {
  q_kind : dispatch name = Some (observer_kind o);
  q_name : observer_name o = name;
  q_outer : exists outer inner,
      string_option options (str "outer_folder") (S COCO_PATH_MAX) (str "exdata") = Ok outer /\
      string_option options (str "result_folder") (S COCO_PATH_MAX) (str "default") = Ok inner /\
      coco_join_path (S COCO_PATH_MAX) COCO_PATH_MAX outer [inner] = Ok path;
  q_folder : unique path w = Ok (result_folder o, w1);
  q_alg : string_option options (str "algorithm_name") (S COCO_PATH_MAX) (str "ALG") = Ok (algorithm_name o);
  q_info : string_option options (str "algorithm_info") (5 * COCO_PATH_MAX) [] = Ok (algorithm_info o);
  q_base : string_option options (str "base_evaluation_triggers") (S COCO_PATH_MAX) (str "1,2,5") = Ok (base_evaluation_triggers o);
  q_numbers : exists m1 m2 m3 m4 m5 m6 m7 m8, m = m1 ++ m2 ++ m3 ++ m4 ++ m5 ++ m6 ++ m7 ++ m8 /\
      checked_option (coco_options_read_size_t options (str "number_target_triggers")) (str "number_target_triggers") 100%N
        (fun _ => true) = Ok (number_target_triggers o, m1) /\
      precision_option strtod options (str "log_target_precision") (ddec 1 8) = Ok (log_target_precision o, m2) /\
      precision_option strtod options (str "lin_target_precision") (ddec 1 5) = Ok (lin_target_precision o, m3) /\
      checked_option (coco_options_read_size_t options (str "number_evaluation_triggers")) (str "number_evaluation_triggers") 20%N
        (fun v => negb (v <? 4)%N) = Ok (number_evaluation_triggers o, m4) /\
      int_option options (str "precision_x") 8 1 32 = Ok (precision_x o, m5) /\
      int_option options (str "precision_f") 15 1 32 = Ok (precision_f o, m6) /\
      int_option options (str "precision_g") 3 1 32 = Ok (precision_g o, m7) /\
      int_option options (str "log_discrete_as_int") 0 0 1 = Ok (log_discrete_as_int o, m8);
  q_special : special (observer_kind o) (result_folder o) options w1 = Ok (observer_special o, is_active o, w');
  q_warning : exists warning,
      check_keys (option_keys_add known_observer_keys (additional_keys (observer_kind o))) options
        (str "coco_observer(): Some keys in observer options were ignored:" ++ ["010"%char])
        (str "Valid keys for observer options are:" ++ ["010"%char]) = Ok warning /\
      ms = m ++ match warning with Some t => [IgnoredKeys t] | None => [] end }.

Lemma observer_parts : forall name options w o ms w', coco_observer (Some name) options w = Ok (Some o, ms, w') ->
  exists m path w1, parts name options w o ms w' m path w1.
Proof.
  intros name options w o ms w' H. unfold ObsModel.coco_observer in H.
  destruct (streq name (str "no_observer")); [discriminate H|].
  destruct (length name =? 0); [discriminate H|].
  do 3 step_bind H. step_bind H. destruct a2 as [folder w1]. do 2 step_bind H.
  step_bind H. destruct a4 as [ntt m1]. step_bind H. destruct a4 as [logp m2]. step_bind H. destruct a4 as [linp m3].
  step_bind H. destruct a4 as [net m4]. step_bind H. rename a4 into base.
  step_bind H. destruct a4 as [px m5]. step_bind H. destruct a4 as [pf m6]. step_bind H. destruct a4 as [pg m7].
  step_bind H. destruct a4 as [asint m8]. cbv zeta in H.
  destruct (dispatch name) as [k|] eqn:D; [|discriminate H].
  change (bind (special k folder options w1) (fun '(data, active, w2) =>
        do warning <- check_keys (option_keys_add known_observer_keys (additional_keys k)) options
                        (str "coco_observer(): Some keys in observer options were ignored:" ++ ["010"%char])
                        (str "Valid keys for observer options are:" ++ ["010"%char]);
        Ok (Some {| result_folder := folder; observer_name := name; algorithm_name := a2; algorithm_info := a3;
                    number_target_triggers := ntt; log_target_precision := logp; lin_target_precision := linp;
                    number_evaluation_triggers := net; base_evaluation_triggers := base;
                    precision_x := px; precision_f := pf; precision_g := pg; log_discrete_as_int := asint;
                    is_active := active; observer_kind := k; observer_special := data |},
            (m1 ++ m2 ++ m3 ++ m4 ++ m5 ++ m6 ++ m7 ++ m8) ++ match warning with Some t => [IgnoredKeys t] | None => [] end, w2)) =
     Ok (Some o, ms, w')) in H.
  step_bind H. destruct a4 as [[data active] w2]. step_bind H.
  match type of H with Ok (Some ?u, ?v, ?x) = _ => assert (Eo : o = u) by congruence; assert (Em : ms = v) by congruence;
    assert (Ew : w2 = w') by congruence end. clear H. subst w2.
  exists (m1 ++ m2 ++ m3 ++ m4 ++ m5 ++ m6 ++ m7 ++ m8), a1, w1. rewrite Eo. constructor.
  - exact D.
  - reflexivity.
  - exists a, a0. split; [exact E|]. split; [exact E0|exact E1].
  - exact E2.
  - exact E3.
  - exact E4.
  - exact E9.
  - exists m1, m2, m3, m4, m5, m6, m7, m8. split; [reflexivity|].
    split; [exact E5|]. split; [exact E6|]. split; [exact E7|]. split; [exact E8|]. split; [exact E10|]. split; [exact E11|].
    split; [exact E12|exact E13].
  - exact E14.
  - eexists. split; [exact E15|]. exact Em.
Qed.

Lemma special_ok : forall l k folder w1 d a w', entries_ok l -> special k folder (written l) w1 = Ok (d, a, w') ->
  data_kind d = k /\ special_settings l folder d a.
Proof.
  intros l k folder w1 d a w' H E. destruct k; cbn [special] in E.
  - step_bind E. destruct a0 as [d0 w2]. unfold observer_toy in E0. step_bind E0. step_bind E0. destruct a1 as [r w3]. step_bind E0.
    destruct (opens w3 a1); [|discriminate E0]. assert (Ed : d0 = ToyData a1) by congruence.
    assert (d = d0) by congruence. assert (a = true) by congruence. subst. split; [reflexivity|].
    cbn [special_settings]. split; [reflexivity|]. exists a0. split; [|apply join_ok; exact E3].
    eapply string_option_ok; [auto|key|exact E1].
  - step_bind E. unfold observer_bbob in E0. step_bind E0. assert (a0 = BbobData a1) by congruence.
    assert (d = a0) by congruence. assert (a = true) by congruence. subst. split; [reflexivity|]. split; [reflexivity|].
    eapply string_option_ok; [auto|key|exact E1].
  - assert (d = BbobOldData) by congruence. assert (a = true) by congruence. subst. split; reflexivity.
  - step_bind E. destruct a0 as [d0 a0]. assert (d = d0) by congruence. assert (a = a0) by congruence. subst.
    destruct (biobj_ok l d0 a0 H E0) as [B1 B2]. split; auto.
  - step_bind E. assert (d = a0) by congruence. assert (a = true) by congruence. subst.
    destruct (rw_ok l a0 H E0) as [B1 B2]. split; auto.
Qed.

(** ** C26: the part of the observer that depends on number_evaluation_triggers *)
Definition same_reads (s s' : cstr) : Prop := forall k, In k all_keys -> k <> str "number_evaluation_triggers" ->
  coco_options_read_int s k = coco_options_read_int s' k /\
  coco_options_read_size_t s k = coco_options_read_size_t s' k /\
  (forall cap, coco_options_read_string s k cap = coco_options_read_string s' k cap) /\
  coco_options_read_double strtod s k = coco_options_read_double strtod s' k.

Lemma same_reads_entries : forall l1 l2 v v', strtod_local strtod ->
  entries_ok (l1 ++ (str "number_evaluation_triggers", v) :: l2) -> entries_ok (l1 ++ (str "number_evaluation_triggers", v') :: l2) ->
  same_reads (written (l1 ++ (str "number_evaluation_triggers", v) :: l2)) (written (l1 ++ (str "number_evaluation_triggers", v') :: l2)).
Proof.
  intros l1 l2 v v' Hl H H' k I Nk.
  assert (L : lookup (l1 ++ (str "number_evaluation_triggers", v) :: l2) k = lookup (l1 ++ (str "number_evaluation_triggers", v') :: l2) k).
  { clear - Nk. induction l1 as [|[a b] l1 IH].
    - cbn [app lookup]. destruct (streq (str "number_evaluation_triggers") k) eqn:E; [|reflexivity].
      apply streq_spec in E. congruence.
    - cbn [app lookup]. destruct (streq a k); auto. }
  rewrite !read_int_of, !read_size_of, !read_double_of by auto. rewrite L.
  split; [reflexivity|]. split; [reflexivity|]. split; [|reflexivity]. intros cap. rewrite !read_string_of by auto. rewrite L. reflexivity.
Qed.

Ltac side := match goal with |- In _ _ => key | |- _ <> _ => discriminate | |- _ => assumption end.
Lemma same_string : forall s s' k cap d, same_reads s s' -> In k all_keys -> k <> str "number_evaluation_triggers" ->
  string_option s k cap d = string_option s' k cap d.
Proof. intros s s' k cap d H I N. unfold string_option. destruct (H k I N) as (_ & _ & R & _). rewrite R. reflexivity. Qed.
Lemma same_int : forall s s' k d lo hi, same_reads s s' -> In k all_keys -> k <> str "number_evaluation_triggers" ->
  int_option s k d lo hi = int_option s' k d lo hi.
Proof. intros s s' k d lo hi H I N. unfold int_option. destruct (H k I N) as (R & _). rewrite R. reflexivity. Qed.
Lemma same_precision : forall s s' k d, same_reads s s' -> In k all_keys -> k <> str "number_evaluation_triggers" ->
  precision_option strtod s k d = precision_option strtod s' k d.
Proof. intros s s' k d H I N. unfold precision_option. destruct (H k I N) as (_ & _ & _ & R). rewrite R. reflexivity. Qed.
Lemma same_mode : forall A s s' k (words : list (cstr * A)) d, same_reads s s' -> In k all_keys -> k <> str "number_evaluation_triggers" ->
  mode_option s k words d = mode_option s' k words d.
Proof. intros A s s' k words d H I N. unfold mode_option. destruct (H k I N) as (_ & _ & R & _). rewrite R. reflexivity. Qed.

Lemma same_special : forall k folder s s' w, same_reads s s' -> special k folder s w = special k folder s' w.
Proof.
  intros k folder s s' w H. destruct k; cbn [special].
  - unfold observer_toy. rewrite (same_string s s') by side. reflexivity.
  - unfold observer_bbob. rewrite (same_string s s') by side. reflexivity.
  - reflexivity.
  - unfold observer_biobj. rewrite !(same_mode _ s s') by side.
    destruct (H (str "compute_indicators") ltac:(key) ltac:(discriminate)) as (-> & _).
    destruct (H (str "produce_all_data") ltac:(key) ltac:(discriminate)) as (-> & _). reflexivity.
  - unfold observer_rw. rewrite !(same_mode _ s s') by side.
    destruct (H (str "low_dim_vars") ltac:(key) ltac:(discriminate)) as (_ & -> & _).
    destruct (H (str "low_dim_cons") ltac:(key) ltac:(discriminate)) as (_ & -> & _).
    destruct (H (str "log_only_better") ltac:(key) ltac:(discriminate)) as (-> & _).
    destruct (H (str "log_time") ltac:(key) ltac:(discriminate)) as (-> & _). reflexivity.
Qed.

Lemma same_observer : forall name s s' w o ms w' o' ms' w'', same_reads s s' ->
  coco_observer (Some name) s w = Ok (Some o, ms, w') -> coco_observer (Some name) s' w = Ok (Some o', ms', w'') ->
  same_but_evaluation_triggers o o' /\ w' = w''.
Proof.
  intros name s s' w o ms w' o' ms' w'' R H H'.
  apply observer_parts in H as (m & p & w1 & P). apply observer_parts in H' as (m' & p' & w1' & P').
  destruct P as [Pk Pn (u & i & P1 & P2 & P3) Pf Pa Pi Pb (m1 & m2 & m3 & m4 & m5 & m6 & m7 & m8 & _ & N1 & N2 & N3 & N4 & N5 & N6 & N7 & N8) Ps _].
  destruct P' as [Pk' Pn' (u' & i' & P1' & P2' & P3') Pf' Pa' Pi' Pb' (n1 & n2 & n3 & n4 & n5 & n6 & n7 & n8 & _ & N1' & N2' & N3' & N4' & N5' & N6' & N7' & N8') Ps' _].
  rewrite (same_string s s') in P1, P2, Pa, Pi, Pb by side.
  rewrite (same_int s s') in N5, N6, N7, N8 by side.
  rewrite (same_precision s s') in N2, N3 by side.
  rewrite (same_special _ _ s s') in Ps by auto.
  destruct (R (str "number_target_triggers") ltac:(key) ltac:(discriminate)) as (_ & R1 & _). rewrite R1 in N1.
  assert (Eu : u = u') by congruence. assert (Ei : i = i') by congruence. subst u' i'.
  assert (Ep : p = p') by congruence. subst p'.
  assert (Ef : result_folder o = result_folder o') by congruence. assert (Ew : w1 = w1') by congruence. subst w1'.
  assert (Ek : observer_kind o = observer_kind o') by congruence. rewrite Ek, Ef in Ps.
  assert (Ex : observer_special o = observer_special o') by congruence. assert (Ea : is_active o = is_active o') by congruence.
  split; [|congruence]. unfold same_but_evaluation_triggers.
  rewrite Ef, Ek, Ex, Ea, Pn.
  assert (E1 : algorithm_name o = algorithm_name o') by congruence. rewrite E1.
  assert (E2 : algorithm_info o = algorithm_info o') by congruence. rewrite E2.
  assert (E3 : base_evaluation_triggers o = base_evaluation_triggers o') by congruence. rewrite E3.
  assert (E4 : number_target_triggers o = number_target_triggers o') by congruence. rewrite E4.
  assert (E5 : log_target_precision o = log_target_precision o') by congruence. rewrite E5.
  assert (E6 : lin_target_precision o = lin_target_precision o') by congruence. rewrite E6.
  assert (E7 : precision_x o = precision_x o') by congruence. rewrite E7.
  assert (E8 : precision_f o = precision_f o') by congruence. rewrite E8.
  assert (E9 : precision_g o = precision_g o') by congruence. rewrite E9.
  assert (E10 : log_discrete_as_int o = log_discrete_as_int o') by congruence. rewrite E10.
  rewrite <- Pn'. destruct o'. reflexivity.
Qed.

(** ** Messages *)
Lemma numbers_said : forall l (o : observer) m1 m2 m3 m4 m5 m6 m7 m8, strtod_local strtod -> entries_ok l -> values_fit l ->
  checked_option (coco_options_read_size_t (written l) (str "number_target_triggers")) (str "number_target_triggers") 100%N
    (fun _ => true) = Ok (number_target_triggers o, m1) ->
  precision_option strtod (written l) (str "log_target_precision") (ddec 1 8) = Ok (log_target_precision o, m2) ->
  precision_option strtod (written l) (str "lin_target_precision") (ddec 1 5) = Ok (lin_target_precision o, m3) ->
  checked_option (coco_options_read_size_t (written l) (str "number_evaluation_triggers")) (str "number_evaluation_triggers") 20%N
    (fun v => negb (v <? 4)%N) = Ok (number_evaluation_triggers o, m4) ->
  int_option (written l) (str "precision_x") 8 1 32 = Ok (precision_x o, m5) ->
  int_option (written l) (str "precision_f") 15 1 32 = Ok (precision_f o, m6) ->
  int_option (written l) (str "precision_g") 3 1 32 = Ok (precision_g o, m7) ->
  int_option (written l) (str "log_discrete_as_int") 0 0 1 = Ok (log_discrete_as_int o, m8) ->
  let m := m1 ++ m2 ++ m3 ++ m4 ++ m5 ++ m6 ++ m7 ++ m8 in
  (forall x, In x m -> exists k, x = Unsuitable k) /\ forall k, In (Unsuitable k) m <-> rejected strtod l k.
Proof.
  intros l o m1 m2 m3 m4 m5 m6 m7 m8 Hl H V N1 N2 N3 N4 N5 N6 N7 N8.
  destruct (size_total l (str "number_target_triggers") 100 0 (fun _ => true) H V ltac:(key) ltac:(key)) as (x1 & y1 & E1 & S1).
  { intros v. destruct (N.ltb_spec v 0); [lia|reflexivity]. }
  destruct (precision_total strtod l (str "log_target_precision") (ddec 1 8) Hl H ltac:(key)) as (x2 & y2 & E2 & S2).
  destruct (precision_total strtod l (str "lin_target_precision") (ddec 1 5) Hl H ltac:(key)) as (x3 & y3 & E3 & S3).
  destruct (size_total l (str "number_evaluation_triggers") 20 4 _ H V ltac:(key) ltac:(key) (fun v => eq_refl)) as (x4 & y4 & E4 & S4).
  destruct (int_total l (str "precision_x") 8 1 32 H V ltac:(key) ltac:(key)) as (x5 & y5 & E5 & S5).
  destruct (int_total l (str "precision_f") 15 1 32 H V ltac:(key) ltac:(key)) as (x6 & y6 & E6 & S6).
  destruct (int_total l (str "precision_g") 3 1 32 H V ltac:(key) ltac:(key)) as (x7 & y7 & E7 & S7).
  destruct (int_total l (str "log_discrete_as_int") 0 0 1 H V ltac:(key) ltac:(key)) as (x8 & y8 & E8 & S8).
  assert (y1 = m1) by congruence. assert (y2 = m2) by congruence. assert (y3 = m3) by congruence. assert (y4 = m4) by congruence.
  assert (y5 = m5) by congruence. assert (y6 = m6) by congruence. assert (y7 = m7) by congruence. assert (y8 = m8) by congruence.
  subst y1 y2 y3 y4 y5 y6 y7 y8. clear - S1 S2 S3 S4 S5 S6 S7 S8.
  assert (m1 = []) as ->.
  { destruct S1 as [[-> _]|[_ (v & _ & z & _ & _ & B)]]; [reflexivity|]. change (Z.of_N 0) with 0%Z in B.
    pose proof (Z.mod_pos_bound z (2 ^ 64) ltac:(reflexivity)). lia. }
  cbv zeta. cbn [app]. split.
  - intros x I. repeat (apply in_app_iff in I as [I|I]); (eexists; eapply said_none; [|exact I]; eassumption).
  - intros k. rewrite !in_app_iff.
    rewrite (said_in _ _ _ k S2), (said_in _ _ _ k S3), (said_in _ _ _ k S4), (said_in _ _ _ k S5), (said_in _ _ _ k S6),
      (said_in _ _ _ k S7), (said_in _ _ _ k S8). unfold rejected. change (Z.of_N 4) with 4%Z. split.
    + intros [[-> (v & L & X)]|[[-> (v & L & X)]|[[-> (v & L & X)]|[[-> (v & L & X)]|[[-> (v & L & X)]|[[-> (v & L & X)]|[-> (v & L & X)]]]]]]];
        exists v; (split; [exact L|]).
      * right. left. split; [left; reflexivity|exact X].
      * right. left. split; [right; reflexivity|exact X].
      * left. split; [reflexivity|exact X].
      * right. right. left. split; [left; reflexivity|exact X].
      * right. right. left. split; [right; left; reflexivity|exact X].
      * right. right. left. split; [right; right; reflexivity|exact X].
      * right. right. right. split; [reflexivity|exact X].
    + intros (v & L & [[-> X]|[[[->| ->] X]|[[[->|[->| ->]] X]|[-> X]]]]).
      * right. right. left. eauto.
      * left. eauto.
      * right. left. eauto.
      * right. right. right. left. eauto.
      * right. right. right. right. left. eauto.
      * right. right. right. right. right. left. eauto.
      * right. right. right. right. right. right. eauto.
Qed.

(** ** No error *)
Lemma observer_total : forall l k name w, strtod_local strtod -> entries_ok l -> proper_entries l -> length (written l) < 220 -> values_fit l ->
  observer_called name k ->
  (forall outer inner, string_setting l (str "outer_folder") (str "exdata") outer ->
     string_setting l (str "result_folder") (str "default") inner ->
     exists folder w1, unique (joined outer [inner]) w = Ok (folder, w1) /\
       (k = LToy -> forall file, string_setting l (str "file_name") (str "first_hitting_times.dat") file ->
          length (joined folder [file]) < N.to_nat 4095 /\
          exists r w2, coco_create_directory K keq resolve others refuses folder w1 = Ok (r, w2) /\ opens w2 (joined folder [file]) = true)) ->
  exists o ms w', coco_observer (Some name) (written l) w = Ok (Some o, ms, w').
Proof.
  intros l k name w Hl H Hp L V Hk D.
  assert (LP : forall n, length (written l) <= S COCO_PATH_MAX + n) by (unfold COCO_PATH_MAX; lia).
  assert (Str : forall key default, In key all_keys -> In key string_keys ->
    exists x, string_option (written l) key (S COCO_PATH_MAX) default = Ok x /\ string_setting l key default x /\
      length x <= length default + 220).
  { intros q default I J. destruct (string_total l q (S COCO_PATH_MAX) default H V I J) as (x & E).
    - pose proof (LP 0). lia.
    - exists x. split; [exact E|]. pose proof (string_option_ok l q _ default x H I E) as T. split; [exact T|].
      destruct T as [T1 T2]. destruct (lookup l q) as [v|] eqn:Eq; [|rewrite (T1 eq_refl); lia].
      destruct (V q v Eq) as [[u W] _]; [exact J|]. rewrite (T2 v u eq_refl W).
      pose proof (string_length v u W). pose proof (lookup_length l q v Eq). lia. }
  destruct (Str (str "outer_folder") (str "exdata") ltac:(key) ltac:(key)) as (outer & E1 & S1 & L1).
  destruct (Str (str "result_folder") (str "default") ltac:(key) ltac:(key)) as (inner & E2 & S2 & L2).
  destruct (D outer inner S1 S2) as (folder & w1 & U & Toy).
  assert (E3 : coco_join_path (S COCO_PATH_MAX) COCO_PATH_MAX outer [inner] = Ok (joined outer [inner])).
  { apply join_path_total; [lia|]. change (length (str "exdata")) with 6 in L1. change (length (str "default")) with 7 in L2.
    assert (length (joined outer [inner]) <= length outer + length inner + 1) as Lj.
    { destruct outer; cbn [joined app fold_left]; rewrite ?app_length; cbn [length]; rewrite ?app_length; cbn [length]; lia. }
    unfold COCO_PATH_MAX. assert (match outer with [] => 1 | _ => 0 end <= 1) by (destruct outer; lia). lia. }
  destruct (Str (str "algorithm_name") (str "ALG") ltac:(key) ltac:(key)) as (alg & E4 & _).
  destruct (string_total l (str "algorithm_info") (5 * COCO_PATH_MAX) [] H V ltac:(key) ltac:(key)) as (info & E5).
  { unfold COCO_PATH_MAX. lia. }
  destruct (size_total l (str "number_target_triggers") 100 0 (fun _ => true) H V ltac:(key) ltac:(key)) as (x1 & y1 & N1 & _).
  { intros v. destruct (N.ltb_spec v 0); [lia|reflexivity]. }
  destruct (precision_total strtod l (str "log_target_precision") (ddec 1 8) Hl H ltac:(key)) as (x2 & y2 & N2 & _).
  destruct (precision_total strtod l (str "lin_target_precision") (ddec 1 5) Hl H ltac:(key)) as (x3 & y3 & N3 & _).
  destruct (size_total l (str "number_evaluation_triggers") 20 4 _ H V ltac:(key) ltac:(key) (fun v => eq_refl)) as (x4 & y4 & N4 & _).
  destruct (Str (str "base_evaluation_triggers") (str "1,2,5") ltac:(key) ltac:(key)) as (base & E6 & _).
  destruct (int_total l (str "precision_x") 8 1 32 H V ltac:(key) ltac:(key)) as (x5 & y5 & N5 & _).
  destruct (int_total l (str "precision_f") 15 1 32 H V ltac:(key) ltac:(key)) as (x6 & y6 & N6 & _).
  destruct (int_total l (str "precision_g") 3 1 32 H V ltac:(key) ltac:(key)) as (x7 & y7 & N7 & _).
  destruct (int_total l (str "log_discrete_as_int") 0 0 1 H V ltac:(key) ltac:(key)) as (x8 & y8 & N8 & _).
  assert (Sp : exists d a w2, special k folder (written l) w1 = Ok (d, a, w2)).
  { destruct k; cbn [special].
    - destruct (Str (str "file_name") (str "first_hitting_times.dat") ltac:(key) ltac:(key)) as (file & F1 & F2 & _).
      destruct (Toy eq_refl file F2) as (LF & r & w2 & F3 & F4). unfold observer_toy. rewrite F1. cbn [bind]. rewrite F3. cbn [bind].
      rewrite join_path_total; [|lia|unfold COCO_PATH_MAX; destruct folder; lia]. cbn [bind]. rewrite F4. do 3 eexists. reflexivity.
    - unfold observer_bbob. destruct (Str (str "prefix") (str "bbobexp") ltac:(key) ltac:(key)) as (p & F & _). rewrite F. do 3 eexists. reflexivity.
    - do 3 eexists. reflexivity.
    - unfold observer_biobj.
      match goal with |- context [mode_option _ (str "log_nondominated") ?ws ?d] =>
        destruct (mode_total _ l (str "log_nondominated") ws d H V ltac:(key) ltac:(key) L) as (z1 & F1) end.
      match goal with |- context [mode_option _ (str "log_decision_variables") ?ws ?d] =>
        destruct (mode_total _ l (str "log_decision_variables") ws d H V ltac:(key) ltac:(key) L) as (z2 & F2) end.
      destruct (raw_int_total l (str "compute_indicators") 1 H V ltac:(key) ltac:(key)) as (z3 & F3).
      destruct (raw_int_total l (str "produce_all_data") 0 H V ltac:(key) ltac:(key)) as (z4 & F4).
      rewrite F1, F2, F3, F4. do 3 eexists. reflexivity.
    - unfold observer_rw. cbv zeta.
      match goal with |- context [mode_option _ (str "log_variables") ?ws ?d] =>
        destruct (mode_total _ l (str "log_variables") ws d H V ltac:(key) ltac:(key) L) as (z1 & F1) end.
      match goal with |- context [mode_option _ (str "log_constraints") ?ws ?d] =>
        destruct (mode_total _ l (str "log_constraints") ws d H V ltac:(key) ltac:(key) L) as (z2 & F2) end.
      destruct (raw_size_total l (str "low_dim_vars") 10 H V ltac:(key) ltac:(key)) as (z3 & F3).
      destruct (raw_size_total l (str "low_dim_cons") 10 H V ltac:(key) ltac:(key)) as (z4 & F4).
      destruct (raw_int_total l (str "log_only_better") 0 H V ltac:(key) ltac:(key)) as (z5 & F5).
      destruct (raw_int_total l (str "log_time") 0 H V ltac:(key) ltac:(key)) as (z6 & F6).
      rewrite F1, F2, F3, F4, F5, F6. do 3 eexists. reflexivity. }
  destruct Sp as (d & a & w2 & Sp).
  apply dispatch_spec in Hk.
  unfold ObsModel.coco_observer.
  destruct (streq name (str "no_observer")) eqn:Q1.
  { apply streq_spec in Q1. subst name. discriminate Hk. }
  destruct (length name =? 0) eqn:Q2.
  { destruct name; [discriminate Hk|discriminate Q2]. }
  rewrite E1. cbn [bind]. rewrite E2. cbn [bind]. rewrite E3. cbn [bind]. rewrite U. cbn [bind]. rewrite E4. cbn [bind]. rewrite E5. cbn [bind].
  rewrite N1. cbn [bind]. rewrite N2. cbn [bind]. rewrite N3. cbn [bind]. rewrite N4. cbn [bind]. rewrite E6. cbn [bind].
  rewrite N5. cbn [bind]. rewrite N6. cbn [bind]. rewrite N7. cbn [bind]. rewrite N8. cbn [bind]. cbv zeta. rewrite Hk.
  fold (special k folder (written l) w1). rewrite Sp. cbn [bind]. rewrite warning_ok by auto. cbn [bind].
  do 3 eexists. reflexivity.
Qed.
End World.
