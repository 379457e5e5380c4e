(** Dictionaries of words and integers as observer options. *)
From Coq Require Import List Arith NArith ZArith Ascii String Bool Lia.
From Verif Require Import CBase StrModel StrSpec StrProofs OptModel OptSpec OptProofs IdModel IdSpec IdProofs ObsModel ObsSpec
  PyOptModel PyOptSpec PyOptProofs.
Import ListNotations.
Local Open Scope nat_scope.
Local Notation length := List.length.

(** *** Printed integers *)
Lemma dec_snoc : forall s c, dec (s ++ [c]) = (10 * dec s + (N_of_ascii c - 48))%N.
Proof.
  induction s as [|a s IH]; intros c; cbn [app dec].
  - cbn [List.length pow10]. lia.
  - rewrite IH, app_length, Nat.add_1_r. cbn [pow10]. lia.
Qed.
Lemma dec_number : forall s, dec s = IdSpec.number s.
Proof.
  induction s as [|c s IH] using rev_ind; [reflexivity|]. rewrite dec_snoc, IH.
  unfold IdSpec.number. rewrite fold_left_app. reflexivity.
Qed.
Lemma size_bound : forall n, (n < 10 ^ N.of_nat (S (N.size_nat n)))%N.
Proof.
  intros n. apply N.lt_le_trans with (2 ^ N.of_nat (S (N.size_nat n)))%N.
  - rewrite Nat2N.inj_succ, N.pow_succ_r'. assert (H : (n < 2 ^ N.of_nat (N.size_nat n))%N).
    { destruct n as [|p]; [reflexivity|]. cbn [N.size_nat]. induction p as [p IH|p IH|]; [| |reflexivity].
      - cbn [Pos.size_nat]. rewrite Nat2N.inj_succ, N.pow_succ_r'. lia.
      - cbn [Pos.size_nat]. rewrite Nat2N.inj_succ, N.pow_succ_r'. lia. }
    lia.
  - apply N.pow_le_mono_l. lia.
Qed.
Lemma int_written : forall z sep, blank sep -> decimal_written (str " " ++ repr_int z ++ sep) z.
Proof.
  intros z sep B. unfold repr_int. set (n := Z.to_N (Z.abs z)). set (d := decimal (S (N.size_nat n)) n).
  cbv zeta. pose proof (size_bound n) as L.
  assert (V : dec d = n) by (rewrite dec_number; apply decimal_value; exact L).
  assert (Ne : d <> []) by apply decimal_nonempty.
  assert (Dg : StrSpec.digits d).
  { unfold StrSpec.digits. apply Forall_forall. intros c I. eapply decimal_chars; exact I. }
  pose proof (decimal_first (S (N.size_nat n)) n L) as Hf. fold d in Hf.
  exists [" "%char], (if (z <? 0)%Z then ["-"%char] else []), d, sep.
  split; [cbn [str list_ascii_of_string app]; rewrite <- app_assoc; reflexivity|]. split; [repeat constructor|]. split; [exact Dg|].
  assert (Sep : forall c r, sep = c :: r -> isspace c = true) by (intros c r ->; inversion B; assumption).
  split.
  { destruct d as [|c d']; [congruence|]. exists c, d'. split; [reflexivity|]. destruct d' as [|c' d'].
    - right. split; [reflexivity|]. intros x r E. pose proof (Sep x r E) as X. split; intros ->; discriminate X.
    - left. intros ->. apply Hf; [cbn [length]; lia|reflexivity]. }
  split.
  { intros c r E. pose proof (Sep c r E) as X. destruct c as [[] [] [] [] [] [] [] []]; try discriminate X; reflexivity. }
  unfold n in V. rewrite V. destruct (Z.ltb_spec z 0).
  - right. right. split; [reflexivity|]. lia.
  - left. split; [reflexivity|]. lia.
Qed.

(** *** Plain words *)
Lemma plain_chars : forall s c, plain_word s -> In c s -> plain_char c.
Proof. intros s c (_ & H & _) I. rewrite Forall_forall in H. exact (H c I). Qed.
Lemma plain_quiet : forall s, plain_word s -> quiet s /\ no_double s.
Proof.
  intros s H. split.
  - apply Forall_forall. intros c I. destruct (plain_chars s c H I) as (B & N & _). split; [lia|].
    split; intros ->; apply N; cbn; tauto.
  - intros I. destruct (plain_chars s _ H I) as (_ & _ & N). apply N. reflexivity.
Qed.
Lemma plain_left : forall s, plain_word s -> cleaned (without_last_u s) = s.
Proof.
  intros s H. assert (E : without_last_u s = s).
  { destruct (last_cases s) as [->|(r & c & ->)]; [reflexivity|]. rewrite lose_u.
    destruct (Ascii.eqb_spec c "u"%char) as [->|]; [|reflexivity]. destruct H as (_ & _ & H). contradiction (H r). reflexivity. }
  rewrite E. apply cleaned_none. intros c I. destruct (plain_chars s c H I) as (_ & N & _).
  repeat split; intros ->; apply N; cbn; tauto.
Qed.
Lemma plain_no_space : forall s, plain_word s -> Forall (fun c => isspace c = false) s.
Proof.
  intros s H. apply Forall_forall. intros c I. destruct (plain_chars s c H I) as (B & _).
  unfold isspace. destruct (Nat.leb_spec 9 (code c)), (Nat.leb_spec (code c) 13), (Nat.eqb_spec (code c) 32); cbn; try reflexivity; lia.
Qed.
Lemma word_written : forall s sep, plain_word s -> blank sep -> string_written (str " " ++ s ++ sep) s.
Proof.
  intros s sep H B. left. split.
  - exists [" "%char], sep. split; [reflexivity|]. split; [repeat constructor|]. split; [apply H|].
    split; [apply plain_no_space, H|]. destruct sep as [|c r]; [left; reflexivity|right].
    exists c, r. split; [reflexivity|]. inversion B; assumption.
  - destruct s as [|c s]; [discriminate|]. cbn. intros E. injection E as ->.
    destruct (plain_chars _ _ H (or_introl eq_refl)) as (_ & _ & N). apply N. reflexivity.
Qed.

(** *** The entries of a plain dictionary *)
Definition item_ok (e : cstr * pyvalue) : Prop := plain_word (fst e) /\ ~ In ":"%char (fst e) /\
    (forall k, In k all_keys -> fst e = k \/ absent (fst e) k) /\
    match snd e with
    | VStr s => plain_word s /\ forall k, In k all_keys -> absent s k
    | VInt _ => True
    | VOther _ => False
    end.
Lemma plain_all : forall d, plain_dict d -> all_strings quiet d /\ all_strings no_double d.
Proof.
  intros d (_ & _ & F). rewrite Forall_forall in F.
  split; apply Forall_forall; intros [k v] I; destruct (F _ I) as (Hk & _ & _ & Hv); cbn [fst snd] in *;
    (split; [apply plain_quiet, Hk|]); destruct v as [s|z|o]; cbn [strings_of]; try (now constructor); try contradiction;
    constructor; [apply plain_quiet, Hv|constructor|apply plain_quiet, Hv|constructor].
Qed.
Lemma plain_text : forall d, plain_dict d -> observer_text d = written (entries d).
Proof. intros d H. apply plain_all in H as [Q N]. apply observer_text_written; assumption. Qed.
Lemma entries_keys : forall d, Forall item_ok d -> map fst (entries d) = map fst d.
Proof.
  induction d as [|(k, v) d IH]; intros F; [reflexivity|]. inversion F as [|e l Hk F']; subst. cbn [entries map fst].
  rewrite (IH F'). f_equal. apply plain_left. apply Hk.
Qed.
Lemma entries_lookup : forall d k v, Forall item_ok d -> NoDup (map fst d) -> In (k, v) d ->
  exists sep, blank sep /\ ObsSpec.lookup (entries d) k = Some (str " " ++ left_of v ++ sep).
Proof.
  induction d as [|(k', v') d IH]; intros k v F N I; [destruct I|]. inversion F as [|e l Hk F']; subst. cbn [entries ObsSpec.lookup].
  rewrite (plain_left k' (proj1 Hk)). destruct I as [E|I].
  - injection E as -> ->. rewrite (proj2 (streq_spec k k) eq_refl). eexists. split; [|reflexivity].
    destruct d; repeat constructor.
  - cbn [map fst] in N. inversion N as [|x l Nk N']; subst. destruct (streq k' k) eqn:E.
    + apply streq_spec in E. subst k'. exfalso. apply Nk. apply in_map_iff. exists (k, v). split; [reflexivity|exact I].
    + apply (IH k v F' N' I).
Qed.
Lemma entries_lookup_none : forall d k, Forall item_ok d -> ~ In k (map fst d) -> ObsSpec.lookup (entries d) k = None.
Proof.
  induction d as [|(k', v') d IH]; intros k F N; [reflexivity|]. inversion F as [|e l Hk F']; subst. cbn [entries ObsSpec.lookup].
  rewrite (plain_left k' (proj1 Hk)). destruct (streq k' k) eqn:E.
  - apply streq_spec in E. exfalso. apply N. left. exact E.
  - apply (IH k F'). intros I. apply N. right. exact I.
Qed.

(** Keys of observers have no white space and start with a letter. *)
Lemma key_chars : forall k, In k all_keys -> k <> [] /\ Forall (fun c => isspace c = false) k /\ exists c r, k = c :: r /\ isalpha c = true.
Proof.
  assert (D : forallb (fun k => forallb (fun c => negb (isspace c)) k && match k with c :: _ => isalpha c | [] => false end) all_keys = true)
    by (vm_compute; reflexivity).
  intros k I. rewrite forallb_forall in D. specialize (D k I). apply andb_prop in D as [D1 D2]. rewrite forallb_forall in D1.
  destruct k as [|c r]; [discriminate D2|]. split; [discriminate|]. split; [|exists c, r; split; [reflexivity|exact D2]].
  apply Forall_forall. intros x J. apply D1 in J. destruct (isspace x); [discriminate J|reflexivity].
Qed.
Lemma absent_padded : forall s sep k, In k all_keys -> blank sep -> absent s k -> absent (str " " ++ s ++ sep) k.
Proof.
  intros s sep k K B A i (p & q & E & _). destruct (key_chars k K) as (Ne & Sp & _). rewrite Forall_forall in Sp.
  unfold blank in B. rewrite Forall_forall in B.
  destruct p as [|x p].
  - destruct k as [|c k]; [congruence|]. cbn in E. injection E as <- _.
    pose proof (Sp " "%char (or_introl eq_refl)) as X. discriminate X.
  - cbn in E. injection E as <- E. destruct (Nat.le_gt_cases (length (p ++ k)) (length s)) as [L|L].
    + apply (A (length p)). exists p, (skipn (length (p ++ k)) s). split; [|reflexivity].
      rewrite app_assoc in E. rewrite app_assoc. rewrite <- (firstn_skipn (length (p ++ k)) s) at 1. f_equal.
      apply (f_equal (firstn (length (p ++ k)))) in E. rewrite firstn_app in E.
      replace (length (p ++ k) - length s) with 0 in E by lia. cbn [firstn] in E. rewrite app_nil_r in E.
      rewrite E. rewrite firstn_app, Nat.sub_diag. cbn [firstn]. rewrite app_nil_r. apply firstn_all.
    + destruct (last_cases k) as [->|(r & c & ->)]; [congruence|].
      assert (N1 : nth_error ((p ++ r ++ [c]) ++ q) (length (p ++ r)) = Some c).
      { rewrite (app_assoc p), <- app_assoc. apply nth_error_app_middle. }
      rewrite <- app_assoc in N1. rewrite <- app_assoc in E. rewrite <- (app_assoc r) in N1. rewrite <- E in N1.
      rewrite (app_assoc p), app_length in L. cbn [length] in L.
      rewrite nth_error_app2 in N1 by lia. apply nth_error_In in N1. pose proof (B c N1) as X.
      rewrite (Sp c) in X; [discriminate X|]. apply in_app_iff. right. left. reflexivity.
Qed.
Lemma int_absent : forall z k, In k all_keys -> absent (repr_int z) k.
Proof.
  intros z k K i (p & q & E & _). destruct (key_chars k K) as (_ & _ & c & r & -> & A).
  assert (I : In c (repr_int z)) by (rewrite E; apply in_app_iff; right; left; reflexivity).
  apply int_chars in I as [->|D]; [discriminate A|]. destruct c as [[] [] [] [] [] [] [] []]; try discriminate A; discriminate D.
Qed.

Lemma left_text : forall e, item_ok e -> ~ blank (left_of (snd e)) /\ ~ In """"%char (left_of (snd e)) /\
  forall k, In k all_keys -> absent (left_of (snd e)) k.
Proof.
  intros [k [s|z|o]] (_ & _ & _ & H); cbn [snd left_of] in *; [| |contradiction].
  - destruct H as [P A]. rewrite (plain_left s P). split; [|split; [apply plain_quiet, P|exact A]].
    intros B. destruct s as [|c s]; [destruct P as [P _]; congruence|]. inversion B; subst.
    pose proof (plain_no_space _ P) as F. inversion F; congruence.
  - split; [|split; [|apply int_absent]].
    + intros B. unfold repr_int in B. cbv zeta in B. apply Forall_app in B as [_ B].
      set (n := Z.to_N (Z.abs z)) in *. pose proof (decimal_nonempty (N.size_nat n) n) as Ne.
      destruct (decimal (S (N.size_nat n)) n) as [|c r] eqn:E; [congruence|]. inversion B as [|x l Bc _]; subst.
      assert (D : isdigit c = true) by (eapply decimal_chars; rewrite E; left; reflexivity).
      destruct c as [[] [] [] [] [] [] [] []]; try discriminate Bc; discriminate D.
    + intros I. apply int_plain in I. destruct I as (_ & N & _). apply N. reflexivity.
Qed.
Lemma sep_blank : forall A (d : list A), blank match d with [] => [] | _ :: _ => str "  " end.
Proof. intros A [|a d]; repeat constructor. Qed.
Lemma plain_entries_ok : forall d, plain_dict d -> entries_ok (entries d).
Proof.
  intros d H. pose proof (plain_text d H) as T. destruct H as (_ & Sm & F). rewrite T in Sm.
  change (Forall item_ok d) in F. split; [|split; [exact Sm|]].
  - clear T Sm. induction d as [|(k, v) d IH]; [exact Logic.I|]. inversion F as [|e l Hk F']; subst. cbn [entries separated].
    split; [|apply IH, F']. intros N. destruct d as [|e d]; [contradiction N; reflexivity|].
    exists (str " " ++ left_of v ++ [" "%char]). rewrite <- !app_assoc. reflexivity.
  - clear T Sm. induction d as [|(k, v) d IH]; [constructor|]. inversion F as [|e l Hk F']; subst. cbn [entries].
    constructor; [|apply IH, F']. cbn [fst snd]. destruct (left_text (k, v) Hk) as (L1 & L2 & L3). cbn [snd] in *.
    destruct Hk as (Pk & Ck & Kk & _). cbn [fst] in *. rewrite (plain_left k Pk). split; [|split].
    + split; [apply Pk|]. split; [exact Ck|apply plain_no_space, Pk].
    + split.
      * intros B. apply Forall_app in B as [_ B]. apply Forall_app in B as [B _]. exact (L1 B).
      * left. intros I. apply in_app_iff in I as [I|I]; [destruct I as [E|[]]; discriminate E|].
        apply in_app_iff in I as [I|I]; [exact (L2 I)|]. destruct d; [exact I|].
        repeat (destruct I as [E|I]; [discriminate E|]). exact I.
    + intros k0 K. split; [|apply Kk, K]. apply absent_padded; [exact K|apply sep_blank|apply L3, K].
Qed.

Lemma plain_ascii : forall d, plain_dict d -> bstring (observer_text d) = Some (written (entries d)).
Proof.
  intros d H. rewrite (plain_text d H). unfold bstring. replace (existsb high_char (written (entries d))) with false; [reflexivity|].
  symmetry. apply not_true_is_false. intros E. apply existsb_exists in E as (c & I & E). destruct H as (_ & _ & F).
  change (Forall item_ok d) in F.
  assert (P : forall s, plain_word s -> In c s -> False).
  { intros s P J. destruct (plain_chars s c P J) as (B & _). unfold high_char in E. destruct (Nat.leb_spec 128 (code c)); [lia|discriminate E]. }
  induction d as [|(k, v) d IH]; [exact I|]. inversion F as [|e l Hk F']; subst. cbn [entries written] in I.
  destruct Hk as (Pk & _ & _ & Hv). cbn [fst snd] in *. rewrite (plain_left k Pk) in I.
  apply in_app_iff in I as [I|I]; [exact (P k Pk I)|]. destruct I as [<-|I]; [discriminate E|].
  apply in_app_iff in I as [I|I]; [|exact (IH F' I)].
  apply in_app_iff in I as [I|I]; [destruct I as [<-|[]]; discriminate E|].
  apply in_app_iff in I as [I|I].
  - destruct v as [s|z|o]; cbn [left_of] in I; [rewrite (plain_left s (proj1 Hv)) in I; exact (P s (proj1 Hv) I)| |contradiction].
    apply int_chars in I as [->|D]; [discriminate E|].
    destruct c as [[] [] [] [] [] [] [] []]; try discriminate D; discriminate E.
  - destruct d; [exact I|]. repeat (destruct I as [<-|I]; [discriminate E|]). exact I.
Qed.

(** *** Settings *)
Lemma string_from_dict : forall d k default x, plain_dict d -> string_setting (entries d) k default x ->
  (forall s, In (k, VStr s) d -> x = s) /\ (~ In k (map fst d) -> x = default).
Proof.
  intros d k default x H [S1 S2]. pose proof H as (N & _ & F). change (Forall item_ok d) in F. split.
  - intros s I. destruct (entries_lookup d k _ F N I) as (sep & B & L). apply (S2 _ s L).
    rewrite Forall_forall in F. destruct (F _ I) as (_ & _ & _ & P & _). cbn [left_of]. rewrite (plain_left s P).
    apply word_written; assumption.
  - intros Nk. apply S1, entries_lookup_none; assumption.
Qed.
Lemma int_from_dict : forall d k default lo hi x, plain_dict d -> int_setting (entries d) k default lo hi x ->
  (forall z, In (k, VInt z) d -> (INT_MIN <= z <= INT_MAX)%Z -> x = if ((lo <=? z) && (z <=? hi))%Z then z else default) /\
  (~ In k (map fst d) -> x = default).
Proof.
  intros d k default lo hi x H [S1 S2]. pose proof H as (N & _ & F). change (Forall item_ok d) in F. split.
  - intros z I R. destruct (entries_lookup d k _ F N I) as (sep & B & L). apply (S2 _ z L); [|exact R]. apply int_written, B.
  - intros Nk. apply S1, entries_lookup_none; assumption.
Qed.
Lemma size_from_dict : forall d k default least x, plain_dict d -> size_setting (entries d) k default least x ->
  (forall z, In (k, VInt z) d -> (0 <= z < 2 ^ 64)%Z -> x = if (least <=? Z.to_N z)%N then Z.to_N z else default) /\
  (~ In k (map fst d) -> x = default).
Proof.
  intros d k default least x H [S1 S2]. pose proof H as (N & _ & F). change (Forall item_ok d) in F. split.
  - intros z I R. destruct (entries_lookup d k _ F N I) as (sep & B & L).
    specialize (S2 _ z L (int_written z sep B) ltac:(lia)). cbv zeta in S2. rewrite Z.mod_small in S2 by lia. exact S2.
  - intros Nk. apply S1, entries_lookup_none; assumption.
Qed.

(** *** update *)
Lemma get_set : forall d k v k', dict_get (dict_set d k v) k' = if streq k k' then Some v else dict_get d k'.
Proof.
  induction d as [|(a, b) d IH]; intros k v k'; cbn [dict_set dict_get]; [reflexivity|].
  destruct (streq a k) eqn:E.
  - apply streq_spec in E. subst a. cbn [dict_get]. destruct (streq k k'); reflexivity.
  - cbn [dict_get]. destruct (streq a k') eqn:E'; [|apply IH]. apply streq_spec in E'. subst a.
    destruct (streq k k') eqn:E2; [|reflexivity]. apply streq_spec in E2. subst k'. rewrite (proj2 (streq_spec k k) eq_refl) in E. discriminate E.
Qed.
Lemma get_none : forall d k, dict_get d k = None <-> ~ In k (map fst d).
Proof.
  induction d as [|(a, b) d IH]; intros k; cbn [dict_get map fst]; [split; [intros _ []|reflexivity]|].
  destruct (streq a k) eqn:E.
  - apply streq_spec in E. split; [discriminate|]. intros N. contradiction N. left. exact E.
  - rewrite IH. split; intros N; [intros [X|X]|intros X; apply N; right; exact X].
    + subst a. rewrite (proj2 (streq_spec k k) eq_refl) in E. discriminate E.
    + exact (N X).
Qed.
Lemma get_update : forall o d k, NoDup (map fst o) ->
  dict_get (update d o) k = match dict_get o k with Some v => Some v | None => dict_get d k end.
Proof.
  unfold update. induction o as [|(a, b) o IH]; intros d k N; [reflexivity|]. inversion N as [|x l Na N']; subst.
  cbn [fold_left fst snd dict_get]. rewrite IH by exact N'. rewrite get_set. destruct (streq a k) eqn:E; [|reflexivity].
  apply streq_spec in E. subst a. apply get_none in Na. rewrite Na. reflexivity.
Qed.
Lemma get_gracefully : forall o d k, NoDup (map fst o) ->
  dict_get (update_gracefully d o) k = match dict_get d k with Some v => Some v | None => dict_get o k end.
Proof.
  unfold update_gracefully. induction o as [|(a, b) o IH]; intros d k N; [cbn; destruct (dict_get d k); reflexivity|].
  inversion N as [|x l Na N']; subst. cbn [fold_left fst snd dict_get]. rewrite IH by exact N'.
  destruct (dict_get d a) eqn:Ga.
  - destruct (dict_get d k) eqn:Gk; [reflexivity|]. destruct (streq a k) eqn:E; [|reflexivity].
    apply streq_spec in E. congruence.
  - rewrite get_set. destruct (streq a k) eqn:E; [|reflexivity]. apply streq_spec in E. subst a. rewrite Ga. reflexivity.
Qed.
