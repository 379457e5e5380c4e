(** Facts about dictionaries of observer options. *)
From Coq Require Import List Arith NArith ZArith Ascii String Bool Lia.
From Verif Require Import CBase StrModel StrSpec OptModel OptSpec OptProofs IdModel ObsModel ObsSpec PyOptModel PyOptSpec.
Import ListNotations.
Local Open Scope nat_scope.
Local Notation length := List.length.

(** *** replace *)
Lemma remove1 : forall c s, replace s [c] [] = filter (fun a => negb (Ascii.eqb c a)) s.
Proof.
  intros c s. unfold replace. induction s as [|a s IH]; [reflexivity|]. cbn [replace_from is_prefix filter].
  rewrite andb_true_r. destruct (Ascii.eqb c a); cbn [negb app]; [exact IH|]. now rewrite IH.
Qed.
Lemma subst1 : forall c d s, replace s [c] [d] = map (fun a => if Ascii.eqb a c then d else a) s.
Proof.
  intros c d s. unfold replace. induction s as [|a s IH]; [reflexivity|]. cbn [replace_from is_prefix map].
  rewrite andb_true_r, (Ascii.eqb_sym c a). destruct (Ascii.eqb a c); cbn [app]; rewrite <- IH; reflexivity.
Qed.

(** Removing a pair of characters. *)
Definition starts (b : ascii) (s : cstr) : bool := match s with c :: _ => Ascii.eqb c b | [] => false end.
Definition ends_in (a : ascii) (s : cstr) : bool := starts a (rev s).
Lemma pair_cons : forall a b c s, replace (c :: s) [a; b] [] =
  if Ascii.eqb a c && starts b s then replace (skipn 1 s) [a; b] [] else c :: replace s [a; b] [].
Proof.
  intros a b c s. unfold replace. destruct s as [|x s].
  - cbn [replace_from is_prefix starts]. rewrite andb_false_r. reflexivity.
  - cbn [starts skipn]. rewrite (Ascii.eqb_sym x b).
    change (replace_from [a; b] [] 0 (c :: x :: s)) with
      (if is_prefix [a; b] (c :: x :: s) then [] ++ replace_from [a; b] [] (List.length [a; b] - 1) (x :: s)
       else c :: replace_from [a; b] [] 0 (x :: s)).
    cbn [is_prefix]. rewrite andb_true_r. destruct (Ascii.eqb a c && Ascii.eqb b x); reflexivity.
Qed.
Lemma pair_app : forall a b n s t, length s <= n -> ends_in a s && starts b t = false ->
  replace (s ++ t) [a; b] [] = replace s [a; b] [] ++ replace t [a; b] [].
Proof.
  induction n as [|n IH]; intros s t L H.
  - destruct s; [reflexivity|cbn in L; lia].
  - destruct s as [|c s]; [reflexivity|]. cbn [app length] in *.
    rewrite !pair_cons. destruct s as [|x s].
    + cbn [app starts skipn]. unfold ends_in in H. cbn [rev app starts] in H. rewrite (Ascii.eqb_sym c a) in H.
      rewrite andb_false_r. rewrite H. reflexivity.
    + cbn [app starts skipn]. assert (H' : ends_in a (x :: s) && starts b t = false).
      { unfold ends_in in *. cbn [rev] in *. rewrite <- app_assoc in H.
        destruct (rev s); cbn [app starts] in *; exact H. }
      destruct (Ascii.eqb a c && Ascii.eqb x b).
      * apply IH; [cbn [length] in L; lia|]. destruct s as [|y s]; [reflexivity|].
        unfold ends_in in *. cbn [rev] in *. rewrite <- app_assoc in H'. destruct (rev s); cbn [app starts] in *; exact H'.
      * cbn [app]. f_equal. apply (IH (x :: s) t); [cbn [length] in *; lia|exact H'].
Qed.
Lemma pair_none : forall a b s, ~ In b s -> replace s [a; b] [] = s.
Proof.
  intros a b. induction s as [|c s IH]; intros H; [reflexivity|]. rewrite pair_cons.
  assert (E : starts b s = false).
  { destruct s as [|x s]; [reflexivity|]. cbn. apply Ascii.eqb_neq. intros ->. apply H. right. left. reflexivity. }
  rewrite E, andb_false_r. rewrite IH; [reflexivity|]. intros J. apply H. right. exact J.
Qed.
Lemma last_cases : forall (s : cstr), s = [] \/ exists r c, s = r ++ [c].
Proof. intros s. destruct s as [|x l] using rev_ind; [left; reflexivity|right; eauto]. Qed.
Lemma ends_app1 : forall a r c, ends_in a (r ++ [c]) = Ascii.eqb c a.
Proof. intros. unfold ends_in. rewrite rev_app_distr. reflexivity. Qed.
Lemma lose_u : forall r c, without_last_u (r ++ [c]) = if Ascii.eqb c "u" then r else r ++ [c].
Proof.
  intros r c. unfold without_last_u. rewrite rev_app_distr. cbn [rev app].
  destruct (Ascii.eqb_spec c "u"%char) as [->|N]; [apply rev_involutive|].
  destruct c as [[] [] [] [] [] [] [] []]; try reflexivity. contradiction N. reflexivity.
Qed.

(** The part of a string in quotation marks up to the second one, without it. *)
Lemma pair_string : forall s, ~ In SQ s ->
  filter (fun c => negb (Ascii.eqb SQ c)) (replace (s ++ [SQ]) ["u"%char; SQ] []) = without_last_u s.
Proof.
  intros s H. assert (F : forall t, ~ In SQ t -> filter (fun c => negb (Ascii.eqb SQ c)) t = t).
  { induction t as [|c t IH]; intros K; [reflexivity|]. cbn [filter]. destruct (Ascii.eqb_spec SQ c) as [E|E].
    - exfalso. apply K. left. auto.
    - cbn [negb]. rewrite IH; [reflexivity|]. intros J. apply K. right. exact J. }
  destruct (last_cases s) as [->|(r & c & ->)]; [reflexivity|]. rewrite lose_u.
  assert (Hr : ~ In SQ r) by (intros J; apply H; apply in_app_iff; left; exact J).
  destruct (Ascii.eqb_spec c "u"%char) as [->|N].
  - rewrite <- app_assoc. cbn [app]. rewrite (pair_app _ _ (length r)); [|lia|cbn [starts]; apply andb_false_r].
    rewrite (pair_none _ _ r Hr). rewrite filter_app, (F r Hr). cbn. apply app_nil_r.
  - rewrite (pair_app _ _ (length (r ++ [c]))); [|lia|rewrite ends_app1, (proj2 (Ascii.eqb_neq c "u") N); reflexivity].
    rewrite (pair_none _ _ _ H), filter_app, (F _ H). cbn. apply app_nil_r.
Qed.

(** *** repr *)
Lemma quiet_chars : forall s c, quiet s -> In c s -> 32 <= code c < 127 /\ c <> SQ /\ c <> BS.
Proof. intros s c H I. unfold quiet in H. rewrite Forall_forall in H. exact (H c I). Qed.
Lemma quiet_repr : forall s, quiet s -> repr_str s = SQ :: s ++ [SQ].
Proof.
  intros s H. unfold repr_str. assert (Q : quotation s = SQ).
  { unfold quotation. replace (has SQ s) with false; [reflexivity|]. symmetry. unfold has.
    apply not_true_is_false. intros E. apply existsb_exists in E as (c & I & E). apply Ascii.eqb_eq in E. subst c.
    apply (quiet_chars _ _ H) in I. destruct I as (_ & N & _). apply N. reflexivity. }
  rewrite Q. cbv zeta. f_equal. f_equal. induction s as [|c s IH]; [reflexivity|].
  inversion H as [|x l [B [N1 N2]] F]; subst. cbn [flat_map].
  assert (Q' : quotation s = SQ).
  { unfold quotation. replace (has SQ s) with false; [reflexivity|]. symmetry. unfold has.
    apply not_true_is_false. intros E. apply existsb_exists in E as (y & I & E). apply Ascii.eqb_eq in E. subst y.
    apply (quiet_chars _ _ F) in I. destruct I as (_ & N & _). apply N. reflexivity. }
  rewrite (IH F Q'). unfold escape.
  rewrite (proj2 (Ascii.eqb_neq c SQ) N1), (proj2 (Ascii.eqb_neq c BS) N2). cbn [orb].
  destruct (Nat.eqb_spec (code c) 9); [lia|]. destruct (Nat.eqb_spec (code c) 10); [lia|]. destruct (Nat.eqb_spec (code c) 13); [lia|].
  unfold printable. destruct (Nat.leb_spec 32 (code c)); [|lia]. destruct (Nat.ltb_spec (code c) 127); [|lia]. reflexivity.
Qed.

(** Characters of printed integers. *)
Lemma decimal_chars : forall m n c, In c (decimal m n) -> isdigit c = true.
Proof.
  induction m as [|m IH]; intros n c I; [destruct I|]. cbn [decimal] in I.
  assert (D : forall k, (k < 10)%N -> isdigit (digit_char k) = true).
  { intros k Hk. assert (J : In k (map N.of_nat (seq 0 10))).
    { rewrite <- (N2Nat.id k). apply in_map. apply in_seq. lia. }
    cbn in J. repeat (destruct J as [<-|J]; [reflexivity|]). destruct J. }
  destruct (N.ltb_spec n 10).
  - destruct I as [<-|[]]. apply D. exact H.
  - apply in_app_iff in I as [I|[<-|[]]]; [apply (IH _ _ I)|]. apply D. apply N.mod_lt. discriminate.
Qed.
Lemma int_chars : forall z c, In c (repr_int z) -> c = "-"%char \/ isdigit c = true.
Proof.
  intros z c I. unfold repr_int in I. cbv zeta in I. apply in_app_iff in I as [I|I].
  - destruct (z <? 0)%Z; [destruct I as [<-|[]]; left; reflexivity|destruct I].
  - right. eapply decimal_chars; exact I.
Qed.

(** *** From the dictionary to the entries *)
Definition comma (c : ascii) : ascii := if Ascii.eqb c "," then " "%char else c.
Definition proc (t : cstr) : cstr :=
  filter (fun a => negb (Ascii.eqb "}" a)) (filter (fun a => negb (Ascii.eqb "{" a))
    (filter (fun a => negb (Ascii.eqb SQ a)) (replace (map comma t) ["u"%char; SQ] []))).
Lemma as_string_proc : forall d, as_string d = proc (str_dict d).
Proof.
  intros d. unfold as_string, remove_all, proc. cbn [fold_left]. rewrite !remove1.
  replace (replace (str_dict d) (str ",") (str " ")) with (map comma (str_dict d)); [reflexivity|].
  symmetry. apply subst1.
Qed.
Lemma comma_quote : forall c b, b <> ","%char -> b <> " "%char -> Ascii.eqb (comma c) b = Ascii.eqb c b.
Proof.
  intros c b N1 N2. unfold comma. destruct (Ascii.eqb_spec c ","%char) as [->|N]; [|reflexivity].
  rewrite (proj2 (Ascii.eqb_neq " " b)), (proj2 (Ascii.eqb_neq "," b)) by congruence. reflexivity.
Qed.
Lemma starts_comma : forall b t, b <> ","%char -> b <> " "%char -> starts b (map comma t) = starts b t.
Proof. intros b [|c t] N1 N2; [reflexivity|]. cbn. apply comma_quote; assumption. Qed.
Lemma proc_app : forall s t, ends_in "u" s && starts SQ t = false -> proc (s ++ t) = proc s ++ proc t.
Proof.
  intros s t H. unfold proc. rewrite map_app, (pair_app _ _ (length (map comma s))); [|lia|].
  - rewrite !filter_app. reflexivity.
  - unfold ends_in. rewrite <- map_rev, !starts_comma by discriminate. exact H.
Qed.
Lemma filter_none : forall (f : ascii -> bool) s, (forall c, In c s -> f c = true) -> filter f s = s.
Proof.
  induction s as [|c s IH]; intros H; [reflexivity|]. cbn [filter]. rewrite (H c (or_introl eq_refl)).
  rewrite IH; [reflexivity|]. intros x I. apply H. right. exact I.
Qed.
Lemma filter_two : forall s, filter (fun a => negb (Ascii.eqb "}" a)) (filter (fun a => negb (Ascii.eqb "{" a)) s) =
  filter (fun c => negb (Ascii.eqb c "{" || Ascii.eqb c "}")) s.
Proof.
  induction s as [|c s IH]; [reflexivity|]. cbn [filter]. rewrite (Ascii.eqb_sym "{" c).
  destruct (Ascii.eqb c "{"); cbn [negb orb]; [exact IH|]. cbn [filter]. rewrite (Ascii.eqb_sym "}" c).
  destruct (Ascii.eqb c "}"); cbn [negb]; [exact IH|]. now rewrite IH.
Qed.
Lemma no_sq_comma : forall s, ~ In SQ s -> ~ In SQ (map comma s).
Proof.
  intros s H I. apply in_map_iff in I as (c & E & I). apply H. unfold comma in E.
  destruct (Ascii.eqb c ","); [discriminate E|]. now subst c.
Qed.
Lemma without_comma : forall s, without_last_u (map comma s) = map comma (without_last_u s).
Proof.
  intros s. destruct (last_cases s) as [->|(r & c & ->)]; [reflexivity|]. rewrite map_app. cbn [map]. rewrite !lose_u.
  rewrite comma_quote by discriminate. destruct (Ascii.eqb c "u"); [reflexivity|]. rewrite map_app. reflexivity.
Qed.
Lemma proc_string : forall s, ~ In SQ s -> proc (s ++ [SQ]) = cleaned (without_last_u s).
Proof.
  intros s H. unfold proc. rewrite map_app. cbn [map]. change (comma SQ) with SQ.
  rewrite pair_string by (apply no_sq_comma; exact H). rewrite filter_two, without_comma. reflexivity.
Qed.
Lemma proc_plain : forall s, ~ In SQ s -> proc s = cleaned s.
Proof.
  intros s H. unfold proc. apply no_sq_comma in H. rewrite (pair_none _ _ _ H). rewrite filter_two.
  rewrite (filter_none (fun a => negb (Ascii.eqb SQ a))); [reflexivity|].
  intros c I. destruct (Ascii.eqb_spec SQ c) as [<-|]; [contradiction|reflexivity].
Qed.
Lemma quiet_no_sq : forall s, quiet s -> ~ In SQ s.
Proof. intros s H I. apply (quiet_chars _ _ H) in I. destruct I as (_ & N & _). apply N. reflexivity. Qed.
Lemma cleaned_none : forall s, (forall c, In c s -> c <> ","%char /\ c <> "{"%char /\ c <> "}"%char) -> cleaned s = s.
Proof.
  intros s H. unfold cleaned. replace (map _ s) with s.
  - apply filter_none. intros c I. destruct (H c I) as (_ & N1 & N2).
    rewrite (proj2 (Ascii.eqb_neq c "{") N1), (proj2 (Ascii.eqb_neq c "}") N2). reflexivity.
  - induction s as [|c s IH]; [reflexivity|]. cbn [map]. rewrite <- IH by (intros x I; apply H; right; exact I).
    destruct (H c (or_introl eq_refl)) as (N & _). rewrite (proj2 (Ascii.eqb_neq c ",") N). reflexivity.
Qed.
Lemma int_plain : forall z c, In c (repr_int z) -> c <> SQ /\ c <> DQ /\ c <> ","%char /\ c <> "{"%char /\ c <> "}"%char /\ c <> "u"%char.
Proof.
  intros z c I. apply int_chars in I as [->|D]; [repeat split; discriminate|].
  repeat split; intros ->; discriminate D.
Qed.
Lemma proc_repr : forall s t, quiet s -> proc (repr_str s ++ t) = cleaned (without_last_u s) ++ proc t.
Proof.
  intros s t H. rewrite (quiet_repr s H). change ((SQ :: s ++ [SQ]) ++ t) with ([SQ] ++ (s ++ [SQ]) ++ t).
  rewrite proc_app by reflexivity. change (proc [SQ]) with (@nil ascii). cbn [app].
  rewrite proc_app; [|rewrite ends_app1; reflexivity]. rewrite (proc_string s (quiet_no_sq s H)). reflexivity.
Qed.
Lemma proc_value : forall v t, Forall quiet (strings_of v) -> starts SQ t = false ->
  proc (repr_value v ++ t) = left_of v ++ proc t.
Proof.
  intros [s|z|o] t H S; cbn [repr_value left_of strings_of] in *.
  - inversion H; subst. apply proc_repr. assumption.
  - rewrite proc_app by (rewrite S; apply andb_false_r). f_equal. rewrite proc_plain.
    + apply cleaned_none. intros c I. apply int_plain in I. tauto.
    + intros I. apply int_plain in I. tauto.
  - inversion H; subst. rewrite proc_app by (rewrite S; apply andb_false_r). f_equal. apply proc_plain, quiet_no_sq. assumption.
Qed.
Lemma proc_items : forall d, all_strings quiet d -> proc (items d ++ ["}"%char]) = written (entries d).
Proof.
  induction d as [|(k, v) d IH]; intros H; [reflexivity|]. inversion H as [|e l [Hk Hv] H']; subst. cbn [fst snd] in *.
  cbn [items entries written]. rewrite <- !app_assoc. rewrite (proc_repr k _ Hk). f_equal.
  assert (P : forall t, proc (str ": " ++ t) = str ": " ++ proc t).
  { intros t. rewrite proc_app by reflexivity. reflexivity. }
  rewrite P. cbn [str list_ascii_of_string app]. do 2 f_equal. destruct d as [|e d].
  - rewrite proc_value by (assumption || reflexivity). cbn [app]. change (proc ["}"%char]) with (@nil ascii).
    cbn [entries written]. rewrite !app_nil_r. reflexivity.
  - rewrite proc_value by (assumption || reflexivity). f_equal.
    change ((","%char :: " "%char :: items (e :: d)) ++ ["}"%char]) with (str ", " ++ (items (e :: d) ++ ["}"%char])).
    rewrite proc_app by reflexivity. rewrite (IH H'). reflexivity.
Qed.
Lemma as_string_written : forall d, all_strings quiet d -> as_string d = written (entries d).
Proof.
  intros d H. rewrite as_string_proc. unfold str_dict.
  change ("{"%char :: items d ++ ["}"%char]) with (["{"%char] ++ (items d ++ ["}"%char])).
  rewrite proc_app by reflexivity. rewrite (proc_items d H). reflexivity.
Qed.

(** Without double quotation marks the two texts are the same. *)
Lemma replace_in : forall a b n s c, length s <= n -> In c (replace s [a; b] []) -> In c s.
Proof.
  induction n as [|n IH]; intros s c L I; destruct s as [|x s]; [exact I|cbn in L; lia|exact I|].
  cbn [length] in L. rewrite pair_cons in I. destruct (_ && _).
  - right. destruct s as [|y s]; [exact I|]. right. apply (IH s c); [cbn [length] in L; lia|exact I].
  - destruct I as [<-|I]; [left; reflexivity|right]. apply (IH s c); [lia|exact I].
Qed.
Lemma no_double_repr : forall s, quiet s -> no_double s -> ~ In DQ (repr_str s).
Proof.
  intros s Q H I. rewrite (quiet_repr s Q) in I. destruct I as [E|I]; [discriminate E|].
  apply in_app_iff in I as [I|[E|[]]]; [exact (H I)|discriminate E].
Qed.
Lemma no_double_dict : forall d, all_strings quiet d -> all_strings no_double d -> ~ In DQ (str_dict d).
Proof.
  intros d Q H I. unfold str_dict in I. destruct I as [E|I]; [discriminate E|].
  apply in_app_iff in I as [I|[E|[]]]; [|discriminate E]. induction d as [|(k, v) d IH]; [exact I|].
  inversion Q as [|e l [Qk Qv] Q']; subst. inversion H as [|e l [Hk Hv] H']; subst. cbn [fst snd] in *. cbn [items] in I.
  apply in_app_iff in I as [I|I]; [exact (no_double_repr _ Qk Hk I)|].
  apply in_app_iff in I as [I|I]; [repeat (destruct I as [E|I]; [discriminate E|]); exact I|].
  apply in_app_iff in I as [I|I].
  - destruct v as [s|z|o]; cbn [repr_value strings_of] in *.
    + inversion Qv; inversion Hv; subst. eapply no_double_repr; [| |exact I]; assumption.
    + apply int_plain in I. tauto.
    + inversion Hv; subst. exact (H2 I).
  - destruct d as [|e d]; [exact I|]. apply in_app_iff in I as [I|I]; [repeat (destruct I as [E|I]; [discriminate E|]); exact I|].
    apply (IH Q' H' I).
Qed.
Lemma observer_text_same : forall d, all_strings quiet d -> all_strings no_double d -> observer_text d = as_string d.
Proof.
  intros d Q H. unfold observer_text, as_string, remove_all. cbn [fold_left].
  set (m := replace (str_dict d) (str ",") (str " ")).
  assert (Hm : ~ In DQ (replace m ["u"%char; SQ] [])).
  { intros I. apply (replace_in _ _ _ _ _ (le_n _)) in I. unfold m in I.
    change (replace (str_dict d) (str ",") (str " ")) with (replace (str_dict d) [","%char] [" "%char]) in I. rewrite subst1 in I.
    apply in_map_iff in I as (c & E & I). destruct (Ascii.eqb c ","); [discriminate E|]. subst c.
    exact (no_double_dict d Q H I). }
  rewrite (pair_none _ _ _ Hm). rewrite !remove1. f_equal. f_equal. apply filter_none. intros c I.
  destruct (Ascii.eqb_spec DQ c) as [<-|]; [|reflexivity]. exfalso. apply filter_In in I as [I _]. exact (Hm I).
Qed.
Lemma observer_text_written : forall d, all_strings quiet d -> all_strings no_double d -> observer_text d = written (entries d).
Proof. intros d Q H. rewrite (observer_text_same d Q H). apply as_string_written. exact Q. Qed.
