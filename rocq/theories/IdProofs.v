(** Lemmas about formatted strings and problem ids. *)
From Coq Require Import List Arith NArith Ascii String Bool Lia ZifyBool ZifyNat ZifyN.
From Verif Require Import CBase OptModel IdModel IdSpec.
Import ListNotations.
Local Notation length := List.length.
Open Scope nat_scope.

(** ** Characters *)
Lemma all_chars : forall P : ascii -> bool, forallb P (map ascii_of_nat (seq 0 256)) = true -> forall c, P c = true.
Proof.
  intros P H c. rewrite forallb_forall in H. apply H. rewrite <- (ascii_nat_embedding c). apply in_map.
  apply in_seq. pose proof (nat_ascii_bounded c). lia.
Qed.

Lemma id_char_spec : forall c, id_char c = true <-> safe_char c.
Proof.
  intros c.
  set (l := str letters ++ str digits ++ ["-"; "_"]%char).
  assert (E : id_char c = existsb (Ascii.eqb c) l).
  { apply eqb_prop. revert c. apply all_chars. vm_compute. reflexivity. }
  rewrite E, existsb_exists. unfold safe_char. fold l. split.
  - intros [x [Hx Q]]. apply Ascii.eqb_eq in Q. subst. exact Hx.
  - intros H. exists c. split; [exact H|apply Ascii.eqb_refl].
Qed.

Lemma id_loop_false : forall s, id_loop s false = false.
Proof. induction s as [|c s IH]; [reflexivity|]. cbn [id_loop]. destruct (id_char c); exact IH. Qed.

Lemma id_loop_spec : forall s, id_loop s true = true <-> safe s.
Proof.
  induction s as [|c s IH]; cbn [id_loop]; [split; [constructor|reflexivity]|].
  destruct (id_char c) eqn:E.
  - rewrite IH. apply id_char_spec in E. split; [constructor; assumption|intros H; inversion H; assumption].
  - rewrite id_loop_false. split; [discriminate|]. intros H. inversion H as [|? ? H1 _]; subst.
    apply id_char_spec in H1. congruence.
Qed.

Lemma id_loop_bool : forall s, id_loop s true = false <-> ~ safe s.
Proof. intros s. rewrite <- id_loop_spec. destruct (id_loop s true); split; congruence. Qed.

Lemma safe_no_percent : forall s, safe s -> ~ In PERCENT s.
Proof.
  intros s H K. apply (proj1 (Forall_forall _ _) H) in K. apply id_char_spec in K. discriminate K.
Qed.

Lemma vsprintf_plain : forall s, ~ In PERCENT s -> vsprintf s [] = Ok s.
Proof.
  induction s as [|c s IH]; intros H; [reflexivity|]. cbn [vsprintf].
  destruct (Ascii.eqb_spec c PERCENT) as [E|E]; [exfalso; apply H; left; congruence|]. cbn [negb].
  rewrite IH; [reflexivity|]. intros K. apply H. right. exact K.
Qed.

(** Without arguments: either the format has no percent sign, or the text still contains one, or the call is undefined. *)
Lemma vsprintf_percent : forall s t, In PERCENT s -> vsprintf s [] = Ok t -> In PERCENT t.
Proof.
  intros s. remember (length s) as n eqn:Hn. assert (L : length s <= n) by lia. clear Hn. revert s L.
  induction n as [|n IH]; intros s L t H E; [destruct s; [destruct H|cbn in L; lia]|].
  destruct s as [|c s]; [destruct H|]. cbn [length] in L. cbn [vsprintf] in E.
  destruct (Ascii.eqb_spec c PERCENT) as [->|N]; cbn [negb] in E.
  - destruct s as [|c1 s1]; [discriminate E|].
    destruct (Ascii.eqb c1 PERCENT).
    + apply bind_Ok in E as [r [_ E]]. injection E as <-. left. reflexivity.
    + destruct (Ascii.eqb c1 "s"); [discriminate E|]. destruct (Ascii.eqb c1 "l").
      * destruct s1; discriminate E.
      * destruct (Ascii.eqb c1 "0"); [|discriminate E]. destruct s1 as [|? [|? [|? ?]]]; discriminate E.
  - apply bind_Ok in E as [r [E1 E]]. injection E as <-. right. apply (IH s); [lia| |exact E1].
    destruct H as [H|H]; [congruence|exact H].
Qed.

Lemma vsprintf_length : forall s t, vsprintf s [] = Ok t -> length t <= length s.
Proof.
  intros s. remember (length s) as n eqn:Hn. assert (L : length s <= n) by lia. clear Hn. revert s L.
  induction n as [|n IH]; intros s L t E; destruct s as [|c s]; try (cbn in E; injection E as <-; cbn; lia); cbn [length] in L; [lia|].
  cbn [vsprintf] in E. destruct (Ascii.eqb_spec c PERCENT) as [->|N]; cbn [negb] in E.
  - destruct s as [|c1 s1]; [discriminate E|]. cbn [length] in L.
    destruct (Ascii.eqb c1 PERCENT).
    + apply bind_Ok in E as [r [E1 E]]. injection E as <-. apply IH in E1; [|lia]. cbn [length]. lia.
    + destruct (Ascii.eqb c1 "s"); [discriminate E|]. destruct (Ascii.eqb c1 "l").
      * destruct s1; discriminate E.
      * destruct (Ascii.eqb c1 "0"); [|discriminate E]. destruct s1 as [|? [|? [|? ?]]]; discriminate E.
  - apply bind_Ok in E as [r [E1 E]]. injection E as <-. apply IH in E1; [|lia]. cbn [length]. lia.
Qed.

Lemma strdupf_short : forall s, length s <= 441 -> strdupf_result s = Ok s.
Proof.
  intros s H. unfold strdupf_result.
  destruct (N.ltb_spec 443 (N.of_nat (length s))); [lia|]. destruct (N.ltb_spec 441 (N.of_nat (length s))); [lia|]. reflexivity.
Qed.

Lemma strdupf_inv : forall s t, strdupf_result s = Ok t -> t = s /\ length s <= 441.
Proof.
  intros s t H. unfold strdupf_result in H.
  destruct (N.ltb_spec 443 (N.of_nat (length s))); [discriminate H|].
  destruct (N.ltb_spec 441 (N.of_nat (length s))); [discriminate H|]. injection H as <-. split; [reflexivity|lia].
Qed.

(** ** Numbers *)
Lemma number_app : forall s t, number (s ++ t) = (number s * 10 ^ N.of_nat (length t) + number t)%N.
Proof.
  intros s t. revert s. induction t as [|c t IH] using rev_ind; intros s.
  - rewrite app_nil_r. cbn. lia.
  - rewrite app_assoc, app_length. cbn [length]. 
    assert (Q : forall u, number (u ++ [c]) = (10 * number u + (N_of_ascii c - 48))%N)
      by (intros u; unfold number; rewrite fold_left_app; reflexivity).
    rewrite !Q, IH, Nat.add_1_r, Nat2N.inj_succ, N.pow_succ_r by lia. ring.
Qed.

Lemma number_zeros : forall k s, number (repeat "0"%char k ++ s) = number s.
Proof.
  intros k s. rewrite number_app.
  assert (E : number (repeat "0"%char k) = 0%N).
  { induction k as [|k IH]; [reflexivity|]. change (repeat "0"%char (S k)) with (["0"%char] ++ repeat "0"%char k).
    rewrite number_app, IH. reflexivity. }
  rewrite E. lia.
Qed.

Lemma small_digit : forall n, (n < 10)%N -> In n (map N.of_nat (seq 0 10)).
Proof. intros n H. apply in_map_iff. exists (N.to_nat n). split; [lia|]. apply in_seq. lia. Qed.

Lemma digit_in : forall n, (n < 10)%N -> In (digit_char n) (str digits).
Proof. intros n H. apply small_digit in H. cbn in H. repeat (destruct H as [<-|H]; [vm_compute; tauto|]). destruct H. Qed.

Lemma digit_number : forall n, (n < 10)%N -> number [digit_char n] = n.
Proof. intros n H. apply small_digit in H. cbn in H. repeat (destruct H as [<-|H]; [reflexivity|]). destruct H. Qed.

Lemma digit_zero : forall n, (n < 10)%N -> digit_char n = "0"%char -> n = 0%N.
Proof. intros n H E. rewrite <- (digit_number n H), E. reflexivity. Qed.

Lemma decimal_digits : forall k n, Forall (fun c => In c (str digits)) (decimal k n).
Proof.
  induction k as [|k IH]; intros n; cbn [decimal]; [constructor|].
  destruct (N.ltb_spec n 10) as [L|L].
  - constructor; [apply digit_in; exact L|constructor].
  - apply Forall_app. split; [apply IH|]. constructor; [|constructor]. apply digit_in, N.mod_lt. lia.
Qed.

Lemma decimal_length : forall k n, length (decimal k n) <= k.
Proof.
  induction k as [|k IH]; intros n; cbn [decimal]; [cbn; lia|].
  destruct (n <? 10)%N; [cbn; lia|]. rewrite app_length. specialize (IH (n / 10)%N). cbn. lia.
Qed.

Lemma decimal_value : forall k n, (n < 10 ^ N.of_nat k)%N -> number (decimal k n) = n.
Proof.
  induction k as [|k IH]; intros n H; cbn [decimal]; [cbn in H; cbn; lia|].
  destruct (N.ltb_spec n 10) as [L|L]; [apply digit_number; exact L|].
  rewrite number_app. cbn [length]. rewrite IH.
  - rewrite digit_number by (apply N.mod_lt; lia). change (10 ^ N.of_nat 1)%N with 10%N.
    rewrite N.mul_comm. symmetry. apply N.div_mod. lia.
  - rewrite Nat2N.inj_succ, N.pow_succ_r in H by lia. apply N.div_lt_upper_bound; [lia|exact H].
Qed.

Lemma decimal_nonempty : forall k n, decimal (S k) n <> [].
Proof.
  intros k n. cbn [decimal]. destruct (n <? 10)%N; [discriminate|]. intros E. apply app_eq_nil in E as [_ E]. discriminate E.
Qed.

Lemma decimal_first : forall k n, (n < 10 ^ N.of_nat k)%N -> 1 < length (decimal k n) -> hd_error (decimal k n) <> Some "0"%char.
Proof.
  induction k as [|k IH]; intros n H L; cbn [decimal] in *; [cbn in L; lia|].
  destruct (N.ltb_spec n 10) as [S|S]; [cbn in L; lia|].
  assert (H' : (n / 10 < 10 ^ N.of_nat k)%N).
  { rewrite Nat2N.inj_succ, N.pow_succ_r in H by lia. apply N.div_lt_upper_bound; [lia|exact H]. }
  destruct k as [|k].
  { exfalso. cbn in H'. assert (1 <= n / 10)%N by (apply N.div_le_lower_bound; lia). lia. }
  destruct (decimal (Datatypes.S k) (n / 10)) as [|c r] eqn:E; [exfalso; exact (decimal_nonempty k _ E)|].
  cbn [app hd_error]. destruct r as [|c' r].
  - cbn [decimal] in E. destruct (N.ltb_spec (n / 10) 10) as [T|T].
    + injection E as <-. intros Q. injection Q as Q. apply digit_zero in Q; [|exact T].
      assert (1 <= n / 10)%N by (apply N.div_le_lower_bound; lia). lia.
    + exfalso. destruct (decimal k (n / 10 / 10)) as [|a l] eqn:E2.
      * destruct k as [|k]; [|exact (decimal_nonempty k _ E2)].
        cbn in H'. change (10 ^ 1)%N with 10%N in H'. lia.
      * apply (f_equal (@length ascii)) in E. rewrite app_length in E. cbn in E. lia.
  - specialize (IH (n / 10)%N H'). rewrite E in IH. cbn [length hd_error] in IH. apply IH. lia.
Qed.

Lemma print_lu_numeral : forall w n, (n < 2 ^ 64)%N -> numeral w n (print_lu w n).
Proof.
  intros w n H. unfold numeral, print_lu.
  assert (H' : (n < 10 ^ N.of_nat 20)%N) by (eapply N.lt_le_trans; [exact H|]; intros Q; vm_compute in Q; discriminate Q).
  assert (Ne : decimal 20 n <> []) by (apply decimal_nonempty).
  remember (decimal 20 n) as s eqn:Es.
  assert (V : number s = n) by (subst s; apply decimal_value; exact H').
  assert (D : Forall (fun c => In c (str digits)) s) by (subst s; apply decimal_digits).
  assert (F : 1 < length s -> hd_error s <> Some "0"%char) by (subst s; apply decimal_first; exact H').
  clear Es.
  split; [rewrite number_zeros; exact V|]. split.
  { apply Forall_app. split; [|exact D]. apply Forall_forall. intros c Hc. apply repeat_spec in Hc. subst c. left. reflexivity. }
  rewrite app_length, repeat_length. split; [|split; [lia|]].
  { intros E. apply app_eq_nil in E as [_ E]. contradiction. }
  intros L1 L2. destruct (w - length s) as [|k] eqn:Ew; [|lia]. cbn [repeat app]. apply F. lia.
Qed.

Lemma print_lu_length : forall w n, w <= 20 -> length (print_lu w n) <= 20.
Proof.
  intros w n H. unfold print_lu. rewrite app_length, repeat_length. pose proof (decimal_length 20 n). lia.
Qed.

(** ** Ids *)
Lemma digits_safe : forall s, Forall (fun c => In c (str digits)) s -> safe s.
Proof.
  intros s H. unfold safe. eapply Forall_impl; [|exact H]. intros c Hc. unfold safe_char. apply in_or_app. right.
  apply in_or_app. left. exact Hc.
Qed.

Lemma safe_app : forall s t, safe s -> safe t -> safe (s ++ t).
Proof. intros s t H K. apply Forall_app. split; assumption. Qed.

Lemma str_safe : forall s, forallb id_char s = true -> safe s.
Proof.
  intros s H. apply Forall_forall. intros c Hc. apply id_char_spec. rewrite forallb_forall in H. apply H. exact Hc.
Qed.

Definition is_digit (c : ascii) : Prop := In c (str digits).

Lemma split_digits : forall a a' c c' b b', Forall is_digit a -> Forall is_digit a' -> ~ is_digit c -> ~ is_digit c' ->
  a ++ c :: b = a' ++ c' :: b' -> a = a' /\ c :: b = c' :: b'.
Proof.
  induction a as [|x a IH]; intros [|x' a'] c c' b b' D D' N N' E; cbn [app] in E.
  - auto.
  - exfalso. injection E as -> _. inversion D'; contradiction.
  - exfalso. injection E as <- _. inversion D; contradiction.
  - injection E as -> E. inversion D; inversion D'; subst.
    destruct (IH a' c c' b b') as [-> ->]; auto.
Qed.

Lemma id_parts : forall tf tf' ti ti' td td', Forall is_digit tf -> Forall is_digit tf' -> Forall is_digit ti -> Forall is_digit ti' ->
  tf ++ str "_i" ++ ti ++ str "_d" ++ td = tf' ++ str "_i" ++ ti' ++ str "_d" ++ td' -> tf = tf' /\ ti = ti' /\ td = td'.
Proof.
  intros tf tf' ti ti' td td' D1 D1' D2 D2' E. cbn [str list_ascii_of_string app] in E.
  assert (Nu : ~ is_digit "_") by (intros H; cbn in H; repeat (destruct H as [H|H]; [discriminate H|]); destruct H).
  apply split_digits in E as [-> E]; auto. injection E as E.
  apply split_digits in E as [-> E]; auto. injection E as ->. auto.
Qed.

Lemma set_id_ok : forall fmt args s, length fmt < 220 -> vsprintf fmt args = Ok s -> safe s -> length s < 220 ->
  coco_problem_set_id fmt args = Ok s.
Proof.
  intros fmt args s L H S Ls. unfold coco_problem_set_id, coco_problem_id_is_fine, coco_vstrdupf, fmt_max.
  destruct (Nat.leb_spec 220 (length fmt)); [lia|]. rewrite H. cbn [bind]. rewrite strdupf_short by lia. cbn [bind].
  destruct (Nat.leb_spec 220 (length s)); [lia|].
  rewrite vsprintf_plain by (apply safe_no_percent; exact S). cbn [bind]. rewrite strdupf_short by lia. cbn [bind].
  rewrite (proj2 (id_loop_spec s) S). reflexivity.
Qed.
