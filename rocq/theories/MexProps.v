(** C91: the gateway of the MATLAB interface. *)
From Coq Require Import String List Arith NArith Ascii Bool Lia.
Import ListNotations.
From Verif Require Import CBase MexModel MexSpec.
Local Notation length := List.length.
Local Open Scope nat_scope.

Lemma bytes_length : forall w v, length (bytes w v) = w.
Proof. induction w as [|w IH]; intros v; cbn [bytes length]; [reflexivity|]. rewrite IH. reflexivity. Qed.
Lemma value_bytes : forall w v, (v < 256 ^ N.of_nat w)%N -> value (bytes w v) = v.
Proof.
  induction w as [|w IH]; intros v H.
  - cbn in H. cbn. lia.
  - cbn [bytes value]. rewrite Nat2N.inj_succ, N.pow_succ_r' in H. rewrite IH by (apply N.div_lt_upper_bound; lia).
    pose proof (N.div_mod v 256). lia.
Qed.
Lemma lower_same : forall a b, same_letter a b -> lower a = lower b.
Proof.
  intros a b [->|(k & K & H)]; [reflexivity|]. unfold lower.
  destruct H as [[A B]|[A B]]; rewrite A, B.
  - destruct (Nat.leb_spec 65 (65 + k)); [|lia]. destruct (Nat.leb_spec (65 + k) 90); [|lia].
    destruct (Nat.leb_spec 65 (97 + k)); [|lia]. destruct (Nat.leb_spec (97 + k) 90); [lia|]. cbn [andb].
    rewrite <- (ascii_nat_embedding b), B. f_equal. lia.
  - destruct (Nat.leb_spec 65 (65 + k)); [|lia]. destruct (Nat.leb_spec (65 + k) 90); [|lia].
    destruct (Nat.leb_spec 65 (97 + k)); [|lia]. destruct (Nat.leb_spec (97 + k) 90); [lia|]. cbn [andb].
    rewrite <- (ascii_nat_embedding a), A. f_equal. lia.
Qed.
Lemma lower_inv : forall a b, lower a = lower b -> same_letter a b.
Proof.
  assert (SH : forall c, 65 <= nat_of_ascii c <= 90 -> lower c = ascii_of_nat (nat_of_ascii c + 32)).
  { intros c [A B]. unfold lower. apply Nat.leb_le in A, B. rewrite A, B. reflexivity. }
  assert (NO : forall c, ~ 65 <= nat_of_ascii c <= 90 -> lower c = c).
  { intros c H. unfold lower. destruct (Nat.leb_spec 65 (nat_of_ascii c)), (Nat.leb_spec (nat_of_ascii c) 90); cbn [andb]; [lia|reflexivity..]. }
  assert (BIG : forall c, 65 <= nat_of_ascii c <= 90 -> nat_of_ascii (lower c) = nat_of_ascii c + 32).
  { intros c H. rewrite SH by exact H. apply nat_ascii_embedding. lia. }
  intros a b E. destruct (le_dec 65 (nat_of_ascii a)) as [A1|A1]; [destruct (le_dec (nat_of_ascii a) 90) as [A2|A2]|].
  1: destruct (le_dec 65 (nat_of_ascii b)) as [B1|B1]; [destruct (le_dec (nat_of_ascii b) 90) as [B2|B2]|].
  - left. pose proof (BIG a (conj A1 A2)) as Ha. pose proof (BIG b (conj B1 B2)) as Hb. rewrite E in Ha.
    rewrite <- (ascii_nat_embedding a), <- (ascii_nat_embedding b). f_equal. lia.
  - right. pose proof (BIG a (conj A1 A2)) as Ha. rewrite E, NO in Ha by lia. exists (nat_of_ascii a - 65). lia.
  - right. pose proof (BIG a (conj A1 A2)) as Ha. rewrite E, NO in Ha by lia. exists (nat_of_ascii a - 65). lia.
  - rewrite (NO a) in E by lia. destruct (le_dec 65 (nat_of_ascii b)) as [B1|B1]; [destruct (le_dec (nat_of_ascii b) 90) as [B2|B2]|].
    + right. pose proof (BIG b (conj B1 B2)) as Hb. rewrite <- E in Hb. exists (nat_of_ascii b - 65). lia.
    + left. rewrite NO in E by lia. exact E.
    + left. rewrite NO in E by lia. exact E.
  - rewrite (NO a) in E by lia. destruct (le_dec 65 (nat_of_ascii b)) as [B1|B1]; [destruct (le_dec (nat_of_ascii b) 90) as [B2|B2]|].
    + right. pose proof (BIG b (conj B1 B2)) as Hb. rewrite <- E in Hb. exists (nat_of_ascii b - 65). lia.
    + left. rewrite NO in E by lia. exact E.
    + left. rewrite NO in E by lia. exact E.
Qed.
Lemma word_lower : forall s t, same_word s t <-> map lower s = map lower t.
Proof.
  intros s. induction s as [|a s IH]; intros t; split.
  - intros H. inversion H. reflexivity.
  - intros H. destruct t; [constructor|discriminate H].
  - intros H. inversion H as [|? b ? t' H1 H2]; subst. cbn [map]. f_equal; [apply lower_same; exact H1|apply IH; exact H2].
  - intros H. destruct t as [|b t]; [discriminate H|]. cbn [map] in H. injection H as H1 H2. constructor; [apply lower_inv; exact H1|apply IH; exact H2].
Qed.
Lemma find_sound : forall t s f, find_function t s = Some f -> In (s, f) t.
Proof.
  intros t s f. induction t as [|[n g] t IH]; intros H; [discriminate|]. cbn [find_function] in H. destruct (streq s n) eqn:E.
  - apply streq_spec in E. injection H as <-. left. congruence.
  - right. exact (IH H).
Qed.
Lemma table_names : forall s f, In (s, f) table -> s = map lower (matlab_name f).
Proof. intros s f H. cbn in H. repeat (destruct H as [H|H]; [injection H as <- <-; reflexivity|]). destruct H. Qed.

Lemma arity_parameters : forall f, arity f = length (parameters f).
Proof. destruct f; reflexivity. Qed.
(** A call does what is named, however the name is capitalised, exactly if the number of arguments is right. *)
Theorem C91_names : forall name k f, mexFunction name k = Calls f <-> same_word name (matlab_name f) /\ k = length (parameters f).
Proof.
  intros name k f. rewrite <- arity_parameters. unfold mexFunction. split.
  - intros H. destruct (S k <? 2); [discriminate|]. destruct (find_function table (map lower name)) as [g|] eqn:F; [|discriminate].
    destruct (Nat.eqb_spec k (arity g)) as [E|]; [|discriminate]. injection H as ->. split; [|exact E]. apply word_lower. apply table_names. apply find_sound. exact F.
  - intros [W ->]. destruct (Nat.ltb_spec (S (arity f)) 2) as [L|_]; [destruct f; cbn in L; lia|]. apply word_lower in W. rewrite W.
    assert (F : find_function table (map lower (matlab_name f)) = Some f) by (destruct f; reflexivity). rewrite F, Nat.eqb_refl. reflexivity.
Qed.
(** A known name with another number of arguments is an error, *)
Theorem C91_arguments : forall name k f, same_word name (matlab_name f) -> k <> length (parameters f) -> mexFunction name k = MexError.
Proof.
  intros name k f W N. rewrite <- arity_parameters in N. unfold mexFunction. destruct (S k <? 2); [reflexivity|]. apply word_lower in W. rewrite W.
  assert (F : find_function table (map lower (matlab_name f)) = Some f) by (destruct f; reflexivity). rewrite F.
  destruct (Nat.eqb_spec k (arity f)); [contradiction|reflexivity].
Qed.
(** while an unknown name only gives a warning (and no result). *)
Theorem C91_unknown_refuted : exists name, (forall f, ~ same_word name (matlab_name f)) /\ mexFunction name 1 = Unsupported.
Proof. exists (str "cocoProblemGetIdx"). split; [|reflexivity]. intros f W. apply word_lower in W. destruct f; discriminate W. Qed.
(** Handles denote the object they were made for, on all platforms; the null pointer at the end of a suite is recognised. *)
Theorem C91_handles : forall w a, w <= 8 -> (a < 256 ^ N.of_nat w)%N ->
  exists h, new_handle w a = Ok h /\ length h = 8 /\ from_handle w h = Ok a /\ cocoProblemIsValid w h = Ok (negb (a =? 0)%N).
Proof.
  intros w a W A. exists (bytes w a ++ skipn w (repeat 0%N 8)). unfold new_handle, store. rewrite repeat_length.
  destruct (Nat.ltb_spec 8 w); [lia|]. split; [reflexivity|].
  assert (L : length (bytes w a ++ skipn w (repeat 0%N 8)) = 8) by (rewrite app_length, bytes_length, skipn_length, repeat_length; lia).
  split; [exact L|]. assert (F : from_handle w (bytes w a ++ skipn w (repeat 0%N 8)) = Ok a).
  { unfold from_handle, load. rewrite L. destruct (Nat.ltb_spec 8 w); [lia|].
    rewrite firstn_app, bytes_length, Nat.sub_diag, firstn_O, app_nil_r, firstn_all2 by (rewrite bytes_length; lia). rewrite value_bytes by exact A. reflexivity. }
  split; [exact F|]. unfold cocoProblemIsValid. rewrite F. reflexivity.
Qed.
(** Integer results are right where size_t has four bytes. *)
Theorem C91_integers : forall v, (v < 2 ^ 31)%N -> exists b, integer_result 4 v = Ok b /\ length b = 4 /\ int32 b v.
Proof.
  intros v H. exists (bytes 4 v). unfold integer_result, store. cbn [repeat length Nat.ltb Nat.leb skipn]. rewrite app_nil_r. split; [reflexivity|].
  split; [apply bytes_length|]. split; [|exact H]. apply value_bytes. change (256 ^ N.of_nat 4)%N with 4294967296%N. change (2 ^ 31)%N with 2147483648%N in H. lia.
Qed.
(** Deviation: where it has eight (all 64-bit platforms), each of them writes behind the end of the new array; the eight bytes written are
    those of the result followed, for results below 2^32, by four zeros. *)
Theorem C91_integers_refuted : forall v, integer_result 8 v = UB.
Proof. reflexivity. Qed.
Theorem C91_overrun : forall v, (v < 2 ^ 32)%N -> bytes 8 v = bytes 4 v ++ [0; 0; 0; 0]%N.
Proof.
  intros v H. cbn [bytes app]. rewrite !N.div_div by lia. change (256 * 256)%N with 65536%N. repeat f_equal.
  all: change (2 ^ 32)%N with 4294967296%N in H.
  all: try (rewrite N.div_small; [reflexivity|lia]).
Qed.
Example C91_example : same_word (str "COCOproblemGETdimension") (matlab_name GetDimension) /\
  mexFunction (str "COCOproblemGETdimension") 1 = Calls GetDimension /\ (140723412341234 < 256 ^ N.of_nat 8)%N /\
  match integer_result 4 40 with Ok b => b = [40; 0; 0; 0]%N | _ => False end.
Proof. split; [apply word_lower; reflexivity|]. split; [reflexivity|]. split; reflexivity. Qed.

Print Assumptions C91_names.
Print Assumptions C91_arguments.
Print Assumptions C91_unknown_refuted.
Print Assumptions C91_handles.
Print Assumptions C91_integers.
Print Assumptions C91_integers_refuted.
Print Assumptions C91_overrun.
