(** Proofs about the slots of the old bbob logger: five dimensions are safe in every order. *)
From Coq Require Import String List Arith NArith ZArith Ascii Bool Lia.
From Verif Require Import CBase StrModel OptModel FsModel FsSpec FsProofs IdModel IdSpec IdProofs DblModel BbobModel
  IndexModel IndexSpec IndexProofs IndexRunProofs OldIndexModel OldIndexSpec OldIndexProofs OldIndexRunProofs.
Import ListNotations.
Local Notation length := List.length.
Local Open Scope nat_scope.

Definition put (i : nat) (n : N) (l : list N) : list N := firstn i l ++ n :: skipn (S i) l.

Lemma put_left : forall i n a b, i < length a -> put i n (a ++ b) = put i n a ++ b.
Proof.
  intros i n a b H. unfold put. rewrite firstn_app, skipn_app. replace (i - length a) with 0 by lia. replace (S i - length a) with 0 by lia.
  cbn [firstn skipn]. rewrite app_nil_r, <- app_assoc. reflexivity.
Qed.
Lemma put_right : forall i n a b, length a <= i -> put i n (a ++ b) = a ++ put (i - length a) n b.
Proof.
  intros i n a b H. unfold put. rewrite firstn_app, skipn_app. rewrite firstn_all2, (skipn_all2 (n := S i)) by lia.
  replace (S i - length a) with (S (i - length a)) by lia. cbn [app]. rewrite <- app_assoc. reflexivity.
Qed.

Lemma scan_spec : forall l n, scan l n <= length l /\ (forall j, j < scan l n -> nth j l 0%N <> 0%N /\ nth j l 0%N <> n) /\
  (scan l n < length l -> nth (scan l n) l 0%N = 0%N \/ nth (scan l n) l 0%N = n).
Proof.
  induction l as [|a l IH]; intros n; cbn [scan length].
  - split; [lia|]. split; [lia|lia].
  - destruct (N.eqb_spec a 0) as [->|Na]; cbn [orb].
    + split; [lia|]. split; [lia|]. cbn [nth]. auto.
    + destruct (N.eqb_spec a n) as [->|Nn].
      * split; [lia|]. split; [lia|]. cbn [nth]. auto.
      * destruct (IH n) as (I1 & I2 & I3). split; [lia|]. split.
        -- intros [|j] J; cbn [nth]; [auto|]. apply I2. lia.
        -- intros J. cbn [nth]. apply I3. lia.
Qed.

(** All slots but one hold different dimensions and then zeros. *)
Definition tidy (vals slots : list N) : Prop :=
  exists a x b l k, slots = a ++ x :: b /\ a ++ b = l ++ repeat 0%N k /\ NoDup l /\ ~ In 0%N l /\ incl l vals.

Lemma first_zero : forall l k i, ~ In 0%N l -> i < length (l ++ repeat 0%N k) -> (forall j, j < i -> nth j (l ++ repeat 0%N k) 0%N <> 0%N) ->
  nth i (l ++ repeat 0%N k) 0%N = 0%N -> i = length l /\ 0 < k.
Proof.
  intros l k i NI L H Z. rewrite app_length, repeat_length in L. destruct (Nat.lt_trichotomy i (length l)) as [C|[C|C]].
  - exfalso. rewrite app_nth1 in Z by exact C. apply NI. rewrite <- Z. apply nth_In. exact C.
  - lia.
  - exfalso. apply (H (length l) C). rewrite app_nth2, Nat.sub_diag by lia. destruct k; reflexivity.
Qed.

Lemma put_tidy : forall l k n, 0 < k -> put (length l) n (l ++ repeat 0%N k) = (l ++ [n]) ++ repeat 0%N (k - 1).
Proof.
  intros l k n K. rewrite put_right, Nat.sub_diag by lia. destruct k; [lia|]. cbn [repeat put firstn skipn app].
  replace (S k - 1) with k by lia. rewrite <- app_assoc. reflexivity.
Qed.

Lemma grow : forall vals l n, NoDup l -> ~ In 0%N l -> incl l vals -> n <> 0%N -> In n vals -> ~ In n l ->
  NoDup (l ++ [n]) /\ ~ In 0%N (l ++ [n]) /\ incl (l ++ [n]) vals.
Proof.
  intros vals l n ND N0 Inc Nn V NI. split; [|split].
  - apply NoDup_rev in ND. rewrite <- (rev_involutive (l ++ [n])). apply NoDup_rev. rewrite rev_app_distr. cbn [rev app]. constructor; [|exact ND].
    rewrite <- in_rev. exact NI.
  - rewrite in_app_iff. cbn [In]. intros [I|[E|[]]]; [contradiction|congruence].
  - intros y I. apply in_app_iff in I as [I|[->|[]]]; [apply Inc; exact I|exact V].
Qed.

Lemma tidy_store : forall vals slots n, length slots = 6 -> tidy vals slots -> n <> 0%N -> In n vals ->
  let i := scan slots n in i < 6 -> nth i slots 0%N = 0%N -> tidy vals (put i n slots).
Proof.
  intros vals slots n L (a & x & b & l & k & -> & E & ND & N0 & Inc) Nn V i Li Z.
  destruct (scan_spec (a ++ x :: b) n) as (_ & S2 & _). fold i in S2.
  assert (Ll : length (a ++ b) = 5) by (rewrite app_length in L |- *; cbn [length] in L; lia).
  destruct (Nat.lt_trichotomy i (length a)) as [C|[C|C]].
  - rewrite app_nth1 in Z by exact C.
    assert (P : forall j, j < i -> nth j (l ++ repeat 0%N k) 0%N <> 0%N /\ nth j (l ++ repeat 0%N k) 0%N <> n).
    { intros j J. rewrite <- E, app_nth1 by lia. specialize (S2 j J). rewrite app_nth1 in S2 by lia. exact S2. }
    destruct (first_zero l k i N0) as [Ei K].
    + rewrite <- E, app_length. lia.
    + intros j J. apply P. exact J.
    + rewrite <- E, app_nth1 by exact C. exact Z.
    + destruct (grow vals l n ND N0 Inc Nn V) as (G1 & G2 & G3).
      { intros I. apply In_nth with (d := 0%N) in I as (j & J & Q). apply (P j ltac:(lia)). rewrite app_nth1 by exact J. exact Q. }
      exists (put i n a), x, b, (l ++ [n]), (k - 1). rewrite put_left by exact C. split; [reflexivity|].
      rewrite <- put_left by exact C. rewrite E, Ei. rewrite put_tidy by exact K. auto.
  - rewrite put_right by lia. rewrite C, Nat.sub_diag. exists a, n, b, l, k. cbn [put firstn skipn app]. auto.
  - assert (P : forall j, j < i - 1 -> nth j (l ++ repeat 0%N k) 0%N <> 0%N /\ nth j (l ++ repeat 0%N k) 0%N <> n).
    { intros j J. rewrite <- E. destruct (Nat.lt_ge_cases j (length a)) as [Q|Q].
      - rewrite app_nth1 by lia. specialize (S2 j ltac:(lia)). rewrite app_nth1 in S2 by lia. exact S2.
      - rewrite app_nth2 by lia. specialize (S2 (S j) ltac:(lia)). rewrite app_nth2 in S2 by lia.
        replace (S j - length a) with (S (j - length a)) in S2 by lia. exact S2. }
    rewrite app_nth2 in Z by lia. destruct (i - length a) as [|m] eqn:M; [lia|]. cbn [nth] in Z.
    destruct (first_zero l k (i - 1) N0) as [Ei K].
    + rewrite <- E. lia.
    + intros j J. apply P. exact J.
    + rewrite <- E, app_nth2 by lia. replace (i - 1 - length a) with m by lia. exact Z.
    + destruct (grow vals l n ND N0 Inc Nn V) as (G1 & G2 & G3).
      { intros I. apply In_nth with (d := 0%N) in I as (j & J & Q). apply (P j ltac:(lia)). rewrite app_nth1 by exact J. exact Q. }
      exists a, x, (put m n b), (l ++ [n]), (k - 1). rewrite put_right by lia. rewrite M.
      split; [reflexivity|]. replace m with (i - 1 - length a) by lia. rewrite <- put_right by lia. rewrite E, Ei. rewrite put_tidy by exact K. auto.
Qed.

Lemma tidy_found : forall vals slots n, length slots = 6 -> length vals <= 5 -> tidy vals slots -> n <> 0%N -> In n vals ->
  scan slots n < 6.
Proof.
  intros vals slots n L LV (a & x & b & l & k & -> & E & ND & N0 & Inc) Nn V.
  destruct (scan_spec (a ++ x :: b) n) as (S1 & S2 & _). set (i := scan (a ++ x :: b) n) in *.
  destruct (Nat.eq_dec i 6) as [E6|]; [|lia]. exfalso. rewrite E6 in S2.
  assert (La : length a + length b = 5) by (rewrite app_length in L; cbn [length] in L; lia).
  assert (P : forall j, j < 5 -> nth j (l ++ repeat 0%N k) 0%N <> 0%N /\ nth j (l ++ repeat 0%N k) 0%N <> n).
  { intros j J. rewrite <- E. destruct (Nat.lt_ge_cases j (length a)) as [Q|Q].
    - rewrite app_nth1 by lia. specialize (S2 j ltac:(lia)). rewrite app_nth1 in S2 by lia. exact S2.
    - rewrite app_nth2 by lia. specialize (S2 (S j) ltac:(lia)). rewrite app_nth2 in S2 by lia.
      replace (S j - length a) with (S (j - length a)) in S2 by lia. exact S2. }
  assert (Ll : length l + k = 5) by (apply (f_equal (@length N)) in E; rewrite !app_length, repeat_length in E; lia).
  assert (K0 : k = 0).
  { destruct k; [reflexivity|]. exfalso. apply (proj1 (P (length l) ltac:(lia))). rewrite app_nth2, Nat.sub_diag by lia. reflexivity. }
  subst k.
  assert (NI : ~ In n l).
  { intros I. apply In_nth with (d := 0%N) in I as (j & J & Q). apply (P j ltac:(lia)). rewrite app_nth1 by exact J. exact Q. }
  assert (NoDup (n :: l)) as ND' by (constructor; assumption).
  assert (incl (n :: l) vals) as Inc' by (intros y [<-|I]; [exact V|apply Inc; exact I]).
  pose proof (NoDup_incl_length ND' Inc') as Q. cbn [length] in Q. lia.
Qed.

Lemma tidy_reset : forall vals i n, i < 6 -> tidy vals (put i n (repeat 0%N 6)).
Proof.
  intros vals i n H. exists (repeat 0%N i), n, (repeat 0%N (5 - i)), [], 5. split; [|split; [|split; [constructor|split; [cbn; tauto|intros y []]]]].
  - do 6 (destruct i as [|i]; [reflexivity|]). lia.
  - do 6 (destruct i as [|i]; [reflexivity|]). lia.
Qed.

Lemma put_length : forall i n l, i < length l -> length (put i n l) = length l.
Proof. intros i n l H. unfold put. rewrite app_length, firstn_length. cbn [length]. rewrite skipn_length. lia. Qed.

Section Runs.
Variable dec : N -> cstr.
Hypothesis Hdec : decimals dec.
Variables e12 e1 e9 e4 : double -> cstr.
Variable version : cstr.
Variable refused : disk -> cstr -> bool.
Variable o : observer.
Hypothesis Hfits : fits o.
Variable vals : list N.
Hypothesis Hvals : length vals <= 5.

Definition safe (g : globals) : Prop :=
  is_open g = false /\ (first_instance g < 2 ^ 64)%N /\ length (dimensions g) = 6 /\ tidy vals (dimensions g).

Lemma decide_safe : forall g r first, safe g -> (0 < dimension r)%N -> In (dimension r) vals -> (first < 2 ^ 64)%N -> (instance r < 2 ^ 64)%N ->
  exists nl i dims, decide g r first = Ok (nl, i, dims) /\ (i < 2 ^ 64)%N /\ length dims = 6 /\ tidy vals dims.
Proof.
  clear Hfits Hdec. intros g r first (G & _ & L & T) P V F I. unfold decide. destruct (current_dim g =? dimension r)%N.
  - exists (negb (current_fun g =? function r)%N), first, (dimensions g). auto.
  - cbv zeta. rewrite L. pose proof (tidy_found vals (dimensions g) (dimension r) L Hvals T ltac:(lia) V) as Sc.
    pose proof (tidy_store vals (dimensions g) (dimension r) L T ltac:(lia) V Sc) as St. cbv zeta in St.
    set (i := scan (dimensions g) (dimension r)) in *. destruct (Nat.ltb_spec i 6) as [_|]; [|lia]. cbn [andb].
    destruct (N.eqb_spec (nth i (dimensions g) 0%N) 0) as [Z|Z].
    + unfold store. rewrite L. destruct (Nat.ltb_spec i 6) as [_|]; [|lia]. cbn [bind]. do 3 eexists. split; [reflexivity|].
      fold (put i (dimension r) (dimensions g)). rewrite put_length by lia. auto.
    + unfold store. rewrite repeat_length. destruct (Nat.ltb_spec i 6) as [_|]; [|lia]. cbn [bind]. do 3 eexists. split; [reflexivity|].
      fold (put i (dimension r) (repeat 0%N 6)). rewrite put_length by (rewrite repeat_length; lia). rewrite repeat_length. auto using tidy_reset.
Qed.

Lemma writes_safe : forall i start nl r n diff f d, writes dec e12 e1 e9 e4 version refused o i start nl r n diff f d <> UB.
Proof.
  clear Hfits Hdec. intros i start nl r n diff f d. unfold writes. cbv zeta.
  do 4 match goal with |- bind (old_open_file ?r ?d ?p) _ <> _ => unfold old_open_file at 1; destruct (r d p); cbn [bind]; [discriminate|] end.
  discriminate.
Qed.

Theorem old_memory : forall rs g d, Forall ordinary rs -> Forall (fun r => observed r = true -> In (dimension r) vals) rs -> safe g ->
  old_campaign e12 e1 e9 e4 version refused o g d rs <> UB.
Proof.
  induction rs as [|r rs IH]; intros g d Ord V S; cbn [old_campaign]; [discriminate|].
  inversion Ord as [|? ? Or Ord']; subst. inversion V as [|? ? Vr V']; subst.
  destruct (observed r) eqn:O.
  - pose proof O as O'. unfold observed in O'. destruct (outcome r) as [[[n diff] f]|] eqn:Oc; [|discriminate].
    destruct S as (G & F & L & T). pose proof (run_eq dec Hdec e12 e1 e9 e4 version refused o Hfits g d r n diff f Or Oc G F) as Q.
    cbv zeta in Q. rewrite Q. clear Q. destruct Or as [(_ & _ & P & I & _) _].
    assert (TF : (the_first g r < 2 ^ 64)%N) by (unfold the_first; destruct (_ =? _)%N; assumption).
    destruct (_ && _ && _).
    + pose proof (writes_safe (the_first g r) false false r n diff f d) as W.
      destruct (writes _ _ _ _ _ _ _ _ _ _ _ _ _ _ _ _) as [d'| |]; cbn [bind]; [|discriminate|congruence].
      apply IH; auto. unfold safe, after. cbn [is_open first_instance dimensions]. auto.
    + destruct (decide_safe g r (the_first g r) (conj G (conj F (conj L T))) P (Vr eq_refl) TF I) as (nl & i & dims & -> & Hi & Ld & Td).
      cbn [bind]. match goal with |- context [writes _ _ _ _ _ _ _ _ ?i true ?b r n diff f d] => pose proof (writes_safe i true b r n diff f d) as W end.
      destruct (writes _ _ _ _ _ _ _ _ _ _ _ _ _ _ _ _) as [d'| |]; cbn [bind]; [|discriminate|congruence].
      apply IH; auto. unfold safe, after. cbn [is_open first_instance dimensions]. auto.
  - destruct S as (G & Q). unfold old_run_problem at 1, old_construct. rewrite G. cbn [bind]. unfold observed in O. destruct (outcome r); [discriminate|].
    cbn [bind]. rewrite set_open_same by exact G. apply IH; auto. split; assumption.
Qed.

Lemma fresh_safe : safe fresh_process.
Proof.
  clear Hfits Hdec. unfold safe, fresh_process. cbn [is_open first_instance dimensions]. split; [reflexivity|]. split; [reflexivity|]. split; [reflexivity|].
  exists [], 0%N, (repeat 0%N 5), [], 5. split; [reflexivity|]. split; [reflexivity|]. split; [constructor|]. split; [cbn; tauto|intros y []].
Qed.
End Runs.
