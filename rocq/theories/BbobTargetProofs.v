(** The target triggers of the bbob logger. *)
From Coq Require Import List Arith NArith ZArith Reals Bool Lia Lra Sorted.
From Flocq Require Import Core BinarySingleNaN.
Import ListNotations.
From Verif Require Import CBase DblModel DblSpec DblProofs TrigModel TrigSpec ProbModel ProbSpec ProbProofs
  BbobModel BbobSpec BbobProofs BbobFileProofs BbobRunProofs.
Open Scope nat_scope.

(** The target trigger is the disjunction of the two triggers. *)
Lemma consult_targets : forall log10 pow10 vs li lg bs t,
  consult (targets_trigger log10 pow10) {| linear := li; logarithmic := Some lg |} vs = Ok (bs, t) ->
  exists bl bg tl tg, consult lin_targets_trigger li vs = Ok (bl, tl) /\
    consult (log_targets_trigger log10 pow10) lg vs = Ok (bg, tg) /\
    forall i, nth_error bs i = Some true <-> nth_error bl i = Some true \/ nth_error bg i = Some true.
Proof.
  intros log10 pow10. induction vs as [|v vs IH]; intros li lg bs t H; cbn [consult] in *.
  - assert (bs = []) by congruence. subst bs. exists [], [], li, lg. split; [reflexivity|]. split; [reflexivity|].
    intros [|i]; cbn; split; try tauto; intros K; discriminate K.
  - apply bind_Ok in H as [[b s1] [E H]]. apply bind_Ok in H as [[bs' s2] [E' H]].
    assert (bs = b :: bs') by congruence. subst bs. clear H.
    unfold targets_trigger in E. cbn [logarithmic linear] in E.
    apply bind_Ok in E as [[b1 lg'] [E1 E]]. apply bind_Ok in E1 as [[b1' lg1] [G E1]].
    assert (b1' = b1) by congruence. assert (lg' = Some lg1) by congruence. subst b1' lg'. clear E1.
    apply bind_Ok in E as [[b2 li1] [L E]]. assert (b = b1 || b2) by congruence.
    apply Ok_pair_snd in E. subst b s1.
    destruct (IH _ _ _ _ E') as [bl [bg [tl [tg [Hl [Hg Hb]]]]]].
    exists (b2 :: bl), (b1 :: bg), tl, tg. rewrite L, G. cbn [bind]. rewrite Hl, Hg. cbn [bind].
    split; [reflexivity|]. split; [reflexivity|].
    intros [|i]; cbn [nth_error]; [|apply Hb]. destruct b1, b2; cbn; split; auto; intros [K|K]; discriminate K.
Qed.

Lemma consult_linear : forall log10 pow10 vs li bs t,
  consult (targets_trigger log10 pow10) {| linear := li; logarithmic := None |} vs = Ok (bs, t) ->
  exists tl, consult lin_targets_trigger li vs = Ok (bs, tl).
Proof.
  intros log10 pow10. induction vs as [|v vs IH]; intros li bs t H; cbn [consult] in *.
  - assert (bs = []) by congruence. subst bs. exists li. reflexivity.
  - apply bind_Ok in H as [[b s1] [E H]]. apply bind_Ok in H as [[bs' s2] [E' H]].
    assert (bs = b :: bs') by congruence. subst bs. clear H.
    unfold targets_trigger in E. cbn [logarithmic linear bind orb] in E.
    apply bind_Ok in E as [[b2 li1] [L E]]. assert (b = b2) by congruence.
    apply Ok_pair_snd in E. subst b s1. destruct (IH _ _ _ E') as [tl Hl].
    exists tl. rewrite L. cbn [bind]. rewrite Hl. reflexivity.
Qed.

Lemma in_pick : forall ks bs k, In k (pick ks bs) <-> exists i, nth_error ks i = Some k /\ nth_error bs i = Some true.
Proof.
  induction ks as [|a ks IH]; intros bs k.
  - cbn. split; [intros []|]. intros [[|i] [E _]]; discriminate E.
  - destruct bs as [|b bs].
    + cbn. split; [intros []|]. intros [[|i] [_ E]]; discriminate E.
    + replace (pick (a :: ks) (b :: bs)) with ((if b then [a] else []) ++ pick ks bs) by (destruct b; reflexivity).
      rewrite in_app_iff, IH. split.
      * intros [H|[i H]]; [destruct b; [destruct H as [->|[]]; exists 0; auto|destruct H]|exists (S i); exact H].
      * intros [[|i] [E1 E2]]; cbn [nth_error] in *; [left|right; exists i; auto].
        assert (b = true) by congruence. subst b. left. congruence.
Qed.

Lemma increasing_nth : forall ks i j a b, increasing ks -> nth_error ks i = Some a -> nth_error ks j = Some b ->
  (i < j <-> a < b).
Proof.
  unfold increasing. induction ks as [|k ks IH]; intros i j a b S Ea Eb; [destruct i; discriminate Ea|].
  inversion S as [|? ? S1 S2]; subst. pose proof (proj1 (Forall_forall _ _) S2) as S3.
  destruct i as [|i], j as [|j]; cbn [nth_error] in *.
  - assert (a = b) by congruence. lia.
  - assert (k = a) by congruence. subst k. apply nth_error_In, S3 in Eb. lia.
  - assert (k = b) by congruence. subst k. apply nth_error_In, S3 in Ea. lia.
  - rewrite <- (IH i j a b); auto. lia.
Qed.

Lemma marks_new : forall m opt xs key limit ks vs bs, increasing ks ->
  (forall k, In k ks <-> 2 <= k /\ improves m xs k) -> gaps_are m opt xs ks vs -> marks key limit vs bs ->
  forall k, (exists i, nth_error ks i = Some k /\ nth_error bs i = Some true) <->
            (2 <= k /\ improves m xs k /\ new_at m opt xs key limit k).
Proof.
  intros m opt xs key limit ks vs bs Inc Iff G [Len M] k.
  assert (Gn : forall i k, nth_error ks i = Some k -> exists x, nth_error xs (k - 1) = Some x /\ nth_error vs i = Some (dsub (m x) opt)).
  { clear - G. unfold gaps_are in G. induction G as [|a v ks vs [x [E1 E2]] G IH]; intros i k E; [destruct i; discriminate E|].
    destruct i as [|i]; cbn [nth_error] in *; [|apply IH; exact E]. assert (a = k) by congruence. subst a. exists x. split; congruence. }
  assert (Lv : length vs = length ks) by (symmetry; eapply Forall2_len; exact G).
  assert (Key : forall i k, nth_error ks i = Some k -> (nth_error bs i = Some true <-> new_at m opt xs key limit k)).
  { clear k. intros i k E. destruct (Gn i k E) as [x [Ex Ev]].
    assert (Hb : exists b, nth_error bs i = Some b).
    { destruct (nth_error bs i) as [b|] eqn:Eb; [eauto|exfalso]. apply nth_error_None in Eb.
      assert (i < length ks) by (apply nth_error_Some; congruence). lia. }
    destruct Hb as [b Eb]. rewrite Eb. specialize (M i _ b Ev Eb).
    assert (Q : Some b = Some true <-> b = true) by (split; congruence). rewrite Q, M. split.
    - intros [K1 K2]. exists x. split; [exact Ex|]. split; [exact K1|]. intros j x' Hj Im Ej.
      assert (Hin : In j ks) by (apply Iff; split; [lia|exact Im]).
      apply In_nth_error in Hin as [i' Ei']. destruct (Gn i' j Ei') as [x'' [Ex' Ev']].
      assert (x'' = x') by congruence. subst x''. apply (K2 i' _); [|exact Ev'].
      apply (increasing_nth ks i' i j k Inc Ei' E). lia.
    - intros [y [Ey [K1 K2]]]. assert (y = x) by congruence. subst y. split; [exact K1|].
      intros i' w Hi' Ew. assert (Hi'' : i' < length ks).
      { rewrite <- Lv. apply nth_error_Some. congruence. }
      destruct (nth_error ks i') as [j|] eqn:Ej; [|apply nth_error_None in Ej; lia].
      destruct (Gn i' j Ej) as [x' [Ex' Ev']]. assert (w = dsub (m x') opt) by congruence. subst w.
      assert (Hin : In j ks) by (eapply nth_error_In; exact Ej). apply Iff in Hin as [P Im].
      apply (K2 j x'); [|exact Im|exact Ex']. split; [exact P|]. apply (increasing_nth ks i' i j k Inc Ej E). exact Hi'. }
  split.
  - intros [i [E B]]. assert (Hin : In k ks) by (eapply nth_error_In; exact E). apply Iff in Hin as [P Im].
    split; [exact P|]. split; [exact Im|]. apply (Key i k E). exact B.
  - intros [P [Im Nw]]. assert (Hin : In k ks) by (apply Iff; auto). apply In_nth_error in Hin as [i E].
    exists i. split; [exact E|]. apply (Key i k E). exact Nw.
Qed.
