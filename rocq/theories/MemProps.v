(** C74: problems own their memory. *)
From Coq Require Import List Arith Bool Lia.
From Verif Require Import CBase MemModel MemSuiteModel MemSpec MemProofs MemBuildProofs MemBuild2Proofs MemSuiteProofs MemSuite2Proofs MemSessionProofs.
Import ListNotations.
Local Open Scope nat_scope.

(** Any problem of any suite can be fetched in any heap and freed again: no block is used after it
    is freed, freed twice or leaked, except the rows of new bi-objective instances. *)
Theorem C74_problem_memory : forall null_ok r h, valid r -> (prints_null r = true -> null_ok = true) ->
  exists p h1, get_problem null_ok r h = Ok (p, h1) /\ untouched h h1 /\ no_dangling h h1 /\
  exists h2, coco_problem_free p h1 = Ok (tt, h2) /\ untouched h h2 /\ no_dangling h h2 /\
             live_since h h2 = lost_by_fetch r.
Proof.
  intros null_ok r h V PN.
  assert (W : wp (get_problem null_ok r) (fun p h1 => untouched h h1 /\ no_dangling h h1 /\
    exists h2, coco_problem_free p h1 = Ok (tt, h2) /\ untouched h h2 /\ no_dangling h h2 /\
               live_since h h2 = lost_by_fetch r) h).
  { eapply (offers_get_problem null_ok r V PN); [apply spans_start|].
    intros p q B lost h1 O H SH LL NN OB K. rewrite app_nil_r in H. split; [eapply spans_untouched; exact H|]. split.
    - eapply spans_dangling; [exact H|]. apply shut_app.
      + eapply shut_sub; [eapply own_shut; apply ownb_own; exact O|]. lite.
      + eapply shut_sub; [exact SH|]. lite.
    - assert (W : wp (coco_problem_free p) (fun _ h2 => untouched h h2 /\ no_dangling h h2 /\
        live_since h h2 = lost_by_fetch r) h1).
      { eapply (wp_problem_free true); [apply ownb_own; exact O|exact H|]. intros h2 H2 K2.
        split; [eapply spans_untouched; exact H2|]. split.
        - eapply spans_dangling; [exact H2|]. eapply shut_keeps; [exact SH|exact K2].
        - rewrite (spans_live _ _ _ H2). exact LL. }
      destruct W as [[] [h2 [E W]]]. exists h2. split; [exact E|exact W]. }
  destruct W as [p [h1 [E W]]]. exists p, h1. split; [exact E|exact W].
Qed.

(** The same for any number of problems fetched, observed, unobserved and freed in any order. *)
Theorem C74_session : forall null_ok cs h, all_allowed null_ok cs [] ->
  exists l h', session null_ok cs [] h = Ok (l, h') /\ untouched h h' /\ no_dangling h h' /\
    (forall i, (exists p, nth_error l i = Some (Some p)) <-> (exists x, nth_error (final_status cs []) i = Some (Some x))) /\
    lost_in cs [] <= live_since h h' /\
    (Forall (fun x => x = None) (final_status cs []) -> live_since h h' = lost_in cs []).
Proof.
  intros null_ok cs h A.
  assert (W : wp (session null_ok cs []) (fun l h' => untouched h h' /\ no_dangling h h' /\
    (forall i, (exists p, nth_error l i = Some (Some p)) <-> (exists x, nth_error (final_status cs []) i = Some (Some x))) /\
    lost_in cs [] <= live_since h h' /\
    (Forall (fun x => x = None) (final_status cs []) -> live_since h h' = lost_in cs [])) h).
  { eapply (wp_session null_ok cs h h [] [] 0).
    - exists [] []; [constructor|apply shut_nil|reflexivity|apply spans_start].
    - exact A.
    - intros l h' [Ss lost HD SH LL SP]. rewrite Nat.add_0_r in LL. split; [eapply spans_untouched; exact SP|]. split; [|split; [|split]].
      + eapply spans_dangling; [exact SP|]. apply shut_app.
        * eapply shut_sub; [eapply held_shut; exact HD|]. lite.
        * eapply shut_sub; [exact SH|]. lite.
      + clear - HD. induction HD as [|o x S l s Ss E HD IH]; intros [|i].
        * split; intros [? X]; discriminate X.
        * split; intros [? X]; discriminate X.
        * cbn [nth_error]. destruct E as [|p q S b n O]; [split; intros [? X]; discriminate X|].
          split; intros _; [exists (b, n)|exists p]; reflexivity.
        * apply IH.
      + rewrite (spans_live _ _ _ SP), app_length. lia.
      + intro F. rewrite (spans_live _ _ _ SP), app_length, LL.
        assert (Z : length (concat Ss) = 0); [|lia].
        clear - HD F. induction HD as [|o x S l s Ss E HD IH]; [reflexivity|].
        inversion F as [|? ? F1 F2]; subst. inversion E; subst. cbn [concat app]. apply IH. exact F2. }
  destruct W as [l [h' [E W]]]. exists l, h'. split; [exact E|exact W].
Qed.

(** Single-objective suites: nothing is lost. *)
Theorem C74_single_objective_session : forall null_ok cs h, all_allowed null_ok cs [] ->
  Forall (fun c => match c with Fetch r => two_objectives r = false | _ => True end) cs ->
  Forall (fun x => x = None) (final_status cs []) ->
  exists l h', session null_ok cs [] h = Ok (l, h') /\ untouched h h' /\ live_since h h' = 0.
Proof.
  intros null_ok cs h A S F. destruct (C74_session null_ok cs h A) as [l [h' [E [U [_ [_ [_ L]]]]]]].
  exists l, h'. split; [exact E|]. split; [exact U|]. rewrite (L F). apply single_lost; [constructor|exact S].
Qed.

(** Deviation: every logger attached to a bi-objective problem loses one block, although the
    problem is freed (src/coco_problem.c 250-251). *)
Lemma observed_status : forall ks n, final_status (map (Observe 0) ks) [Some (true, n)] = [Some (true, length ks + n)].
Proof.
  induction ks as [|k ks IH]; intro n; [reflexivity|]. cbn [map final_status next_status nth_error set_status].
  rewrite IH. cbn [length]. rewrite Nat.add_succ_r. reflexivity.
Qed.
Lemma observed_more : forall ks cs n, final_status (map (Observe 0) ks ++ cs) [Some (true, n)] = final_status cs [Some (true, length ks + n)].
Proof.
  induction ks as [|k ks IH]; intros cs n; [reflexivity|]. cbn [map app final_status next_status nth_error set_status].
  rewrite IH. cbn [length]. rewrite Nat.add_succ_r. reflexivity.
Qed.
Lemma observed_lost : forall ks cs n, lost_in (map (Observe 0) ks ++ cs) [Some (true, n)] = length ks + lost_in cs [Some (true, length ks + n)].
Proof.
  induction ks as [|k ks IH]; intros cs n; [reflexivity|]. cbn [map app lost_in next_status lost_by nth_error set_status].
  rewrite IH. cbn [length]. rewrite Nat.add_succ_r. reflexivity.
Qed.
Lemma observed_allowed : forall null_ok ks cs n, all_allowed null_ok cs [Some (true, length ks + n)] ->
  all_allowed null_ok (map (Observe 0) ks ++ cs) [Some (true, n)].
Proof.
  induction ks as [|k ks IH]; intros cs n A; [exact A|]. cbn [map app all_allowed next_status allowed nth_error set_status].
  split; [eexists; reflexivity|]. apply IH. rewrite Nat.add_succ_r. exact A.
Qed.
Theorem C74_observing_loses_refuted : forall null_ok r ks h, valid r -> two_objectives r = true ->
  exists l h', session null_ok (Fetch r :: map (Observe 0) ks ++ [Free 0]) [] h = Ok (l, h') /\
    live_since h h' = lost_by_fetch r + length ks.
Proof.
  intros null_ok r ks h V TW.
  assert (PN : prints_null r = true -> null_ok = true) by (destruct r; cbn in *; congruence).
  destruct (C74_session null_ok (Fetch r :: map (Observe 0) ks ++ [Free 0]) h) as [l [h' [E [_ [_ [_ [_ L]]]]]]].
  - cbn [all_allowed allowed next_status app]. split; [split; assumption|]. rewrite TW. apply observed_allowed.
    cbn [all_allowed allowed nth_error]. split; [eexists; reflexivity|exact I].
  - exists l, h'. split; [exact E|]. rewrite L.
    + cbn [lost_in lost_by next_status app]. rewrite TW, observed_lost. cbn [lost_in lost_by]. lia.
    + cbn [final_status next_status app]. rewrite TW, observed_more. cbn [final_status next_status set_status].
      constructor; [reflexivity|constructor].
Qed.

(** Deviation: fetching a bi-objective problem whose instance is not tabulated loses blocks. *)
Theorem C74_new_instance_loses_refuted : forall null_ok f1 f2 d n l h,
  between 1 24 f1 -> between 1 24 f2 -> Forall valid_check l ->
  exists p h1 h2, get_problem null_ok (Biobj f1 f2 d (Some (n, l))) h = Ok (p, h1) /\
    coco_problem_free p h1 = Ok (tt, h2) /\ live_since h h2 = 1 + n.
Proof.
  intros null_ok f1 f2 d n l h V1 V2 V3.
  destruct (C74_problem_memory null_ok (Biobj f1 f2 d (Some (n, l))) h) as [p [h1 [E [_ [_ [h2 [E2 [_ [_ L]]]]]]]]].
  - exact (conj V1 (conj V2 V3)).
  - discriminate.
  - exists p, h1, h2. split; [exact E|]. split; [exact E2|exact L].
Qed.

(** Deviation: every constrained problem prints a name that is NULL, which the C standard leaves
    undefined (src/c_linear.c, src/coco_problem.c 849-874). *)
Theorem C74_constrained_missing_name_refuted : forall k first l d h, between 1 9 k ->
  get_problem false (Constrained k first l d) h = UB.
Proof. intros k first l d h B. exact (dies_constrained k first l d h B). Qed.

(** Concrete instances meeting the hypotheses. *)
Example C74_valid : valid (Bbob 21 5) /\ valid (Constrained 3 true [false; true] 2) /\
  valid (BiobjMixint 1 24 5 (Some (3, [(2, 1, 2)]))).
Proof.
  unfold valid, valid_instance, between. repeat split; try lia. constructor; [|constructor]. cbn. unfold between. lia.
Qed.
Definition plan : list command :=
  [Fetch (Bbob 21 2); Fetch (Biobj 1 2 2 (Some (2, [(2, 1, 2)]))); Observe 1 3; Observe 0 2; Observe 1 1; Unobserve 1;
   Free 0; Fetch (Mixint 15 2); Free 1; Free 2].
Example C74_session_ex : all_allowed false plan [] /\ final_status plan [] = [None; None; None] /\ lost_in plan [] = 5.
Proof.
  unfold plan, all_allowed, allowed, valid, valid_instance, between. cbn.
  repeat split; try lia; try discriminate; try (repeat eexists; reflexivity).
  constructor; [|constructor]. cbn. unfold between. lia.
Qed.
Example C74_session_runs :
  match session false plan [] [Some Block] with Ok (l, h) => (l, live_since [Some Block] h) | _ => ([], 0) end
  = ([None; None; None], 5).
Proof. vm_compute. reflexivity. Qed.
Example C74_constrained_runs :
  match get_problem true (Constrained 3 true [false; true] 2) [] with
  | Ok (p, h) => match coco_problem_free p h with Ok (_, h') => (0 <? live_since [] h, live_since [] h') | _ => (false, 7) end
  | _ => (false, 8) end = (true, 0).
Proof. vm_compute. reflexivity. Qed.
(** A pointer that dangles and a block that is left over are noticed. *)
Example C74_no_dangling_ex : ~ no_dangling [] [Some (Pointers 0 [Some 1]); None].
Proof.
  intro H. destruct (H 0 (Pointers 0 [Some 1]) 1) as [c E]; [cbn; lia|reflexivity|left; reflexivity|discriminate E].
Qed.
Example C74_live_since_ex : live_since [Some Block] [Some Block; None; Some Block] = 1.
Proof. reflexivity. Qed.

Print Assumptions C74_problem_memory.
Print Assumptions C74_session.
Print Assumptions C74_single_objective_session.
Print Assumptions C74_observing_loses_refuted.
Print Assumptions C74_new_instance_loses_refuted.
Print Assumptions C74_constrained_missing_name_refuted.
