(** C96: the report during an iteration. *)
From Coq Require Import List Arith NArith ZArith Ascii String Bool Lia.
From Verif Require Import CBase StrModel StrSpec OptModel OptSpec SuiteModel SuiteSpec SuiteProofs SuiteBuildProofs MsgModel ReportModel ReportSpec.
From Verif Require SuiteProps.
Import ListNotations.
Local Notation length := List.length.

(** Tokens by the combination before, if any *)
Definition starting (s : suite) (c : nat * nat * nat) : list token :=
  let '(d, f, _) := c in [if d =? 0 then Newline else Done; Start (nth d (dimensions s) 0%N); Function (nth f (functions s) 0%N); Dot].
Definition tokens (s : suite) (prev : option (nat * nat)) (c : nat * nat * nat) : list token :=
  let '(d, f, _) := c in
  match prev with
  | None => starting s c
  | Some (d0, f0) => if negb (d =? d0) then starting s c else if negb (f =? f0) then [Function (nth f (functions s) 0%N); Dot] else [Dot]
  end.
Fixpoint all_tokens (s : suite) (prev : option (nat * nat)) (cs : list (nat * nat * nat)) : list token :=
  match cs with [] => [] | c :: cs' => tokens s prev c ++ all_tokens s (Some (fst c)) cs' end.
Lemma next_current : forall s q s', coco_suite_get_next_problem s = Ok (Some q, s') ->
  (0 <= cur_instance s')%Z /\ get_problem_from_indices s' (Z.to_nat (cur_function s')) (Z.to_nat (cur_dimension s')) (Z.to_nat (cur_instance s')) = Ok (Some q).
Proof.
  intros s q s' E. unfold coco_suite_get_next_problem in E.
  match type of E with bind ?u _ = _ => destruct u as [[bi s1]| |] end; cbn [bind] in E; try discriminate E.
  match type of E with bind ?u _ = _ => destruct u as [[b s2]| |] end; cbn [bind] in E; try discriminate E.
  destruct (negb b); [discriminate E|]. destruct ((cur_function s2 <? 0)%Z || (cur_dimension s2 <? 0)%Z || (cur_instance s2 <? 0)%Z) eqn:G; [discriminate E|].
  destruct (get_problem_from_indices s2 _ _ _) as [p| |] eqn:P; cbn [bind] in E; try discriminate E. injection E as -> <-.
  apply orb_false_iff in G as [_ G]. apply Z.ltb_ge in G. split; [exact G|exact P].
Qed.
Lemma problem_at_inj : forall s d f i d' f' i', f < length (functions s) -> f' < length (functions s) -> i < length (instances s) -> i' < length (instances s) ->
  problem_at s (d, f, i) = problem_at s (d', f', i') -> (d, f, i) = (d', f', i').
Proof.
  intros s d f i d' f' i' F F' I I' E. unfold problem_at in E. injection E as _ _ _ E. apply Nat2N.inj in E.
  set (n := length (instances s)) in *. set (m := length (functions s)) in *.
  assert (E1 : n * (m * d + f) + i = n * (m * d' + f') + i') by nia. apply Nat.div_mod_unique in E1 as [E1 ->]; [|exact I|exact I'].
  apply Nat.div_mod_unique in E1 as [-> ->]; [reflexivity|exact F|exact F'].
Qed.
Lemma In_remaining : forall s d f p c, In d (positions (dimensions s)) -> In f (positions (functions s)) -> In c (remaining s d f p) -> In c (combinations s).
Proof.
  intros s d f p [[d' f'] i'] Hd Hf H. apply SuiteProps.C03_combinations. unfold remaining, row in H.
  assert (K : forall l k, In k (positions l) -> exists x, nth_error l k = Some x /\ x <> 0%N).
  { intros l k H0. apply positions_from_In in H0 as [H0 H1]. exists (nth k l 0%N). split; [apply nth_error_nth'; lia|exact H1]. }
  apply in_app_iff in H as [H|H]; [|apply in_app_iff in H as [H|H]].
  - apply in_map_iff in H as (i & E & H). injection E as <- <- <-. split; [|split]; apply K; [exact Hd|exact Hf|]. eapply positions_from_sub; exact H.
  - apply in_flat_map in H as (f1 & F1 & H). apply in_map_iff in H as (i & E & H). injection E as <- <- <-.
    split; [|split]; apply K; [exact Hd|eapply positions_from_sub; exact F1|exact H].
  - apply in_flat_map in H as (d1 & D1 & H). apply in_flat_map in H as (f1 & F1 & H). apply in_map_iff in H as (i & E & H). injection E as <- <- <-.
    split; [|split]; apply K; [eapply positions_from_sub; exact D1|exact F1|exact H].
Qed.
Lemma next_state : forall s d f p d0 f0 i0 c rest, size_ok s -> firsts s d0 f0 i0 -> at_state s d f p -> remaining s d f p = c :: rest ->
  exists s' d' f' i', coco_suite_get_next_problem s = Ok (Some (problem_at s c), s') /\ same_items s' s /\ at_state s' d' f' (S i') /\
    remaining s d' f' (S i') = rest /\ c = (d', f', i').
Proof.
  intros s d f p d0 f0 i0 c rest Hs Hf Ha R. pose proof (next_problem_step s d f p d0 f0 i0 Hs Hf Ha) as H. rewrite R in H.
  destruct H as (s' & d' & f' & p' & E & S & A & R'). destruct (next_current _ _ _ E) as [P G].
  destruct A as (A1 & A2 & A3 & A4 & A5 & A6). rewrite A4, A5, A6 in *. destruct p' as [|i']; [lia|].
  replace (Z.of_nat (Datatypes.S i') - 1)%Z with (Z.of_nat i') in * by lia. rewrite !Nat2Z.id in G.
  exists s', d', f', i'. split; [exact E|]. split; [exact S|]. split; [repeat split; auto; lia|]. split; [exact R'|].
  assert (C : In c (combinations s)).
  { destruct Ha as (H1 & H2 & _). apply (In_remaining s d f p); [exact H1|exact H2|]. rewrite R. left. reflexivity. }
  destruct c as [[dc fc] ic]. apply SuiteProps.C03_combinations in C as ((x1 & C1 & _) & (x2 & C2 & _) & (x3 & C3 & _)).
  assert (B : forall (l : list N) k x, nth_error l k = Some x -> k < length l) by (intros l k x H; apply nth_error_Some; rewrite H; discriminate).
  destruct S as (S1 & S2 & S3). rewrite S1 in A2. rewrite S3 in A3.
  apply positions_from_In in A2 as [A2 _]. apply (problem_at_inj s); [exact (B _ _ _ C2)|lia|exact (B _ _ _ C3)|lia|].
  unfold get_problem_from_indices, item, mget in G. rewrite S1, S2, S3 in G.
  assert (HD : d' < length (dimensions s)) by (rewrite S2 in A1; apply positions_from_In in A1 as [A1 _]; lia).
  rewrite (nth_error_nth' _ 0%N HD), (nth_error_nth' (functions s) (n := f') 0%N), (nth_error_nth' (instances s) (n := i') 0%N) in G by lia.
  cbn [bind] in G.
  destruct (nth f' (functions s) 0%N =? 0)%N; [discriminate G|]. destruct (nth d' (dimensions s) 0%N =? 0)%N; [discriminate G|].
  destruct (nth i' (instances s) 0%N =? 0)%N; [discriminate G|]. injection G as G1 G2 G3 G4.
  assert (HS' : size_ok s') by (apply (size_ok_same s' s); [repeat split; assumption|exact Hs]).
  assert (EE : coco_suite_encode_problem_index s' (N.of_nat f') (N.of_nat d') (N.of_nat i') =
    (N.of_nat i' + N.of_nat f' * N.of_nat (length (instances s')) + N.of_nat d' * N.of_nat (length (instances s')) * N.of_nat (length (functions s')))%N).
  { apply (encode_eq s' HS'); unfold nF, nD, nI; rewrite ?S1, ?S2, ?S3; lia. }
  rewrite EE, S1, S3 in G4. unfold problem_at. f_equal; try congruence. lia.
Qed.
Lemma next_report : forall level s d f p d0 f0 i0 c rest, size_ok s -> firsts s d0 f0 i0 -> at_state s d f p -> remaining s d f p = c :: rest ->
  exists s' d' f' i', c = (d', f', i') /\ same_items s' s /\ at_state s' d' f' (S i') /\ remaining s d' f' (S i') = rest /\
    next_problem level s = Ok (Some (problem_at s c), s', if COCO_INFO <=? level then tokens s (if p =? 0 then None else Some (d, f)) c else []).
Proof.
  intros level s d f p d0 f0 i0 c rest Hs Hf Ha R. destruct (next_state s d f p d0 f0 i0 c rest Hs Hf Ha R) as (s' & d' & f' & i' & E & SI & A & R' & C).
  exists s', d', f', i'. split; [exact C|]. split; [exact SI|]. split; [exact A|]. split; [exact R'|]. unfold next_problem. rewrite E. cbn [bind].
  destruct (COCO_INFO <=? level); [|reflexivity]. cbn [negb]. destruct A as (A1 & A2 & A3 & A4 & A5 & A6). destruct Ha as (_ & _ & _ & B4 & B5 & B6).
  destruct SI as (S1 & S2 & S3). rewrite S1 in *. rewrite S2 in *. rewrite A4, A5, B4, B5, B6, !Nat2Z.id. subst c. cbn [tokens].
  apply positions_from_In in A1 as [A1 _]. apply positions_from_In in A2 as [A2 _].
  unfold item, mget. rewrite (nth_error_nth' (dimensions s) (n := d') 0%N), (nth_error_nth' (functions s) (n := f') 0%N) by lia. cbn [bind].
  replace (0 <? Z.of_nat d')%Z with (negb (d' =? 0)) by (destruct (Nat.eqb_spec d' 0); destruct (Z.ltb_spec 0 (Z.of_nat d')); cbn; lia || reflexivity).
  replace (Z.of_nat d' =? Z.of_nat d)%Z with (d' =? d) by (destruct (Nat.eqb_spec d' d); destruct (Z.eqb_spec (Z.of_nat d') (Z.of_nat d)); lia || reflexivity).
  replace (Z.of_nat f' =? Z.of_nat f)%Z with (f' =? f) by (destruct (Nat.eqb_spec f' f); destruct (Z.eqb_spec (Z.of_nat f') (Z.of_nat f)); lia || reflexivity).
  replace (Z.of_nat p - 1 <? 0)%Z with (p =? 0) by (destruct (Nat.eqb_spec p 0); destruct (Z.ltb_spec (Z.of_nat p - 1) 0); lia || reflexivity).
  destruct (p =? 0); rewrite ?orb_true_r, ?orb_false_r; cbn [starting].
  - destruct (d' =? 0); reflexivity.
  - destruct (d' =? d); cbn [negb]; [destruct (f' =? f); reflexivity|]. destruct (d' =? 0); reflexivity.
Qed.
Lemma tokens_same : forall s t prev c, same_items s t -> tokens s prev c = tokens t prev c.
Proof. intros s t prev [[d f] i] (S1 & S2 & S3). unfold tokens, starting. rewrite S1, S2. reflexivity. Qed.
Lemma all_tokens_same : forall s t cs prev, same_items s t -> all_tokens s prev cs = all_tokens t prev cs.
Proof. intros s t cs. induction cs as [|c cs IH]; intros prev S; [reflexivity|]. cbn [all_tokens]. rewrite (tokens_same s t) by exact S. rewrite IH by exact S. reflexivity. Qed.
Lemma pass_tokens : forall level rest s d f p d0 f0 i0 fuel, length rest < fuel -> size_ok s -> firsts s d0 f0 i0 -> at_state s d f p -> remaining s d f p = rest ->
  exists s', whole_pass fuel level s = Ok (if COCO_INFO <=? level then all_tokens s (if p =? 0 then None else Some (d, f)) rest ++ [Done] else [], s') /\
    same_items s' s /\ at_state s' d0 f0 (S i0).
Proof.
  intros level rest. induction rest as [|c rest IH]; intros s d f p d0 f0 i0 [|fuel] LF Hs Hf Ha R; try (cbn in LF; lia).
  - pose proof (next_problem_step s d f p d0 f0 i0 Hs Hf Ha) as H. rewrite R in H. destruct H as (s' & E & SI & A). exists s'. split; [|split; assumption].
    cbn [whole_pass all_tokens app]. unfold next_problem. rewrite E. cbn [bind]. reflexivity.
  - destruct (next_report level s d f p d0 f0 i0 c rest Hs Hf Ha R) as (s1 & d1 & f1 & i1 & C & SI & A & R1 & E).
    destruct (IH s1 d1 f1 (S i1) d0 f0 i0 fuel) as (s2 & E2 & SI2 & A2); [cbn in LF; lia|eapply size_ok_same; eauto|eapply firsts_same; eauto|exact A|rewrite (remaining_same s1 s); assumption|].
    exists s2. split; [|split; [eapply same_items_trans; eauto|exact A2]]. cbn [whole_pass]. rewrite E. cbn [bind]. rewrite E2. cbn [bind].
    destruct (COCO_INFO <=? level); [|reflexivity]. cbn [Nat.eqb all_tokens]. rewrite (all_tokens_same s1 s) by exact SI. subst c. cbn [fst]. rewrite <- app_assoc. reflexivity.
Qed.
(** From the combinations to the lines *)
Lemma tokens_row : forall s d f is rest, all_tokens s (Some (d, f)) (map (fun i => (d, f, i)) is ++ rest) = repeat Dot (length is) ++ all_tokens s (Some (d, f)) rest.
Proof. intros s d f is rest. induction is as [|i is IH]; [reflexivity|]. cbn [map app all_tokens tokens fst length repeat]. rewrite !Nat.eqb_refl. cbn [negb app]. rewrite IH. reflexivity. Qed.
Definition block (s : suite) (f : nat) : list token := Function (nth f (functions s) 0%N) :: repeat Dot (length (positions (instances s))).
Lemma tokens_functions : forall s d f0 fs rest, positions (instances s) <> [] -> NoDup (f0 :: fs) -> exists f1,
  all_tokens s (Some (d, f0)) (flat_map (fun f => map (fun i => (d, f, i)) (positions (instances s))) fs ++ rest) =
  flat_map (block s) fs ++ all_tokens s (Some (d, f1)) rest.
Proof.
  intros s d f0 fs rest NE. revert f0. induction fs as [|f fs IH]; intros f0 ND; [exists f0; reflexivity|].
  inversion ND as [|a b N1 N2 Q]; subst. destruct (IH f N2) as [f1 E]. exists f1. cbn [flat_map]. unfold block at 1.
  destruct (positions (instances s)) as [|i is]; [contradiction|]. cbn [map app all_tokens tokens fst]. rewrite Nat.eqb_refl.
  destruct (Nat.eqb_spec f f0) as [->|_]; [exfalso; apply N1; left; reflexivity|]. cbn [negb app length repeat]. cbn [map] in E. rewrite <- app_assoc, tokens_row, E, <- app_assoc. reflexivity.
Qed.
Definition opening (d : nat) : token := if d =? 0 then Newline else Done.
Lemma tokens_dimensions : forall s ds prev, positions (instances s) <> [] -> positions (functions s) <> [] -> NoDup (positions (functions s)) ->
  NoDup (match prev with Some (d, _) => d :: ds | None => ds end) ->
  all_tokens s prev (flat_map (fun d => flat_map (fun f => map (fun i => (d, f, i)) (positions (instances s))) (positions (functions s))) ds) =
  flat_map (line s opening) ds.
Proof.
  intros s ds. induction ds as [|d ds IH]; intros prev NI NF DF ND; [reflexivity|]. cbn [flat_map]. unfold line at 1.
  destruct (positions (functions s)) as [|f fs] eqn:PF; [contradiction|]. destruct (positions (instances s)) as [|i is] eqn:PI; [contradiction|].
  cbn [flat_map map app all_tokens].
  assert (T : tokens s prev (d, f, i) = starting s (d, f, i)).
  { destruct prev as [[d0 f0]|]; [|reflexivity]. cbn [tokens]. destruct (Nat.eqb_spec d d0) as [->|_]; [|reflexivity]. exfalso. inversion ND as [|a b N1 N2 Q]; subst. apply N1. left. reflexivity. }
  rewrite T. cbn [starting fst]. rewrite <- !app_assoc, tokens_row.
  assert (DD : NoDup (d :: ds)) by (destruct prev as [[d0 f0]|]; [inversion ND; assumption|exact ND]).
  destruct (tokens_functions s d f fs (flat_map (fun d' => flat_map (fun f' => map (fun i' => (d', f', i')) (i :: is)) (f :: fs)) ds)) as [f1 E];
    [rewrite PI; discriminate|exact DF|]. rewrite PI in E. cbn [map flat_map app] in E. rewrite E.
  specialize (IH (Some (d, f1)) NI NF DF DD). cbn [map flat_map app] in IH. rewrite IH. unfold opening, block. rewrite PI.
  destruct (d =? 0); cbn [app length repeat]; rewrite <- ?app_assoc; reflexivity.
Qed.
Lemma positions_NoDup : forall l, NoDup (positions l).
Proof. intros l. unfold positions, positions_from. apply NoDup_filter, seq_NoDup. Qed.
(** The first pass through any suite that the constructor returns: on level "info" and "debug" the report is complete and in order, on lower
    levels nothing is written. *)
Theorem C96_report : forall d inst options s level fuel, desc_ok d -> small inst -> small options -> coco_suite d inst options = Ok (Some s) ->
  length (combinations s) < fuel ->
  exists s', whole_pass fuel level s = Ok (if 2 <=? level then report s else [], s').
Proof.
  intros d inst options s level fuel Hd Hi Ho E LF. destruct (coco_suite_built d inst options s Hd Hi Ho E) as (Hf & (N1 & N2 & N3) & Hs & _).
  destruct (fresh_firsts s Hf N3) as (d0 & f0 & i0 & F & A).
  destruct (pass_tokens level (combinations s) s d0 f0 0 d0 f0 i0 fuel LF Hs F A) as (s' & P & _); [eapply remaining_start; exact F|].
  exists s'. rewrite P. cbn [Nat.eqb]. unfold combinations. rewrite tokens_dimensions by (assumption || apply positions_NoDup). reflexivity.
Qed.
(** There are as many dots as problems. *)
Theorem C96_dots : forall s, length (filter is_dot (report s)) = length (all_problems s).
Proof.
  intros s. unfold report, all_problems, combinations. rewrite map_length, filter_app, app_length. cbn [filter is_dot length]. rewrite Nat.add_0_r.
  generalize (positions (dimensions s)). intros ds. induction ds as [|d ds IH]; [reflexivity|]. cbn [flat_map]. rewrite filter_app, !app_length, IH. f_equal.
  unfold line. cbn [app filter]. replace (is_dot (if d =? 0 then Newline else Done)) with false by (destruct (d =? 0); reflexivity). cbn [is_dot].
  generalize (positions (functions s)). intros fs. clear. induction fs as [|f fs IH]; [reflexivity|]. cbn [flat_map app filter is_dot]. rewrite filter_app, !app_length, IH, map_length. f_equal.
  generalize (length (positions (instances s))). intros n. induction n as [|n IHn]; [reflexivity|]. cbn [repeat filter is_dot length]. rewrite IHn. reflexivity.
Qed.
(** Deviations: if the first dimension of the suite was filtered out, the report begins with "done"; *)
Theorem C96_done_first_refuted : exists inst options s t s', coco_suite desc_bbob inst options = Ok (Some s) /\
  whole_pass 100 2 s = Ok (Done :: t, s').
Proof.
  exists (str "instances: 4-6"), (str "function_indices: 1,3 dimensions: 5,20"), SuiteProps.ex_suite. eexists. eexists.
  split; [exact SuiteProps.ex_suite_built|]. vm_compute. reflexivity.
Qed.
(** in a further pass the line of the first dimension is not begun. *)
Theorem C96_second_pass_refuted : exists s t1 s1 t2 s2 x, coco_suite desc_bbob (str "instances: 1-2") (str "function_indices: 5 dimensions: 2,3") = Ok (Some s) /\
  whole_pass 100 2 s = Ok (t1, s1) /\ whole_pass 100 2 s1 = Ok (t2, s2) /\ In (Start x) t1 /\ ~ In (Start x) t2.
Proof.
  eexists. eexists. eexists. eexists. eexists. exists 2%N. split; [vm_compute; reflexivity|]. split; [vm_compute; reflexivity|]. split; [vm_compute; reflexivity|].
  split; [right; left; reflexivity|]. intros H. repeat destruct H as [H|H]; try discriminate H. exact H.
Qed.
Example C96_example : length (combinations SuiteProps.ex_suite) < 20 /\
  match whole_pass 20 2 SuiteProps.ex_suite with
  | Ok (t, _) => t = [Done; Start 5; Function 1; Dot; Dot; Dot; Function 3; Dot; Dot; Dot; Done; Start 20; Function 1; Dot; Dot; Dot; Function 3; Dot; Dot; Dot; Done]%N
  | _ => False
  end.
Proof. split; [vm_compute; repeat constructor|vm_compute; reflexivity]. Qed.

Print Assumptions C96_report.
Print Assumptions C96_dots.
Print Assumptions C96_done_first_refuted.
Print Assumptions C96_second_pass_refuted.
