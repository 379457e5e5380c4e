(** C88: experiments that iterate over a suite. *)
From Coq Require Import String List Arith NArith Ascii Bool Lia.
Import ListNotations.
From Verif Require Import CBase StrModel IdModel HeapModel HeapSpec HeapProofs HeapProps LoopModel LoopSpec.
Local Notation length := List.length.
Local Open Scope nat_scope.

Definition inner_cell (nm : cstr * nat) : option cell := Some (CProblem {| p_name := fst nm; p_objectives := snd nm; p_logger := None |}).
Definition outer_cell (n : cstr) (k : kind) (i : nat) (nm : cstr * nat) (s : bool) : option cell :=
  Some (CProblem {| p_name := n ++ open_paren :: fst nm ++ [")"%char]; p_objectives := snd nm;
                    p_logger := Some {| lg_kind := k; lg_inner := S i; lg_observer := kept_observer k 0; lg_started := s |} |}).
Definition obs_cell (n : cstr) (k : kind) (w : option addr) : option cell :=
  Some (CObserver {| o_name := n; o_kind := k; o_observed := if cyclic k then w else None |}).
(** The heap between two problems, and with a problem *)
Definition idle (n : cstr) (k : kind) (i : nat) : heap := obs_cell n k None :: repeat None i.
Definition busy (n : cstr) (k : kind) (i : nat) (nm : cstr * nat) (s : bool) : heap :=
  obs_cell n k (Some (S (S i))) :: repeat None i ++ [inner_cell nm; outer_cell n k i nm s].

Lemma nth_end1 : forall (i : nat) (c d : option cell), nth_error (repeat None i ++ [c; d]) i = Some c.
Proof. intros i c d. rewrite nth_error_app2; rewrite repeat_length; [|lia]. rewrite Nat.sub_diag. reflexivity. Qed.
Lemma nth_end2 : forall (i : nat) (c d : option cell), nth_error (repeat None i ++ [c; d]) (S i) = Some d.
Proof. intros i c d. rewrite nth_error_app2; rewrite repeat_length; [|lia]. replace (S i - i) with 1 by lia. reflexivity. Qed.
Lemma upd_end1 : forall (i : nat) (c d e : option cell), upd (repeat None i ++ [c; d]) i e = repeat None i ++ [e; d].
Proof. intros i c d e. pose proof (upd_app_middle (option cell) (repeat None i) c [d] e) as H. rewrite repeat_length in H. exact H. Qed.
Lemma upd_end2 : forall (i : nat) (c d e : option cell), upd (repeat None i ++ [c; d]) (S i) e = repeat None i ++ [c; e].
Proof.
  intros i c d e. pose proof (upd_app_middle (option cell) (repeat None i ++ [c]) d [] e) as H. rewrite app_length, repeat_length, <- !app_assoc in H.
  cbn [app length] in H. rewrite Nat.add_1_r in H. exact H.
Qed.
Lemma busy_inner : forall n k i nm s, problem_at (busy n k i nm s) (S i) = Ok {| p_name := fst nm; p_objectives := snd nm; p_logger := None |}.
Proof. intros. unfold problem_at, busy. cbn [nth_error]. rewrite nth_end1. reflexivity. Qed.
Lemma busy_outer : forall n k i nm s, nth_error (busy n k i nm s) (S (S i)) = Some (outer_cell n k i nm s).
Proof. intros. unfold busy. change (nth_error (?x :: ?l) (S ?j)) with (nth_error l j). apply nth_end2. Qed.
Lemma busy_outer_at : forall n k i nm s, problem_at (busy n k i nm s) (S (S i)) =
  Ok {| p_name := n ++ open_paren :: fst nm ++ [")"%char]; p_objectives := snd nm;
        p_logger := Some {| lg_kind := k; lg_inner := S i; lg_observer := kept_observer k 0; lg_started := s |} |}.
Proof. intros. unfold problem_at. rewrite busy_outer. reflexivity. Qed.
Lemma busy_observer : forall n k i nm s, observer_at (busy n k i nm s) 0 = Ok {| o_name := n; o_kind := k; o_observed := if cyclic k then Some (S (S i)) else None |}.
Proof. reflexivity. Qed.
Lemma dead_two : forall i, repeat (@None cell) i ++ [None; None] = repeat None (S (S i)).
Proof. intros i. replace (S (S i)) with (i + 2) by lia. rewrite repeat_app. reflexivity. Qed.

(** Freeing the problem with its logger *)
Lemma free_busy : forall n k i nm s fuel, coco_problem_free (S (S fuel)) (busy n k i nm s) (S (S i)) = Ok (idle n k (S (S i))).
Proof.
  intros n k i nm s fuel. cbn [coco_problem_free]. rewrite busy_outer_at. cbn [bind p_logger lg_inner]. rewrite busy_inner. cbn [bind p_logger].
  unfold coco_problem_transformed_free_data.
  assert (U : upd (busy n k i nm s) (S i) None = obs_cell n k (Some (S (S i))) :: repeat None i ++ [None; outer_cell n k i nm s]).
  { unfold busy. cbn [upd]. f_equal. apply upd_end1. }
  rewrite U. unfold problem_at. change (nth_error (?x :: ?l) (S (S i))) with (nth_error l (S i)). rewrite nth_end2. unfold outer_cell at 1. cbn [bind p_logger lg_kind lg_observer].
  assert (F : forall c, upd (c :: repeat None i ++ [None; outer_cell n k i nm s]) (S (S i)) None = c :: repeat None (S (S i))).
  { intros c. change (upd (c :: ?l) (S (S i)) None) with (c :: upd l (S i) None). rewrite upd_end2, dead_two. reflexivity. }
  destruct k; cbn [cyclic kept_observer]; unfold observer_at, obs_cell; cbn [nth_error cyclic bind upd set_observed o_name o_kind o_observed];
    unfold idle, obs_cell; cbn [cyclic]; f_equal; apply F.
Qed.
(** Getting a problem *)
Lemma get_busy : forall n k i nm, fits n k nm -> 
  coco_problem_add_observer (idle n k i ++ [inner_cell nm]) (Some (S i)) (Some 0) = Ok (Some (S (S i)), busy n k i nm false).
Proof.
  intros n k i nm [L B]. cbn [coco_problem_add_observer]. unfold observer_at, idle. cbn [app nth_error obs_cell bind].
  assert (E : nth_error (repeat None i ++ [inner_cell nm]) i = Some (inner_cell nm)).
  { rewrite nth_error_app2; rewrite repeat_length; [|lia]. rewrite Nat.sub_diag. reflexivity. }
  unfold problem_at. cbn [nth_error]. rewrite E. unfold inner_cell at 1. cbn [bind o_kind o_observed o_name p_name p_objectives].
  assert (Q1 : (match k with KBiobj => negb (snd nm =? 2) | _ => false end) = false).
  { destruct k; try reflexivity. rewrite (B eq_refl). reflexivity. }
  rewrite Q1. replace (cyclic k && _) with false by (destruct k; reflexivity).
  destruct (observed_name_cases n (fst nm) ltac:(lia)) as [[_ ->]|[X _]]; [|lia]. cbn [bind].
  assert (LEN : length (obs_cell n k None :: repeat None i ++ [inner_cell nm]) = S (S i)).
  { cbn [length]. rewrite app_length, repeat_length. cbn [length]. lia. }
  rewrite LEN. unfold busy, obs_cell, outer_cell.
  destruct k; cbn [cyclic app upd set_observed o_name o_kind kept_observer]; rewrite <- app_assoc; reflexivity.
Qed.
Lemma next_idle : forall n k i nm, fits n k nm ->
  next_problem (idle n k i) None (Some nm) (Some 0) = Ok (Some (S (S i)), busy n k i nm false, Some (S (S i))).
Proof.
  intros n k i [a m] F. unfold next_problem. cbn [bind step]. assert (L : length (idle n k i) = S i) by (unfold idle; cbn [length]; rewrite repeat_length; reflexivity).
  rewrite L. change (Some (CProblem {| p_name := a; p_objectives := m; p_logger := None |})) with (inner_cell (a, m)).
  rewrite (get_busy n k i (a, m) F). reflexivity.
Qed.
Lemma next_busy : forall n k i nm s nm', fits n k nm' ->
  next_problem (busy n k i nm s) (Some (S (S i))) (Some nm') (Some 0) = Ok (Some (S (S (S (S i)))), busy n k (S (S i)) nm' false, Some (S (S (S (S i))))).
Proof.
  intros n k i nm s nm' F. pose proof (next_idle n k (S (S i)) nm' F) as H. unfold next_problem in *. destruct nm' as [a m].
  assert (L : length (busy n k i nm s) = S (S (S i))) by (unfold busy; cbn [length]; rewrite app_length, repeat_length; cbn [length]; lia).
  rewrite L, free_busy. exact H.
Qed.
(** Using the problem *)
Lemma start_busy : forall n i nm s, 
  logger_bbob_start (busy n KBbob i nm s) (S (S i)) {| p_name := n ++ open_paren :: fst nm ++ [")"%char]; p_objectives := snd nm;
        p_logger := Some {| lg_kind := KBbob; lg_inner := S i; lg_observer := kept_observer KBbob 0; lg_started := s |} |}
      {| lg_kind := KBbob; lg_inner := S i; lg_observer := kept_observer KBbob 0; lg_started := s |} = Ok (busy n KBbob i nm true).
Proof.
  intros n i nm s. unfold logger_bbob_start. cbn [lg_started lg_observer kept_observer]. destruct s; [reflexivity|].
  rewrite busy_observer. cbn [bind]. f_equal. unfold busy. change (upd (?x :: ?l) (S (S i)) ?v) with (x :: upd l (S i) v). rewrite upd_end2. reflexivity.
Qed.
Lemma use_busy : forall n k i nm s u, exists s', use_problem (busy n k i nm s) (Some 0) (S (S i)) u = Ok (busy n k i nm s').
Proof.
  intros n k i nm s u.
  assert (L : length (busy n k i nm s) = S (S (S i))) by (unfold busy; cbn [length]; rewrite app_length, repeat_length; cbn [length]; lia).
  assert (EV : forall s0 fuel, evaluate_touches (S fuel) (busy n k i nm s0) (S i) = Ok (busy n k i nm s0)).
  { intros s0 fuel. cbn [evaluate_touches]. rewrite busy_inner. reflexivity. }
  assert (RE : forall s0 fuel, recommend_touches (S fuel) (busy n k i nm s0) (S i) = Ok (busy n k i nm s0)).
  { intros s0 fuel. cbn [recommend_touches]. rewrite busy_inner. reflexivity. }
  destruct u; unfold use_problem.
  - rewrite L. remember (S (S i)) as j eqn:J. cbn [evaluate_touches]. subst j. rewrite busy_outer_at. cbn [bind p_logger lg_kind lg_inner].
    destruct k.
    + exists true. rewrite start_busy. cbn [bind]. apply EV.
    + exists s. apply EV.
    + exists s. change (do p <- problem_at (busy n KToy i nm s) (S i); _) with (evaluate_touches (S (S (S i))) (busy n KToy i nm s) (S i)).
      rewrite EV. reflexivity.
    + exists s. apply EV.
  - rewrite L. remember (S (S i)) as j eqn:J. cbn [recommend_touches]. subst j. rewrite busy_outer_at. cbn [bind p_logger lg_kind lg_inner].
    destruct k.
    + exists true. rewrite start_busy. cbn [bind]. apply EV.
    + exists s. cbn [lg_observer kept_observer]. rewrite busy_observer. cbn [bind]. apply EV.
    + exists s. apply RE.
    + exists s. apply RE.
  - exists s. unfold coco_observer_signal_restart. rewrite busy_observer. cbn [bind o_kind]. destruct k; cbn [cyclic]; rewrite ?busy_outer_at; reflexivity.
Qed.
Lemma uses_busy : forall us n k i nm s, exists s', uses (busy n k i nm s) (Some 0) (S (S i)) us = Ok (busy n k i nm s').
Proof.
  intros us. induction us as [|u us IH]; intros n k i nm s; [exists s; reflexivity|]. cbn [uses].
  destruct (use_busy n k i nm s u) as [s1 ->]. cbn [bind]. apply IH.
Qed.

(** The loops with an observer *)
Definition at_rest (n : cstr) (k : kind) (h : heap) (current : option addr) : Prop :=
  (exists i, h = idle n k i /\ current = None) \/ (exists i nm s, h = busy n k i nm s /\ current = Some (S (S i))).
Lemma c_loop_rest : forall l n k h current, Forall (fun x => fits n k (fst x)) l -> at_rest n k h current ->
  exists h' current', c_loop h current (Some 0) l = Ok (h', current') /\ at_rest n k h' current' /\ (l <> [] \/ current <> None -> current' <> None).
Proof.
  intros l. induction l as [|[nm us] l IH]; intros n k h current F R.
  - exists h, current. split; [reflexivity|]. split; [exact R|]. intros [X|X]; [contradiction|exact X].
  - inversion F as [|? ? F1 F2]; subst. cbn [fst] in F1. cbn [c_loop].
    assert (N : exists i, next_problem h current (Some nm) (Some 0) = Ok (Some (S (S i)), busy n k i nm false, Some (S (S i)))).
    { destruct R as [(i & -> & ->)|(i & nm0 & s & -> & ->)]; eexists; [apply next_idle|apply next_busy]; exact F1. }
    destruct N as [i ->]. cbn [bind]. destruct (uses_busy us n k i nm false) as [s ->]. cbn [bind].
    destruct (IH n k (busy n k i nm s) (Some (S (S i))) F2) as (h' & c' & E & R' & X); [right; exists i, nm, s; split; reflexivity|].
    exists h', c'. split; [exact E|]. split; [exact R'|]. intros _. apply X. right. discriminate.
Qed.
Lemma rust_loop_rest : forall l n k i, Forall (fun x => fits n k (fst x)) l ->
  exists j, rust_loop (idle n k i) None (Some 0) l = Ok (idle n k j, None).
Proof.
  intros l. induction l as [|[nm us] l IH]; intros n k i F; [exists i; reflexivity|]. inversion F as [|? ? F1 F2]; subst. cbn [fst] in F1. cbn [rust_loop].
  rewrite (next_idle n k i nm F1). cbn [bind]. destruct (uses_busy us n k i nm false) as [s ->]. cbn [bind].
  assert (L : length (busy n k i nm s) = S (S (S i))) by (unfold busy; cbn [length]; rewrite app_length, repeat_length; cbn [length]; lia).
  rewrite L, free_busy. cbn [bind]. apply IH. exact F2.
Qed.
Lemma all_dead : forall i, nothing_left (None :: repeat None i).
Proof. intros i. constructor; [reflexivity|]. apply Forall_forall. intros x H. apply repeat_spec in H. exact H. Qed.
Lemma obs_free_idle : forall n k i, coco_observer_free (idle n k i) (Some 0) = Ok (None :: repeat None i).
Proof. intros n k i. unfold coco_observer_free, observer_at, idle. cbn [nth_error obs_cell bind o_kind o_observed]. destruct k; reflexivity. Qed.
Lemma finish_rest : forall b n k h current, at_rest n k h current -> exists h', finish b h current (Some 0) = Ok h' /\ nothing_left h'.
Proof.
  intros b n k h current [(i & -> & ->)|(i & nm & s & -> & ->)]; unfold finish, suite_free.
  - exists (None :: repeat None i). split; [|apply all_dead]. destruct b; cbn [bind]; rewrite obs_free_idle; reflexivity.
  - assert (L : length (busy n k i nm s) = S (S (S i))) by (unfold busy; cbn [length]; rewrite app_length, repeat_length; cbn [length]; lia).
    exists (None :: repeat None (S (S i))). split; [|apply all_dead]. destruct b.
    + rewrite L, free_busy. cbn [bind]. apply obs_free_idle.
    + unfold coco_observer_free. rewrite busy_observer. cbn [bind o_kind o_observed].
      set (oc := fun (lo : option addr) => Some (CProblem {| p_name := n ++ open_paren :: fst nm ++ [")"%char]; p_objectives := snd nm;
           p_logger := Some {| lg_kind := k; lg_inner := S i; lg_observer := lo; lg_started := s |} |}) : option cell).
      assert (Q : forall lo, (cyclic k = true -> lo = None) -> let h1 := None :: repeat None i ++ [inner_cell nm; oc lo] in
        coco_problem_free (S (length h1)) h1 (S (S i)) = Ok (None :: repeat None (S (S i)))).
      { intros lo C h1. assert (L1 : length h1 = S (S (S i))) by (unfold h1; cbn [length]; rewrite app_length, repeat_length; cbn [length]; lia). rewrite L1.
        assert (A1 : problem_at h1 (S (S i)) = Ok {| p_name := n ++ open_paren :: fst nm ++ [")"%char]; p_objectives := snd nm;
           p_logger := Some {| lg_kind := k; lg_inner := S i; lg_observer := lo; lg_started := s |} |}).
        { unfold problem_at, h1. change (nth_error (?x :: ?l) (S (S i))) with (nth_error l (S i)). rewrite nth_end2. reflexivity. }
        assert (A2 : problem_at h1 (S i) = Ok {| p_name := fst nm; p_objectives := snd nm; p_logger := None |}).
        { unfold problem_at, h1. cbn [nth_error]. rewrite nth_end1. reflexivity. }
        remember (S (S i)) as j eqn:J. cbn [coco_problem_free]. rewrite A1. cbn [bind p_logger lg_inner]. subst j. cbn [coco_problem_free]. rewrite A2. cbn [bind p_logger].
        assert (U : upd h1 (S i) None = None :: repeat None i ++ [None; oc lo]) by (unfold h1; cbn [upd]; f_equal; apply upd_end1).
        rewrite U. unfold coco_problem_transformed_free_data, problem_at. change (nth_error (?x :: ?l) (S (S i))) with (nth_error l (S i)). rewrite nth_end2.
        cbn [bind oc p_logger lg_kind lg_observer].
        assert (V : upd (None :: repeat None i ++ [None; oc lo]) (S (S i)) None = None :: repeat None (S (S i))).
        { change (upd (?c :: ?l) (S (S i)) None) with (c :: upd l (S i) None). rewrite upd_end2, dead_two. reflexivity. }
        destruct (cyclic k) eqn:K; [rewrite (C eq_refl)|]; cbn [bind]; rewrite <- V; [rewrite (C eq_refl)|]; reflexivity. }
      destruct (cyclic k) eqn:K.
      * rewrite busy_outer_at. cbn [bind p_logger lg_kind lg_inner lg_started].
        assert (W : forall v, upd (upd (busy n k i nm s) (S (S i)) v) 0 None = None :: repeat None i ++ [inner_cell nm; v]).
        { intros v. unfold busy. change (upd (?c :: ?l) (S (S i)) v) with (c :: upd l (S i) v). rewrite upd_end2. reflexivity. }
        cbn [bind]. rewrite W. apply (Q None). reflexivity.
      * cbn [bind]. change (upd (busy n k i nm s) 0 None) with (None :: repeat None i ++ [inner_cell nm; oc (kept_observer k 0)]). apply Q. discriminate.
Qed.
Lemma live_rest : forall n k h current, at_rest n k h current -> live h = match current with None => 1 | Some _ => 3 end.
Proof.
  assert (D : forall i l, live (repeat None i ++ l) = live l) by (intros i l; induction i; [reflexivity|exact IHi]).
  intros n k h current [(i & -> & ->)|(i & nm & s & -> & ->)].
  - unfold idle. rewrite <- (app_nil_r (repeat None i)). change (live (obs_cell n k None :: ?l)) with (S (live l)). rewrite D. reflexivity.
  - unfold busy. change (live (obs_cell n k (Some (S (S i))) :: ?l)) with (S (live l)). rewrite D. reflexivity.
Qed.

(** The loops without an observer *)
Definition plain (h : heap) (current : option addr) : Prop :=
  (exists i, h = repeat None i /\ current = None) \/ (exists i nm, h = repeat None i ++ [inner_cell nm] /\ current = Some i).
Lemma plain_at : forall i nm, problem_at (repeat None i ++ [inner_cell nm]) i = Ok {| p_name := fst nm; p_objectives := snd nm; p_logger := None |}.
Proof. intros i nm. unfold problem_at. rewrite nth_error_app2; rewrite repeat_length; [|lia]. rewrite Nat.sub_diag. reflexivity. Qed.
Lemma plain_free : forall i nm fuel, coco_problem_free (S fuel) (repeat None i ++ [inner_cell nm]) i = Ok (repeat None (S i)).
Proof.
  intros i nm fuel. cbn [coco_problem_free]. rewrite plain_at. cbn [bind p_logger]. pose proof (upd_app_middle (option cell) (repeat None i) (inner_cell nm) [] None) as H.
  rewrite repeat_length in H. rewrite H. f_equal. replace (S i) with (i + 1) by lia. rewrite repeat_app. reflexivity.
Qed.
Lemma plain_next : forall h current nm, plain h current -> exists i, next_problem h current (Some nm) None = Ok (Some i, repeat None i ++ [inner_cell nm], Some i).
Proof.
  intros h current [a m] [(i & -> & ->)|(i & nm & -> & ->)]; unfold next_problem.
  - exists i. cbn [bind step]. rewrite repeat_length. reflexivity.
  - exists (S i). rewrite plain_free. cbn [bind step]. rewrite repeat_length. reflexivity.
Qed.
Lemma plain_uses : forall us i nm, uses (repeat None i ++ [inner_cell nm]) None i us = Ok (repeat None i ++ [inner_cell nm]).
Proof.
  intros us. induction us as [|u us IH]; intros i nm; [reflexivity|]. cbn [uses].
  assert (E : use_problem (repeat None i ++ [inner_cell nm]) None i u = Ok (repeat None i ++ [inner_cell nm])).
  { destruct u; unfold use_problem; [| |reflexivity]; cbn [evaluate_touches recommend_touches]; rewrite plain_at; reflexivity. }
  rewrite E. apply IH.
Qed.
Lemma c_loop_plain : forall l h current, plain h current -> exists h' current', c_loop h current None l = Ok (h', current') /\ plain h' current' /\ (l <> [] \/ current <> None -> current' <> None).
Proof.
  intros l. induction l as [|[nm us] l IH]; intros h current P; [exists h, current; split; [reflexivity|split; [exact P|intros [X|X]; [contradiction|exact X]]]|].
  cbn [c_loop]. destruct (plain_next h current nm P) as [i ->]. cbn [bind]. rewrite plain_uses. cbn [bind].
  destruct (IH (repeat None i ++ [inner_cell nm]) (Some i)) as (h' & c' & E & Q & X); [right; exists i, nm; split; reflexivity|].
  exists h', c'. split; [exact E|]. split; [exact Q|]. intros _. apply X. right. discriminate.
Qed.
Lemma rust_loop_plain : forall l i, exists j, rust_loop (repeat None i) None None l = Ok (repeat None j, None).
Proof.
  intros l. induction l as [|[nm us] l IH]; intros i; [exists i; reflexivity|]. cbn [rust_loop].
  destruct (plain_next (repeat None i) None nm) as [j ->]; [left; exists i; split; reflexivity|]. cbn [bind]. rewrite plain_uses. cbn [bind]. rewrite plain_free. cbn [bind]. apply IH.
Qed.
Lemma dead_all : forall i, nothing_left (repeat None i).
Proof. intros i. apply Forall_forall. intros x H. apply repeat_spec in H. exact H. Qed.
Lemma live_plain : forall h current, plain h current -> live h = match current with None => 0 | Some _ => 1 end.
Proof.
  assert (D : forall i l, live (repeat None i ++ l) = live l) by (intros i l; induction i; [reflexivity|exact IHi]).
  intros h current [(i & -> & ->)|(i & nm & -> & ->)]; [rewrite <- (app_nil_r (repeat None i))|]; rewrite D; reflexivity.
Qed.

(** C and Java: whatever the solver does with the current problem, and whenever the loop is left (l is any part of the suite, with or without the
    call that finds the end), only one problem exists with its logger, and freeing observer and suite in either order frees everything once. *)
Theorem C88_loop : forall o l suite_first, all_fit o l ->
  exists observer h0 h current, start o = Ok (observer, h0) /\ c_loop h0 None observer l = Ok (h, current) /\
    live h = match o with Some _ => 1 | None => 0 end + match l, o with [], _ => 0 | _, None => 1 | _, Some _ => 2 end /\
    next_problem h current None observer = Ok (None, h, current) /\
    exists h', finish suite_first h current observer = Ok h' /\ nothing_left h'.
Proof.
  intros [[n k]|] l b F; cbn [all_fit] in F.
  - destruct (c_loop_rest l n k (idle n k 0) None F) as (h & c & E & R & X); [left; exists 0; split; reflexivity|].
    exists (Some 0), (idle n k 0), h, c. split; [unfold start, idle, obs_cell; cbn; destruct k; reflexivity|]. split; [exact E|]. split.
    + rewrite (live_rest n k h c R). destruct l; [injection E as _ <-; reflexivity|]. destruct c; [reflexivity|]. contradiction X; [left; discriminate|reflexivity].
    + split; [reflexivity|]. apply (finish_rest b n k). exact R.
  - destruct (c_loop_plain l [] None) as (h & c & E & R & X); [left; exists 0; split; reflexivity|].
    exists None, [], h, c. split; [reflexivity|]. split; [exact E|]. split.
    + rewrite (live_plain h c R). destruct l; [injection E as _ <-; reflexivity|]. destruct c; [reflexivity|]. contradiction X; [left; discriminate|reflexivity].
    + split; [reflexivity|]. unfold finish, suite_free. destruct R as [(i & -> & ->)|(i & nm & -> & ->)].
      * exists (repeat None i). split; [destruct b; reflexivity|apply dead_all].
      * exists (repeat None (S i)). split; [|apply dead_all]. destruct b; cbn [bind coco_observer_free]; rewrite plain_free; reflexivity.
Qed.
(** Rust: between two problems only the observer exists; dropping observer and suite in either order frees everything. *)
Theorem C88_rust : forall o l suite_first, all_fit o l ->
  exists observer h0 h, start o = Ok (observer, h0) /\ rust_loop h0 None observer l = Ok (h, None) /\
    live h = match o with Some _ => 1 | None => 0 end /\
    exists h', finish suite_first h None observer = Ok h' /\ nothing_left h'.
Proof.
  intros [[n k]|] l b F; cbn [all_fit] in F.
  - destruct (rust_loop_rest l n k 0 F) as [j E]. exists (Some 0), (idle n k 0), (idle n k j).
    split; [unfold start, idle, obs_cell; cbn; destruct k; reflexivity|]. split; [exact E|].
    assert (R : at_rest n k (idle n k j) None) by (left; exists j; split; reflexivity).
    split; [apply (live_rest n k _ None R)|]. apply (finish_rest b n k). exact R.
  - destruct (rust_loop_plain l 0) as [j E]. exists None, [], (repeat None j). split; [reflexivity|]. split; [exact E|].
    split; [apply (live_plain _ None); left; exists j; split; reflexivity|]. exists (repeat None j). split; [destruct b; reflexivity|apply dead_all].
Qed.
(** Deviations.  The problem of an earlier call is gone: using it is undefined in C and Java (nothing marks the object as invalid).
    A client that frees the current problem itself makes the next call, and freeing the suite, free it a second time. *)
Definition first_name : cstr := str "BBOB suite problem f1 instance 1 in 2D".
Definition second_name : cstr := str "BBOB suite problem f1 instance 2 in 2D".
Theorem C88_stale_refuted : exists h0 w1 h1 w2 h2, start (Some (str "bbob", KBbob)) = Ok (Some 0, h0) /\
  next_problem h0 None (Some (first_name, 1)) (Some 0) = Ok (Some w1, h1, Some w1) /\
  next_problem h1 (Some w1) (Some (second_name, 1)) (Some 0) = Ok (Some w2, h2, Some w2) /\
  use_problem h2 (Some 0) w1 UEvaluate = UB.
Proof. exists [obs_cell (str "bbob") KBbob None]. eexists _, _, _, _. split; [reflexivity|]. split; [reflexivity|]. split; reflexivity. Qed.
Theorem C88_freed_refuted : exists h0 w1 h1 h2, start (Some (str "bbob", KBbob)) = Ok (Some 0, h0) /\
  next_problem h0 None (Some (first_name, 1)) (Some 0) = Ok (Some w1, h1, Some w1) /\
  coco_problem_free (S (length h1)) h1 w1 = Ok h2 /\
  next_problem h2 (Some w1) (Some (second_name, 1)) (Some 0) = UB /\ suite_free h2 (Some w1) = UB.
Proof. exists [obs_cell (str "bbob") KBbob None]. eexists _, _, _. split; [reflexivity|]. split; [reflexivity|]. split; [reflexivity|]. split; reflexivity. Qed.
Example C88_example : exists h c, all_fit (Some (str "bbob", KBbob)) [((first_name, 1), [UEvaluate; URestart; UEvaluate]); ((second_name, 1), [URecommend])] /\
  c_loop [obs_cell (str "bbob") KBbob None] None (Some 0) [((first_name, 1), [UEvaluate; URestart; UEvaluate]); ((second_name, 1), [URecommend])] = Ok (h, c) /\
  live h = 3 /\ c = Some 4.
Proof.
  eexists _, _. split; [repeat constructor; cbn; try lia; discriminate|]. split; [reflexivity|]. split; reflexivity.
Qed.

Print Assumptions C88_loop.
Print Assumptions C88_rust.
Print Assumptions C88_stale_refuted.
Print Assumptions C88_freed_refuted.
