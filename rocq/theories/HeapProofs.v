(** Proofs about observers and observed problems. *)
From Coq Require Import String List Arith NArith Ascii Bool Lia Wf_nat.
Import ListNotations.
From Verif Require Import CBase StrModel OptModel IdModel HeapModel HeapSpec.
Local Notation length := List.length.

Lemma nth_upd : forall A (h : list A) a v x, a < length h ->
  nth_error (upd h a v) x = if x =? a then Some v else nth_error h x.
Proof.
  intros A h a v x L. destruct (Nat.eqb_spec x a) as [->|N].
  - now apply nth_error_upd_same.
  - apply nth_error_upd_other. auto.
Qed.

Lemma nth_snoc : forall A (h : list A) v x,
  nth_error (h ++ [v]) x = if x =? length h then Some v else nth_error h x.
Proof.
  intros A h v x. destruct (Nat.eqb_spec x (length h)) as [->|N].
  - apply nth_error_app_middle.
  - destruct (Nat.lt_ge_cases x (length h)).
    + now rewrite nth_error_app1.
    + rewrite nth_error_app2 by assumption. destruct (x - length h) eqn:E; [lia|].
      simpl. destruct n; symmetry; apply nth_error_None; lia.
Qed.

Lemma exists_lt : forall A (h : list A) x v, nth_error h x = Some v -> x < length h.
Proof. intros. apply nth_error_Some. congruence. Qed.

Lemma problem_at_ok : forall h a p, problem_exists h a p -> problem_at h a = Ok p.
Proof. intros h a p H. unfold problem_at. now rewrite H. Qed.
Lemma observer_at_ok : forall h b o, observer_exists h b o -> observer_at h b = Ok o.
Proof. intros h b o H. unfold observer_at. now rewrite H. Qed.
Lemma problem_at_inv : forall h a p, problem_at h a = Ok p -> problem_exists h a p.
Proof.
  unfold problem_at, problem_exists. intros h a p H.
  destruct (nth_error h a) as [[[q|o]|]|]; try discriminate. congruence.
Qed.
Lemma observer_at_inv : forall h b o, observer_at h b = Ok o -> observer_exists h b o.
Proof.
  unfold observer_at, observer_exists. intros h b o H.
  destruct (nth_error h b) as [[[q|p]|]|]; try discriminate. congruence.
Qed.

Lemma problem_fun : forall h a p q, problem_exists h a p -> problem_exists h a q -> p = q.
Proof. unfold problem_exists. congruence. Qed.
Lemma observer_fun : forall h a p q, observer_exists h a p -> observer_exists h a q -> p = q.
Proof. unfold observer_exists. congruence. Qed.
Lemma not_both : forall h a p o, problem_exists h a p -> observer_exists h a o -> False.
Proof. unfold problem_exists, observer_exists. congruence. Qed.

(** The state of the heap between two calls; E: problems that have just been freed although a logger points to them. *)
Record good_ex (E : addr -> Prop) (h : heap) : Prop := {
  g_lt : forall w p l, problem_exists h w p -> p_logger p = Some l -> lg_inner l < w;
  g_inner : forall w p l, problem_exists h w p -> p_logger p = Some l -> ~ E (lg_inner l) ->
     exists q n, problem_exists h (lg_inner l) q /\ ~ In open_paren n /\
       p_name p = n ++ open_paren :: p_name q ++ [")"%char];
  g_inj : forall w1 w2 p1 p2 l1 l2, problem_exists h w1 p1 -> problem_exists h w2 p2 ->
     p_logger p1 = Some l1 -> p_logger p2 = Some l2 -> lg_inner l1 = lg_inner l2 -> w1 = w2;
  g_back : forall w p l b, problem_exists h w p -> p_logger p = Some l -> cyclic (lg_kind l) = true ->
     lg_observer l = Some b ->
     exists o, observer_exists h b o /\ o_kind o = lg_kind l /\ o_observed o = Some w;
  g_forth : forall b o w, observer_exists h b o -> o_observed o = Some w ->
     cyclic (o_kind o) = true /\
     exists p l, problem_exists h w p /\ p_logger p = Some l /\ lg_kind l = o_kind o /\ lg_observer l = Some b;
  g_names : forall b o, observer_exists h b o -> ~ In open_paren (o_name o) }.

Definition good (h : heap) : Prop := good_ex (fun _ => False) h.

Lemma good_nil : good [].
Proof.
  split; unfold problem_exists, observer_exists; intros;
    repeat match goal with H : nth_error [] ?a = Some _ |- _ => destruct a; discriminate H end.
Qed.

(** ** Freeing *)

Definition released (F : addr -> Prop) (h h' : heap) : Prop :=
  length h' = length h /\
  (forall x, F x -> nth_error h' x = Some None) /\
  (forall x p, ~ F x -> (problem_exists h x p <-> problem_exists h' x p)) /\
  (forall x, nth_error h x = Some None -> nth_error h' x = Some None) /\
  (forall b o, observer_exists h b o -> exists o', observer_exists h' b o' /\ o_name o' = o_name o /\ o_kind o' = o_kind o /\
     (o_observed o' = o_observed o \/ exists w, F w /\ o_observed o = Some w /\ o_observed o' = None)) /\
  (forall b o', observer_exists h' b o' -> exists o, observer_exists h b o).

Ltac look := unfold problem_exists, observer_exists in *;
  repeat first
   [ rewrite nth_upd in * by (repeat rewrite upd_length; eauto using exists_lt)
   | rewrite nth_snoc in * ].

Lemma inside_le : forall h a, (forall w p l, problem_exists h w p -> p_logger p = Some l -> lg_inner l < w) ->
  forall x, inside h a x -> x <= a.
Proof.
  intros h a G x H. induction H as [|w b l H IH (p & Hp & Hl & <-)]; [lia|].
  specialize (G w p l Hp Hl). lia.
Qed.

Lemma inside_split : forall h a p l, problem_exists h a p -> p_logger p = Some l ->
  forall x, inside h a x <-> x = a \/ inside h (lg_inner l) x.
Proof.
  intros h a p l Hp Hl x. split.
  - intros H. induction H as [|w b k H IH W]; [now left|].
    right. destruct IH as [->|IH].
    + destruct W as (q & Hq & Hk & <-). pose proof (problem_fun _ _ _ _ Hp Hq). subst q.
      replace k with l by congruence. constructor.
    + eapply inside_down; eauto.
  - intros [->|H]; [constructor|].
    induction H as [|w b k H IH W].
    + eapply (inside_down h a a _ l); [constructor|]. exists p. auto.
    + eapply inside_down; eauto.
Qed.

Lemma inside_base : forall h a p, problem_exists h a p -> p_logger p = None ->
  forall x, inside h a x <-> x = a.
Proof.
  intros h a p Hp Hl x. split; [|intros ->; constructor].
  intros H. induction H as [|w b k H -> (q & Hq & Hk & _)]; [reflexivity|].
  pose proof (problem_fun _ _ _ _ Hp Hq). congruence.
Qed.

Lemma inside_problem : forall h a, good h -> forall p, problem_exists h a p ->
  forall x, inside h a x -> exists q, problem_exists h x q.
Proof.
  intros h a G p Hp x H. induction H as [|w b k H IH (q & Hq & Hk & <-)]; [eauto|].
  destruct (g_inner _ _ G _ _ _ Hq Hk (fun f => f)) as (r & n & Hr & _). eauto.
Qed.

(** The cell w disappears, its observer (if any) watches nothing. *)
Lemma free_data_ok : forall E h w p l, good_ex E h -> problem_exists h w p -> p_logger p = Some l ->
  exists h', coco_problem_transformed_free_data h w = Ok h' /\ released (eq w) h h' /\
    good_ex (fun x => x = w \/ (E x /\ x <> lg_inner l)) h'.
Proof.
  intros E h w p l G Hp Hl. unfold coco_problem_transformed_free_data.
  rewrite (problem_at_ok _ _ _ Hp). cbn [bind]. rewrite Hl.
  assert (Lw : w < length h) by (eapply exists_lt; exact Hp).
  assert (CASE : (exists b o, observer_exists h b o /\ o_observed o = Some w /\ o_kind o = lg_kind l /\ cyclic (lg_kind l) = true /\
                     lg_observer l = Some b) \/
                 (cyclic (lg_kind l) = false \/ lg_observer l = None)).
  { destruct (cyclic (lg_kind l)) eqn:Ck; [|tauto].
    destruct (lg_observer l) as [b|] eqn:Ob; [|tauto].
    destruct (g_back _ _ G _ _ _ _ Hp Hl Ck Ob) as (o & H1 & H2 & H3). left. exists b, o. auto. }
  destruct CASE as [(b & o & Hb & Ho & Kd & Ck & Lo)|NO].
  - rewrite Ck, Lo, (observer_at_ok _ _ _ Hb). cbn [bind].
    assert (Lb : b < length h) by (eapply exists_lt; exact Hb).
    assert (Nbw : b <> w) by (intros ->; eapply not_both; eauto).
    eexists. split; [reflexivity|].
    assert (LOOK : forall x, nth_error (upd (upd h b (Some (CObserver (set_observed o None)))) w None) x =
               if x =? w then Some None else if x =? b then Some (Some (CObserver (set_observed o None))) else nth_error h x).
    { intros x. rewrite nth_upd by now rewrite upd_length. rewrite nth_upd by assumption. reflexivity. }
    set (h' := upd (upd h b (Some (CObserver (set_observed o None)))) w None) in *.
    assert (PR : forall x q, problem_exists h' x q <-> x <> w /\ problem_exists h x q).
    { intros x q. unfold problem_exists. rewrite LOOK.
      destruct (Nat.eqb_spec x w) as [->|N1]; [split; [intros K; congruence|tauto]|].
      destruct (Nat.eqb_spec x b) as [->|N2]; [|tauto].
      split; [congruence|]. intros [_ K]. exfalso. eapply not_both; eauto. }
    assert (OB : forall x q, observer_exists h' x q <->
               (x = b /\ q = set_observed o None) \/ (x <> b /\ observer_exists h x q)).
    { intros x q. unfold observer_exists. rewrite LOOK.
      destruct (Nat.eqb_spec x w) as [->|N1].
      - split; [congruence|]. intros [[-> _]|[_ K]]; [congruence|]. exfalso. eapply not_both; eauto.
      - destruct (Nat.eqb_spec x b) as [->|N2].
        + split; [intros K; left; split; [reflexivity|congruence]|]. intros [[_ ->]|[K _]]; congruence.
        + split; [tauto|]. intros [[K _]|[_ K]]; [congruence|assumption]. }
    split.
    + split; [unfold h'; now rewrite !upd_length|].
      split; [intros x <-; rewrite LOOK, Nat.eqb_refl; reflexivity|].
      split; [intros x q Nx; rewrite PR; intuition congruence|].
      split.
      { intros x K. rewrite LOOK. destruct (x =? w); [reflexivity|].
        destruct (Nat.eqb_spec x b) as [->|]; [|assumption]. unfold observer_exists in Hb. congruence. }
      split.
      { intros x q K. destruct (Nat.eq_dec x b) as [->|N].
        - pose proof (observer_fun _ _ _ _ Hb K). subst q.
          exists (set_observed o None). split; [apply OB; now left|].
          split; [reflexivity|]. split; [reflexivity|]. right. exists w. auto.
        - exists q. split; [apply OB; now right|]. auto. }
      intros x q K. apply OB in K. destruct K as [[-> _]|[_ K]]; eauto.
    + split.
      * intros v q k K1 K2. apply PR in K1. eapply g_lt; [exact G| |]; [apply K1|assumption].
      * intros v q k K1 K2 K3. apply PR in K1. destruct K1 as [Nv K1].
        assert (NE : ~ E (lg_inner k)).
        { intros Ek. apply K3. right. split; [assumption|]. intros Eq. apply Nv. symmetry.
          eapply (g_inj _ _ G w v); eauto. }
        destruct (g_inner _ _ G _ _ _ K1 K2 NE) as (r & n & R1 & R2 & R3). exists r, n.
        split; [apply PR; split; [intros Eq; apply K3; now left|assumption]|]. auto.
      * intros w1 w2 p1 p2 l1 l2 K1 K2. apply PR in K1, K2. destruct K1, K2. eapply g_inj; eauto.
      * intros v q k c K1 K2 K3 K4. apply PR in K1. destruct K1 as [Nv K1].
        destruct (g_back _ _ G _ _ _ _ K1 K2 K3 K4) as (o2 & R1 & R2 & R3).
        exists o2. split; [|auto]. apply OB. right. split; [|assumption].
        intros ->. pose proof (observer_fun _ _ _ _ Hb R1). congruence.
      * intros c o2 v K1 K2. apply OB in K1. destruct K1 as [[-> ->]|[Nc K1]]; [discriminate K2|].
        destruct (g_forth _ _ G _ _ _ K1 K2) as (C1 & q & k & R1 & R2 & R3 & R4).
        split; [assumption|]. exists q, k. split; [|auto]. apply PR. split; [|assumption].
        intros ->. pose proof (problem_fun _ _ _ _ Hp R1). congruence.
      * intros c o2 K1. apply OB in K1. destruct K1 as [[-> ->]|[Nc K1]].
        -- apply (g_names _ _ G _ _ Hb).
        -- apply (g_names _ _ G _ _ K1).
  - assert (EQ : (if cyclic (lg_kind l)
                  then match lg_observer l with
                       | Some b => do o <- observer_at h b; Ok (upd h b (Some (CObserver (set_observed o None))))
                       | None => Ok h
                       end else Ok h) = Ok h).
    { destruct NO as [->| ->]; [reflexivity|]. now destruct (cyclic (lg_kind l)). }
    rewrite EQ. cbn [bind]. eexists. split; [reflexivity|].
    assert (LOOK : forall x, nth_error (upd h w None) x = if x =? w then Some None else nth_error h x)
      by (intros x; now rewrite nth_upd).
    set (h' := upd h w None) in *.
    assert (PR : forall x q, problem_exists h' x q <-> x <> w /\ problem_exists h x q).
    { intros x q. unfold problem_exists. rewrite LOOK.
      destruct (Nat.eqb_spec x w) as [->|N1]; [split; [congruence|tauto]|tauto]. }
    assert (OB : forall x q, observer_exists h' x q <-> observer_exists h x q).
    { intros x q. unfold observer_exists. rewrite LOOK.
      destruct (Nat.eqb_spec x w) as [->|N1]; [|tauto].
      split; [congruence|]. intros K. exfalso. eapply not_both; eauto. }
    split.
    + split; [unfold h'; now rewrite !upd_length|].
      split; [intros x <-; rewrite LOOK, Nat.eqb_refl; reflexivity|].
      split; [intros x q Nx; rewrite PR; intuition congruence|].
      split; [intros x K; rewrite LOOK; destruct (x =? w); [reflexivity|assumption]|].
      split; [intros x q K; exists q; rewrite OB; auto|].
      intros x q K. apply OB in K. eauto.
    + split.
      * intros v q k K1 K2. apply PR in K1. eapply g_lt; [exact G| |]; [apply K1|assumption].
      * intros v q k K1 K2 K3. apply PR in K1. destruct K1 as [Nv K1].
        assert (NE : ~ E (lg_inner k)).
        { intros Ek. apply K3. right. split; [assumption|]. intros Eq. apply Nv. symmetry.
          eapply (g_inj _ _ G w v); eauto. }
        destruct (g_inner _ _ G _ _ _ K1 K2 NE) as (r & n & R1 & R2 & R3). exists r, n.
        split; [apply PR; split; [intros Eq; apply K3; now left|assumption]|]. auto.
      * intros w1 w2 p1 p2 l1 l2 K1 K2. apply PR in K1, K2. destruct K1, K2. eapply g_inj; eauto.
      * intros v q k c K1 K2 K3 K4. apply PR in K1. destruct K1 as [Nv K1].
        destruct (g_back _ _ G _ _ _ _ K1 K2 K3 K4) as (o2 & R1 & R2 & R3).
        exists o2. split; [|auto]. now apply OB.
      * intros c o2 v K1 K2. apply OB in K1.
        destruct (g_forth _ _ G _ _ _ K1 K2) as (C1 & q & k & R1 & R2 & R3 & R4).
        split; [assumption|]. exists q, k. split; [|auto]. apply PR. split; [|assumption].
        intros ->. pose proof (problem_fun _ _ _ _ Hp R1). subst q.
        assert (k = l) by congruence. subst k.
        destruct NO as [NO|NO]; congruence.
      * intros c o2 K1. apply OB in K1. apply (g_names _ _ G _ _ K1).
Qed.

Lemma released_iff : forall F F' h h', (forall x, F x <-> F' x) -> released F h h' -> released F' h h'.
Proof.
  intros F F' h h' EQ (A & B & C & D & X & Y).
  split; [assumption|].
  split; [intros x H; apply B; now apply EQ|].
  split; [intros x p H; apply C; now rewrite EQ|].
  split; [assumption|]. split; [|assumption].
  intros b o H. destruct (X b o H) as (o' & H1 & H2 & H3 & [H4|(w & H4 & H5 & H6)]).
  - exists o'. auto.
  - exists o'. do 3 (split; [assumption|]). right. exists w. split; [now apply EQ|auto].
Qed.

Lemma released_trans : forall F1 F2 h1 h2 h3, released F1 h1 h2 -> released F2 h2 h3 ->
  released (fun x => F1 x \/ F2 x) h1 h3.
Proof.
  intros F1 F2 h1 h2 h3 (A1 & B1 & C1 & D1 & X1 & Y1) (A2 & B2 & C2 & D2 & X2 & Y2).
  split; [congruence|].
  split; [intros x [H|H]; auto|].
  split; [intros x p H; rewrite C1 by tauto; apply C2; tauto|].
  split; [auto|].
  split.
  - intros b o H. destruct (X1 b o H) as (o1 & P1 & P2 & P3 & P4).
    destruct (X2 b o1 P1) as (o2 & Q1 & Q2 & Q3 & Q4).
    exists o2. split; [assumption|]. split; [congruence|]. split; [congruence|].
    destruct P4 as [P4|(w & W1 & W2 & W3)].
    + rewrite <- P4. destruct Q4 as [Q4|(w & W1 & W2 & W3)]; [now left|].
      right. exists w. auto.
    + destruct Q4 as [Q4|(v & V1 & V2 & V3)]; [|congruence].
      right. exists w. split; [now left|]. split; [assumption|]. congruence.
  - intros b o H. destruct (Y2 b o H) as [o1 H1]. eapply Y1; eauto.
Qed.

Lemma good_ex_iff : forall (E E' : addr -> Prop) h, (forall x, E x -> E' x) -> good_ex E h -> good_ex E' h.
Proof.
  intros E E' h I [A B C D X Y]. split; auto.
  intros w p l H1 H2 H3. apply (B w p l H1 H2). auto.
Qed.

Lemma free_ok : forall a h p fuel, good h -> problem_exists h a p -> a < fuel ->
  exists h', coco_problem_free fuel h a = Ok h' /\ good_ex (eq a) h' /\ released (inside h a) h h'.
Proof.
  induction a as [a IH] using lt_wf_ind. intros h p fuel G Hp L.
  destruct fuel as [|fuel]; [lia|]. cbn [coco_problem_free].
  rewrite (problem_at_ok _ _ _ Hp). cbn [bind].
  destruct (p_logger p) as [l|] eqn:Hl.
  - pose proof (g_lt _ _ G _ _ _ Hp Hl) as Lt.
    destruct (g_inner _ _ G _ _ _ Hp Hl (fun f => f)) as (q & n & Hq & _).
    destruct (IH (lg_inner l) Lt h q fuel G Hq ltac:(lia)) as (h1 & E1 & G1 & R1).
    rewrite E1. cbn [bind].
    assert (Hp1 : problem_exists h1 a p).
    { apply (proj1 (proj2 (proj2 R1)) a p); [|assumption].
      intros K. apply (inside_le h (lg_inner l) (g_lt _ _ G)) in K. lia. }
    destruct (free_data_ok _ h1 a p l G1 Hp1 Hl) as (h2 & E2 & R2 & G2).
    exists h2. split; [assumption|]. split.
    + eapply good_ex_iff; [|exact G2]. intros x [K|[K1 K2]]; congruence.
    + eapply released_iff; [|eapply released_trans; eassumption].
      intros x. cbn beta. rewrite (inside_split h a p l Hp Hl x). intuition.
  - assert (La : a < length h) by (eapply exists_lt; exact Hp).
    exists (upd h a None). split; [reflexivity|].
    assert (LOOK : forall x, nth_error (upd h a None) x = if x =? a then Some None else nth_error h x)
      by (intros x; now rewrite nth_upd).
    set (h' := upd h a None) in *.
    assert (PR : forall x q, problem_exists h' x q <-> x <> a /\ problem_exists h x q).
    { intros x q. unfold problem_exists. rewrite LOOK.
      destruct (Nat.eqb_spec x a) as [->|N1]; [split; [congruence|tauto]|tauto]. }
    assert (OB : forall x q, observer_exists h' x q <-> observer_exists h x q).
    { intros x q. unfold observer_exists. rewrite LOOK.
      destruct (Nat.eqb_spec x a) as [->|N1]; [|tauto].
      split; [congruence|]. intros K. exfalso. eapply not_both; eauto. }
    split.
    + split.
      * intros v q k K1 K2. apply PR in K1. eapply g_lt; [exact G| |]; [apply K1|assumption].
      * intros v q k K1 K2 K3. apply PR in K1. destruct K1 as [Nv K1].
        destruct (g_inner _ _ G _ _ _ K1 K2 (fun f => f)) as (r & n & R1 & R2 & R3). exists r, n.
        split; [apply PR; split; congruence|]. auto.
      * intros w1 w2 p1 p2 l1 l2 K1 K2. apply PR in K1, K2. destruct K1, K2. eapply g_inj; eauto.
      * intros v q k c K1 K2 K3 K4. apply PR in K1. destruct K1 as [Nv K1].
        destruct (g_back _ _ G _ _ _ _ K1 K2 K3 K4) as (o2 & R1 & R2 & R3).
        exists o2. split; [|auto]. now apply OB.
      * intros c o2 v K1 K2. apply OB in K1.
        destruct (g_forth _ _ G _ _ _ K1 K2) as (C1 & q & k & R1 & R2 & R3 & R4).
        split; [assumption|]. exists q, k. split; [|auto]. apply PR. split; [|assumption].
        intros ->. pose proof (problem_fun _ _ _ _ Hp R1). congruence.
      * intros c o2 K1. apply OB in K1. apply (g_names _ _ G _ _ K1).
    + eapply (released_iff (eq a)); [intros x; rewrite (inside_base h a p Hp Hl x); intuition|].
      split; [unfold h'; now rewrite !upd_length|].
      split; [intros x <-; rewrite LOOK, Nat.eqb_refl; reflexivity|].
      split; [intros x q Nx; rewrite PR; intuition congruence|].
      split; [intros x K; rewrite LOOK; destruct (x =? a); [reflexivity|assumption]|].
      split; [intros x q K; exists q; rewrite OB; auto|].
      intros x q K. apply OB in K. eauto.
Qed.

(** ** What never changes about an object *)

Definition same_logger (l l' : option logger) : Prop :=
  match l, l' with
  | None, None => True
  | Some l, Some l' => lg_kind l' = lg_kind l /\ lg_inner l' = lg_inner l
  | _, _ => False
  end.

Definition cell_later (c c' : option cell) : Prop :=
  match c, c' with
  | Some (CProblem p), Some (CProblem p') =>
      p_name p' = p_name p /\ p_objectives p' = p_objectives p /\ same_logger (p_logger p) (p_logger p')
  | Some (CObserver o), Some (CObserver o') => o_name o' = o_name o /\ o_kind o' = o_kind o
  | _, None => True
  | _, _ => False
  end.

Definition later (h h' : heap) : Prop :=
  length h <= length h' /\
  forall x c c', nth_error h x = Some c -> nth_error h' x = Some c' -> cell_later c c'.

Lemma same_logger_refl : forall l, same_logger l l.
Proof. intros [l|]; simpl; auto. Qed.

Lemma cell_later_refl : forall c, cell_later c c.
Proof. intros [[p|o]|]; simpl; auto using same_logger_refl. Qed.

Lemma cell_later_trans : forall c1 c2 c3, cell_later c1 c2 -> cell_later c2 c3 -> cell_later c1 c3.
Proof.
  intros [[p1|o1]|] [[p2|o2]|] [[p3|o3]|]; simpl; try tauto.
  - intros (A & B & C) (A' & B' & C'). split; [congruence|]. split; [congruence|].
    destruct (p_logger p1), (p_logger p2), (p_logger p3); simpl in *; try tauto.
    destruct C, C'. split; congruence.
  - intros (A & B) (A' & B'). split; congruence.
Qed.

Lemma later_refl : forall h, later h h.
Proof. intros h. split; [lia|]. intros x c c' H1 H2. replace c' with c by congruence. apply cell_later_refl. Qed.

Lemma later_trans : forall h1 h2 h3, later h1 h2 -> later h2 h3 -> later h1 h3.
Proof.
  intros h1 h2 h3 [A1 B1] [A2 B2]. split; [lia|]. intros x c1 c3 H1 H3.
  destruct (nth_error h2 x) as [c2|] eqn:H2.
  - eapply cell_later_trans; eauto.
  - apply nth_error_None in H2. apply exists_lt in H1. lia.
Qed.

Lemma later_snoc : forall h c, later h (h ++ [c]).
Proof.
  intros h c. split; [rewrite app_length; lia|]. intros x d d' H1 H2.
  rewrite nth_error_app1 in H2 by (eapply exists_lt; eauto).
  replace d' with d by congruence. apply cell_later_refl.
Qed.

Lemma later_upd : forall h a c c', nth_error h a = Some c -> cell_later c c' -> later h (upd h a c').
Proof.
  intros h a c c' H L. split; [rewrite upd_length; lia|]. intros x d d' H1 H2.
  rewrite nth_upd in H2 by (eapply exists_lt; eauto).
  destruct (Nat.eqb_spec x a) as [->|N].
  - replace d with c by congruence. replace d' with c' by congruence. assumption.
  - replace d' with d by congruence. apply cell_later_refl.
Qed.

Lemma released_later : forall F h h', (forall x, F x \/ ~ F x) -> released F h h' -> later h h'.
Proof.
  intros F h h' DEC (A & B & C & D & X & Y). split; [lia|]. intros x c c' H1 H2.
  destruct (DEC x) as [K|K].
  - rewrite (B x K) in H2. assert (c' = None) by congruence. subst c'. destruct c as [[p|o]|]; exact I.
  - destruct c as [[p|o]|].
    + apply (C x p K) in H1. unfold problem_exists in H1. assert (c' = Some (CProblem p)) by congruence. subst c'.
      apply cell_later_refl.
    + destruct (X x o H1) as (o' & P1 & P2 & P3 & _). unfold observer_exists in P1.
      assert (c' = Some (CObserver o')) by congruence. subst c'. simpl. auto.
    + apply D in H1. assert (c' = None) by congruence. subst c'. exact I.
Qed.

Lemma inside_dec : forall h a p, good h -> problem_exists h a p -> forall x, inside h a x \/ ~ inside h a x.
Proof.
  intros h a. induction a as [a IH] using lt_wf_ind. intros p G Hp x.
  destruct (p_logger p) as [l|] eqn:Hl.
  - rewrite (inside_split h a p l Hp Hl x).
    destruct (Nat.eq_dec x a); [tauto|].
    destruct (g_inner _ _ G _ _ _ Hp Hl (fun f => f)) as (q & n' & Hq & _).
    destruct (IH _ (g_lt _ _ G _ _ _ Hp Hl) q G Hq x); tauto.
  - rewrite (inside_base h a p Hp Hl x). lia.
Qed.

Lemma good_of_ex : forall h h' a, outermost h a -> good_ex (eq a) h' ->
  (forall w p l, problem_exists h' w p -> p_logger p = Some l -> lg_inner l = a ->
     exists l', wraps h w a l') -> good h'.
Proof.
  intros h h' a (_ & Out) [A B C D X Y] SUB. split; auto.
  intros w p l H1 H2 _. apply (B w p l H1 H2). intros K.
  destruct (SUB w p l H1 H2 (eq_sym K)) as (l' & W). exact (Out w l' W).
Qed.

Lemma free_problem_good : forall h a p, good h -> problem_exists h a p -> outermost h a ->
  exists h', coco_problem_free (S (length h)) h a = Ok h' /\ good h' /\ released (inside h a) h h'.
Proof.
  intros h a p G Hp Out.
  destruct (free_ok a h p (S (length h)) G Hp) as (h' & E & G' & R).
  { apply exists_lt in Hp. lia. }
  exists h'. split; [assumption|]. split; [|assumption].
  eapply good_of_ex; [exact Out|exact G'|].
  intros w q l H1 H2 H3. exists l. exists q.
  destruct R as (_ & B & C & _).
  assert (N : ~ inside h a w) by (intros K; apply B in K; unfold problem_exists in H1; congruence).
  split; [apply (C w q N); assumption|]. auto.
Qed.

Lemma remove_good : forall h a p l, good h -> problem_exists h a p -> outermost h a -> p_logger p = Some l ->
  exists h', coco_problem_transformed_free_data h a = Ok h' /\ good h' /\ released (eq a) h h'.
Proof.
  intros h a p l G Hp Out Hl.
  destruct (free_data_ok _ h a p l G Hp Hl) as (h' & E & R & G').
  exists h'. split; [assumption|]. split; [|assumption].
  eapply good_of_ex; [exact Out| |].
  - eapply good_ex_iff; [|exact G']. intros x [->|[[] _]]. reflexivity.
  - intros w q k H1 H2 H3. exists k. exists q.
    destruct R as (_ & B & C & _).
    assert (N : a <> w) by (intros <-; specialize (B a eq_refl); unfold problem_exists in H1; congruence).
    split; [apply (C w q N); assumption|]. auto.
Qed.

(** ** Evaluations *)

Definition touched_logger (l l' : option logger) : Prop :=
  match l, l' with
  | None, None => True
  | Some l, Some l' => lg_kind l' = lg_kind l /\ lg_inner l' = lg_inner l /\ lg_observer l' = lg_observer l /\
                       (lg_started l = true -> lg_started l' = true)
  | _, _ => False
  end.

Definition touched_problem (p p' : problem_cell) : Prop :=
  p_name p' = p_name p /\ p_objectives p' = p_objectives p /\ touched_logger (p_logger p) (p_logger p').

Definition touched (h h' : heap) : Prop :=
  length h' = length h /\
  (forall x o, observer_exists h x o <-> observer_exists h' x o) /\
  (forall x, nth_error h x = Some None <-> nth_error h' x = Some None) /\
  (forall x p, problem_exists h x p -> exists p', problem_exists h' x p' /\ touched_problem p p') /\
  (forall x p', problem_exists h' x p' -> exists p, problem_exists h x p /\ touched_problem p p').

Lemma touched_logger_refl : forall l, touched_logger l l.
Proof. intros [l|]; simpl; auto. Qed.
Lemma touched_problem_refl : forall p, touched_problem p p.
Proof. intros p. split; [reflexivity|]. split; [reflexivity|apply touched_logger_refl]. Qed.
Lemma touched_refl : forall h, touched h h.
Proof.
  intros h. repeat split; auto; intros; eauto using touched_problem_refl.
Qed.
Lemma touched_problem_trans : forall p1 p2 p3, touched_problem p1 p2 -> touched_problem p2 p3 -> touched_problem p1 p3.
Proof.
  intros p1 p2 p3 (A & B & C) (A' & B' & C'). split; [congruence|]. split; [congruence|].
  destruct (p_logger p1), (p_logger p2), (p_logger p3); simpl in *; try tauto.
  destruct C as (X & Y & Z & T), C' as (X' & Y' & Z' & T'). repeat split; try congruence. auto.
Qed.
Lemma touched_trans : forall h1 h2 h3, touched h1 h2 -> touched h2 h3 -> touched h1 h3.
Proof.
  intros h1 h2 h3 (A & B & N & C & D) (A' & B' & N' & C' & D').
  split; [congruence|].
  split; [intros x o; rewrite B; apply B'|].
  split; [intros x; rewrite N; apply N'|].
  split.
  - intros x p H. destruct (C x p H) as (q & H1 & H2). destruct (C' x q H1) as (r & H3 & H4).
    exists r. split; [assumption|]. eapply touched_problem_trans; eauto.
  - intros x p H. destruct (D' x p H) as (q & H1 & H2). destruct (D x q H1) as (r & H3 & H4).
    exists r. split; [assumption|]. eapply touched_problem_trans; eauto.
Qed.

Lemma touched_good : forall h h', touched h h' -> good h -> good h'.
Proof.
  intros h h' (A & B & N & C & D) G.
  assert (BACK : forall w p' l', problem_exists h' w p' -> p_logger p' = Some l' ->
            exists p l, problem_exists h w p /\ p_logger p = Some l /\ p_name p' = p_name p /\
              lg_kind l' = lg_kind l /\ lg_inner l' = lg_inner l /\ lg_observer l' = lg_observer l).
  { intros w p' l' H1 H2. destruct (D w p' H1) as (p & P1 & P2 & P3 & P4). rewrite H2 in P4.
    destruct (p_logger p) as [l|] eqn:E; simpl in P4; [|tauto]. exists p, l. tauto. }
  split.
  - intros w p' l' H1 H2. destruct (BACK w p' l' H1 H2) as (p & l & K1 & K2 & K3 & K4 & K5 & K6).
    rewrite K5. eapply g_lt; eauto.
  - intros w p' l' H1 H2 _. destruct (BACK w p' l' H1 H2) as (p & l & K1 & K2 & K3 & K4 & K5 & K6).
    destruct (g_inner _ _ G _ _ _ K1 K2 (fun f => f)) as (q & n & Q1 & Q2 & Q3).
    destruct (C _ _ Q1) as (q' & R1 & R2 & _).
    exists q', n. rewrite K5. split; [assumption|]. split; [assumption|]. congruence.
  - intros w1 w2 p1 p2 l1 l2 H1 H2 H3 H4 H5.
    destruct (BACK w1 p1 l1 H1 H3) as (p & l & K1 & K2 & K3 & K4 & K5 & K6).
    destruct (BACK w2 p2 l2 H2 H4) as (p' & l' & J1 & J2 & J3 & J4 & J5 & J6).
    eapply (g_inj _ _ G w1 w2 p p' l l'); eauto. congruence.
  - intros w p' l' b H1 H2 H3 H4. destruct (BACK w p' l' H1 H2) as (p & l & K1 & K2 & K3 & K4 & K5 & K6).
    destruct (g_back _ _ G w p l b K1 K2) as (o & O1 & O2 & O3); [congruence|congruence|].
    exists o. split; [now apply B|]. split; congruence.
  - intros b o w H1 H2. apply B in H1. destruct (g_forth _ _ G b o w H1 H2) as (C1 & p & l & Q1 & Q2 & Q3 & Q4).
    split; [assumption|]. destruct (C w p Q1) as (p' & R1 & R2 & R3 & R4). rewrite Q2 in R4.
    destruct (p_logger p') as [l'|] eqn:E; simpl in R4; [|tauto]. destruct R4 as (S1 & S2 & S3 & S4).
    exists p', l'. split; [assumption|]. split; [assumption|]. split; congruence.
  - intros b o H1. apply B in H1. eapply g_names; eauto.
Qed.

Lemma touched_later : forall h h', touched h h' -> later h h'.
Proof.
  intros h h' (A & B & N & C & D). split; [lia|]. intros x c c' H1 H2.
  destruct c as [[p|o]|].
  - destruct (C x p H1) as (p' & P1 & P2 & P3 & P4). unfold problem_exists in P1.
    assert (c' = Some (CProblem p')) by congruence. subst c'. simpl. split; [assumption|]. split; [assumption|].
    destruct (p_logger p), (p_logger p'); simpl in *; tauto.
  - apply B in H1. unfold observer_exists in H1. assert (c' = Some (CObserver o)) by congruence. subst c'.
    apply cell_later_refl.
  - apply N in H1. assert (c' = None) by congruence. subst c'. exact I.
Qed.

Lemma touched_inside : forall h h' a, touched h h' -> forall x, inside h' a x -> inside h a x.
Proof.
  intros h h' a (A & B & N & C & D) x H. induction H as [|w b l H IH (p & P1 & P2 & P3)]; [constructor|].
  destruct (D w p P1) as (q & Q1 & Q2 & Q3 & Q4). rewrite P2 in Q4.
  destruct (p_logger q) as [k|] eqn:E; simpl in Q4; [|tauto].
  eapply inside_down; [exact IH|]. exists q. split; [exact Q1|]. split; [exact E|]. destruct Q4 as (_ & Q4 & _). congruence.
Qed.

Lemma touched_ready : forall h h' w b l', touched h h' -> wraps h' w b l' ->
  exists l, wraps h w b l /\ (ready h l -> ready h' l') /\ (ready_recommend h l -> ready_recommend h' l').
Proof.
  intros h h' w b l' (A & B & N & C & D) (p & P1 & P2 & P3).
  destruct (D w p P1) as (q & Q1 & Q2 & Q3 & Q4). rewrite P2 in Q4.
  destruct (p_logger q) as [l|] eqn:E; simpl in Q4; [|tauto]. destruct Q4 as (R1 & R2 & R3 & R4).
  assert (RD : ready h l -> ready h' l').
  { unfold ready. rewrite R1, R3. destruct (lg_kind l); auto.
    - intros K L. apply K. destruct (lg_started l); [|reflexivity]. rewrite R4 in L; auto.
    - intros (b' & o & K1 & K2). exists b', o. split; [assumption|]. now apply B. }
  exists l. split; [exists q; split; [exact Q1|]; split; [exact E|]; congruence|].
  split; [exact RD|]. intros (K1 & K2). split; [auto|]. rewrite R1, R3. assumption.
Qed.

Lemma start_ok : forall h w p l, good h -> problem_exists h w p -> p_logger p = Some l -> lg_kind l = KBbob ->
  ready h l -> exists h', logger_bbob_start h w p l = Ok h' /\ touched h h'.
Proof.
  intros h w p l G Hp Hl K R. unfold logger_bbob_start, ready in *. rewrite K in R.
  destruct (lg_started l) eqn:S0; [exists h; split; [reflexivity|apply touched_refl]|].
  destruct (lg_observer l) as [b|] eqn:Ob; [|exfalso; apply R; auto].
  destruct (g_back _ _ G w p l b Hp Hl) as (o & O1 & _); [now rewrite K|assumption|].
  rewrite (observer_at_ok _ _ _ O1). cbn [bind]. eexists. split; [reflexivity|].
  set (p' := set_logger p _).
  assert (LOOK : forall x, nth_error (upd h w (Some (CProblem p'))) x =
                   if x =? w then Some (Some (CProblem p')) else nth_error h x)
    by (intros x; rewrite nth_upd by (eapply exists_lt; exact Hp); reflexivity).
  assert (T : touched_problem p p').
  { split; [reflexivity|]. split; [reflexivity|]. rewrite Hl. simpl. rewrite Ob. auto. }
  unfold touched, problem_exists, observer_exists. split; [apply upd_length|].
  split.
  { intros x o'. rewrite LOOK. destruct (Nat.eqb_spec x w) as [->|]; [|tauto].
    unfold problem_exists in Hp. split; congruence. }
  split.
  { intros x. rewrite LOOK. destruct (Nat.eqb_spec x w) as [->|]; [|tauto].
    unfold problem_exists in Hp. split; congruence. }
  split.
  - intros x q H. rewrite LOOK. destruct (Nat.eqb_spec x w) as [->|].
    + exists p'. split; [reflexivity|]. unfold problem_exists in Hp. replace q with p by congruence. exact T.
    + exists q. split; [assumption|]. apply touched_problem_refl.
  - intros x q. rewrite LOOK. destruct (Nat.eqb_spec x w) as [->|]; intros H.
    + exists p. split; [exact Hp|]. replace q with p' by congruence. exact T.
    + exists q. split; [assumption|]. apply touched_problem_refl.
Qed.

Lemma evaluate_ok : forall a h p fuel, good h -> problem_exists h a p -> a < fuel ->
  (forall w b l, inside h a w -> wraps h w b l -> ready h l) ->
  exists h', evaluate_touches fuel h a = Ok h' /\ touched h h'.
Proof.
  induction a as [a IH] using lt_wf_ind. intros h p fuel G Hp L R.
  destruct fuel as [|fuel]; [lia|]. cbn [evaluate_touches].
  rewrite (problem_at_ok _ _ _ Hp). cbn [bind].
  destruct (p_logger p) as [l|] eqn:Hl; [|exists h; split; [reflexivity|apply touched_refl]].
  pose proof (g_lt _ _ G _ _ _ Hp Hl) as Lt.
  destruct (g_inner _ _ G _ _ _ Hp Hl (fun f => f)) as (q & n & Hq & _).
  assert (Ra : ready h l) by (apply (R a (lg_inner l) l); [constructor|exists p; auto]).
  assert (Ri : forall w b k, inside h (lg_inner l) w -> wraps h w b k -> ready h k).
  { intros w b k K1 K2. apply (R w b k); [|assumption]. apply (inside_split h a p l Hp Hl). now right. }
  destruct (lg_kind l) eqn:K.
  - destruct (start_ok h a p l G Hp Hl K Ra) as (h1 & E1 & T1). rewrite E1. cbn [bind].
    pose proof (touched_good _ _ T1 G) as G1.
    destruct T1 as (T1a & T1b & T1n & T1c & T1d). pose proof (conj T1a (conj T1b (conj T1n (conj T1c T1d)))) as T1.
    destruct (T1c _ _ Hq) as (q1 & Hq1 & _).
    destruct (IH (lg_inner l) Lt h1 q1 fuel G1 Hq1 ltac:(lia)) as (h2 & E2 & T2).
    { intros w b k K1 K2. destruct (touched_ready h h1 w b k T1 K2) as (k0 & W & RD & _).
      apply RD. apply (Ri w b k0); [|assumption]. eapply touched_inside; eauto. }
    exists h2. split; [assumption|]. eapply touched_trans; eauto.
  - destruct (IH (lg_inner l) Lt h q fuel G Hq ltac:(lia) Ri) as (h2 & E2 & T2). eauto.
  - destruct (IH (lg_inner l) Lt h q fuel G Hq ltac:(lia) Ri) as (h2 & E2 & T2).
    rewrite E2. cbn [bind]. unfold ready in Ra. rewrite K in Ra. destruct Ra as (b & o & O1 & O2).
    rewrite O1. apply (proj1 (proj2 T2)) in O2. rewrite (observer_at_ok _ _ _ O2). cbn [bind]. eauto.
  - destruct (IH (lg_inner l) Lt h q fuel G Hq ltac:(lia) Ri) as (h2 & E2 & T2). eauto.
Qed.

Lemma recommend_ok : forall a h p fuel, good h -> problem_exists h a p -> a < fuel ->
  (forall w b l, inside h a w -> wraps h w b l -> ready_recommend h l) ->
  exists h', recommend_touches fuel h a = Ok h' /\ touched h h'.
Proof.
  induction a as [a IH] using lt_wf_ind. intros h p fuel G Hp L R.
  destruct fuel as [|fuel]; [lia|]. cbn [recommend_touches].
  rewrite (problem_at_ok _ _ _ Hp). cbn [bind].
  destruct (p_logger p) as [l|] eqn:Hl; [|exists h; split; [reflexivity|apply touched_refl]].
  pose proof (g_lt _ _ G _ _ _ Hp Hl) as Lt.
  destruct (g_inner _ _ G _ _ _ Hp Hl (fun f => f)) as (q & n & Hq & _).
  assert (Ra : ready_recommend h l) by (apply (R a (lg_inner l) l); [constructor|exists p; auto]).
  assert (Ri : forall w b k, inside h (lg_inner l) w -> wraps h w b k -> ready_recommend h k).
  { intros w b k K1 K2. apply (R w b k); [|assumption]. apply (inside_split h a p l Hp Hl). now right. }
  destruct (lg_kind l) eqn:K.
  - destruct (start_ok h a p l G Hp Hl K (proj1 Ra)) as (h1 & E1 & T1). rewrite E1. cbn [bind].
    pose proof (touched_good _ _ T1 G) as G1.
    destruct T1 as (T1a & T1b & T1n & T1c & T1d). pose proof (conj T1a (conj T1b (conj T1n (conj T1c T1d)))) as T1.
    destruct (T1c _ _ Hq) as (q1 & Hq1 & _).
    destruct (evaluate_ok (lg_inner l) h1 q1 fuel G1 Hq1 ltac:(lia)) as (h2 & E2 & T2).
    { intros w b k K1 K2. destruct (touched_ready h h1 w b k T1 K2) as (k0 & W & RD & _).
      apply RD. apply (Ri w b k0); [|assumption]. eapply touched_inside; eauto. }
    exists h2. split; [assumption|]. eapply touched_trans; eauto.
  - destruct Ra as (_ & Ra). rewrite K in Ra.
    destruct (lg_observer l) as [b|] eqn:Ob; [|congruence].
    destruct (g_back _ _ G a p l b Hp Hl) as (o & O1 & _); [now rewrite K|assumption|].
    rewrite (observer_at_ok _ _ _ O1). cbn [bind].
    apply (evaluate_ok (lg_inner l) h q fuel G Hq); [lia|].
    intros w c k K1 K2. apply (Ri w c k K1 K2).
  - destruct (IH (lg_inner l) Lt h q fuel G Hq ltac:(lia) Ri) as (h2 & E2 & T2). eauto.
  - destruct (IH (lg_inner l) Lt h q fuel G Hq ltac:(lia) Ri) as (h2 & E2 & T2). eauto.
Qed.

(** ** Names *)

Lemma strstr_paren : forall s, (In open_paren s ->
    exists n t, s = n ++ open_paren :: t /\ ~ In open_paren n /\ strstr s (str "(") = Some (length n)) /\
  (~ In open_paren s -> strstr s (str "(") = None).
Proof.
  change (str "(") with [open_paren].
  induction s as [|c s [IH1 IH2]]; [split; [intros []|reflexivity]|].
  cbn [strstr is_prefix]. destruct (Ascii.eqb_spec open_paren c) as [<-|N].
  - cbn [andb]. split.
    + intros _. exists [], s. split; [reflexivity|]. split; [intros []|]. now destruct s.
    + intros K. exfalso. apply K. now left.
  - cbn [andb]. split.
    + intros [K|K]; [congruence|]. destruct (IH1 K) as (n & t & -> & Nn & E).
      exists (c :: n), t. split; [reflexivity|]. split; [intros [J|J]; [congruence|contradiction]|].
      rewrite E. reflexivity.
    + intros K. rewrite IH2; [reflexivity|]. intros J. apply K. now right.
Qed.

Lemma remove_prefix : forall n t, ~ In open_paren n -> coco_remove_from_string (n ++ open_paren :: t) (str "(") [] = Ok n.
Proof.
  intros n t Nn. unfold coco_remove_from_string.
  destruct (strstr_paren (n ++ open_paren :: t)) as [H _].
  destruct H as (n' & t' & E & Nn' & S0); [apply in_or_app; right; now left|].
  assert (n' = n).
  { clear S0. revert n' E Nn'. induction n as [|c n IH]; intros n' E Nn'.
    - destruct n' as [|c' n']; [reflexivity|]. injection E as <- _. exfalso. apply Nn'. now left.
    - destruct n' as [|c' n'].
      + injection E as -> _. exfalso. apply Nn. now left.
      + injection E as <- E. f_equal. apply IH; [|assumption|].
        * intros K. apply Nn. now right.
        * intros K. apply Nn'. now right. }
  subst n'. change (match str "(" with [] => Some 0 | _ :: _ => strstr (n ++ open_paren :: t) (str "(") end)
    with (strstr (n ++ open_paren :: t) (str "(")).
  rewrite S0. destruct (Nat.ltb_spec (length (n ++ open_paren :: t)) (length n)) as [L|L].
  - rewrite app_length in L. lia.
  - rewrite skipn_all, firstn_app, Nat.sub_diag, firstn_all. simpl. now rewrite !app_nil_r.
Qed.

Lemma remove_no_prefix : forall s, ~ In open_paren s -> coco_remove_from_string s (str "(") [] = Err.
Proof.
  intros s N. unfold coco_remove_from_string.
  change (match str "(" with [] => Some 0 | _ :: _ => strstr s (str "(") end) with (strstr s (str "(")).
  now rewrite (proj2 (strstr_paren s) N).
Qed.

Lemma split_paren : forall s, In open_paren s -> exists n t, s = n ++ open_paren :: t /\ ~ In open_paren n.
Proof. intros s H. destruct (proj1 (strstr_paren s) H) as (n & t & A & B & _). eauto. Qed.

Lemma observed_name_value : forall n s,
  observed_name n s = strdupf_result (n ++ open_paren :: s ++ [")"%char]).
Proof.
  intros n s. unfold observed_name, coco_vstrdupf.
  change (fmt_max <=? length (str "%s(%s)")) with false. cbn iota.
  cbn. reflexivity.
Qed.

Lemma observed_name_cases : forall n s, length n + length s + 2 <= 443 ->
  (length n + length s + 2 <= 441 /\ observed_name n s = Ok (n ++ open_paren :: s ++ [")"%char])) \/
  (441 < length n + length s + 2 /\ observed_name n s = Err).
Proof.
  intros n s H. rewrite observed_name_value. unfold strdupf_result.
  assert (L : length (n ++ open_paren :: s ++ [")"%char]) = length n + length s + 2).
  { rewrite app_length. cbn [List.length]. rewrite app_length. cbn [List.length]. lia. }
  rewrite L.
  destruct (N.ltb_spec 443%N (N.of_nat (length n + length s + 2))); [lia|].
  destruct (N.ltb_spec 441%N (N.of_nat (length n + length s + 2))); [right|left]; (split; [lia|reflexivity]).
Qed.

(** ** Adding an observer *)

Definition kept_observer (k : kind) (b : addr) : option addr := match k with KRw => None | _ => Some b end.

Definition new_logger (k : kind) (a b : addr) : logger :=
  {| lg_kind := k; lg_inner := a; lg_observer := kept_observer k b; lg_started := false |}.

Definition added (h : heap) (a b : addr) (p : problem_cell) (o : observer_cell) (name : cstr) : heap :=
  let h1 := h ++ [Some (CProblem {| p_name := name; p_objectives := p_objectives p;
                                    p_logger := Some (new_logger (o_kind o) a b) |})] in
  if cyclic (o_kind o) then upd h1 b (Some (CObserver (set_observed o (Some (length h))))) else h1.

Lemma added_look : forall h a b p o name x, b < length h ->
  nth_error (added h a b p o name) x =
  if x =? length h then Some (Some (CProblem {| p_name := name; p_objectives := p_objectives p;
                                                p_logger := Some (new_logger (o_kind o) a b) |}))
  else if (x =? b) && cyclic (o_kind o) then Some (Some (CObserver (set_observed o (Some (length h)))))
  else nth_error h x.
Proof.
  intros h a b p o name x L. unfold added. destruct (cyclic (o_kind o)).
  - rewrite nth_upd by (rewrite app_length; lia). rewrite nth_snoc, andb_true_r.
    destruct (Nat.eqb_spec x b) as [->|]; [|reflexivity].
    destruct (Nat.eqb_spec b (length h)); [lia|reflexivity].
  - rewrite nth_snoc, andb_false_r. reflexivity.
Qed.

Lemma added_good : forall h a b p o name, good h -> problem_exists h a p -> observer_exists h b o -> outermost h a ->
  (cyclic (o_kind o) = true -> o_observed o = None) ->
  name = o_name o ++ open_paren :: p_name p ++ [")"%char] ->
  good (added h a b p o name) /\ later h (added h a b p o name).
Proof.
  intros h a b p o name G Hp Hb Out Free Nm.
  assert (Lb : b < length h) by (eapply exists_lt; exact Hb).
  assert (La : a < length h) by (eapply exists_lt; exact Hp).
  pose proof (fun x => added_look h a b p o name x Lb) as LOOK.
  set (h' := added h a b p o name) in *.
  set (P := {| p_name := name; p_objectives := p_objectives p; p_logger := Some (new_logger (o_kind o) a b) |}) in *.
  assert (NEW : nth_error h (length h) = None) by (apply nth_error_None; lia).
  assert (PR : forall x q, problem_exists h' x q <-> (x = length h /\ q = P) \/ problem_exists h x q).
  { intros x q. unfold problem_exists. rewrite LOOK.
    destruct (Nat.eqb_spec x (length h)) as [->|N].
    - split; [intros K; left; split; [reflexivity|congruence]|]. intros [[_ ->]|K]; congruence.
    - destruct ((x =? b) && cyclic (o_kind o)) eqn:B.
      + apply andb_true_iff in B as [B _]. apply Nat.eqb_eq in B. subst x.
        unfold observer_exists in Hb. split; [congruence|]. intros [[K _]|K]; congruence.
      + split; [tauto|]. intros [[K _]|K]; congruence. }
  assert (OB : forall x q, observer_exists h' x q <->
             (x = b /\ cyclic (o_kind o) = true /\ q = set_observed o (Some (length h))) \/
             ((x <> b \/ cyclic (o_kind o) = false) /\ observer_exists h x q)).
  { intros x q. unfold observer_exists. rewrite LOOK.
    destruct (Nat.eqb_spec x (length h)) as [->|N].
    - split; [congruence|]. intros [(K & _)|[_ K]]; [lia|congruence].
    - destruct (Nat.eqb_spec x b) as [->|N2]; cbn [andb].
      + destruct (cyclic (o_kind o)) eqn:C.
        * split; [intros K; left; repeat split; congruence|]. intros [(_ & _ & ->)|[[K|K] _]]; congruence.
        * split; [intros K; right; split; [now right|assumption]|]. intros [(_ & K & _)|[_ K]]; congruence.
      + split; [intros K; right; split; [now left|assumption]|]. intros [(K & _)|[_ K]]; congruence. }
  split.
  - split.
    + intros w q l K1 K2. apply PR in K1. destruct K1 as [[-> ->]|K1].
      * simpl in K2. injection K2 as <-. simpl. exact La.
      * eapply g_lt; eauto.
    + intros w q l K1 K2 _. apply PR in K1. destruct K1 as [[-> ->]|K1].
      * simpl in K2. injection K2 as <-. simpl. exists p, (o_name o).
        split; [apply PR; now right|]. split; [exact (g_names _ _ G _ _ Hb)|exact Nm].
      * destruct (g_inner _ _ G _ _ _ K1 K2 (fun f => f)) as (r & n & R1 & R2).
        exists r, n. split; [apply PR; now right|assumption].
    + assert (NW : forall w q l, problem_exists h w q -> p_logger q = Some l -> lg_inner l <> a).
      { intros w q l J1 J2 J3. destruct Out as [_ Out]. apply (Out w l). exists q. auto. }
      intros w1 w2 p1 p2 l1 l2 K1 K2 K3 K4 K5. apply PR in K1, K2.
      destruct K1 as [[-> ->]|K1], K2 as [[-> ->]|K2]; [reflexivity| | |].
      * simpl in K3. injection K3 as <-. simpl in K5. exfalso. eapply NW; eauto.
      * simpl in K4. injection K4 as <-. simpl in K5. exfalso. eapply NW; eauto.
      * eapply (g_inj _ _ G w1 w2); eauto.
    + intros w q l c K1 K2 K3 K4. apply PR in K1. destruct K1 as [[-> ->]|K1].
      * simpl in K2. injection K2 as <-. simpl in K3, K4.
        assert (c = b) by (unfold kept_observer in K4; destruct (o_kind o); try discriminate K3; congruence).
        subst c. exists (set_observed o (Some (length h))).
        split; [apply OB; left; auto|]. split; reflexivity.
      * destruct (g_back _ _ G _ _ _ _ K1 K2 K3 K4) as (o2 & O1 & O2 & O3).
        exists o2. split; [|auto]. apply OB. right. split; [|assumption].
        destruct (Nat.eq_dec c b) as [->|]; [|now left].
        pose proof (observer_fun _ _ _ _ Hb O1). subst o2.
        destruct (cyclic (o_kind o)) eqn:C; [|now right]. specialize (Free eq_refl). congruence.
    + intros c o2 w K1 K2. apply OB in K1. destruct K1 as [(-> & C & ->)|(C & K1)].
      * simpl in K2. injection K2 as <-. split; [exact C|].
        exists P, (new_logger (o_kind o) a b). split; [apply PR; now left|].
        split; [reflexivity|]. split; [reflexivity|]. simpl. unfold kept_observer. destruct (o_kind o); try discriminate C; reflexivity.
      * destruct (g_forth _ _ G _ _ _ K1 K2) as (C1 & q & l & R1 & R2). split; [assumption|].
        exists q, l. split; [apply PR; now right|assumption].
    + intros c o2 K1. apply OB in K1. destruct K1 as [(-> & C & ->)|(C & K1)].
      * simpl. exact (g_names _ _ G _ _ Hb).
      * exact (g_names _ _ G _ _ K1).
  - unfold h', added. destruct (cyclic (o_kind o)) eqn:C.
    + eapply later_trans; [apply later_snoc|].
      eapply later_upd; [rewrite nth_snoc|].
      * destruct (Nat.eqb_spec b (length h)); [lia|]. exact Hb.
      * simpl. auto.
    + apply later_snoc.
Qed.

Lemma add_cases : forall h a b p o, good h -> problem_exists h a p -> observer_exists h b o ->
  length (o_name o) + length (p_name p) + 2 <= 443 ->
  (coco_problem_add_observer h (Some a) (Some b) = Err /\
     ((o_kind o = KBiobj /\ p_objectives p <> 2) \/ (cyclic (o_kind o) = true /\ o_observed o <> None) \/
      441 < length (o_name o) + length (p_name p) + 2)) \/
  (coco_problem_add_observer h (Some a) (Some b) =
     Ok (Some (length h), added h a b p o (o_name o ++ open_paren :: p_name p ++ [")"%char])) /\
   (o_kind o = KBiobj -> p_objectives p = 2) /\ (cyclic (o_kind o) = true -> o_observed o = None) /\
   length (o_name o) + length (p_name p) + 2 <= 441).
Proof.
  intros h a b p o G Hp Hb L. unfold coco_problem_add_observer.
  rewrite (observer_at_ok _ _ _ Hb). cbn [bind]. rewrite (problem_at_ok _ _ _ Hp). cbn [bind].
  destruct (match o_kind o with KBiobj => negb (p_objectives p =? 2) | _ => false end) eqn:E1.
  { left. split; [reflexivity|]. left. destruct (o_kind o); try discriminate E1.
    split; [reflexivity|]. apply negb_true_iff, Nat.eqb_neq in E1. assumption. }
  destruct (cyclic (o_kind o) && match o_observed o with Some _ => true | None => false end) eqn:E2.
  { left. split; [reflexivity|]. right. left. apply andb_true_iff in E2 as [E2 E3].
    split; [assumption|]. destruct (o_observed o); discriminate. }
  destruct (observed_name_cases (o_name o) (p_name p) L) as [(L1 & ->)|(L1 & ->)]; cbn [bind].
  - right. split; [reflexivity|].
    split; [intros K; rewrite K in E1; apply negb_false_iff, Nat.eqb_eq in E1; assumption|].
    split; [|assumption]. intros C. rewrite C in E2. destruct (o_observed o); [discriminate|reflexivity].
  - left. split; [reflexivity|]. right. right. assumption.
Qed.

(** ** Freeing an observer *)

Lemma free_observer_good : forall h b o, good h -> observer_exists h b o ->
  exists h', coco_observer_free h (Some b) = Ok h' /\ good h' /\ later h h' /\ nth_error h' b = Some None /\
    (forall c q, c <> b -> observer_exists h c q <-> observer_exists h' c q) /\
    (forall x p, problem_exists h x p -> ~ watches h b x -> problem_exists h' x p).
Proof.
  intros h b o G Hb. unfold coco_observer_free. rewrite (observer_at_ok _ _ _ Hb). cbn [bind].
  assert (Lb : b < length h) by (eapply exists_lt; exact Hb).
  destruct (o_observed o) as [w|] eqn:Ow.
  - destruct (g_forth _ _ G _ _ _ Hb Ow) as (C & p & l & P1 & P2 & P3 & P4).
    rewrite C, (problem_at_ok _ _ _ P1). cbn [bind]. rewrite P2. cbn [bind].
    eexists. split; [reflexivity|].
    set (k := {| lg_kind := lg_kind l; lg_inner := lg_inner l; lg_observer := None; lg_started := lg_started l |}).
    assert (Lw : w < length h) by (eapply exists_lt; exact P1).
    assert (LOOK : forall x, nth_error (upd (upd h w (Some (CProblem (set_logger p k)))) b None) x =
      if x =? b then Some None else if x =? w then Some (Some (CProblem (set_logger p k))) else nth_error h x).
    { intros x. rewrite nth_upd by now rewrite upd_length. now rewrite nth_upd. }
    set (h' := upd (upd h w (Some (CProblem (set_logger p k)))) b None) in *.
    assert (Nbw : b <> w) by (intros ->; eapply not_both; eauto).
    assert (PR : forall x q, problem_exists h' x q <->
               (x = w /\ q = set_logger p k) \/ (x <> w /\ problem_exists h x q)).
    { intros x q. unfold problem_exists. rewrite LOOK.
      destruct (Nat.eqb_spec x b) as [->|N1].
      - unfold observer_exists in Hb. split; [congruence|]. intros [[K _]|[_ K]]; congruence.
      - destruct (Nat.eqb_spec x w) as [->|N2].
        + split; [intros K; left; split; [reflexivity|congruence]|]. intros [[_ ->]|[K _]]; congruence.
        + split; [tauto|]. intros [[K _]|[_ K]]; congruence. }
    assert (OB : forall x q, observer_exists h' x q <-> x <> b /\ observer_exists h x q).
    { intros x q. unfold observer_exists. rewrite LOOK.
      destruct (Nat.eqb_spec x b) as [->|N1]; [split; [congruence|tauto]|].
      destruct (Nat.eqb_spec x w) as [->|N2]; [|tauto].
      unfold problem_exists in P1. split; [congruence|]. intros [_ K]. congruence. }
    split.
    { split.
      - intros v q m K1 K2. apply PR in K1. destruct K1 as [[-> ->]|[_ K1]].
        + simpl in K2. injection K2 as <-. simpl. eapply g_lt; eauto.
        + eapply g_lt; eauto.
      - assert (INN : forall y r, problem_exists h y r -> exists r', problem_exists h' y r' /\ p_name r' = p_name r).
        { intros y r K. destruct (Nat.eq_dec y w) as [->|N].
          - exists (set_logger p k). split; [apply PR; now left|]. pose proof (problem_fun _ _ _ _ P1 K). now subst r.
          - exists r. split; [apply PR; now right|reflexivity]. }
        intros v q m K1 K2 _. apply PR in K1. destruct K1 as [[-> ->]|[_ K1]].
        + simpl in K2. injection K2 as <-. simpl.
          destruct (g_inner _ _ G _ _ _ P1 P2 (fun f => f)) as (r & n & R1 & R2 & R3).
          destruct (INN _ _ R1) as (r' & S1 & S2). exists r', n. split; [assumption|]. split; [assumption|]. congruence.
        + destruct (g_inner _ _ G _ _ _ K1 K2 (fun f => f)) as (r & n & R1 & R2 & R3).
          destruct (INN _ _ R1) as (r' & S1 & S2). exists r', n. split; [assumption|]. split; [assumption|]. congruence.
      - intros w1 w2 p1 p2 l1 l2 K1 K2 K3 K4 K5. apply PR in K1, K2.
        destruct K1 as [[-> ->]|[N1 K1]], K2 as [[-> ->]|[N2 K2]]; [reflexivity| | |].
        + simpl in K3. injection K3 as <-. simpl in K5. eapply (g_inj _ _ G w w2 p p2 l l2); eauto.
        + simpl in K4. injection K4 as <-. simpl in K5. eapply (g_inj _ _ G w1 w p1 p l1 l); eauto.
        + eapply (g_inj _ _ G w1 w2); eauto.
      - intros v q m c K1 K2 K3 K4. apply PR in K1. destruct K1 as [[-> ->]|[N1 K1]].
        + simpl in K2. injection K2 as <-. discriminate K4.
        + destruct (g_back _ _ G _ _ _ _ K1 K2 K3 K4) as (o2 & O1 & O2 & O3).
          exists o2. split; [|auto]. apply OB. split; [|assumption].
          intros ->. pose proof (observer_fun _ _ _ _ Hb O1). congruence.
      - intros c o2 v K1 K2. apply OB in K1. destruct K1 as [N1 K1].
        destruct (g_forth _ _ G _ _ _ K1 K2) as (C1 & q & m & R1 & R2 & R3 & R4). split; [assumption|].
        exists q, m. split; [|auto]. apply PR. right. split; [|assumption].
        intros ->. pose proof (problem_fun _ _ _ _ P1 R1). congruence.
      - intros c o2 K1. apply OB in K1. exact (g_names _ _ G _ _ (proj2 K1)). }
    split.
    { eapply later_trans; [eapply later_upd; [exact P1|]|eapply later_upd; [rewrite nth_upd by assumption|]].
      - simpl. rewrite P2. simpl. auto.
      - destruct (Nat.eqb_spec b w); [congruence|]. exact Hb.
      - exact I. }
    split; [rewrite LOOK, Nat.eqb_refl; reflexivity|].
    split; [intros c q N; rewrite OB; tauto|].
    intros x q K1 K2. apply PR. right. split; [|assumption].
    intros ->. apply K2. exists p, l. repeat split; auto. congruence.
  - match goal with |- context [bind ?r _] => replace r with (Ok h) by now destruct (cyclic (o_kind o)) end.
    cbn [bind]. eexists. split; [reflexivity|].
    assert (LOOK : forall x, nth_error (upd h b None) x = if x =? b then Some None else nth_error h x)
      by (intros x; now rewrite nth_upd).
    set (h' := upd h b None) in *.
    assert (PR : forall x q, problem_exists h' x q <-> problem_exists h x q).
    { intros x q. unfold problem_exists. rewrite LOOK.
      destruct (Nat.eqb_spec x b) as [->|N1]; [|tauto]. unfold observer_exists in Hb. split; congruence. }
    assert (OB : forall x q, observer_exists h' x q <-> x <> b /\ observer_exists h x q).
    { intros x q. unfold observer_exists. rewrite LOOK.
      destruct (Nat.eqb_spec x b) as [->|N1]; [split; [congruence|tauto]|tauto]. }
    split.
    { split.
      - intros v q m K1 K2. apply PR in K1. eapply g_lt; eauto.
      - intros v q m K1 K2 _. apply PR in K1.
        destruct (g_inner _ _ G _ _ _ K1 K2 (fun f => f)) as (r & n & R1 & R2).
        exists r, n. split; [now apply PR|assumption].
      - intros w1 w2 p1 p2 l1 l2 K1 K2. apply PR in K1, K2. eapply (g_inj _ _ G w1 w2); eauto.
      - intros v q m c K1 K2 K3 K4. apply PR in K1.
        destruct (g_back _ _ G _ _ _ _ K1 K2 K3 K4) as (o2 & O1 & O2 & O3).
        exists o2. split; [|auto]. apply OB. split; [|assumption].
        intros ->. pose proof (observer_fun _ _ _ _ Hb O1). congruence.
      - intros c o2 v K1 K2. apply OB in K1. destruct K1 as [N1 K1].
        destruct (g_forth _ _ G _ _ _ K1 K2) as (C1 & q & m & R1 & R2). split; [assumption|].
        exists q, m. split; [|auto]. now apply PR.
      - intros c o2 K1. apply OB in K1. exact (g_names _ _ G _ _ (proj2 K1)). }
    split; [eapply later_upd; [exact Hb|exact I]|].
    split; [rewrite LOOK, Nat.eqb_refl; reflexivity|].
    split; [intros c q N; rewrite OB; tauto|].
    intros x q K1 K2. now apply PR.
Qed.

(** ** Removing an observer *)

Lemma remove_observed : forall h a b p o l, good h -> problem_exists h a p -> observer_exists h b o -> outermost h a ->
  p_logger p = Some l ->
  exists n q, problem_exists h (lg_inner l) q /\ ~ In open_paren n /\ p_name p = n ++ open_paren :: p_name q ++ [")"%char] /\
   ((n = o_name o /\ exists h', coco_problem_remove_observer h (Some a) (Some b) = Ok (Some (lg_inner l), h') /\
       good h' /\ released (eq a) h h') \/
    (n <> o_name o /\ coco_problem_remove_observer h (Some a) (Some b) = Err)).
Proof.
  intros h a b p o l G Hp Hb Out Hl.
  destruct (g_inner _ _ G _ _ _ Hp Hl (fun f => f)) as (q & n & Q1 & Q2 & Q3).
  exists n, q. do 3 (split; [assumption|]).
  unfold coco_problem_remove_observer. rewrite (observer_at_ok _ _ _ Hb). cbn [bind].
  rewrite (problem_at_ok _ _ _ Hp). cbn [bind]. rewrite Q3, (remove_prefix n _ Q2). cbn [bind].
  destruct (streq n (o_name o)) eqn:E.
  - apply streq_spec in E. left. split; [assumption|]. cbn [negb]. rewrite Hl.
    destruct (remove_good h a p l G Hp Out Hl) as (h' & E1 & G1 & R1). rewrite E1. cbn [bind]. eauto.
  - right. split; [|reflexivity]. intros K. apply streq_spec in K. congruence.
Qed.

Lemma remove_unobserved : forall h a b p o, problem_exists h a p -> observer_exists h b o ->
  p_logger p = None -> (forall s, p_name p <> o_name o ++ open_paren :: s) ->
  coco_problem_remove_observer h (Some a) (Some b) = Err.
Proof.
  intros h a b p o Hp Hb Hl Nm.
  unfold coco_problem_remove_observer. rewrite (observer_at_ok _ _ _ Hb). cbn [bind].
  rewrite (problem_at_ok _ _ _ Hp). cbn [bind].
  destruct (in_dec ascii_dec open_paren (p_name p)) as [K|K].
  - destruct (split_paren _ K) as (n & t & E & Nn). rewrite E, (remove_prefix n t Nn). cbn [bind].
    destruct (streq n (o_name o)) eqn:S0; [|reflexivity].
    apply streq_spec in S0. exfalso. apply (Nm t). congruence.
  - now rewrite (remove_no_prefix _ K).
Qed.

(** ** Every call *)

Lemma step_good : forall h x, good h -> permitted h x ->
  step h x <> UB /\ forall r h', step h x = Ok (r, h') -> good h' /\ later h h'.
Proof.
  intros h x G P. destruct x as [nm m|nm k|pr ob|pr ob|a|ob|a|a|ob pr]; cbn [step permitted] in *.
  - split; [discriminate|]. intros r h' E. assert (h' = h ++ [Some (CProblem {| p_name := nm; p_objectives := m; p_logger := None |})]) by congruence.
    subst h'. clear E. split; [|apply later_snoc].
    set (P0 := {| p_name := nm; p_objectives := m; p_logger := None |}).
    assert (NEW : nth_error h (length h) = None) by (apply nth_error_None; lia).
    assert (PR : forall x q l, problem_exists (h ++ [Some (CProblem P0)]) x q -> p_logger q = Some l -> problem_exists h x q).
    { intros x q l K1 K2. unfold problem_exists in *. rewrite nth_snoc in K1.
      destruct (x =? length h); [|assumption]. assert (q = P0) by congruence. subst q. discriminate K2. }
    assert (PU : forall x q, problem_exists h x q -> problem_exists (h ++ [Some (CProblem P0)]) x q).
    { intros x q K. unfold problem_exists in *. rewrite nth_error_app1; [assumption|]. eapply exists_lt; eauto. }
    assert (OB : forall x q, observer_exists (h ++ [Some (CProblem P0)]) x q <-> observer_exists h x q).
    { intros x q. unfold observer_exists. rewrite nth_snoc. destruct (Nat.eqb_spec x (length h)) as [->|]; [|tauto].
      split; congruence. }
    split.
    + intros w q l K1 K2. eapply g_lt; eauto.
    + intros w q l K1 K2 _. pose proof (PR _ _ _ K1 K2) as K3.
      destruct (g_inner _ _ G _ _ _ K3 K2 (fun f => f)) as (r2 & n & R1 & R2). exists r2, n. split; [now apply PU|assumption].
    + intros w1 w2 p1 p2 l1 l2 K1 K2 K3 K4. eapply (g_inj _ _ G w1 w2); eauto.
    + intros w q l b K1 K2 K3 K4. pose proof (PR _ _ _ K1 K2) as K5.
      destruct (g_back _ _ G _ _ _ _ K5 K2 K3 K4) as (o & O1 & O2). exists o. split; [now apply OB|assumption].
    + intros b o w K1 K2. apply OB in K1. destruct (g_forth _ _ G _ _ _ K1 K2) as (C & q & l & R1 & R2).
      split; [assumption|]. exists q, l. split; [now apply PU|assumption].
    + intros b o K1. apply OB in K1. exact (g_names _ _ G _ _ K1).
  - split; [discriminate|]. intros r h' E. assert (h' = h ++ [Some (CObserver {| o_name := nm; o_kind := k; o_observed := None |})]) by congruence.
    subst h'. clear E. split; [|apply later_snoc].
    set (O0 := {| o_name := nm; o_kind := k; o_observed := None |}).
    assert (NEW : nth_error h (length h) = None) by (apply nth_error_None; lia).
    assert (PR : forall x q, problem_exists (h ++ [Some (CObserver O0)]) x q <-> problem_exists h x q).
    { intros x q. unfold problem_exists. rewrite nth_snoc. destruct (Nat.eqb_spec x (length h)) as [->|]; [|tauto].
      split; congruence. }
    assert (OU : forall x q, observer_exists h x q -> observer_exists (h ++ [Some (CObserver O0)]) x q).
    { intros x q K. unfold observer_exists in *. rewrite nth_error_app1; [assumption|]. eapply exists_lt; eauto. }
    assert (OB : forall x q, observer_exists (h ++ [Some (CObserver O0)]) x q -> observer_exists h x q \/ q = O0).
    { intros x q K. unfold observer_exists in *. rewrite nth_snoc in K. destruct (x =? length h); [right; congruence|now left]. }
    split.
    + intros w q l K1 K2. apply PR in K1. eapply g_lt; eauto.
    + intros w q l K1 K2 _. apply PR in K1.
      destruct (g_inner _ _ G _ _ _ K1 K2 (fun f => f)) as (r2 & n & R1 & R2). exists r2, n. split; [now apply PR|assumption].
    + intros w1 w2 p1 p2 l1 l2 K1 K2. apply PR in K1, K2. eapply (g_inj _ _ G w1 w2); eauto.
    + intros w q l b K1 K2 K3 K4. apply PR in K1.
      destruct (g_back _ _ G _ _ _ _ K1 K2 K3 K4) as (o & O1 & O2). exists o. split; [now apply OU|assumption].
    + intros b o w K1 K2. destruct (OB _ _ K1) as [K3| ->]; [|discriminate K2].
      destruct (g_forth _ _ G _ _ _ K3 K2) as (C & q & l & R1 & R2).
      split; [assumption|]. exists q, l. split; [now apply PR|assumption].
    + intros b o K1. destruct (OB _ _ K1) as [K3| ->]; [exact (g_names _ _ G _ _ K3)|exact P].
  - destruct pr as [a|]; [|split; [discriminate|]; intros r h' E; cbn in E; replace h' with h by congruence; split; [assumption|apply later_refl]].
    destruct ob as [b|]; [|split; [discriminate|]; intros r h' E; cbn in E; replace h' with h by congruence; split; [assumption|apply later_refl]].
    destruct P as (Out & o & p & Hb & Hp & L).
    destruct (add_cases h a b p o G Hp Hb L) as [(E & _)|(E & F1 & F2 & F3)]; rewrite E.
    + split; [discriminate|]. intros r h' K. discriminate K.
    + split; [discriminate|]. intros r h' K. injection K as _ <-. now apply added_good.
  - destruct ob as [b|]; [|split; [discriminate|]; intros r h' E; cbn in E; replace h' with h by congruence; split; [assumption|apply later_refl]].
    destruct pr as [a|]; [|destruct P].
    destruct P as (Out & o & p & Hb & Hp & Nm).
    destruct (p_logger p) as [l|] eqn:Hl.
    + destruct (remove_observed h a b p o l G Hp Hb Out Hl) as (n & q & _ & _ & _ & [(_ & h2 & E & G2 & R)|(_ & E)]); rewrite E.
      * split; [discriminate|]. intros r h' K. injection K as _ <-. split; [assumption|].
        eapply released_later; [|exact R]. intros x. destruct (Nat.eq_dec a x); tauto.
      * split; [discriminate|]. intros r h' K. discriminate K.
    + rewrite (remove_unobserved h a b p o Hp Hb Hl (Nm eq_refl)).
      split; [discriminate|]. intros r h' K. discriminate K.
  - destruct P as ((p & Hp) & Out). pose proof (conj (ex_intro _ p Hp) Out : outermost h a) as OUT.
    destruct (free_problem_good h a p G Hp OUT) as (h2 & E & G2 & R). rewrite E. cbn [bind].
    split; [discriminate|]. intros r h' K. injection K as _ <-. split; [assumption|].
    eapply released_later; [|exact R]. eapply inside_dec; eauto.
  - destruct ob as [b|].
    + destruct P as (o & Hb). destruct (free_observer_good h b o G Hb) as (h2 & E & G2 & L2 & _). rewrite E. cbn [bind].
      split; [discriminate|]. intros r h' K. injection K as _ <-. auto.
    + cbn. split; [discriminate|]. intros r h' K. injection K as _ <-. split; [assumption|apply later_refl].
  - destruct P as (((p & Hp) & Out) & R).
    destruct (evaluate_ok a h p (S (length h)) G Hp) as (h2 & E & T); [apply exists_lt in Hp; lia|assumption|].
    rewrite E. cbn [bind]. split; [discriminate|]. intros r h' K. injection K as _ <-.
    split; [eapply touched_good; eauto|now apply touched_later].
  - destruct P as (((p & Hp) & Out) & R).
    destruct (recommend_ok a h p (S (length h)) G Hp) as (h2 & E & T); [apply exists_lt in Hp; lia|assumption|].
    rewrite E. cbn [bind]. split; [discriminate|]. intros r h' K. injection K as _ <-.
    split; [eapply touched_good; eauto|now apply touched_later].
  - destruct ob as [b|].
    + destruct P as (o & Hb & R). unfold coco_observer_signal_restart. rewrite (observer_at_ok _ _ _ Hb). cbn [bind].
      destruct (cyclic (o_kind o)) eqn:C.
      * destruct (R eq_refl) as (a & -> & q & l & Q1 & Q2 & Q3). rewrite (problem_at_ok _ _ _ Q1). cbn [bind].
        rewrite Q2, Q3. assert (S0 : same_kind (o_kind o) (o_kind o) = true) by now destruct (o_kind o).
        rewrite S0. cbn [bind]. split; [discriminate|]. intros r h' K. injection K as _ <-. split; [assumption|apply later_refl].
      * cbn [bind]. split; [discriminate|]. intros r h' K. injection K as _ <-. split; [assumption|apply later_refl].
    + cbn. split; [discriminate|]. intros r h' K. injection K as _ <-. split; [assumption|apply later_refl].
Qed.

Lemma run_good : forall xs h, good h -> disciplined h xs ->
  run h xs <> UB /\ forall rs h', run h xs = Ok (rs, h') -> good h' /\ later h h'.
Proof.
  induction xs as [|x xs IH]; intros h G D.
  - split; [discriminate|]. intros rs h' E. injection E as _ <-. split; [assumption|apply later_refl].
  - destruct D as [P D]. destruct (step_good h x G P) as [NU OK]. cbn [run].
    destruct (step h x) as [[r h1]| |] eqn:E; cbn [bind]; [|split; [discriminate|intros ? ? K; discriminate K]|congruence].
    destruct (OK r h1 eq_refl) as [G1 L1]. destruct (IH h1 G1 (D r h1 eq_refl)) as [NU1 OK1].
    destruct (run h1 xs) as [[rs h2]| |] eqn:E1; cbn [bind]; [|split; [discriminate|intros ? ? K; discriminate K]|congruence].
    split; [discriminate|]. intros rs' h' K. injection K as _ <-.
    destruct (OK1 rs h2 eq_refl) as [G2 L2]. split; [assumption|]. eapply later_trans; eauto.
Qed.

Lemma leads_good : forall h h', good h -> leads h h' -> good h' /\ later h h'.
Proof. intros h h' G (xs & rs & D & E). destruct (run_good xs h G D) as [_ OK]. eauto. Qed.

Lemma reached_good : forall h, reached h -> good h.
Proof. intros h R. exact (proj1 (leads_good [] h good_nil R)). Qed.
