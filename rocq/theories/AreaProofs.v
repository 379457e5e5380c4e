(** The area dominated by a staircase of points. *)
From Coq Require Import List Arith ZArith Bool Lia ZifyBool ZifyNat Sorted.
Import ListNotations.
From Verif Require Import CBase FrontSpec FrontProofs.
Open Scope Z_scope.

Lemma in_coords : forall n x, In x (coords n) <-> 0 <= x < n.
Proof.
  intros n x. unfold coords. rewrite in_map_iff. split.
  - intros (k & <- & H). apply in_seq in H. lia.
  - intros H. exists (Z.to_nat x). split; [lia|]. apply in_seq. lia.
Qed.

Lemma in_cells : forall n c, In c (cells n) <-> (0 <= fst c < n /\ 0 <= snd c < n).
Proof. intros n [u v]. unfold cells. rewrite in_prod_iff, !in_coords. reflexivity. Qed.

Lemma count_ext : forall A (f g : A -> bool) l, (forall x, In x l -> f x = g x) ->
  length (filter f l) = length (filter g l).
Proof. intros A f g l H. f_equal. apply filter_ext_in. exact H. Qed.

Lemma count_mono : forall A (f g : A -> bool) l, (forall x, In x l -> f x = true -> g x = true) ->
  (length (filter f l) <= length (filter g l))%nat.
Proof.
  induction l as [|x l IH]; intros H; simpl; auto.
  assert (I : (length (filter f l) <= length (filter g l))%nat) by (apply IH; intros; apply H; auto; now right).
  specialize (H x (or_introl eq_refl)). destruct (f x), (g x); simpl; try lia; discriminate H; reflexivity.
Qed.

Lemma count_split : forall A (f g h : A -> bool) l,
  (forall x, In x l -> f x = g x || h x) -> (forall x, In x l -> g x && h x = false) ->
  length (filter f l) = (length (filter g l) + length (filter h l))%nat.
Proof.
  induction l as [|x l IH]; intros H1 H2; simpl; auto.
  assert (I : length (filter f l) = (length (filter g l) + length (filter h l))%nat).
  { apply IH; intros; [apply H1 | apply H2]; now right. }
  specialize (H1 x (or_introl eq_refl)). specialize (H2 x (or_introl eq_refl)). rewrite H1.
  destruct (g x), (h x); simpl in *; try discriminate; lia.
Qed.

Lemma count_prod : forall A B (f : A -> bool) (g : B -> bool) l1 l2,
  length (filter (fun c => f (fst c) && g (snd c)) (list_prod l1 l2)) =
  (length (filter f l1) * length (filter g l2))%nat.
Proof.
  intros A B f g l1 l2. induction l1 as [|x l1 IH]; simpl; auto.
  rewrite filter_app, app_length, IH.
  assert (E : length (filter (fun c => f (fst c) && g (snd c)) (map (fun y => (x, y)) l2)) =
              (if f x then length (filter g l2) else 0)%nat).
  { clear IH. induction l2 as [|y l2 IH]; simpl; [destruct (f x); auto|].
    destruct (f x) eqn:Fx; simpl in *; auto. destruct (g y); simpl; auto. }
  rewrite E. destruct (f x); simpl; lia.
Qed.

Lemma count_seq : forall k s a b, (s <= a)%nat -> (a <= b)%nat -> (b <= s + k)%nat ->
  length (filter (fun u => (a <=? u)%nat && (u <? b)%nat) (seq s k)) = (b - a)%nat.
Proof.
  induction k as [|k IH]; intros s a b H1 H2 H3; simpl; [lia|].
  destruct (Nat.leb_spec a s), (Nat.ltb_spec s b); simpl.
  - rewrite (count_ext _ _ (fun u => (S s <=? u)%nat && (u <? b)%nat)).
    + rewrite IH by lia. lia.
    + intros u Hu. apply in_seq in Hu. lia.
  - rewrite (count_ext _ _ (fun u => (S s <=? u)%nat && (u <? S s)%nat)).
    + rewrite IH by lia. lia.
    + intros u Hu. apply in_seq in Hu. lia.
  - rewrite IH by lia. lia.
  - lia.
Qed.

Lemma count_coords : forall n a b, 0 <= a <= b -> b <= n ->
  Z.of_nat (length (filter (fun u => (a <=? u) && (u <? b)) (coords n))) = b - a.
Proof.
  intros n a b H1 H2. unfold coords.
  assert (E : forall l, length (filter (fun u => (a <=? u) && (u <? b)) (map Z.of_nat l)) =
    length (filter (fun u => (Z.to_nat a <=? u)%nat && (u <? Z.to_nat b)%nat) l)).
  { induction l as [|x l IH]; simpl; auto.
    replace ((a <=? Z.of_nat x) && (Z.of_nat x <? b)) with ((Z.to_nat a <=? x)%nat && (x <? Z.to_nat b)%nat) by lia.
    destruct ((Z.to_nat a <=? x)%nat && (x <? Z.to_nat b)%nat); simpl; auto. }
  rewrite E, count_seq by lia. lia.
Qed.

(** The number of cells of a rectangle. *)
Lemma count_rectangle : forall n a b c d, 0 <= a <= b -> b <= n -> 0 <= c <= d -> d <= n ->
  Z.of_nat (length (filter (fun e => ((a <=? fst e) && (fst e <? b)) && ((c <=? snd e) && (snd e <? d))) (cells n)))
  = (b - a) * (d - c).
Proof.
  intros. unfold cells.
  rewrite (count_prod Z Z (fun u => (a <=? u) && (u <? b)) (fun v => (c <=? v) && (v <? d))).
  rewrite Nat2Z.inj_mul, !count_coords by lia. reflexivity.
Qed.

(** Sum of the rectangles of a staircase, from right to left. *)
Fixpoint stair_area (n w : Z) (l : list (Z * Z)) : Z :=
  match l with
  | [] => 0
  | p :: l' => (w - fst p) * (n - snd p) + stair_area n (fst p) l'
  end.

Definition ptid (p : Z * Z) : Z * Z := p.

Lemma stair_area_count : forall n l w, w <= n -> stair _ ptid l ->
  (forall p, In p l -> 0 <= fst p <= w /\ 0 <= snd p <= n) ->
  Z.of_nat (length (filter (fun c => (fst c <? w) && covered l c) (cells n))) = stair_area n w l.
Proof.
  intros n l. induction l as [|p l IH]; intros w Hw Hs Hb.
  - simpl. rewrite (count_ext _ _ (fun _ => false)).
    + clear. induction (cells n); simpl; auto.
    + intros c _. lia.
  - unfold stair in Hs. inversion Hs as [|? ? Hs' Hf]; subst. rewrite Forall_forall in Hf.
    destruct (Hb p (or_introl eq_refl)) as [Hp1 Hp2].
    simpl stair_area. rewrite <- IH.
    + rewrite <- (count_rectangle n (fst p) w (snd p) n) by lia.
      rewrite <- Nat2Z.inj_add. f_equal. apply count_split.
      * intros c Hc. apply in_cells in Hc. simpl. fold (covered l c).
        destruct (Z.leb_spec (fst p) (fst c)).
        { destruct (covered l c) eqn:C.
          - unfold covered in C. apply existsb_exists in C as (q & Hq & Hc').
            specialize (Hf q Hq). unfold step, ptid in Hf. unfold weakly in *. lia.
          - unfold weakly. lia. }
        { assert (weakly p c = false) as -> by (unfold weakly; lia). simpl.
          destruct (covered l c); lia. }
      * intros c Hc. lia.
    + lia.
    + exact Hs'.
    + intros q Hq. destruct (Hb q (or_intror Hq)). specialize (Hf q Hq). unfold step, ptid in Hf. lia.
Qed.

Theorem stair_area_spec : forall n l, stair _ ptid l -> (forall p, In p l -> 0 <= fst p <= n /\ 0 <= snd p <= n) ->
  area n l = stair_area n n l.
Proof.
  intros n l Hs Hb. rewrite <- stair_area_count by (auto; lia). unfold area. f_equal. apply count_ext.
  intros c Hc. apply in_cells in Hc. lia.
Qed.

Lemma area_ext : forall n l1 l2, (forall c, In c (cells n) -> covered l1 c = covered l2 c) -> area n l1 = area n l2.
Proof. intros. unfold area. f_equal. now apply count_ext. Qed.

Lemma area_mono : forall n l1 l2, (forall c, In c (cells n) -> covered l1 c = true -> covered l2 c = true) ->
  area n l1 <= area n l2.
Proof. intros. unfold area. apply Nat2Z.inj_le, count_mono. auto. Qed.

Lemma covered_app : forall l1 l2 c, covered (l1 ++ l2) c = covered l1 c || covered l2 c.
Proof. intros. apply existsb_app. Qed.
