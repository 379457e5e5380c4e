(** Proofs about balanced trees as mathematical objects. *)
From Coq Require Import List Arith NArith ZArith Bool Lia.
Import ListNotations.
From Verif Require Import CBase MoModel AvlModel AvlSpec.
Open Scope N_scope.

Section Avl.
Context {A : Type}.
Implicit Types t l r : tree A.

(** ** Entries *)
Lemma addrs_entries : forall t, addrs t = map fst (entries t).
Proof. induction t as [|l IHl p x r IHr]; cbn [addrs entries map]; [reflexivity|]. rewrite map_app, IHl, IHr. reflexivity. Qed.
Lemma items_entries : forall t, items t = map snd (entries t).
Proof. induction t as [|l IHl p x r IHr]; cbn [items entries map]; [reflexivity|]. rewrite map_app, IHl, IHr. reflexivity. Qed.
Lemma size_entries : forall t, size t = N.of_nat (length (entries t)).
Proof. induction t as [|l IHl p x r IHr]; cbn [size entries]; [reflexivity|]. rewrite app_length. cbn [length]. lia. Qed.

(** ** Contexts: the way from a place in the tree up to the root *)
Inductive frame := InLeft (p : nat) (x : A) (r : tree A) | InRight (l : tree A) (p : nat) (x : A).
Implicit Types c : list frame.
Fixpoint plug c t : tree A :=
  match c with
  | [] => t
  | InLeft p x r :: c' => plug c' (Fork t p x r)
  | InRight l p x :: c' => plug c' (Fork l p x t)
  end.
Fixpoint before c : list (nat * A) :=
  match c with [] => [] | InLeft _ _ _ :: c' => before c' | InRight l p x :: c' => before c' ++ entries l ++ [(p, x)] end.
Fixpoint after c : list (nat * A) :=
  match c with [] => [] | InLeft p x r :: c' => (p, x) :: entries r ++ after c' | InRight _ _ _ :: c' => after c' end.
Lemma entries_plug : forall c t, entries (plug c t) = before c ++ entries t ++ after c.
Proof.
  induction c as [|[p x r|l p x] c IH]; intros t; cbn [plug before after].
  - rewrite app_nil_r. reflexivity.
  - rewrite IH. cbn [entries]. rewrite <- !app_assoc. reflexivity.
  - rewrite IH. cbn [entries]. rewrite <- !app_assoc. reflexivity.
Qed.
Lemma plug_app : forall c c' t, plug (c ++ c') t = plug c' (plug c t).
Proof. induction c as [|[p x r|l p x] c IH]; intros c' t; cbn [app plug]; auto. Qed.
Lemma before_app : forall c c', before (c ++ c') = before c' ++ before c.
Proof. induction c as [|[p x r|l p x] c IH]; intros c'; cbn [app before]; [rewrite app_nil_r; reflexivity|apply IH|]. rewrite IH, <- app_assoc. reflexivity. Qed.
Lemma after_app : forall c c', after (c ++ c') = after c ++ after c'.
Proof. induction c as [|[p x r|l p x] c IH]; intros c'; cbn [app after]; [reflexivity| |apply IH]. rewrite IH, <- app_assoc. reflexivity. Qed.
Definition owner c : option nat := match c with [] => None | InLeft p _ _ :: _ => Some p | InRight _ p _ :: _ => Some p end.

(** Every node is somewhere. *)
Lemma app_split : forall (B : Type) (l1 : list B) (x : B) (l2 m1 : list B) (y : B) (m2 : list B), l1 ++ x :: l2 = m1 ++ y :: m2 ->
  (exists k, m1 = l1 ++ x :: k /\ l2 = k ++ y :: m2) \/ (m1 = l1 /\ x = y /\ l2 = m2) \/ (exists k, l1 = m1 ++ y :: k /\ m2 = k ++ x :: l2).
Proof.
  induction l1 as [|a l1 IH]; intros x l2 [|b m1] y m2 E; cbn [app] in E.
  - injection E as -> ->. right; left. auto.
  - injection E as -> ->. left. exists m1. auto.
  - injection E as -> <-. right; right. exists l1. auto.
  - injection E as -> E. destruct (IH _ _ _ _ _ E) as [[k [-> ->]]|[[-> [-> ->]]|[k [-> ->]]]]; [left; exists k; auto|right; left; auto|right; right; exists k; auto].
Qed.
Lemma locate : forall t e1 p x e2, entries t = e1 ++ (p, x) :: e2 -> exists c l r, t = plug c (Fork l p x r) /\ before c ++ entries l = e1 /\ entries r ++ after c = e2.
Proof.
  assert (K : forall t e1 p x e2 c0, entries t = e1 ++ (p, x) :: e2 -> exists c l r, plug c0 t = plug c (Fork l p x r) /\ before c ++ entries l = before c0 ++ e1 /\ entries r ++ after c = e2 ++ after c0).
  { induction t as [|l IHl q y r IHr]; intros e1 p x e2 c0 E; cbn [entries] in E; [destruct e1; discriminate|]. destruct (app_split _ _ _ _ _ _ _ E) as [[k [-> Er]]|[[-> [Ep Er]]|[k [El ->]]]].
    - destruct (IHr _ _ _ _ (InRight l q y :: c0) Er) as [c [l' [r' [H1 [H2 H3]]]]]. exists c, l', r'. cbn [plug before after] in *. split; [exact H1|]. split; [|exact H3].
      rewrite H2. rewrite <- !app_assoc. reflexivity.
    - injection Ep as -> ->. subst e2. exists c0, l, r. auto.
    - destruct (IHl _ _ _ _ (InLeft q y r :: c0) El) as [c [l' [r' [H1 [H2 H3]]]]]. exists c, l', r'. cbn [plug before after] in *. split; [exact H1|]. split; [exact H2|].
      rewrite H3. rewrite <- !app_assoc. reflexivity. }
  intros t e1 p x e2 E. destruct (K t e1 p x e2 [] E) as [c [l [r [H1 [H2 H3]]]]]. exists c, l, r. cbn in *. rewrite app_nil_r in H3. auto.
Qed.
Lemma leftmost : forall t, t <> Leaf -> exists c p x r, t = plug c (Fork Leaf p x r) /\ before c = [].
Proof.
  assert (K : forall t c0, before c0 = [] -> t <> Leaf -> exists c p x r, plug c0 t = plug c (Fork Leaf p x r) /\ before c = []).
  { induction t as [|l IHl p x r IHr]; intros c0 H N; [congruence|]. destruct l as [|l1 q y l2].
    - exists c0, p, x, r. split; [reflexivity|exact H].
    - exact (IHl (InLeft p x r :: c0) H ltac:(discriminate)). }
  intros t N. exact (K t [] eq_refl N).
Qed.
Lemma rightmost : forall t, t <> Leaf -> exists c l p x, t = plug c (Fork l p x Leaf) /\ after c = [].
Proof.
  assert (K : forall t c0, after c0 = [] -> t <> Leaf -> exists c l p x, plug c0 t = plug c (Fork l p x Leaf) /\ after c = []).
  { induction t as [|l IHl p x r IHr]; intros c0 H N; [congruence|]. destruct r as [|l1 q y l2].
    - exists c0, l, p, x. split; [reflexivity|exact H].
    - exact (IHr (InRight l p x :: c0) H ltac:(discriminate)). }
  intros t N. exact (K t [] eq_refl N).
Qed.

(** ** Rotations *)
Definition bal l (p : nat) (x : A) r : tree A :=
  if height r + 1 <? height l then
    match l with
    | Fork ll q y lr =>
      if height lr <=? height ll then Fork ll q y (Fork lr p x r)
      else match lr with Fork gl g z gr => Fork (Fork ll q y gl) g z (Fork gr p x r) | Leaf => Fork l p x r end
    | Leaf => Fork l p x r
    end
  else if height l + 1 <? height r then
    match r with
    | Fork rl q y rr =>
      if height rl <=? height rr then Fork (Fork l p x rl) q y rr
      else match rl with Fork gl g z gr => Fork (Fork l p x gl) g z (Fork gr q y rr) | Leaf => Fork l p x r end
    | Leaf => Fork l p x r
    end
  else Fork l p x r.

Lemma bal_entries : forall l p x r, entries (bal l p x r) = entries l ++ (p, x) :: entries r.
Proof.
  intros l p x r. unfold bal. destruct (_ <? _).
  - destruct l as [|ll q y lr]; [reflexivity|]. destruct (_ <=? _); [cbn [entries]; rewrite <- app_assoc; reflexivity|].
    destruct lr as [|gl g z gr]; [reflexivity|]. cbn [entries]. rewrite <- !app_assoc. cbn [app]; rewrite <- ?app_assoc; reflexivity.
  - destruct (_ <? _); [|reflexivity]. destruct r as [|rl q y rr]; [reflexivity|]. destruct (_ <=? _); [cbn [entries]; rewrite <- app_assoc; reflexivity|].
    destruct rl as [|gl g z gr]; [reflexivity|]. cbn [entries]. rewrite <- !app_assoc. reflexivity.
Qed.

Lemma bal_ok : forall l p x r, balanced l -> balanced r -> height l <= height r + 2 -> height r <= height l + 2 ->
  balanced (bal l p x r) /\ N.max (height l) (height r) <= height (bal l p x r) <= N.max (height l) (height r) + 1 /\
  (height l <= height r + 1 -> height r <= height l + 1 -> height (bal l p x r) = N.max (height l) (height r) + 1).
Proof.
  intros l p x r Bl Br H1 H2. unfold bal. destruct (N.ltb_spec (height r + 1) (height l)) as [C1|C1].
  - destruct l as [|ll q y lr]; [cbn [height] in C1; lia|]. cbn [balanced] in Bl. destruct Bl as [Bll [Blr [D1 D2]]]. cbn [height] in *.
    destruct (N.leb_spec (height lr) (height ll)) as [C2|C2].
    + cbn [balanced height]. split; [|split; [|lia]]; [|lia]. repeat (split; [assumption || lia|]). split; [|lia]. repeat (split; [assumption || lia|]). lia.
    + destruct lr as [|gl g z gr]; [cbn [height] in C2; lia|]. cbn [balanced] in Blr. destruct Blr as [Bgl [Bgr [D3 D4]]]. cbn [height balanced] in *.
      split; [|split; [|lia]]; [|lia]. split; [|split]; [| |lia]; repeat (split; [assumption || lia|]); lia.
  - destruct (N.ltb_spec (height l + 1) (height r)) as [C2|C2].
    + destruct r as [|rl q y rr]; [cbn [height] in C2; lia|]. cbn [balanced] in Br. destruct Br as [Brl [Brr [D1 D2]]]. cbn [height] in *.
      destruct (N.leb_spec (height rl) (height rr)) as [C3|C3].
      * cbn [balanced height]. split; [|split; [|lia]]; [|lia]. split; [|split; [assumption|lia]]. repeat (split; [assumption || lia|]). lia.
      * destruct rl as [|gl g z gr]; [cbn [height] in C3; lia|]. cbn [balanced] in Brl. destruct Brl as [Bgl [Bgr [D3 D4]]]. cbn [height balanced] in *.
        split; [|split; [|lia]]; [|lia]. split; [|split]; [| |lia]; repeat (split; [assumption || lia|]); lia.
    + cbn [balanced height]. split; [|split; [|lia]]; [|lia]. repeat (split; [assumption || lia|]). lia.
Qed.

Fixpoint up c t : tree A :=
  match c with
  | [] => t
  | InLeft p x r :: c' => up c' (bal t p x r)
  | InRight l p x :: c' => up c' (bal l p x t)
  end.
Lemma up_entries : forall c t, entries (up c t) = before c ++ entries t ++ after c.
Proof.
  induction c as [|[p x r|l p x] c IH]; intros t; cbn [up before after]; [rewrite app_nil_r; reflexivity| |]; rewrite IH, bal_entries; rewrite <- !app_assoc; reflexivity.
Qed.

(** The siblings in the context fit to a tree of height k. *)
Fixpoint fits_height c (k : N) : Prop :=
  match c with
  | [] => True
  | InLeft p x s :: c' | InRight s p x :: c' => balanced s /\ k <= height s + 1 /\ height s <= k + 1 /\ fits_height c' (N.max k (height s) + 1)
  end.
Lemma balanced_plug : forall c t, balanced (plug c t) <-> balanced t /\ fits_height c (height t).
Proof.
  induction c as [|[p x r|l p x] c IH]; intros t; cbn [plug fits_height]; [intuition|rewrite IH; cbn [balanced height]; intuition|].
  rewrite IH. cbn [balanced height]. rewrite (N.max_comm (height l)). intuition.
Qed.
Lemma fits_app : forall c c' k, fits_height (c ++ c') k <-> fits_height c k /\ fits_height c' (fold_left (fun k f => match f with InLeft _ _ s | InRight s _ _ => N.max k (height s) + 1 end) c k).
Proof.
  induction c as [|[p x r|l p x] c IH]; intros c' k; cbn [app fits_height fold_left]; [intuition|rewrite IH; intuition|rewrite IH; intuition].
Qed.

(** The height of the focus may have changed by 1. *)
Definition near (k j : N) : Prop := k <= j + 1 /\ j <= k + 1.
Lemma up_balanced : forall c t k, fits_height c k -> balanced t -> near k (height t) -> balanced (up c t).
Proof.
  induction c as [|[p x r|l p x] c IH]; intros t k F B [N1 N2]; cbn [up fits_height] in *; [exact B| |].
  - destruct F as [Br [F1 [F2 F3]]]. destruct (bal_ok t p x r B Br ltac:(lia) ltac:(lia)) as [Bb [[H1 H2] H3]].
    apply (IH _ _ F3 Bb). unfold near. assert (D : (height t <= height r + 1 /\ height r <= height t + 1) \/ height t > height r + 1 \/ height r > height t + 1) by lia.
    destruct D as [[D1 D2]|[D|D]]; [rewrite (H3 D1 D2)| |]; lia.
  - destruct F as [Br [F1 [F2 F3]]]. destruct (bal_ok l p x t Br B ltac:(lia) ltac:(lia)) as [Bb [[H1 H2] H3]].
    apply (IH _ _ F3 Bb). unfold near. assert (D : (height l <= height t + 1 /\ height t <= height l + 1) \/ height t > height l + 1 \/ height l > height t + 1) by lia.
    destruct D as [[D1 D2]|[D|D]]; [rewrite (H3 D1 D2)| |]; lia.
Qed.

(** ** Height and size *)
Fixpoint fib (n : nat) : N := match n with O => 0 | S n' => match n' with O => 1 | S n'' => fib n' + fib n'' end end.
Lemma fib_SS : forall n, fib (S (S n)) = fib (S n) + fib n.
Proof. reflexivity. Qed.
Lemma fib_mono : forall n, fib n <= fib (S n).
Proof. intros [|n]; [cbn; lia|]. rewrite fib_SS. lia. Qed.
Lemma fib_le : forall n m, (n <= m)%nat -> fib n <= fib m.
Proof. intros n m H. induction H as [|m H IH]; [lia|]. pose proof (fib_mono m). lia. Qed.
Lemma height_size : forall t, balanced t -> fib (N.to_nat (height t) + 2) <= size t + 1.
Proof.
  induction t as [|l IHl p x r IHr]; intros B; [cbn; lia|]. cbn [balanced] in B. destruct B as [Bl [Br [H1 H2]]]. specialize (IHl Bl). specialize (IHr Br).
  cbn [height size]. set (a := height l) in *. set (b := height r) in *. clearbody a b.
  replace (N.to_nat (N.max a b + 1) + 2)%nat with (S (S (N.to_nat (N.max a b) + 1))) by lia. rewrite fib_SS.
  replace (S (N.to_nat (N.max a b) + 1)) with (N.to_nat (N.max a b) + 2)%nat by lia.
  destruct (N.max_spec a b) as [[C E]|[C E]]; rewrite E.
  - assert (fib (N.to_nat b + 1) <= fib (N.to_nat a + 2)) by (apply fib_le; lia). lia.
  - assert (fib (N.to_nat a + 1) <= fib (N.to_nat b + 2)) by (apply fib_le; lia). lia.
Qed.
Lemma fib_iter : forall k, Nat.iter k (fun ab : N * N => (snd ab, fst ab + snd ab)) (0, 1) = (fib k, fib (S k)).
Proof.
  induction k as [|k IH]; [reflexivity|]. set (f := fun ab : N * N => (snd ab, fst ab + snd ab)) in *.
  change (Nat.iter (S k) f (0, 1)) with (f (Nat.iter k f (0, 1))). rewrite IH. unfold f. cbn [fst snd]. rewrite fib_SS, N.add_comm. reflexivity.
Qed.
Lemma fib_102 : forall k, k = 102%nat -> fib k = 927372692193078999176.
Proof.
  intros k E. replace (fib k) with (fst (fib k, fib (S k))) by reflexivity. rewrite <- fib_iter, E. vm_compute. reflexivity.
Qed.
Lemma height_100 : forall t, balanced t -> size t < 2 ^ 64 -> height t < 100.
Proof.
  intros t B HS. pose proof (height_size t B) as H. destruct (N.lt_ge_cases (height t) 100) as [K|K]; [exact K|exfalso].
  assert (F : forall k, k = 102%nat -> fib k <= fib (N.to_nat (height t) + 2)) by (intros k E; apply fib_le; lia).
  specialize (F _ eq_refl). rewrite (fib_102 _ eq_refl) in F. change (2 ^ 64) with 18446744073709551616 in HS. lia.
Qed.
End Avl.
Arguments frame : clear implicits.
