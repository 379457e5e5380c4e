(** Ownership of blocks and the correctness of freeing (for MemProps.v).  Lists of addresses are
    compared by counting, so that disjointness and rearrangement become arithmetic. *)
From Coq Require Import List Arith Bool Lia Permutation.
From Verif Require Import CBase MemModel MemSuiteModel MemSpec.
Import ListNotations.
Local Open Scope nat_scope.

Definition one (b a : addr) : nat := if Nat.eq_dec b a then 1 else 0.
Definition cnt (l : list addr) (a : addr) : nat := count_occ Nat.eq_dec l a.
Definition alive (h : heap) (a : addr) : nat :=
  match nth_error h a with Some (Some _) => 1 | _ => 0 end.

Lemma cnt_nil : forall a, cnt [] a = 0.
Proof. reflexivity. Qed.
Lemma cnt_cons : forall b l a, cnt (b :: l) a = one b a + cnt l a.
Proof.
  intros b l a. unfold cnt, one. cbn [count_occ].
  destruct (Nat.eq_dec b a); reflexivity.
Qed.
Lemma cnt_app : forall l l' a, cnt (l ++ l') a = cnt l a + cnt l' a.
Proof. intros. apply count_occ_app. Qed.
Lemma one_eq : forall a, one a a = 1.
Proof. intro a. unfold one. destruct (Nat.eq_dec a a); congruence. Qed.
Lemma one_ne : forall a b, a <> b -> one a b = 0.
Proof. intros a b N. unfold one. destruct (Nat.eq_dec a b); congruence. Qed.
Lemma one_pos : forall a b, 0 < one a b -> a = b.
Proof. intros a b. unfold one. destruct (Nat.eq_dec a b); lia. Qed.
Lemma cnt_in : forall l a, In a l <-> 0 < cnt l a.
Proof. intros. unfold cnt. rewrite (count_occ_In Nat.eq_dec). lia. Qed.
Lemma perm_cnt : forall l l', (forall a, cnt l a = cnt l' a) -> Permutation l l'.
Proof. intros l l' H. apply (Permutation_count_occ Nat.eq_dec). exact H. Qed.
Lemma cnt_perm : forall l l' a, Permutation l l' -> cnt l a = cnt l' a.
Proof. intros l l' a H. apply (Permutation_count_occ Nat.eq_dec). exact H. Qed.

Lemma alive_le : forall h a, alive h a <= 1.
Proof. intros h a. unfold alive. destruct (nth_error h a) as [[c|]|]; lia. Qed.
Lemma alive_cell : forall h a, 0 < alive h a -> exists c, nth_error h a = Some (Some c).
Proof.
  intros h a. unfold alive. destruct (nth_error h a) as [[c|]|]; intro; [exists c; reflexivity | lia | lia].
Qed.
Lemma cell_alive : forall h a c, nth_error h a = Some (Some c) -> alive h a = 1.
Proof. intros h a c E. unfold alive. rewrite E. reflexivity. Qed.

(** Heap updates. *)
Lemma length_update : forall h a c, length (update h a c) = length h.
Proof. induction h as [|x h IH]; intros [|a] c; cbn; congruence. Qed.
Lemma nth_update_eq : forall h a c x, nth_error h a = Some x -> nth_error (update h a c) a = Some c.
Proof. induction h as [|y h IH]; intros [|a] c x E; cbn in *; try discriminate; eauto. Qed.
Lemma nth_update_ne : forall h a b c, a <> b -> nth_error (update h a c) b = nth_error h b.
Proof.
  induction h as [|y h IH]; intros [|a] [|b] c N; cbn; try reflexivity; try (exfalso; lia).
  apply IH. lia.
Qed.

(** [m] runs from h without undefined behaviour or error and ends in a state satisfying Q. *)
Definition wp {A} (m : M A) (Q : A -> heap -> Prop) (h : heap) : Prop :=
  exists a h', m h = Ok (a, h') /\ Q a h'.

Lemma wp_bind : forall A B (m : M A) (k : A -> M B) Q h,
  wp m (fun a h' => wp (k a) Q h') h -> wp (mbind m k) Q h.
Proof.
  intros A B m k Q h [a [h' [E [b [h'' [E' HQ]]]]]]. exists b, h''. split; [|exact HQ].
  unfold mbind. rewrite E. cbn [bind fst snd]. exact E'.
Qed.
Lemma wp_ret : forall A (a : A) (Q : A -> heap -> Prop) h, Q a h -> wp (ret a) Q h.
Proof. intros A a Q h HQ. exists a, h. split; [reflexivity|exact HQ]. Qed.
Lemma wp_mono : forall A (m : M A) (Q Q' : A -> heap -> Prop) h,
  wp m Q h -> (forall a h', Q a h' -> Q' a h') -> wp m Q' h.
Proof. intros A m Q Q' h [a [h' [E HQ]]] K. exists a, h'. auto. Qed.
Lemma wp_read : forall a c (Q : cell -> heap -> Prop) h,
  nth_error h a = Some (Some c) -> Q c h -> wp (read a) Q h.
Proof. intros a c Q h E HQ. exists c, h. unfold read. rewrite E. auto. Qed.
Lemma wp_problem_at : forall a q (Q : problem -> heap -> Prop) h,
  nth_error h a = Some (Some (ProblemCell q)) -> Q q h -> wp (problem_at a) Q h.
Proof.
  intros a q Q h E HQ. unfold problem_at. apply wp_bind. eapply wp_read; [exact E|].
  apply wp_ret. exact HQ.
Qed.
Lemma wp_pointers_at : forall a n l (Q : nat * list ptr -> heap -> Prop) h,
  nth_error h a = Some (Some (Pointers n l)) -> Q (n, l) h -> wp (pointers_at a) Q h.
Proof.
  intros a n l Q h E HQ. unfold pointers_at. apply wp_bind. eapply wp_read; [exact E|].
  apply wp_ret. exact HQ.
Qed.
Lemma wp_deref : forall o a (Q : addr -> heap -> Prop) h, o = Some a -> Q a h -> wp (deref o) Q h.
Proof. intros o a Q h E HQ. subst o. apply wp_ret. exact HQ. Qed.
Lemma wp_touch : forall a (Q : unit -> heap -> Prop) h,
  0 < alive h a -> Q tt h -> wp (touch (Some a)) Q h.
Proof.
  intros a Q h L HQ. destruct (alive_cell _ _ L) as [c E]. unfold touch.
  apply wp_bind. eapply wp_deref; [reflexivity|]. apply wp_bind. eapply wp_read; [exact E|].
  apply wp_ret. exact HQ.
Qed.

(** The blocks of S are freed, everything else is as before. *)
Definition killed (S : list addr) (h h' : heap) : Prop :=
  length h' = length h /\
  forall a, (cnt S a = 0 -> nth_error h' a = nth_error h a) /\
            (0 < cnt S a -> nth_error h' a = Some None).

Lemma killed_nil : forall h, killed [] h h.
Proof. intro h. split; [reflexivity|]. intro a. rewrite cnt_nil. split; [reflexivity|lia]. Qed.
Lemma killed_app : forall S1 S2 h h1 h2, killed S1 h h1 -> killed S2 h1 h2 -> killed (S1 ++ S2) h h2.
Proof.
  intros S1 S2 h h1 h2 [L1 K1] [L2 K2]. split; [congruence|]. intro a. rewrite cnt_app.
  destruct (K1 a) as [A1 B1], (K2 a) as [A2 B2]. split; intro E.
  - rewrite A2 by lia. apply A1. lia.
  - destruct (Nat.eq_dec (cnt S2 a) 0) as [Z|Z].
    + rewrite A2 by lia. apply B1. lia.
    + apply B2. lia.
Qed.
Lemma killed_cnt : forall S S' h h', killed S h h' -> (forall a, cnt S a = cnt S' a) -> killed S' h h'.
Proof.
  intros S S' h h' [L K] E. split; [exact L|]. intro a. rewrite <- E. apply K.
Qed.
Lemma killed_alive : forall S h h' a, killed S h h' -> cnt S a = 0 -> alive h' a = alive h a.
Proof. intros S h h' a [L K] Z. unfold alive. rewrite (proj1 (K a) Z). reflexivity. Qed.
Lemma killed_nth : forall S h h' a, killed S h h' -> cnt S a = 0 -> nth_error h' a = nth_error h a.
Proof. intros S h h' a [L K] Z. exact (proj1 (K a) Z). Qed.
(** What is left can still be freed. *)
Lemma killed_rest : forall S1 S2 h h1, killed S1 h h1 ->
  (forall a, cnt S1 a + cnt S2 a <= alive h a) -> forall a, cnt S2 a <= alive h1 a.
Proof.
  intros S1 S2 h h1 K H a. specialize (H a).
  destruct (Nat.eq_dec (cnt S1 a) 0) as [Z|Z].
  - rewrite (killed_alive _ _ _ _ K Z). lia.
  - pose proof (alive_le h a). lia.
Qed.

Lemma free_block_killed : forall a h (Q : unit -> heap -> Prop), 0 < alive h a ->
  (forall h', killed [a] h h' -> Q tt h') -> wp (free_block a) Q h.
Proof.
  intros a h Q L HQ. destruct (alive_cell _ _ L) as [c E].
  exists tt, (update h a None). unfold free_block. rewrite E. split; [reflexivity|].
  apply HQ. split; [apply length_update|]. intro b. rewrite cnt_cons, cnt_nil. split; intro N.
  - apply nth_update_ne. intro; subst b. rewrite one_eq in N. lia.
  - assert (a = b) by (apply one_pos; lia). subst b. eapply nth_update_eq. exact E.
Qed.

Definition opts (l : list ptr) : list addr :=
  flat_map (fun o => match o with Some a => [a] | None => [] end) l.
Definition opt (o : ptr) : list addr := match o with Some a => [a] | None => [] end.
Lemma opts_cons : forall o l, opts (o :: l) = opt o ++ opts l.
Proof. reflexivity. Qed.

Lemma free_ptr_killed : forall o h (Q : unit -> heap -> Prop), (forall a, cnt (opt o) a <= alive h a) ->
  (forall h', killed (opt o) h h' -> Q tt h') -> wp (free_ptr o) Q h.
Proof.
  intros [a|] h Q L HQ; cbn [free_ptr opt] in *.
  - apply free_block_killed; [|exact HQ]. specialize (L a). rewrite cnt_cons, one_eq in L. lia.
  - apply wp_ret. apply HQ. apply killed_nil.
Qed.

Lemma free_ptrs_killed : forall l h (Q : unit -> heap -> Prop), (forall a, cnt (opts l) a <= alive h a) ->
  (forall h', killed (opts l) h h' -> Q tt h') -> wp (each free_ptr l) Q h.
Proof.
  induction l as [|o l IH]; intros h Q L HQ; cbn [each].
  - apply wp_ret. apply HQ. apply killed_nil.
  - apply wp_bind. apply free_ptr_killed.
    + intro a. specialize (L a). rewrite opts_cons, cnt_app in L. lia.
    + intros h1 K1. apply IH.
      * eapply killed_rest; [exact K1|]. intro a. specialize (L a). rewrite opts_cons, cnt_app in L. lia.
      * intros h2 K2. apply HQ. rewrite opts_cons. eapply killed_app; eassumption.
Qed.

(** A field of a structure and the blocks it owns. *)
Inductive slot (h : heap) : ptr -> option nat -> list addr -> Prop :=
| slot_vector : forall a, nth_error h a = Some (Some Block) -> slot h (Some a) None [a]
| slot_matrix : forall m c rows, nth_error h m = Some (Some (Pointers c (map Some rows))) ->
    (forall a, In a rows -> nth_error h a = Some (Some Block)) ->
    slot h (Some m) (Some (length rows)) (rows ++ [m]).

Inductive slots (h : heap) : list ptr -> list (option nat) -> list (list addr) -> Prop :=
| slots_nil : slots h [] [] []
| slots_cons : forall o k S l ks Ss, slot h o k S -> slots h l ks Ss ->
    slots h (o :: l) (k :: ks) (S :: Ss).

Lemma opts_map_some : forall l, opts (map Some l) = l.
Proof. induction l as [|a l IH]; cbn; [reflexivity|]. unfold opts in IH. rewrite IH. reflexivity. Qed.

Lemma each_nth : forall (f : ptr -> M unit) (l : list ptr) pre h Q,
  wp (each f l) Q h ->
  wp (each (fun i => match nth_error (pre ++ l) i with Some o => f o | None => fail end)
        (seq (length pre) (length l))) Q h.
Proof.
  intros f l. induction l as [|o l IH]; intros pre h Q W; cbn [each length seq] in *; [exact W|].
  rewrite nth_error_app2 by lia. rewrite Nat.sub_diag. cbn [nth_error].
  destruct W as [u [h2 [E HQ]]]. unfold mbind in E. destruct (f o h) as [[u1 h1]| |] eqn:F;
    cbn [bind fst snd] in E; try discriminate.
  apply wp_bind. exists u1, h1. split; [exact F|].
  replace (pre ++ o :: l) with ((pre ++ [o]) ++ l) by (rewrite <- app_assoc; reflexivity).
  replace (S (length pre)) with (length (pre ++ [o])) by (rewrite app_length; cbn; lia).
  apply IH. exists u, h2. auto.
Qed.

Lemma free_matrix_killed : forall m c rows h (Q : unit -> heap -> Prop),
  nth_error h m = Some (Some (Pointers c (map Some rows))) ->
  (forall a, cnt (rows ++ [m]) a <= alive h a) ->
  (forall h', killed (rows ++ [m]) h h' -> Q tt h') ->
  wp (free_matrix m (length rows)) Q h.
Proof.
  intros m c rows h Q E L HQ. unfold free_matrix. apply wp_bind.
  eapply wp_pointers_at; [exact E|]. cbn [snd]. apply wp_bind.
  assert (W := each_nth free_ptr (map Some rows) [] h
                (fun _ h1 => wp (free_block m) Q h1)).
  cbn [app length] in W. rewrite map_length in W. apply W.
  apply free_ptrs_killed.
  - intro a. rewrite opts_map_some. specialize (L a). rewrite cnt_app in L. lia.
  - rewrite opts_map_some. intros h1 K1. apply free_block_killed.
    + apply (Nat.le_trans _ (cnt [m] m)); [rewrite cnt_cons, one_eq; lia|].
      eapply killed_rest; [exact K1|]. intro a. rewrite <- cnt_app. apply L.
    + intros h2 K2. apply HQ. eapply killed_app; eassumption.
Qed.

Lemma free_field_killed : forall o k S h (Q : unit -> heap -> Prop), slot h o k S ->
  (forall a, cnt S a <= alive h a) -> (forall h', killed S h h' -> Q tt h') ->
  wp (free_field o k) Q h.
Proof.
  intros o k S h Q HS L HQ. destruct HS as [a E|m c rows E E']; cbn [free_field].
  - apply free_ptr_killed; assumption.
  - apply wp_bind. eapply wp_deref; [reflexivity|]. eapply free_matrix_killed; eassumption.
Qed.

(** Facts about cells that survive. *)
Definition keeps (S : list addr) (h h' : heap) : Prop :=
  forall a, 0 < cnt S a -> nth_error h' a = nth_error h a.

Lemma slot_keeps : forall h h' o k S, slot h o k S -> keeps S h h' -> slot h' o k S.
Proof.
  intros h h' o k S HS K. destruct HS as [a E|m c rows E E'].
  - constructor. rewrite K; [exact E|]. rewrite cnt_cons, one_eq. lia.
  - econstructor.
    + rewrite K; [exact E|]. rewrite cnt_app, cnt_cons, one_eq. lia.
    + intros a I. rewrite K; [auto|]. apply cnt_in in I. rewrite cnt_app. lia.
Qed.
Lemma slots_keeps : forall h h' l ks Ss, slots h l ks Ss -> keeps (concat Ss) h h' -> slots h' l ks Ss.
Proof.
  intros h h' l ks Ss HS. induction HS as [|o k S l ks Ss A B IH]; intro K; [constructor|].
  constructor.
  - eapply slot_keeps; [exact A|]. intros a P. apply K. cbn [concat]. rewrite cnt_app. lia.
  - apply IH. intros a P. apply K. cbn [concat]. rewrite cnt_app. lia.
Qed.
Lemma slots_nth : forall h l ks Ss, slots h l ks Ss -> forall i k, nth_error ks i = Some k ->
  exists o, nth_error l i = Some o /\ slot h o k (nth i Ss []).
Proof.
  intros h l ks Ss HS. induction HS as [|o k S l ks Ss A B IH]; intros [|i] k' E; cbn in E |- *; try discriminate.
  - injection E as <-. exists o. auto.
  - apply IH. exact E.
Qed.
Lemma slots_length : forall h l ks Ss, slots h l ks Ss -> length Ss = length ks.
Proof. intros h l ks Ss HS. induction HS; cbn; congruence. Qed.

(** A list of positions to free covers all fields, each once and in the right way. *)
Definition frees_ok (fr : list (nat * option nat)) (ks : list (option nat)) : Prop :=
  Permutation (map fst fr) (seq 0 (length ks)) /\
  forall i k, In (i, k) fr -> nth_error ks i = Some k.

Lemma concat_nth : forall A (Ss : list (list A)),
  concat (map (fun i => nth i Ss []) (seq 0 (length Ss))) = concat Ss.
Proof.
  intros A Ss. f_equal. induction Ss as [|S Ss IH]; [reflexivity|].
  cbn [length seq map nth]. f_equal. rewrite <- seq_shift, map_map. exact IH.
Qed.
Lemma cnt_concat_perm : forall (l l' : list (list addr)) a, Permutation l l' -> cnt (concat l) a = cnt (concat l') a.
Proof.
  intros l l' a P. induction P; cbn [concat]; rewrite ?cnt_app; lia.
Qed.
Lemma frees_cnt : forall fr ks Ss a, frees_ok fr ks -> length Ss = length ks ->
  cnt (concat (map (fun ik : nat * option nat => nth (fst ik) Ss []) fr)) a = cnt (concat Ss) a.
Proof.
  intros fr ks Ss a [P _] L. transitivity (cnt (concat (map (fun i => nth i Ss []) (seq 0 (length Ss)))) a);
    [|rewrite concat_nth; reflexivity].
  apply cnt_concat_perm.
  rewrite <- (map_map fst (fun i => nth i Ss [])). apply Permutation_map. rewrite L. exact P.
Qed.

Definition picked (Ss : list (list addr)) (fr : list (nat * option nat)) : list addr :=
  concat (map (fun ik : nat * option nat => nth (fst ik) Ss []) fr).

Lemma picked_le : forall Ss fr i k a, In (i, k) fr -> cnt (nth i Ss []) a <= cnt (picked Ss fr) a.
Proof.
  intros Ss fr i k a I. unfold picked. induction fr as [|x fr IHf]; [destruct I|].
  cbn [map concat]. rewrite cnt_app. destruct I as [->|I]; [cbn [fst]; lia|]. specialize (IHf I). lia.
Qed.

Lemma free_listed : forall s n l Ss fr h (Q : unit -> heap -> Prop),
  nth_error h s = Some (Some (Pointers n l)) ->
  (forall i k, In (i, k) fr -> exists o, nth_error l i = Some o /\ slot h o k (nth i Ss [])) ->
  (forall a, one s a + cnt (picked Ss fr) a <= alive h a) ->
  (forall h', killed (picked Ss fr) h h' -> Q tt h') ->
  wp (free_fields s fr) Q h.
Proof.
  intros s n l Ss fr. induction fr as [|[i k] fr IH]; intros h Q E F L HQ.
  - apply wp_ret. apply HQ. apply killed_nil.
  - unfold free_fields. cbn [each fst snd] in *. fold (free_fields s fr).
    change (picked Ss ((i, k) :: fr)) with (nth i Ss [] ++ picked Ss fr) in *.
    apply wp_bind. apply wp_bind. eapply wp_pointers_at; [exact E|]. cbn [snd].
    destruct (F i k) as [o [N SL]]; [left; reflexivity|].
    rewrite N. eapply free_field_killed; [exact SL| |].
    + intro a. specialize (L a). rewrite cnt_app in L. lia.
    + intros h1 K1.
      assert (Es : cnt (nth i Ss []) s = 0).
      { specialize (L s). rewrite cnt_app, one_eq in L. pose proof (alive_le h s). lia. }
      apply IH.
      * rewrite (killed_nth _ _ _ _ K1 Es). exact E.
      * intros i' k' I. destruct (F i' k') as [o' [N' SL']]; [right; exact I|].
        exists o'. split; [exact N'|]. eapply slot_keeps; [exact SL'|].
        intros a P. apply (killed_nth _ _ _ _ K1).
        pose proof (picked_le Ss fr i' k' a I).
        specialize (L a). rewrite cnt_app in L. pose proof (alive_le h a). lia.
      * intro a. rewrite <- cnt_cons.
        eapply killed_rest; [exact K1|]. intro b. specialize (L b). rewrite cnt_app in L.
        rewrite cnt_cons. lia.
      * intros h2 K2. apply HQ. eapply killed_app; eassumption.
Qed.

Lemma free_slots : forall s n l ks Ss fr h (Q : unit -> heap -> Prop),
  nth_error h s = Some (Some (Pointers n l)) -> slots h l ks Ss -> frees_ok fr ks ->
  (forall a, one s a + cnt (concat Ss) a <= alive h a) ->
  (forall h', killed (concat Ss) h h' -> Q tt h') ->
  wp (free_fields s fr) Q h.
Proof.
  intros s n l ks Ss fr h Q E HS F L HQ.
  assert (C : forall a, cnt (picked Ss fr) a = cnt (concat Ss) a).
  { intro a. apply (frees_cnt fr ks Ss a F). eapply slots_length. exact HS. }
  eapply free_listed; [exact E| | |].
  - intros i k I. eapply slots_nth; [exact HS|]. apply F. exact I.
  - intro a. rewrite C. apply L.
  - intros h' K. apply HQ. eapply killed_cnt; [exact K|exact C].
Qed.

(** What a problem looks like: the fields that every problem has. *)
Definition shape (q : problem) : Prop :=
  smallest q <> None /\ largest q <> None /\ best_value q <> None /\
  (objectives q <= 1 -> best_parameter q <> None /\ nadir q = None) /\
  (1 < objectives q -> best_parameter q = None /\ nadir q <> None).

(** The fields that point to vectors and strings. *)
Definition plain (q : problem) : list ptr :=
  [smallest q; largest q; best_parameter q; best_value q; nadir q; name q; id q; type q;
   initial q; noise_free q].
Definition blocks (h : heap) (l : list addr) : Prop :=
  forall a, 0 < cnt l a -> nth_error h a = Some (Some Block).

(** The data of a transformation. *)
Inductive tdata (h : heap) : ptr -> transformation -> list addr -> Prop :=
| tdata_null : forall t, tdata h None t []
| tdata_struct : forall s n l ks Ss t,
    nth_error h s = Some (Some (Pointers n l)) -> slots h l ks Ss ->
    match data_frees t n with Some fr => frees_ok fr ks | None => ks = [] end ->
    tdata h (Some s) t (concat Ss ++ [s]).

Definition is_struct (f : free_function) : bool :=
  match f with
  | AttractiveSectorFree | GallagherFree | LunacekFree | StepEllipsoidFree => true
  | _ => false
  end.

(** [own g h p q S]: the problem q at p owns exactly the blocks S; with g also the pointer to
    versatile data leads into S. *)
Inductive own (g : bool) (h : heap) : addr -> problem -> list addr -> Prop :=
| own_intro : forall p q B,
    nth_error h p = Some (Some (ProblemCell q)) -> shape q -> blocks h (opts (plain q)) ->
    body g h q B -> (g = true -> forall v, versatile q = Some v -> 0 < cnt B v) ->
    own g h p q (p :: opts (fields q) ++ B)
with body (g : bool) (h : heap) : problem -> list addr -> Prop :=
| body_none : forall q, free_fn q = NoFree -> blocks h (opt (data q)) -> body g h q []
| body_trans : forall q w i x t qi Si Sd,
    free_fn q = TransformedFree -> data q = Some w ->
    nth_error h w = Some (Some (TransformedCell (Some i) x t)) ->
    own g h i qi Si -> objectives qi = objectives q -> tdata h x t Sd -> body g h q (Si ++ Sd)
| body_stacked : forall q w a qa Sa b qb Sb,
    free_fn q = StackedFree -> data q = Some w ->
    nth_error h w = Some (Some (StackedCell (Some a) (Some b))) ->
    own g h a qa Sa -> own g h b qb Sb -> body g h q (Sa ++ Sb)
| body_struct : forall q d n l ks Ss,
    is_struct (free_fn q) = true -> data q = Some d ->
    nth_error h d = Some (Some (Pointers n l)) -> slots h l ks Ss ->
    frees_ok (raw_frees (free_fn q) (variables q) n) ks -> body g h q (concat Ss)
| body_versatile : forall q v,
    free_fn q = VersatileFree -> versatile q = Some v -> blocks h (opt (data q)) ->
    nth_error h v = Some (Some Block) -> body g h q [v]
| body_gallagher_sub : forall q v,
    free_fn q = GallagherVersatileFree -> versatile q = Some v -> blocks h (opt (data q)) ->
    nth_error h v = Some (Some (Pointers 0 [None; None; None; None; None; None])) -> body g h q [v]
| body_gallagher : forall q v l subs Ss a x sizes sm zm b c c' rows,
    free_fn q = GallagherVersatileFree -> versatile q = Some v -> blocks h (opt (data q)) ->
    nth_error h v = Some (Some (Pointers l [Some a; Some x; Some sizes; Some sm; Some zm; Some b])) ->
    nth_error h a = Some (Some (Pointers c (map Some subs))) -> length subs = l ->
    owns g h subs Ss -> blocks h [x; sizes; sm; zm] ->
    nth_error h b = Some (Some (Pointers c' (map Some rows))) -> length rows = variables q ->
    blocks h rows ->
    body g h q (concat Ss ++ [a; x; sizes; sm; zm] ++ (rows ++ [b]) ++ [v])
| body_lunacek : forall q v n a qa Sa b qb Sb x,
    free_fn q = LunacekVersatileFree -> versatile q = Some v -> blocks h (opt (data q)) ->
    nth_error h v = Some (Some (Pointers n [Some a; Some b; Some x])) ->
    own g h a qa Sa -> own g h b qb Sb -> nth_error h x = Some (Some Block) ->
    body g h q (Sa ++ Sb ++ [x; v])
with owns (g : bool) (h : heap) : list addr -> list (list addr) -> Prop :=
| owns_nil : owns g h [] []
| owns_cons : forall p q S l Ss, own g h p q S -> owns g h l Ss -> owns g h (p :: l) (S :: Ss).

Lemma blocks_keeps : forall h h' l, blocks h l -> keeps l h h' -> blocks h' l.
Proof. intros h h' l B K a P. rewrite K by exact P. apply B. exact P. Qed.
Lemma keeps_sub : forall S S' h h', keeps S h h' -> (forall a, 0 < cnt S' a -> 0 < cnt S a) -> keeps S' h h'.
Proof. intros S S' h h' K H a P. apply K. apply H. exact P. Qed.
Lemma tdata_keeps : forall h h' x t S, tdata h x t S -> keeps S h h' -> tdata h' x t S.
Proof.
  intros h h' x t S HT K. destruct HT as [t|s n l ks Ss t E HS F]; [constructor|].
  econstructor; [|eapply slots_keeps; [exact HS|]|exact F].
  - rewrite K; [exact E|]. rewrite cnt_app, cnt_cons, one_eq. lia.
  - eapply keeps_sub; [exact K|]. intros a P. rewrite cnt_app. lia.
Qed.

Lemma opts_fields : forall q a, cnt (opts (fields q)) a = cnt (opts (plain q)) a + cnt (opt (data q)) a.
Proof.
  intros q a. unfold fields, plain. rewrite !opts_cons, !cnt_app. cbn [opts flat_map]. lia.
Qed.

Ltac inside :=
  intros; repeat rewrite ?opts_fields, ?cnt_app, ?cnt_cons, ?cnt_nil, ?one_eq in *; cbn [opt] in *;
  repeat rewrite ?cnt_cons, ?cnt_nil, ?one_eq in *; lia.

Scheme own_ind' := Induction for own Sort Prop
  with body_ind' := Induction for body Sort Prop
  with owns_ind' := Induction for owns Sort Prop.
Combined Scheme own_mut from own_ind', body_ind', owns_ind'.

Lemma own_keeps_mut : forall g h h',
  (forall p q S, own g h p q S -> keeps S h h' -> own g h' p q S) /\
  (forall q B, body g h q B -> keeps (opt (data q) ++ B) h h' -> body g h' q B) /\
  (forall l Ss, owns g h l Ss -> keeps (concat Ss) h h' -> owns g h' l Ss).
Proof.
  intros g h h'. apply own_mut.
  - intros p q B E HS HB Hb IH V K. constructor; try assumption.
    + rewrite K; [exact E|]. inside.
    + eapply blocks_keeps; [exact HB|]. eapply keeps_sub; [exact K|]. inside.
    + apply IH. eapply keeps_sub; [exact K|]. inside.
  - intros q E HB K. constructor; [exact E|]. eapply blocks_keeps; [exact HB|].
    eapply keeps_sub; [exact K|]. inside.
  - intros q w i x t qi Si Sd E D N O IH Eo T K. rewrite D in K.
    eapply body_trans; try eassumption.
    + rewrite K; [exact N|]. inside.
    + apply IH. eapply keeps_sub; [exact K|]. inside.
    + eapply tdata_keeps; [exact T|]. eapply keeps_sub; [exact K|]. inside.
  - intros q w a qa Sa b qb Sb E D N Oa IHa Ob IHb K. rewrite D in K.
    eapply body_stacked; try eassumption.
    + rewrite K; [exact N|]. inside.
    + apply IHa. eapply keeps_sub; [exact K|]. inside.
    + apply IHb. eapply keeps_sub; [exact K|]. inside.
  - intros q d n l ks Ss E D N HS F K. rewrite D in K.
    eapply body_struct; try eassumption.
    + rewrite K; [exact N|]. inside.
    + eapply slots_keeps; [exact HS|]. eapply keeps_sub; [exact K|]. inside.
  - intros q v E V HB N K. eapply body_versatile; try eassumption.
    + eapply blocks_keeps; [exact HB|]. eapply keeps_sub; [exact K|]. inside.
    + rewrite K; [exact N|]. inside.
  - intros q v E V HB N K. eapply body_gallagher_sub; try eassumption.
    + eapply blocks_keeps; [exact HB|]. eapply keeps_sub; [exact K|]. inside.
    + rewrite K; [exact N|]. inside.
  - intros q v l subs Ss a x sizes sm zm b c c' rows E V HB N Na L O IH HB' Nb Lr HBr K.
    apply (body_gallagher g h' q v l subs Ss a x sizes sm zm b c c' rows); try assumption.
    + eapply blocks_keeps; [exact HB|]. eapply keeps_sub; [exact K|]. inside.
    + rewrite K; [exact N|]. inside.
    + rewrite K; [exact Na|]. inside.
    + apply IH. eapply keeps_sub; [exact K|]. inside.
    + eapply blocks_keeps; [exact HB'|]. eapply keeps_sub; [exact K|]. inside.
    + rewrite K; [exact Nb|]. inside.
    + eapply blocks_keeps; [exact HBr|]. eapply keeps_sub; [exact K|]. inside.
  - intros q v n a qa Sa b qb Sb x E V HB N Oa IHa Ob IHb Nx K.
    eapply body_lunacek; try eassumption.
    + eapply blocks_keeps; [exact HB|]. eapply keeps_sub; [exact K|]. inside.
    + rewrite K; [exact N|]. inside.
    + apply IHa. eapply keeps_sub; [exact K|]. inside.
    + apply IHb. eapply keeps_sub; [exact K|]. inside.
    + rewrite K; [exact Nx|]. inside.
  - intros. constructor.
  - intros p q S l Ss O IH Os IHs K. cbn [concat] in K. econstructor.
    + apply IH. eapply keeps_sub; [exact K|]. inside.
    + apply IHs. eapply keeps_sub; [exact K|]. inside.
Qed.
Lemma own_keeps : forall g h h' p q S, own g h p q S -> keeps S h h' -> own g h' p q S.
Proof. intros g h h' p q S O K. apply (own_keeps_mut g h h'); assumption. Qed.
Lemma body_keeps : forall g h h' q B, body g h q B -> keeps (opt (data q) ++ B) h h' -> body g h' q B.
Proof. intros g h h' q B O K. apply (own_keeps_mut g h h'); assumption. Qed.
Lemma owns_keeps : forall g h h' l Ss, owns g h l Ss -> keeps (concat Ss) h h' -> owns g h' l Ss.
Proof. intros g h h' l Ss O K. apply (own_keeps_mut g h h'); assumption. Qed.

Lemma own_weaken_mut : forall g h,
  (forall p q S, own g h p q S -> own false h p q S) /\
  (forall q B, body g h q B -> body false h q B) /\
  (forall l Ss, owns g h l Ss -> owns false h l Ss).
Proof.
  intros g h. apply own_mut; intros; try (econstructor; eassumption).
  econstructor; try eassumption. discriminate.
Qed.
Lemma own_weaken : forall g h p q S, own g h p q S -> own false h p q S.
Proof. intros g h p q S O. apply (own_weaken_mut g h). exact O. Qed.

Lemma own_cell : forall g h p q S, own g h p q S -> nth_error h p = Some (Some (ProblemCell q)).
Proof. intros g h p q S O. destruct O. assumption. Qed.
Lemma own_shape : forall g h p q S, own g h p q S -> shape q.
Proof. intros g h p q S O. destruct O. assumption. Qed.
Lemma own_has : forall g h p q S, own g h p q S -> 0 < cnt S p.
Proof. intros g h p q S O. destruct O. inside. Qed.
Lemma own_len : forall g h p q S, own g h p q S -> 0 < length S.
Proof. intros g h p q S O. destruct O. cbn. lia. Qed.

(** Pointers stored in the blocks of L stay in L. *)
Definition shut (h : heap) (L L' : list addr) : Prop :=
  forall a c b, 0 < cnt L a -> nth_error h a = Some (Some c) -> In (Some b) (pointers c) -> 0 < cnt L' b.
Lemma shut_app : forall h L1 L2 L, shut h L1 L -> shut h L2 L -> shut h (L1 ++ L2) L.
Proof.
  intros h L1 L2 L A B a c b P. rewrite cnt_app in P. intros.
  destruct (Nat.eq_dec (cnt L1 a) 0).
  - eapply B; eauto. lia.
  - eapply A; eauto. lia.
Qed.
Lemma shut_sub : forall h L L' L'', shut h L L' -> (forall a, 0 < cnt L' a -> 0 < cnt L'' a) -> shut h L L''.
Proof. intros h L L' L'' A B a c b P E I. apply B. eapply A; eauto. Qed.
Lemma shut_keeps : forall h h' L L', shut h L L' -> keeps L h h' -> shut h' L L'.
Proof. intros h h' L L' A K a c b P E I. rewrite K in E by exact P. eapply A; eauto. Qed.
Lemma shut_blocks : forall h L L', blocks h L -> shut h L L'.
Proof. intros h L L' HB a c b P E I. rewrite (HB a P) in E. injection E as <-. destruct I. Qed.
Lemma shut_one : forall h p c L, nth_error h p = Some (Some c) ->
  (forall b, In (Some b) (pointers c) -> 0 < cnt L b) -> shut h [p] L.
Proof.
  intros h p c L E H a c' b P E' I. rewrite cnt_cons, cnt_nil in P.
  assert (p = a) by (apply one_pos; lia). subst a. rewrite E in E'. injection E' as <-. auto.
Qed.
Lemma in_opts : forall l b, In (Some b) l -> 0 < cnt (opts l) b.
Proof.
  induction l as [|o l IH]; intros b I; [destruct I|]. rewrite opts_cons, cnt_app.
  destruct I as [->|I]; [cbn [opt]; rewrite cnt_cons, one_eq; lia|]. specialize (IH b I). lia.
Qed.
Lemma shut_nil : forall h L, shut h [] L.
Proof. intros h L a c b P. rewrite cnt_nil in P. lia. Qed.

Lemma slot_shut : forall h o k S, slot h o k S -> shut h S S /\ forall a, o = Some a -> 0 < cnt S a.
Proof.
  intros h o k S HS. destruct HS as [a E|m c rows E E'].
  - split.
    + eapply shut_one; [exact E|]. intros b [].
    + intros b Eb. injection Eb as <-. inside.
  - split.
    + apply shut_app.
      * apply shut_blocks. intros a P. apply E'. apply cnt_in. exact P.
      * eapply shut_one; [exact E|]. intros b I. apply in_opts in I. cbn [pointers] in I.
        rewrite opts_map_some in I. inside.
    + intros b Eb. injection Eb as <-. inside.
Qed.
Lemma slots_shut : forall h l ks Ss, slots h l ks Ss ->
  shut h (concat Ss) (concat Ss) /\ forall a, In (Some a) l -> 0 < cnt (concat Ss) a.
Proof.
  intros h l ks Ss HS. induction HS as [|o k S l ks Ss A B [I1 I2]].
  - split; [apply shut_nil|intros a []].
  - destruct (slot_shut _ _ _ _ A) as [J1 J2]. cbn [concat]. split.
    + apply shut_app; eapply shut_sub; eauto; inside.
    + intros a [E|I].
      * specialize (J2 a E). inside.
      * specialize (I2 a I). inside.
Qed.
Lemma tdata_shut : forall h x t S, tdata h x t S -> shut h S S /\ forall a, x = Some a -> 0 < cnt S a.
Proof.
  intros h x t S HT. destruct HT as [t|s n l ks Ss t E HS F].
  - split; [apply shut_nil|discriminate].
  - destruct (slots_shut _ _ _ _ HS) as [J1 J2]. split.
    + apply shut_app.
      * eapply shut_sub; [exact J1|]. inside.
      * eapply shut_one; [exact E|]. intros b I. specialize (J2 b I). inside.
    + intros a Ea. injection Ea as <-. inside.
Qed.

Lemma own_shut_mut : forall h,
  (forall p q S, own true h p q S -> shut h S S) /\
  (forall q B, body true h q B -> shut h B B /\ shut h (opt (data q)) (opt (data q) ++ B)) /\
  (forall l Ss, owns true h l Ss -> shut h (concat Ss) (concat Ss) /\
                                    forall a, In (Some a) (map Some l) -> 0 < cnt (concat Ss) a).
Proof.
  intro h. apply own_mut.
  - intros p q B E HS HB Hb [I1 I2] V.
    assert (C : shut h (p :: opts (plain q) ++ opt (data q) ++ B) (p :: opts (fields q) ++ B)).
    { change (p :: opts (plain q) ++ opt (data q) ++ B)
        with ([p] ++ opts (plain q) ++ opt (data q) ++ B).
      apply shut_app; [|apply shut_app; [|apply shut_app]].
      - eapply shut_one; [exact E|]. intros b I.
        change (pointers (ProblemCell q)) with (fields q ++ [versatile q]) in I.
        apply in_app_or in I. destruct I as [I|[I|[]]].
        + apply in_opts in I. inside.
        + specialize (V eq_refl b I). inside.
      - apply shut_blocks. exact HB.
      - eapply shut_sub; [exact I2|]. inside.
      - eapply shut_sub; [exact I1|]. inside. }
    intros a c b P. apply C. revert P. inside.
  - intros q E HB. split; [apply shut_nil|]. apply shut_blocks. exact HB.
  - intros q w i x t qi Si Sd E D N O IH Eo T. rewrite D. cbn [opt].
    destruct (tdata_shut _ _ _ _ T) as [J1 J2]. split.
    + apply shut_app; eapply shut_sub; eauto; inside.
    + eapply shut_one; [exact N|]. intros b [I|[I|[]]].
      * injection I as <-. apply own_has in O. inside.
      * specialize (J2 b I). inside.
  - intros q w a qa Sa b qb Sb E D N Oa IHa Ob IHb. rewrite D. cbn [opt].
    apply own_has in Oa. apply own_has in Ob. split.
    + apply shut_app; eapply shut_sub; eauto; inside.
    + eapply shut_one; [exact N|]. intros r [I|[I|[]]]; injection I as <-; inside.
  - intros q d n l ks Ss E D N HS F. rewrite D. cbn [opt].
    destruct (slots_shut _ _ _ _ HS) as [J1 J2]. split; [exact J1|].
    eapply shut_one; [exact N|]. intros r I. specialize (J2 r I). inside.
  - intros q v E V HB N. split; [|apply shut_blocks; exact HB].
    eapply shut_one; [exact N|]. intros b [].
  - intros q v E V HB N. split; [|apply shut_blocks; exact HB].
    eapply shut_one; [exact N|]. cbn [pointers]. intros b I. exfalso. cbn in I. intuition discriminate.
  - intros q v l subs Ss a x sizes sm zm b c c' rows E V HB N Na L O [I1 I2] HB' Nb Lr HBr.
    split; [|apply shut_blocks; exact HB].
    apply shut_app; [eapply shut_sub; [exact I1|]; inside|].
    apply shut_app; [change [a; x; sizes; sm; zm] with ([a] ++ [x; sizes; sm; zm]); apply shut_app|].
    + eapply shut_one; [exact Na|]. intros r I. specialize (I2 r I). inside.
    + apply shut_blocks. exact HB'.
    + apply shut_app; [apply shut_app|].
      * apply shut_blocks. exact HBr.
      * eapply shut_one; [exact Nb|]. intros r I. apply in_opts in I. cbn [pointers] in I.
        rewrite opts_map_some in I. inside.
      * eapply shut_one; [exact N|]. intros r I. apply in_opts in I. cbn [pointers] in I.
        rewrite !opts_cons in I. inside.
  - intros q v n a qa Sa b qb Sb x E V HB N Oa IHa Ob IHb Nx.
    split; [|apply shut_blocks; exact HB].
    apply own_has in Oa. apply own_has in Ob.
    apply shut_app; [eapply shut_sub; [exact IHa|]; inside|].
    apply shut_app; [eapply shut_sub; [exact IHb|]; inside|].
    change [x; v] with ([x] ++ [v]). apply shut_app.
    + eapply shut_one; [exact Nx|]. intros r [].
    + eapply shut_one; [exact N|]. intros r [I|[I|[I|[]]]]; injection I as <-; inside.
  - split; [apply shut_nil|intros a []].
  - intros p q S l Ss O IH Os [I1 I2]. cbn [concat map]. apply own_has in O. split.
    + apply shut_app; eapply shut_sub; eauto; inside.
    + intros a [I|I]; [injection I as <-; inside|]. specialize (I2 a I). inside.
Qed.
Lemma own_shut : forall h p q S, own true h p q S -> shut h S S.
Proof. intro h. apply own_shut_mut. Qed.

Lemma wp_write : forall p c (Q : unit -> heap -> Prop) h, 0 < alive h p ->
  (forall h', length h' = length h -> nth_error h' p = Some (Some c) ->
              (forall a, a <> p -> nth_error h' a = nth_error h a) -> Q tt h') ->
  wp (write p c) Q h.
Proof.
  intros p c Q h L HQ. destruct (alive_cell _ _ L) as [c0 E].
  exists tt, (update h p (Some c)). unfold write. rewrite E. split; [reflexivity|].
  apply HQ.
  - apply length_update.
  - eapply nth_update_eq. exact E.
  - intros a N. apply nth_update_ne. auto.
Qed.

Lemma generic_free : forall n h p q (Q : unit -> heap -> Prop),
  nth_error h p = Some (Some (ProblemCell q)) -> free_fn q = NoFree ->
  (forall a, cnt (p :: opts (fields q)) a <= alive h a) ->
  (forall h', killed (p :: opts (fields q)) h h' -> Q tt h') ->
  wp (problem_free (S n) p) Q h.
Proof.
  intros n h p q Q E F L HQ. cbn [problem_free]. apply wp_bind. eapply wp_problem_at; [exact E|].
  rewrite F. apply wp_bind. apply free_ptrs_killed.
  - intro a. specialize (L a). inside.
  - intros h1 K1.
    assert (P : cnt (opts (fields q)) p = 0).
    { specialize (L p). pose proof (alive_le h p). rewrite cnt_cons, one_eq in L. lia. }
    apply free_block_killed.
    + rewrite (killed_alive _ _ _ _ K1 P). erewrite cell_alive by exact E. lia.
    + intros h2 K2. apply HQ. eapply killed_cnt; [eapply killed_app; [exact K1|exact K2]|]. inside.
Qed.

Lemma finish : forall n h h1 p q q' B (Q : unit -> heap -> Prop),
  nth_error h p = Some (Some (ProblemCell q)) -> fields q' = fields q -> free_fn q' = NoFree ->
  killed B h h1 -> (forall a, cnt (p :: opts (fields q) ++ B) a <= alive h a) ->
  (forall h3, killed (p :: opts (fields q) ++ B) h h3 -> Q tt h3) ->
  wp (write p (ProblemCell q') ;;; problem_free (S n) p) Q h1.
Proof.
  intros n h h1 p q q' B Q E EF NF K L HQ.
  assert (P : cnt (opts (fields q) ++ B) p = 0).
  { specialize (L p). pose proof (alive_le h p). rewrite cnt_cons, one_eq in L. lia. }
  rewrite cnt_app in P.
  assert (E1 : nth_error h1 p = Some (Some (ProblemCell q))).
  { rewrite (killed_nth _ _ _ _ K) by lia. exact E. }
  apply wp_bind. apply wp_write; [erewrite cell_alive by exact E1; lia|].
  intros h2 L2 E2 N2. eapply generic_free; [exact E2|exact NF| |]; rewrite EF.
  - intro a. destruct (Nat.eq_dec a p) as [->|N].
    + rewrite (cell_alive _ _ _ E2), cnt_cons, one_eq. lia.
    + assert (alive h2 a = alive h1 a) as -> by (unfold alive; rewrite N2 by exact N; reflexivity).
      eapply killed_rest; [exact K|]. intro b. specialize (L b). inside.
  - intros h3 [L3 K3]. apply HQ. split; [destruct K; congruence|]. intro a.
    destruct K as [LK K]. specialize (K a). specialize (K3 a). destruct K as [Ka Kb], K3 as [K3a K3b].
    destruct (Nat.eq_dec a p) as [->|N].
    + split; intro Z; [exfalso; rewrite cnt_cons, one_eq in Z; lia|].
      apply K3b. rewrite cnt_cons, one_eq. lia.
    + rewrite cnt_cons, (one_ne p a) in * by auto. rewrite cnt_app. split; intro Z.
      * rewrite K3a by lia. rewrite N2 by exact N. apply Ka. lia.
      * destruct (Nat.eq_dec (cnt (opts (fields q)) a) 0) as [Z'|Z'].
        -- rewrite K3a by lia. rewrite N2 by exact N. apply Kb. lia.
        -- apply K3b. lia.
Qed.

Lemma tdata_freed : forall p q w i x t Sd h (Q : unit -> heap -> Prop),
  nth_error h p = Some (Some (ProblemCell q)) -> data q = Some w ->
  nth_error h w = Some (Some (TransformedCell i x t)) -> tdata h x t Sd ->
  (forall a, one p a + one w a + cnt Sd a <= alive h a) ->
  (forall h', killed Sd h h' -> wp (write p (ProblemCell (with_free q NoFree))) Q h') ->
  wp (transformed_data_free p) Q h.
Proof.
  intros p q w i x t Sd h Q E D N T L HQ. unfold transformed_data_free.
  apply wp_bind. eapply wp_problem_at; [exact E|].
  apply wp_bind. eapply wp_deref; [exact D|].
  apply wp_bind. eapply wp_read; [exact N|].
  apply wp_bind. destruct T as [t|s n l ks Ss t Es HS F].
  - apply wp_ret. apply HQ. apply killed_nil.
  - apply wp_bind. eapply wp_pointers_at; [exact Es|]. cbn [fst].
    apply wp_bind.
    assert (W : forall Q' : unit -> heap -> Prop, (forall h', killed (concat Ss) h h' -> Q' tt h') ->
      wp (match data_frees t n with Some fr => free_fields s fr | None => ret tt end) Q' h).
    { intros Q' HQ'. destruct (data_frees t n) as [fr|] eqn:Df.
      - eapply free_slots; [exact Es|exact HS|exact F| |exact HQ'].
        intro a. specialize (L a). inside.
      - subst ks. apply slots_length in HS. destruct Ss; [|discriminate].
        apply wp_ret. apply HQ'. apply killed_nil. }
    apply W. intros h1 K1. apply free_block_killed.
    + assert (cnt (concat Ss) s = 0).
      { specialize (L s). pose proof (alive_le h s). inside. }
      rewrite (killed_alive _ _ _ _ K1) by assumption. erewrite cell_alive by exact Es. lia.
    + intros h2 K2. apply HQ. eapply killed_app; eassumption.
Qed.

Definition freed (n : nat) : Prop := forall g h p q S (Q : unit -> heap -> Prop),
  own g h p q S -> 2 * length S <= n -> (forall a, cnt S a <= alive h a) ->
  (forall h', killed S h h' -> Q tt h') -> wp (problem_free n p) Q h.

Lemma keeps_killed : forall S S' h h', killed S h h' -> (forall a, 0 < cnt S' a -> cnt S a = 0) -> keeps S' h h'.
Proof. intros S S' h h' K H a P. apply (killed_nth _ _ _ _ K). auto. Qed.

Lemma free_subs : forall n g, freed n -> forall subs Ss h pre (Q : unit -> heap -> Prop),
  owns g h subs Ss -> 2 * length (concat Ss) <= n -> (forall a, cnt (concat Ss) a <= alive h a) ->
  (forall h', killed (concat Ss) h h' -> Q tt h') ->
  wp (each (fun i => match nth_error (map Some (pre ++ subs)) i with
                     | Some (Some sub) => problem_free n sub
                     | _ => fail
                     end) (seq (length pre) (length subs))) Q h.
Proof.
  intros n g FR subs. induction subs as [|p subs IH]; intros Ss h pre Q O LN L HQ; inversion O; subst.
  - apply wp_ret. apply HQ. apply killed_nil.
  - rename Ss0 into Ss. cbn [length seq each concat] in *. rewrite app_length in LN.
    assert (NE : nth_error (map Some (pre ++ p :: subs)) (length pre) = Some (Some p)).
    { rewrite map_app. rewrite nth_error_app2 by (rewrite map_length; lia).
      rewrite map_length, Nat.sub_diag. reflexivity. }
    apply wp_bind. rewrite NE. eapply FR; [eassumption|lia| |].
    + intro a. specialize (L a). inside.
    + intros h1 K1.
      replace (pre ++ p :: subs) with ((pre ++ [p]) ++ subs) by (rewrite <- app_assoc; reflexivity).
      replace (Datatypes.S (length pre)) with (length (pre ++ [p])) by (rewrite app_length; cbn; lia).
      eapply IH with (Ss := Ss); [|lia| |].
      * eapply owns_keeps; [eassumption|]. eapply keeps_killed; [exact K1|].
        intros a P. specialize (L a). pose proof (alive_le h a). inside.
      * eapply killed_rest; [exact K1|]. intro a. specialize (L a). inside.
      * intros h2 K2. apply HQ. eapply killed_app; eassumption.
Qed.

Ltac room L a h := specialize (L a); pose proof (alive_le h a); inside.

Lemma free_own : forall n, freed n.
Proof.
  induction n as [n IHn] using (well_founded_induction lt_wf).
  intros g h p q S Q O LN L HQ. pose proof (own_len _ _ _ _ _ O) as LP.
  destruct n as [|[|n]]; [lia|lia|].
  assert (IH := IHn (Datatypes.S n) (Nat.lt_succ_diag_r _)). clear IHn.
  destruct O as [p q B E HS HB Hb V]. cbn [length] in LN. rewrite app_length in LN.
  destruct Hb as [q F HD|q w i x t qi Si Sd F D N Oi Eo T|q w a qa Sa b qb Sb F D N Oa Ob
    |q d m l ks Ss F D N Hs Fr|q v F Ev HD Nv|q v F Ev HD Nv
    |q v l subs Ss a x sizes sm zm b c c' rows F Ev HD Nv Na Ls Os HB' Nb Lr HBr
    |q v m a qa Sa b qb Sb x F Ev HD Nv Oa Ob Nx].
  - rewrite app_nil_r in *. eapply generic_free; eassumption.
  - assert (1 <= length (opts (fields q))).
    { assert (0 < cnt (opts (fields q)) w) as C by (rewrite opts_fields, D; inside).
      apply cnt_in in C. destruct (opts (fields q)); [destruct C|cbn; lia]. }
    rewrite app_length in LN.
    cbn [problem_free]. apply wp_bind. eapply wp_problem_at; [exact E|]. rewrite F.
    apply wp_bind. eapply wp_deref; [exact D|]. apply wp_bind. eapply wp_read; [exact N|].
    apply wp_bind. eapply wp_deref; [reflexivity|].
    assert (Lw : forall a, one p a + one w a + (cnt Si a + cnt Sd a) <= alive h a).
    { intro a. specialize (L a). rewrite cnt_cons, !cnt_app, opts_fields, D in L. inside. }
    apply wp_bind. eapply IH; [exact Oi|lia| |].
    + intro a. specialize (Lw a). lia.
    + intros h1 K1.
      assert (Ep : nth_error h1 p = Some (Some (ProblemCell q))).
      { rewrite (killed_nth _ _ _ _ K1); [exact E|]. room Lw p h. }
      apply wp_bind.
      eapply tdata_freed with (w := w) (q := q) (Sd := Sd); [exact Ep|exact D| | | |].
      * rewrite (killed_nth _ _ _ _ K1); [exact N|]. room Lw w h.
      * eapply tdata_keeps; [exact T|]. eapply keeps_killed; [exact K1|]. intros a P. room Lw a h.
      * intro a. replace (one p a + one w a + cnt Sd a) with (cnt (p :: w :: Sd) a) by inside.
        eapply killed_rest; [exact K1|]. intro b. specialize (Lw b). inside.
      * intros h2 K2.
        assert (KB : killed (Si ++ Sd) h h2) by (eapply killed_app; eassumption).
        destruct (finish n h h2 p q (with_free q NoFree) (Si ++ Sd) Q E eq_refl eq_refl KB L HQ)
          as [u [h4 [W HQ']]].
        unfold mbind in W. unfold wp at 1.
        destruct (write p (ProblemCell (with_free q NoFree)) h2) as [[u3 h3]| |];
          cbn [bind fst snd] in W; try discriminate.
        exists u3, h3. split; [reflexivity|]. exists u, h4. auto.
  - assert (1 <= length (opts (fields q))).
    { assert (0 < cnt (opts (fields q)) w) as C by (rewrite opts_fields, D; inside).
      apply cnt_in in C. destruct (opts (fields q)); [destruct C|cbn; lia]. }
    rewrite app_length in LN.
    cbn [problem_free]. apply wp_bind. eapply wp_problem_at; [exact E|]. rewrite F.
    apply wp_bind. eapply wp_deref; [exact D|]. apply wp_bind. eapply wp_read; [exact N|].
    apply wp_bind. eapply IH; [exact Oa|lia| |].
    + intro c. specialize (L c). inside.
    + intros h1 K1. apply wp_bind. eapply IH; [|shelve| |].
      * eapply own_keeps; [exact Ob|]. eapply keeps_killed; [exact K1|]. intros c P. room L c h.
      * eapply killed_rest; [exact K1|]. intro c. specialize (L c). inside.
      * intros h2 K2. eapply (finish n h h2 p q (with_free q NoFree) (Sa ++ Sb));
          [exact E|reflexivity|reflexivity|eapply killed_app; eassumption|exact L|exact HQ].
      Unshelve. lia.
  - cbn [problem_free]. apply wp_bind. eapply wp_problem_at; [exact E|].
    assert (G : wp (d0 <-- deref (data q) ;; r <-- pointers_at d0 ;;
                    free_fields d0 (raw_frees (free_fn q) (variables q) (fst r)) ;;;
                    write p (ProblemCell (with_free q NoFree)) ;;; problem_free (Datatypes.S n) p) Q h).
    { apply wp_bind. eapply wp_deref; [exact D|]. apply wp_bind. eapply wp_pointers_at; [exact N|].
      cbn [fst]. apply wp_bind. eapply free_slots; [exact N|exact Hs|exact Fr| |].
      - intro a. specialize (L a). rewrite cnt_cons, cnt_app, opts_fields, D in L. inside.
      - intros h1 K1. eapply (finish n h h1 p q (with_free q NoFree) (concat Ss));
          [exact E|reflexivity|reflexivity|exact K1|exact L|exact HQ]. }
    destruct (free_fn q); try discriminate F; exact G.
  - cbn [problem_free]. apply wp_bind. eapply wp_problem_at; [exact E|]. rewrite F, Ev.
    apply wp_bind. cbn [free_ptr]. apply free_block_killed.
    + erewrite cell_alive by exact Nv. lia.
    + intros h1 K1. eapply (finish n h h1 p q (with_free (with_versatile q None) NoFree) [v]);
        [exact E|reflexivity|reflexivity|exact K1|exact L|exact HQ].
  - cbn [problem_free]. apply wp_bind. eapply wp_problem_at; [exact E|]. rewrite F, Ev.
    apply wp_bind. eapply wp_deref; [reflexivity|]. apply wp_bind. eapply wp_pointers_at; [exact Nv|].
    cbn [fst snd free_ptr].
    repeat (apply wp_bind; apply wp_ret).
    apply wp_bind. apply free_block_killed.
    + erewrite cell_alive by exact Nv. lia.
    + intros h1 K1. eapply (finish n h h1 p q (with_free (with_versatile q None) NoFree) [v]);
        [exact E|reflexivity|reflexivity|exact K1|exact L|exact HQ].
  - rewrite !app_length in LN. cbn [length] in LN.
    cbn [problem_free]. apply wp_bind. eapply wp_problem_at; [exact E|]. rewrite F, Ev.
    apply wp_bind. eapply wp_deref; [reflexivity|]. apply wp_bind. eapply wp_pointers_at; [exact Nv|].
    cbn [fst snd].
    assert (LB : forall y, cnt (concat Ss) y + one a y + one x y + one sizes y + one sm y + one zm y
                           + cnt rows y + one b y + one v y <= alive h y).
    { intro y. specialize (L y). inside. }
    apply wp_bind. apply wp_bind. eapply wp_pointers_at; [exact Na|]. cbn [snd].
    apply wp_bind. rewrite <- Ls.
    eapply (free_subs (Datatypes.S n) g IH subs Ss h []); [exact Os|lia| |].
    { intro y. specialize (LB y). lia. }
    intros h1 K1. apply free_block_killed.
    { rewrite (killed_alive _ _ _ _ K1); [erewrite cell_alive by exact Na; lia|]. room LB a h. }
    intros h2 K2. assert (KK := killed_app _ _ _ _ _ K1 K2). clear K1 K2 h1.
    cbn [free_ptr].
    assert (step : forall z S h' (Q' : unit -> heap -> Prop), killed S h h' ->
      0 < alive h z -> cnt S z = 0 ->
      (forall h'', killed (S ++ [z]) h h'' -> Q' tt h'') -> wp (free_block z) Q' h').
    { intros z S h' Q' K A C HQ'. apply free_block_killed.
      - rewrite (killed_alive _ _ _ _ K C). exact A.
      - intros h'' K'. apply HQ'. eapply killed_app; eassumption. }
    apply wp_bind. eapply step; [exact KK| | |]; [specialize (LB x); inside|room LB x h|].
    clear KK h2. intros h2 KK.
    apply wp_bind. eapply step; [exact KK| | |]; [specialize (LB sizes); inside|room LB sizes h|].
    clear KK h2. intros h2 KK.
    apply wp_bind. eapply step; [exact KK| | |]; [specialize (LB sm); inside|room LB sm h|].
    clear KK h2. intros h2 KK.
    apply wp_bind. eapply step; [exact KK| | |]; [specialize (LB zm); inside|room LB zm h|].
    clear KK h2. intros h2 KK.
    apply wp_bind. rewrite <- Lr.
    eapply free_matrix_killed.
    { rewrite (killed_nth _ _ _ _ KK); [exact Nb|]. room LB b h. }
    { eapply killed_rest; [exact KK|]. intro y. specialize (LB y). inside. }
    intros h3 K3. assert (KK' := killed_app _ _ _ _ _ KK K3). clear KK K3 h2.
    apply wp_bind. eapply step; [exact KK'| | |]; [specialize (LB v); inside|room LB v h|].
    clear KK' h3. intros h3 KK.
    eapply (finish n h h3 p q (with_free (with_versatile q None) NoFree)
             (concat Ss ++ [a; x; sizes; sm; zm] ++ (rows ++ [b]) ++ [v]));
        [exact E|reflexivity|reflexivity| |exact L|exact HQ].
    eapply killed_cnt; [exact KK|]. inside.
  - rewrite !app_length in LN. cbn [length] in LN.
    cbn [problem_free]. apply wp_bind. eapply wp_problem_at; [exact E|]. rewrite F, Ev.
    apply wp_bind. eapply wp_deref; [reflexivity|]. apply wp_bind. eapply wp_pointers_at; [exact Nv|].
    cbn [fst snd].
    assert (LB : forall y, cnt Sa y + cnt Sb y + one x y + one v y <= alive h y).
    { intro y. specialize (L y). inside. }
    apply wp_bind. eapply IH; [exact Oa|lia| |].
    { intro y. specialize (LB y). lia. }
    intros h1 K1. apply wp_bind. eapply IH; [|shelve| |].
    { eapply own_keeps; [exact Ob|]. eapply keeps_killed; [exact K1|]. intros y P. room LB y h. }
    { eapply killed_rest; [exact K1|]. intro y. specialize (LB y). inside. }
    intros h2 K2. assert (KK := killed_app _ _ _ _ _ K1 K2). clear K1 K2 h1.
    apply wp_bind. cbn [free_ptr]. apply free_block_killed.
    { rewrite (killed_alive _ _ _ _ KK); [specialize (LB x); inside|room LB x h]. }
    intros h3 K3. assert (KK' := killed_app _ _ _ _ _ KK K3). clear KK K3 h2.
    apply wp_bind. apply free_block_killed.
    { rewrite (killed_alive _ _ _ _ KK'); [specialize (LB v); inside|room LB v h]. }
    intros h4 K4.
    eapply (finish n h h4 p q (with_free (with_versatile q None) NoFree) (Sa ++ Sb ++ [x; v]));
        [exact E|reflexivity|reflexivity| |exact L|exact HQ].
    eapply killed_cnt; [eapply killed_app; [exact KK'|exact K4]|]. inside.
    Unshelve. lia.
Qed.
