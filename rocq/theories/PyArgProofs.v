(** Facts about args_to_dict. *)
From Coq Require Import List Arith NArith ZArith Ascii String Bool Lia.
From Verif Require Import CBase StrModel PyArgModel PyArgSpec.
Import ListNotations.
Local Open Scope nat_scope.
Local Notation length := List.length.

(** *** split *)
Lemma split_nonempty : forall sep s, split sep s <> [].
Proof. intros sep [|c s]; cbn; [discriminate|]. destruct (Ascii.eqb c sep); [discriminate|]. destruct (split sep s); discriminate. Qed.
Lemma split_one : forall sep s, ~ In sep s -> split sep s = [s].
Proof.
  induction s as [|c s IH]; intros H; [reflexivity|]. cbn [split]. destruct (Ascii.eqb_spec c sep) as [->|N].
  - contradiction H. left. reflexivity.
  - rewrite IH; [reflexivity|]. intros I. apply H. right. exact I.
Qed.
Lemma split_app : forall sep p s, ~ In sep p -> split sep (p ++ sep :: s) = p :: split sep s.
Proof.
  induction p as [|c p IH]; intros s H; cbn [app split].
  - rewrite Ascii.eqb_refl. reflexivity.
  - destruct (Ascii.eqb_spec c sep) as [->|N].
    + contradiction H. left. reflexivity.
    + rewrite IH; [reflexivity|]. intros I. apply H. right. exact I.
Qed.
Lemma split_joined : forall sep l, without sep l -> split sep (joined_by sep l) = l.
Proof.
  intros sep l [Ne F]. induction l as [|p l IH]; [congruence|]. inversion F as [|x y Hp F']; subst. destruct l as [|q l].
  - cbn [joined_by]. apply split_one. exact Hp.
  - change (joined_by sep (p :: q :: l)) with (p ++ sep :: joined_by sep (q :: l)).
    rewrite split_app by exact Hp. f_equal. apply IH; [discriminate|exact F'].
Qed.
Lemma split_sound : forall sep s, without sep (split sep s) /\ joined_by sep (split sep s) = s.
Proof.
  induction s as [|c s [[Ne F] J]].
  - split; [|reflexivity]. split; [discriminate|]. repeat constructor. intros [].
  - cbn [split]. destruct (Ascii.eqb_spec c sep) as [->|N].
    + split; [split; [discriminate|constructor; [intros []|exact F]]|].
      destruct (split sep s) as [|p l] eqn:E; [contradiction Ne; reflexivity|].
      change (joined_by sep ([] :: p :: l)) with (sep :: joined_by sep (p :: l)). rewrite J. reflexivity.
    + destruct (split sep s) as [|p l] eqn:E; [contradiction Ne; reflexivity|]. inversion F as [|x y Hp F']; subst.
      split; [split; [discriminate|constructor; [|exact F']]|].
      * intros [X|X]; [exact (N X)|exact (Hp X)].
      * destruct l; reflexivity.
Qed.
Lemma split_assigns : forall arg name value, split "=" arg = [name; value] <-> assigns arg name value.
Proof.
  intros arg name value. split.
  - intros E. destruct (split_sound "=" arg) as [[_ F] J]. rewrite E in F, J. inversion F as [|x y H1 F']; subst.
    inversion F'; subst. split; [reflexivity|]. split; assumption.
  - intros (-> & H1 & H2). rewrite split_app by exact H1. rewrite split_one by exact H2. reflexivity.
Qed.

(** *** startswith *)
Lemma startswith_spec : forall s p, startswith s p = true <-> begins p s.
Proof.
  intros s p. unfold startswith. revert s. induction p as [|a p IH]; intros s; cbn [is_prefix].
  - split; [intros _; exists s; reflexivity|reflexivity].
  - destruct s as [|b s].
    + split; [discriminate|]. intros [r E]. discriminate E.
    + rewrite andb_true_iff, Ascii.eqb_eq, IH. split.
      * intros [-> [r ->]]. exists r. reflexivity.
      * intros [r E]. injection E as -> ->. split; [reflexivity|]. exists r. reflexivity.
Qed.
Lemma filter_empty : forall A (f : A -> bool) l, length (filter f l) = 0 <-> Forall (fun x => f x = false) l.
Proof.
  induction l as [|a l IH]; cbn [filter]; [split; [constructor|reflexivity]|]. destruct (f a) eqn:E.
  - cbn [List.length]. split; [discriminate|]. intros F. inversion F; congruence.
  - rewrite IH. split; [constructor; assumption|]. intros F. inversion F; assumption.
Qed.
Lemma filter_single : forall A (f : A -> bool) l, length (filter f l) = 1 <->
  exists b k a, l = b ++ k :: a /\ f k = true /\ Forall (fun x => f x = false) b /\ Forall (fun x => f x = false) a.
Proof.
  induction l as [|x l IH]; cbn [filter].
  - split; [discriminate|]. intros (b & k & a & E & _). destruct b; discriminate E.
  - destruct (f x) eqn:E.
    + cbn [List.length]. split.
      * intros L. assert (L' : length (filter f l) = 0) by lia. apply filter_empty in L'.
        exists [], x, l. split; [reflexivity|]. split; [exact E|]. split; [constructor|exact L'].
      * intros (b & k & a & El & Fk & Fb & Fa). destruct b as [|y b]; injection El as -> ->.
        -- apply filter_empty in Fa. lia.
        -- inversion Fb; congruence.
    + rewrite IH. split.
      * intros (b & k & a & -> & Fk & Fb & Fa). exists (x :: b), k, a. split; [reflexivity|]. split; [exact Fk|].
        split; [constructor; assumption|exact Fa].
      * intros (b & k & a & El & Fk & Fb & Fa). destruct b as [|y b]; injection El as -> ->; [congruence|].
        inversion Fb; subst. exists b, k, a. auto.
Qed.
Lemma not_begins : forall name l, Forall (fun o => startswith o name = false) l <-> Forall (fun o => ~ begins name o) l.
Proof.
  intros name l. split; intros F; (eapply Forall_impl; [|exact F]); intros o H.
  - intros B. apply startswith_spec in B. congruence.
  - apply not_true_is_false. intros B. apply startswith_spec in B. contradiction.
Qed.
Lemma names_unique : forall known name k k', names known name k -> names known name k' -> k = k'.
Proof.
  intros [l|] name k k' H H'; cbn [names] in *; [|congruence].
  destruct H as (b & a & E & B & Fb & Fa). destruct H' as (b' & a' & E' & B' & Fb' & Fa'). subst l.
  assert (I : In k' (b ++ k :: a)) by (rewrite E'; apply in_app_iff; right; left; reflexivity).
  rewrite Forall_forall in Fb, Fa. apply in_app_iff in I as [I|[I|I]]; [contradiction (Fb k' I)|exact I|contradiction (Fa k' I)].
Qed.

Section Args.
Variable V : Type.
Variable equal : V -> V -> bool.
Variable eval_value : cstr -> V.
Variable int_of : cstr -> option V.
Notation get := (get V).
Notation set := (set V).
Notation find_name := (find_name V equal eval_value).
Notation process := (process V equal eval_value int_of).
Notation run := (run V equal eval_value int_of).

Lemma get_set : forall d k v k', get (set d k v) k' = if streq k k' then Some v else get d k'.
Proof.
  induction d as [|(a, b) d IH]; intros k v k'; cbn [PyArgModel.set PyArgModel.get]; [reflexivity|].
  destruct (streq a k) eqn:E.
  - apply streq_spec in E. subst a. cbn [PyArgModel.get]. destruct (streq k k'); reflexivity.
  - cbn [PyArgModel.get]. destruct (streq a k') eqn:E'; [|apply IH]. apply streq_spec in E'. subst a.
    destruct (streq k k') eqn:E2; [|reflexivity]. apply streq_spec in E2. subst k'. rewrite (proj2 (streq_spec k k) eq_refl) in E. discriminate E.
Qed.

(** What one argument does *)
Definition put (res : dict V) (k value : cstr) : option (dict V) :=
  match get res k with
  | Some x => if equal x (eval_value value) then Some res else None
  | None => Some (set res k (eval_value value))
  end.
Lemma find_unique : forall others name value res, length (filter (fun o => startswith o name) others) = 1 ->
  forall loop b k a, loop = b ++ k :: a -> startswith k name = true -> Forall (fun o => startswith o name = false) b ->
  find_name loop others name value res = put res k value.
Proof.
  intros others name value res L. induction loop as [|x loop IH]; intros b k a E Sk Fb; [destruct b; discriminate E|].
  cbn [PyArgModel.find_name]. rewrite L, Nat.eqb_refl, andb_true_r. destruct b as [|y b]; injection E as -> ->.
  - rewrite Sk. reflexivity.
  - inversion Fb as [|z w H Fb']; subst. rewrite H. apply (IH b k a eq_refl Sk Fb').
Qed.
Lemma find_none : forall others name value res, length (filter (fun o => startswith o name) others) <> 1 ->
  forall loop, find_name loop others name value res = None.
Proof.
  intros others name value res L. induction loop as [|x loop IH]; [reflexivity|]. cbn [PyArgModel.find_name].
  apply Nat.eqb_neq in L. rewrite L, andb_false_r. exact IH.
Qed.
Lemma process_put : forall known res arg k value, sets known arg k value -> process known [] res arg = put res k value.
Proof.
  intros known res arg k value (name & A & N). unfold PyArgModel.process. apply split_assigns in A. rewrite A. cbn [find].
  destruct known as [l|]; cbn [names] in N.
  - destruct N as (b & a & -> & B & Fb & Fa). apply startswith_spec in B. apply not_begins in Fb, Fa.
    assert (L : length (filter (fun o => startswith o name) (b ++ k :: a)) = 1)
      by (apply filter_single; exists b, k, a; auto).
    destruct (b ++ k :: a) as [|x l] eqn:E; [destruct b; discriminate E|]. eapply find_unique; [exact L|symmetry; exact E|exact B|exact Fb].
  - subst k. assert (S : startswith name name = true) by (apply startswith_spec; exists []; symmetry; apply app_nil_r).
    eapply (find_unique _ name value res); [cbn [filter]; rewrite S; reflexivity|exact (eq_refl ([] ++ name :: []))|exact S|constructor].
Qed.
Lemma process_none : forall known res arg, (forall k value, ~ sets known arg k value) -> process known [] res arg = None.
Proof.
  intros known res arg H. unfold PyArgModel.process. destruct (split "=" arg) as [|name [|value [|x l]]] eqn:E; try reflexivity.
  apply split_assigns in E. cbn [find]. destruct known as [l|].
  - destruct l as [|x l]; [reflexivity|]. apply find_none. intros L. apply filter_single in L as (b & k & a & El & Sk & Fb & Fa).
    apply (H k value). exists name. split; [exact E|]. exists b, a. split; [exact El|].
    split; [apply startswith_spec, Sk|]. split; apply not_begins; assumption.
  - exfalso. apply (H name value). exists name. split; [exact E|reflexivity].
Qed.
Lemma sets_dec : forall known arg, (exists k value, sets known arg k value) \/ (forall k value, ~ sets known arg k value).
Proof.
  intros known arg. destruct (split "=" arg) as [|name [|value [|x l]]] eqn:E;
    try (right; intros k v (n & A & _); apply split_assigns in A; congruence).
  destruct known as [l|].
  - destruct (Nat.eq_dec (length (filter (fun o => startswith o name) l)) 1) as [L|L].
    + left. apply filter_single in L as (b & k & a & El & Sk & Fb & Fa). exists k, value, name.
      split; [apply split_assigns, E|]. exists b, a. split; [exact El|]. split; [apply startswith_spec, Sk|]. split; apply not_begins; assumption.
    + right. intros k v (n & A & N). apply split_assigns in A. assert (Q : n = name /\ v = value) by (split; congruence).
      destruct Q as [-> ->]. apply L. destruct N as (b & a & -> & B & Fb & Fa). apply filter_single. exists b, k, a.
      split; [reflexivity|]. split; [apply startswith_spec, B|]. split; apply not_begins; assumption.
  - left. exists name, value, name. split; [apply split_assigns, E|reflexivity].
Qed.
Lemma sets_unique : forall known arg k v k' v', sets known arg k v -> sets known arg k' v' -> k = k' /\ v = v'.
Proof.
  intros known arg k v k' v' (n & A & N) (n' & A' & N'). apply split_assigns in A, A'. rewrite A in A'. injection A' as <- <-.
  split; [|reflexivity]. eapply names_unique; eassumption.
Qed.

(** *** All arguments *)
Definition first_or (res : dict V) (known : option (list cstr)) (args : list cstr) (k : cstr) (x : V) : Prop :=
  match get res k with
  | Some y => x = y
  | None => exists value, first_sets known args k value /\ x = eval_value value
  end.
Lemma run_sound : forall known args res d, run known [] args res = Some d ->
  (forall k x, get d k = Some x <-> first_or res known args k x) /\
  (forall a, In a args -> exists k value x, sets known a k value /\ get d k = Some x /\
     (equal x (eval_value value) = true \/ x = eval_value value)).
Proof.
  intros known. induction args as [|a args IH]; intros res d H; cbn [PyArgModel.run] in H.
  - injection H as <-. split; [|intros a []]. intros k x. unfold first_or. destruct (get res k) as [y|].
    + split; congruence.
    + split; [discriminate|]. intros (v & (b & e & c & E & _) & _). destruct b; discriminate E.
  - destruct (process known [] res a) as [r|] eqn:P; [|discriminate H].
    destruct (sets_dec known a) as [(k0 & v0 & S)|N]; [|rewrite (process_none _ _ _ N) in P; discriminate P].
    rewrite (process_put _ _ _ _ _ S) in P. destruct (IH r d H) as [G A]. clear IH H.
    assert (Gk0 : exists x, get r k0 = Some x /\ (equal x (eval_value v0) = true \/ x = eval_value v0)).
    { unfold put in P. destruct (get res k0) as [y|] eqn:Ey.
      - destruct (equal y (eval_value v0)) eqn:Q; [|discriminate P]. injection P as <-. exists y. auto.
      - injection P as <-. exists (eval_value v0). rewrite get_set, (proj2 (streq_spec k0 k0) eq_refl). auto. }
    split.
    + intros k x. rewrite G. unfold first_or. unfold put in P. destruct (get res k) as [y|] eqn:Ek.
      * assert (R : get r k = Some y).
        { destruct (get res k0) as [z|] eqn:Ez; [destruct (equal z _); [|discriminate P]; congruence|]. injection P as <-.
          rewrite get_set. destruct (streq k0 k) eqn:Q; [|exact Ek]. apply streq_spec in Q. congruence. }
        rewrite R. reflexivity.
      * destruct (streq k0 k) eqn:Q.
        -- apply streq_spec in Q. subst k. rewrite Ek in P. injection P as <-. rewrite get_set, (proj2 (streq_spec k0 k0) eq_refl).
           split.
           ++ intros ->. exists v0. split; [|reflexivity]. exists [], a, args. split; [reflexivity|]. split; [exact S|intros ? ? []].
           ++ intros (v & (b & e & c & E & Se & Nb) & ->). destruct b as [|e' b]; injection E as <- ->.
              ** destruct (sets_unique _ _ _ _ _ _ S Se) as [_ <-]. reflexivity.
              ** exfalso. exact (Nb a v0 (or_introl eq_refl) S).
        -- assert (R : get r k = None).
           { destruct (get res k0) as [z|] eqn:Ez; [destruct (equal z _); [|discriminate P]; congruence|]. injection P as <-.
             rewrite get_set, Q. exact Ek. }
           rewrite R. split.
           ++ intros (v & (b & e & c & -> & Se & Nb) & ->). exists v. split; [|reflexivity]. exists (a :: b), e, c.
              split; [reflexivity|]. split; [exact Se|]. intros a' w [<-|I] Sa; [|exact (Nb a' w I Sa)].
              destruct (sets_unique _ _ _ _ _ _ S Sa) as [-> _]. rewrite (proj2 (streq_spec k k) eq_refl) in Q. discriminate Q.
           ++ intros (v & (b & e & c & E & Se & Nb) & ->). exists v. split; [|reflexivity]. destruct b as [|e' b]; injection E as <- ->.
              ** exfalso. destruct (sets_unique _ _ _ _ _ _ S Se) as [-> _]. rewrite (proj2 (streq_spec k k) eq_refl) in Q. discriminate Q.
              ** exists b, e, c. split; [reflexivity|]. split; [exact Se|]. intros a' w I. apply Nb. right. exact I.
    + intros a' [<-|I]; [|apply A, I]. destruct Gk0 as (x & Gx & Ex). exists k0, v0, x. split; [exact S|]. split; [|exact Ex].
      apply G. unfold first_or. rewrite Gx. reflexivity.
Qed.

(** Arguments are accepted if each sets a name and the values for the same name are equal to the first. *)
Definition agree (known : option (list cstr)) (args : list cstr) : Prop :=
  forall b1 a1 b2 a2 c k v1 v2, args = b1 ++ a1 :: b2 ++ a2 :: c -> (forall a w, In a b1 -> ~ sets known a k w) ->
    sets known a1 k v1 -> sets known a2 k v2 -> equal (eval_value v1) (eval_value v2) = true.
Lemma run_complete : forall known args res,
  (forall a, In a args -> exists k v, sets known a k v) ->
  (forall a k v x, In a args -> sets known a k v -> get res k = Some x -> equal x (eval_value v) = true) ->
  (forall b1 a1 b2 a2 c k v1 v2, args = b1 ++ a1 :: b2 ++ a2 :: c -> get res k = None -> (forall a w, In a b1 -> ~ sets known a k w) ->
     sets known a1 k v1 -> sets known a2 k v2 -> equal (eval_value v1) (eval_value v2) = true) ->
  exists d, run known [] args res = Some d.
Proof.
  intros known. induction args as [|a args IH]; intros res H1 H2 H3; [exists res; reflexivity|]. cbn [PyArgModel.run].
  destruct (H1 a (or_introl eq_refl)) as (k & v & S). rewrite (process_put _ _ _ _ _ S). unfold put.
  destruct (get res k) as [y|] eqn:E.
  - rewrite (H2 a k v y (or_introl eq_refl) S E). apply IH.
    + intros a' I. apply H1. right. exact I.
    + intros a' k' v' x I. apply H2. right. exact I.
    + intros b1 a1 b2 a2 c k' v1 v2 -> G N. apply (H3 (a :: b1) a1 b2 a2 c k' v1 v2 eq_refl G).
      intros a' w [<-|I]; [|apply N, I]. intros Sa. destruct (sets_unique _ _ _ _ _ _ S Sa) as [-> _]. congruence.
  - apply IH.
    + intros a' I. apply H1. right. exact I.
    + intros a' k' v' x I Sa G. rewrite get_set in G. destruct (streq k k') eqn:Q.
      * apply streq_spec in Q. subst k'. injection G as <-. apply in_split in I as (b2 & c & ->).
        apply (H3 [] a b2 a' c k v v' eq_refl E); [intros ? ? []|exact S|exact Sa].
      * apply (H2 a' k' v' x (or_intror I) Sa G).
    + intros b1 a1 b2 a2 c k' v1 v2 -> G N S1 S2. rewrite get_set in G. destruct (streq k k') eqn:Q; [discriminate G|].
      apply (H3 (a :: b1) a1 b2 a2 c k' v1 v2 eq_refl G); [|exact S1|exact S2].
      intros a' w [<-|I]; [|apply N, I]. intros Sa. destruct (sets_unique _ _ _ _ _ _ S Sa) as [-> _].
      rewrite (proj2 (streq_spec k' k') eq_refl) in Q. discriminate Q.
Qed.

Lemma run_rejects : forall known args res a, In a args -> (forall k v, ~ sets known a k v) -> run known [] args res = None.
Proof.
  intros known. induction args as [|x args IH]; intros res a I N; [destruct I|]. cbn [PyArgModel.run].
  destruct I as [->|I]; [rewrite (process_none _ _ _ N); reflexivity|].
  destruct (process known [] res x); [apply (IH _ a I N)|reflexivity].
Qed.

(** *** batch *)
Lemma assign_sound : forall ks vs res d, length ks = length vs -> NoDup ks -> assign V int_of ks vs res = Some d ->
  (forall i k v, nth_error ks i = Some k -> nth_error vs i = Some v -> exists x, int_of v = Some x /\ get d k = Some x) /\
  (forall k, ~ In k ks -> get d k = get res k).
Proof.
  induction ks as [|k ks IH]; intros vs res d L N H; destruct vs as [|v vs]; try discriminate L; cbn [assign] in H.
  - injection H as <-. split; [intros [|i] k v E; discriminate E|reflexivity].
  - inversion N as [|x l Nk N']; subst. destruct (int_of v) as [x|] eqn:E; [|discriminate H].
    destruct (IH vs (set res k x) d (f_equal pred L) N' H) as [A B]. split.
    + intros [|i] k' v' Ek Ev; cbn in Ek, Ev; [|apply (A i k' v' Ek Ev)]. injection Ek as <-. injection Ev as <-.
      exists x. split; [exact E|]. rewrite (B k Nk), get_set, (proj2 (streq_spec k k) eq_refl). reflexivity.
    + intros k' Nk'. rewrite (B k'); [|intros I; apply Nk'; right; exact I]. rewrite get_set.
      destruct (streq k k') eqn:Q; [|reflexivity]. apply streq_spec in Q. subst k'. contradiction Nk'. left. reflexivity.
Qed.
Lemma assign_complete : forall ks vs res, length ks = length vs ->
  (assign V int_of ks vs res = None <-> exists v, In v vs /\ int_of v = None).
Proof.
  induction ks as [|k ks IH]; intros vs res L; destruct vs as [|v vs]; try discriminate L; cbn [assign].
  - split; [discriminate|]. intros (v & [] & _).
  - destruct (int_of v) as [x|] eqn:E.
    + rewrite (IH vs _ (f_equal pred L)). split.
      * intros (w & I & Ew). exists w. split; [right; exact I|exact Ew].
      * intros (w & [<-|I] & Ew); [congruence|]. exists w. split; assumption.
    + split; [|reflexivity]. intros _. exists v. split; [left; reflexivity|exact E].
Qed.
End Args.
