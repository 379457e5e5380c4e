(** C45 (first part): the permutations of the variables of large-scale problems. *)
From Coq Require Import List Arith NArith ZArith Reals Bool Permutation Sorted Lia Lra ZifyBool ZifyNat ZifyN String.
From Flocq Require Import Core BinarySingleNaN.
From Verif Require Import CBase OptModel DblModel DblSpec DblProofs TrigProofs PairModel RandModel RandSpec RandProofs LegacyProofs
  OptimumSpec OptimumProofs PermModel PermSpec PermProofs.
Import ListNotations.
Local Notation length := List.length.
Open Scope nat_scope.

(** More than 40 variables: from the identity by nb_swaps swaps; the positions are visited in the order of the numbers drawn
    for them, and each is swapped with the partner drawn from its window.  The result is a permutation, and memory is as before. *)
Theorem C45_permutation : forall qsort log cos seed n nb_swaps swap_range m, qsort_ok qsort ->
  40 < n -> 0 < swap_range -> nb_swaps <= n -> (Z.of_nat n + Z.of_nat swap_range < 2 ^ 50)%Z ->
  (- legacy_limit < seed)%Z -> (seed + 1000 * Z.of_nat nb_swaps < legacy_limit)%Z -> addresses_old m ->
  exists us order P m', bbob2009_unif n seed = Ok us /\ sorts us order /\
    coco_compute_truncated_uniform_swap_permutation qsort log cos seed n nb_swaps swap_range m = Ok (P, m') /\
    swap_chain (partner seed n swap_range) 0 (firstn nb_swaps order) (seq 0 n) P /\
    Permutation (seq 0 n) P /\ blocks m' = blocks m.
Proof.
  intros qsort log cos seed n nb r m Q Hn Hr Hb Hsz Hs1 Hs2 A.
  destruct (unif_fin n seed ltac:(lia)) as [us [E [L [F _]]]].
  assert (Ne : us <> []) by (intros K; subst us; cbn in L; lia).
  destruct (allocate_ok us m Ne) as [m1 Em]. destruct (sort_ok qsort us m m1 Q F Em) as [order [Es So]]. rewrite L in Es.
  destruct (free_allocated us m m1 A Em) as [m2 [Ef [Bl _]]]. destruct So as [Pm As].
  assert (Lo : length order = n) by (rewrite <- (Permutation_length Pm), seq_length; exact L).
  destruct (loop_swaps seed n r ltac:(lia) Hr ltac:(lia) nb order 0 (seq 0 n)) as [P [EP [Ch [PP _]]]]; [lia|lia|exact Hs1|cbn [Nat.add]; exact Hs2| |apply seq_length|].
  { intros a Ha. apply (Permutation_in _ (Permutation_sym Pm)) in Ha. apply in_seq in Ha. lia. }
  exists us, order, P, m2. split; [exact E|]. split; [split; assumption|]. split; [|split; [exact Ch|split; [exact PP|exact Bl]]].
  unfold coco_compute_truncated_uniform_swap_permutation. destruct (Nat.leb_spec n 40); [lia|]. rewrite E. cbn [bind]. rewrite Em. cbn [bind].
  destruct (Nat.ltb_spec 0 r); [|lia]. rewrite Es. cbn [bind]. rewrite EP. cbn [bind]. rewrite Ef. reflexivity.
Qed.

(** The partner of a swap is another variable, at most swap_range away. *)
Theorem C45_partner : forall seed n swap_range i a b, partner seed n swap_range i a b ->
  b < n /\ b <> a /\ a <= b + swap_range /\ b <= a + swap_range.
Proof. intros seed n r i a b [u [_ H]]. apply nth_error_In in H. apply window_in in H. exact H. Qed.

(** At most 40 variables: the identity. *)
Theorem C45_identity : forall qsort log cos seed n nb_swaps swap_range m, n <= 40 ->
  coco_compute_truncated_uniform_swap_permutation qsort log cos seed n nb_swaps swap_range m = Ok (seq 0 n, m).
Proof. intros qsort log cos seed n nb r m H. unfold coco_compute_truncated_uniform_swap_permutation. destruct (Nat.leb_spec n 40); [reflexivity|lia]. Qed.

(** The parameters of the large-scale suite are admissible; no others exist. *)
Theorem C45_largescale : forall n suite r s, coco_get_swap_range n suite = Ok r -> coco_get_nb_swaps n suite = Ok s ->
  suite = str "bbob-largescale"%string /\ s <= n /\ (40 < n -> 0 < r) /\ 3 * r <= n.
Proof.
  intros n suite r s. unfold coco_get_swap_range, coco_get_nb_swaps. destruct (list_eqb Ascii.eqb suite (str "bbob-largescale"%string)) eqn:Q; [|discriminate].
  intros E1 E2. assert (r = n / 3) by congruence. assert (s = n) by congruence. subst. apply list_eqb_eq in Q; [|intros x y; apply Ascii.eqb_eq]. split; [exact Q|]. split; [lia|].
  split; [intros H; apply Nat.div_str_pos; lia|]. apply Nat.mul_div_le. lia.
Qed.

(** More swaps than variables: reads beyond the end of the order. *)
Theorem C45_too_many_swaps : forall qsort log cos seed n nb_swaps swap_range m, qsort_ok qsort ->
  40 < n -> 0 < swap_range -> n < nb_swaps -> (Z.of_nat n + Z.of_nat swap_range < 2 ^ 50)%Z ->
  (- legacy_limit < seed)%Z -> (seed + 1000 * Z.of_nat n < legacy_limit)%Z ->
  coco_compute_truncated_uniform_swap_permutation qsort log cos seed n nb_swaps swap_range m = UB.
Proof.
  intros qsort log cos seed n nb r m Q Hn Hr Hb Hsz Hs1 Hs2.
  destruct (unif_fin n seed ltac:(lia)) as [us [E [L [F _]]]].
  assert (Ne : us <> []) by (intros K; subst us; cbn in L; lia).
  destruct (allocate_ok us m Ne) as [m1 Em]. destruct (sort_ok qsort us m m1 Q F Em) as [order [Es [Pm _]]]. rewrite L in Es.
  assert (Lo : length order = n) by (rewrite <- (Permutation_length Pm), seq_length; exact L).
  destruct (loop_swaps seed n r ltac:(lia) Hr ltac:(lia) n order 0 (seq 0 n)) as [P [EP _]]; [lia|lia|exact Hs1|cbn [Nat.add]; exact Hs2| |apply seq_length|].
  { intros a Ha. apply (Permutation_in _ (Permutation_sym Pm)) in Ha. apply in_seq in Ha. lia. }
  unfold coco_compute_truncated_uniform_swap_permutation. destruct (Nat.leb_spec n 40); [lia|]. rewrite E. cbn [bind]. rewrite Em. cbn [bind].
  destruct (Nat.ltb_spec 0 r); [|lia]. rewrite Es. cbn [bind]. replace nb with (n + S (nb - n - 1)) by lia. rewrite loop_app, EP. cbn [bind Nat.add swap_loop].
  unfold swap_step, mget. rewrite (proj2 (nth_error_None order n)) by lia. reflexivity.
Qed.

(** A swap range of 0 is documented to give a uniformly distributed permutation; in fact memory is freed twice. *)
Theorem C45_range_zero_refuted : forall qsort log cos seed n nb_swaps m, libm_ok log cos -> qsort_ok qsort -> 40 < n -> n < 3000 ->
  (- legacy_limit < seed < legacy_limit)%Z -> addresses_old m ->
  (exists P m', coco_compute_random_permutation qsort log cos seed n m = Ok (P, m') /\ Permutation (seq 0 n) P) /\
  coco_compute_truncated_uniform_swap_permutation qsort log cos seed n nb_swaps 0 m = UB.
Proof.
  intros qsort log cos seed n nb m Hm Q Hn Hn2 Hs A.
  destruct (unif_fin n seed ltac:(lia)) as [us [E [L [F _]]]]. destruct (gauss_fin log cos n seed Hm Hs Hn2) as [gs [Eg [Lg Fg]]].
  assert (Ne : us <> []) by (intros K; subst us; cbn in L; lia). assert (Ng : gs <> []) by (intros K; subst gs; cbn in Lg; lia).
  assert (G : forall m0, addresses_old m0 -> exists P m1 m2, allocate gs m0 = Ok m1 /\ free_data m1 = Ok m2 /\ coco_compute_random_permutation qsort log cos seed n m0 = Ok (P, m2) /\ Permutation (seq 0 n) P).
  { intros m0 A0. destruct (allocate_ok gs m0 Ng) as [m1 Em]. destruct (sort_ok qsort gs m0 m1 Q Fg Em) as [P [Es [Pm _]]]. rewrite Lg in Es, Pm.
    destruct (free_allocated gs m0 m1 A0 Em) as [m2 [Ef _]]. exists P, m1, m2. split; [exact Em|]. split; [exact Ef|]. split; [|exact Pm].
    unfold coco_compute_random_permutation. rewrite Eg. cbn [bind]. rewrite Em. cbn [bind]. rewrite Es. cbn [bind]. rewrite Ef. reflexivity. }
  split; [destruct (G m A) as [P [m1 [m2 [_ [_ [H1 H2]]]]]]; exists P, m2; split; assumption|].
  destruct (allocate_ok us m Ne) as [m1 Em]. destruct (allocate_read us m m1 Em) as [_ [_ [Fr Bl]]].
  assert (A1 : addresses_old m1).
  { unfold addresses_old. rewrite Fr, Bl. constructor; [cbn [fst]; lia|]. eapply Forall_impl; [|exact A]. intros b Hb. cbv beta in *. lia. }
  destruct (G m1 A1) as [P [m2 [m3 [_ [Ef [Er _]]]]]].
  unfold coco_compute_truncated_uniform_swap_permutation. destruct (Nat.leb_spec n 40); [lia|]. rewrite E. cbn [bind]. rewrite Em. cbn [bind].
  change (0 <? 0) with false. cbv iota. rewrite Er. cbn [bind]. rewrite (free_twice m2 m3 Ef). reflexivity.
Qed.

(** Permutations from a sequence of numbers (Gallagher functions): its positions in ascending order of the numbers. *)
Theorem C45_from_sequence : forall qsort sequence m, qsort_ok qsort -> sequence <> [] -> (forall x, In x sequence -> fin x) -> addresses_old m ->
  exists P m', coco_compute_permutation_from_sequence qsort sequence m = Ok (P, m') /\ sorts sequence P /\ blocks m' = blocks m.
Proof.
  intros qsort s m Q Ne F A. destruct (allocate_ok s m Ne) as [m1 Em]. destruct (sort_ok qsort s m m1 Q F Em) as [P [Es So]].
  destruct (free_allocated s m m1 A Em) as [m2 [Ef [Bl _]]]. exists P, m2. split; [|split; [exact So|exact Bl]].
  unfold coco_compute_permutation_from_sequence. rewrite Em. cbn [bind]. rewrite Es. cbn [bind]. rewrite Ef. reflexivity.
Qed.

(** The permuted point: variable i is variable P[i] of the point given; the inverse transformation undoes it. *)
Theorem C45_apply : forall n P x d d', Permutation (seq 0 n) P -> length x = n -> length d = n -> length d' = n ->
  exists y, permute P x d = Ok y /\ length y = n /\ (forall i p, nth_error P i = Some p -> nth_error y i = nth_error x p) /\
    Permutation x y /\ inverse_permute P y d' = Ok x.
Proof.
  intros n P x d d' Pm Lx Ld Ld'. assert (LP : length P = n) by (rewrite <- (Permutation_length Pm); apply seq_length).
  assert (B : forall p, In p P -> p < n) by (intros p Hp; apply (Permutation_in _ (Permutation_sym Pm)) in Hp; apply in_seq in Hp; lia).
  assert (N : NoDup P) by (eapply Permutation_NoDup; [exact Pm|apply seq_NoDup]).
  exists (map (fun p => nth p x dzero) P). unfold permute, inverse_permute. rewrite permute_loop_ok; [|intros p Hp; rewrite Lx; apply B; exact Hp|lia].
  cbn [firstn app Nat.add]. rewrite skipn_all2 by lia. rewrite app_nil_r. split; [reflexivity|]. split; [rewrite map_length; exact LP|].
  assert (Y : forall i p, nth_error P i = Some p -> nth_error (map (fun p => nth p x dzero) P) i = nth_error x p).
  { intros i p E. rewrite nth_error_map, E. cbn [option_map]. symmetry. apply nth_error_nth'. rewrite Lx. apply B. eapply nth_error_In. exact E. }
  split; [exact Y|]. split.
  - replace x with (map (fun p => nth p x dzero) (seq 0 n)) at 1; [apply Permutation_map; exact Pm|].
    apply (nth_ext _ _ dzero dzero); [rewrite map_length, seq_length; auto|]. intros i Hi. rewrite map_length, seq_length in Hi.
    rewrite (nth_indep _ dzero (nth 0 x dzero)) by (rewrite map_length, seq_length; lia). rewrite (map_nth (fun p => nth p x dzero) (seq 0 n) 0 i). rewrite seq_nth by lia. reflexivity.
  - destruct (inverse_loop_ok P 0 (map (fun p => nth p x dzero) P) d' N) as [z [E [Lz [Inv _]]]]; [intros p Hp; rewrite Ld'; apply B; exact Hp|rewrite map_length; lia|].
    rewrite E. f_equal. apply nth_error_ext. intros q. destruct (Nat.lt_ge_cases q n) as [H|H].
    + assert (Iq : In q P) by (apply (Permutation_in _ Pm); apply in_seq; lia). apply In_nth_error in Iq as [j Ej]. rewrite (Inv j q Ej). cbn [Nat.add]. apply Y. exact Ej.
    + rewrite (proj2 (nth_error_None z q)) by lia. rewrite (proj2 (nth_error_None x q)) by lia. reflexivity.
Qed.

(** Examples: insertion sort meets the assumption about qsort. *)
Fixpoint insert (compare : nat -> nat -> Z) (a : nat) (l : list nat) : list nat :=
  match l with [] => [a] | b :: t => if (compare a b <=? 0)%Z then a :: l else b :: insert compare a t end.
Definition insertion_sort (compare : nat -> nat -> Z) (l : list nat) : list nat := fold_right (insert compare) [] l.
Definition empty_memory : memory := {| blocks := []; fresh := 0; perm_random_data := 0 |}.
Example C45_example_qsort : qsort_ok insertion_sort.
Proof.
  intros compare l. unfold consistent. intros [Sgn Tr].
  assert (Pins : forall a l, Permutation (a :: l) (insert compare a l)).
  { intros a. induction l0 as [|b t IH]; [apply Permutation_refl|]. cbn [insert]. destruct (compare a b <=? 0)%Z; [apply Permutation_refl|].
    eapply Permutation_trans; [apply perm_swap|]. apply perm_skip. exact IH. }
  assert (Main : forall k, (forall x, In x k -> In x l) -> Permutation k (insertion_sort compare k) /\ StronglySorted (fun a b => (compare a b <= 0)%Z) (insertion_sort compare k)).
  { induction k as [|a k IH]; intros Inc; [split; [apply Permutation_refl|constructor]|].
    destruct IH as [Pk Sk]; [intros x Hx; apply Inc; right; exact Hx|]. cbn [insertion_sort fold_right]. fold (insertion_sort compare k). split.
    - eapply Permutation_trans; [apply perm_skip; exact Pk|]. apply Pins.
    - assert (Inc' : forall x, In x (insertion_sort compare k) -> In x l) by (intros x Hx; apply Inc; right; apply (Permutation_in _ (Permutation_sym Pk)); exact Hx).
      assert (Ia : In a l) by (apply Inc; left; reflexivity). clear Pk. induction Sk as [|b t Sk' IHs Fb]; [constructor; [constructor|constructor]|].
      cbn [insert]. destruct (Z.leb_spec (compare a b) 0) as [Le|Gt].
      + constructor; [constructor; assumption|]. constructor; [exact Le|]. rewrite Forall_forall in *. intros c Hc. apply (Tr a b c); [exact Ia|apply Inc'; left; reflexivity|apply Inc'; right; exact Hc|exact Le|apply Fb; exact Hc].
      + constructor; [apply IHs; intros x Hx; apply Inc'; right; exact Hx|]. rewrite Forall_forall in *. intros c Hc. apply (Permutation_in _ (Permutation_sym (Pins a t))) in Hc. destruct Hc as [<-|Hc]; [|apply Fb; exact Hc].
        assert (S1 := Sgn a b Ia (Inc' b (or_introl eq_refl))). destruct (compare a b), (compare b a); cbn in Gt, S1; lia. }
  destruct (Main l (fun x H => H)) as [P S]. split; [exact P|]. clear - S. induction S as [|a t S IH F]; intros i j x y Hij Ex Ey.
  - destruct i; discriminate Ex.
  - destruct j as [|j]; [lia|]. cbn [nth_error] in Ey. destruct i as [|i]; cbn [nth_error] in Ex.
    + injection Ex as <-. rewrite Forall_forall in F. apply F. eapply nth_error_In. exact Ey.
    + apply (IH i j x y); [lia|exact Ex|exact Ey].
Qed.
Example C45_example : addresses_old empty_memory /\ 
  (match coco_compute_truncated_uniform_swap_permutation insertion_sort (fun x => x) (fun x => x) 10001 41 41 13 empty_memory with
   | Ok (P, m) => forallb (fun i => existsb (Nat.eqb i) P) (seq 0 41) && negb (list_eqb Nat.eqb P (seq 0 41)) | _ => false end) = true.
Proof. split; [constructor|]. vm_compute. reflexivity. Qed.

Print Assumptions C45_permutation.
Print Assumptions C45_partner.
Print Assumptions C45_identity.
Print Assumptions C45_largescale.
Print Assumptions C45_too_many_swaps.
Print Assumptions C45_range_zero_refuted.
Print Assumptions C45_from_sequence.
Print Assumptions C45_apply.
