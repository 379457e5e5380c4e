(** Proofs about rotation matrices: block sizes, shape, and orthonormality in exact arithmetic. *)
From Coq Require Import List Arith NArith ZArith Bool Reals Lra Lia ZifyBool ZifyNat ZifyN String.
From Flocq Require Import Core BinarySingleNaN.
From Verif Require Import CBase OptModel DblModel DblSpec DblProofs EvProofs PairModel RandModel RandSpec RandProofs LegacyProofs PermProofs BlockModel BlockSpec BlockProofs.
Import ListNotations.
Local Notation length := List.length.

(** ** Block sizes *)
Open Scope Z_scope.
Lemma block_size_ok : forall dim, (Z.of_N dim <= 2 ^ 63) -> coco_rotation_matrix_block_size dim = Ok (N.min dim 40).
Proof.
  intros dim H. unfold coco_rotation_matrix_block_size.
  pose proof (int_fin 1 ltac:(lia)) as F1. pose proof (int_val 1 ltac:(lia)) as V1. pose proof (int_fin 40 ltac:(lia)) as F40. pose proof (int_val 40 ltac:(lia)) as V40.
  destruct (dint_large (Z.of_N dim) ltac:(lia)) as [Fd Vd].
  assert (Fm : fin (dmul (dint 1) (dint (Z.of_N dim))) /\ val (dmul (dint 1) (dint (Z.of_N dim))) = rnd (IZR (Z.of_N dim))).
  { destruct (dmul_val _ _ F1 Fd) as [N1 V]. rewrite V1, Rmult_1_l, rnd_val in V by exact Fd.
    assert (B := val_bound _ Fd). rewrite clamp_id in V by (apply Rabs_le; lra). split; [|rewrite V; exact Vd].
    apply fin_val; [exact N1|]. rewrite V. exact B. }
  destruct Fm as [Fm Vm]. unfold coco_double_min.
  assert (R40 : rnd 40 = 40%R) by (apply (rnd_int 40); vm_compute; discriminate).
  destruct (N.le_gt_cases dim 40) as [L|L].
  - assert (Vs : rnd (IZR (Z.of_N dim)) = IZR (Z.of_N dim)) by (apply rnd_int; change (2 ^ 53) with 9007199254740992; lia). rewrite Vs in Vm.
    replace (dle _ _) with true.
    2: { symmetry. apply dle_val; [exact (fin_num _ Fm)|exact (fin_num _ F40)|]. rewrite Vm, V40. apply IZR_le. lia. }
    rewrite (to_size_t_int _ (Z.of_N dim)) by (try exact Fm; try exact Vm; lia). f_equal. lia.
  - assert (G : (41 <= rnd (IZR (Z.of_N dim)))%R).
    { rewrite <- (rnd_int 41) by (vm_compute; discriminate). apply rnd_mono. apply IZR_le. lia. }
    replace (dle _ _) with false.
    2: { symmetry. apply dle_false; [exact (fin_num _ Fm)|exact (fin_num _ F40)|]. rewrite Vm, V40. apply Rlt_le_trans with 41%R; [apply IZR_lt; reflexivity|exact G]. }
    rewrite (to_size_t_int _ 40) by (try exact F40; try exact V40; lia). f_equal. lia.
Qed.

Open Scope nat_scope.
Lemma block_sizes_ok : forall dim, (0 < dim)%N -> (Z.of_N dim <= 2 ^ 63)%Z -> exists sizes, coco_get_block_sizes dim (str "bbob-largescale") = Ok (Some sizes) /\
  (exists k last, sizes = repeat (N.min dim 40) k ++ [last] /\ (0 < last <= N.min dim 40)%N /\ (dim = N.of_nat k * N.min dim 40 + last)%N).
Proof.
  intros dim H0 H. unfold coco_get_block_sizes. replace (list_eqb _ _ _) with true by reflexivity. rewrite block_size_ok by exact H. cbn [bind].
  set (bs := N.min dim 40). assert (B0 : (0 < bs)%N) by (unfold bs; lia). destruct (N.eqb_spec bs 0); [lia|]. cbv zeta.
  eexists. split; [reflexivity|]. eexists. eexists. split; [reflexivity|]. rewrite N2Nat.id.
  pose proof (N.div_mod dim bs ltac:(lia)) as D. pose proof (N.mod_lt dim bs ltac:(lia)) as M. set (q := (dim / bs)%N) in *. set (r := (dim mod bs)%N) in *.
  assert (Q : (1 <= q)%N) by (unfold q; apply N.div_le_lower_bound; unfold bs in *; lia).
  destruct (N.ltb_spec 0 r) as [R|R]; [replace (q + 1 - 1)%N with q by lia|replace (q + 0 - 1)%N with (q - 1)%N by lia; assert (r = 0%N) by lia]; nia.
Qed.

(** ** Shape of a rotation matrix *)
Lemma reshape_ok : forall A m n (v : list A), length v = n * m -> length (reshape A m n v) = n /\ Forall (fun c => length c = m) (reshape A m n v).
Proof.
  intros A m. induction n as [|n IH]; intros v L; cbn [reshape]; [split; [reflexivity|constructor]|].
  destruct (IH (skipn m v)) as [H1 H2]; [rewrite skipn_length; lia|]. split; [cbn [length]; rewrite H1; reflexivity|]. constructor; [rewrite firstn_length; lia|exact H2].
Qed.
Lemma orthonormalise_length : forall A zero add sub mul div root columns, length (orthonormalise A zero add sub mul div root columns) = length columns.
Proof.
  intros. unfold orthonormalise.
  assert (G : forall l (acc : list (list A)), length (fold_left (fun finished c => finished ++ [finish_column A zero add sub mul div root finished c]) l acc) = length acc + length l).
  { induction l as [|c l IH]; intros acc; cbn [fold_left length]; [lia|]. rewrite IH, app_length. cbn. lia. }
  rewrite G. reflexivity.
Qed.
Lemma rows_square : forall A zero m columns, length columns = m -> square A m (rows A zero m columns).
Proof.
  intros A zero m columns L. unfold square, rows. split; [rewrite map_length, seq_length; reflexivity|]. apply Forall_forall. intros row H. apply in_map_iff in H as [k [<- _]]. rewrite map_length. exact L.
Qed.
Lemma rotation_ok : forall log cos seed dim, (- legacy_limit < seed < legacy_limit)%Z -> dim <= 44 ->
  exists M, bbob2009_compute_rotation log cos seed dim = Ok M /\ square double dim M.
Proof.
  intros log cos seed dim H D. unfold bbob2009_compute_rotation.
  assert (D2 : dim * dim <= 44 * 44) by (apply Nat.mul_le_mono; exact D). change (44 * 44) with 1936 in D2.
  destruct (Z.ltb_spec (Z.of_nat (dim * dim)) 2000); [|lia]. destruct (unif_fin (2 * (dim * dim)) seed H) as [us [E _]]. unfold bbob2009_gauss.
  destruct (Z.ltb_spec (Z.of_nat (2 * (dim * dim))) 6000); [|lia]. rewrite E. cbn [bind]. eexists. split; [reflexivity|]. apply rows_square. rewrite orthonormalise_length.
  apply reshape_ok. rewrite map_length, seq_length. reflexivity.
Qed.
Lemma rotations_ok : forall log cos seed sizes b, (- legacy_limit < seed)%Z -> (seed + 1000000 * Z.of_nat (b + length sizes) < legacy_limit)%Z ->
  Forall (fun s => s <= 44) sizes -> exists Ms, rotations double (bbob2009_compute_rotation log cos) seed b sizes Ms.
Proof.
  intros log cos seed sizes. induction sizes as [|s t IH]; intros b H1 H2 F; [exists []; constructor|]. inversion F as [|? ? Fs Ft]; subst. cbn [length] in H2.
  destruct (IH (S b) H1 ltac:(lia) Ft) as [Ms R]. destruct (rotation_ok log cos (seed + 1000000 * Z.of_nat b) s ltac:(lia) Fs) as [M [E Sq]].
  exists (M :: Ms). econstructor; eauto.
Qed.

(** ** Exact arithmetic *)
Open Scope R_scope.
Notation dotR := (dot R 0 Rplus Rmult).
Notation orthoR := (orthonormalise R 0 Rplus Rminus Rmult Rdiv sqrt).
Lemma dot_inner : forall u v, dotR u v = inner u v.
Proof.
  intros u v. unfold dot. assert (G : forall u v s, fold_left (fun s p => s + fst p * snd p) (combine u v) s = s + inner u v).
  { clear. induction u as [|a u IH]; intros [|b v] s; cbn [combine fold_left inner fst snd]; try lra. rewrite IH. lra. }
  rewrite G. lra.
Qed.
Lemma product_inner : forall u v, scalar_product R 0 Rplus Rmult u v = inner u v.
Proof.
  intros u v. unfold scalar_product. assert (G : forall u v s, products_onto R Rplus Rmult s u v = s + inner u v).
  { clear. induction u as [|a u IH]; intros [|b v] s; cbn [products_onto inner]; try lra. rewrite IH. lra. }
  rewrite G. lra.
Qed.
Lemma inner_comm : forall u v, inner u v = inner v u.
Proof. induction u as [|a u IH]; intros [|b v]; cbn [inner]; try reflexivity. rewrite IH. lra. Qed.
Notation minus_proj := (fun prod => map (fun p : R * R => fst p - prod * snd p)).
Lemma inner_proj : forall c q w a, length c = length q -> inner (map (fun p => fst p - a * snd p) (combine c q)) w = inner c w - a * inner q w.
Proof. induction c as [|x c IH]; intros [|y q] [|z w] a L; cbn in L; try lia; cbn [combine map inner fst snd]; try lra. rewrite IH by lia. lra. Qed.
Lemma inner_div : forall c w d, inner (map (fun a => a / d) c) w = inner c w / d.
Proof. induction c as [|x c IH]; intros [|z w] d; cbn [map inner]; try (unfold Rdiv; rewrite Rmult_0_l; reflexivity). rewrite IH. unfold Rdiv. lra. Qed.
Lemma inner_self : forall c, 0 <= inner c c.
Proof. induction c as [|x c IH]; cbn [inner]; [lra|]. nra. Qed.
Lemma inner_self_zero : forall c, inner c c = 0 -> forall k, nth k c 0 = 0.
Proof.
  induction c as [|x c IH]; intros H k; [destruct k; reflexivity|]. cbn [inner] in H. pose proof (inner_self c). assert (x = 0) by nra. destruct k; [exact H1|]. apply IH. nra.
Qed.

Notation projR := (subtract_projection R 0 Rplus Rminus Rmult).
Lemma proj_length : forall c q, length c = length q -> length (projR c q) = length c.
Proof. intros c q L. unfold subtract_projection. rewrite map_length, combine_length. lia. Qed.
Lemma proj_inner : forall c q w, length c = length q -> inner (projR c q) w = inner c w - inner c q * inner q w.
Proof. intros c q w L. unfold subtract_projection. rewrite dot_inner. apply inner_proj. exact L. Qed.

(** Orthonormal lists, structurally. *)
Fixpoint ortho (qs : list (list R)) : Prop := match qs with [] => True | q :: t => inner q q = 1 /\ Forall (fun p => inner q p = 0) t /\ ortho t end.
Lemma ortho_snoc : forall qs q, ortho qs -> inner q q = 1 -> Forall (fun p => inner p q = 0) qs -> ortho (qs ++ [q]).
Proof.
  induction qs as [|p qs IH]; intros q O N F; cbn [app ortho]; [split; [exact N|]; split; constructor|]. destruct O as [O1 [O2 O3]]. inversion F as [|? ? F1 F2]; subst.
  split; [exact O1|]. split; [apply Forall_app; split; [exact O2|constructor; [exact F1|constructor]]|apply IH; assumption].
Qed.
Lemma ortho_spec : forall qs, ortho qs -> orthonormal qs.
Proof.
  induction qs as [|q qs IH]; intros O i j u v Hi Hj; [destruct i; discriminate Hi|]. destruct O as [O1 [O2 O3]]. rewrite Forall_forall in O2.
  destruct i as [|i], j as [|j]; cbn in Hi, Hj |- *.
  - injection Hi as <-. injection Hj as <-. exact O1.
  - injection Hi as <-. apply O2. exact (nth_error_In _ _ Hj).
  - injection Hj as <-. rewrite inner_comm. apply O2. exact (nth_error_In _ _ Hi).
  - exact (IH O3 i j u v Hi Hj).
Qed.
Lemma spec_ortho : forall qs, orthonormal qs -> ortho qs.
Proof.
  induction qs as [|q qs IH]; intros O; [exact I|]. cbn [ortho]. split; [exact (O 0%nat 0%nat q q eq_refl eq_refl)|]. split.
  - apply Forall_forall. intros p Hp. apply In_nth_error in Hp as [j Hj]. exact (O 0%nat (S j) q p eq_refl Hj).
  - apply IH. intros i j u v Hi Hj. exact (O (S i) (S j) u v Hi Hj).
Qed.

Lemma project_all : forall qs c m, ortho qs -> Forall (fun q => length q = m) qs -> length c = m ->
  length (fold_left projR qs c) = m /\ Forall (fun q => inner (fold_left projR qs c) q = 0) qs /\
  forall w, length w = m -> inner c w = 0 -> Forall (fun q => inner q w = 0) qs -> inner (fold_left projR qs c) w = 0.
Proof.
  induction qs as [|q qs IH]; intros c m O F L; cbn [fold_left].
  - split; [exact L|]. split; [constructor|]. intros w _ H _. exact H.
  - destruct O as [O1 [O2 O3]]. inversion F as [|? ? F1 F2]; subst. assert (Lp : length (projR c q) = length c) by (rewrite proj_length; lia).
    destruct (IH (projR c q) (length c) O3 F2 Lp) as [A1 [A2 A3]]. split; [exact A1|]. split.
    + constructor; [|exact A2]. apply A3; [exact F1| |].
      * rewrite proj_inner by lia. rewrite O1. lra.
      * eapply Forall_impl; [|exact O2]. intros p Hp. cbn in Hp. rewrite inner_comm. exact Hp.
    + intros w Lw Hc Hq. inversion Hq as [|? ? Hq1 Hq2]; subst. apply A3; [exact Lw| |exact Hq2]. rewrite proj_inner by lia. rewrite Hc, Hq1. lra.
Qed.

(** Spans *)
Definition in_span (m : nat) (vs : list (list R)) (v : list R) : Prop := exists cs, length cs = length vs /\ forall k, (k < m)%nat -> nth k v 0 = combination cs vs k.
Lemma combination_lin : forall cs ds vs k a, length cs = length vs -> length ds = length vs ->
  combination (map (fun p => fst p + a * snd p) (combine cs ds)) vs k = combination cs vs k + a * combination ds vs k.
Proof.
  induction cs as [|c cs IH]; intros [|d ds] [|v vs] k a L1 L2; cbn in L1, L2; try lia; cbn [combine map combination fst snd]; [lra|]. rewrite IH by lia. lra.
Qed.
Lemma combination_app : forall cs vs ds ws k, length cs = length vs -> combination (cs ++ ds) (vs ++ ws) k = combination cs vs k + combination ds ws k.
Proof. induction cs as [|c cs IH]; intros [|v vs] ds ws k L; cbn in L; try lia; cbn [app combination]; [lra|]. rewrite IH by lia. lra. Qed.
Lemma combination_zero : forall n vs k, combination (repeat 0 n) vs k = 0.
Proof. induction n as [|n IH]; intros [|v vs] k; cbn [repeat combination]; try reflexivity. rewrite IH. lra. Qed.

Lemma nth_proj : forall c q a k, length c = length q -> nth k (map (fun p => fst p - a * snd p) (combine c q)) 0 = nth k c 0 - a * nth k q 0.
Proof. induction c as [|x c IH]; intros [|y q] a k L; cbn in L; try lia; destruct k as [|k]; cbn [combine map nth fst snd]; try lra. apply IH. lia. Qed.
Lemma nth_div : forall c d k, nth k (map (fun a => a / d) c) 0 = nth k c 0 / d.
Proof. induction c as [|x c IH]; intros d [|k]; cbn [map nth]; try (unfold Rdiv; rewrite Rmult_0_l; reflexivity); [reflexivity|apply IH]. Qed.

Lemma project_span : forall m vs qs c, Forall (fun q => length q = m) qs -> Forall (in_span m vs) qs -> length c = m ->
  exists ds, length ds = length vs /\ forall k, (k < m)%nat -> nth k (fold_left projR qs c) 0 = nth k c 0 + combination ds vs k.
Proof.
  intros m vs. induction qs as [|q qs IH]; intros c F S L; cbn [fold_left].
  - exists (repeat 0 (length vs)). split; [apply repeat_length|]. intros k _. rewrite combination_zero. lra.
  - inversion F as [|? ? F1 F2]; subst. inversion S as [|? ? [es [Le S1]] S2]; subst. destruct (IH (projR c q) F2 S2) as [ds [Ld D]]; [rewrite proj_length; lia|].
    exists (map (fun p => fst p + (- inner c q) * snd p) (combine ds es)). split; [rewrite map_length, combine_length; lia|]. intros k Hk. rewrite D by exact Hk.
    unfold subtract_projection. rewrite dot_inner, nth_proj by lia. rewrite combination_lin by assumption. rewrite (S1 k Hk). lra.
Qed.

Lemma independent_prefix : forall m a b, independent m (a ++ b) -> independent m a.
Proof.
  intros m a b H cs L Z. specialize (H (cs ++ repeat 0 (length b))). rewrite Forall_app in H. apply H; [rewrite !app_length, repeat_length; lia|].
  intros k Hk. rewrite combination_app by exact L. rewrite (Z k Hk), combination_zero. lra.
Qed.
Lemma in_span_mono : forall m a b v, in_span m a v -> in_span m (a ++ b) v.
Proof.
  intros m a b v [cs [L H]]. exists (cs ++ repeat 0 (length b)). split; [rewrite !app_length, repeat_length; lia|]. intros k Hk. rewrite combination_app by exact L. rewrite combination_zero, (H k Hk). lra.
Qed.

Notation finishR := (finish_column R 0 Rplus Rminus Rmult Rdiv sqrt).
Lemma gram_schmidt : forall m cols pre qs, independent m (pre ++ cols) -> Forall (fun c => length c = m) cols ->
  ortho qs -> Forall (fun q => length q = m) qs -> Forall (in_span m pre) qs ->
  ortho (fold_left (fun finished c => finished ++ [finishR finished c]) cols qs) /\
  Forall (fun q => length q = m) (fold_left (fun finished c => finished ++ [finishR finished c]) cols qs) /\
  Forall (in_span m (pre ++ cols)) (fold_left (fun finished c => finished ++ [finishR finished c]) cols qs).
Proof.
  intros m. induction cols as [|c cols IH]; intros pre qs Ind Fc O Fq Sp; cbn [fold_left].
  - rewrite app_nil_r. split; [exact O|]. split; assumption.
  - inversion Fc as [|? ? Lc Fc']; subst. replace (pre ++ c :: cols) with ((pre ++ [c]) ++ cols) in * by (rewrite <- app_assoc; reflexivity).
    set (c' := fold_left projR qs c). destruct (project_all qs c (length c) O Fq eq_refl) as [A1 [A2 _]]. destruct (project_span (length c) pre qs c Fq Sp eq_refl) as [ds [Ld D]]. fold c' in A1, A2, D.
    assert (Hlin : forall k, (k < length c)%nat -> nth k c' 0 = combination (ds ++ [1]) (pre ++ [c]) k).
    { intros k Hk. rewrite combination_app by exact Ld. rewrite (D k Hk). cbn [combination]. lra. }
    assert (Pos : 0 < inner c' c').
    { destruct (Rle_lt_or_eq_dec 0 (inner c' c') (inner_self c')) as [H|H]; [exact H|]. exfalso.
      apply independent_prefix in Ind. assert (Z : Forall (fun c => c = 0) (ds ++ [1])).
      { apply Ind; [rewrite !app_length; cbn; lia|]. intros k Hk. rewrite <- Hlin by exact Hk. apply inner_self_zero. symmetry. exact H. }
      rewrite Forall_app in Z. destruct Z as [_ Z]. inversion Z; subst. lra. }
    assert (Ef : finishR qs c = map (fun a => a / sqrt (inner c' c')) c') by (unfold finish_column; fold c'; rewrite dot_inner; reflexivity).
    assert (Sq : sqrt (inner c' c') * sqrt (inner c' c') = inner c' c') by (apply sqrt_sqrt; lra). pose proof (sqrt_lt_R0 _ Pos) as SP.
    apply IH; [exact Ind|exact Fc'| | |].
    + rewrite Ef. apply ortho_snoc; [exact O| |].
      * rewrite inner_div, inner_comm, inner_div. set (z := sqrt (inner c' c')) in *. rewrite <- Sq. field. lra.
      * eapply Forall_impl; [|exact A2]. intros q Hq. cbn in Hq. rewrite inner_comm, inner_div, Hq. unfold Rdiv. lra.
    + apply Forall_app. split; [exact Fq|]. constructor; [|constructor]. rewrite Ef, map_length. exact A1.
    + apply Forall_app. split; [eapply Forall_impl; [|exact Sp]; intros q; apply in_span_mono|]. constructor; [|constructor].
      set (z := sqrt (inner c' c')) in *. exists (map (fun p => fst p + (/ z) * snd p) (combine (repeat 0 (length (ds ++ [1]))) (ds ++ [1]))).
      split; [rewrite map_length, combine_length, repeat_length, !app_length; cbn; lia|]. intros k Hk. rewrite Ef, nth_div, (Hlin k Hk).
      rewrite combination_lin by (rewrite ?repeat_length, !app_length; cbn; lia). rewrite combination_zero. unfold Rdiv. lra.
Qed.

Lemma orthonormalise_ok : forall m cols, independent m cols -> Forall (fun c => length c = m) cols ->
  orthonormal (orthoR cols) /\ Forall (fun q => length q = m) (orthoR cols) /\ length (orthoR cols) = length cols /\ Forall (in_span m cols) (orthoR cols).
Proof.
  intros m cols Ind F. destruct (gram_schmidt m cols [] [] Ind F I (Forall_nil _) (Forall_nil _)) as [A [B C]]. fold (orthoR cols) in A, B, C.
  split; [apply ortho_spec; exact A|]. split; [exact B|]. split; [apply orthonormalise_length|exact C].
Qed.

(** Multiplication by the matrix with these columns. *)
Fixpoint sum (l : list nat) (f : nat -> R) : R := match l with [] => 0 | k :: t => f k + sum t f end.
Lemma inner_map : forall l f g, inner (map f l) (map g l) = sum l (fun k => f k * g k).
Proof. induction l as [|k l IH]; intros f g; cbn [map inner sum]; [reflexivity|]. rewrite IH. reflexivity. Qed.
Lemma sum_ext : forall l f g, (forall k, f k = g k) -> sum l f = sum l g.
Proof. induction l as [|k l IH]; intros f g H; cbn [sum]; [reflexivity|]. rewrite H, (IH f g H). reflexivity. Qed.
Lemma sum_plus : forall l f g, sum l (fun k => f k + g k) = sum l f + sum l g.
Proof. induction l as [|k l IH]; intros f g; cbn [sum]; [lra|]. rewrite IH. lra. Qed.
Lemma sum_scale : forall l a f, sum l (fun k => a * f k) = a * sum l f.
Proof. induction l as [|k l IH]; intros a f; cbn [sum]; [lra|]. rewrite IH. lra. Qed.
Lemma as_map : forall m (q : list R), length q = m -> q = map (fun k => nth k q 0) (seq 0 m).
Proof.
  intros m q L. apply nth_error_ext. intros i. destruct (Nat.lt_ge_cases i m) as [H|H].
  - rewrite (map_nth_error _ i (seq 0 m) (d := i)); [rewrite (nth_error_nth' q 0) by lia; reflexivity|]. rewrite (nth_error_nth' _ 0%nat) by (rewrite seq_length; exact H). rewrite seq_nth by exact H. reflexivity.
  - rewrite (proj2 (nth_error_None _ _)) by lia. symmetry. apply nth_error_None. rewrite map_length, seq_length. exact H.
Qed.
Lemma inner_sum : forall m u v, length u = m -> length v = m -> inner u v = sum (seq 0 m) (fun k => nth k u 0 * nth k v 0).
Proof. intros m u v Lu Lv. rewrite (as_map m u Lu), (as_map m v Lv) at 1. apply inner_map. Qed.

Definition coordinate (qs : list (list R)) (x : list R) (k : nat) : R := inner (map (fun q => nth k q 0) qs) x.
Lemma cross_zero : forall m q qs x, length q = m -> Forall (fun p => length p = m) qs -> Forall (fun p => inner q p = 0) qs ->
  sum (seq 0 m) (fun k => nth k q 0 * coordinate qs x k) = 0.
Proof.
  intros m q qs. induction qs as [|p qs IH]; intros x Lq F Z.
  - rewrite (sum_ext _ _ (fun k => 0 * 0)) by (intros k; unfold coordinate; cbn [map inner]; lra). rewrite sum_scale. lra.
  - destruct x as [|a x].
    + rewrite (sum_ext _ _ (fun k => 0 * 0)) by (intros k; unfold coordinate; cbn [map inner]; lra). rewrite sum_scale. lra.
    + inversion F; subst. inversion Z as [|? ? Z1 Z2]; subst. rewrite (sum_ext _ _ (fun k => a * (nth k q 0 * nth k p 0) + nth k q 0 * coordinate qs x k)).
      * rewrite sum_plus, sum_scale, <- inner_sum by congruence. rewrite Z1, IH by auto. lra.
      * intros k. unfold coordinate. cbn [map inner]. lra.
Qed.
Lemma preserve : forall m qs x y, Forall (fun p => length p = m) qs -> ortho qs -> length x = length qs -> length y = length qs ->
  sum (seq 0 m) (fun k => coordinate qs x k * coordinate qs y k) = inner x y.
Proof.
  intros m. induction qs as [|q qs IH]; intros x y F O Lx Ly.
  - destruct x; [|discriminate Lx]. rewrite (sum_ext _ _ (fun k => 0 * 0)) by (intros k; unfold coordinate; cbn [map inner]; lra). rewrite sum_scale. cbn. lra.
  - destruct x as [|a x]; [discriminate Lx|]. destruct y as [|b y]; [discriminate Ly|]. cbn in Lx, Ly. inversion F as [|? ? F1 F2]; subst. destruct O as [O1 [O2 O3]].
    rewrite (sum_ext _ _ (fun k => (a * b * (nth k q 0 * nth k q 0) + a * (nth k q 0 * coordinate qs y k)) + (b * (nth k q 0 * coordinate qs x k) + coordinate qs x k * coordinate qs y k))).
    + rewrite !sum_plus, !sum_scale, <- inner_sum by reflexivity. rewrite !cross_zero by auto. rewrite IH by (auto; lia). rewrite O1. cbn [inner]. lra.
    + intros k. unfold coordinate. cbn [map inner]. lra.
Qed.
Lemma rows_isometry : forall m qs, Forall (fun p => length p = m) qs -> orthonormal qs -> length qs = m ->
  isometry m (fun x => map (fun row => inner row x) (rows R 0 m qs)).
Proof.
  intros m qs F O L x y Lx Ly. unfold rows. rewrite !map_map. split; [rewrite map_length, seq_length; reflexivity|].
  rewrite inner_map. apply (preserve m qs x y F (spec_ortho _ O)); lia.
Qed.

(** Blocks *)
Lemma inner_app : forall u u' v v', length u = length v -> inner (u ++ u') (v ++ v') = inner u v + inner u' v'.
Proof. induction u as [|a u IH]; intros u' [|b v] v' L; cbn in L; try lia; cbn [app inner]; [lra|]. rewrite IH by lia. lra. Qed.
Lemma inner_split : forall k x y, (k <= length x)%nat -> length y = length x -> inner x y = inner (firstn k x) (firstn k y) + inner (skipn k x) (skipn k y).
Proof. intros k x y H L. rewrite <- inner_app by (rewrite !firstn_length; lia). rewrite !firstn_skipn. reflexivity. Qed.
Lemma blocks_isometry : forall sizes Ms, Forall2 (fun s M => length M = s /\ isometry s (fun x => map (fun row => inner row x) M)) sizes Ms ->
  isometry (total sizes) (block_product R 0 Rplus Rmult Ms).
Proof.
  intros sizes Ms F. induction F as [|s M sizes Ms [L IM] F IH]; intros x y Lx Ly; cbn [total block_product] in *.
  - destruct x; [|discriminate Lx]. destruct y; [|discriminate Ly]. split; reflexivity.
  - subst s. assert (E : forall z, map (fun row => scalar_product R 0 Rplus Rmult row (firstn (length M) z)) M = map (fun row => inner row (firstn (length M) z)) M).
    { intros z. apply map_ext. intros row. apply product_inner. }
    rewrite !E. destruct (IM (firstn (length M) x) (firstn (length M) y)) as [I1 I2]; [rewrite firstn_length; lia|rewrite firstn_length; lia|].
    destruct (IH (skipn (length M) x) (skipn (length M) y)) as [J1 J2]; [rewrite skipn_length; lia|rewrite skipn_length; lia|].
    split; [rewrite app_length, J1, map_length; reflexivity|]. rewrite inner_app by (rewrite !map_length; reflexivity). rewrite I2, J2. symmetry. apply inner_split; lia.
Qed.
