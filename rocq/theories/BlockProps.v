(** C45 (blocks) and C57: block rotations. *)
From Coq Require Import String List Arith NArith ZArith Bool Reals Lra Lia ZifyBool ZifyNat ZifyN.
From Flocq Require Import Core BinarySingleNaN.
From Verif Require Import CBase OptModel DblModel DblSpec PairModel RandModel RandSpec LegacyProofs PermProofs BlockModel BlockSpec BlockProofs OrthoProofs.
Import ListNotations.
Local Notation length := List.length.
Open Scope nat_scope.

(** The blocks of the largescale suite: every block has min(dimension, 40) rows, except the last one, which may be smaller
    but is not empty, and together they have as many rows as the problem has variables. *)
Theorem C45_block_sizes : forall dim, (0 < dim)%N -> (Z.of_N dim <= 2 ^ 63)%Z ->
  coco_rotation_matrix_block_size dim = Ok (N.min dim 40) /\
  exists k last, coco_get_block_sizes dim (str "bbob-largescale"%string) = Ok (Some (repeat (N.min dim 40) k ++ [last])) /\
    (0 < last <= N.min dim 40)%N /\ (dim = N.of_nat k * N.min dim 40 + last)%N.
Proof.
  intros dim H0 H. split; [exact (block_size_ok dim H)|]. destruct (block_sizes_ok dim H0 H) as [sizes [E [k [last [-> [H1 H2]]]]]]. exists k, last. split; [exact E|]. split; assumption.
Qed.
Example C45_block_sizes_example : coco_get_block_sizes 100 (str "bbob-largescale"%string) = Ok (Some [40; 40; 20]%N) /\ coco_get_block_sizes 20 (str "bbob-largescale"%string) = Ok (Some [20%N]) /\
  coco_get_block_sizes 80 (str "bbob-largescale"%string) = Ok (Some [40; 40]%N).
Proof. split; [|split]; vm_compute; reflexivity. Qed.
Print Assumptions C45_block_sizes.

(** Dimension 0 divides by zero; other suites have no block sizes. *)
Theorem C45_block_sizes_none : coco_get_block_sizes 0 (str "bbob-largescale"%string) = UB /\
  forall dim suite, suite <> str "bbob-largescale"%string -> coco_get_block_sizes dim suite = Ok None.
Proof.
  split; [vm_compute; reflexivity|]. intros dim suite H. unfold coco_get_block_sizes. destruct (list_eqb Ascii.eqb suite (str "bbob-largescale"%string)) eqn:E; [|reflexivity].
  exfalso. apply H. apply (list_eqb_eq _ Ascii.eqb); [|exact E]. intros a b. apply Ascii.eqb_eq.
Qed.
Print Assumptions C45_block_sizes_none.

Lemma rotations_nth : forall A rotation seed sizes Ms b, rotations A rotation seed b sizes Ms -> length Ms = length sizes /\
  forall k s, nth_error sizes k = Some s -> exists M, nth_error Ms k = Some M /\ rotation (seed + 1000000 * Z.of_nat (b + k))%Z s = Ok M /\ square A s M.
Proof.
  intros A rotation seed sizes Ms b R. induction R as [|b s t M Ms E Sq R [L IH]]; [split; [reflexivity|intros [|k] s H; discriminate H]|].
  split; [cbn; lia|]. intros [|k] s' H; cbn in H.
  - injection H as <-. exists M. rewrite Nat.add_0_r. split; [reflexivity|]. split; assumption.
  - replace (b + S k) with (S b + k) by lia. exact (IH k s' H).
Qed.

(** Reading and applying a block rotation that was built. *)
Lemma apply_built : forall A zero add mul (sizes : list nat) Ms d n x, Forall2 (square A) sizes Ms -> total sizes = n -> length x = n ->
  rot_B A d = concat Ms -> dimension A d = n -> block_size_map A d = map fst (blocks_from 0 sizes) -> first_non_zero_map A d = map (fun b => snd b - fst b) (blocks_from 0 sizes) ->
  transform_vars_blockrotation_apply A zero add mul d x = Ok (block_product A zero add mul Ms x).
Proof.
  intros A zero add mul sizes Ms d n x Sq T Lx EB En E1 E2. unfold transform_vars_blockrotation_apply. rewrite En, <- T.
  rewrite (apply_all A zero add mul sizes Ms d x 0 Sq); [reflexivity|reflexivity|exact EB|lia|].
  intros r b Hb. cbn [Nat.add]. rewrite E1, E2. split; [apply map_nth_error; exact Hb|exact (map_nth_error (fun b => snd b - fst b) r _ Hb)].
Qed.
Lemma concat_row : forall A sizes (Ms : list (list (list A))) b s M i, Forall2 (square A) sizes Ms -> nth_error sizes b = Some s -> nth_error Ms b = Some M ->
  block_start sizes b <= i < block_start sizes b + s -> nth_error (concat Ms) i = nth_error M (i - block_start sizes b) /\ length M = s.
Proof.
  intros A sizes Ms b s M i F. revert b i. induction F as [|s0 M0 sizes Ms [L R] F IH]; intros b i Hs HM Hi; [destruct b; discriminate Hs|].
  unfold block_start in *. destruct b as [|b]; cbn [nth_error firstn total concat] in *.
  - injection Hs as <-. injection HM as <-. rewrite Nat.sub_0_r, nth_error_app1 by lia. split; [reflexivity|exact L].
  - rewrite nth_error_app2 by lia. destruct (IH b (i - s0) Hs HM ltac:(lia)) as [I1 I2]. subst s0. rewrite I1. split; [f_equal; lia|exact I2].
Qed.

(** What the block rotation computes in binary64: for block sizes of 1 to 44 rows that add up to the dimension, building it
    succeeds, every row belongs to exactly one block, row i is zero outside the columns of its block and there equal to the row
    of the rotation matrix of the block, and applying it multiplies each segment of the vector with the matrix of its block. *)
Theorem C45_block_rotation : forall log cos seed n sizes, sizes <> [] -> Forall (fun s => 0 < s <= 44) sizes -> total sizes = n ->
  (- legacy_limit < seed)%Z -> (seed + 1000000 * Z.of_nat (length sizes) < legacy_limit)%Z ->
  exists B0 B d Ms, coco_allocate_blockmatrix double n sizes = Ok B0 /\ coco_compute_blockrotation double (bbob2009_compute_rotation log cos) B0 seed n sizes = Ok B /\
    transform_vars_blockrotation double B n sizes = Ok d /\
    length Ms = length sizes /\
    (forall b s, nth_error sizes b = Some s -> exists M, nth_error Ms b = Some M /\ square double s M /\ bbob2009_compute_rotation log cos (seed + 1000000 * Z.of_nat b) s = Ok M) /\
    (forall i, i < n -> exists b s M row r, nth_error sizes b = Some s /\ block_start sizes b <= i < block_start sizes b + s /\ nth_error Ms b = Some M /\
       nth_error M (i - block_start sizes b) = Some row /\ length row = s /\
       transform_vars_blockrotation_get_row double dzero d i = Ok r /\ length r = n /\
       (forall j, j < n -> nth_error r j = Some (if (block_start sizes b <=? j) && (j <? block_start sizes b + s) then nth (j - block_start sizes b) row dzero else dzero)) /\
       (forall b', in_block sizes b' i -> b' = b)) /\
    (forall x, length x = n -> transform_vars_blockrotation_apply double dzero dadd dmul d x = Ok (block_product double dzero dadd dmul Ms x)).
Proof.
  intros log cos seed n sizes Ne F T H1 H2.
  assert (F0 : Forall (fun s => 0 < s) sizes) by (eapply Forall_impl; [|exact F]; cbn; intros; lia).
  assert (F44 : Forall (fun s => s <= 44) sizes) by (eapply Forall_impl; [|exact F]; cbn; intros; lia).
  destruct (rotations_ok log cos seed sizes 0 H1 H2 F44) as [Ms Rot].
  destruct (built double (bbob2009_compute_rotation log cos) sizes Ms seed n Ne F0 T F44 Rot ltac:(unfold legacy_limit in *; lia) ltac:(unfold legacy_limit in *; lia))
    as [B0 [B [d [E1 [E2 [E3 [EB [En [Es Ef]]]]]]]]].
  destruct (rotations_nth _ _ _ _ _ _ Rot) as [LM Mn]. pose proof (rotations_square _ _ _ _ _ _ Rot) as Sq.
  exists B0, B, d, Ms. split; [exact E1|]. split; [exact E2|]. split; [exact E3|]. split; [exact LM|]. split; [|split].
  - intros b s Hb. destruct (Mn b s Hb) as [M [A1 [A2 A3]]]. exists M. split; [exact A1|]. split; [exact A3|exact A2].
  - intros i Hi. destruct (blocks_from_nth sizes 0 i ltac:(lia)) as [b [s [Hb [R N]]]]. destruct (Mn b s Hb) as [M [A1 [A2 [A3 A4]]]].
    destruct (concat_row double sizes Ms b s M i Sq Hb A1 R) as [C1 _].
    destruct (nth_error M (i - block_start sizes b)) as [row|] eqn:Er; [|apply nth_error_None in Er; lia].
    assert (Lr : length row = s) by (rewrite Forall_forall in A4; apply A4; exact (nth_error_In _ _ Er)).
    exists b, s, M, row. eexists. split; [exact Hb|]. split; [exact R|]. split; [exact A1|]. split; [exact Er|]. split; [exact Lr|]. split; [|split; [|split]].
    + unfold transform_vars_blockrotation_get_row, mget. rewrite Es, Ef, EB, C1, En. rewrite (map_nth_error fst i _ N), (map_nth_error (fun b => snd b - fst b) i _ N). cbn [bind fst snd].
      replace (0 + block_start sizes b + s - s) with (block_start sizes b) by lia. apply row_elements_ok. exact Lr.
    + rewrite map_length, seq_length. reflexivity.
    + intros j Hj. rewrite (map_nth_error _ j (seq 0 n) (d := j)).
      2: { rewrite (nth_error_nth' _ 0) by (rewrite seq_length; exact Hj). rewrite seq_nth by exact Hj. reflexivity. }
      f_equal. destruct (Nat.ltb_spec j (block_start sizes b)); destruct (Nat.leb_spec (block_start sizes b + s) j); destruct (Nat.leb_spec (block_start sizes b) j); destruct (Nat.ltb_spec j (block_start sizes b + s)); try lia; reflexivity.
    + intros b' Hb'. apply (in_block_unique sizes b' b i Hb'). exists s. split; assumption.
  - intros x Lx. apply (apply_built double dzero dadd dmul sizes Ms d n x Sq T Lx EB En Es Ef).
Qed.
Example C45_block_rotation_example :
  let log := fun _ : double => dint (-2) in let cos := fun x => ddiv x (dint 8) in
  match (do B0 <- coco_allocate_blockmatrix double 5 [2; 2; 1]; do B <- coco_compute_blockrotation double (bbob2009_compute_rotation log cos) B0 7 5 [2; 2; 1]; transform_vars_blockrotation double B 5 [2; 2; 1]) with
  | Ok d => match transform_vars_blockrotation_get_row double dzero d 2, transform_vars_blockrotation_apply double dzero dadd dmul d [dint 3; dint 4; dint 0; dint 1; dint 2] with
            | Ok row, Ok y => (map (fun v => deq v dzero) row, map (fun v => deq v dzero) y, first_non_zero_map double d)
            | _, _ => ([], [], []) end
  | _ => ([], [], []) end = ([true; true; false; false; true], [false; false; false; false; false], [0; 0; 2; 2; 4]).
Proof. vm_compute. reflexivity. Qed.
Print Assumptions C45_block_rotation.

(** ** C57: exact arithmetic *)
Open Scope R_scope.
(** Orthonormalising independent columns with m coordinates gives as many orthonormal columns, in the span of the given ones. *)
Theorem C57_orthonormal : forall m columns, independent m columns -> Forall (fun c => length c = m) columns ->
  let Q := orthonormalise R 0 Rplus Rminus Rmult Rdiv sqrt columns in
  length Q = length columns /\ Forall (fun q => length q = m) Q /\ orthonormal Q /\
  Forall (fun q => exists coefs, length coefs = length columns /\ forall k, (k < m)%nat -> nth k q 0 = combination coefs columns k) Q.
Proof.
  intros m columns Ind F Q. destruct (orthonormalise_ok m columns Ind F) as [A [B [C D]]]. split; [exact C|]. split; [exact B|]. split; [exact A|exact D].
Qed.
Example C57_independent : independent 2 [[3; 4]; [1; 0]].
Proof.
  intros [|a [|b [|]]] L H; try discriminate L. pose proof (H 0%nat ltac:(lia)) as H0. pose proof (H 1%nat ltac:(lia)) as H1. cbn in H0, H1. repeat constructor; lra.
Qed.
Print Assumptions C57_orthonormal.

(** The rotation matrix (its rows) then preserves scalar products. *)
Theorem C57_isometry : forall m columns, independent m columns -> Forall (fun c => length c = m) columns -> length columns = m ->
  isometry m (fun x => map (fun row => inner row x) (rows R 0 m (orthonormalise R 0 Rplus Rminus Rmult Rdiv sqrt columns))).
Proof.
  intros m columns Ind F L. destruct (orthonormalise_ok m columns Ind F) as [A [B [C _]]]. apply rows_isometry; [exact B|exact A|lia].
Qed.
Example C57_isometry_example : let f := fun x => map (fun row => inner row x) (rows R 0 2 (orthonormalise R 0 Rplus Rminus Rmult Rdiv sqrt [[3; 4]; [1; 0]])) in
  inner (f [1; 2]) (f [5; 7]) = 19.
Proof.
  cbv zeta. destruct (C57_isometry 2 [[3; 4]; [1; 0]] C57_independent ltac:(repeat constructor) eq_refl [1; 2] [5; 7] eq_refl eq_refl) as [_ E]. rewrite E. cbn. lra.
Qed.
Print Assumptions C57_isometry.

(** Without independence the last column is divided by the square root of 0. *)
Theorem C57_dependent : forall c a, inner c c = 1 ->
  finish_column R 0 Rplus Rminus Rmult Rdiv sqrt [c] (map (fun v => a * v) c) = map (fun v => v / sqrt 0) (repeat 0 (length c)).
Proof.
  intros c a H. unfold finish_column. cbn [fold_left]. unfold subtract_projection. rewrite !dot_inner.
  assert (E : inner (map (fun v => a * v) c) c = a * inner c c) by (clear; induction c as [|x c IH]; cbn [map inner]; [lra|rewrite IH; lra]).
  rewrite E, H, Rmult_1_r.
  assert (Z : map (fun p => fst p - a * snd p) (combine (map (fun v => a * v) c) c) = repeat 0 (length c)).
  { clear. induction c as [|x c IH]; cbn [map combine repeat length fst snd]; [reflexivity|]. rewrite IH. f_equal. lra. }
  rewrite Z. replace (inner (repeat 0 (length c)) (repeat 0 (length c))) with 0; [reflexivity|]. generalize (length c). induction n as [|n IH]; cbn [repeat inner]; [reflexivity|lra].
Qed.
Example C57_dependent_example : inner [3 / 5; 4 / 5] [3 / 5; 4 / 5] = 1.
Proof. cbn. field. Qed.
Print Assumptions C57_dependent.

(** Block rotations built from such matrices preserve scalar products of vectors of the full dimension. *)
Theorem C57_blocks : forall (columns : Z -> nat -> list (list R)) seed n sizes, sizes <> [] -> Forall (fun s => 0 < s <= 44)%nat sizes -> total sizes = n ->
  (- 2 ^ 62 < seed < 2 ^ 62)%Z -> (Z.of_nat (length sizes) < 2 ^ 40)%Z ->
  (forall b s, nth_error sizes b = Some s -> let c := columns (seed + 1000000 * Z.of_nat b)%Z s in independent s c /\ Forall (fun v => length v = s) c /\ length c = s) ->
  let rotation := fun seed s => Ok (rows R 0 s (orthonormalise R 0 Rplus Rminus Rmult Rdiv sqrt (columns seed s))) in
  exists B0 B d, coco_allocate_blockmatrix R n sizes = Ok B0 /\ coco_compute_blockrotation R rotation B0 seed n sizes = Ok B /\
    transform_vars_blockrotation R B n sizes = Ok d /\
    forall x y, length x = n -> length y = n -> exists u v,
      transform_vars_blockrotation_apply R 0 Rplus Rmult d x = Ok u /\ transform_vars_blockrotation_apply R 0 Rplus Rmult d y = Ok v /\
      length u = n /\ inner u v = inner x y.
Proof.
  intros columns seed n sizes Ne F T Hs Hl Hc rotation.
  assert (F0 : Forall (fun s => 0 < s)%nat sizes) by (eapply Forall_impl; [|exact F]; cbn; intros; lia).
  assert (F44 : Forall (fun s => s <= 44)%nat sizes) by (eapply Forall_impl; [|exact F]; cbn; intros; lia).
  assert (G : forall t b, (forall k s, nth_error t k = Some s -> let c := columns (seed + 1000000 * Z.of_nat (b + k))%Z s in independent s c /\ Forall (fun v => length v = s) c /\ length c = s) ->
    exists Ms, rotations R rotation seed b t Ms /\ Forall2 (fun s M => length M = s /\ isometry s (fun x => map (fun row => inner row x) M)) t Ms).
  { clear. induction t as [|s t IH]; intros b H; [exists []; split; constructor|].
    destruct (IH (S b)) as [Ms [R1 R2]]; [intros k s' Hk; replace (S b + k)%nat with (b + S k)%nat by lia; exact (H (S k) s' Hk)|].
    destruct (H 0%nat s eq_refl) as [I1 [I2 I3]]. rewrite Nat.add_0_r in *.
    set (M := rows R 0 s (orthonormalise R 0 Rplus Rminus Rmult Rdiv sqrt (columns (seed + 1000000 * Z.of_nat b)%Z s))).
    assert (Sq : square R s M) by (apply rows_square; rewrite orthonormalise_length; exact I3).
    exists (M :: Ms). split; [apply rot_next; [reflexivity|exact Sq|exact R1]|]. constructor; [|exact R2]. split; [exact (proj1 Sq)|]. apply C57_isometry; assumption. }
  destruct (G sizes 0%nat Hc) as [Ms [Rot Iso]].
  destruct (built R rotation sizes Ms seed n Ne F0 T F44 Rot Hs Hl) as [B0 [B [d [E1 [E2 [E3 [EB [En [Es Ef]]]]]]]]].
  exists B0, B, d. split; [exact E1|]. split; [exact E2|]. split; [exact E3|]. intros x y Lx Ly. pose proof (rotations_square _ _ _ _ _ _ Rot) as Sq.
  exists (block_product R 0 Rplus Rmult Ms x), (block_product R 0 Rplus Rmult Ms y). split; [exact (apply_built R 0 Rplus Rmult sizes Ms d n x Sq T Lx EB En Es Ef)|].
  split; [exact (apply_built R 0 Rplus Rmult sizes Ms d n y Sq T Ly EB En Es Ef)|]. pose proof (blocks_isometry sizes Ms Iso) as Bi. rewrite T in Bi. exact (Bi x y Lx Ly).
Qed.
Example C57_blocks_example : exists (columns : Z -> nat -> list (list R)) seed sizes, sizes <> [] /\ Forall (fun s => 0 < s <= 44)%nat sizes /\ length sizes = 3%nat /\
  (forall b s, nth_error sizes b = Some s -> let c := columns (seed + 1000000 * Z.of_nat b)%Z s in independent s c /\ Forall (fun v => length v = s) c /\ length c = s).
Proof.
  exists (fun _ _ => [[3; 4]; [1; 0]]), 5%Z, [2; 2; 2]%nat. split; [discriminate|]. split; [repeat constructor|]. split; [reflexivity|].
  intros b s H. assert (s = 2%nat) as -> by (destruct b as [|[|[|b]]]; cbn in H; try congruence; destruct b; discriminate H).
  cbv zeta. split; [exact C57_independent|]. split; [repeat constructor|reflexivity].
Qed.
Print Assumptions C57_blocks.
