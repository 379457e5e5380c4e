(** C93: grid search. *)
From Coq Require Import List Arith Bool QArith Lia.
Import ListNotations.
From Verif Require Import CBase GridModel GridSpec.
Local Open Scope nat_scope.

(** Position of a node *)
Fixpoint place (max node : list nat) : nat :=
  match max, node with m :: max', n :: node' => n + S m * place max' node' | _, _ => 0 end.
Fixpoint odometer (node max : list nat) : option (list nat) :=
  match node, max with
  | n :: node', m :: max' => if n <? m then Some (S n :: node') else match odometer node' max' with Some l => Some (0 :: l) | None => None end
  | _, _ => None
  end.
Lemma odometer_place : forall max node, in_grid max node ->
  match odometer node max with
  | Some l => in_grid max l /\ place max l = S (place max node)
  | None => S (place max node) = grid_size max
  end.
Proof.
  intros max node G. induction G as [|n m node max L G IH]; [reflexivity|]. cbn [odometer]. destruct (Nat.ltb_spec n m).
  - split; [constructor; [lia|exact G]|]. cbn [place]. lia.
  - assert (n = m) by lia. subst n. destruct (odometer node max) as [l|].
    + destruct IH as [I1 I2]. split; [constructor; [lia|exact I1]|]. cbn [place]. rewrite I2. lia.
    + cbn [place grid_size]. rewrite <- IH. lia.
Qed.
Lemma odometer_level : forall max node j, in_grid max node ->
  odometer node max = match level node max j with
                      | Some i => Some (repeat 0 (i - j) ++ S (nth (i - j) node 0) :: skipn (S (i - j)) node)
                      | None => None
                      end /\ match level node max j with Some i => j <= i | None => True end.
Proof.
  intros max node j G. revert j. induction G as [|n m node max L G IH]; intros j; cbn [odometer level]; [split; reflexivity|].
  destruct (Nat.ltb_spec n m) as [K|K].
  - rewrite Nat.sub_diag. split; [reflexivity|lia].
  - destruct (IH (S j)) as [E LE]. rewrite E. destruct (level node max (S j)) as [i|]; [|split; [reflexivity|exact Logic.I]].
    split; [|lia]. replace (i - j) with (S (i - S j)) by lia. reflexivity.
Qed.
Lemma last_max : forall max node, in_grid max node -> odometer node max = None -> node <> [] ->
  nth (length node - 1) node 0 = nth (length node - 1) max 0.
Proof.
  intros max node G. induction G as [|n m node max L G IH]; intros E N; [contradiction|]. cbn [odometer] in E. destruct (Nat.ltb_spec n m); [discriminate E|].
  destruct (odometer node max) eqn:O; [discriminate E|]. destruct node as [|a node]; [inversion G; subst; cbn; lia|].
  replace (length (n :: a :: node) - 1) with (S (length (a :: node) - 1)) by (cbn; lia). cbn [nth]. apply IH; [reflexivity|discriminate].
Qed.
Lemma advance_odometer : forall max node, in_grid max node -> max <> [] -> Forall (fun m => 0 < m) max -> advance node max = odometer node max.
Proof.
  intros max node G N P. pose proof (last_max max node G) as LM. destruct G as [|n m node max L G]; [contradiction|]. inversion P; subst.
  unfold advance. cbn [nth odometer] in *. destruct (Nat.ltb_spec n m); [reflexivity|]. destruct (Nat.ltb_spec 0 m); [|lia]. cbn [skipn].
  destruct (odometer_level max node 1 G) as [E LE]. destruct (level node max 1) as [i|].
  - rewrite E. destruct i as [|i]; [lia|]. cbn [Nat.sub repeat app nth skipn]. rewrite Nat.sub_0_r. reflexivity.
  - rewrite E in *. rewrite LM by (reflexivity || discriminate). rewrite Nat.eqb_refl. reflexivity.
Qed.
Lemma place_inj : forall max a b, in_grid max a -> in_grid max b -> place max a = place max b -> a = b.
Proof.
  intros max a b G. revert b. induction G as [|n m node max L G IH]; intros b H E; [inversion H; reflexivity|].
  inversion H as [|n' ? node' ? L' G']; subst. cbn [place] in E.
  assert (n = n' /\ place max node = place max node') as [-> E2].
  { assert (D : forall x p, x <= m -> x = (x + S m * p) mod S m /\ p = (x + S m * p) / S m).
    { intros x p K. split; [apply (Nat.mod_unique _ _ p); lia|apply (Nat.div_unique _ _ _ x); lia]. }
    destruct (D n (place max node) L) as [D1 D2]. destruct (D n' (place max node') L') as [D3 D4]. rewrite E in D1, D2. split; congruence. }
  f_equal. apply IH; assumption.
Qed.
Lemma place_lt : forall max a, in_grid max a -> place max a < grid_size max.
Proof.
  intros max a G. induction G as [|n m node max L G IH]; [cbn; lia|]. cbn [place grid_size].
  assert (S m * S (place max node) <= S m * grid_size max) by (apply Nat.mul_le_mono_l; lia). lia.
Qed.
Lemma visit_places : forall max k e node, in_grid max node -> max <> [] -> Forall (fun m => 0 < m) max ->
  map (place max) (visit max None k e node) = seq (place max node) (Nat.min k (grid_size max - place max node)) /\
  Forall (in_grid max) (visit max None k e node).
Proof.
  intros max k. induction k as [|k IH]; intros e node G N P; [split; [reflexivity|constructor]|]. cbn [visit map].
  rewrite advance_odometer by assumption. pose proof (odometer_place max node G) as O. pose proof (place_lt max node G).
  destruct (odometer node max) as [l|].
  - destruct O as [O1 O2]. destruct (IH (S e) l O1 N P) as [I1 I2]. rewrite I1, O2. split; [|constructor; assumption].
    replace (Nat.min (S k) (grid_size max - place max node)) with (S (Nat.min k (grid_size max - S (place max node)))) by lia. reflexivity.
  - replace (Nat.min (S k) (grid_size max - place max node)) with 1 by lia. split; [reflexivity|]. constructor; [exact G|constructor].
Qed.
Lemma zero_grid : forall max, in_grid max (repeat 0 (length max)) /\ place max (repeat 0 (length max)) = 0.
Proof.
  induction max as [|m max [I1 I2]]; [split; constructor|]. cbn [length repeat place]. split; [constructor; [lia|exact I1]|]. rewrite I2. lia.
Qed.
(** With a continuous variable, any bounds of the integer variables and any budget: each node is evaluated at most once, all of them are in
    the grid, as many as there are or the budget allows; so the whole grid is evaluated if the budget suffices. *)
Theorem C93_nodes : forall uppers c b, 0 < c -> Forall (fun u => 0 < u) uppers -> let max := max_nodes uppers c b in
  let l := my_grid_search uppers c b in
  NoDup l /\ Forall (in_grid max) l /\ length l = Nat.min b (grid_size max) /\ (grid_size max <= b -> forall node, in_grid max node -> In node l).
Proof.
  intros uppers c b Pc U max l.
  assert (LM : length max = length uppers + c) by (unfold max, max_nodes; rewrite app_length, repeat_length; reflexivity).
  assert (P : Forall (fun m => 0 < m) max).
  { unfold max, max_nodes. apply Forall_app. split; [exact U|]. apply Forall_forall. intros m H. apply repeat_spec in H as ->.
    unfold continuous_nodes. destruct (Nat.ltb_spec (floor_root b (integer_nodes uppers) c b - 1) 1); lia. }
  assert (N : max <> []) by (intros E; rewrite E in LM; cbn in LM; lia).
  destruct (zero_grid max) as [Z1 Z2]. unfold l, my_grid_search. fold max. destruct (Nat.eqb_spec c 0); [lia|]. rewrite <- LM.
  destruct (visit_places max b 0 (repeat 0 (length max)) Z1 N P) as [V1 V2]. rewrite Z2, Nat.sub_0_r in V1.
  assert (ND : NoDup (visit max None b 0 (repeat 0 (length max)))) by (apply (NoDup_map_inv (place max)); rewrite V1; apply seq_NoDup).
  split; [exact ND|]. split; [exact V2|]. split; [rewrite <- (map_length (place max)), V1, seq_length; reflexivity|].
  intros LE node G. assert (I : In (place max node) (map (place max) (visit max None b 0 (repeat 0 (length max))))).
  { rewrite V1. apply in_seq. pose proof (place_lt max node G). lia. }
  apply in_map_iff in I as (x & E & I). rewrite Forall_forall in V2. rewrite <- (place_inj max x node (V2 x I) G E). exact I.
Qed.
Lemma floor_root_ok : forall b i k r, 0 < k -> i * floor_root b i k r ^ k <= b.
Proof.
  intros b i k r K. induction r as [|r IH]; cbn [floor_root].
  - rewrite Nat.pow_0_l by lia. lia.
  - destruct (Nat.leb_spec (i * S r ^ k) b); assumption.
Qed.
Lemma floor_root_max : forall b i k r s, s <= r -> i * s ^ k <= b -> s <= floor_root b i k r.
Proof.
  intros b i k r s. induction r as [|r IH]; intros L H; cbn [floor_root]; [exact L|].
  destruct (Nat.leb_spec (i * S r ^ k) b); [exact L|]. destruct (Nat.eq_dec s (S r)) as [->|]; [lia|]. apply IH; [lia|exact H].
Qed.
Lemma grid_size_repeat : forall m c, grid_size (repeat m c) = S m ^ c.
Proof. intros m c. induction c as [|c IH]; [reflexivity|]. cbn [repeat grid_size Nat.pow]. rewrite IH. reflexivity. Qed.
(** Without integer variables the grid is the finest one that the budget suffices for, if it suffices for two nodes along each axis:
    all its nodes are evaluated, and a grid with one node more along each axis has more nodes than the budget. *)
Theorem C93_finest : forall c b, 0 < c -> 2 ^ c <= b -> let max := max_nodes [] c b in
  grid_size max <= b /\ length (my_grid_search [] c b) = grid_size max /\ b < grid_size (map S max).
Proof.
  intros c b Pc LB max. unfold max, max_nodes, continuous_nodes. cbn [integer_nodes fold_left app].
  change (integer_nodes []) with 1. set (r := floor_root b 1 c b).
  assert (R2 : 2 <= r).
  { apply floor_root_max; [|lia]. destruct c; [lia|]. cbn [Nat.pow] in LB. assert (1 <= 2 ^ c) by (apply Nat.neq_0_lt_0, Nat.pow_nonzero; lia). lia. }
  pose proof (floor_root_ok b 1 c b Pc) as R1. fold r in R1. rewrite Nat.mul_1_l in R1.
  assert (RB : r ^ 1 <= r ^ c) by (apply Nat.pow_le_mono_r; lia). rewrite Nat.pow_1_r in RB.
  assert (GS : grid_size (max_nodes [] c b) <= b).
  { unfold max_nodes, continuous_nodes. change (integer_nodes []) with 1. fold r. cbn [app]. destruct (Nat.ltb_spec (r - 1) 1); [lia|].
    rewrite grid_size_repeat. replace (S (r - 1)) with r by lia. exact R1. }
  destruct (C93_nodes [] c b Pc) as (_ & _ & L & _); [constructor|].
  destruct (Nat.ltb_spec (r - 1) 1); [lia|]. unfold max_nodes, continuous_nodes in GS, L. change (integer_nodes []) with 1 in GS, L. fold r in GS, L. cbn [app] in GS, L.
  destruct (Nat.ltb_spec (r - 1) 1); [lia|]. split; [exact GS|]. split; [lia|].
  assert (MR : map S (repeat (r - 1) c) = repeat r c).
  { clearbody r. clear - R2. induction c as [|c IH]; [reflexivity|]. cbn [repeat map]. rewrite IH. f_equal. lia. }
  rewrite MR, grid_size_repeat. destruct (Nat.lt_ge_cases b (S r ^ c)) as [K|K]; [exact K|]. exfalso.
  assert (S r <= r); [|lia]. apply floor_root_max; [|lia].
  assert (S r ^ 1 <= S r ^ c) by (apply Nat.pow_le_mono_r; lia). rewrite Nat.pow_1_r in *. lia.
Qed.
(** The coordinates of the nodes are in the region of interest, from the lower to the upper bound. *)
Theorem C93_points : forall (lower upper : Q) max node, (lower <= upper)%Q -> 0 < max -> node <= max ->
  (lower <= coordinate false lower upper max node <= upper)%Q /\
  (coordinate false lower upper max 0 == lower)%Q /\ (coordinate false lower upper max max == upper)%Q /\
  (coordinate true 0 (inject_Z (Z.of_nat max)) max node == inject_Z (Z.of_nat node))%Q.
Proof.
  intros lower upper max node LU Pm LN.
  assert (M0 : (0 < inject_Z (Z.of_nat max))%Q) by (unfold Qlt; cbn; lia).
  assert (M1 : ~ (inject_Z (Z.of_nat max) == 0)%Q) by (intros E; rewrite E in M0; exact (Qlt_irrefl _ M0)).
  assert (N0 : (0 <= inject_Z (Z.of_nat node))%Q) by (unfold Qle; cbn; lia).
  assert (NM : (inject_Z (Z.of_nat node) <= inject_Z (Z.of_nat max))%Q) by (rewrite <- Zle_Qle; lia).
  assert (D0 : (0 <= (upper - lower) / inject_Z (Z.of_nat max))%Q).
  { apply Qle_shift_div_l; [exact M0|]. rewrite Qmult_0_l. rewrite <- (Qplus_opp_r lower). unfold Qminus. apply Qplus_le_compat; [exact LU|apply Qle_refl]. }
  assert (TOP : (lower + (upper - lower) / inject_Z (Z.of_nat max) * inject_Z (Z.of_nat max) == upper)%Q) by (field; exact M1).
  unfold coordinate. split; [split|].
  - rewrite <- (Qplus_0_r lower) at 1. apply Qplus_le_compat; [apply Qle_refl|]. apply Qmult_le_0_compat; assumption.
  - rewrite <- TOP at 2. apply Qplus_le_compat; [apply Qle_refl|]. rewrite !(Qmult_comm ((upper - lower) / inject_Z (Z.of_nat max))%Q). apply Qmult_le_compat_r; assumption.
  - split; [cbn [Z.of_nat]; ring|]. split; [exact TOP|ring].
Qed.
(** Deviations: an integer variable with values 0 to u counts as u nodes only.  With integer variables alone the search stops before all
    nodes are evaluated, whatever the budget; *)
Theorem C93_integer_refuted : exists uppers node, Forall (fun u => 0 < u) uppers /\ in_grid uppers node /\
  forall b, max_nodes uppers 0 b = uppers /\ ~ In node (my_grid_search uppers 0 b).
Proof.
  exists [1], [1]. split; [repeat constructor|]. split; [repeat constructor|]. intros b. split; [reflexivity|].
  destruct b as [|[|b]]; cbn; intros H; [exact H| |]; destruct H as [H|H]; [discriminate H|exact H|discriminate H|exact H].
Qed.
(** with both kinds of variables the grid may be larger than the budget though a coarser one would not be. *)
Theorem C93_mixed_refuted : exists uppers c b, Forall (fun u => 0 < u) uppers /\ 0 < c /\ b < grid_size (max_nodes uppers c b) /\
  exists m, 0 < m /\ m < continuous_nodes uppers c b /\ grid_size (uppers ++ repeat m c) <= b.
Proof. exists [3], 1, 12. split; [repeat constructor|]. split; [lia|]. split; [vm_compute; lia|]. exists 2. vm_compute. lia. Qed.
Example C93_example : Forall (fun u => 0 < u) [1; 3] /\ length (my_grid_search [1; 3] 2 100) = 100 /\ 2 ^ 3 <= 30 /\
  max_nodes [] 3 30 = [2; 2; 2] /\ length (my_grid_search [] 3 30) = 27 /\ nth 10 (my_grid_search [] 3 30) [] = [1; 0; 1].
Proof. split; [repeat constructor|]. vm_compute. repeat split; lia. Qed.

Print Assumptions C93_nodes.
Print Assumptions C93_finest.
Print Assumptions C93_points.
Print Assumptions C93_integer_refuted.
Print Assumptions C93_mixed_refuted.
