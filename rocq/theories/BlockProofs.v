(** Proofs about block rotations. *)
From Coq Require Import List Arith NArith ZArith Bool Lia ZifyBool ZifyNat ZifyN.
From Verif Require Import CBase OptModel DblModel RandModel RandSpec LegacyProofs PermProofs BlockModel BlockSpec.
Import ListNotations.
Open Scope nat_scope.

Lemma sum_total : forall l, sum_sizes l = total l.
Proof.
  assert (G : forall l a, fold_left Nat.add l a = a + total l) by (induction l as [|s l IH]; intros a; cbn [fold_left total]; [lia|rewrite IH; lia]).
  intros l. unfold sum_sizes. rewrite G. reflexivity.
Qed.
Lemma total_app : forall a b, total (a ++ b) = total a + total b.
Proof. induction a as [|x a IH]; intros b; cbn [total app]; [reflexivity|rewrite IH; lia]. Qed.

Fixpoint blocks_from (acc : nat) (sizes : list nat) : list (nat * nat) :=
  match sizes with [] => [] | s :: t => repeat (s, acc + s) s ++ blocks_from (acc + s) t end.

Lemma block_of_rows_ok : forall count i pre s post next r, Forall (fun s => 0 < s) (pre ++ s :: post) -> r <= s -> i + r = next -> count = r + total post ->
  block_of_rows (pre ++ s :: post) count i (length pre) next = Ok (repeat (s, next) r ++ blocks_from next post).
Proof.
  induction count as [|c IH]; intros i pre s post next r P Hr Hi Hc.
  - assert (r = 0) by lia. subst r. assert (post = []).
    { destruct post as [|p post]; [reflexivity|]. rewrite Forall_app in P. destruct P as [_ P]. inversion P as [|? ? _ P2]; subst. inversion P2; subst. cbn [total] in Hc. lia. }
    subst post. reflexivity.
  - destruct r as [|r].
    + destruct post as [|s' post]; [cbn [total] in Hc; lia|]. assert (P' := P). rewrite Forall_app in P'. destruct P' as [_ P']. inversion P' as [|? ? _ P2]; subst. inversion P2 as [|? ? Hs' _]; subst.
      assert (Ns : nth_error (pre ++ s :: s' :: post) (length pre + 1) = Some s') by (rewrite nth_error_app2 by lia; replace (length pre + 1 - length pre) with 1 by lia; reflexivity).
      cbn [block_of_rows]. rewrite Nat.add_0_r. rewrite (proj2 (Nat.leb_le i i)) by lia. unfold mget. rewrite Ns. cbn [bind].
      rewrite Ns. cbn [bind].
      replace (pre ++ s :: s' :: post) with ((pre ++ [s]) ++ s' :: post) by (rewrite <- app_assoc; reflexivity).
      replace (length pre + 1) with (length (pre ++ [s])) by (rewrite app_length; reflexivity).
      destruct s' as [|s'']; [lia|].
      rewrite (IH (S i) (pre ++ [s]) (S s'') post (i + S s'') s''); [reflexivity|rewrite <- app_assoc; exact P|lia|lia|cbn [total] in Hc; lia].
    + cbn [block_of_rows]. destruct (Nat.leb_spec next i); [lia|]. cbn [bind]. unfold mget. rewrite nth_error_app2 by lia. rewrite Nat.sub_diag. cbn [nth_error bind].
      rewrite (IH (S i) pre s post next r); [reflexivity|exact P|lia|lia|lia].
Qed.
Lemma row_blocks_ok : forall sizes n, sizes <> [] -> Forall (fun s => 0 < s) sizes -> total sizes = n -> row_blocks sizes n = Ok (blocks_from 0 sizes).
Proof.
  intros [|s post] n Ne P T; [contradiction|]. unfold row_blocks, mget. cbn [nth_error bind].
  apply (block_of_rows_ok n 0 [] s post s s P); [lia|lia|cbn [total] in T; lia].
Qed.
Lemma blocks_from_length : forall sizes acc, length (blocks_from acc sizes) = total sizes.
Proof. induction sizes as [|s t IH]; intros acc; cbn [blocks_from total]; [reflexivity|]. rewrite app_length, repeat_length, IH. reflexivity. Qed.
Lemma nth_error_repeat' : forall A (x : A) n i, i < n -> nth_error (repeat x n) i = Some x.
Proof. intros A x. induction n as [|n IH]; intros [|i] H; cbn; try lia; [reflexivity|apply IH; lia]. Qed.
Lemma blocks_from_nth : forall sizes acc i, i < total sizes -> exists b s, nth_error sizes b = Some s /\ block_start sizes b <= i < block_start sizes b + s /\
  nth_error (blocks_from acc sizes) i = Some (s, acc + block_start sizes b + s).
Proof.
  induction sizes as [|s t IH]; intros acc i H; cbn [total] in H; [lia|]. destruct (Nat.lt_ge_cases i s) as [L|L].
  - exists 0, s. split; [reflexivity|]. split; [unfold block_start; cbn [firstn total]; lia|]. cbn [blocks_from]. rewrite nth_error_app1 by (rewrite repeat_length; exact L).
    rewrite nth_error_repeat' by exact L. f_equal. f_equal. unfold block_start. cbn [firstn total]. lia.
  - destruct (IH (acc + s) (i - s) ltac:(lia)) as [b [s' [E [R N]]]]. exists (S b), s'. split; [exact E|]. unfold block_start in *. cbn [firstn total]. split; [lia|].
    cbn [blocks_from]. rewrite nth_error_app2 by (rewrite repeat_length; lia). rewrite repeat_length, N. f_equal. f_equal. lia.
Qed.
Lemma in_block_unique : forall sizes b b' i, in_block sizes b i -> in_block sizes b' i -> b = b'.
Proof.
  intros sizes b b' i [s [E R]] [s' [E' R']]. unfold block_start in *.
  assert (M : forall l c d t, nth_error l c = Some t -> c < d -> total (firstn c l) + t <= total (firstn d l)).
  { induction l as [|x l IH]; intros [|c] [|d] t Q L; cbn in Q; try discriminate Q; try lia; cbn [firstn total].
    - injection Q as <-. lia.
    - specialize (IH c d t Q ltac:(lia)). lia. }
  destruct (Nat.lt_trichotomy b b') as [L|[L|L]]; [pose proof (M _ _ _ _ E L); lia|exact L|pose proof (M _ _ _ _ E' L); lia].
Qed.

Section Arithmetic.
Variable A : Type.
Variables (zero : A) (add mul : A -> A -> A).
Variable rotation : Z -> nat -> res (list (list A)).

(** ** Filling the blocks *)
Lemma fill_row_ok : forall (values : list A) j row, j + length values <= length row ->
  fill_row A row j values = Ok (firstn j row ++ map Some values ++ skipn (j + length values) row).
Proof. clear zero add mul rotation.
  induction values as [|v t IH]; intros j row H.
  - cbn [fill_row map length app]. rewrite Nat.add_0_r, firstn_skipn. reflexivity.
  - cbn [fill_row length] in *. unfold mset. destruct (Nat.ltb_spec j (length row)); [|lia]. cbn [bind]. rewrite IH by (rewrite upd_length; lia). f_equal.
    assert (U : upd row j (Some v) = firstn j row ++ Some v :: skipn (S j) row).
    { assert (L : j < length row) by lia. clear - L. revert j L. induction row as [|y d IHd]; intros [|j] L; cbn in L; try lia; [reflexivity|]. cbn [upd firstn app]. change (skipn (S (S j)) (y :: d)) with (skipn (S j) d). f_equal. apply IHd. lia. }
    rewrite U. assert (Lf : length (firstn j row) = j) by (rewrite firstn_length; lia).
    rewrite firstn_app, Lf. replace (S j - j) with 1 by lia. rewrite firstn_all2 by lia. cbn [firstn]. rewrite skipn_app, Lf. rewrite (skipn_all2 (firstn j row)) by lia.
    replace (S j + length t - j) with (S (length t)) by lia. change (skipn (S (length t)) (Some v :: skipn (S j) row)) with (skipn (length t) (skipn (S j) row)). cbn [app map]. rewrite <- app_assoc. cbn [app]. f_equal. f_equal. f_equal.
    assert (S2 : forall (T : Type) (l : list T) a b, skipn a (skipn b l) = skipn (b + a) l) by (intros T l a b; revert l; induction b; intros [|z l]; cbn; auto; destruct a; reflexivity).
    rewrite S2. f_equal. lia.
Qed.
Lemma fill_rows_ok : forall block done rest s, Forall (fun row => length row = s) block -> Forall (fun row => length row = s) (firstn (length block) rest) ->
  length block <= length rest ->
  fill_rows A (done ++ rest) (length done) block = Ok (done ++ map (map Some) block ++ skipn (length block) rest).
Proof. clear zero add mul rotation.
  induction block as [|values t IH]; intros done rest s Fb Fr L; [reflexivity|].
  destruct rest as [|row rest]; [cbn in L; lia|]. cbn [length firstn skipn map] in *. inversion Fb as [|? ? H1 H2]; subst. inversion Fr as [|? ? H3 H4]; subst.
  cbn [fill_rows]. unfold mget. rewrite nth_error_app2 by lia. rewrite Nat.sub_diag. cbn [nth_error bind].
  rewrite fill_row_ok by lia. cbn [firstn app Nat.add bind]. rewrite skipn_all2 by lia. rewrite app_nil_r. unfold mset. rewrite app_length. cbn [length].
  destruct (Nat.ltb_spec (length done) (length done + S (length rest))); [|lia]. cbn [bind].
  assert (U : upd (done ++ row :: rest) (length done) (map Some values) = (done ++ [map Some values]) ++ rest).
  { clear. induction done as [|d done IHd]; [reflexivity|]. cbn [app length upd]. f_equal. exact IHd. }
  rewrite U. replace (S (length done)) with (length (done ++ [map Some values])) by (rewrite app_length; cbn; lia).
  rewrite (IH _ rest (length values) H2); [|exact H4|lia]. rewrite <- app_assoc. reflexivity.
Qed.

(** The blocks that rotation gives. *)
Inductive rotations (seed : Z) : nat -> list nat -> list (list (list A)) -> Prop :=
| rot_end : forall b, rotations seed b [] []
| rot_next : forall b s t M Ms, rotation (seed + 1000000 * Z.of_nat b) s = Ok M -> square A s M -> rotations seed (S b) t Ms -> rotations seed b (s :: t) (M :: Ms).

Definition undefined_rows (sizes : list nat) : matrix A := concat (map (fun s => repeat (repeat None s) s) sizes).
Lemma allocated_rows : forall sizes acc, map (fun b : nat * nat => repeat (@None A) (fst b)) (blocks_from acc sizes) = undefined_rows sizes.
Proof. clear zero add mul rotation.
  induction sizes as [|s t IH]; intros acc; [reflexivity|]. unfold undefined_rows. cbn [blocks_from map concat]. rewrite map_app, IH. f_equal.
  generalize (acc + s). intros k. assert (G : forall m, map (fun b : nat * nat => repeat (@None A) (fst b)) (repeat (s, k) m) = repeat (repeat None s) m) by (induction m as [|m IHm]; cbn; [reflexivity|f_equal; exact IHm]). apply G.
Qed.

Lemma fill_blocks_ok : forall sizes Ms seed b done, Forall (fun s => s <= 44) sizes -> rotations seed b sizes Ms ->
  (- 2 ^ 62 < seed < 2 ^ 62)%Z -> (Z.of_nat (b + length sizes) < 2 ^ 40)%Z ->
  fill_blocks A rotation (done ++ undefined_rows sizes) seed sizes b (length done) = Ok (done ++ concat (map (map (map Some)) Ms)).
Proof. clear zero add mul.
  induction sizes as [|s t IH]; intros Ms seed b done S44 Rot Hs Hb; inversion Rot as [|? ? ? M Ms' ER [SqL SqR] Rest]; subst; [reflexivity|].
  inversion S44 as [|? ? H44 H44']; subst. cbn [fill_blocks]. destruct (Nat.leb_spec (length M) 44); [|lia]. cbn [length] in Hb.
  rewrite as_long_nat by lia. rewrite long_ok by lia. cbn [bind]. rewrite long_ok by lia. cbn [bind]. rewrite ER. cbn [bind].
  unfold undefined_rows. cbn [map concat]. fold (undefined_rows t).
  rewrite (fill_rows_ok M done _ (length M)); [|exact SqR| |rewrite app_length, repeat_length; lia].
  - cbn [bind]. rewrite skipn_app, repeat_length, Nat.sub_diag, (skipn_all2 (repeat _ _)) by (rewrite repeat_length; lia). cbn [skipn app]. rewrite app_assoc.
    replace (length done + length M) with (length (done ++ map (map Some) M)) by (rewrite app_length, map_length; reflexivity).
    rewrite (IH Ms' seed (S b) _ H44' Rest Hs ltac:(lia)). rewrite <- app_assoc. reflexivity.
  - rewrite firstn_app, repeat_length, Nat.sub_diag. cbn [firstn]. rewrite app_nil_r. rewrite firstn_all2 by (rewrite repeat_length; lia).
    apply Forall_forall. intros row Hr. apply repeat_spec in Hr. subst row. apply repeat_length.
Qed.

(** ** Copying *)
Lemma copy_row_ok : forall (values : list A) pre, copy_row A (pre ++ map Some values) (length pre) (length values) = Ok values.
Proof. clear zero add mul rotation.
  induction values as [|v t IH]; intros pre; [reflexivity|]. cbn [copy_row length map]. unfold mget. rewrite nth_error_app2 by lia. rewrite Nat.sub_diag. cbn [nth_error bind].
  replace (pre ++ Some v :: map Some t) with ((pre ++ [Some v]) ++ map Some t) by (rewrite <- app_assoc; reflexivity).
  replace (S (length pre)) with (length (pre ++ [Some v])) by (rewrite app_length; cbn; lia). rewrite IH. reflexivity.
Qed.
Lemma copy_rows_ok : forall rs (l : list (nat * nat)) pre, Forall2 (fun row b => length row = fst b) rs l ->
  copy_rows A (pre ++ map (map Some) rs) (length pre) l = Ok rs.
Proof. clear zero add mul rotation.
  intros rs l pre F. revert pre. induction F as [|row b rs l H F IH]; intros pre; [reflexivity|]. cbn [copy_rows map]. unfold mget. rewrite nth_error_app2 by lia. rewrite Nat.sub_diag.
  cbn [nth_error bind]. rewrite <- H. pose proof (copy_row_ok row []) as C. cbn [app length] in C. rewrite C. cbn [bind].
  replace (pre ++ map Some row :: map (map Some) rs) with ((pre ++ [map Some row]) ++ map (map Some) rs) by (rewrite <- app_assoc; reflexivity).
  replace (S (length pre)) with (length (pre ++ [map Some row])) by (rewrite app_length; cbn; lia). rewrite IH. reflexivity.
Qed.
Lemma concat_shape : forall sizes Ms acc, Forall2 (square A) sizes Ms -> Forall2 (fun row (b : nat * nat) => length row = fst b) (concat Ms) (blocks_from acc sizes).
Proof. clear zero add mul rotation.
  intros sizes Ms acc F. revert acc. induction F as [|s M sizes Ms [L R] F IH]; intros acc; [constructor|]. cbn [concat blocks_from]. apply Forall2_app; [|apply IH].
  subst s. generalize (acc + length M). intros k.
  assert (G : forall m N, Forall (fun row : list A => length row = m) N -> Forall2 (fun (row : list A) (b : nat * nat) => length row = fst b) N (repeat (m, k) (length N))).
  { intros m N FN. induction FN; cbn; constructor; auto. }
  apply G. exact R.
Qed.
Lemma rotations_square : forall seed b sizes Ms, rotations seed b sizes Ms -> Forall2 (square A) sizes Ms.
Proof. clear zero add mul. intros seed b sizes Ms R. induction R; constructor; auto. Qed.

(** ** Applying *)
Lemma row_sum_ok : forall count row x j first s, first <= j -> j - first + count <= length row -> j + count <= length x ->
  row_sum A add mul row x j first count s = Ok (products_onto A add mul s (firstn count (skipn (j - first) row)) (firstn count (skipn j x))).
Proof. clear rotation.
  induction count as [|c IH]; intros row x j first s Hj Hr Hx; [reflexivity|]. cbn [row_sum]. unfold mget.
  assert (Sk : forall (l : list A) k, k < length l -> exists a, nth_error l k = Some a /\ skipn k l = a :: skipn (S k) l).
  { induction l as [|y l IHl]; intros [|k] H; cbn in H; try lia; [exists y; split; reflexivity|]. destruct (IHl k ltac:(lia)) as [a [E1 E2]]. exists a. split; [exact E1|exact E2]. }
  destruct (Sk row (j - first) ltac:(lia)) as [a [Ea Sa]]. destruct (Sk x j ltac:(lia)) as [v [Ev Sv]]. rewrite Ea, Ev, Sa, Sv. cbn [bind firstn products_onto].
  rewrite IH by lia. replace (S j - first) with (S (j - first)) by lia. reflexivity.
Qed.

Lemma firstn_prefix : forall T (l : list T) k x, k <= length l -> firstn k (l ++ x) = firstn k l.
Proof. intros T l k x H. rewrite firstn_app. replace (k - length l) with 0 by lia. cbn [firstn]. apply app_nil_r. Qed.

Lemma apply_block : forall d x M rest i acc k, rot_B A d = firstn i (rot_B A d) ++ M ++ rest -> length (firstn i (rot_B A d)) = i ->
  Forall (fun row => length row = k) M -> (forall r, r < length M -> nth_error (block_size_map A d) (i + r) = Some k /\ nth_error (first_non_zero_map A d) (i + r) = Some acc) ->
  acc + k <= length x -> forall c tail, apply_rows A zero add mul d x c (i + length M) = Ok tail ->
  apply_rows A zero add mul d x (length M + c) i = Ok (map (fun row => scalar_product A zero add mul row (firstn k (skipn acc x))) M ++ tail).
Proof. clear rotation.
  intros d x M. induction M as [|row M IH]; intros rest i acc k EB Li FM Maps Hx c tail ET.
  - cbn [length Nat.add map app]. cbn [length] in ET. rewrite Nat.add_0_r in ET. exact ET.
  - cbn [length Nat.add apply_rows]. destruct (Maps 0 ltac:(cbn; lia)) as [E1 E2]. rewrite Nat.add_0_r in E1, E2. unfold mget. rewrite E1, E2. cbn [bind].
    assert (Er : nth_error (rot_B A d) i = Some row) by (rewrite EB, nth_error_app2 by lia; rewrite Li, Nat.sub_diag; reflexivity). rewrite Er. cbn [bind].
    inversion FM as [|? ? H1 H2]; subst. rewrite row_sum_ok by lia. cbn [bind]. rewrite Nat.sub_diag. cbn [skipn].
    rewrite (firstn_all2 row) by lia.
    assert (NB : firstn (S i) (rot_B A d) = firstn i (rot_B A d) ++ [row]).
    { clear - Er. revert Er. generalize (rot_B A d). induction i as [|i IHi]; intros [|y l] Er; cbn in Er; try discriminate Er; [injection Er as <-; reflexivity|]. change (firstn (S (S i)) (y :: l)) with (y :: firstn (S i) l). rewrite (IHi l Er). reflexivity. }
    rewrite (IH rest (S i) acc (length row)) with (c := c) (tail := tail); [reflexivity| | |exact H2| |exact Hx|].
    + rewrite NB, <- app_assoc. exact EB.
    + rewrite NB, app_length, Li. cbn. lia.
    + intros r Hr. replace (S i + r) with (i + S r) by lia. apply Maps. cbn. lia.
    + rewrite <- ET. f_equal. cbn [length]. lia.
Qed.

Lemma apply_all : forall sizes Ms d x i, Forall2 (square A) sizes Ms -> length (firstn i (rot_B A d)) = i -> rot_B A d = firstn i (rot_B A d) ++ concat Ms ->
  length x = i + total sizes ->
  (forall r b, nth_error (blocks_from i sizes) r = Some b -> nth_error (block_size_map A d) (i + r) = Some (fst b) /\ nth_error (first_non_zero_map A d) (i + r) = Some (snd b - fst b)) ->
  apply_rows A zero add mul d x (total sizes) i = Ok (block_product A zero add mul Ms (skipn i x)).
Proof. clear rotation.
  intros sizes Ms d x i F. revert i. induction F as [|s M sizes Ms [L R] F IH]; intros i Li EB Lx Maps; [reflexivity|].
  cbn [total block_product]. subst s. cbn [total] in Lx. cbn [concat] in EB.
  assert (NB : firstn (i + length M) (rot_B A d) = firstn i (rot_B A d) ++ M).
  { rewrite EB at 1. rewrite firstn_app, Li. rewrite firstn_all2 by lia. replace (i + length M - i) with (length M) by lia. f_equal. rewrite firstn_app, firstn_all, Nat.sub_diag. cbn [firstn]. apply app_nil_r. }
  rewrite (apply_block d x M (concat Ms) i i (length M) EB Li R) with (tail := block_product A zero add mul Ms (skipn (i + length M) x)).
  - f_equal. f_equal. f_equal. assert (S2 : forall (T : Type) (l : list T) a b, skipn a (skipn b l) = skipn (b + a) l) by (intros T l a b; revert l; induction b; intros [|z l]; cbn; auto; destruct a; reflexivity). rewrite S2. reflexivity.
  - intros r Hr. destruct (Maps r (length M, i + length M)) as [E1 E2].
    { cbn [blocks_from]. rewrite nth_error_app1 by (rewrite repeat_length; exact Hr). apply nth_error_repeat'. exact Hr. }
    cbn [fst snd] in E1, E2. split; [exact E1|]. rewrite E2. f_equal. lia.
  - lia.
  - apply IH; [rewrite NB, app_length, Li; reflexivity|rewrite NB, <- app_assoc; exact EB|lia|].
    intros r b Hb. rewrite <- Nat.add_assoc. apply Maps. cbn [blocks_from]. rewrite nth_error_app2 by (rewrite repeat_length; lia). rewrite repeat_length. replace (length M + r - length M) with r by lia. exact Hb.
Qed.

Lemma row_elements_ok : forall row first k count j, length row = k -> 
  row_elements A zero row first k j count = Ok (map (fun c => if (c <? first) || (first + k <=? c) then zero else nth (c - first) row zero) (seq j count)).
Proof. clear add mul rotation.
  intros row first k. induction count as [|c IH]; intros j L; [reflexivity|]. cbn [row_elements seq map].
  destruct (Nat.ltb_spec j first) as [H|H]; cbn [orb bind]; [rewrite (IH (S j) L); reflexivity|].
  destruct (Nat.leb_spec (first + k) j) as [H'|H']; cbn [bind]; [rewrite (IH (S j) L); reflexivity|].
  unfold mget. rewrite (nth_error_nth' row zero) by lia. cbn [bind]. rewrite (IH (S j) L). reflexivity.
Qed.

(** The whole. *)
Lemma built : forall sizes Ms seed n, sizes <> [] -> Forall (fun s => 0 < s) sizes -> total sizes = n -> Forall (fun s => s <= 44) sizes ->
  rotations seed 0 sizes Ms -> (- 2 ^ 62 < seed < 2 ^ 62)%Z -> (Z.of_nat (length sizes) < 2 ^ 40)%Z ->
  exists B0 B d, coco_allocate_blockmatrix A n sizes = Ok B0 /\ coco_compute_blockrotation A rotation B0 seed n sizes = Ok B /\
    transform_vars_blockrotation A B n sizes = Ok d /\ rot_B A d = concat Ms /\ dimension A d = n /\
    block_size_map A d = map fst (blocks_from 0 sizes) /\ first_non_zero_map A d = map (fun b => snd b - fst b) (blocks_from 0 sizes).
Proof. clear zero add mul.
  intros sizes Ms seed n Ne P T F44 Rot Hs Hl.
  assert (S0 : (sum_sizes sizes =? n) = true) by (rewrite sum_total, T; apply Nat.eqb_refl).
  pose proof (row_blocks_ok sizes n Ne P T) as RB. pose proof (rotations_square _ _ _ _ Rot) as Sq.
  exists (undefined_rows sizes), (concat (map (map (map Some)) Ms)). eexists. split; [|split; [|split]].
  - unfold coco_allocate_blockmatrix. rewrite S0, RB. cbn [bind]. rewrite allocated_rows. reflexivity.
  - unfold coco_compute_blockrotation. rewrite S0. exact (fill_blocks_ok sizes Ms seed 0 [] F44 Rot Hs ltac:(lia)).
  - unfold transform_vars_blockrotation. destruct (Nat.eqb_spec n 0) as [Z|_].
    { exfalso. destruct sizes as [|s t]; [contradiction|]. inversion P; subst. cbn [total] in Z. lia. }
    unfold coco_copy_block_matrix. rewrite S0, RB. cbn [bind].
    rewrite <- concat_map. pose proof (copy_rows_ok (concat Ms) (blocks_from 0 sizes) [] (concat_shape sizes Ms 0 Sq)) as C. cbn [app length] in C. rewrite C. cbn [bind]. reflexivity.
  - cbn [rot_B dimension block_size_map first_non_zero_map]. split; [reflexivity|]. split; [reflexivity|]. split; reflexivity.
Qed.
End Arithmetic.
