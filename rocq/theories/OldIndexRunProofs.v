(** Proofs about the files of the old bbob logger: whole experiments. *)
From Coq Require Import String List Arith NArith ZArith Ascii Bool Lia.
From Verif Require Import CBase StrModel OptModel FsModel FsSpec FsProofs IdModel IdSpec IdProofs DblModel BbobModel
  IndexModel IndexSpec IndexProofs IndexRunProofs OldIndexModel OldIndexSpec OldIndexProofs.
Import ListNotations.
Local Notation length := List.length.
Local Open Scope nat_scope.

(** ** First elements *)
Lemma existsb_In : forall x l, existsb (N.eqb x) l = true <-> In x l.
Proof.
  intros x l. rewrite existsb_exists. split.
  - intros [y [I E]]. apply N.eqb_eq in E. subst y. exact I.
  - intros I. exists x. split; [exact I|apply N.eqb_refl].
Qed.

Lemma existsb_not : forall x l, existsb (N.eqb x) l = false <-> ~ In x l.
Proof. intros x l. rewrite <- existsb_In. destruct (existsb _ _); split; congruence. Qed.

Lemma firsts_In : forall l s x, In x (firsts s l) <-> In x l /\ ~ In x s.
Proof.
  induction l as [|a l IH]; intros s x; cbn [firsts]; [cbn; tauto|].
  destruct (existsb (N.eqb a) s) eqn:E.
  - apply existsb_In in E. rewrite IH. cbn [In]. split; [tauto|]. intros [[->|I] K]; [contradiction|tauto].
  - apply existsb_not in E. cbn [In]. rewrite IH. cbn [In]. split.
    + intros [->|[I K]]; tauto.
    + intros [[->|I] K]; [tauto|]. destruct (N.eq_dec a x) as [Ex|Nx]; [tauto|right; tauto].
Qed.

Lemma firsts_NoDup : forall l s, NoDup (firsts s l).
Proof.
  induction l as [|a l IH]; intros s; cbn [firsts]; [constructor|]. destruct (existsb _ _); [apply IH|].
  constructor; [|apply IH]. rewrite firsts_In. cbn. tauto.
Qed.

Lemma firsts_snoc : forall l s x, firsts s (l ++ [x]) = firsts s l ++ if existsb (N.eqb x) (s ++ l) then [] else [x].
Proof.
  induction l as [|a l IH]; intros s x; cbn [firsts app].
  - rewrite app_nil_r. destruct (existsb _ _); reflexivity.
  - assert (P : existsb (N.eqb x) ((a :: s) ++ l) = existsb (N.eqb x) (s ++ a :: l)).
    { apply eq_true_iff_eq. rewrite !existsb_In, !in_app_iff. cbn [In]. tauto. }
    destruct (existsb (N.eqb a) s) eqn:E.
    + apply existsb_In in E. rewrite IH. f_equal.
      replace (existsb (N.eqb x) (s ++ a :: l)) with (existsb (N.eqb x) (s ++ l)); [reflexivity|].
      apply eq_true_iff_eq. rewrite !existsb_In, !in_app_iff. cbn [In]. split; [tauto|]. intros [K|[->|K]]; tauto.
    + rewrite IH, P. reflexivity.
Qed.

Lemma firsts_length_app : forall l m, length (firsts [] l) <= length (firsts [] (l ++ m)).
Proof.
  intros l m. induction m as [|x m IH] using rev_ind; [rewrite app_nil_r; lia|].
  rewrite app_assoc, firsts_snoc, app_length. lia.
Qed.

(** ** Observed problems only *)
Lemma filter_andb : forall (A : Type) (p q : A -> bool) l, filter (fun x => p x && q x) l = filter q (filter p l).
Proof.
  intros A p q l. induction l as [|x l IH]; [reflexivity|]. cbn [filter]. destruct (p x) eqn:E; cbn [andb]; [|exact IH].
  cbn [filter]. rewrite IH. reflexivity.
Qed.

Lemma filter_idem : forall (A : Type) (p : A -> bool) l, filter p (filter p l) = filter p l.
Proof.
  intros A p l. induction l as [|x l IH]; [reflexivity|]. cbn [filter]. destruct (p x) eqn:E; [|exact IH].
  cbn [filter]. rewrite E, IH. reflexivity.
Qed.

Lemma runs_of_observed : forall k rs, runs_of k rs = runs_of k (filter observed rs).
Proof. intros k rs. unfold runs_of. rewrite !filter_andb, filter_idem. reflexivity. Qed.

Lemma dims_of_observed : forall f rs, dims_of f rs = dims_of f (filter observed rs).
Proof. intros f rs. unfold dims_of. rewrite !filter_andb, filter_idem. reflexivity. Qed.

Lemma set_open_same : forall g, is_open g = false -> set_open (set_open g true) false = g.
Proof. intros [a b c d e] H. cbn in *. subst e. reflexivity. Qed.

Section Runs.
Variable dec : N -> cstr.
Hypothesis Hdec : decimals dec.
Variables e12 e1 e9 e4 : double -> cstr.
Variable version : cstr.
Variable refused : disk -> cstr -> bool.
Variable o : observer.
Hypothesis Hfits : fits o.

Notation info := (old_info_path dec o).
Notation nm := (old_name dec).
Notation campaign := (old_campaign e12 e1 e9 e4 version refused o).
Notation run1 := (old_run_problem e12 e1 e9 e4 version refused o).
Notation recorded := (old_recorded dec e12 e1 e9 e4 version o).

Lemma recorded_observed : forall i rs d d', recorded i (filter observed rs) d d' -> recorded i rs d d'.
Proof.
  clear Hfits Hdec. intros i rs d d' (R1 & R2 & R3). split; [|split].
  - intros f F. rewrite R1 by exact F. unfold old_info_text, old_lines. rewrite <- dims_of_observed.
    destruct (dims_of f rs) as [|a l]; [reflexivity|]. f_equal. f_equal. f_equal. apply map_ext. intros x.
    rewrite <- runs_of_observed. reflexivity.
  - intros k e K1 K2 E. rewrite R2 by assumption. unfold old_data_text. rewrite <- runs_of_observed. reflexivity.
  - intros p P1 P2. apply R3.
    + intros r I O. apply P1; [|exact O]. apply filter_In in I. tauto.
    + intros r k I O. apply P2; [|exact O]. apply filter_In in I. tauto.
Qed.

(** ** Whether a problem is observed does not change the state that no problem is open. *)
Lemma run_closed : forall g d r g' d', run1 g d r = Ok (g', d') -> is_open g' = false.
Proof.
  clear Hfits Hdec. intros g d r g' d' H. unfold old_run_problem in H. apply bind_Ok in H as [g0 [_ H]].
  assert (X : forall (a b : globals) (x y : disk), Ok (a, x) = Ok (b, y) -> a = b) by (intros; congruence).
  destruct (outcome r) as [[[n diff] f]|].
  - apply bind_Ok in H as [[[h g1] d0] [_ H]]. cbv zeta in H. apply X in H. subst g'. reflexivity.
  - apply X in H. subst g'. reflexivity.
Qed.

Lemma campaign_observed : forall rs g d, is_open g = false -> campaign g d rs = campaign g d (filter observed rs).
Proof.
  clear Hfits Hdec. induction rs as [|r rs IH]; intros g d G; [reflexivity|]. cbn [filter old_campaign].
  destruct (observed r) eqn:O.
  - cbn [old_campaign]. destruct (run1 g d r) as [[g1 d1]| |] eqn:E; cbn [bind]; try reflexivity.
    apply IH. apply run_closed in E. exact E.
  - unfold old_run_problem at 1, old_construct. rewrite G. cbn [bind]. unfold observed in O. destruct (outcome r); [discriminate|].
    cbn [bind]. rewrite set_open_same by exact G. apply IH. exact G.
Qed.

(** ** Names *)
Lemma old_info_inj : forall i f f', (f < 2 ^ 64)%N -> (f' < 2 ^ 64)%N -> info i f = info i f' -> f = f'.
Proof.
  clear Hfits. intros i f f' H H' E. unfold old_info_path in E. do 3 apply app_inv_head in E.
  change (str "_i") with ("_"%char :: str "i") in E.
  assert (ND : ~ is_digit "_"%char) by (intros Q; unfold is_digit, digits in Q; cbn in Q; repeat (destruct Q as [Q|Q]; [discriminate Q|]); destruct Q).
  apply (split_digits (dec f) (dec f') "_"%char "_"%char) in E as [E _]; auto using (dec_digits dec Hdec).
  apply (dec_inj dec Hdec); auto.
Qed.

Lemma old_name_inj : forall i k k' e e', small k -> small k' ->
  data_path o (nm i k) e = data_path o (nm i k') e' -> k = k' /\ e = e'.
Proof.
  clear Hfits. intros i [f n] [f' n'] e e' [Hf Hn] [Hf' Hn'] E. cbn [fst snd] in *.
  unfold data_path, old_name, base_name in E. cbn [fst snd] in E. rewrite <- !app_assoc in E. do 3 apply app_inv_head in E.
  assert (ND : ~ is_digit "_"%char) by (intros Q; unfold is_digit, digits in Q; cbn in Q; repeat (destruct Q as [Q|Q]; [discriminate Q|]); destruct Q).
  assert (NS : ~ is_digit "/"%char) by (intros Q; unfold is_digit, digits in Q; cbn in Q; repeat (destruct Q as [Q|Q]; [discriminate Q|]); destruct Q).
  change (str "/bbobexp_f") with ("/"%char :: str "bbobexp_f") in E. cbn [app] in E.
  apply (split_digits (dec f) (dec f') "/"%char "/"%char) in E as [Ef E]; auto using (dec_digits dec Hdec).
  apply (dec_inj dec Hdec) in Ef; auto. subst f'.
  change ("/"%char :: ?t) with (str "/" ++ t) in E.
  apply (f_equal (@tl ascii)) in E. cbn [tl] in E. do 3 apply app_inv_head in E.
  change (str "_i") with ("_"%char :: str "i") in E. cbn [app] in E.
  apply (split_digits (dec n) (dec n') "_"%char "_"%char) in E as [En E]; auto using (dec_digits dec Hdec).
  apply (dec_inj dec Hdec) in En; auto. subst n'. split; [reflexivity|].
  apply (f_equal (@tl ascii)) in E. cbn [tl] in E. change ("i"%char :: ?t) with (str "i" ++ t) in E.
  apply (f_equal (@tl ascii)) in E. cbn [tl] in E. apply app_inv_head in E. apply extension_inj. exact E.
Qed.

(** ** The texts with one more problem *)
Lemma runs_of_snoc : forall k rs r, observed r = true -> runs_of k (rs ++ [r]) = runs_of k rs ++ if same_key (key r) k then [r] else [].
Proof.
  clear Hfits Hdec. intros k rs r O. unfold runs_of. rewrite filter_app. cbn [filter]. rewrite O. cbn [andb].
  destruct (same_key (key r) k); reflexivity.
Qed.

Lemma same_key_refl : forall k, same_key k k = true.
Proof. intros k. apply same_key_eq. reflexivity. Qed.
Lemma same_key_neq : forall k k', k <> k' -> same_key k k' = false.
Proof. intros k k' N. destruct (same_key k k') eqn:E; [|reflexivity]. apply same_key_eq in E. contradiction. Qed.

Lemma runs_of_other : forall k rs r, observed r = true -> key r <> k -> runs_of k (rs ++ [r]) = runs_of k rs.
Proof. intros k rs r O N. rewrite runs_of_snoc by exact O. rewrite same_key_neq by exact N. apply app_nil_r. Qed.

Lemma dims_of_In : forall f n rs, In n (dims_of f rs) <-> runs_of (f, n) rs <> [].
Proof.
  clear Hfits Hdec. intros f n rs. unfold dims_of. rewrite firsts_In, in_map_iff. split.
  - intros [[r [En I]] _]. apply filter_In in I as [I E]. apply andb_prop in E as [O E]. apply N.eqb_eq in E.
    assert (J : In r (runs_of (f, n) rs)).
    { unfold runs_of. apply filter_In. split; [exact I|]. rewrite O. cbn [andb]. apply same_key_eq. unfold key. congruence. }
    destruct (runs_of (f, n) rs); [destruct J|discriminate].
  - intros N. split; [|cbn; tauto]. destruct (runs_of (f, n) rs) as [|r l] eqn:E; [now destruct N|].
    assert (J : In r (runs_of (f, n) rs)) by (rewrite E; left; reflexivity).
    unfold runs_of in J. apply filter_In in J as [J P]. apply andb_prop in P as [O P]. apply same_key_eq in P.
    exists r. split; [unfold key in P; congruence|]. apply filter_In. split; [exact J|]. rewrite O. cbn [andb].
    apply N.eqb_eq. unfold key in P. congruence.
Qed.

Lemma dims_of_snoc : forall f rs r, observed r = true ->
  dims_of f (rs ++ [r]) = dims_of f rs ++ if (function r =? f)%N then match runs_of (key r) rs with [] => [dimension r] | _ => [] end else [].
Proof.
  clear Hfits Hdec. intros f rs r O. unfold dims_of at 1. rewrite filter_app, map_app. cbn [filter]. rewrite O. cbn [andb].
  destruct (N.eqb_spec (function r) f) as [Ef|Nf].
  - cbn [map]. rewrite firsts_snoc. cbn [app]. fold (dims_of f rs). f_equal.
    set (m := map dimension (filter (fun q => observed q && (function q =? f)%N) rs)).
    assert (K : existsb (N.eqb (dimension r)) m = true <-> runs_of (key r) rs <> []).
    { rewrite existsb_In. replace (key r) with (f, dimension r) by (unfold key; congruence). rewrite <- dims_of_In.
      unfold dims_of. fold m. rewrite firsts_In. cbn [In]. tauto. }
    destruct (existsb (N.eqb (dimension r)) m), (runs_of (key r) rs); try reflexivity.
    + exfalso. apply (proj1 K); reflexivity.
    + exfalso. assert (false = true) by (apply K; discriminate). discriminate.
  - cbn [map]. rewrite !app_nil_r. reflexivity.
Qed.

Lemma old_lines_other : forall i k rs r, observed r = true -> key r <> k ->
  old_lines dec e1 version o i k (rs ++ [r]) = old_lines dec e1 version o i k rs.
Proof. clear Hfits Hdec. intros i k rs r O N. unfold old_lines. rewrite runs_of_other by assumption. reflexivity. Qed.

Lemma info_other : forall i f rs r, observed r = true -> function r <> f ->
  old_info_text dec e1 version o i f (rs ++ [r]) = old_info_text dec e1 version o i f rs.
Proof.
  clear Hfits Hdec. intros i f rs r O N. unfold old_info_text. rewrite dims_of_snoc by exact O.
  destruct (N.eqb_spec (function r) f) as [E|_]; [contradiction|]. rewrite app_nil_r. destruct (dims_of f rs) as [|a l]; [reflexivity|].
  do 3 f_equal. apply map_ext. intros x. apply old_lines_other; [exact O|]. unfold key. congruence.
Qed.

Lemma old_lines_nonempty : forall i k rs, runs_of k rs <> [] -> old_lines dec e1 version o i k rs <> [].
Proof. clear Hfits Hdec. intros i k rs N. unfold old_lines. destruct (runs_of k rs); [now destruct N|discriminate]. Qed.

Lemma info_new : forall i rs r, observed r = true -> runs_of (key r) rs = [] ->
  old_info_text dec e1 version o i (function r) (rs ++ [r]) =
  Some (match old_info_text dec e1 version o i (function r) rs with Some t => t ++ [NL] | None => [] end ++
        old_first_line dec version o r ++ NL :: str "%" ++ NL :: nm i (key r) ++ str ".dat" ++ entry dec e1 r).
Proof.
  clear Hfits Hdec. intros i rs r O N. unfold old_info_text. rewrite dims_of_snoc by exact O. rewrite N.eqb_refl, N.
  assert (L : old_lines dec e1 version o i (function r, dimension r) (rs ++ [r]) =
    [old_first_line dec version o r; str "%"; nm i (key r) ++ str ".dat" ++ entry dec e1 r]).
  { unfold old_lines. rewrite runs_of_snoc by exact O. change (function r, dimension r) with (key r). rewrite N, same_key_refl.
    cbn [app map concat]. rewrite app_nil_r. reflexivity. }
  assert (M : map (fun n => old_lines dec e1 version o i (function r, n) (rs ++ [r])) (dims_of (function r) rs) =
    map (fun n => old_lines dec e1 version o i (function r, n) rs) (dims_of (function r) rs)).
  { apply map_ext_in. intros x I. apply old_lines_other; [exact O|]. intros E. apply dims_of_In in I. apply I. rewrite <- E. exact N. }
  assert (K : forall x, In x (dims_of (function r) rs) -> old_lines dec e1 version o i (function r, x) rs <> []).
  { intros x I. apply old_lines_nonempty. apply dims_of_In. exact I. }
  destruct (dims_of (function r) rs) as [|a l].
  - cbn [app map concat]. rewrite L. reflexivity.
  - set (al := a :: l) in *. change (match al ++ [dimension r] with [] => None | p :: l0 => Some (unlines (concat (map (fun n => old_lines dec e1 version o i (function r, n) (rs ++ [r])) (p :: l0)))) end)
      with (Some (unlines (concat (map (fun n => old_lines dec e1 version o i (function r, n) (rs ++ [r])) (al ++ [dimension r]))))).
    f_equal. rewrite map_app, concat_app, M. cbn [map concat]. rewrite app_nil_r, L.
    rewrite unlines_app; [|intros Z; apply (K a); [left; reflexivity|]; subst al; cbn [map concat] in Z; apply app_eq_nil in Z; tauto|discriminate].
    subst al. cbv iota. rewrite <- app_assoc. reflexivity.
Qed.

Lemma concat_snoc : forall (A : Type) (l : list (list A)) x, concat (l ++ [x]) = concat l ++ x.
Proof. intros A l x. rewrite concat_app. cbn [concat]. rewrite app_nil_r. reflexivity. Qed.

Lemma info_more : forall i rs r m, observed r = true -> dims_of (function r) rs = m ++ [dimension r] ->
  exists t, old_info_text dec e1 version o i (function r) rs = Some t /\
  old_info_text dec e1 version o i (function r) (rs ++ [r]) = Some (t ++ entry dec e1 r).
Proof.
  clear Hfits Hdec. intros i rs r m O D. unfold old_info_text. rewrite dims_of_snoc by exact O. rewrite N.eqb_refl.
  assert (N : runs_of (key r) rs <> []) by (apply dims_of_In; rewrite D; apply in_app_iff; right; left; reflexivity).
  assert (ND : ~ In (dimension r) m).
  { pose proof (firsts_NoDup (map dimension (filter (fun q => observed q && (function q =? function r)%N) rs)) []) as Q.
    fold (dims_of (function r) rs) in Q. rewrite D in Q. apply NoDup_remove_2 in Q. rewrite app_nil_r in Q. exact Q. }
  replace (match runs_of (key r) rs with [] => [dimension r] | _ :: _ => [] end) with (@nil BinNums.N) by (destruct (runs_of (key r) rs); [now destruct N|reflexivity]).
  rewrite app_nil_r, D.
  assert (S : forall l f, match m ++ [dimension r] with [] => None | p :: l0 => Some (unlines (concat (map f (p :: l0)))) end =
     Some (unlines (concat (map f (m ++ [dimension r])))) /\ l = l :> nat) by (intros; destruct m; auto).
  rewrite !(proj1 (S 0 _)). clear S. eexists. split; [reflexivity|]. f_equal.
  rewrite !map_app. cbn [map]. rewrite !concat_snoc.
  replace (map (fun n => old_lines dec e1 version o i (function r, n) (rs ++ [r])) m) with
    (map (fun n => old_lines dec e1 version o i (function r, n) rs) m).
  2: { apply map_ext_in. intros x I. symmetry. apply old_lines_other; [exact O|]. intros E. apply ND. unfold key in E. congruence. }
  set (c := concat (map _ m)). clearbody c.
  unfold old_lines. change (function r, dimension r) with (key r). rewrite runs_of_snoc, same_key_refl by exact O.
  destruct (runs_of (key r) rs) as [|q l]; [now destruct N|]. cbn [app]. change (q :: l ++ [r]) with ((q :: l) ++ [r]).
  rewrite map_app, concat_app. set (x := concat (map (entry dec e1) (q :: l))). cbn [map concat]. rewrite app_nil_r.
  set (a := old_first_line dec version o q). set (b := str "%"). set (z := nm i (key r)). clearbody a b x z.
  replace (z ++ str ".dat" ++ x ++ entry dec e1 r) with ((z ++ str ".dat" ++ x) ++ entry dec e1 r) by (rewrite <- !app_assoc; reflexivity).
  set (y := z ++ str ".dat" ++ x). clearbody y.
  change (c ++ [a; b; y ++ entry dec e1 r]) with (c ++ [a; b] ++ [y ++ entry dec e1 r]). change (c ++ [a; b; y]) with (c ++ [a; b] ++ [y]).
  rewrite !(app_assoc c). apply unlines_last.
Qed.

(** ** The files with one more problem *)
Notation adds := (old_adds dec e12 e1 e9 e4 version o).

Lemma recorded_step : forall i rs r d0 d d' start nl, Forall ordinary (rs ++ [r]) -> observed r = true ->
  recorded i rs d0 d -> adds i start nl r d d' ->
  (if start then runs_of (key r) rs = [] /\ nl = exists_file d (info i (function r))
   else exists m, dims_of (function r) rs = m ++ [dimension r]) ->
  recorded i (rs ++ [r]) d0 d'.
Proof.
  intros i rs r d0 d d' start nl Ord O (R1 & R2 & R3) (A1 & A2 & A3) C.
  apply Forall_app in Ord as [Ord Or]. inversion Or as [|? ? Hr _]; subst. destruct Hr as [(Hf & Hd & _) _].
  assert (Sr : small (key r)) by (split; assumption).
  split; [|split].
  - intros f F. destruct (N.eq_dec (function r) f) as [<-|Nf].
    + rewrite A1. destruct start.
      * destruct C as [C ->]. rewrite info_new by assumption. f_equal. unfold old, old_opening, exists_file. rewrite R1 by exact F.
        destruct (old_info_text dec e1 version o i (function r) rs) as [t|]; rewrite <- ?app_assoc; cbn [app]; rewrite <- ?app_assoc; cbn [app]; rewrite <- ?app_assoc; reflexivity.
      * destruct C as [m C]. destruct (info_more i rs r m O C) as (t & T1 & T2). rewrite T2. unfold old. rewrite R1 by exact F. rewrite T1. reflexivity.
    + rewrite info_other by assumption. rewrite <- R1 by exact F. apply A3.
      * intros E. apply Nf. symmetry. eapply old_info_inj; [exact F|exact Hf|exact E].
      * intros k _. apply old_info_not_data.
  - intros k e K1 K2 E. destruct (same_key (key r) k) eqn:Ek.
    + apply same_key_eq in Ek. subst k. rewrite A2 by exact E. unfold old_data_text. rewrite runs_of_snoc, same_key_refl by exact O.
      unfold old. rewrite R2 by assumption. unfold old_data_text. destruct (runs_of (key r) rs) as [|q l].
      * cbn [app map concat]. rewrite app_nil_r. reflexivity.
      * cbn [app]. change (q :: l ++ [r]) with ((q :: l) ++ [r]). rewrite map_app, concat_app. cbn [map concat]. rewrite app_nil_r. reflexivity.
    + assert (Nk : key r <> k) by (intros Q; apply same_key_eq in Q; congruence).
      unfold old_data_text. rewrite runs_of_other by assumption. fold (old_data_text e12 e9 e4 e k rs). rewrite <- R2 by assumption. apply A3.
      * intros Q. symmetry in Q. revert Q. apply old_info_not_data.
      * intros e' _ Q. apply old_name_inj in Q as [Q _]; [congruence|split; assumption|exact Sr].
  - intros p P1 P2. rewrite A3.
    + apply R3; intros; [apply P1|apply P2]; auto; apply in_app_iff; auto.
    + apply P1; [apply in_app_iff; right; left; reflexivity|exact O].
    + intros k K. apply P2; [apply in_app_iff; right; left; reflexivity|exact O|exact K].
Qed.

Lemma recorded_empty : forall i d, empty_folder o d -> recorded i [] d d.
Proof.
  clear Hfits Hdec. intros i d E. split; [|split].
  - intros f _. unfold old_info_path. apply E.
  - intros k e _ _ _. unfold data_path. apply E.
  - reflexivity.
Qed.

(** ** The static variables *)
Lemma scan_full : forall l n m, (forall x, In x l -> x <> 0 /\ x <> n)%N -> scan (l ++ repeat 0%N m) n = length l.
Proof.
  intros l n m. induction l as [|a l IH]; intros H; cbn [app scan length].
  - destruct m; reflexivity.
  - destruct (H a (or_introl eq_refl)) as [H0 H1]. apply N.eqb_neq in H0, H1. rewrite H0, H1. cbn [orb]. f_equal. apply IH.
    intros x I. apply H. right. exact I.
Qed.

Definition state (i : N) (rs : list run) (d0 : disk) (g : globals) (d : disk) : Prop :=
  exists l r, rs = l ++ [r] /\ is_open g = false /\ current_dim g = dimension r /\ current_fun g = function r /\ first_instance g = i /\
    dimensions g = all_dims rs ++ repeat 0%N (6 - length (all_dims rs)) /\
    (exists m, dims_of (function r) rs = m ++ [dimension r]) /\ recorded i rs d0 d.

Lemma all_dims_snoc : forall rs r, observed r = true ->
  all_dims (rs ++ [r]) = all_dims rs ++ if existsb (N.eqb (dimension r)) (map dimension (filter observed rs)) then [] else [dimension r].
Proof.
  clear Hfits Hdec. intros rs r O. unfold all_dims. rewrite filter_app, map_app. cbn [filter]. rewrite O. cbn [map]. apply firsts_snoc.
Qed.

Lemma filter_all : forall (A : Type) (p : A -> bool) l, Forall (fun x => p x = true) l -> filter p l = l.
Proof. intros A p l H. induction H as [|x l Hx _ IH]; [reflexivity|]. cbn [filter]. rewrite Hx, IH. reflexivity. Qed.

(** The first problem *)
Lemma first_step : forall r g d n diff f, ordinary r -> outcome r = Some (n, diff, f) -> ready g (dimension r) -> empty_folder o d ->
  exists nl dims,
  run1 g d r = (do d' <- writes dec e12 e1 e9 e4 version refused o (instance r) true nl r n diff f d; Ok (after r (instance r) dims, d')) /\
  nl = exists_file d (info (instance r) (function r)) /\ dims = dimension r :: repeat 0%N 5.
Proof.
  intros r g d n diff f Ord O (G & L & Fi & Cd & C) E.
  rewrite (run_eq dec Hdec e12 e1 e9 e4 version refused o Hfits g d r n diff f Ord O G Fi). cbv zeta.
  destruct Ord as [(Hf & Hd & Hp & Hi & _) [Pi _]].
  apply N.eqb_neq in Cd. unfold decide. rewrite Cd, andb_false_r. cbn [andb].
  assert (NE : forall i, exists_file d (info i (function r)) = false).
  { intros i. unfold exists_file, old_info_path. rewrite E. reflexivity. }
  rewrite !NE. cbn [andb].
  destruct C as [[F0 D]|H].
  - rewrite D. unfold the_first. rewrite F0. cbn [N.eqb repeat scan orb length nth]. change (0 <? 6) with true. cbn [andb].
    unfold store. change (0 <? length (repeat 0%N 6)) with true. cbn [firstn skipn app repeat bind length Nat.ltb Nat.leb].
    exists false, (dimension r :: repeat 0%N 5). auto.
  - destruct (dimensions g) as [|a l] eqn:Dg; [discriminate L|]. cbn [hd] in H. subst a. cbn [scan]. rewrite N.eqb_refl, orb_true_r.
    rewrite L. cbn [nth]. assert (Z : (dimension r =? 0)%N = false) by (apply N.eqb_neq; lia). rewrite Z, andb_false_r.
    unfold store. change (0 <? 6) with true. cbn [repeat length]. change (0 <? 6) with true. cbn [firstn skipn app bind].
    exists false, (dimension r :: repeat 0%N 5). auto.
Qed.

(** Later problems *)
Lemma next_step : forall i rs r g d0 d n diff f, Forall ordinary (rs ++ [r]) -> Forall (fun r => observed r = true) (rs ++ [r]) ->
  outcome r = Some (n, diff, f) -> (0 < i < 2 ^ 64)%N -> in_order (rs ++ [r]) -> length (all_dims (rs ++ [r])) <= 6 -> state i rs d0 g d ->
  exists start nl dims,
  run1 g d r = (do d' <- writes dec e12 e1 e9 e4 version refused o i start nl r n diff f d; Ok (after r i dims, d')) /\
  (if start then runs_of (key r) rs = [] /\ nl = exists_file d (info i (function r))
   else exists m, dims_of (function r) rs = m ++ [dimension r]) /\
  dims = all_dims (rs ++ [r]) ++ repeat 0%N (6 - length (all_dims (rs ++ [r]))).
Proof.
  intros i rs r g d0 d n diff f Ord Obs O Hi Io L6 (l & q & Ers & G & Cd & Cf & Fi & Dg & [m Dm] & Rec).
  pose proof (filter_all _ _ _ Obs) as FO. unfold in_order in Io. rewrite FO in Io.
  pose proof Ord as Ord'. apply Forall_app in Ord' as [Ord1 Or]. inversion Or as [|? ? Hr _]; subst. clear Or.
  pose proof Obs as Obs'. apply Forall_app in Obs' as [Obs1 Obr]. inversion Obr as [|? ? Or _]; subst. clear Obr.
  pose proof (filter_all _ _ _ Obs1) as FO1.
  rewrite (run_eq dec Hdec e12 e1 e9 e4 version refused o Hfits g d r n diff f Hr O G) by lia. cbv zeta.
  assert (TF : the_first g r = first_instance g).
  { unfold the_first. destruct (N.eqb_spec (first_instance g) 0); [lia|reflexivity]. }
  rewrite TF. set (i := first_instance g) in *. set (rs := l ++ [q]) in *.
  assert (Tmp : exists_file d (info i (function r)) = match dims_of (function r) rs with [] => false | _ => true end).
  { unfold exists_file. destruct Rec as [R1 _]. rewrite R1 by apply Hr. unfold old_info_text. destruct (dims_of (function r) rs); reflexivity. }
  (* an earlier problem with the dimension or key of r makes the last one have it, too *)
  assert (Far : forall x, In x rs -> (dimension x = dimension r -> dimension q = dimension r) /\ (key x = key r -> key q = key r)).
  { intros x I. unfold rs in I. apply in_app_iff in I as [I|[->|[]]]; [|tauto]. apply in_split in I as (a & b & ->).
    assert (Sp : rs ++ [r] = a ++ x :: (b ++ [q]) ++ r :: []) by (unfold rs; rewrite <- !app_assoc; reflexivity).
    destruct (Io a x (b ++ [q]) r [] Sp) as [I1 I2].
    split; intros E; [apply (I1 E)|apply (I2 E)]; apply in_app_iff; right; left; reflexivity. }
  destruct (N.eq_dec (dimension q) (dimension r)) as [Ed|Nd].
  - assert (AD : all_dims (rs ++ [r]) = all_dims rs).
    { rewrite all_dims_snoc by exact Or. rewrite FO1. replace (existsb _ _) with true; [apply app_nil_r|]. symmetry. apply existsb_In.
      rewrite <- Ed. apply in_map. unfold rs. apply in_app_iff. right. left. reflexivity. }
    destruct (N.eq_dec (function q) (function r)) as [Ef|Nf].
    + exists false, false, (dimensions g). rewrite Ef, Ed in Dm.
      assert (Tt : exists_file d (info i (function r)) = true) by (rewrite Tmp, Dm; destruct m; reflexivity).
      rewrite Tt, Cd, Cf, Ed, Ef, !N.eqb_refl. cbn [andb].
      split; [reflexivity|split; [|rewrite AD; exact Dg]]. exists m. exact Dm.
    + exists true, (exists_file d (info i (function r))), (dimensions g).
      assert (E2 : (current_fun g =? function r)%N = false) by (apply N.eqb_neq; congruence). rewrite E2, andb_false_r.
      unfold decide. rewrite Cd, Ed, N.eqb_refl, E2. cbn [bind negb]. rewrite andb_true_r.
      split; [reflexivity|split; [|rewrite AD; exact Dg]]. split; [|reflexivity].
      destruct (runs_of (key r) rs) as [|x k] eqn:K; [reflexivity|]. exfalso.
      assert (J : In x (runs_of (key r) rs)) by (rewrite K; left; reflexivity). unfold runs_of in J.
      apply filter_In in J as [J J2]. apply andb_prop in J2 as [_ J2]. apply same_key_eq in J2.
      apply (Far x J) in J2. apply Nf. unfold key in J2. congruence.
  - assert (NI : ~ In (dimension r) (map dimension rs)).
    { intros I. apply in_map_iff in I as [x [E I]]. apply Nd. apply (Far x I). exact E. }
    assert (AD : all_dims (rs ++ [r]) = all_dims rs ++ [dimension r]).
    { rewrite all_dims_snoc by exact Or. rewrite FO1. apply existsb_not in NI. rewrite NI. reflexivity. }
    assert (L5 : length (all_dims rs) <= 5) by (rewrite AD, app_length in L6; cbn [length] in L6; lia).
    assert (E2 : (current_dim g =? dimension r)%N = false) by (apply N.eqb_neq; congruence). rewrite E2, andb_false_r. cbn [andb].
    unfold decide. rewrite E2, Dg. cbv zeta.
    rewrite scan_full.
    2: { intros x I. unfold all_dims in I. apply firsts_In in I as [I _]. rewrite FO1 in I. split; [|congruence].
         apply in_map_iff in I as [y [<- I]]. rewrite Forall_forall in Ord1. destruct (Ord1 y I) as [(_ & _ & P & _) _]. lia. }
    rewrite app_length, repeat_length. replace (length (all_dims rs) + (6 - length (all_dims rs))) with 6 by lia.
    destruct (Nat.ltb_spec (length (all_dims rs)) 6) as [_|]; [|lia].
    rewrite app_nth2, Nat.sub_diag by lia.
    replace (6 - length (all_dims rs)) with (S (5 - length (all_dims rs))) by lia. cbn [repeat nth]. rewrite N.eqb_refl. cbn [andb].
    unfold store. rewrite app_length. cbn [length]. rewrite repeat_length. destruct (Nat.ltb_spec (length (all_dims rs)) (length (all_dims rs) + S (5 - length (all_dims rs)))) as [_|]; [|lia].
    cbn [bind]. exists true, (exists_file d (info i (function r))). eexists. split; [rewrite andb_true_r; reflexivity|]. split.
    + split; [|reflexivity]. destruct (runs_of (key r) rs) as [|x k] eqn:K; [reflexivity|]. exfalso.
      assert (J : In x (runs_of (key r) rs)) by (rewrite K; left; reflexivity). unfold runs_of in J.
      apply filter_In in J as [J J2]. apply andb_prop in J2 as [_ J2]. apply same_key_eq in J2.
      apply (Far x J) in J2. apply Nd. unfold key in J2. congruence.
    + rewrite AD, app_length. cbn [length]. replace (6 - (length (all_dims rs) + 1)) with (5 - length (all_dims rs)) by lia.
      rewrite firstn_app, Nat.sub_diag, firstn_all. cbn [firstn]. rewrite app_nil_r. rewrite <- app_assoc. cbn [app]. f_equal. f_equal.
      replace (S (length (all_dims rs))) with (length (all_dims rs ++ [0%N])) by (rewrite app_length; cbn [length]; lia).
      replace (all_dims rs ++ 0%N :: repeat 0%N (5 - length (all_dims rs))) with ((all_dims rs ++ [0%N]) ++ repeat 0%N (5 - length (all_dims rs))) by (rewrite <- app_assoc; reflexivity).
      rewrite skipn_app, Nat.sub_diag, skipn_all. reflexivity.
Qed.

(** ** Experiments *)
Lemma in_order_prefix : forall a b, in_order (a ++ b) -> in_order a.
Proof.
  clear Hfits Hdec. intros a b H u x v y w E. apply (H u x v y (w ++ filter observed b)). rewrite filter_app, E.
  rewrite <- app_assoc. cbn [app]. rewrite <- app_assoc. reflexivity.
Qed.

Lemma all_dims_prefix : forall a b, length (all_dims a) <= length (all_dims (a ++ b)).
Proof. clear Hfits Hdec. intros a b. unfold all_dims. rewrite filter_app, map_app. apply firsts_length_app. Qed.

Lemma state_step : forall i rs r g d0 d, Forall ordinary (rs ++ [r]) -> Forall (fun r => observed r = true) (rs ++ [r]) ->
  (0 < i < 2 ^ 64)%N -> in_order (rs ++ [r]) -> length (all_dims (rs ++ [r])) <= 6 -> state i rs d0 g d ->
  (forall g' d', run1 g d r = Ok (g', d') -> state i (rs ++ [r]) d0 g' d') /\
  ((forall d p, refused d p = false) -> exists x, run1 g d r = Ok x).
Proof.
  intros i rs r g d0 d Ord Obs Hi Io L6 St. pose proof Obs as Obs'. apply Forall_app in Obs' as [_ Ob]. inversion Ob as [|? ? Or _]; subst.
  pose proof Or as Or'. unfold observed in Or'. destruct (outcome r) as [[[n diff] f]|] eqn:O; [|discriminate].
  destruct (next_step i rs r g d0 d n diff f Ord Obs O Hi Io L6 St) as (start & nl & dims & E & C & D). rewrite E. split.
  - intros g' d' H. apply bind_Ok in H as [x [W H]].
    assert (X : forall (a b : globals) (x y : disk), Ok (a, x) = Ok (b, y) -> a = b /\ x = y) by (intros; split; congruence).
    apply X in H as [<- <-]. clear X. apply writes_ok in W; [|exact O]. exists rs, r. split; [reflexivity|].
    unfold after. cbn [is_open current_dim current_fun first_instance dimensions].
    split; [reflexivity|]. split; [reflexivity|]. split; [reflexivity|]. split; [reflexivity|]. split; [exact D|]. split.
    + rewrite dims_of_snoc by exact Or. rewrite N.eqb_refl. destruct start.
      * destruct C as [-> _]. eauto.
      * destruct C as [m C]. assert (K : runs_of (key r) rs <> []) by (apply dims_of_In; rewrite C; apply in_app_iff; right; left; reflexivity).
        exists m. rewrite C. destruct (runs_of (key r) rs); [now destruct K|]. apply app_nil_r.
    + destruct St as (? & ? & _ & _ & _ & _ & _ & _ & _ & Rec). eapply recorded_step; eauto.
  - intros NR. assert (Q : forall d p, old_open_file refused d p = Ok (append d p [])) by (intros; unfold old_open_file; rewrite NR; reflexivity).
    unfold writes. cbv zeta. do 4 (rewrite Q; cbn [bind]). eauto.
Qed.

Lemma first_state : forall r g d, ordinary r -> observed r = true -> ready g (dimension r) -> empty_folder o d ->
  (forall g' d', run1 g d r = Ok (g', d') -> state (instance r) [r] d g' d') /\
  ((forall d p, refused d p = false) -> exists x, run1 g d r = Ok x).
Proof.
  intros r g d Ord Or Rd E. pose proof Or as Or'. unfold observed in Or'. destruct (outcome r) as [[[n diff] f]|] eqn:O; [|discriminate].
  destruct (first_step r g d n diff f Ord O Rd E) as (nl & dims & Eq & C & D). rewrite Eq. split.
  - intros g' d' H. apply bind_Ok in H as [x [W H]].
    assert (X : forall (a b : globals) (x y : disk), Ok (a, x) = Ok (b, y) -> a = b /\ x = y) by (intros; split; congruence).
    apply X in H as [<- <-]. clear X. apply writes_ok in W; [|exact O]. exists [], r. split; [reflexivity|].
    unfold after. cbn [is_open current_dim current_fun first_instance dimensions].
    split; [reflexivity|]. split; [reflexivity|]. split; [reflexivity|]. split; [reflexivity|].
    assert (A : all_dims [r] = [dimension r]) by (unfold all_dims; cbn [filter]; rewrite Or; reflexivity).
    split; [rewrite A; exact D|]. split.
    + exists []. change [r] with ([] ++ [r]). rewrite dims_of_snoc by exact Or. rewrite N.eqb_refl. reflexivity.
    + change [r] with ([] ++ [r]). eapply (recorded_step _ [] r d d _ true nl); [constructor; [exact Ord|constructor]|exact Or|apply recorded_empty; exact E|exact W|].
      cbv iota. split; [reflexivity|exact C].
  - intros NR. assert (Q : forall d p, old_open_file refused d p = Ok (append d p [])) by (intros; unfold old_open_file; rewrite NR; reflexivity).
    unfold writes. cbv zeta. do 4 (rewrite Q; cbn [bind]). eauto.
Qed.

Lemma campaign_from : forall i d0, (0 < i < 2 ^ 64)%N -> forall rest rs g d, Forall ordinary (rs ++ rest) -> Forall (fun r => observed r = true) (rs ++ rest) ->
  in_order (rs ++ rest) -> length (all_dims (rs ++ rest)) <= 6 -> state i rs d0 g d ->
  (forall g' d', campaign g d rest = Ok (g', d') -> state i (rs ++ rest) d0 g' d') /\
  ((forall d p, refused d p = false) -> exists x, campaign g d rest = Ok x).
Proof.
  intros i d0 Hi rest. induction rest as [|r rest IH]; intros rs g d Ord Obs Io L St; cbn [old_campaign].
  - rewrite app_nil_r. split; [|eauto]. intros g' d' H.
    assert (X : forall (a b : globals) (x y : disk), Ok (a, x) = Ok (b, y) -> a = b /\ x = y) by (intros; split; congruence).
    apply X in H as [<- <-]. exact St.
  - assert (As : rs ++ r :: rest = (rs ++ [r]) ++ rest) by (rewrite <- app_assoc; reflexivity). rewrite As in *.
    destruct (state_step i rs r g d0 d) as [S1 S2]; auto.
    + apply Forall_app in Ord; tauto.
    + apply Forall_app in Obs; tauto.
    + apply in_order_prefix in Io. exact Io.
    + pose proof (all_dims_prefix (rs ++ [r]) rest). lia.
    + split.
      * intros g' d' H. apply bind_Ok in H as [[g1 d1] [E H]]. specialize (S1 g1 d1 E). destruct (IH (rs ++ [r]) g1 d1) as [I1 _]; auto.
      * intros NR. destruct (S2 NR) as [[g1 d1] E]. rewrite E. cbn [bind]. specialize (S1 g1 d1 E). destruct (IH (rs ++ [r]) g1 d1) as [_ I2]; auto.
Qed.

Theorem old_files : forall rs r0 rest g d, Forall ordinary rs -> in_order rs -> length (all_dims rs) <= 6 -> empty_folder o d ->
  filter observed rs = r0 :: rest -> ready g (dimension r0) ->
  (forall g' d', campaign g d rs = Ok (g', d') -> recorded (instance r0) rs d d' /\
     (dimension (last rest r0) <> dimension r0 -> ready g' (dimension r0))) /\
  ((forall d p, refused d p = false) -> exists x, campaign g d rs = Ok x).
Proof.
  intros rs r0 rest g d Ord Io L E F Rd.
  assert (Ord' : Forall ordinary (r0 :: rest)).
  { rewrite <- F. apply Forall_forall. intros x I. apply filter_In in I as [I _]. rewrite Forall_forall in Ord. auto. }
  assert (Obs : Forall (fun r => observed r = true) (r0 :: rest)).
  { rewrite <- F. apply Forall_forall. intros x I. apply filter_In in I. tauto. }
  assert (Io' : in_order (r0 :: rest)) by (intros u x v y w Q; apply (Io u x v y w); rewrite <- F, filter_idem in Q; exact Q).
  assert (L' : length (all_dims (r0 :: rest)) <= 6) by (rewrite <- F; unfold all_dims; rewrite filter_idem; exact L).
  rewrite (campaign_observed rs g d) by apply Rd. rewrite F. cbn [old_campaign].
  pose proof Ord' as Q. inversion Q as [|? ? Or0 Orest]; subst. pose proof Obs as Q2. inversion Q2 as [|? ? Ob0 _]; subst.
  destruct (first_state r0 g d Or0 Ob0 Rd E) as [S1 S2].
  assert (Hi : (0 < instance r0 < 2 ^ 64)%N) by (destruct Or0 as [(_ & _ & _ & H & _) [H1 _]]; split; assumption).
  split.
  - intros g' d' H. apply bind_Ok in H as [[g1 d1] [E1 H]]. specialize (S1 g1 d1 E1).
    destruct (campaign_from (instance r0) d Hi rest [r0] g1 d1) as [C1 _]; auto. specialize (C1 g' d' H). cbn [app] in C1.
    destruct C1 as (l & q & Eq & G & Cd & Cf & Fi & Dg & _ & Rec). split; [apply recorded_observed; rewrite F; exact Rec|].
    intros Nd. assert (Eqq : q = last rest r0).
    { destruct (snoc_cases _ rest) as [->|(a & z & ->)].
      - destruct l as [|? [|? ?]]; cbn in Eq; try discriminate. cbn. congruence.
      - rewrite last_last. change (r0 :: a ++ [z]) with ((r0 :: a) ++ [z]) in Eq. apply app_inj_tail in Eq. symmetry. tauto. }
    subst q. unfold ready. split; [exact G|]. split; [rewrite Dg, app_length, repeat_length; lia|].
    split; [lia|]. split; [congruence|]. right. rewrite Dg. unfold all_dims. cbn [filter]. rewrite Ob0. reflexivity.
  - intros NR. destruct (S2 NR) as [[g1 d1] E1]. rewrite E1. cbn [bind]. specialize (S1 g1 d1 E1).
    destruct (campaign_from (instance r0) d Hi rest [r0] g1 d1) as [_ C2]; auto.
Qed.

(** ** Nothing is lost *)
Lemma extends_refl : forall d, extends d d.
Proof. intros d p t H. exists []. rewrite app_nil_r. exact H. Qed.
Lemma extends_trans : forall a b c, extends a b -> extends b c -> extends a c.
Proof. intros a b c H K p t E. destruct (H p t E) as [u U]. destruct (K p _ U) as [v V]. exists (u ++ v). rewrite app_assoc. exact V. Qed.
Lemma extends_append : forall d0 d p t, extends d0 d -> extends d0 (append d p t).
Proof. intros d0 d p t H. eapply extends_trans; [exact H|]. intros q u E. apply append_extends. exact E. Qed.
Lemma extends_open : forall d0 d p d', extends d0 d -> old_open_file refused d p = Ok d' -> extends d0 d'.
Proof. intros d0 d p d' H E. apply old_open_ok in E. subst d'. apply extends_append. exact H. Qed.

Lemma kept_data : forall d0 d n e p d', extends d0 d -> logger_bbob_old_open_dataFile refused o d n e = Ok (p, d') -> extends d0 d'.
Proof.
  clear Hfits Hdec. intros d0 d n e p d' H E. unfold logger_bbob_old_open_dataFile in E. apply bind_Ok in E as [x [_ E]]. apply bind_Ok in E as [d1 [E1 E]].
  assert (X : forall (a b : cstr) (x y : disk), Ok (a, x) = Ok (b, y) -> x = y) by (intros; congruence).
  apply X in E. subst d'. eapply extends_open; eauto.
Qed.

Lemma kept_index : forall d0 g r d fs p q c g1 d', extends d0 d ->
  logger_bbob_old_openIndexFile version refused o g r d fs p = Ok (q, c, g1, d') -> extends d0 d'.
Proof.
  clear Hfits Hdec. intros d0 g r d fs p q c g1 d' H E. unfold logger_bbob_old_openIndexFile in E. cbv zeta in E.
  do 7 (apply bind_Ok in E as [? [_ E]]).
  assert (X : forall (a b : cstr * cstr * globals) (x y : disk), Ok (a, x) = Ok (b, y) -> x = y) by (intros; congruence).
  match type of E with (if ?c then _ else _) = _ => destruct c end.
  - apply bind_Ok in E as [d1 [E1 E]]. apply X in E. subst d'. eapply extends_open; eauto.
  - apply bind_Ok in E as [[[[[nl path] fi] fc] dims] [_ E]]. apply bind_Ok in E as [d1 [E1 E]].
    do 2 (apply bind_Ok in E as [? [_ E]]). apply X in E. subst d'. do 3 apply extends_append.
    destruct (_ && _); [apply extends_append|]; eapply extends_open; eauto.
Qed.

Theorem old_kept : forall rs g d g' d', campaign g d rs = Ok (g', d') -> extends d d'.
Proof.
  clear Hfits Hdec.
  assert (X : forall (a b : globals) (x y : disk), Ok (a, x) = Ok (b, y) -> x = y) by (intros; congruence).
  induction rs as [|r rs IH]; intros g d g' d' H; cbn [old_campaign] in H.
  - apply X in H. subst d'. apply extends_refl.
  - apply bind_Ok in H as [[g1 d1] [E H]]. eapply extends_trans; [|eapply IH; exact H]. clear H IH.
    unfold old_run_problem in E. apply bind_Ok in E as [g0 [_ E]].
    destruct (outcome r) as [[[n diff] f]|]; [|apply X in E; subst d1; apply extends_refl].
    apply bind_Ok in E as [[[h g2] d2] [I E]]. cbv zeta in E. apply X in E. subst d1. do 3 apply extends_append.
    unfold logger_bbob_old_initialize in I. do 8 (apply bind_Ok in I as [? [_ I]]).
    apply bind_Ok in I as [[[[info0 c] g3] d3] [I1 I]]. apply kept_index with (d0 := d) in I1; [|apply extends_refl]. cbv zeta in I.
    do 2 (apply bind_Ok in I as [? [_ I]]).
    apply bind_Ok in I as [[p1 d4] [J1 I]]. apply kept_data with (d0 := d) in J1; [|apply extends_append; exact I1].
    apply bind_Ok in I as [[p2 d5] [J2 I]]. apply kept_data with (d0 := d) in J2; [|apply extends_append; exact J1].
    apply bind_Ok in I as [[p3 d6] [J3 I]]. apply kept_data with (d0 := d) in J3; [|apply extends_append; exact J2].
    assert (Y : forall (a b : old_opened * globals) (x y : disk), Ok (a, x) = Ok (b, y) -> x = y) by (intros; congruence).
    apply Y in I. subst d2. apply extends_append. exact J3.
Qed.
End Runs.
