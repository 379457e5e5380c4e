(** Proofs about the files of the bbob logger. *)
From Coq Require Import String List Arith NArith ZArith Ascii Bool Lia.
From Verif Require Import CBase StrModel OptModel FsModel FsSpec FsProofs IdModel IdSpec IdProofs DblModel BbobModel
  IndexModel IndexSpec.
Import ListNotations.
Local Notation length := List.length.
Local Open Scope nat_scope.

(** * Numerals *)

Lemma number_snoc : forall s c, number (s ++ [c]) = (10 * number s + number [c])%N.
Proof.
  intros s c. rewrite number_app. cbn [length]. change (10 ^ N.of_nat 1)%N with 10%N. lia.
Qed.

Lemma digit_value : forall c, is_digit c -> (number [c] < 10)%N /\ (number [c] = 0%N -> c = "0"%char).
Proof.
  intros c H. unfold is_digit, digits in H. cbn in H.
  repeat (destruct H as [<-|H]; [split; [reflexivity|intros E; (reflexivity || (vm_compute in E; discriminate E))]|]).
  destruct H.
Qed.

Lemma digit_inj : forall c c', is_digit c -> is_digit c' -> number [c] = number [c'] -> c = c'.
Proof.
  intros c c' H H'. unfold is_digit, digits in H, H'. cbn in H, H'.
  repeat (destruct H as [<-|H];
    [repeat (destruct H' as [<-|H']; [intros E; (reflexivity || (vm_compute in E; discriminate E))|]); destruct H'|]).
  destruct H.
Qed.

Lemma number_positive : forall s, Forall is_digit s -> s <> [] -> hd_error s <> Some "0"%char -> number s <> 0%N.
Proof.
  induction s as [|c s IH] using rev_ind; intros D N H; [now destruct N|].
  apply Forall_app in D as [D1 D2]. rewrite number_snoc. destruct s as [|a s].
  - cbn [app hd_error] in H. inversion D2 as [|? ? Dc _]; subst. intros E. apply H. f_equal. apply (proj2 (digit_value c Dc)).
    change (number []) with 0%N in E. lia.
  - specialize (IH D1 ltac:(discriminate) H). lia.
Qed.

Lemma numeral_unique : forall n s t, numeral 0 n s -> numeral 0 n t -> s = t.
Proof.
  intros n s t (V & D & E & _ & F) (V' & D' & E' & _ & F').
  assert (G : 1 < length s -> hd_error s <> Some "0"%char) by (intros; apply F; lia).
  assert (G' : 1 < length t -> hd_error t <> Some "0"%char) by (intros; apply F'; lia).
  clear F F'. rewrite <- V' in V. clear V' n. change (Forall is_digit s) in D. change (Forall is_digit t) in D'.
  revert t D' E' G' V. induction s as [|c s IH] using rev_ind; [now destruct E|]. intros t.
  destruct t as [|c' t _] using rev_ind; [intros ? []; reflexivity|]. intros D' E' G' V.
  apply Forall_app in D as [D1 D2]. apply Forall_app in D' as [D1' D2'].
  inversion D2 as [|? ? Dc _]; inversion D2' as [|? ? Dc' _]; subst.
  rewrite !number_snoc in V.
  destruct (digit_value c Dc) as [Lc _]. destruct (digit_value c' Dc') as [Lc' _].
  assert (number s = number t /\ number [c] = number [c']) as [Vs Vc] by lia.
  apply digit_inj in Vc; auto. subst c'. f_equal.
  destruct s as [|a s], t as [|b t]; auto.
  - exfalso. apply (number_positive (b :: t) D1'); [discriminate| |symmetry; exact Vs].
    exact (G' ltac:(rewrite app_length; cbn; lia)).
  - exfalso. apply (number_positive (a :: s) D1); [discriminate| |exact Vs].
    exact (G ltac:(rewrite app_length; cbn; lia)).
  - apply IH; auto; try discriminate.
    + intros L. apply G. rewrite app_length. lia.
    + intros L. apply G'. rewrite app_length. lia.
Qed.

Lemma numeral_inj : forall n m s, numeral 0 n s -> numeral 0 m s -> n = m.
Proof. intros n m s (V & _) (V' & _). congruence. Qed.

(** * The number of a file name *)

Lemma nth_digit : forall a b, a < 10 -> b < 10 ->
  nth a (str "0123456789") "0"%char = nth b (str "0123456789") "0"%char -> a = b.
Proof.
  intros a b H K E. do 10 (destruct a as [|a]; [do 10 (destruct b as [|b]; [(reflexivity || discriminate E)|]); lia|]). lia.
Qed.

Lemma decimal4_inj : forall j k, j <= N.to_nat 9999 -> k <= N.to_nat 9999 -> decimal4 j = decimal4 k -> j = k.
Proof.
  intros j k J K E. unfold decimal4 in E. cbn [map] in E.
  apply (f_equal (fun l => (nth 0 l "0"%char, nth 1 l "0"%char, nth 2 l "0"%char, nth 3 l "0"%char))) in E.
  cbn [nth] in E.
  assert (Q : forall a b c d a' b' c' d' : ascii, (a, b, c, d) = (a', b', c', d') -> a = a' /\ b = b' /\ c = c' /\ d = d')
    by (intros; repeat split; congruence).
  apply Q in E as (E1 & E2 & E3 & E4).
  apply nth_digit in E1; try (apply Nat.mod_upper_bound; discriminate).
  apply nth_digit in E2; try (apply Nat.mod_upper_bound; discriminate).
  apply nth_digit in E3; try (apply Nat.mod_upper_bound; discriminate).
  apply nth_digit in E4; try (apply Nat.mod_upper_bound; discriminate).
  assert (D : forall m, m <= N.to_nat 9999 -> m = m / 1000 mod 10 * 1000 + m / 100 mod 10 * 100 + m / 10 mod 10 * 10 + m mod 10).
  { intros m Hm.
    pose proof (Nat.div_mod m 10 ltac:(discriminate)). pose proof (Nat.div_mod (m / 10) 10 ltac:(discriminate)).
    pose proof (Nat.div_mod (m / 10 / 10) 10 ltac:(discriminate)).
    rewrite Nat.div_div in * by discriminate.
    change (10 * 10) with 100 in *.
    replace (m / 1000) with (m / 100 / 10) by (rewrite Nat.div_div by discriminate; reflexivity).
    assert (m / 100 / 10 < 10).
    { rewrite Nat.div_div by discriminate. apply Nat.div_lt_upper_bound; [discriminate|]. lia. }
    rewrite (Nat.mod_small (m / 100 / 10)) by assumption. lia. }
  rewrite (D j J), (D k K), E1, E2, E3, E4. reflexivity.
Qed.

(** * Files *)

Lemma append_same : forall d p t, append d p t p = Some (match d p with Some old => old ++ t | None => t end).
Proof. intros d p t. unfold append. rewrite (proj2 (streq_spec p p) eq_refl). reflexivity. Qed.

Lemma append_other : forall d p t q, q <> p -> append d p t q = d q.
Proof.
  intros d p t q H. unfold append. destruct (streq q p) eqn:E; [|reflexivity]. apply streq_spec in E. contradiction.
Qed.

Lemma append_extends : forall d p t q u, d q = Some u -> exists v, append d p t q = Some (u ++ v).
Proof.
  intros d p t q u H. destruct (streq q p) eqn:E.
  - apply streq_spec in E. subst q. rewrite append_same, H. eauto.
  - rewrite append_other; [exists []; rewrite app_nil_r; exact H|]. intros ->. rewrite (proj2 (streq_spec p p) eq_refl) in E. discriminate.
Qed.

Lemma max_value : COCO_PATH_MAX = N.to_nat 4096.
Proof. reflexivity. Qed.

Lemma cat_ok : forall dst src, length dst + length src < N.to_nat 4095 -> cat dst src = Ok (dst ++ src).
Proof.
  intros dst src H. unfold cat. rewrite max_value. rewrite strncat_ok by lia.
  rewrite firstn_all2 by (rewrite app_length; lia). reflexivity.
Qed.

Lemma checked_path_short : forall folder n e, folder <> [] -> length folder + length n + length e < N.to_nat 4090 ->
  checked_path folder n e = Ok (folder ++ str "/" ++ n ++ e).
Proof.
  intros folder n e F H. destruct (checked_path_fits folder n e) as (p & -> & ->); [lia|lia|]. f_equal.
  cbn [joined]. destruct folder as [|c folder]; [now destruct F|].
  rewrite firstn_all2; [reflexivity|]. cbn [length app] in *. rewrite !app_length. cbn [length]. rewrite app_length. lia.
Qed.

Lemma join_short : forall folder n, folder <> [] -> length folder + length n < N.to_nat 4090 ->
  coco_join_path (COCO_PATH_MAX + 2) (COCO_PATH_MAX + 2) [] [folder; n] = Ok (folder ++ str "/" ++ n).
Proof.
  intros folder n F H. rewrite max_value. rewrite join_path_total; [|lia|].
  - cbn [joined]. destruct folder; [now destruct F|]. reflexivity.
  - cbn [joined]. destruct folder as [|c folder]; [now destruct F|]. cbn [length app] in *. rewrite app_length. cbn [length]. lia.
Qed.

Lemma strdupf_ok : forall s, length s <= 441 -> FsModel.coco_strdupf s = Ok s.
Proof.
  intros s H. unfold FsModel.coco_strdupf. destruct (Nat.ltb_spec 443 (length s)); [lia|].
  destruct (Nat.ltb_spec 441 (length s)); [lia|]. reflexivity.
Qed.

Section Names.
Variable dec : N -> cstr.
Hypothesis Hdec : decimals dec.
Variable o : observer.

Lemma pl : forall n, (n < 2 ^ 64)%N -> print_lu 0 n = dec n.
Proof. intros n H. apply (numeral_unique n); [apply print_lu_numeral; exact H|apply Hdec; exact H]. Qed.

Lemma dec_digits : forall n, (n < 2 ^ 64)%N -> Forall is_digit (dec n).
Proof. intros n H. exact (proj1 (proj2 (Hdec n H))). Qed.

Lemma dec_length : forall n, (n < 2 ^ 64)%N -> length (dec n) <= 20.
Proof. intros n H. rewrite <- pl by exact H. apply print_lu_length. lia. Qed.

Lemma dec_inj : forall n m, (n < 2 ^ 64)%N -> (m < 2 ^ 64)%N -> dec n = dec m -> n = m.
Proof. intros n m H K E. eapply numeral_inj; [apply Hdec; exact H|]. rewrite E. apply Hdec. exact K. Qed.

Ltac nodigit := intros Q; unfold is_digit, digits in Q; cbn in Q; repeat (destruct Q as [Q|Q]; [discriminate Q|]); destruct Q.

Definition small (k : N * N) : Prop := (fst k < 2 ^ 64)%N /\ (snd k < 2 ^ 64)%N.

Lemma base_length : forall k, small k -> length (base_name dec k) <= 80.
Proof.
  intros k [H1 H2]. unfold base_name. rewrite !app_length. pose proof (dec_length _ H1). pose proof (dec_length _ H2).
  cbn [str list_ascii_of_string length]. lia.
Qed.

Lemma candidate_length : forall n k, length (candidate n k) <= length n + 5.
Proof.
  intros n [|k]; cbn [candidate]; [lia|]. unfold decimal4. rewrite !app_length. cbn [str list_ascii_of_string length map]. lia.
Qed.

(** Names and kinds are determined by the path of a data file. *)
Lemma candidate_inj : forall k k' j j' e e', small k -> small k' -> j <= N.to_nat 9999 -> j' <= N.to_nat 9999 ->
  candidate (base_name dec k) j ++ "."%char :: e = candidate (base_name dec k') j' ++ "."%char :: e' ->
  k = k' /\ j = j' /\ e = e'.
Proof.
  intros [f d] [f' d'] j j' e e' [Hf Hd] [Hf' Hd'] Hj Hj'. cbn [fst snd] in *.
  assert (C : forall k i, exists c t, candidate (base_name dec k) i ++ "."%char :: e =
     str "data_f" ++ dec (fst k) ++ "/"%char :: str "bbobexp_f" ++ dec (fst k) ++ "_"%char :: str "DIM" ++ dec (snd k) ++ c :: t /\
     ~ is_digit c /\ c :: t = match i with O => "."%char :: e | _ => str "-" ++ decimal4 i ++ "."%char :: e end).
  { intros k [|i]; [exists "."%char, e|exists "-"%char, (decimal4 (S i) ++ "."%char :: e)];
      (split; [|split; [nodigit|reflexivity]]); unfold base_name; cbn [candidate]; unfold base_name;
      rewrite <- ?app_assoc; reflexivity. }
  assert (C' : forall k i, exists c t, candidate (base_name dec k) i ++ "."%char :: e' =
     str "data_f" ++ dec (fst k) ++ "/"%char :: str "bbobexp_f" ++ dec (fst k) ++ "_"%char :: str "DIM" ++ dec (snd k) ++ c :: t /\
     ~ is_digit c /\ c :: t = match i with O => "."%char :: e' | _ => str "-" ++ decimal4 i ++ "."%char :: e' end).
  { intros k [|i]; [exists "."%char, e'|exists "-"%char, (decimal4 (S i) ++ "."%char :: e')];
      (split; [|split; [nodigit|reflexivity]]); unfold base_name; cbn [candidate]; unfold base_name;
      rewrite <- ?app_assoc; reflexivity. }
  destruct (C (f, d) j) as (c & t & -> & Dc & Ec). destruct (C' (f', d') j') as (c' & t' & -> & Dc' & Ec').
  cbn [fst snd]. intros E. apply app_inv_head in E.
  apply split_digits in E as [Ef E]; auto using dec_digits; try nodigit.
  apply dec_inj in Ef; auto. subst f'.
  apply (f_equal (@tl ascii)) in E. cbn [tl] in E. apply app_inv_head in E. apply app_inv_head in E.
  apply (f_equal (@tl ascii)) in E. cbn [tl] in E. apply app_inv_head in E.
  apply split_digits in E as [Ed E]; auto using dec_digits.
  apply dec_inj in Ed; auto. subst d'. split; [reflexivity|].
  rewrite Ec, Ec' in E. destruct j as [|j], j' as [|j'].
  - injection E as ->. auto.
  - exfalso. cbn in E. discriminate E.
  - exfalso. cbn in E. discriminate E.
  - apply app_inv_head in E. assert (L : decimal4 (S j) = decimal4 (S j') /\ "."%char :: e = "."%char :: e').
    { remember (S j) as m. remember (S j') as m'. unfold decimal4 in *. cbn [map app] in *.
      split; [|apply (f_equal (fun l => skipn 4 l)) in E; exact E].
      apply (f_equal (fun l => firstn 4 l)) in E. exact E. }
    destruct L as [L1 L2]. apply decimal4_inj in L1; auto. injection L2 as ->. auto.
Qed.

Lemma extension_inj : forall k k', extension k = extension k' -> k = k'.
Proof. intros [] []; intros E; (reflexivity || (vm_compute in E; discriminate E)). Qed.

Lemma data_path_inj : forall k k' j j' e e', small k -> small k' -> j <= N.to_nat 9999 -> j' <= N.to_nat 9999 ->
  data_path o (candidate (base_name dec k) j) e = data_path o (candidate (base_name dec k') j') e' ->
  k = k' /\ j = j' /\ e = e'.
Proof.
  intros k k' j j' e e' S S' J J' E. unfold data_path in E. apply app_inv_head in E. apply app_inv_head in E.
  assert (X : forall e, exists t, extension e = "."%char :: t) by (intros []; eexists; reflexivity).
  destruct (X e) as [t Et]. destruct (X e') as [t' Et']. rewrite Et, Et' in E.
  apply candidate_inj in E as (-> & -> & ->); auto. repeat split. apply extension_inj. congruence.
Qed.

Lemma info_path_inj : forall f f', (f < 2 ^ 64)%N -> (f' < 2 ^ 64)%N -> info_path dec o f = info_path dec o f' -> f = f'.
Proof.
  intros f f' H H' E. unfold info_path in E. do 4 apply app_inv_head in E.
  change (str ".info") with ("."%char :: str "info") in E.
  apply split_digits in E as [E _]; auto using dec_digits; try nodigit. apply dec_inj; auto.
Qed.

Lemma last_app : forall (A : Type) (s : list A) t a, t <> [] -> last (s ++ t) a = last t a.
Proof.
  intros A s t a H. induction s as [|x s IH]; [reflexivity|]. cbn [app last].
  destruct (s ++ t) eqn:E; [apply app_eq_nil in E as [_ E]; contradiction|exact IH].
Qed.

Lemma info_not_data : forall f n e, info_path dec o f <> data_path o n e.
Proof.
  intros f n e E. apply (f_equal (fun s => last s "a"%char)) in E.
  unfold info_path, data_path in E. rewrite !app_assoc in E. rewrite !last_app in E by (try destruct e; discriminate).
  destruct e; vm_compute in E; discriminate E.
Qed.
End Names.

Definition old (d : disk) (p : cstr) : cstr := match d p with Some t => t | None => [] end.

Lemma append_old : forall d p t, append d p t p = Some (old d p ++ t).
Proof. intros d p t. rewrite append_same. unfold old. destruct (d p); reflexivity. Qed.

Lemma old_append : forall d p t, old (append d p t) p = old d p ++ t.
Proof. intros d p t. unfold old at 1. rewrite append_old. reflexivity. Qed.

Lemma old_other : forall d p t q, q <> p -> old (append d p t) q = old d q.
Proof. intros d p t q H. unfold old. rewrite append_other by exact H. reflexivity. Qed.

Lemma open_ok : forall refused d p d', logger_bbob_open_file refused d p = Ok d' -> d' = append d p [].
Proof. intros refused d p d' H. unfold logger_bbob_open_file in H. destruct (refused d p); [discriminate|congruence]. Qed.

Section Runs.
Variable dec : N -> cstr.
Hypothesis Hdec : decimals dec.
Variables e12 e1 e9 e4 : double -> cstr.
Variable version : cstr.
Variable refused : disk -> cstr -> bool.
Variable o : observer.
Hypothesis Hfits : fits o.

Let folder_ne : result_folder o <> [].
Proof. apply Hfits. Qed.

(** What one observed problem adds *)
Definition opening (d : disk) (r : run) (name : cstr) : cstr :=
  (if exists_file d (info_path dec o (function r)) then [NL] else []) ++
  first_line dec version o r ++ NL :: str "%" ++ NL :: name ++ str ".dat".

Definition adds (start : bool) (name : cstr) (r : run) (d d' : disk) : Prop :=
  d' (info_path dec o (function r)) =
    Some (old d (info_path dec o (function r)) ++ (if start then opening d r name else []) ++ entry dec e1 r) /\
  (forall k, d' (data_path o name k) = Some (old d (data_path o name k) ++ part e12 e9 e4 k r)) /\
  (forall p, p <> info_path dec o (function r) -> (forall k, p <> data_path o name k) -> d' p = d p).

Lemma open_info_ok : forall r d name start, plausible r -> length name <= 100 ->
  logger_bbob_open_info_file version refused o r d (dec (function r)) name start =
  let p := info_path dec o (function r) in
  do d1 <- logger_bbob_open_file refused d p;
  Ok (p, if start then append (append (append (if exists_file d p then append d1 p [NL] else d1) p (first_line dec version o r ++ [NL])) p
                         (str "%" ++ [NL])) p (name ++ str ".dat") else d1).
Proof.
  intros r d name start (Hf & Hd & _ & Hi & _) L. destruct Hfits as [_ F].
  pose proof (dec_length dec Hdec _ Hf) as Lf.
  assert (F' : length (result_folder o) + length (prefix o) <= N.to_nat 3900) by exact F.
  unfold logger_bbob_open_info_file. cbv zeta. rewrite max_value.
  rewrite !(firstn_all2 (n := N.to_nat 4096 - 1)) by lia.
  rewrite cat_ok by (cbn [str list_ascii_of_string length]; lia). cbn [bind].
  rewrite cat_ok by (rewrite app_length; cbn [str list_ascii_of_string length]; lia). cbn [bind].
  rewrite cat_ok by (rewrite !app_length; cbn [str list_ascii_of_string length]; lia). cbn [bind].
  rewrite <- max_value. rewrite join_short; [|exact folder_ne|rewrite !app_length; cbn [str list_ascii_of_string length]; lia].
  cbn [bind]. rewrite !(pl dec Hdec) by assumption.
  unfold info_path. rewrite <- !app_assoc. unfold first_line. rewrite <- !app_assoc. reflexivity.
Qed.

Lemma open_data_ok : forall d name k, length name <= 100 ->
  logger_bbob_open_data_file refused o d name (extension k) =
  do d1 <- logger_bbob_open_file refused d (data_path o name k); Ok (data_path o name k, d1).
Proof.
  intros d name k L. destruct Hfits as [_ F].
  assert (F' : length (result_folder o) + length (prefix o) <= N.to_nat 3900) by exact F.
  unfold logger_bbob_open_data_file. rewrite checked_path_short; [reflexivity|exact folder_ne|].
  assert (length (extension k) <= 5) by (destruct k; cbn; lia). lia.
Qed.

Definition new_name (s : last_used) (r : run) (d : disk) : res (cstr * last_used) :=
  if logger_bbob_start_new_line s (dimension r) (function r) then
    do name <- coco_create_unique_filename (fun _ p => exists_file d p) (result_folder o) (base_name dec (key r)) (str ".dat");
    Ok (name, {| last_function := function r; last_dimension := dimension r; last_dat_file := firstn COCO_PATH_MAX name |})
  else Ok (last_dat_file s, s).

Definition files_for (name : cstr) (r : run) : opened :=
  {| info_file := info_path dec o (function r); dat_file := data_path o name Dat; tdat_file := data_path o name Tdat;
     rdat_file := data_path o name Rdat; mdat_file := data_path o name Mdat |}.

Lemma initialize_ok : forall s r d, plausible r ->
  (forall n s1, new_name s r d = Ok (n, s1) -> length n <= 100) ->
  logger_bbob_initialize e12 version refused o s r d =
  do (name, s1) <- new_name s r d;
  let start := logger_bbob_start_new_line s (dimension r) (function r) in
  let h := header e12 (opt_known r) (optimum r) in
  let p := info_path dec o (function r) in
  do d1 <- logger_bbob_open_file refused d p;
  let d2 := append (if start then append (append (append (if exists_file d p then append d1 p [NL] else d1) p (first_line dec version o r ++ [NL])) p
                         (str "%" ++ [NL])) p (name ++ str ".dat") else d1) p (str ", " ++ dec (instance r)) in
  do d3 <- logger_bbob_open_file refused d2 (data_path o name Dat);
  let d4 := append d3 (data_path o name Dat) h in
  do d5 <- logger_bbob_open_file refused d4 (data_path o name Tdat);
  let d6 := append d5 (data_path o name Tdat) h in
  do d7 <- logger_bbob_open_file refused d6 (data_path o name Rdat);
  let d8 := append d7 (data_path o name Rdat) h in
  do d9 <- logger_bbob_open_file refused d8 (data_path o name Mdat);
  Ok (files_for name r, s1, append d9 (data_path o name Mdat) h).
Proof.
  intros s r d P LN. pose proof P as (Hf & Hd & _ & Hi & _). destruct Hfits as [_ F].
  pose proof (dec_length dec Hdec _ Hf) as Lf. pose proof (dec_length dec Hdec _ Hd) as Ld.
  assert (F' : length (result_folder o) + length (prefix o) <= N.to_nat 3900) by exact F.
  unfold logger_bbob_initialize. rewrite !(pl dec Hdec) by assumption.
  rewrite (strdupf_ok (dec (function r))), (strdupf_ok (dec (dimension r))) by lia. cbn [bind].
  rewrite cat_ok by (cbn [str list_ascii_of_string length]; lia). cbn [bind].
  rewrite join_short; [|exact folder_ne|rewrite !app_length; cbn [str list_ascii_of_string length]; lia]. cbn [bind].
  do 4 (rewrite cat_ok by (rewrite !app_length; cbn [str list_ascii_of_string length]; lia); cbn [bind]).
  replace ((((str "data_f" ++ dec (function r)) ++ str "/bbobexp_f") ++ dec (function r)) ++ str "_DIM") with
    (str "data_f" ++ dec (function r) ++ str "/bbobexp_f" ++ dec (function r) ++ str "_DIM") by (rewrite <- !app_assoc; reflexivity).
  rewrite <- !app_assoc.
  change (str "data_f" ++ dec (function r) ++ str "/bbobexp_f" ++ dec (function r) ++ str "_DIM" ++ dec (dimension r)) with
    (base_name dec (key r)).
  fold (new_name s r d). cbv zeta.
  destruct (new_name s r d) as [[n s1]| |] eqn:En; cbn [bind]; try reflexivity.
  specialize (LN n s1 eq_refl). rewrite open_info_ok by auto. cbv zeta.
  destruct (logger_bbob_open_file refused d (info_path dec o (function r))) as [d1| |]; cbn [bind]; try reflexivity.
  do 4 (
    (rewrite (open_data_ok _ n Dat LN) || rewrite (open_data_ok _ n Tdat LN) || rewrite (open_data_ok _ n Rdat LN) ||
       rewrite (open_data_ok _ n Mdat LN));
    match goal with |- context [bind (bind (logger_bbob_open_file ?r ?d ?p) _) _] =>
      destruct (logger_bbob_open_file r d p); cbn [bind]; try reflexivity end).
Qed.

Lemma data_path_kind : forall n k k', data_path o n k = data_path o n k' -> k = k'.
Proof.
  intros n k k' E. unfold data_path in E. do 3 apply app_inv_head in E. apply extension_inj. exact E.
Qed.

Lemma step_ok : forall s r d s1 d' n g f, plausible r -> outcome r = Some (n, g, f) ->
  (forall n s1, new_name s r d = Ok (n, s1) -> length n <= 100) ->
  run_problem e12 e1 e9 e4 version refused o s d r = Ok (s1, d') ->
  exists name, new_name s r d = Ok (name, s1) /\
    adds (logger_bbob_start_new_line s (dimension r) (function r)) name r d d'.
Proof.
  intros s r d s1 d' n g f P O LN H. pose proof P as (Hf & Hd & _ & Hi & Hn). rewrite O in Hn.
  unfold run_problem in H. rewrite O in H. rewrite initialize_ok in H by auto.
  destruct (new_name s r d) as [[name s2]| |] eqn:En; cbn [bind] in H; try discriminate. cbv zeta in H.
  destruct (logger_bbob_open_file refused d (info_path dec o (function r))) as [d1| |] eqn:E1; cbn [bind] in H; try discriminate.
  apply open_ok in E1.
  do 4 match type of H with context [bind (logger_bbob_open_file ?r ?d ?p) _] =>
         let E := fresh "E" in destruct (logger_bbob_open_file r d p) eqn:E; cbn [bind] in H; try discriminate; apply open_ok in E end.
  exists name. cbn [files_for info_file dat_file tdat_file rdat_file mdat_file] in H.
  assert (X : forall (a b : last_used) (x y : disk), Ok (a, x) = Ok (b, y) -> a = b /\ x = y) by (intros; split; congruence).
  apply X in H as [-> <-]. split; [reflexivity|]. clear X.
  unfold adds. set (p := info_path dec o (function r)) in *.
  assert (N0 : forall k, p <> data_path o name k) by (intros k; apply info_not_data).
  assert (N1 : forall k k', k <> k' -> data_path o name k <> data_path o name k') by (intros k k' K Q; apply K; eapply data_path_kind; exact Q).
  set (q := data_path o name) in *. clearbody q.
  set (start := logger_bbob_start_new_line s (dimension r) (function r)) in *. clearbody start.
  assert (EP : entry dec e1 r = (str ", " ++ dec (instance r)) ++ str ":" ++ print_lu 0 n ++ str "|" ++ e1 g).
  { unfold entry. rewrite O, (pl dec Hdec) by exact Hn. rewrite <- !app_assoc. reflexivity. }
  assert (OP : start = true -> opening d r name =
    (if exists_file d p then [NL] else []) ++ (first_line dec version o r ++ [NL]) ++ (str "%" ++ [NL]) ++ name ++ str ".dat").
  { intros _. unfold opening. fold p. rewrite <- !app_assoc. reflexivity. }
  assert (PP : forall k, part e12 e9 e4 k r = header e12 (opt_known r) (optimum r) ++ lines_text e9 e4 (data k f))
    by (intros k; unfold part; rewrite O; reflexivity).
  subst a a0 a1 a2.
  assert (A2 : old (append d p []) p = old d p) by (rewrite old_append, app_nil_r; reflexivity).
  split; [|split].
  - do 4 rewrite append_other by apply N0. rewrite append_old.
    do 8 rewrite old_other by apply N0. rewrite old_append. f_equal. rewrite EP, <- app_assoc.
    destruct start.
    + rewrite !old_append. subst d1. rewrite OP by reflexivity. destruct (exists_file d p).
      * rewrite old_append, A2. rewrite <- !app_assoc. reflexivity.
      * rewrite A2. rewrite <- !app_assoc. reflexivity.
    + subst d1. rewrite A2. rewrite <- !app_assoc. reflexivity.
  - assert (I : forall k, old (append (if start then append (append (append (if exists_file d p then append d1 p [NL] else d1) p
        (first_line dec version o r ++ [NL])) p (str "%" ++ [NL])) p (name ++ str ".dat") else d1) p (str ", " ++ dec (instance r))) (q k) = old d (q k)).
    { intros k. assert (K : q k <> p) by (intros Q; exact (N0 k (eq_sym Q))). rewrite old_other by exact K. destruct start.
      - do 3 rewrite old_other by exact K. destruct (exists_file d p); [rewrite old_other by exact K|]; subst d1; apply old_other; exact K.
      - subst d1. apply old_other. exact K. }
    match type of I with forall k, old ?x _ = _ => set (d2 := x) in * end. clearbody d2. clear E1 OP EP A2.
    assert (K : forall k, q k <> p) by (intros k Q; exact (N0 k (eq_sym Q))).
    intros k. rewrite PP. destruct k;
      repeat (first [rewrite (append_other _ (q Dat)) by (apply N1; discriminate)
                    |rewrite (append_other _ (q Tdat)) by (apply N1; discriminate)
                    |rewrite (append_other _ (q Rdat)) by (apply N1; discriminate)
                    |rewrite (append_other _ (q Mdat)) by (apply N1; discriminate)
                    |rewrite (append_other _ p) by apply K]);
      rewrite append_old;
      repeat (first [rewrite (old_other _ (q Dat)) by (apply N1; discriminate)
                    |rewrite (old_other _ (q Tdat)) by (apply N1; discriminate)
                    |rewrite (old_other _ (q Rdat)) by (apply N1; discriminate)
                    |rewrite (old_other _ (q Mdat)) by (apply N1; discriminate)
                    |rewrite (old_other _ p) by apply K]);
      rewrite !old_append;
      repeat (first [rewrite (old_other _ (q Dat)) by (apply N1; discriminate)
                    |rewrite (old_other _ (q Tdat)) by (apply N1; discriminate)
                    |rewrite (old_other _ (q Rdat)) by (apply N1; discriminate)
                    |rewrite (old_other _ (q Mdat)) by (apply N1; discriminate)]);
      rewrite I, app_nil_r, <- app_assoc; reflexivity.
  - intros x K0 K. do 4 rewrite append_other by apply K. rewrite append_other by exact K0.
    do 8 rewrite append_other by apply K. rewrite append_other by exact K0. destruct start.
    + do 3 rewrite append_other by exact K0. destruct (exists_file d p); [rewrite append_other by exact K0|];
        subst d1; apply append_other; exact K0.
    + subst d1. apply append_other. exact K0.
Qed.
End Runs.
