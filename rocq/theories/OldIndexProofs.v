(** Proofs about the files of the old bbob logger across problems. *)
From Coq Require Import String List Arith NArith ZArith Ascii Bool Lia Permutation.
From Verif Require Import CBase StrModel OptModel FsModel FsSpec FsProofs IdModel IdSpec IdProofs DblModel BbobModel
  IndexModel IndexSpec IndexProofs IndexRunProofs OldIndexModel OldIndexSpec.
Import ListNotations.
Local Notation length := List.length.
Local Open Scope nat_scope.

Section Runs.
Variable dec : N -> cstr.
Hypothesis Hdec : decimals dec.
Variables e12 e1 e9 e4 : double -> cstr.
Variable version : cstr.
Variable refused : disk -> cstr -> bool.
Variable o : observer.
Hypothesis Hfits : fits o.

Let folder_ne : result_folder o <> [].
Proof. apply Hfits. Qed.
Let folder_len : length (result_folder o) <= N.to_nat 3900.
Proof. destruct Hfits as [_ F]. assert (F' : length (result_folder o) + length (prefix o) <= N.to_nat 3900) by exact F. lia. Qed.

Notation info := (old_info_path dec o).
Notation nm := (old_name dec).

(** ** The decision about the index file *)
Definition decide (g : globals) (r : run) (first : N) : res (bool * N * list N) :=
  if (current_dim g =? dimension r)%N then Ok (negb (current_fun g =? function r)%N, first, dimensions g)
  else
    let i := scan (dimensions g) (dimension r) in
    if (i <? length (dimensions g)) && (nth i (dimensions g) 0%N =? 0)%N
    then do dims <- store (dimensions g) i (dimension r); Ok (true, first, dims)
    else do dims <- store (repeat 0%N (length (dimensions g))) i (dimension r);
         Ok (if i <? length (dimensions g) then (false, instance r, dims) else (true, first, dims)).

Definition the_first (g : globals) (r : run) : N := if (first_instance g =? 0)%N then instance r else first_instance g.

(** What is written for a problem under the instance i *)
Definition writes (i : N) (start new_line : bool) (r : run) (n : N) (diff : double) (f : files) (d : disk) : res disk :=
  let p := info i (function r) in
  let q := data_path o (nm i (key r)) in
  let h := header e12 true (optimum r) in
  do d1 <- old_open_file refused d p;
  let d2 := if start then append (append (append (if new_line then append d1 p [NL] else d1) p (old_first_line dec version o r ++ [NL])) p
                         (str "%" ++ [NL])) p (nm i (key r) ++ str ".dat") else d1 in
  let d3 := append d2 p (str ", " ++ dec (instance r)) in
  do d4 <- old_open_file refused d3 (q Dat);
  let d5 := append d4 (q Dat) h in
  do d6 <- old_open_file refused d5 (q Tdat);
  let d7 := append d6 (q Tdat) h in
  do d8 <- old_open_file refused d7 (q Rdat);
  let d9 := append d8 (q Rdat) h in
  let d10 := append d9 p (str ":" ++ dec n ++ str "|" ++ e1 diff) in
  let d11 := append d10 (q Dat) (lines_text e9 e4 (dat f)) in
  Ok (append d11 (q Tdat) (lines_text e9 e4 (tdat f))).

Definition after (r : run) (i : N) (dims : list N) : globals :=
  {| current_dim := dimension r; current_fun := function r; first_instance := i; dimensions := dims; is_open := false |}.

Lemma name_len : forall k i, small k -> (i < 2 ^ 64)%N -> length (nm i k) <= 102.
Proof.
  intros k i S I. unfold old_name. rewrite !app_length. pose proof (base_length dec Hdec k S). pose proof (dec_length dec Hdec i I).
  cbn [str list_ascii_of_string length]. lia.
Qed.

Lemma open_data : forall d n k, length n <= 102 ->
  logger_bbob_old_open_dataFile refused o d n (extension k) =
  do d1 <- old_open_file refused d (data_path o n k); Ok (data_path o n k, d1).
Proof.
  intros d n k L. unfold logger_bbob_old_open_dataFile. rewrite checked_path_short; [reflexivity|exact folder_ne|].
  assert (length (extension k) <= 5) by (destruct k; cbn; lia). lia.
Qed.

Lemma strncat_short : forall cap a b n, length b <= n -> length a + length b < cap -> FsModel.strncat cap a b n = Ok (a ++ b).
Proof.
  intros cap a b n L M. unfold FsModel.strncat. rewrite firstn_all2 by exact L. rewrite app_length.
  destruct (Nat.ltb_spec (length a + length b) cap); [reflexivity|lia].
Qed.

Lemma dimensions_ok : forall g r first file_name, ordinary r -> (first < 2 ^ 64)%N -> length file_name <= 100 ->
  old_dimensions g r first (dec first) file_name (info first (function r)) =
  do (nl, i, dims) <- decide g r first; Ok (nl, info i (function r), i, dec i, dims).
Proof.
  intros g r first file_name [(Hf & Hd & _ & Hi & _) _] F L. unfold old_dimensions, decide.
  destruct (current_dim g =? dimension r)%N; [reflexivity|]. cbv zeta.
  set (i := scan (dimensions g) (dimension r)).
  destruct ((i <? length (dimensions g)) && (nth i (dimensions g) 0%N =? 0)%N).
  - destruct (store _ _ _) as [dims| |]; reflexivity.
  - destruct (i <? length (dimensions g)) eqn:Li.
    + rewrite (pl dec Hdec) by exact Hi. pose proof (dec_length dec Hdec _ Hi) as Ldi. rewrite strdupf_ok by lia. cbn [bind].
      pose proof (dec_length dec Hdec _ Hf) as Ldf. pose proof (dec_length dec Hdec _ F) as Ldg.
      assert (Q : firstn (length (info first (function r)) - length (dec first) - 7) (info first (function r)) =
        result_folder o ++ str "/" ++ str "bbobexp_f" ++ dec (function r)).
      { unfold old_info_path. set (a := result_folder o ++ str "/" ++ str "bbobexp_f" ++ dec (function r)).
        replace (result_folder o ++ str "/" ++ str "bbobexp_f" ++ dec (function r) ++ str "_i" ++ dec first ++ str ".info")
          with (a ++ (str "_i" ++ dec first ++ str ".info")) by (unfold a; rewrite <- !app_assoc; reflexivity).
        rewrite !app_length. change (length (str "_i")) with 2. change (length (str ".info")) with 5.
        replace (length a + (2 + (length (dec first) + 5)) - length (dec first) - 7) with (length a) by lia.
        rewrite firstn_app, Nat.sub_diag, firstn_all. cbn [firstn]. apply app_nil_r. }
      rewrite Q. clear Q. rewrite max_value.
      assert (La : length (result_folder o ++ str "/" ++ str "bbobexp_f" ++ dec (function r)) <= N.to_nat 3930).
      { rewrite !app_length. change (length (str "/")) with 1. change (length (str "bbobexp_f")) with 9. lia. }
      set (a := result_folder o ++ str "/" ++ str "bbobexp_f" ++ dec (function r)) in *.
      rewrite strncat_short; [|change (length (str "_i")) with 2; lia|change (length (str "_i")) with 2; lia]. cbn [bind].
      rewrite strncat_short; [|lia|rewrite app_length; change (length (str "_i")) with 2; lia]. cbn [bind].
      rewrite strncat_short; [|change (length (str ".info")) with 5; lia|rewrite !app_length; change (length (str "_i")) with 2; change (length (str ".info")) with 5; lia]. cbn [bind].
      destruct (store _ _ _) as [dims| |]; [|reflexivity|reflexivity]. cbn [bind].
      replace (((a ++ str "_i") ++ dec (instance r)) ++ str ".info") with (info (instance r) (function r)); [reflexivity|].
      unfold old_info_path, a. rewrite <- !app_assoc. reflexivity.
    + cbn [bind]. destruct (store _ _ _) as [dims| |]; reflexivity.
Qed.

Lemma decide_first : forall g r first nl i dims, (first < 2 ^ 64)%N -> (instance r < 2 ^ 64)%N -> decide g r first = Ok (nl, i, dims) -> (i < 2 ^ 64)%N.
Proof.
  intros g r first nl i dims F I H. unfold decide in H. destruct (current_dim g =? dimension r)%N; [congruence|]. cbv zeta in H.
  destruct (_ && _); apply bind_Ok in H as [x [_ H]]; [congruence|]. destruct (_ <? _); congruence.
Qed.

(** The whole of a problem that was evaluated *)
Lemma run_eq : forall g d r n diff f, ordinary r -> outcome r = Some (n, diff, f) -> is_open g = false -> (first_instance g < 2 ^ 64)%N ->
  old_run_problem e12 e1 e9 e4 version refused o g d r =
  let first := the_first g r in
  let tmp := exists_file d (info first (function r)) in
  if tmp && (current_dim g =? dimension r)%N && (current_fun g =? function r)%N then
    do d' <- writes first false false r n diff f d; Ok (after r first (dimensions g), d')
  else
    do (nl, i, dims) <- decide g r first;
    do d' <- writes i true (tmp && nl) r n diff f d; Ok (after r i dims, d').
Proof.
  intros g d r n diff f [P [Pi Pf]] O G Fi. pose proof P as (Hf & Hd & Hp & Hi & Hn). rewrite O in Hn.
  pose proof (dec_length dec Hdec _ Hf) as Lf. pose proof (dec_length dec Hdec _ Hd) as Ld.
  assert (F : (the_first g r < 2 ^ 64)%N) by (unfold the_first; destruct (_ =? _)%N; assumption).
  pose proof (dec_length dec Hdec _ F) as Lfi.
  unfold old_run_problem, old_construct. rewrite G. cbn [bind]. rewrite O.
  unfold logger_bbob_old_initialize. rewrite !(pl dec Hdec) by assumption.
  rewrite (strdupf_ok (dec (function r))), (strdupf_ok (dec (dimension r))) by lia. cbn [bind].
  rewrite (firstn_all2 (n := COCO_PATH_MAX)) by (rewrite max_value; change (length (str "data_f")) with 6; lia).
  rewrite cat_ok by (change (length (str "data_f")) with 6; lia). cbn [bind].
  rewrite join_short; [|exact folder_ne|rewrite !app_length; change (length (str "data_f")) with 6; lia]. cbn [bind].
  do 4 (rewrite cat_ok by (rewrite !app_length; cbn [str list_ascii_of_string length]; lia); cbn [bind]).
  replace (((((str "data_f" ++ dec (function r)) ++ str "/bbobexp_f") ++ dec (function r)) ++ str "_DIM") ++ dec (dimension r))
    with (base_name dec (key r)) by (unfold base_name, key; cbn [fst snd]; rewrite <- !app_assoc; reflexivity).
  pose proof (base_length dec Hdec (key r) (conj Hf Hd)) as Lb.
  unfold logger_bbob_old_openIndexFile. cbn [current_dim current_fun first_instance dimensions is_open set_open].
  fold (the_first g r). cbv zeta. rewrite !(pl dec Hdec) by assumption. rewrite (strdupf_ok (dec (the_first g r))) by lia. cbn [bind].
  rewrite !(firstn_all2 (n := COCO_PATH_MAX - 1)) by (rewrite max_value; try change (length (str "bbobexp")) with 7; lia).
  rewrite cat_ok by (change (length (str "bbobexp")) with 7; change (length (str "_f")) with 2; lia). cbn [bind].
  do 4 (rewrite cat_ok by (rewrite !app_length; cbn [str list_ascii_of_string length]; lia); cbn [bind]).
  set (file_name := ((((str "bbobexp" ++ str "_f") ++ dec (function r)) ++ str "_i") ++ dec (the_first g r)) ++ str ".info").
  assert (Ln : length file_name <= 60) by (unfold file_name; rewrite !app_length; cbn [str list_ascii_of_string length]; lia).
  rewrite join_short; [|exact folder_ne|lia]. cbn [bind].
  replace (result_folder o ++ str "/" ++ file_name) with (info (the_first g r) (function r))
    by (unfold old_info_path, file_name; rewrite <- !app_assoc; reflexivity).
  set (tmp := exists_file d (info (the_first g r) (function r))).
  destruct (tmp && (current_dim g =? dimension r)%N && (current_fun g =? function r)%N) eqn:Same.
  - apply andb_prop in Same as [Same E2]. apply andb_prop in Same as [_ E1]. apply N.eqb_eq in E1, E2.
    unfold writes. cbv zeta.
    destruct (old_open_file refused d (info (the_first g r) (function r))) as [d1| |]; cbn [bind]; try reflexivity.
    do 2 (rewrite cat_ok by (rewrite ?app_length; cbn [str list_ascii_of_string length]; lia); cbn [bind]).
    replace ((base_name dec (key r) ++ str "_i") ++ dec (the_first g r)) with (nm (the_first g r) (key r)) by (unfold old_name; rewrite <- app_assoc; reflexivity).
    pose proof (name_len (key r) _ (conj Hf Hd) F) as Lnm.
    change (old_header e12 (optimum r)) with (header e12 true (optimum r)).
    change (str ".tdat") with (extension Tdat). change (str ".rdat") with (extension Rdat).
    rewrite (open_data _ _ Dat Lnm : logger_bbob_old_open_dataFile _ _ _ _ (str ".dat") = _).
    match goal with |- context [bind (bind (old_open_file ?r ?d ?p) _) _] => destruct (old_open_file r d p); cbn [bind]; try reflexivity end.
    rewrite (open_data _ _ Tdat Lnm).
    match goal with |- context [bind (bind (old_open_file ?r ?d ?p) _) _] => destruct (old_open_file r d p); cbn [bind]; try reflexivity end.
    rewrite (open_data _ _ Rdat Lnm).
    match goal with |- context [bind (bind (old_open_file ?r ?d ?p) _) _] => destruct (old_open_file r d p); cbn [bind]; try reflexivity end.
    unfold set_open, after. cbn [current_dim current_fun first_instance dimensions is_open]. rewrite E1, E2. reflexivity.
  - rewrite (dimensions_ok (set_open g true) r _ file_name (conj P (conj Pi Pf)) F ltac:(lia)).
    change (decide (set_open g true) r (the_first g r)) with (decide g r (the_first g r)).
    destruct (decide g r (the_first g r)) as [[[nl i] dims]| |] eqn:Ed; cbn [bind]; try reflexivity.
    pose proof (decide_first _ _ _ _ _ _ F Hi Ed) as Fi'. pose proof (dec_length dec Hdec _ Fi') as Li.
    unfold writes. cbv zeta.
    destruct (old_open_file refused d (info i (function r))) as [d1| |]; cbn [bind]; try reflexivity.
    do 2 (rewrite cat_ok by (rewrite ?app_length; cbn [str list_ascii_of_string length]; lia); cbn [bind]).
    replace ((base_name dec (key r) ++ str "_i") ++ dec i) with (nm i (key r)) by (unfold old_name; rewrite <- app_assoc; reflexivity).
    pose proof (name_len (key r) _ (conj Hf Hd) Fi') as Lnm.
    rewrite cat_ok by (rewrite ?app_length; cbn [str list_ascii_of_string length]; lia). cbn [bind].
    replace ((base_name dec (key r) ++ str "_i") ++ dec i) with (nm i (key r)) by (unfold old_name; rewrite <- app_assoc; reflexivity).
    replace (str "suite = '" ++ suite_name r ++ str "', funcId = " ++ dec (function r) ++ str ", DIM = " ++
       dec (dimension r) ++ str ", Precision = 1.000e-08, algId = '" ++ algorithm_name o ++
       str "', coco_version = '" ++ version ++ str "', logger = 'bbob_old', data_format = 'bbob-new2'" ++ [NL])
      with (old_first_line dec version o r ++ [NL]) by (unfold old_first_line; rewrite <- !app_assoc; reflexivity).
    change (old_header e12 (optimum r)) with (header e12 true (optimum r)).
    change (str ".tdat") with (extension Tdat). change (str ".rdat") with (extension Rdat).
    rewrite (open_data _ _ Dat Lnm : logger_bbob_old_open_dataFile _ _ _ _ (str ".dat") = _).
    match goal with |- context [bind (bind (old_open_file ?r ?d ?p) _) _] => destruct (old_open_file r d p); cbn [bind]; try reflexivity end.
    rewrite (open_data _ _ Tdat Lnm).
    match goal with |- context [bind (bind (old_open_file ?r ?d ?p) _) _] => destruct (old_open_file r d p); cbn [bind]; try reflexivity end.
    rewrite (open_data _ _ Rdat Lnm).
    match goal with |- context [bind (bind (old_open_file ?r ?d ?p) _) _] => destruct (old_open_file r d p); cbn [bind]; try reflexivity end.
Qed.

(** ** What a problem adds *)
Lemma old_open_ok : forall d p d', old_open_file refused d p = Ok d' -> d' = append d p [].
Proof. intros d p d' H. unfold old_open_file in H. destruct (refused d p); [discriminate|congruence]. Qed.

Lemma old_info_not_data : forall i f n e, info i f <> data_path o n e.
Proof.
  intros i f n e E. apply (f_equal (fun s => last s "a"%char)) in E.
  unfold old_info_path, data_path in E. rewrite !app_assoc in E. rewrite !last_app in E by (try destruct e; discriminate).
  destruct e; vm_compute in E; discriminate E.
Qed.

Definition old_opening (i : N) (new_line : bool) (r : run) : cstr :=
  (if new_line then [NL] else []) ++ old_first_line dec version o r ++ NL :: str "%" ++ NL :: nm i (key r) ++ str ".dat".

Definition old_adds (i : N) (start new_line : bool) (r : run) (d d' : disk) : Prop :=
  d' (info i (function r)) =
    Some (old d (info i (function r)) ++ (if start then old_opening i new_line r else []) ++ entry dec e1 r) /\
  (forall k, k <> Mdat -> d' (data_path o (nm i (key r)) k) =
    Some (old d (data_path o (nm i (key r)) k) ++ old_part e12 e9 e4 k r)) /\
  (forall p, p <> info i (function r) -> (forall k, k <> Mdat -> p <> data_path o (nm i (key r)) k) -> d' p = d p).

Lemma writes_ok : forall i start new_line r n diff f d d', outcome r = Some (n, diff, f) ->
  writes i start new_line r n diff f d = Ok d' -> old_adds i start new_line r d d'.
Proof.
  intros i start new_line r n diff f d d' O H. unfold writes in H. cbv zeta in H.
  unfold old_adds. set (p := info i (function r)) in *.
  assert (N0 : forall k, p <> data_path o (nm i (key r)) k) by (intros k; apply old_info_not_data).
  assert (N1 : forall k k', k <> k' -> data_path o (nm i (key r)) k <> data_path o (nm i (key r)) k')
    by (intros k k' K Q; apply K; eapply data_path_kind; exact Q).
  set (q := data_path o (nm i (key r))) in *. clearbody q.
  destruct (old_open_file refused d p) as [d1| |] eqn:E1; cbn [bind] in H; try discriminate. apply old_open_ok in E1.
  do 3 match type of H with context [bind (old_open_file ?r ?d ?p) _] =>
         let E := fresh "E" in destruct (old_open_file r d p) eqn:E; cbn [bind] in H; try discriminate; apply old_open_ok in E end.
  assert (X : forall x y : disk, Ok x = Ok y -> x = y) by (intros; congruence).
  apply X in H. subst d'. clear X.
  assert (EP : entry dec e1 r = (str ", " ++ dec (instance r)) ++ str ":" ++ dec n ++ str "|" ++ e1 diff).
  { unfold entry. rewrite O. rewrite <- !app_assoc. reflexivity. }
  assert (OP : old_opening i new_line r =
    (if new_line then [NL] else []) ++ (old_first_line dec version o r ++ [NL]) ++ (str "%" ++ [NL]) ++ nm i (key r) ++ str ".dat").
  { unfold old_opening. rewrite <- !app_assoc. reflexivity. }
  assert (PP : forall k, old_part e12 e9 e4 k r = header e12 true (optimum r) ++ match k with Rdat => [] | _ => lines_text e9 e4 (data k f) end)
    by (intros k; unfold old_part; rewrite O; reflexivity).
  subst a a0 a1.
  assert (A2 : old (append d p []) p = old d p) by (rewrite old_append, app_nil_r; reflexivity).
  split; [|split].
  - do 2 rewrite append_other by apply N0. rewrite append_old.
    do 6 rewrite old_other by apply N0. rewrite old_append. f_equal. rewrite EP, <- app_assoc.
    destruct start.
    + rewrite !old_append. subst d1. rewrite OP. destruct new_line.
      * rewrite old_append, A2. rewrite <- !app_assoc. reflexivity.
      * rewrite A2. rewrite <- !app_assoc. reflexivity.
    + subst d1. rewrite A2. rewrite <- !app_assoc. reflexivity.
  - match goal with |- context [append (if start then ?x else d1) p ?t] => set (d2 := append (if start then x else d1) p t) in * end.
    assert (I : forall k, old d2 (q k) = old d (q k)).
    { intros k. unfold d2. assert (K : q k <> p) by (intros Q; exact (N0 k (eq_sym Q))). rewrite old_other by exact K. destruct start.
      - do 3 rewrite old_other by exact K. destruct new_line; [rewrite old_other by exact K|]; subst d1; apply old_other; exact K.
      - subst d1. apply old_other. exact K. }
    clearbody d2. clear E1 OP EP A2.
    assert (K : forall k, q k <> p) by (intros k Q; exact (N0 k (eq_sym Q))).
    intros k NK. rewrite PP. destruct k; [| | |now destruct NK];
      repeat (first [rewrite (append_other _ (q Dat)) by (apply N1; discriminate)
                    |rewrite (append_other _ (q Tdat)) by (apply N1; discriminate)
                    |rewrite (append_other _ (q Rdat)) by (apply N1; discriminate)
                    |rewrite (append_other _ p) by apply K]);
      rewrite append_old;
      repeat (first [rewrite (old_other _ (q Dat)) by (apply N1; discriminate)
                    |rewrite (old_other _ (q Tdat)) by (apply N1; discriminate)
                    |rewrite (old_other _ (q Rdat)) by (apply N1; discriminate)
                    |rewrite (old_other _ p) by apply K]);
      rewrite !old_append;
      repeat (first [rewrite (old_other _ (q Dat)) by (apply N1; discriminate)
                    |rewrite (old_other _ (q Tdat)) by (apply N1; discriminate)
                    |rewrite (old_other _ (q Rdat)) by (apply N1; discriminate)]);
      rewrite I, ?app_nil_r, <- ?app_assoc; reflexivity.
  - intros x K0 K. assert (K1 : x <> q Dat) by (apply K; discriminate). assert (K2 : x <> q Tdat) by (apply K; discriminate).
    assert (K3 : x <> q Rdat) by (apply K; discriminate).
    repeat (rewrite append_other by assumption). destruct start; subst d1; repeat (rewrite append_other by assumption); [|reflexivity].
    destruct new_line; repeat (rewrite append_other by assumption); reflexivity.
Qed.
End Runs.
