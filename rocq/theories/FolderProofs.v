(** Proofs about the files of the bi-objective logger. *)
From Coq Require Import String List Arith NArith ZArith Ascii Bool Lia.
From Verif Require Import CBase StrModel StrSpec StrProofs FsModel FsSpec FsProofs FsRemoveProofs IdModel IdSpec IdProofs DblModel BiobjModel
  IndexModel FolderModel FolderSpec.
From Verif Require IndexSpec IndexProofs IndexRunProofs.
Import ListNotations.
Local Notation length := List.length.
Local Open Scope nat_scope.

(** * Additions to the disk *)
Definition addition := (cstr * cstr)%type.
Definition apply_all (d : disk) (l : list addition) : disk := fold_left (fun d a => append d (fst a) (snd a)) l d.
Definition texts (x : cstr) (l : list addition) : list cstr := map snd (filter (fun a => streq x (fst a)) l).

Lemma apply_app : forall l l' d, apply_all d (l ++ l') = apply_all (apply_all d l) l'.
Proof. intros l l' d. unfold apply_all. apply fold_left_app. Qed.

Lemma added_added : forall old l l', added (added old l) l' = added old (l ++ l').
Proof.
  intros old l l'. destruct l' as [|t' l']; [rewrite app_nil_r; reflexivity|]. destruct l as [|t l]; [reflexivity|].
  cbn [added app]. f_equal. rewrite <- app_assoc. f_equal. change (t :: l ++ t' :: l') with ((t :: l) ++ t' :: l'). rewrite concat_app.
  reflexivity.
Qed.

Lemma apply_at : forall l d x, apply_all d l x = added (d x) (texts x l).
Proof.
  induction l as [|[f t] l IH]; intros d x; [reflexivity|]. change ((f, t) :: l) with ([(f, t)] ++ l).
  rewrite apply_app, IH. unfold texts at 2. rewrite filter_app, map_app, <- added_added. f_equal.
  unfold apply_all. cbn [fold_left fst snd filter map]. unfold append. destruct (streq x f) eqn:E; [|reflexivity].
  apply streq_spec in E. subst f. cbn [map snd added concat]. rewrite app_nil_r. destruct (d x); reflexivity.
Qed.

Lemma texts_app : forall x l l', texts x (l ++ l') = texts x l ++ texts x l'.
Proof. intros x l l'. unfold texts. rewrite filter_app, map_app. reflexivity. Qed.

Lemma texts_same : forall x l, (forall a, In a l -> fst a = x) -> texts x l = map snd l.
Proof.
  intros x l H. unfold texts. f_equal. induction l as [|a l IH]; [reflexivity|]. cbn [filter].
  rewrite (H a (or_introl eq_refl)), streq_refl. f_equal. apply IH. intros b I. apply H. right. exact I.
Qed.

Lemma texts_other : forall x l, (forall a, In a l -> fst a <> x) -> texts x l = [].
Proof.
  intros x l H. unfold texts. induction l as [|a l IH]; [reflexivity|]. cbn [filter].
  rewrite streq_neq; [apply IH; intros b I; apply H; right; exact I|]. intros E. apply (H a); [left; reflexivity|]. symmetry. exact E.
Qed.

(** The texts are only relevant as a whole. *)
Lemma added_concat : forall old l l', (l = [] <-> l' = []) -> concat l = concat l' -> added old l = added old l'.
Proof.
  intros old l l' N E. destruct l as [|t l]; [rewrite (proj1 N eq_refl); reflexivity|].
  destruct l' as [|t' l']; [destruct N as [_ N]; specialize (N eq_refl); discriminate|]. cbn [added]. rewrite E. reflexivity.
Qed.

(** * Paths *)
Lemma tails : forall (a b s t : cstr), length s = length t -> a ++ s = b ++ t -> s = t.
Proof.
  intros a b s t L E. assert (La : length a = length b) by (apply (f_equal (@length ascii)) in E; rewrite !app_length in E; lia).
  apply (f_equal (skipn (length a))) in E. rewrite skipn_app, skipn_all, Nat.sub_diag in E. rewrite La in E at 1.
  rewrite skipn_app, skipn_all, Nat.sub_diag in E. exact E.
Qed.

Lemma longer : forall (a b s : cstr) c t, length s = length t -> a ++ s = b ++ c :: t -> s = t.
Proof.
  intros a b s c t L E. change (c :: t) with ([c] ++ t) in E. rewrite app_assoc in E. exact (tails _ _ _ _ L E).
Qed.

Lemma extension_apart : forall a b k k', a ++ extension k = b ++ extension k' -> k = k'.
Proof.
  intros a b k k' E. destruct k, k'; try reflexivity; exfalso;
    first [ apply tails in E; [vm_compute in E; discriminate E|reflexivity]
          | eapply (longer a b (str ".dat")) in E; [vm_compute in E; discriminate E|reflexivity]
          | symmetry in E; eapply (longer b a (str ".dat")) in E; [vm_compute in E; discriminate E|reflexivity] ].
Qed.

Lemma info_apart : forall a b k, a ++ extension k <> b ++ str ".info".
Proof.
  intros a b k E. destruct k;
    first [ apply tails in E; [vm_compute in E; discriminate E|reflexivity]
          | eapply (longer a b (str ".dat")) in E; [vm_compute in E; discriminate E|reflexivity] ].
Qed.

Section Paths.
Variable o : observer.
Hypothesis Hfits : fits o.
Variable stem : observed -> cstr.

Lemma path_form : forall k p, exists a, path o stem k p = a ++ extension k.
Proof. intros k p. unfold path. rewrite !app_assoc. eexists. reflexivity. Qed.

Lemma info_form : forall type, exists a, info_path o type = a ++ str ".info".
Proof. intros type. unfold info_path. change (str "_hyp.info") with (str "_hyp" ++ str ".info"). rewrite !app_assoc. eexists. reflexivity. Qed.

Lemma path_apart : forall k k' p q, k <> k' -> path o stem k p <> path o stem k' q.
Proof.
  intros k k' p q N E. destruct (path_form k p) as [a Ea]. destruct (path_form k' q) as [b Eb]. rewrite Ea, Eb in E.
  apply N. exact (extension_apart _ _ _ _ E).
Qed.

Lemma path_info : forall k p type, path o stem k p <> info_path o type.
Proof.
  intros k p type E. destruct (path_form k p) as [a Ea]. destruct (info_form type) as [b Eb]. rewrite Ea, Eb in E.
  exact (info_apart _ _ _ E).
Qed.

Lemma info_inj : forall t t', info_path o t = info_path o t' -> t = t'.
Proof. intros t t' E. unfold info_path in E. do 2 apply app_inv_head in E. apply app_inv_tail in E. exact E. Qed.

Lemma join_ok : forall b c, b <> [] -> length b + 1 + length c < COCO_PATH_MAX -> join b c = Ok (b ++ str "/" ++ c).
Proof.
  intros b c N L. unfold join. rewrite join_path_complete.
  - destruct b; [now destruct N|]. reflexivity.
  - lia.
  - discriminate.
  - destruct b; [now destruct N|]. cbn [joined]. rewrite app_length. cbn [length] in *. lia.
  - intros x [<-|[]]. exact L.
Qed.

Lemma folder_ok : folder_copy o = Ok (result_folder o).
Proof.
  destruct Hfits as [_ L]. unfold folder_copy. replace (COCO_PATH_MAX <? length (result_folder o)) with false; [reflexivity|].
  symmetry. apply Nat.ltb_ge. unfold COCO_PATH_MAX. lia.
Qed.

Lemma join_folder : forall c, length c <= 500 -> join (result_folder o) c = Ok (result_folder o ++ str "/" ++ c).
Proof. intros c L. destruct Hfits as [N F]. apply join_ok; [exact N|]. unfold COCO_PATH_MAX. lia. Qed.

Lemma join_deeper : forall b c, length b <= 210 -> length c <= 300 ->
  join (result_folder o ++ str "/" ++ b) c = Ok (result_folder o ++ str "/" ++ b ++ str "/" ++ c).
Proof.
  intros b c Lb Lc. destruct Hfits as [N F]. rewrite join_ok.
  - rewrite <- !app_assoc. reflexivity.
  - intros E. apply app_eq_nil in E as [E _]. auto.
  - rewrite !app_length. cbn [length str]. change (length (str "/")) with 1. unfold COCO_PATH_MAX. lia.
Qed.

Lemma strdupf_ok : forall t, length t <= 400 -> coco_strdupf t = Ok t.
Proof.
  intros t L. unfold coco_strdupf. replace (443 <? length t) with false by (symmetry; apply Nat.ltb_ge; lia).
  replace (441 <? length t) with false by (symmetry; apply Nat.ltb_ge; lia). reflexivity.
Qed.

Lemma stem_ok : forall p, stem_of (problem_id p) (stem p) -> id_prefix p = Ok (stem p).
Proof.
  intros p (a & i & b & E & S & F1 & F2). unfold id_prefix.
  assert (N1 : str "_i" <> []) by discriminate. assert (N2 : str "_d" <> []) by discriminate.
  rewrite (StrProofs.remove_correct (problem_id p) (str "_i") (str "_d") (length a) (length (a ++ str "_i" ++ i))
    (or_intror (conj N1 F1)) (or_intror (conj N2 F2))).
  rewrite !app_length. replace (length a + (length (str "_i") + length i) <? length a) with false by (symmetry; apply Nat.ltb_ge; lia).
  rewrite S, E. f_equal. rewrite firstn_app, firstn_all, Nat.sub_diag. cbn [firstn]. rewrite app_nil_r. f_equal.
  rewrite app_assoc. rewrite app_assoc. rewrite skipn_app.
  replace (length ((a ++ str "_i") ++ i)) with (length a + (length (str "_i") + length i)) by (rewrite !app_length; lia).
  rewrite Nat.sub_diag. rewrite skipn_all2 by (rewrite !app_length; lia). reflexivity.
Qed.

Lemma stem_length : forall p, stem_of (problem_id p) (stem p) -> length (stem p) <= length (problem_id p).
Proof. intros p (a & i & b & -> & -> & _). rewrite !app_length. lia. Qed.
End Paths.

(** * One problem *)
Section Problem.
Variable dec : N -> cstr.
Hypothesis Hdec : decimals dec.
Variables ef ex e1 : double -> cstr.
Variable version : cstr.
Variable refused : disk -> cstr -> bool.
Variable o : observer.
Hypothesis Hfits : fits o.
Variable stem : observed -> cstr.

Notation path' := (path o stem).
Notation part' := (part dec ef ex o).

Lemma lu : forall n, (n < 2 ^ 64)%N -> print_lu 0 n = dec n.
Proof. exact (IndexRunProofs.dec_print dec Hdec). Qed.

Lemma lu2 : forall n, (n < 2 ^ 64)%N -> print_2lu n = padded (dec n).
Proof.
  intros n H. unfold print_2lu. rewrite lu by exact H. destruct (Hdec n H) as (_ & _ & N & _).
  destruct (dec n) as [|c [|c' t]]; [now destruct N|reflexivity|reflexivity].
Qed.

Lemma wider : forall n, (n < 2 ^ 63)%N -> (n < 2 ^ 64)%N.
Proof. intros n H. eapply N.lt_trans; [exact H|reflexivity]. Qed.

(** The lines *)
Lemma row_line : forall r, row_fine r -> row_text ef ex r = solution_line dec ef ex r.
Proof.
  intros r [B1 B2]. unfold row_text, solution_line, line_of. rewrite lu by exact B1. cbn [map concat]. unfold cell at 1.
  rewrite map_app, !map_map, concat_app, <- !app_assoc. do 3 f_equal. f_equal. f_equal. apply map_ext_in. intros [z|v] I; [|reflexivity].
  unfold cell, integer_text. rewrite <- (IndexRunProofs.int_print dec Hdec z (B2 z I)). reflexivity.
Qed.

Lemma rows_lines : forall l, Forall row_fine l -> concat (map (row_text ef ex) l) = concat (map (solution_line dec ef ex) l).
Proof. intros l F. f_equal. apply map_ext_in. intros r I. apply row_line. rewrite Forall_forall in F. auto. Qed.

Lemma dat_lines : forall l, Forall (fun r => let '(n, _, _) := r in (n < 2 ^ 64)%N) l ->
  concat (map (dat_text ef) l) = concat (map (with_target dec ef) l).
Proof.
  intros l F. f_equal. apply map_ext_in. intros [[n v] t] I. rewrite Forall_forall in F. specialize (F _ I). cbn beta iota in F.
  unfold dat_text, with_target, line_of, cell. rewrite lu by exact F. cbn [concat]. rewrite app_nil_r, <- !app_assoc. reflexivity.
Qed.

Lemma tdat_lines : forall l, Forall (fun r : N * double => (fst r < 2 ^ 64)%N) l ->
  concat (map (tdat_text ef) l) = concat (map (without_target dec ef) l).
Proof.
  intros l F. f_equal. apply map_ext_in. intros [n v] I. rewrite Forall_forall in F. specialize (F _ I). cbn [fst] in F.
  unfold tdat_text, without_target, line_of, cell. rewrite lu by exact F. cbn [concat]. rewrite app_nil_r, <- !app_assoc. reflexivity.
Qed.

Lemma open_is : forall d f d1, open refused d f = Ok d1 -> d1 = apply_all d [(f, [])].
Proof. intros d f d1 H. unfold open in H. destruct (refused d f); [discriminate|]. assert (append d f [] = d1) by congruence. subst. reflexivity. Qed.

Definition file_adds (k : kind) (targets : bool) (p : observed) : list addition :=
  [(path' k p, []); (path' k p, indicator_head dec ef p targets)].

Lemma file_is : forall p d ending targets k f d1, plausible stem p -> length ending <= 5 ->
  str "_hyp." ++ ending = str "_hyp" ++ extension k -> (k = Dat \/ k = Tdat \/ k = Rdat) ->
  logger_biobj_indicator_initialize_file ef refused o p d ending targets = Ok (f, d1) ->
  f = path' k p /\ d1 = apply_all d (file_adds k targets p).
Proof.
  intros p d ending targets k f d1 P L E K H. destruct P as (S & L1 & L2 & B1 & B2 & B3 & _).
  pose proof (stem_length stem p S) as L3.
  unfold logger_biobj_indicator_initialize_file in H. rewrite (folder_ok o Hfits) in H. cbn [bind] in H.
  rewrite (join_folder o Hfits) in H by lia. cbn [bind] in H. rewrite (stem_ok stem p S) in H. cbn [bind] in H.
  assert (Ln : length (stem p ++ str "_hyp." ++ ending) <= 300).
  { rewrite !app_length. change (length (str "_hyp.")) with 5. lia. }
  rewrite strdupf_ok in H by lia. cbn [bind] in H. rewrite (join_deeper o Hfits) in H by lia. cbn [bind] in H.
  assert (Q : result_folder o ++ str "/" ++ problem_type p ++ str "/" ++ stem p ++ str "_hyp." ++ ending = path' k p).
  { rewrite E. unfold path. destruct K as [-> | [-> | ->]]; rewrite <- !app_assoc; reflexivity. }
  rewrite Q in H. destruct (open refused d (path' k p)) as [d2| |] eqn:Eo; cbn [bind] in H; try discriminate.
  apply open_is in Eo. subst d2.
  assert (f = path' k p) by congruence. subst f. split; [reflexivity|].
  match type of H with Ok (_, ?x) = _ => assert (X : x = d1) by congruence; rewrite <- X; clear X H end.
  unfold file_adds. change (apply_all d [(path' k p, []); (path' k p, indicator_head dec ef p targets)]) with
    (append (apply_all d [(path' k p, [])]) (path' k p) (indicator_head dec ef p targets)).
  f_equal. unfold indicator_head, line_of. rewrite !lu by assumption. cbn [concat].
  destruct targets; rewrite ?app_nil_r, <- ?app_assoc; reflexivity.
Qed.

Definition changed (s : previous) (p : observed) : bool :=
  negb (previous_function s =? Z.of_N (suite_dep_function p))%Z || negb (previous_dimension s =? Z.of_N (number_of_variables p))%Z.

Definition info_adds (s : previous) (there : bool) (p : observed) : list addition :=
  let i := info_path o (problem_type p) in
  [(i, [])] ++ (if there then [] else [(i, title version o p ++ [NL] ++ comment o)]) ++
  (if changed s p then [(i, [NL] ++ str "function = " ++ padded (dec (suite_dep_function p)) ++ str ", ");
                       (i, str "dim = " ++ padded (dec (number_of_variables p)) ++ str ", "); (i, stem p ++ str "_hyp.dat")] else []).

Definition indicator_adds (s : previous) (there : bool) (p : observed) : list addition :=
  info_adds s there p ++ file_adds Dat true p ++ file_adds Tdat false p ++ file_adds Rdat false p.

Lemma indicator_is : forall s p d h d1, plausible stem p -> logger_biobj_indicator ef version refused o s p d = Ok (h, d1) ->
  h = {| info_file := info_path o (problem_type p); dat_file := path' Dat p; tdat_file := path' Tdat p; rdat_file := path' Rdat p |} /\
  d1 = apply_all d (indicator_adds s (exists_file d (info_path o (problem_type p))) p).
Proof.
  intros s p d h d1 P H. pose proof P as (S & L1 & L2 & B1 & B2 & B3 & B4 & _).
  unfold logger_biobj_indicator in H. rewrite (folder_ok o Hfits) in H. cbn [bind] in H.
  assert (Ln : length (problem_type p ++ str "_hyp.info") <= 300).
  { rewrite !app_length. change (length (str "_hyp.info")) with 9. lia. }
  rewrite strdupf_ok in H by lia. cbn [bind] in H. rewrite (join_folder o Hfits) in H by lia. cbn [bind] in H.
  assert (Qi : result_folder o ++ str "/" ++ problem_type p ++ str "_hyp.info" = info_path o (problem_type p)) by reflexivity.
  rewrite Qi in H. cbv zeta in H. set (i := info_path o (problem_type p)) in *.
  destruct (open refused d i) as [d2| |] eqn:Eo; cbn [bind] in H; try discriminate. apply open_is in Eo. subst d2.
  rewrite (stem_ok stem p S) in H. cbn [bind] in H.
  match type of H with context [logger_biobj_indicator_initialize_file _ _ _ _ ?x _ _] => set (d3 := x) in H end.
  assert (Q3 : d3 = apply_all d (info_adds s (exists_file d i) p)).
  { unfold d3, info_adds. fold i. cbv zeta. change (previous_function s =? Z.of_N (suite_dep_function p))%Z with
      (previous_function s =? Z.of_N (suite_dep_function p))%Z. fold (changed s p).
    rewrite !lu2 by (apply wider; assumption). rewrite !apply_app.
    assert (Qd : (if exists_file d i then apply_all d [(i, [])] else
      append (apply_all d [(i, [])]) i (str "suite = '" ++ suite_name p ++ str "', algorithm = '" ++ algorithm_name o ++
        str "', indicator = 'hyp', folder = '" ++ problem_type p ++ str "', coco_version = '" ++ version ++ str "'" ++ [NL] ++
        str "% " ++ algorithm_info o ++ match log_nondom_mode o with NondomRead => str " (reconstructed)" | _ => [] end)) =
      apply_all (apply_all d [(i, [])]) (if exists_file d i then [] else [(i, title version o p ++ [NL] ++ comment o)])).
    { destruct (exists_file d i); [reflexivity|].
      change (apply_all (apply_all d [(i, [])]) [(i, title version o p ++ [NL] ++ comment o)]) with
        (append (apply_all d [(i, [])]) i (title version o p ++ [NL] ++ comment o)). f_equal.
      unfold title, comment. rewrite <- !app_assoc. reflexivity. }
    rewrite Qd. destruct (changed s p); reflexivity. }
  clearbody d3.
  destruct (logger_biobj_indicator_initialize_file ef refused o p d3 (str "dat") true) as [[f1 d4]| |] eqn:F1; cbn [bind] in H; try discriminate.
  destruct (logger_biobj_indicator_initialize_file ef refused o p d4 (str "tdat") false) as [[f2 d5]| |] eqn:F2; cbn [bind] in H; try discriminate.
  destruct (logger_biobj_indicator_initialize_file ef refused o p d5 (str "rdat") false) as [[f3 d6]| |] eqn:F3; cbn [bind] in H; try discriminate.
  apply (file_is p d3 (str "dat") true Dat) in F1 as [-> ->]; [|exact P|cbn; lia|reflexivity|auto].
  apply (file_is p _ (str "tdat") false Tdat) in F2 as [-> ->]; [|exact P|cbn; lia|reflexivity|auto].
  apply (file_is p _ (str "rdat") false Rdat) in F3 as [-> ->]; [|exact P|cbn; lia|reflexivity|auto].
  split; [congruence|].
  match type of H with Ok (_, ?x) = _ => assert (X : x = d1) by congruence; rewrite <- X; clear X H end.
  unfold indicator_adds. rewrite !apply_app, Q3. reflexivity.
Qed.

(** The archive *)
Definition archive_adds (p : observed) : list addition :=
  if used o Adat then
    [(path' Adat p, []);
     (path' Adat p, line_of [str "% instance = "; dec (suite_dep_instance p); str ", name = "; problem_name p]);
     (path' Adat p, line_of (str "% function evaluation | 2 objectives " ::
        if variables_logged o p then [str "| "; dec (number_of_variables p); str " variables"] else []))]
  else [].

Lemma log_vars_is : forall p, log_vars o p = variables_logged o p.
Proof.
  intros p. unfold log_vars, variables_logged. destruct (log_vars_mode o); try reflexivity. rewrite N.leb_antisym. reflexivity.
Qed.

Lemma archive_is : forall p d a d1, plausible stem p -> open_archive refused o p d = Ok (a, d1) ->
  a = (if used o Adat then Some (path' Adat p) else None) /\ d1 = apply_all d (archive_adds p).
Proof.
  intros p d a d1 P H. pose proof P as (S & L1 & L2 & B1 & B2 & B3 & B4 & _).
  assert (K : forall ending, length ending <= 20 ->
    result_folder o ++ str "/" ++ str "archive" ++ str "/" ++ problem_id p ++ ending = path' Adat p ->
    (do folder <- folder_copy o; do path <- join folder (str "archive"); do file_name <- coco_strdupf (problem_id p ++ ending);
     do file <- join path file_name; do d1 <- open refused d file;
     Ok (Some file, append (append d1 file
      (str "% instance = " ++ print_lu 0 (suite_dep_instance p) ++ str ", name = " ++ problem_name p ++ [NL])) file
      (str "% function evaluation | 2 objectives " ++
       (if log_vars o p then str "| " ++ print_lu 0 (number_of_variables p) ++ str " variables" else []) ++ [NL]))) = Ok (a, d1) ->
    used o Adat = true ->
    a = (if used o Adat then Some (path' Adat p) else None) /\ d1 = apply_all d (archive_adds p)).
  { clear H. intros ending L Q H U. unfold archive_adds. rewrite U. rewrite (folder_ok o Hfits) in H. cbn [bind] in H.
    rewrite (join_folder o Hfits) in H by (cbn; lia). cbn [bind] in H.
    assert (Ln : length (problem_id p ++ ending) <= 300) by (rewrite app_length; lia).
    rewrite strdupf_ok in H by lia. cbn [bind] in H. rewrite (join_deeper o Hfits) in H by (cbn; lia). cbn [bind] in H.
    rewrite Q in H. destruct (open refused d (path' Adat p)) as [d2| |] eqn:Eo; cbn [bind] in H; try discriminate.
    apply open_is in Eo. subst d2. split; [congruence|].
    match type of H with Ok (_, ?x) = _ => assert (X : x = d1) by congruence; rewrite <- X; clear X H end.
    change (apply_all d [(path' Adat p, []); ?b; ?c]) with (append (append (apply_all d [(path' Adat p, [])]) (fst b) (snd b)) (fst c) (snd c)).
    rewrite !lu by (assumption || (apply wider; assumption)). rewrite log_vars_is.
    assert (X1 : str "% instance = " ++ dec (suite_dep_instance p) ++ str ", name = " ++ problem_name p ++ [NL] =
      line_of [str "% instance = "; dec (suite_dep_instance p); str ", name = "; problem_name p]).
    { unfold line_of. cbn [concat]. rewrite app_nil_r, <- !app_assoc. reflexivity. }
    assert (X2 : str "% function evaluation | 2 objectives " ++
       (if variables_logged o p then str "| " ++ dec (number_of_variables p) ++ str " variables" else []) ++ [NL] =
      line_of (str "% function evaluation | 2 objectives " ::
        if variables_logged o p then [str "| "; dec (number_of_variables p); str " variables"] else [])).
    { unfold line_of. destruct (variables_logged o p); cbn [concat]; rewrite ?app_nil_r, <- ?app_assoc; reflexivity. }
    rewrite X1, X2. reflexivity. }
  unfold open_archive in H. destruct (log_nondom_mode o) eqn:M.
  - unfold archive_adds, used. rewrite M. cbn [apply_all fold_left]. split; congruence.
  - apply (K (str "_nondom_final.adat")); [vm_compute; lia|unfold path; rewrite M; rewrite <- !app_assoc; reflexivity|exact H|unfold used; rewrite M; reflexivity].
  - apply (K (str "_nondom_all.adat")); [vm_compute; lia|unfold path; rewrite M; rewrite <- !app_assoc; reflexivity|exact H|unfold used; rewrite M; reflexivity].
  - unfold archive_adds, used. rewrite M. cbn [apply_all fold_left]. split; congruence.
Qed.

(** The recommendations *)
Definition mdat_head (p : observed) : cstr :=
  line_of [str "% instance = "; dec (suite_dep_instance p); str ", name = "; problem_name p] ++
  line_of ([str "% function evaluation | 2 objectives"] ++
    (if (number_of_constraints p =? 0)%N then [] else [str " | "; dec (number_of_constraints p); str " constraints"]) ++
    (if variables_logged o p then [str " | "; dec (number_of_variables p); str " variables"] else [])).
Definition mdat_adds (p : observed) : list addition := [(path' Mdat p, []); (path' Mdat p, mdat_head p)].

Lemma mdat_is : forall p d f d1, plausible stem p -> open_recommendations refused o p d = Ok (f, d1) ->
  f = path' Mdat p /\ d1 = apply_all d (mdat_adds p).
Proof.
  intros p d f d1 P H. pose proof P as (S & L1 & L2 & B1 & B2 & B3 & B4 & B5 & _).
  pose proof (stem_length stem p S) as L3.
  unfold open_recommendations in H. rewrite (folder_ok o Hfits) in H. cbn [bind] in H.
  rewrite (join_folder o Hfits) in H by lia. cbn [bind] in H. rewrite (stem_ok stem p S) in H. cbn [bind] in H.
  assert (Ln : length (stem p ++ str ".mdat") <= 300).
  { rewrite !app_length. change (length (str ".mdat")) with 5. lia. }
  rewrite strdupf_ok in H by lia. cbn [bind] in H. rewrite (join_deeper o Hfits) in H by lia. cbn [bind] in H.
  assert (Q : result_folder o ++ str "/" ++ problem_type p ++ str "/" ++ stem p ++ str ".mdat" = path' Mdat p).
  { unfold path. rewrite <- !app_assoc. reflexivity. }
  rewrite Q in H. destruct (open refused d (path' Mdat p)) as [d2| |] eqn:Eo; cbn [bind] in H; try discriminate.
  apply open_is in Eo. subst d2. split; [congruence|].
  match type of H with Ok (_, ?x) = _ => assert (X : x = d1) by congruence; rewrite <- X; clear X H end.
  unfold mdat_adds. change (apply_all d [(path' Mdat p, []); (path' Mdat p, mdat_head p)]) with
    (append (apply_all d [(path' Mdat p, [])]) (path' Mdat p) (mdat_head p)).
  f_equal. unfold mdat_head, line_of. rewrite !lu by (assumption || (apply wider; assumption)). rewrite log_vars_is.
  replace (0 <? number_of_constraints p)%N with (negb (number_of_constraints p =? 0)%N).
  2:{ rewrite <- N.leb_antisym || idtac. destruct (N.eqb_spec (number_of_constraints p) 0) as [-> |Z]; [reflexivity|].
      symmetry. apply N.ltb_lt. lia. }
  destruct (number_of_constraints p =? 0)%N, (variables_logged o p); cbn [negb concat app]; rewrite ?app_nil_r, <- ?app_assoc; reflexivity.
Qed.

Definition entry (p : observed) : cstr := ","%char :: field dec e1 p.
Definition last_adds (p : observed) : list addition :=
  if used o Adat then [(path' Adat p, line_of [str "% evaluations = "; dec (num_func_evaluations p)])] else [].
Definition body_adds (p : observed) : list addition :=
  [(path' Mdat p, concat (map (solution_line dec ef ex) (mdat_rows p)))] ++
  (if used o Adat then [(path' Adat p, concat (map (solution_line dec ef ex) (adat_rows p)))] else []) ++
  (if compute_indicators o then
     [(path' Dat p, concat (map (with_target dec ef) (dat_rows p))); (path' Tdat p, concat (map (without_target dec ef) (tdat_rows p)));
      (path' Rdat p, concat (map (without_target dec ef) (rdat_rows p))); (info_path o (problem_type p), entry p)] else []) ++
  last_adds p.

Definition all_adds (s : previous) (there : bool) (p : observed) : list addition :=
  archive_adds p ++ (if compute_indicators o then indicator_adds s there p else []) ++ mdat_adds p ++ body_adds p.
Definition next_previous (s : previous) (p : observed) : previous :=
  if compute_indicators o then
    {| previous_function := Z.of_N (suite_dep_function p); previous_dimension := Z.of_N (number_of_variables p) |} else s.

Lemma problem_is : forall s d p s1 d1, plausible stem p -> run_problem ef ex e1 version refused o s d p = Ok (s1, d1) ->
  s1 = next_previous s p /\ d1 = apply_all d (all_adds s (exists_file d (info_path o (problem_type p))) p).
Proof.
  intros s d p s1 d1 P H. pose proof P as (S & L1 & L2 & B1 & B2 & B3 & B4 & B5 & B6 & B7 & B8 & B9 & B10 & B11).
  unfold run_problem in H.
  destruct (open_archive refused o p d) as [[a da]| |] eqn:Ea; cbn [bind] in H; try discriminate.
  apply archive_is in Ea as [-> ->]; [|exact P].
  assert (There : exists_file (apply_all d (archive_adds p)) (info_path o (problem_type p)) = exists_file d (info_path o (problem_type p))).
  { unfold exists_file. rewrite apply_at, texts_other; [reflexivity|]. unfold archive_adds. destruct (used o Adat); [|intros ? []].
    intros x I. cbn [In] in I. repeat (destruct I as [<-|I]; [apply path_info|]). destruct I. }
  match type of H with bind ?x _ = _ => destruct x as [[[h s2] d2]| |] eqn:Ei; cbn [bind] in H; try discriminate end.
  assert (Q : s2 = next_previous s p /\ d2 = apply_all (apply_all d (archive_adds p))
     (if compute_indicators o then indicator_adds s (exists_file d (info_path o (problem_type p))) p else []) /\
     h = if compute_indicators o then Some {| info_file := info_path o (problem_type p); dat_file := path' Dat p; tdat_file := path' Tdat p;
            rdat_file := path' Rdat p |} else None).
  { unfold next_previous. destruct (compute_indicators o).
    - destruct (logger_biobj_indicator ef version refused o s p (apply_all d (archive_adds p))) as [[h' d']| |] eqn:El; cbn [bind] in Ei; try discriminate.
      apply indicator_is in El as [-> ->]; [|exact P]. rewrite There in Ei. split; [congruence|]. split; congruence.
    - split; [congruence|]. unfold apply_all at 1. cbn [fold_left]. split; congruence. }
  destruct Q as (-> & -> & ->).
  match type of H with bind ?x _ = _ => destruct x as [[m d3]| |] eqn:Em; cbn [bind] in H; try discriminate end.
  apply mdat_is in Em as [-> ->]; [|exact P]. split; [congruence|].
  match type of H with Ok (_, ?x) = _ => assert (X : x = d1) by congruence; rewrite <- X; clear X H end.
  unfold all_adds. rewrite !apply_app. unfold body_adds. rewrite !apply_app. unfold last_adds.
  rewrite !rows_lines by assumption. unfold logger_biobj_indicator_finalize. rewrite dat_lines, !tdat_lines by assumption.
  rewrite !lu by (assumption || (apply wider; assumption)).
  assert (X1 : str "% evaluations = " ++ dec (num_func_evaluations p) ++ [NL] = line_of [str "% evaluations = "; dec (num_func_evaluations p)]).
  { unfold line_of. cbn [concat]. rewrite app_nil_r, <- !app_assoc. reflexivity. }
  rewrite X1.
  assert (X2 : str ", " ++ dec (suite_dep_instance p) ++ str ":" ++ dec (num_func_evaluations p) ++ str "|" ++ e1 (overall_value p) = entry p) by reflexivity.
  rewrite X2.
  destruct (used o Adat), (compute_indicators o); reflexivity.
Qed.
End Problem.
