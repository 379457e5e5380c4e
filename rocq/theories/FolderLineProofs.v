(** Proofs about reading the files of the bi-objective logger and about their names. *)
From Coq Require Import String List Arith NArith ZArith Ascii Bool Lia.
From Verif Require Import CBase StrModel StrSpec StrProofs FsModel FsSpec FsProofs FsRemoveProofs IdModel IdSpec IdProofs DblModel BiobjModel
  IndexModel FolderModel FolderSpec FolderProofs FolderRunProofs.
From Verif Require IndexSpec IndexProofs IndexRunProofs.
Import ListNotations.
Local Notation length := List.length.
Local Open Scope nat_scope.

(** * The experiment ends *)
Section Total.
Variables ef ex e1 : double -> cstr.
Variable version : cstr.
Variable refused : disk -> cstr -> bool.
Hypothesis Hopen : forall d x, refused d x = false.
Variable o : observer.
Hypothesis Hfits : fits o.
Variable stem : observed -> cstr.

Lemma open_ok : forall d x, open refused d x = Ok (append d x []).
Proof. intros d x. unfold open. rewrite Hopen. reflexivity. Qed.

Lemma file_total : forall p d ending targets, plausible stem p -> length ending <= 5 ->
  exists f d1, logger_biobj_indicator_initialize_file ef refused o p d ending targets = Ok (f, d1).
Proof.
  intros p d ending targets P L. destruct P as (S & L1 & L2 & _). pose proof (stem_length stem p S) as L3.
  unfold logger_biobj_indicator_initialize_file. rewrite (folder_ok o Hfits). cbn [bind].
  rewrite (join_folder o Hfits) by lia. cbn [bind]. rewrite (stem_ok stem p S). cbn [bind].
  assert (Ln : length (stem p ++ str "_hyp." ++ ending) <= 300).
  { rewrite !app_length. change (length (str "_hyp.")) with 5. lia. }
  rewrite strdupf_ok by lia. cbn [bind]. rewrite (join_deeper o Hfits) by lia. cbn [bind]. rewrite open_ok. cbn [bind]. eauto.
Qed.

Lemma indicator_total : forall s p d, plausible stem p -> exists h d1, logger_biobj_indicator ef version refused o s p d = Ok (h, d1).
Proof.
  intros s p d P. pose proof P as (S & L1 & L2 & _).
  unfold logger_biobj_indicator. rewrite (folder_ok o Hfits). cbn [bind].
  assert (Ln : length (problem_type p ++ str "_hyp.info") <= 300).
  { rewrite !app_length. change (length (str "_hyp.info")) with 9. lia. }
  rewrite strdupf_ok by lia. cbn [bind]. rewrite (join_folder o Hfits) by lia. cbn [bind]. cbv zeta. rewrite open_ok. cbn [bind].
  rewrite (stem_ok stem p S). cbn [bind].
  match goal with |- context [logger_biobj_indicator_initialize_file _ _ _ _ ?x _ _] => generalize x end. intros d3.
  destruct (file_total p d3 (str "dat") true P) as (f1 & d4 & ->); [cbn; lia|]. cbn [bind].
  destruct (file_total p d4 (str "tdat") false P) as (f2 & d5 & ->); [cbn; lia|]. cbn [bind].
  destruct (file_total p d5 (str "rdat") false P) as (f3 & d6 & ->); [cbn; lia|]. cbn [bind]. eauto.
Qed.

Lemma archive_total : forall p d, plausible stem p -> exists a d1, open_archive refused o p d = Ok (a, d1).
Proof.
  intros p d P. pose proof P as (S & L1 & L2 & _). unfold open_archive.
  assert (K : forall ending, length ending <= 20 -> exists a d1,
    (do folder <- folder_copy o; do path <- join folder (str "archive"); do file_name <- coco_strdupf (problem_id p ++ ending);
     do file <- join path file_name; do d1 <- open refused d file;
     Ok (Some file, append (append d1 file
      (str "% instance = " ++ print_lu 0 (suite_dep_instance p) ++ str ", name = " ++ problem_name p ++ [NL])) file
      (str "% function evaluation | 2 objectives " ++
       (if log_vars o p then str "| " ++ print_lu 0 (number_of_variables p) ++ str " variables" else []) ++ [NL]))) = Ok (a, d1)).
  { intros ending L. rewrite (folder_ok o Hfits). cbn [bind].
    rewrite (join_folder o Hfits) by (cbn; lia). cbn [bind].
    assert (Ln : length (problem_id p ++ ending) <= 300) by (rewrite app_length; lia).
    rewrite strdupf_ok by lia. cbn [bind]. rewrite (join_deeper o Hfits) by (cbn; lia). cbn [bind]. rewrite open_ok. cbn [bind]. eauto. }
  destruct (log_nondom_mode o); eauto; apply K; vm_compute; lia.
Qed.

Lemma mdat_total : forall p d, plausible stem p -> exists f d1, open_recommendations refused o p d = Ok (f, d1).
Proof.
  intros p d P. pose proof P as (S & L1 & L2 & _). pose proof (stem_length stem p S) as L3.
  unfold open_recommendations. rewrite (folder_ok o Hfits). cbn [bind].
  rewrite (join_folder o Hfits) by lia. cbn [bind]. rewrite (stem_ok stem p S). cbn [bind].
  assert (Ln : length (stem p ++ str ".mdat") <= 300).
  { rewrite !app_length. change (length (str ".mdat")) with 5. lia. }
  rewrite strdupf_ok by lia. cbn [bind]. rewrite (join_deeper o Hfits) by lia. cbn [bind]. rewrite open_ok. cbn [bind]. eauto.
Qed.

Lemma problem_total : forall s d p, plausible stem p -> exists s1 d1, run_problem ef ex e1 version refused o s d p = Ok (s1, d1).
Proof.
  intros s d p P. unfold run_problem. destruct (archive_total p d P) as (a & d1 & ->). cbn [bind]. destruct (compute_indicators o).
  - destruct (indicator_total s p d1 P) as (h & d2 & ->). cbn [bind]. destruct (mdat_total p d2 P) as (f & d3 & ->). cbn [bind]. cbv zeta. eauto.
  - cbn [bind]. destruct (mdat_total p d1 P) as (f & d3 & ->). cbn [bind]. cbv zeta. eauto.
Qed.

Lemma campaign_total : forall d ps, Forall (plausible stem) ps -> exists d1, campaign ef ex e1 version refused o d ps = Ok d1.
Proof.
  intros d ps P. assert (K : forall s d, exists s1 d1, run_all ef ex e1 version refused o s d ps = Ok (s1, d1)).
  { clear d. induction ps as [|p ps IH]; intros s d; [cbn [run_all]; eauto|]. inversion P as [|? ? P1 P2]; subst. cbn [run_all].
    destruct (problem_total s d p P1) as (s1 & d1 & ->). cbn [bind]. apply IH. exact P2. }
  unfold campaign. destruct (K new_previous d) as (s1 & d1 & ->). cbn [bind]. eauto.
Qed.
End Total.

(** * Reading *)
Section Reading.
Variable dec : N -> cstr.
Hypothesis Hdec : decimals dec.

Definition mark (c : ascii) : Prop := c = NL \/ c = TAB \/ c = ","%char \/ c = "%"%char.
Lemma mark_dec : forall c n, mark c -> (n < 2 ^ 64)%N -> ~ In c (dec n).
Proof.
  intros c n M H. apply IndexRunProofs.digits_not; [|destruct (Hdec n H) as (_ & D & _); exact D].
  destruct M as [->|[->|[->| ->]]]; intros Q; unfold is_digit, digits in Q; cbn in Q; repeat (destruct Q as [Q|Q]; [discriminate Q|]); destruct Q.
Qed.
Lemma mark_padded : forall c n, mark c -> (n < 2 ^ 64)%N -> ~ In c (padded (dec n)).
Proof.
  intros c n M H. pose proof (mark_dec c n M H) as Q. destruct (dec n) as [|x [|y t]]; try exact Q. cbn [padded]. intros [E|I]; [|auto].
  subst c. destruct M as [E|[E|[E|E]]]; discriminate E.
Qed.

Ltac plain := repeat first [ apply IndexRunProofs.not_in_app | apply mark_dec; [|assumption] | apply mark_padded; [|assumption]
  | apply IndexRunProofs.str_plain; reflexivity | assumption ].

Section Index.
Variable e1 : double -> cstr.
Variable version : cstr.
Variable o : observer.
Variable stem : observed -> cstr.

Lemma session_reads : forall ps ss s r ms, Forall (plausible stem) ps -> sessions_of ps ss -> readable e1 version o stem ps -> In s ss ->
  s = r :: ms ->
  ~ In NL (title version o r) /\ ~ In NL (comment o) /\ ~ In NL (session_line dec e1 stem s) /\
  split_on ","%char (session_line dec e1 stem s) =
    (str "function = " ++ padded (dec (suite_dep_function r))) :: (str " dim = " ++ padded (dec (number_of_variables r))) ::
    (str " " ++ stem r ++ str "_hyp.dat") :: map (field dec e1) s.
Proof.
  intros ps ss s r ms P (Ec & _ & _) (R1 & R2 & R3 & R4 & R5) I ->.
  assert (Sub : forall p, In p (r :: ms) -> In p ps) by (intros p Ip; rewrite <- Ec; apply in_concat; eauto).
  rewrite Forall_forall in P. pose proof (Sub r (or_introl eq_refl)) as Ir.
  destruct (P r Ir) as (_ & _ & _ & _ & Bf & _ & Bn & _). destruct (R4 r Ir) as (A1 & A2 & A3 & A4).
  pose proof (wider _ Bf) as Bf'. pose proof (wider _ Bn) as Bn'.
  assert (Mn : mark NL) by (left; reflexivity). assert (Mc : mark ","%char) by (right; right; left; reflexivity).
  assert (Fields : forall p c, In p (r :: ms) -> c = NL \/ c = ","%char -> ~ In c (field dec e1 p)).
  { intros p c Ip Hc. destruct (P p (Sub p Ip)) as (_ & _ & _ & _ & _ & Bi & _ & _ & Be & _). destruct (R5 (overall_value p)) as [X1 X2].
    unfold field. destruct Hc as [-> | ->]; plain. }
  assert (St : forall l, Forall (fun t => ~ In ","%char t) l -> split_on ","%char
     (str "function = " ++ padded (dec (suite_dep_function r)) ++ str ", dim = " ++ padded (dec (number_of_variables r)) ++
      str ", " ++ stem r ++ str "_hyp.dat" ++ concat (map (cons ","%char) l)) =
    (str "function = " ++ padded (dec (suite_dep_function r))) :: (str " dim = " ++ padded (dec (number_of_variables r))) ::
    (str " " ++ stem r ++ str "_hyp.dat") :: l).
  { intros l F. rewrite (app_assoc (str "function = ")). change (str ", dim = ") with (","%char :: str " dim = ").
    change (str ", ") with (","%char :: str " "). cbn [app].
    unfold split_on. rewrite IndexRunProofs.split_more by plain. f_equal.
    change (" "%char :: "d"%char :: "i"%char :: "m"%char :: " "%char :: "="%char :: " "%char :: ?t) with (str " dim = " ++ t).
    rewrite app_assoc. rewrite IndexRunProofs.split_more by plain. f_equal.
    change (" "%char :: stem r ++ str "_hyp.dat" ++ concat (map (cons ","%char) l)) with
      (str " " ++ stem r ++ str "_hyp.dat" ++ concat (map (cons ","%char) l)).
    rewrite !app_assoc, <- (app_assoc (str " ")). apply IndexRunProofs.split_fields; [plain|exact F]. }
  split; [unfold title; plain|]. split; [unfold comment; plain; destruct (log_nondom_mode o); apply IndexRunProofs.str_plain; reflexivity|].
  split.
  - assert (Cc : ~ In NL (concat (map (fun p => ","%char :: field dec e1 p) (r :: ms)))).
    { intros Q. apply in_concat in Q as (t & It & Jt). apply in_map_iff in It as (p & <- & Ip).
      destruct Jt as [E|Jt]; [discriminate E|]. exact (Fields p NL Ip (or_introl eq_refl) Jt). }
    unfold session_line. revert Cc. generalize (concat (map (fun p => ","%char :: field dec e1 p) (r :: ms))). intros z Cc. plain.
  - specialize (St (map (field dec e1) (r :: ms))). rewrite map_map in St. apply St.
    rewrite Forall_forall. intros t It. apply in_map_iff in It as (p & <- & Ip). apply Fields; auto.
Qed.

Lemma info_reads : forall ps ss type, Forall (plausible stem) ps -> sessions_of ps ss -> readable e1 version o stem ps ->
  info_lines dec e1 version o stem type ss <> [] ->
  lines (unlines (info_lines dec e1 version o stem type ss)) = info_lines dec e1 version o stem type ss.
Proof.
  intros ps ss type P S R N. apply IndexRunProofs.lines_unlines; [exact N|]. unfold info_lines in *.
  destruct (filter (of_type type) ss) as [|[|r ms] l] eqn:E; [constructor|constructor|].
  assert (K : forall s, In s ((r :: ms) :: l) -> In s ss /\ s <> []).
  { intros s I. rewrite <- E in I. apply filter_In in I as [I T]. split; [exact I|]. intros ->. discriminate T. }
  assert (I : In (r :: ms) ss) by (apply K; left; reflexivity).
  destruct (session_reads ps ss (r :: ms) r ms P S R I eq_refl) as (T & C & _).
  constructor; [exact T|]. constructor; [exact C|]. rewrite Forall_forall. intros t It. apply in_map_iff in It as (s & <- & Is).
  destruct (K s Is) as [Iss Ns]. destruct s as [|q qs]; [now destruct Ns|].
  destruct (session_reads ps ss (q :: qs) q qs P S R Iss eq_refl) as (_ & _ & L & _). exact L.
Qed.
End Index.

Section Data.
Variables ef ex : double -> cstr.
Hypothesis Hef : tabular ef.
Hypothesis Hex : tabular ex.
Variable o : observer.
Variable stem : observed -> cstr.

Lemma table_comment : forall l t, ~ In NL l -> is_comment l = true -> table (l ++ NL :: t) = table t.
Proof.
  intros l t N C. unfold table, lines, IndexSpec.lines. rewrite IndexRunProofs.split_more by exact N. cbn [filter]. rewrite C. reflexivity.
Qed.
Lemma table_row : forall l t, ~ In NL l -> is_comment l = false -> table (l ++ NL :: t) = split_on TAB l :: table t.
Proof.
  intros l t N C. unfold table, lines, IndexSpec.lines. rewrite IndexRunProofs.split_more by exact N. cbn [filter]. rewrite C. reflexivity.
Qed.
Lemma plain_row : forall n t, (n < 2 ^ 64)%N -> is_comment (dec n ++ t) = false.
Proof.
  intros n t H. destruct (Hdec n H) as (_ & _ & N & _). pose proof (mark_dec "%" n ltac:(right; right; right; reflexivity) H) as Q.
  destruct (dec n) as [|c s]; [now destruct N|]. cbn [app is_comment]. destruct (Ascii.eqb_spec c "%") as [->|]; [|reflexivity].
  exfalso. apply Q. left. reflexivity.
Qed.

Lemma cells_split : forall l, Forall (fun t => ~ In TAB t) l -> split_on TAB (concat (map cell l)) = l ++ [[]].
Proof.
  induction l as [|t l IH]; intros F; [reflexivity|]. inversion F as [|? ? F1 F2]; subst. cbn [map concat app]. unfold cell at 1.
  rewrite <- app_assoc. cbn [app]. unfold split_on in *. rewrite IndexRunProofs.split_more by exact F1. f_equal. apply IH. exact F2.
Qed.

Lemma integer_mark : forall c z, c = NL \/ c = TAB -> (Z.abs z < 2 ^ 63)%Z -> ~ In c (integer_text dec z).
Proof.
  intros c z M B. unfold integer_text, IndexSpec.integer_text. apply IndexRunProofs.not_in_app.
  - destruct (z <? 0)%Z; apply IndexRunProofs.str_plain; destruct M as [->| ->]; reflexivity.
  - apply mark_dec; [destruct M as [->| ->]; [left|right; left]; reflexivity|]. lia.
Qed.

Lemma solution_table : forall l t, Forall row_fine l ->
  table (concat (map (solution_line dec ef ex) l) ++ t) = map (solution_columns dec ef ex) l ++ table t.
Proof.
  induction l as [|r l IH]; intros t F; [reflexivity|]. inversion F as [|? ? [B1 B2] F2]; subst. cbn [map concat app].
  rewrite <- app_assoc. unfold solution_line at 1, line_of. rewrite <- app_assoc. cbn [app].
  set (cells := dec (r_evaluation r) :: _).
  assert (K : forall c, c = NL \/ c = TAB -> Forall (fun u => ~ In c u) cells).
  { intros c M. rewrite Forall_forall. intros u [<-|I].
    - apply mark_dec; [|exact B1]. destruct M as [->| ->]; [left|right; left]; reflexivity.
    - apply in_app_or in I as [I|I]; apply in_map_iff in I as (v & <- & Iv).
      + destruct (Hef v) as (X1 & X2 & _). destruct M as [->| ->]; assumption.
      + destruct v as [z|v]; [apply integer_mark; auto|]. destruct (Hex v) as (X1 & X2 & _). destruct M as [->| ->]; assumption. }
  rewrite table_row.
  - rewrite IH by exact F2. cbn [map app]. f_equal. rewrite cells_split by (apply K; auto). unfold solution_columns, cells. cbn [app].
    rewrite <- app_assoc. reflexivity.
  - intros I. apply in_concat in I as (u & Iu & Ju). apply in_map_iff in Iu as (v & <- & Iv). unfold cell in Ju.
    apply in_app_or in Ju as [J|[J|[]]]; [|discriminate J]. pose proof (K NL (or_introl eq_refl)) as Q. rewrite Forall_forall in Q. exact (Q v Iv J).
  - unfold cells. cbn [map concat]. unfold cell at 1. rewrite <- app_assoc. apply plain_row. exact B1.
Qed.

Lemma with_table : forall l t, Forall (fun r => let '(n, _, _) := r in (n < 2 ^ 64)%N) l ->
  table (concat (map (with_target dec ef) l) ++ t) = map (fun r => let '(n, v, t) := r in [dec n; ef v; ef t]) l ++ table t.
Proof.
  induction l as [|[[n v] g] l IH]; intros t F; [reflexivity|]. inversion F as [|? ? B F2]; subst. cbn [map concat app].
  destruct (Hef v) as (X1 & X2 & _). destruct (Hef g) as (Y1 & Y2 & _).
  assert (Mn : mark NL) by (left; reflexivity). assert (Mt : mark TAB) by (right; left; reflexivity).
  rewrite <- app_assoc. unfold with_target at 1, line_of, cell. cbn [concat]. rewrite app_nil_r. rewrite <- !(app_assoc _ [NL]). cbn [app].
  rewrite table_row.
  - rewrite IH by exact F2. f_equal. rewrite <- !app_assoc. cbn [app]. unfold split_on.
    rewrite IndexRunProofs.split_more by plain. rewrite IndexRunProofs.split_more by plain. rewrite IndexRunProofs.split_one by plain. reflexivity.
  - plain.
  - rewrite <- !app_assoc. apply plain_row. exact B.
Qed.

Lemma without_table : forall l t, Forall (fun r : N * double => (fst r < 2 ^ 64)%N) l ->
  table (concat (map (without_target dec ef) l) ++ t) = map (fun r => let '(n, v) := r in [dec n; ef v]) l ++ table t.
Proof.
  induction l as [|[n v] l IH]; intros t F; [reflexivity|]. inversion F as [|? ? B F2]; subst. cbn [map concat app]. cbn [fst] in B.
  destruct (Hef v) as (X1 & X2 & _).
  assert (Mn : mark NL) by (left; reflexivity). assert (Mt : mark TAB) by (right; left; reflexivity).
  rewrite <- app_assoc. unfold without_target at 1, line_of, cell. cbn [concat]. rewrite app_nil_r. rewrite <- !(app_assoc _ [NL]). cbn [app].
  rewrite table_row.
  - rewrite IH by exact F2. f_equal. rewrite <- !app_assoc. cbn [app]. unfold split_on.
    rewrite IndexRunProofs.split_more by plain. rewrite IndexRunProofs.split_one by plain. reflexivity.
  - plain.
  - rewrite <- !app_assoc. apply plain_row. exact B.
Qed.

Lemma head_table : forall p b t, (suite_dep_index p < 2 ^ 64)%N -> (suite_dep_instance p < 2 ^ 64)%N -> ~ In NL (problem_name p) ->
  table (indicator_head dec ef p b ++ t) = table t.
Proof.
  intros p b t B1 B2 N. assert (Mn : mark NL) by (left; reflexivity). destruct (Hef (best_value p)) as (X1 & _).
  unfold indicator_head, line_of. cbn [concat]. rewrite !app_nil_r. rewrite <- !(app_assoc _ [NL]). cbn [app].
  rewrite <- !(app_assoc _ _ t). cbn [app].
  rewrite table_comment by (plain || reflexivity). rewrite <- !(app_assoc _ (NL :: _) _). cbn [app].
  rewrite table_comment by (plain || reflexivity). rewrite <- ?(app_assoc _ (NL :: _) _). cbn [app].
  rewrite table_comment by (plain || reflexivity). rewrite <- ?(app_assoc _ (NL :: _) _). cbn [app].
  rewrite table_comment; [reflexivity| |reflexivity]. plain. destruct b; apply IndexRunProofs.str_plain; reflexivity.
Qed.

Lemma one_head : forall l t, ~ In NL (concat l) -> is_comment (concat l) = true -> table (line_of l ++ t) = table t.
Proof. intros l t N C. unfold line_of. rewrite <- app_assoc. cbn [app]. apply table_comment; assumption. Qed.

Lemma part_table : forall k p t, plausible stem p -> ~ In NL (problem_name p) ->
  table (part dec ef ex o k p ++ t) = rows dec ef ex k p ++ table t.
Proof.
  intros k p t P N. destruct P as (_ & _ & _ & B1 & B2 & B3 & B4 & B5 & B6 & B7 & B8 & B9 & B10 & B11).
  assert (Mn : mark NL) by (left; reflexivity). pose proof (wider _ B4) as B4'.
  destruct k; unfold part, rows; rewrite <- !app_assoc.
  - rewrite one_head by (cbn [concat]; rewrite ?app_nil_r; (plain || reflexivity)).
    rewrite one_head by (destruct (variables_logged o p); cbn [concat]; rewrite ?app_nil_r; (plain || reflexivity)).
    rewrite solution_table by exact B7. f_equal.
    apply one_head; cbn [concat]; rewrite ?app_nil_r; (plain || reflexivity).
  - rewrite head_table by assumption. apply with_table. exact B9.
  - rewrite head_table by assumption. apply without_table. exact B10.
  - rewrite head_table by assumption. apply without_table. exact B11.
  - rewrite one_head by (cbn [concat]; rewrite ?app_nil_r; (plain || reflexivity)).
    rewrite one_head by (destruct (number_of_constraints p =? 0)%N, (variables_logged o p); cbn [concat app]; rewrite ?app_nil_r; (plain || reflexivity)).
    apply solution_table. exact B8.
Qed.

Lemma parts_table : forall k ps, Forall (plausible stem) ps -> (forall p, In p ps -> ~ In NL (problem_name p)) ->
  table (concat (map (part dec ef ex o k) ps)) = concat (map (rows dec ef ex k) ps) ++ [[[]]].
Proof.
  intros k. induction ps as [|p ps IH]; intros P N; [reflexivity|]. inversion P as [|? ? P1 P2]; subst. cbn [map concat].
  rewrite part_table; [|exact P1|apply N; left; reflexivity]. rewrite IH; [|exact P2|intros q I; apply N; right; exact I].
  rewrite app_assoc. reflexivity.
Qed.
End Data.
End Reading.

(** * The names of the files *)
Definition U : ascii := "_"%char.

Lemma occurs_skip : forall u v c j, ~ In U u -> occurs_at (u ++ v) [U; c] j -> exists j', j = length u + j' /\ occurs_at v [U; c] j'.
Proof.
  induction u as [|x u IH]; intros v c j N (a & b & E & L).
  - exists j. split; [reflexivity|]. exists a, b. auto.
  - destruct a as [|y a].
    + cbn [app] in E. exfalso. apply N. left. congruence.
    + cbn [app] in E. assert (E' : u ++ v = a ++ [U; c] ++ b) by (cbn [app]; congruence). cbn [length] in L.
      destruct (IH v c (length a)) as (j' & Ej & O); [intros I; apply N; right; exact I|exists a, b; auto|].
      exists j'. split; [cbn [length]; lia|exact O].
Qed.

Lemma occurs_next : forall b v c j, b <> c -> occurs_at (U :: b :: v) [U; c] j -> exists j', j = 1 + j' /\ occurs_at (b :: v) [U; c] j'.
Proof.
  intros b v c j N (x & y & E & L). destruct x as [|z x]; [cbn [app] in E; exfalso; apply N; congruence|].
  exists (length x). split; [cbn [length] in L; lia|]. exists x, y. cbn [app] in E. split; [|reflexivity]. cbn [app]. congruence.
Qed.

Lemma digits_plain : forall s, Forall (fun c => In c (str digits)) s -> ~ In U s.
Proof.
  intros s D I. rewrite Forall_forall in D. specialize (D U I). cbn in D. repeat (destruct D as [D|D]; [discriminate D|]). destruct D.
Qed.

Lemma id_stem : forall name tf ti td, ~ In U name -> Forall (fun c => In c (str digits)) tf -> Forall (fun c => In c (str digits)) ti ->
  stem_of (name ++ str "_f" ++ tf ++ str "_i" ++ ti ++ str "_d" ++ td) (name ++ str "_f" ++ tf ++ str "_d" ++ td).
Proof.
  intros name tf ti td N Df Di. exists (name ++ str "_f" ++ tf), ti, td.
  split; [rewrite <- !app_assoc; reflexivity|]. split; [rewrite <- !app_assoc; reflexivity|].
  pose proof (digits_plain tf Df) as Nf. pose proof (digits_plain ti Di) as Ni.
  assert (Nf' : ~ In U ("f"%char :: tf)) by (intros [E|I]; [discriminate E|auto]).
  assert (Ni' : ~ In U ("i"%char :: ti)) by (intros [E|I]; [discriminate E|auto]).
  assert (Skip : forall c j, c <> "f"%char -> occurs_at (name ++ str "_f" ++ tf ++ str "_i" ++ ti ++ str "_d" ++ td) [U; c] j ->
    exists j', j = length (name ++ str "_f" ++ tf) + j' /\ occurs_at (str "_i" ++ ti ++ str "_d" ++ td) [U; c] j').
  { intros c j Nc O. apply occurs_skip in O as (j1 & -> & O); [|exact N].
    change (str "_f" ++ tf ++ str "_i" ++ ti ++ str "_d" ++ td) with (U :: "f"%char :: (tf ++ str "_i" ++ ti ++ str "_d" ++ td)) in O.
    apply occurs_next in O as (j2 & -> & O); [|congruence].
    change ("f"%char :: (tf ++ str "_i" ++ ti ++ str "_d" ++ td)) with (("f"%char :: tf) ++ str "_i" ++ ti ++ str "_d" ++ td) in O.
    apply occurs_skip in O as (j3 & -> & O); [|exact Nf'].
    exists j3. split; [|exact O]. rewrite !app_length. cbn [length]. change (length (str "_f")) with 2. lia. }
  split; split.
  - exists (name ++ str "_f" ++ tf), (ti ++ str "_d" ++ td). split; [rewrite <- !app_assoc; reflexivity|reflexivity].
  - intros j O. apply Skip in O as (j' & -> & _); [lia|discriminate].
  - exists ((name ++ str "_f" ++ tf) ++ str "_i" ++ ti), td. split; [rewrite <- !app_assoc; reflexivity|reflexivity].
  - intros j O. apply Skip in O as (j' & -> & O); [|discriminate].
    change (str "_i" ++ ti ++ str "_d" ++ td) with (U :: "i"%char :: (ti ++ str "_d" ++ td)) in O.
    apply occurs_next in O as (j2 & -> & O); [|discriminate].
    change ("i"%char :: (ti ++ str "_d" ++ td)) with (("i"%char :: ti) ++ str "_d" ++ td) in O.
    apply occurs_skip in O as (j3 & -> & _); [|exact Ni']. rewrite !(app_length _ (str "_i" ++ ti)), (app_length (str "_i")). cbn [length].
    change (length (str "_i")) with 2. lia.
Qed.

Lemma same_length : forall (a a' x x' : cstr), length a = length a' -> a ++ x = a' ++ x' -> a = a' /\ x = x'.
Proof.
  induction a as [|c a IH]; intros [|c' a'] x x' L E; try discriminate L; [auto|]. cbn [app length] in *.
  destruct (IH a' x x') as [-> ->]; [lia|congruence|]. split; [congruence|reflexivity].
Qed.

Lemma stem_unique : forall id s t, stem_of id s -> stem_of id t -> s = t.
Proof.
  intros id s t (a & i & b & E & -> & [F1 F2] & [G1 G2]) (a' & i' & b' & E' & -> & [F1' F2'] & [G1' G2']).
  assert (La : length a = length a') by (apply Nat.le_antisymm; auto).
  assert (Li : length (a ++ str "_i" ++ i) = length (a' ++ str "_i" ++ i')) by (apply Nat.le_antisymm; auto).
  rewrite E in E'. destruct (same_length _ _ _ _ La E') as [-> _]. f_equal.
  assert (X : (a' ++ str "_i" ++ i) ++ str "_d" ++ b = (a' ++ str "_i" ++ i') ++ str "_d" ++ b') by (rewrite <- !app_assoc; exact E').
  apply (same_length _ _ _ _ Li X).
Qed.

(** Numerals with a minimal number of digits *)
Lemma numeral_unique : forall w n s t, numeral w n s -> numeral w n t -> s = t.
Proof.
  intros w n s t (V & D & E & W & F) (V' & D' & E' & W' & F'). rewrite <- V' in V. clear V' n.
  change (Forall is_digit s) in D. change (Forall is_digit t) in D'.
  revert w t D' E' V W F W' F'. induction s as [|c s IH] using rev_ind; [now destruct E|]. intros w t.
  destruct t as [|c' t _] using rev_ind; [intros ? []; reflexivity|]. intros D' E' V W F W' F'.
  apply Forall_app in D as [D1 D2]. apply Forall_app in D' as [D1' D2'].
  inversion D2 as [|? ? Dc _]; inversion D2' as [|? ? Dc' _]; subst.
  rewrite !IndexProofs.number_snoc in V.
  destruct (IndexProofs.digit_value c Dc) as [Lc _]. destruct (IndexProofs.digit_value c' Dc') as [Lc' _].
  assert (number s = number t /\ number [c] = number [c']) as [Vs Vc] by lia.
  apply IndexProofs.digit_inj in Vc; auto. subst c'. f_equal. rewrite !app_length in *. cbn [length] in *.
  destruct s as [|a s], t as [|b t]; auto.
  - exfalso. cbn [length app hd_error] in *. apply (IndexProofs.number_positive (b :: t) D1'); [discriminate| |symmetry; exact Vs].
    exact (F' ltac:(lia) ltac:(lia)).
  - exfalso. cbn [length app hd_error] in *. apply (IndexProofs.number_positive (a :: s) D1); [discriminate| |exact Vs].
    exact (F ltac:(lia) ltac:(lia)).
  - apply (IH D1 ltac:(discriminate) (w - 1)); auto; try discriminate.
    + lia.
    + intros L1 L2. apply F; lia.
    + lia.
    + intros L1 L2. apply F'; lia.
Qed.

Lemma id_stem_exists : forall name wf wi wd f i n id, ~ In U name -> id_text name wf wi wd f i n id ->
  exists tf td, numeral wf f tf /\ numeral wd n td /\ stem_of id (name ++ str "_f" ++ tf ++ str "_d" ++ td).
Proof.
  intros name wf wi wd f i n id N (tf & ti & td & F & I & D & ->). exists tf, td. split; [exact F|]. split; [exact D|].
  apply id_stem; [exact N|apply F|apply I].
Qed.

Lemma id_stems : forall name wf wi wd f i n id f' i' n' id' s s', ~ In U name ->
  id_text name wf wi wd f i n id -> id_text name wf wi wd f' i' n' id' -> stem_of id s -> stem_of id' s' ->
  (s = s' <-> f = f' /\ n = n').
Proof.
  intros name wf wi wd f i n id f' i' n' id' s s' N T T' S S'.
  destruct (id_stem_exists _ _ _ _ _ _ _ _ N T) as (tf & td & F & D & Q). destruct (id_stem_exists _ _ _ _ _ _ _ _ N T') as (tf' & td' & F' & D' & Q').
  rewrite (stem_unique _ _ _ S Q), (stem_unique _ _ _ S' Q'). split.
  - intros E. apply app_inv_head in E. apply app_inv_head in E.
    assert (X : tf = tf' /\ U :: "d"%char :: td = U :: "d"%char :: td').
    { apply (split_digits tf tf' U U ("d"%char :: td) ("d"%char :: td')); [apply F|apply F'| | |exact E];
        intros Z; cbn in Z; repeat (destruct Z as [Z|Z]; [discriminate Z|]); destruct Z. }
    destruct X as [-> X]. assert (td = td') by congruence. subst td'. destruct F as [<- _], F' as [<- _], D as [<- _], D' as [<- _]. auto.
  - intros [-> ->]. rewrite (numeral_unique _ _ _ _ F F'), (numeral_unique _ _ _ _ D D'). reflexivity.
Qed.

(** * The paths *)
Lemma split_last : forall c (a b x y : cstr), ~ In c x -> ~ In c y -> a ++ c :: x = b ++ c :: y -> a = b /\ x = y.
Proof.
  intros c. induction a as [|z a IH]; intros [|z' b] x y Nx Ny E; cbn [app] in E.
  - split; [reflexivity|congruence].
  - exfalso. apply Nx. assert (Q : x = b ++ c :: y) by congruence. rewrite Q. apply in_or_app. right. left. reflexivity.
  - exfalso. apply Ny. assert (Q : a ++ c :: x = y) by congruence. rewrite <- Q. apply in_or_app. right. left. reflexivity.
  - destruct (IH b x y Nx Ny) as [-> ->]; [congruence|]. split; [congruence|reflexivity].
Qed.

Lemma paths_same : forall o stem k p q, ~ In "/"%char (stem p) -> ~ In "/"%char (stem q) ->
  (path o stem k p = path o stem k q <->
   match k with Adat => problem_id p = problem_id q | _ => problem_type p = problem_type q /\ stem p = stem q end).
Proof.
  intros o stem k p q Np Nq. split.
  - intros E. unfold path in E. do 2 apply app_inv_head in E. apply app_inv_tail in E.
    destruct k; try (apply split_last in E as [Et E]; [split; [exact Et|]; try (apply app_inv_tail in E); exact E| |];
      try (apply IndexRunProofs.not_in_app; [|apply IndexRunProofs.str_plain; reflexivity]); assumption).
    apply app_inv_head in E. apply app_inv_tail in E. exact E.
  - intros H. unfold path. destruct k; [rewrite H; reflexivity|..]; destruct H as [-> ->]; reflexivity.
Qed.
