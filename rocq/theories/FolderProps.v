(** C67: the folder written by the bi-objective logger during an experiment. *)
From Coq Require Import String List Arith NArith ZArith Ascii Bool Lia.
From Verif Require Import CBase StrModel StrSpec FsModel IdModel IdSpec IdProofs DblModel BiobjModel IndexModel FolderModel FolderSpec
  FolderProofs FolderRunProofs FolderLineProofs.
From Verif Require IndexRunProofs.
Import ListNotations.
Local Open Scope nat_scope.

(** Every data file has what it had before and then the parts of the problems that belong to it, in the order of the experiment;
    the index of a type of problems lists its sessions; nothing else changes. *)
Theorem C67_files : forall dec, decimals dec -> forall ef ex e1 version refused o, fits o ->
  forall stem d ps d', Forall (plausible stem) ps -> campaign ef ex e1 version refused o d ps = Ok d' ->
  data_recorded dec ef ex o stem ps d d' /\ untouched o stem ps d d' /\
  (compute_indicators o = true -> no_index o d -> typed ps ->
     (exists ss, sessions_of ps ss) /\ forall ss, sessions_of ps ss -> info_recorded dec e1 version o stem ss d').
Proof.
  intros dec Hdec ef ex e1 version refused o F stem d ps d' P H. unfold campaign in H.
  destruct (run_all ef ex e1 version refused o new_previous d ps) as [[s1 d1]| |] eqn:E; cbn [bind] in H; try discriminate.
  assert (d1 = d') by congruence. subst d1. split; [|split].
  - intros k p U _. eapply data_run; eauto.
  - eapply untouched_run; eauto.
  - intros C N T. split; [exists (cut ps); apply cut_sessions|]. intros ss S. eapply info_recorded_run; eauto.
Qed.

(** The experiment ends unless a file cannot be opened. *)
Theorem C67_total : forall ef ex e1 version refused o, fits o -> (forall d x, refused d x = false) ->
  forall stem d ps, Forall (plausible stem) ps -> exists d', campaign ef ex e1 version refused o d ps = Ok d'.
Proof. intros. eapply campaign_total; eauto. Qed.

(** Whatever is in the folder before is kept. *)
Theorem C67_kept : forall dec, decimals dec -> forall ef ex e1 version refused o, fits o ->
  forall stem d ps d', Forall (plausible stem) ps -> campaign ef ex e1 version refused o d ps = Ok d' -> extends d d'.
Proof.
  intros dec Hdec ef ex e1 version refused o F stem d ps d' P H. unfold campaign in H.
  destruct (run_all ef ex e1 version refused o new_previous d ps) as [[s1 d1]| |] eqn:E; cbn [bind] in H; try discriminate.
  assert (d1 = d') by congruence. subst d1. eapply kept_run; eauto.
Qed.

(** The index is read line by line; the line of a session splits at the commas into the function, the dimension, the data file and
    one entry for each problem. *)
Theorem C67_lines : forall dec, decimals dec -> forall e1 version o stem ps ss, Forall (plausible stem) ps -> sessions_of ps ss ->
  readable e1 version o stem ps ->
  (forall type, info_lines dec e1 version o stem type ss <> [] ->
     lines (unlines (info_lines dec e1 version o stem type ss)) = info_lines dec e1 version o stem type ss) /\
  (forall s r ms, In s ss -> s = r :: ms -> split_on ","%char (session_line dec e1 stem s) =
     (str "function = " ++ padded (dec (suite_dep_function r))) :: (str " dim = " ++ padded (dec (number_of_variables r))) ::
     (str " " ++ stem r ++ str "_hyp.dat") :: map (field dec e1) s).
Proof.
  intros dec Hdec e1 version o stem ps ss P S R. split.
  - intros type N. eapply info_reads; eauto.
  - intros s r ms I E. eapply session_reads; eauto.
Qed.

(** A data file without its comments is the table of the rows of its problems. *)
Theorem C67_data : forall dec, decimals dec -> forall ef ex, tabular ef -> tabular ex -> forall o stem k ps, Forall (plausible stem) ps ->
  (forall p, In p ps -> ~ In NL (problem_name p)) ->
  table (concat (map (part dec ef ex o k) ps)) = concat (map (rows dec ef ex k) ps) ++ [[[]]].
Proof. intros. eapply parts_table; eauto. Qed.

(** Ids of a suite: the stems of two problems are the same exactly if function and dimension are; the files are shared by the
    problems with one type and stem, the archives by those with one id. *)
Theorem C67_ids : forall name wf wi wd, ~ In "_"%char name ->
  (forall f i n id, id_text name wf wi wd f i n id -> exists s, stem_of id s) /\
  (forall f i n id f' i' n' id' s s', id_text name wf wi wd f i n id -> id_text name wf wi wd f' i' n' id' ->
     stem_of id s -> stem_of id' s' -> (s = s' <-> f = f' /\ n = n')) /\
  (forall o stem k p q, ~ In "/"%char (stem p) -> ~ In "/"%char (stem q) ->
     (path o stem k p = path o stem k q <->
      match k with Adat => problem_id p = problem_id q | _ => problem_type p = problem_type q /\ stem p = stem q end)).
Proof.
  intros name wf wi wd N. split; [|split].
  - intros f i n id T. destruct (id_stem_exists name wf wi wd f i n id N T) as (tf & td & _ & _ & S). eauto.
  - intros. eapply id_stems; eauto.
  - exact paths_same.
Qed.

(** An example *)
Definition an_observer : observer :=
  {| result_folder := str "exdata/run"; algorithm_name := str "A"; algorithm_info := str "info"; log_nondom_mode := NondomAll;
     log_vars_mode := VarsLowDim; compute_indicators := true |}.
Definition a_problem (suite type : string) (f n i e : N) : observed :=
  {| suite_name := str suite; problem_id := str "bbob-biobj_f" ++ print_lu 2 f ++ str "_i" ++ print_lu 2 i ++ str "_d" ++ print_lu 2 n;
     problem_type := str type; problem_name := str "P"; suite_dep_index := 7; suite_dep_function := f; suite_dep_instance := i;
     number_of_variables := n; number_of_constraints := 0; best_value := dint 1; num_func_evaluations := e; overall_value := dint 2;
     adat_rows := [{| r_evaluation := 1; r_values := [dint 1; dint 2]; r_variables := [inl (-4)%Z; inr (dint 1)] |}];
     dat_rows := [(1%N, dint 2, dint 2); (e, dint 2, dint 1)]; tdat_rows := [(1%N, dint 2)]; rdat_rows := []; mdat_rows := [] |}.
Definition a_stem (p : observed) : cstr :=
  str "bbob-biobj_f" ++ print_lu 2 (suite_dep_function p) ++ str "_d" ++ print_lu 2 (number_of_variables p).
Definition an_experiment : list observed :=
  [a_problem "bbob-biobj" "t1" 1 2 1 50; a_problem "bbob-biobj" "t1" 1 2 2 60; a_problem "bbob-biobj" "t2" 12 2 1 70;
   a_problem "bbob-biobj" "t1" 3 2 1 80; a_problem "bbob-biobj" "t1" 1 2 3 90].
Definition a_print (x : double) : cstr := str (if deq x (dint 1) then "1e+00" else "2e+00").
Definition shown (ps : list observed) (x : string) : option (list string) :=
  match campaign a_print a_print a_print (str "2.7") (fun _ _ => false) an_observer (fun _ => None) ps with
  | Ok d => match d (str x) with Some t => Some (map string_of_list_ascii (lines t)) | None => None end
  | _ => None
  end.

Lemma a_problem_plausible : forall suite type f n i e, String.length type <= 200 -> (f < 2 ^ 63)%N -> (n < 2 ^ 63)%N -> (i < 2 ^ 63)%N ->
  (e < 2 ^ 64)%N -> plausible a_stem (a_problem suite type f n i e).
Proof.
  intros suite type f n i e L F N I E. unfold plausible, a_stem, a_problem.
  cbn [problem_id problem_type suite_dep_index suite_dep_function suite_dep_instance number_of_variables number_of_constraints
    num_func_evaluations adat_rows dat_rows tdat_rows rdat_rows mdat_rows].
  assert (W : forall m, (m < 2 ^ 63)%N -> (m < 2 ^ 64)%N) by (intros m H; eapply N.lt_trans; [exact H|reflexivity]).
  split.
  - apply (id_stem (str "bbob-biobj") (print_lu 2 f) (print_lu 2 i) (print_lu 2 n)).
    + apply IndexRunProofs.str_plain. reflexivity.
    + apply (print_lu_numeral 2 f (W f F)).
    + apply (print_lu_numeral 2 i (W i I)).
  - split; [|split; [|split; [reflexivity|]]].
    + pose proof (print_lu_length 2 f ltac:(lia)). pose proof (print_lu_length 2 i ltac:(lia)). pose proof (print_lu_length 2 n ltac:(lia)).
      rewrite !app_length. change (List.length (str "bbob-biobj_f")) with 12. change (List.length (str "_i")) with 2.
      change (List.length (str "_d")) with 2. lia.
    + clear - L. revert L. generalize 200 as m. induction type as [|c type IH]; intros m L; [cbn; lia|].
      cbn [str list_ascii_of_string List.length String.length] in *. destruct m as [|m]; [lia|]. apply le_n_S. apply IH. lia.
    + split; [exact F|]. split; [exact (W i I)|]. split; [exact N|]. split; [reflexivity|]. split; [exact E|].
      split; [constructor; [|constructor]; split; [reflexivity|]; intros z [Q|[Q|[]]]; [assert (z = (-4)%Z) by congruence; subst; reflexivity|discriminate]|].
      split; [constructor|]. split; [constructor; [reflexivity|constructor; [exact E|constructor]]|].
      split; [constructor; [reflexivity|constructor]|constructor].
Qed.

Example C67_example_hypotheses : decimals (print_lu 0) /\ fits an_observer /\ Forall (plausible a_stem) an_experiment /\
  no_index an_observer (fun _ => None) /\ typed an_experiment /\ readable a_print (str "2.7") an_observer a_stem an_experiment /\
  tabular a_print.
Proof.
  assert (Q : forall x, a_print x = str "1e+00" \/ a_print x = str "2e+00") by (intros x; unfold a_print; destruct (deq x (dint 1)); auto).
  split; [exact (print_lu_numeral 0)|]. split; [split; [discriminate|apply Nat.leb_le; vm_compute; reflexivity]|]. split.
  { unfold an_experiment. repeat (constructor; [apply a_problem_plausible; [vm_compute; lia|reflexivity|reflexivity|reflexivity|reflexivity]|]). constructor. }
  split; [intros type; reflexivity|]. split.
  { intros p q Ip Iq E. unfold an_experiment in Ip, Iq.
    repeat (destruct Ip as [<-|Ip]; [repeat (destruct Iq as [<-|Iq]; [solve [reflexivity | vm_compute in E; discriminate E]|]); destruct Iq|]).
    destruct Ip. }
  split.
  - split; [apply IndexRunProofs.str_plain; reflexivity|]. split; [apply IndexRunProofs.str_plain; reflexivity|].
    split; [apply IndexRunProofs.str_plain; reflexivity|]. split.
    + intros p Ip. unfold an_experiment in Ip.
      repeat (destruct Ip as [<-|Ip]; [repeat split; apply IndexRunProofs.str_plain; vm_compute; reflexivity|]). destruct Ip.
    + intros x. destruct (Q x) as [-> | ->]; split; apply IndexRunProofs.str_plain; reflexivity.
  - intros x. destruct (Q x) as [-> | ->]; repeat split; apply IndexRunProofs.str_plain; reflexivity.
Qed.

Example C67_example :
  shown an_experiment "exdata/run/t1_hyp.info" = Some
    ["suite = 'bbob-biobj', algorithm = 'A', indicator = 'hyp', folder = 't1', coco_version = '2.7'"; "% info";
     "function =  1, dim =  2, bbob-biobj_f01_d02_hyp.dat, 1:50|2e+00, 2:60|2e+00";
     "function =  3, dim =  2, bbob-biobj_f03_d02_hyp.dat, 1:80|2e+00";
     "function =  1, dim =  2, bbob-biobj_f01_d02_hyp.dat, 3:90|2e+00"]%string /\
  shown an_experiment "exdata/run/t2_hyp.info" = Some
    ["suite = 'bbob-biobj', algorithm = 'A', indicator = 'hyp', folder = 't2', coco_version = '2.7'"; "% info";
     "function = 12, dim =  2, bbob-biobj_f12_d02_hyp.dat, 1:70|2e+00"]%string /\
  shown an_experiment "exdata/run/t1/bbob-biobj_f01_d02_hyp.tdat" = Some
    ["%"; "% index = 7, name = P"; "% instance = 1, reference value = 1e+00"; "% function evaluation | indicator value";
     "1" ++ String TAB "2e+00";
     "%"; "% index = 7, name = P"; "% instance = 2, reference value = 1e+00"; "% function evaluation | indicator value";
     "1" ++ String TAB "2e+00";
     "%"; "% index = 7, name = P"; "% instance = 3, reference value = 1e+00"; "% function evaluation | indicator value";
     "1" ++ String TAB "2e+00"; ""]%string.
Proof. vm_compute. auto. Qed.

Example C67_example_ids : id_text (str "bbob-biobj") 2 2 2 1 5 40 (str "bbob-biobj_f01_i05_d40") /\
  stem_of (str "bbob-biobj_f01_i05_d40") (str "bbob-biobj_f01_d40").
Proof.
  split.
  - exists (print_lu 2 1), (print_lu 2 5), (print_lu 2 40). repeat (split; [apply print_lu_numeral; reflexivity|]). reflexivity.
  - apply (id_stem (str "bbob-biobj") (print_lu 2 1) (print_lu 2 5) (print_lu 2 40)).
    + apply IndexRunProofs.str_plain. reflexivity.
    + apply (print_lu_numeral 2 1). reflexivity.
    + apply (print_lu_numeral 2 5). reflexivity.
Qed.

(** Returning to a function and dimension: there are two lines in the index with one data file, which has the data of both. *)
Theorem C67_return_refuted : exists ps d' s t, Forall (plausible a_stem) ps /\ typed ps /\
  campaign a_print a_print a_print (str "2.7") (fun _ _ => false) an_observer (fun _ => None) ps = Ok d' /\
  sessions_of ps [s; t; s] /\ s <> t /\ path an_observer a_stem Dat (hd (a_problem "" "" 1 2 1 1) s) = str "exdata/run/t1/bbob-biobj_f01_d02_hyp.dat" /\
  d' (str "exdata/run/t1_hyp.info") = Some (unlines
    [str "suite = 'bbob-biobj', algorithm = 'A', indicator = 'hyp', folder = 't1', coco_version = '2.7'"; str "% info";
     str "function =  1, dim =  2, bbob-biobj_f01_d02_hyp.dat, 1:50|2e+00";
     str "function =  3, dim =  2, bbob-biobj_f03_d02_hyp.dat, 1:80|2e+00";
     str "function =  1, dim =  2, bbob-biobj_f01_d02_hyp.dat, 1:50|2e+00"]) /\
  match d' (str "exdata/run/t1/bbob-biobj_f01_d02_hyp.dat") with
  | Some text => table text = [[str "1"; str "2e+00"; str "2e+00"]; [str "50"; str "2e+00"; str "1e+00"];
                               [str "1"; str "2e+00"; str "2e+00"]; [str "50"; str "2e+00"; str "1e+00"]; [[]]]
  | None => False
  end.
Proof.
  set (p := a_problem "bbob-biobj" "t1" 1 2 1 50). set (q := a_problem "bbob-biobj" "t1" 3 2 1 80).
  assert (P : Forall (plausible a_stem) [p; q; p]).
  { repeat (constructor; [apply a_problem_plausible; [vm_compute; lia|reflexivity|reflexivity|reflexivity|reflexivity]|]). constructor. }
  assert (F : fits an_observer) by apply C67_example_hypotheses.
  destruct (C67_total a_print a_print a_print (str "2.7") (fun _ _ => false) an_observer F ltac:(reflexivity) a_stem (fun _ => None) _ P) as [d' E].
  exists [p; q; p], d', [p], [q]. split; [exact P|]. split.
  { intros x y [<-|[<-|[<-|[]]]] [<-|[<-|[<-|[]]]] _; reflexivity. }
  split; [exact E|]. split; [exact (cut_sessions [p; q; p])|]. split; [intros X; apply (f_equal (map suite_dep_function)) in X; vm_compute in X; discriminate X|]. split; [vm_compute; reflexivity|].
  assert (Q : match campaign a_print a_print a_print (str "2.7") (fun _ _ => false) an_observer (fun _ => None) [p; q; p] with
    | Ok d => d (str "exdata/run/t1_hyp.info") = Some (unlines
      [str "suite = 'bbob-biobj', algorithm = 'A', indicator = 'hyp', folder = 't1', coco_version = '2.7'"; str "% info";
       str "function =  1, dim =  2, bbob-biobj_f01_d02_hyp.dat, 1:50|2e+00";
       str "function =  3, dim =  2, bbob-biobj_f03_d02_hyp.dat, 1:80|2e+00";
       str "function =  1, dim =  2, bbob-biobj_f01_d02_hyp.dat, 1:50|2e+00"]) /\
      match d (str "exdata/run/t1/bbob-biobj_f01_d02_hyp.dat") with
      | Some text => table text = [[str "1"; str "2e+00"; str "2e+00"]; [str "50"; str "2e+00"; str "1e+00"];
                                   [str "1"; str "2e+00"; str "2e+00"]; [str "50"; str "2e+00"; str "1e+00"]; [[]]]
      | None => False
      end
    | _ => False end) by (vm_compute; auto).
  rewrite E in Q. exact Q.
Qed.

(** A problem of another type with the same function and dimension as the one before: its index has no line that names the function,
    the dimension or the data file. *)
Theorem C67_types_refuted : exists ps d', Forall (plausible a_stem) ps /\ ~ typed ps /\
  campaign a_print a_print a_print (str "2.7") (fun _ _ => false) an_observer (fun _ => None) ps = Ok d' /\
  d' (str "exdata/run/t2_hyp.info") = Some (unlines
    [str "suite = 'bbob-biobj', algorithm = 'A', indicator = 'hyp', folder = 't2', coco_version = '2.7'"; str "% info, 1:60|2e+00"]).
Proof.
  set (p := a_problem "bbob-biobj" "t1" 1 2 1 50). set (q := a_problem "bbob-biobj" "t2" 1 2 1 60).
  assert (P : Forall (plausible a_stem) [p; q]).
  { repeat (constructor; [apply a_problem_plausible; [vm_compute; lia|reflexivity|reflexivity|reflexivity|reflexivity]|]). constructor. }
  assert (F : fits an_observer) by apply C67_example_hypotheses.
  destruct (C67_total a_print a_print a_print (str "2.7") (fun _ _ => false) an_observer F ltac:(reflexivity) a_stem (fun _ => None) _ P) as [d' E].
  exists [p; q], d'. split; [exact P|]. split.
  { intros T. specialize (T p q (or_introl eq_refl) (or_intror (or_introl eq_refl)) eq_refl). vm_compute in T. discriminate T. }
  split; [exact E|].
  assert (Q : match campaign a_print a_print a_print (str "2.7") (fun _ _ => false) an_observer (fun _ => None) [p; q] with
    | Ok d => d (str "exdata/run/t2_hyp.info") = Some (unlines
      [str "suite = 'bbob-biobj', algorithm = 'A', indicator = 'hyp', folder = 't2', coco_version = '2.7'"; str "% info, 1:60|2e+00"])
    | _ => False end) by (vm_compute; reflexivity).
  rewrite E in Q. exact Q.
Qed.

Print Assumptions C67_files.
Print Assumptions C67_total.
Print Assumptions C67_kept.
Print Assumptions C67_lines.
Print Assumptions C67_data.
Print Assumptions C67_ids.
Print Assumptions C67_return_refuted.
Print Assumptions C67_types_refuted.
