(** C66: the folder written by the bbob logger during an experiment. *)
From Coq Require Import String List Arith NArith ZArith Ascii Bool Lia.
From Verif Require Import CBase StrModel FsModel IdModel IdSpec IdProofs FsSpec DblModel BbobModel IndexModel IndexSpec IndexProofs
  IndexRunProofs.
Import ListNotations.

(** Every observed problem is found under its function, dimension and instance in the index file of its function, and its lines
    in the data files named there; nothing else changes. *)
Theorem C66_files : forall dec, decimals dec -> forall e12 e1 e9 e4 version refused o, fits o ->
  forall d rs d', Forall plausible rs -> empty_folder o d ->
  campaign e12 e1 e9 e4 version refused o d rs = Ok d' ->
  exists ss, sessions_of dec rs ss /\ NoDup (map name ss) /\ recorded dec e12 e1 e9 e4 version o ss d d'.
Proof.
  intros dec Hdec e12 e1 e9 e4 version refused o F d rs d' P E H.
  destruct (campaign_recorded dec Hdec e12 e1 e9 e4 version refused o F d rs d' P E H) as (ss & S & R).
  exists ss. split; [exact S|]. split; [eapply names_differ; eauto|exact R].
Qed.

(** The experiment ends unless a file cannot be opened. *)
Theorem C66_total : forall dec, decimals dec -> forall e12 e1 e9 e4 version refused o, fits o ->
  forall d rs, Forall plausible rs -> empty_folder o d -> (forall d p, refused d p = false) ->
  (List.length rs <= N.to_nat 9999)%nat ->
  exists d', campaign e12 e1 e9 e4 version refused o d rs = Ok d'.
Proof. exact campaign_total. Qed.

(** Whatever is in the folder before is kept. *)
Theorem C66_kept : forall e12 e1 e9 e4 version refused o d rs d',
  campaign e12 e1 e9 e4 version refused o d rs = Ok d' -> extends d d'.
Proof. exact extends_campaign. Qed.

(** The index file of a function has three lines for each session; the third one splits at the commas into the name of the data
    file and one entry for each problem. *)
Theorem C66_lines : forall dec, decimals dec -> forall e1 version o rs ss, Forall plausible rs -> sessions_of dec rs ss ->
  readable e1 version o rs ->
  (forall f t, info_text dec e1 version o f ss = Some t ->
     lines t = concat (map (session_lines dec e1 version o) (filter (of_function f) ss))) /\
  (forall s, In s ss -> exists l1 l2 l3, session_lines dec e1 version o s = [l1; l2; l3] /\
     split_on ","%char l3 = (name s ++ str ".dat") :: map (field dec e1) (members s)).
Proof.
  intros dec Hdec e1 version o rs ss P S R. split.
  - intros f t E. eapply info_lines; eauto.
  - intros s I. destruct (session_readable dec Hdec e1 version o rs ss P S R s I) as (N & _ & E).
    unfold session_lines in *. destruct (members s) as [|r ms]; [now destruct N|]. do 3 eexists. split; [reflexivity|exact E].
Qed.

(** The lines of a data file, and the columns of a line *)
Theorem C66_data : forall dec, decimals dec -> forall e12 e9 e4,
  (forall x, one_word (e12 x)) -> (forall x, one_word (e9 x)) -> (forall x, one_word (e4 x)) ->
  (forall k s, (forall r n g f l, In r (members s) -> outcome r = Some (n, g, f) -> In l (data k f) -> representable l) ->
     lines (data_text e12 e9 e4 k s) = concat (map (problem_lines e12 e9 e4 k) (members s)) ++ [[]]) /\
  (forall l, representable l -> words (removelast (line_text e9 e4 l)) = columns dec e9 e4 l /\
     List.length (columns dec e9 e4 l) = (5 + List.length (coordinates l))%nat).
Proof.
  intros dec Hdec e12 e9 e4 H12 H9 H4. split.
  - intros k s H. eapply data_lines; eauto.
  - intros l B. apply line_columns; assumption.
Qed.

(** The comment that precedes the lines of every problem names the columns and states the optimal or the reference value. *)
Theorem C66_comment : forall (e12 : double -> cstr) (known : bool) v, exists columns,
  columns = [str "f evaluations"; str "g evaluations";
             str "best noise-free fitness - " ++ str (if known then "Fopt" else "Fref")%string ++ str " (" ++ e12 v ++ str ") + sum g_i+";
             str "measured fitness"; str "best measured fitness or single-digit g-values"; str "x1"; str "x2..."] /\
  header e12 known v = str "% " ++ fold_right (fun c rest => match rest with [] => c | _ => c ++ str " | " ++ rest end) [] columns ++ ["010"%char].
Proof. intros e12 known v. eexists. split; [reflexivity|]. unfold header. destruct known; cbn; repeat (rewrite <- app_assoc; cbn); reflexivity. Qed.

(** An example *)
Definition some_observer : observer :=
  {| result_folder := str "exdata/run"; algorithm_name := str "A"; observer_name := str "bbob"; prefix := str "bbobexp" |}.
Definition some_line (e : N) : line :=
  {| f_evaluations := e; g_evaluations := 0; gap := dint 2; measured := dint 3; fifth := inr (dint 3); coordinates := [inr (dint 1); inl (-4)%Z] |}.
Definition some_run (suite : string) (f n i e : N) : run :=
  {| suite_name := str suite; function := f; dimension := n; instance := i; opt_known := true; optimum := dint 1;
     outcome := Some (e, dint 2, {| dat := [some_line 1; some_line e]; tdat := [some_line 1]; rdat := []; mdat := [] |}) |}.
Definition unseen (f n i : N) : run :=
  {| suite_name := str "bbob"; function := f; dimension := n; instance := i; opt_known := true; optimum := dint 1; outcome := None |}.
Definition some_runs : list run :=
  [some_run "bbob" 1 2 1 50; some_run "bbob" 1 2 2 60; unseen 1 3 1; some_run "bbob" 1 2 3 70; some_run "bbob" 2 2 1 80;
   some_run "bbob" 1 2 4 90].
Definition some_print (x : double) : cstr := str (if deq x (dint 1) then "1e+00" else "2e+00").
Definition after_some_runs : disk -> res disk := fun d =>
  campaign some_print some_print some_print some_print (str "2.7") (fun _ _ => false) some_observer d some_runs.
Definition shown (p : string) : option (list string) :=
  match after_some_runs (fun _ => None) with
  | Ok d => match d (str p) with Some t => Some (map string_of_list_ascii (lines t)) | None => None end
  | _ => None
  end.

Example C66_example_hypotheses : decimals (print_lu 0) /\ fits some_observer /\ Forall plausible some_runs /\
  empty_folder some_observer (fun _ => None) /\ readable some_print (str "2.7") some_observer some_runs /\
  (forall x, one_word (some_print x)) /\ representable (some_line 7).
Proof.
  split; [exact (print_lu_numeral 0)|]. split; [split; [discriminate|apply Nat.leb_le; vm_compute; reflexivity]|].
  split; [repeat constructor|]. split; [intros p; reflexivity|].
  assert (Q : forall x, some_print x = str "1e+00" \/ some_print x = str "2e+00")
    by (intros x; unfold some_print; destruct (deq x (dint 1)); auto).
  split.
  - split; [apply str_plain; reflexivity|]. split; [apply str_plain; reflexivity|]. split; [apply str_plain; reflexivity|]. split.
    + intros r I. apply str_plain. unfold some_runs in I. repeat (destruct I as [<-|I]; [reflexivity|]). destruct I.
    + intros x. destruct (Q x) as [-> | ->]; split; apply str_plain; reflexivity.
  - split.
    + intros x. destruct (Q x) as [-> | ->]; (split; [apply str_plain; reflexivity|eexists; vm_compute; reflexivity]).
    + split; [reflexivity|]. split; [reflexivity|]. split; [exact I|]. intros z [E|[E|[]]]; [discriminate|]. injection E as <-. reflexivity.
Qed.

(** A return to function 1 in dimension 2 gets a further line and further data files. *)
Example C66_example :
  shown "exdata/run/bbobexp_f1.info" = Some
    ["suite = 'bbob', funcId = 1, DIM = 2, Precision = 1.000e-08, algId = 'A', coco_version = '2.7', logger = 'bbob', data_format = 'bbob-new2'";
     "%"; "data_f1/bbobexp_f1_DIM2.dat, 1:50|2e+00, 2:60|2e+00, 3:70|2e+00";
     "suite = 'bbob', funcId = 1, DIM = 2, Precision = 1.000e-08, algId = 'A', coco_version = '2.7', logger = 'bbob', data_format = 'bbob-new2'";
     "%"; "data_f1/bbobexp_f1_DIM2-0001.dat, 4:90|2e+00"]%string /\
  shown "exdata/run/data_f1/bbobexp_f1_DIM2-0001.dat" = Some
    ["% f evaluations | g evaluations | best noise-free fitness - Fopt (1e+00) + sum g_i+ | measured fitness | best measured fitness or single-digit g-values | x1 | x2...";
     "1 0 2e+00 2e+00 2e+00 1e+00 -4"; "90 0 2e+00 2e+00 2e+00 1e+00 -4"; ""]%string.
Proof. vm_compute. auto. Qed.

(** The index does not tell suites apart: a problem of another suite right after one with the same function and dimension is
    listed under the first one's suite, with nothing that names its own. *)
Theorem C66_suites_refuted : exists o rs d', fits o /\ Forall plausible rs /\ (exists r, In r rs /\ suite_name r = str "bbob-largescale") /\
  campaign some_print some_print some_print some_print (str "2.7") (fun _ _ => false) o (fun _ => None) rs = Ok d' /\
  d' (str "exdata/run/bbobexp_f1.info") = Some (unlines
    [str "suite = 'bbob', funcId = 1, DIM = 40, Precision = 1.000e-08, algId = 'A', coco_version = '2.7', logger = 'bbob', data_format = 'bbob-new2'";
     str "%"; str "data_f1/bbobexp_f1_DIM40.dat, 1:50|2e+00, 1:60|2e+00"]).
Proof.
  set (rs := [some_run "bbob" 1 40 1 50; some_run "bbob-largescale" 1 40 1 60]).
  assert (F : fits some_observer) by apply C66_example_hypotheses.
  assert (P : Forall plausible rs) by (unfold rs; repeat constructor).
  destruct (C66_total (print_lu 0) (print_lu_numeral 0) some_print some_print some_print some_print (str "2.7") (fun _ _ => false)
    some_observer F (fun _ => None) rs P ltac:(intros p; reflexivity) ltac:(reflexivity)) as [d' E].
  { apply Nat.leb_le. vm_compute. reflexivity. }
  exists some_observer, rs, d'. split; [exact F|]. split; [exact P|].
  split; [exists (some_run "bbob-largescale" 1 40 1 60); split; [right; left; reflexivity|reflexivity]|]. split; [exact E|].
  assert (Q : match campaign some_print some_print some_print some_print (str "2.7") (fun _ _ => false) some_observer (fun _ => None) rs with
    Ok d => d (str "exdata/run/bbobexp_f1.info") | _ => None end = Some (unlines
    [str "suite = 'bbob', funcId = 1, DIM = 40, Precision = 1.000e-08, algId = 'A', coco_version = '2.7', logger = 'bbob', data_format = 'bbob-new2'";
     str "%"; str "data_f1/bbobexp_f1_DIM40.dat, 1:50|2e+00, 1:60|2e+00"])) by (vm_compute; reflexivity).
  rewrite E in Q. exact Q.
Qed.

Print Assumptions C66_files.
Print Assumptions C66_total.
Print Assumptions C66_kept.
Print Assumptions C66_lines.
Print Assumptions C66_comment.
Print Assumptions C66_data.
Print Assumptions C66_suites_refuted.
