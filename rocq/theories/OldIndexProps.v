(** The files of the old bbob logger across the problems of a process (C73). *)
From Coq Require Import String List Arith NArith ZArith Ascii Bool Lia.
From Verif Require Import CBase StrModel FsSpec IdModel IdSpec IdProofs DblModel BbobModel IndexModel IndexSpec IndexProofs IndexRunProofs IndexProps
  OldIndexModel OldIndexSpec OldIndexProofs OldIndexRunProofs OldIndexMemProofs.
Import ListNotations.
Local Notation length := List.length.
Local Open Scope nat_scope.

(** An experiment in the order of a suite with at most six dimensions: the folder has exactly the files described, named after
    the first instance, and the next experiment that starts with the same dimension finds the process ready. *)
Theorem C73_files : forall dec, decimals dec -> forall e12 e1 e9 e4 version refused o, fits o ->
  forall rs r0 rest g d g' d', Forall ordinary rs -> in_order rs -> length (all_dims rs) <= 6 -> empty_folder o d ->
  filter observed rs = r0 :: rest -> ready g (dimension r0) ->
  old_campaign e12 e1 e9 e4 version refused o g d rs = Ok (g', d') ->
  old_recorded dec e12 e1 e9 e4 version o (instance r0) rs d d' /\
  (dimension (last rest r0) <> dimension r0 -> ready g' (dimension r0)).
Proof.
  intros dec Hdec e12 e1 e9 e4 version refused o F rs r0 rest g d g' d' P I L E O R H.
  exact (proj1 (old_files dec Hdec e12 e1 e9 e4 version refused o F rs r0 rest g d P I L E O R) g' d' H).
Qed.

(** It ends unless a file cannot be opened. *)
Theorem C73_total : forall e12 e1 e9 e4 version refused o, fits o ->
  forall rs r0 rest g d, Forall ordinary rs -> in_order rs -> length (all_dims rs) <= 6 -> empty_folder o d ->
  filter observed rs = r0 :: rest -> ready g (dimension r0) -> (forall d p, refused d p = false) ->
  exists g' d', old_campaign e12 e1 e9 e4 version refused o g d rs = Ok (g', d').
Proof.
  intros e12 e1 e9 e4 version refused o F rs r0 rest g d P I L E O R NR.
  destruct (proj2 (old_files (print_lu 0) (print_lu_numeral 0) e12 e1 e9 e4 version refused o F rs r0 rest g d P I L E O R) NR) as [[g' d'] Q]. eauto.
Qed.

(** A new process is ready for every experiment. *)
Theorem C73_fresh : forall n, (0 < n)%N -> ready fresh_process n.
Proof.
  intros n P. unfold ready, fresh_process. cbn [is_open first_instance current_dim dimensions].
  split; [reflexivity|]. split; [reflexivity|]. split; [reflexivity|]. split; [lia|]. left. auto.
Qed.

(** Whatever is in the folder before is kept, in any order of the problems. *)
Theorem C73_kept : forall e12 e1 e9 e4 version refused o rs g d g' d',
  old_campaign e12 e1 e9 e4 version refused o g d rs = Ok (g', d') -> extends d d'.
Proof. exact old_kept. Qed.

(** With at most five dimensions, no order of problems in a process writes outside the array of the logger. *)
Theorem C73_memory : forall e12 e1 e9 e4 version refused o vals rs d, fits o -> length vals <= 5 -> Forall ordinary rs ->
  Forall (fun r => observed r = true -> In (dimension r) vals) rs ->
  old_campaign e12 e1 e9 e4 version refused o fresh_process d rs <> UB.
Proof.
  intros e12 e1 e9 e4 version refused o vals rs d F L P V.
  exact (old_memory (print_lu 0) (print_lu_numeral 0) e12 e1 e9 e4 version refused o F vals L rs fresh_process d P V (fresh_safe vals)).
Qed.

(** The lines of an index file, and the fields of the third of three lines *)
Theorem C73_lines : forall dec, decimals dec -> forall e1 version o i rs, (i < 2 ^ 64)%N -> Forall ordinary rs -> readable e1 version o rs ->
  (forall f t, old_info_text dec e1 version o i f rs = Some t ->
     lines t = concat (map (fun n => old_lines dec e1 version o i (f, n) rs) (dims_of f rs))) /\
  (forall f n, In n (dims_of f rs) -> exists l1 l2 l3, old_lines dec e1 version o i (f, n) rs = [l1; l2; l3] /\
     split_on ","%char l3 = (old_name dec i (f, n) ++ str ".dat") :: map (field dec e1) (runs_of (f, n) rs)).
Proof.
  intros dec Hdec e1 version o i rs Hi P R. pose proof R as (R1 & R2 & _ & R4 & R5).
  assert (Mem : forall k r, In r (runs_of k rs) -> In r rs /\ observed r = true /\ ordinary r /\ key r = k).
  { intros k r I. unfold runs_of in I. apply filter_In in I as [I E]. apply andb_prop in E as [O E]. apply same_key_eq in E.
    rewrite Forall_forall in P. auto. }
  assert (Third : forall k, old_name dec i k ++ str ".dat" ++ concat (map (entry dec e1) (runs_of k rs)) =
     (old_name dec i k ++ str ".dat") ++ concat (map (cons ","%char) (map (field dec e1) (runs_of k rs)))).
  { intros k. rewrite <- app_assoc. do 2 f_equal. f_equal. rewrite map_map. apply map_ext_in. intros r I. apply entry_field. apply (Mem k r I). }
  assert (Nm : forall c k, special c -> small k -> ~ In c (old_name dec i k)).
  { intros c k Sc Sk. unfold old_name. apply not_in_app; [exact (name_plain dec Hdec c k 0 Sc Sk)|].
    apply not_in_app; [apply str_plain; destruct Sc as [->| ->]; reflexivity|apply (dec_plain dec Hdec); assumption]. }
  assert (Fp : forall c k r, special c -> In r (runs_of k rs) -> ~ In c (field dec e1 r)).
  { intros c k r Sc I. destruct (Mem k r I) as (_ & _ & [Q _] & _). apply (field_plain dec Hdec); [exact Sc| |exact Q].
    intros x. destruct Sc as [->| ->]; apply R5. }
  assert (Sm : forall f n, In n (dims_of f rs) -> small (f, n)).
  { intros f n I. apply (dims_of_In dec) in I. destruct (runs_of (f, n) rs) as [|q l] eqn:E; [now destruct I|].
    destruct (Mem (f, n) q) as (_ & _ & [(Q1 & Q2 & _) _] & K); [rewrite E; left; reflexivity|]. rewrite <- K. split; assumption. }
  assert (Plain : forall f n, In n (dims_of f rs) ->
    old_lines dec e1 version o i (f, n) rs <> [] /\ Forall (fun l => ~ In NL l) (old_lines dec e1 version o i (f, n) rs)).
  { intros f n I. pose proof (Sm f n I) as S. apply (dims_of_In dec) in I. unfold old_lines.
    destruct (runs_of (f, n) rs) as [|q l] eqn:E; [now destruct I|]. split; [discriminate|]. rewrite <- E.
    assert (Sn : special NL) by (left; reflexivity).
    destruct (Mem (f, n) q) as (Q1 & Q2 & [(Q3 & Q4 & _) _] & _); [rewrite E; left; reflexivity|].
    repeat constructor.
    - unfold old_first_line. repeat apply not_in_app; try assumption; try (apply (dec_plain dec Hdec); assumption); try (apply R4; exact Q1);
        apply str_plain; reflexivity.
    - apply str_plain; reflexivity.
    - rewrite Third. apply not_in_app; [apply not_in_app; [apply Nm; assumption|apply str_plain; reflexivity]|].
      intros J. apply in_concat in J as (x & Ix & J). apply in_map_iff in Ix as (y & <- & Iy). apply in_map_iff in Iy as (r & <- & Ir).
      destruct J as [J|J]; [vm_compute in J; discriminate J|]. revert J. eapply Fp; eauto. }
  split.
  - intros f t E. unfold old_info_text in E. specialize (Plain f). destruct (dims_of f rs) as [|a l]; [discriminate|].
    assert (t = unlines (concat (map (fun n => old_lines dec e1 version o i (f, n) rs) (a :: l)))) as -> by congruence.
    apply lines_unlines.
    + cbn [map concat]. intros N. apply app_eq_nil in N as [N _]. revert N. apply Plain. left. reflexivity.
    + apply Forall_forall. intros x Ix. apply in_concat in Ix as (ls & Il & Ix). apply in_map_iff in Il as (n & <- & Il).
      destruct (Plain n Il) as [_ F]. rewrite Forall_forall in F. exact (F x Ix).
  - intros f n I. pose proof (Sm f n I) as S. apply (dims_of_In dec) in I. unfold old_lines. destruct (runs_of (f, n) rs) as [|q l] eqn:E; [now destruct I|].
    rewrite <- E. do 3 eexists. split; [reflexivity|]. rewrite Third. apply split_fields.
    + apply not_in_app; [apply Nm; [right; reflexivity|exact S]|apply str_plain; reflexivity].
    + apply Forall_forall. intros x Ix. apply in_map_iff in Ix as (r & <- & Ir). eapply Fp; eauto. right. reflexivity.
Qed.

(** ** An example: two functions, two dimensions *)
Definition old_experiment (o : observer) (g : globals) (d : disk) (rs : list run) : res (globals * disk) :=
  old_campaign some_print some_print some_print some_print (str "2.7") (fun _ _ => false) o g d rs.
Definition a_run (f n i : N) : run := some_run "bbob" f n i 50.
Definition old_runs : list run :=
  [a_run 1 2 1; a_run 1 2 3; unseen 1 2 5; a_run 2 2 1; a_run 2 2 3; a_run 1 3 1; a_run 1 3 3; a_run 2 3 1].
Definition old_shown (p : string) (rs : list run) : option (list string) :=
  match old_experiment some_observer fresh_process (fun _ => None) rs with
  | Ok (_, d) => match d (str p) with Some t => Some (map string_of_list_ascii (lines t)) | None => None end
  | _ => None
  end.

(** A decidable form of the order *)
Fixpoint left_alone (p : run -> run -> bool) (l : list run) : bool :=
  match l with
  | [] => true
  | x :: l' => (fix from (gone : bool) (m : list run) : bool :=
       match m with [] => true | y :: m' => if p x y then negb gone && from gone m' else from true m' end) false l' && left_alone p l'
  end.
Definition same_dim (x y : run) : bool := (dimension x =? dimension y)%N.
Definition alike (x y : run) : bool := same_key (key x) (key y).

Lemma left_alone_ok : forall p l a x b y c, left_alone p l = true -> l = a ++ x :: b ++ y :: c -> p x y = true -> forall z, In z b -> p x z = true.
Proof.
  intros p l a x b y c. revert l. induction a as [|q a IH]; intros l H E Y z I; subst l.
  - cbn [app left_alone] in H. apply andb_prop in H as [H _]. revert H.
    match goal with |- ?F false (b ++ y :: c) = true -> _ => set (from := F) end.
    assert (G : forall m, from true (m ++ y :: c) = true -> False).
    { induction m as [|w m IH]; cbn [app]; intros Q.
      - unfold from in Q. rewrite Y in Q. discriminate Q.
      - change (from true (w :: m ++ y :: c)) with (if p x w then negb true && from true (m ++ y :: c) else from true (m ++ y :: c)) in Q.
        destruct (p x w); [discriminate Q|]. exact (IH Q). }
    revert I. induction b as [|w b IH]; intros I H; [destruct I|].
    change (from false ((w :: b) ++ y :: c)) with (if p x w then negb false && from false (b ++ y :: c) else from true (b ++ y :: c)) in H.
    destruct (p x w) eqn:E.
    + cbn [negb andb] in H. destruct I as [<-|I]; [exact E|]. exact (IH I H).
    + exfalso. exact (G b H).
  - apply (IH (a ++ x :: b ++ y :: c)); [|reflexivity|exact Y|exact I]. cbn [app left_alone] in H. apply andb_prop in H. apply H.
Qed.

Lemma in_order_check : forall rs, left_alone same_dim (filter observed rs) = true -> left_alone alike (filter observed rs) = true -> in_order rs.
Proof.
  intros rs H1 H2 a x b y c E. split; intros Q z I.
  - assert (same_dim x z = true) as K.
    { eapply left_alone_ok; [exact H1|exact E|unfold same_dim; rewrite Q; apply N.eqb_refl|exact I]. }
    unfold same_dim in K. apply N.eqb_eq in K. congruence.
  - assert (alike x z = true) as K.
    { eapply left_alone_ok; [exact H2|exact E|unfold alike; rewrite Q; apply same_key_refl|exact I]. }
    unfold alike in K. apply same_key_eq in K. congruence.
Qed.

Lemma ordinary_run : forall f n i, (0 < n < 2 ^ 64)%N -> (0 < i < 2 ^ 64)%N -> (f < 2 ^ 31)%N -> ordinary (a_run f n i).
Proof.
  intros f n i Hn Hi Hf. unfold ordinary, plausible, a_run, some_run. cbn [function dimension instance outcome].
  assert (2 ^ 31 < 2 ^ 64)%N by reflexivity. assert (50 < 2 ^ 64)%N by reflexivity.
  repeat split; try tauto. eapply N.lt_trans; eassumption.
Qed.

Lemma some_fits : fits some_observer.
Proof. apply C66_example_hypotheses. Qed.

Example C73_example_hypotheses : Forall ordinary old_runs /\ in_order old_runs /\ length (all_dims old_runs) = 2 /\
  (exists rest, filter observed old_runs = a_run 1 2 1 :: rest /\ dimension (last rest (a_run 1 2 1)) = 3%N) /\
  readable some_print (str "2.7") some_observer old_runs /\ empty_folder some_observer (fun _ => None).
Proof.
  split; [unfold old_runs; repeat (constructor; [apply ordinary_run; split; reflexivity || (split; reflexivity)|] || constructor); try reflexivity|].
  split; [apply in_order_check; reflexivity|]. split; [reflexivity|]. split; [eexists; split; reflexivity|]. split; [|intros p; reflexivity].
  destruct (proj1 (proj2 (proj2 (proj2 (proj2 C66_example_hypotheses))))) as (Q1 & Q2 & Q3 & _ & Q5).
  split; [exact Q1|]. split; [exact Q2|]. split; [exact Q3|]. split; [|exact Q5].
  intros r I. apply str_plain. unfold old_runs in I. repeat (destruct I as [<-|I]; [reflexivity|]). destruct I.
Qed.

Definition a_line (n : string) : string := String.concat "" ["suite = 'bbob', funcId = 1, DIM = "; n;
  ", Precision = 1.000e-08, algId = 'A', coco_version = '2.7', logger = 'bbob_old', data_format = 'bbob-new2'"]%string.

Example C73_example :
  old_shown "exdata/run/bbobexp_f1_i1.info" old_runs = Some
    [a_line "2"; "%"; "data_f1/bbobexp_f1_DIM2_i1.dat, 1:50|2e+00, 3:50|2e+00";
     a_line "3"; "%"; "data_f1/bbobexp_f1_DIM3_i1.dat, 1:50|2e+00, 3:50|2e+00"]%string /\
  old_shown "exdata/run/data_f2/bbobexp_f2_DIM3_i1.dat" old_runs = Some
    ["% f evaluations | g evaluations | best noise-free fitness - Fopt (1e+00) + sum g_i+ | measured fitness | best measured fitness or single-digit g-values | x1 | x2...";
     "1 0 2e+00 2e+00 2e+00 1e+00 -4"; "50 0 2e+00 2e+00 2e+00 1e+00 -4"; ""]%string /\
  old_shown "exdata/run/data_f2/bbobexp_f2_DIM3_i1.mdat" old_runs = None.
Proof. vm_compute. auto. Qed.

(** ** Findings *)

(** Six dimensions, but not in the order of a suite: the logger writes behind its array. *)
Theorem C73_memory_refuted : exists rs, Forall ordinary rs /\ incl (map dimension rs) [2; 3; 5; 10; 20; 40]%N /\
  old_experiment some_observer fresh_process (fun _ => None) rs = UB.
Proof.
  exists [a_run 1 2 1; a_run 1 3 1; a_run 1 5 1; a_run 1 10 1; a_run 1 5 1; a_run 1 2 1; a_run 1 5 1; a_run 1 10 1; a_run 1 3 1; a_run 1 20 1;
    a_run 1 40 1].
  split; [repeat (constructor; [apply ordinary_run; split; reflexivity || (split; reflexivity)|] || constructor); try reflexivity|].
  split; [intros n I; cbn in I |- *; tauto|]. vm_compute. reflexivity.
Qed.

(** Seven dimensions in the order of a suite: the same. *)
Theorem C73_seven_refuted : exists rs, Forall ordinary rs /\ in_order rs /\ length (all_dims rs) = 7 /\
  old_experiment some_observer fresh_process (fun _ => None) rs = UB.
Proof.
  exists (map (fun n => a_run 1 n 1) [2; 3; 5; 10; 20; 40; 80]%N).
  split; [cbn [map]; repeat (constructor; [apply ordinary_run; split; reflexivity || (split; reflexivity)|] || constructor); try reflexivity|].
  split; [apply in_order_check; reflexivity|]. split; reflexivity.
Qed.

(** A return to an earlier dimension: the index file is continued without a new line, so that the last entry and the next first
    line are one line. *)
Theorem C73_line_refuted : exists rs, Forall ordinary rs /\ length (all_dims rs) = 2 /\
  old_shown "exdata/run/bbobexp_f1_i1.info" rs = Some
    [a_line "2"; "%"; "data_f1/bbobexp_f1_DIM2_i1.dat, 1:50|2e+00";
     a_line "3"; "%"; String.append "data_f1/bbobexp_f1_DIM3_i1.dat, 1:50|2e+00" (a_line "2");
     "%"; "data_f1/bbobexp_f1_DIM2_i1.dat, 1:50|2e+00"]%string.
Proof.
  exists [a_run 1 2 1; a_run 1 3 1; a_run 1 2 1].
  split; [repeat (constructor; [apply ordinary_run; split; reflexivity || (split; reflexivity)|] || constructor); try reflexivity|].
  split; [reflexivity|]. vm_compute. reflexivity.
Qed.

(** A return to an earlier function in the same dimension: two parts of the index name the same data file, which has the records
    of both. *)
Theorem C73_name_refuted : exists rs, Forall ordinary rs /\ all_dims rs = [2]%N /\
  old_shown "exdata/run/bbobexp_f1_i1.info" rs = Some
    [a_line "2"; "%"; "data_f1/bbobexp_f1_DIM2_i1.dat, 1:50|2e+00"; a_line "2"; "%"; "data_f1/bbobexp_f1_DIM2_i1.dat, 2:50|2e+00"]%string /\
  match old_shown "exdata/run/data_f1/bbobexp_f1_DIM2_i1.dat" rs with Some l => length l = 7 | None => False end.
Proof.
  exists [a_run 1 2 1; a_run 2 2 1; a_run 1 2 2].
  split; [repeat (constructor; [apply ordinary_run; split; reflexivity || (split; reflexivity)|] || constructor); try reflexivity|].
  split; [reflexivity|]. split; vm_compute; reflexivity.
Qed.

(** Two experiments of one process, each in the order of a suite and in a folder of its own: the second index file has the fault, too. *)
Definition folder (s : string) : observer :=
  {| result_folder := str s; algorithm_name := str "A"; observer_name := str "bbob"; prefix := str "bbobexp" |}.
Theorem C73_experiments_refuted : exists r1 r2, Forall (fun rs => Forall ordinary rs /\ in_order rs /\ length (all_dims rs) = 2) [r1; r2] /\
  match (do (g1, d1) <- old_experiment (folder "a") fresh_process (fun _ => None) r1; old_experiment (folder "b") g1 d1 r2) with
  | Ok (_, d) => match d (str "b/bbobexp_f1_i1.info") with
      | Some t => map string_of_list_ascii (lines t) =
          [a_line "2"; "%"; String.append "data_f1/bbobexp_f1_DIM2_i1.dat, 1:50|2e+00" (a_line "3"); "%";
           "data_f1/bbobexp_f1_DIM3_i1.dat, 1:50|2e+00"]%string
      | None => False
      end
  | _ => False
  end.
Proof.
  exists (map (fun n => a_run 1 n 1) [3; 5]%N), (map (fun n => a_run 1 n 1) [2; 3]%N). split.
  - assert (A : forall l, Forall (fun n => 0 < n < 2 ^ 64)%N l -> Forall ordinary (map (fun n => a_run 1 n 1) l)).
    { intros l H. induction H; constructor; [|assumption]. apply ordinary_run; [assumption|split; reflexivity|reflexivity]. }
    constructor; [|constructor; [|constructor]];
      (split; [apply A; repeat (constructor; [split; reflexivity|]); constructor|split; [apply in_order_check; reflexivity|reflexivity]]).
  - vm_compute. reflexivity.
Qed.

Print Assumptions C73_files.
Print Assumptions C73_total.
Print Assumptions C73_fresh.
Print Assumptions C73_kept.
Print Assumptions C73_memory.
Print Assumptions C73_lines.
Print Assumptions C73_memory_refuted.
Print Assumptions C73_seven_refuted.
Print Assumptions C73_line_refuted.
Print Assumptions C73_name_refuted.
Print Assumptions C73_experiments_refuted.
