(** Properties C17-C19: paths, unique names, removal of directories. *)
From Coq Require Import List Arith NArith ZArith Ascii String Bool Lia.
Import ListNotations.
From Verif Require Import CBase FsModel FsSpec FsProofs FsRemoveProofs.

(** * C17 *)

(** With a buffer of at least path_max_length bytes: never undefined behaviour, the result is the
    joined path cut to path_max_length - 1 characters. *)
Theorem C17_join_path : forall cap m base comps,
  m <= cap -> comps <> [] -> each_fits m base comps ->
  coco_join_path cap m base comps = Ok (firstn (m - 1) (joined base comps)).
Proof. exact join_path_ok. Qed.

Theorem C17_join_path_error : forall cap m base comps,
  m <= cap -> ~ each_fits m base comps -> coco_join_path cap m base comps = Err.
Proof. exact join_path_err. Qed.

(** Complete whenever the joined path fits (one more character is needed for an empty base). *)
Theorem C17_join_path_complete : forall cap m base comps,
  m <= cap -> List.length (joined base comps) + (match base with [] => 1 | _ => 0 end) < m ->
  coco_join_path cap m base comps = Ok (joined base comps).
Proof. exact join_path_total. Qed.

Example C17_example :
  coco_join_path 100 100 (str "exdata") [str "run"; str "data_f1"] = Ok (str "exdata/run/data_f1") /\
  coco_join_path 10 10 (str "abc") [str "123456"] = Err /\
  coco_join_path 10 10 [] [str "a"; str "b"] = Ok (str "a/b").
Proof. vm_compute. auto. Qed.

(** Two components that fit one by one are cut silently. *)
Theorem C17_truncated_refuted : exists cap m base comps,
  m <= cap /\ each_fits m base comps /\
  coco_join_path cap m base comps = Ok (str "abcd/efgh") /\ joined base comps = str "abcd/efgh/ijkl".
Proof.
  exists 10, 10, (str "abcd"), [str "efgh"; str "ijkl"].
  repeat split; [lia|]. intros c [<-|[<-|[]]]; simpl; lia.
Qed.

(** * C18 *)

(** Whatever other processes do between the calls ([others]) and whichever calls the system refuses:
    a returned directory was created by the last call and did not exist before it; all
    earlier candidates were found taken. *)
Theorem C18_unique_directory : forall K keq (resolve : cstr -> K) others refuses path w name w',
  (forall a b, keq a b = true <-> a = b) ->
  coco_create_unique_directory K keq resolve others refuses path w = Ok (name, w') ->
  exists k, k <= N.to_nat 9998 /\ name = candidate path k /\
    (forall j, j < k -> taken_in K resolve (log K w') (candidate path j)) /\
    made_new K resolve name w'.
Proof. intros K keq resolve others refuses path w name w' H. now apply unique_spec. Qed.

(** On a file system nobody else changes, nothing is removed or changed, only directories are added
    and the chosen one is new. *)
Theorem C18_nothing_overwritten : forall K keq (resolve : cstr -> K) refuses path w name w',
  (forall a b, keq a b = true <-> a = b) ->
  coco_create_unique_directory K keq resolve (fun _ f => f) refuses path w = Ok (name, w') ->
  (exists q, without_slash name q /\ ~ In (resolve q) (map fst (fs K w)) /\ In (resolve q, KDir) (fs K w')) /\
  exists added, fs K w' = added ++ fs K w /\ forall e, In e added -> snd e = KDir.
Proof.
  intros K keq resolve refuses path w name w' H E. split.
  - eapply unique_fresh; eauto.
  - eapply unique_adds; eauto.
Qed.

(** If candidate k is free, a candidate not after k is returned (no call refused, name
    of at most 436 characters). *)
Theorem C18_free_candidate_found : forall K keq (resolve : cstr -> K) refuses path q k w,
  (forall a b, keq a b = true <-> a = b) -> (forall t f x, refuses t f x = false) ->
  path <> [] -> k <= N.to_nat 9998 -> List.length path <= 436 ->
  without_slash (candidate path k) q -> ~ drive q -> ~ In (resolve q) (map fst (fs K w)) ->
  (forall j s, j <= k -> parent_of s (candidate path j) -> resolve s <> resolve q) ->
  exists j w', j <= k /\
    coco_create_unique_directory K keq resolve (fun _ f => f) refuses path w = Ok (candidate path j, w').
Proof. intros. eapply unique_finds; eauto. Qed.

Definition w0 (names : list string) : world cstr :=
  {| fs := map (fun s => (str s, KDir)) names; clock := 0; log := [] |}.

Example C18_example :
  (do (name, w) <- coco_create_unique_directory cstr streq (fun p => p) (fun _ f => f) (fun _ _ _ => false)
      (str "exdata/run") (w0 ["exdata"; "exdata/run"; "exdata/run-0001"]%string); Ok (name, map fst (fs cstr w))) =
   Ok (str "exdata/run-0002", map str ["exdata/run-0002"; "exdata"; "exdata/run"; "exdata/run-0001"]%string).
Proof. vm_compute. reflexivity. Qed.

(** File names: the name returned was not an existing file when it was checked, all earlier
    candidates were. *)
Theorem C18_unique_filename : forall file_exists path name ext r,
  coco_create_unique_filename file_exists path name ext = Ok r ->
  exists k p, k <= N.to_nat 9998 /\ r = candidate name k /\
    checked_path path r ext = Ok p /\ file_exists k p = false /\
    forall j, j < k -> exists p', checked_path path (candidate name j) ext = Ok p' /\ file_exists j p' = true.
Proof. exact unique_filename_spec. Qed.

(** The path that is checked is folder/name+extension cut to 4097 characters. *)
Theorem C18_checked_path : forall path name ext,
  List.length path < N.to_nat 4097 -> List.length name + List.length ext < N.to_nat 4096 ->
  exists p, checked_path path name ext = Ok p /\
    p = firstn (N.to_nat 4097) (joined [] [path; name ++ ext]).
Proof. exact checked_path_fits. Qed.

Example C18_example_filename :
  let ex := fun (_ : nat) p => existsb (streq p) (map str ["r/f1.dat"; "r/f1-0001.dat"; "r/f1-0003.dat"]%string) in
  coco_create_unique_filename ex (str "r") (str "f1") (str ".dat") = Ok (str "f1-0002") /\
  coco_create_unique_filename ex (str "r") (str "f2") (str ".dat") = Ok (str "f2").
Proof. vm_compute. auto. Qed.

(** The documented candidate 9999 is never tried: with all smaller ones taken the call fails
    although it is free. *)
Theorem C18_last_candidate_refuted : exists name,
  coco_create_unique_filename (fun _ p => negb (streq p (str "r/f-9999.dat"))) (str "r") (str "f") (str ".dat") = Err /\
  name = candidate (str "f") (N.to_nat 9999) /\ name = str "f-9999".
Proof. exists (str "f-9999"). vm_compute. auto. Qed.

(** Existing folders with long names: more than 438 characters overflow the static buffer, 437 and
    438 end in an error instead of a unique name. *)
Theorem C18_long_name_refuted : exists path1 path2,
  List.length path1 = 437 /\ List.length path2 = 439 /\
  let mk p := coco_create_unique_directory cstr streq (fun p => p) (fun _ f => f) (fun _ _ _ => false) p
               {| fs := [(p, KDir)]; clock := 0; log := [] |} in
  mk path1 = Err /\ mk path2 = UB.
Proof. exists (repeat "a"%char 437), (repeat "a"%char 439). vm_compute. auto. Qed.

(** * C19 *)

(** Without symbolic links below the path and with short enough path texts: for every pattern of
    failing system calls the call ends, nothing outside the subtree changes, result 0 means that
    the whole subtree is gone, and another result means that a system call failed. *)
Theorem C19_remove_directory : forall fails len p es d,
  p <> [] -> proper_tree (root d) -> no_links_below (root d) p -> texts_fit (root d) p len ->
  walk (root d) p = Some (Dir es) ->
  exists r d', coco_remove_directory fails len p d = Ok (r, d') /\
    (forall q, ~ below p q -> shape (root d') q = shape (root d) q) /\
    (r = 0%Z -> forall q, below p q -> shape (root d') q = None) /\
    (r <> 0%Z -> exists k, time d <= k < time d' /\ fails k = true).
Proof. exact remove_correct. Qed.

(** A path that is no directory: success, nothing changes. *)
Theorem C19_no_directory : forall fails len p d,
  (forall es, stat (root d) p <> Some (Dir es)) ->
  exists d', coco_remove_directory fails len p d = Ok (0%Z, d') /\ root d' = root d.
Proof. exact remove_missing. Qed.

Definition tree1 : node :=
  Dir [(str "keep", Dir [(str "x", File)]);
       (str "r", Dir [(str "a", File); (str "b", Dir [(str "c", File); (str "d", Dir [])]); (str "e", File)])].
Example C19_example :
  coco_remove_directory (fun _ => false) 1 [str "r"] {| root := tree1; time := 0 |} =
    Ok (0%Z, {| root := Dir [(str "keep", Dir [(str "x", File)])]; time := 9 |}) /\
  coco_remove_directory (fun k => k =? 3) 1 [str "r"] {| root := tree1; time := 0 |} =
    Ok ((-1)%Z, {| root := Dir [(str "keep", Dir [(str "x", File)]);
                          (str "r", Dir [(str "b", Dir [(str "c", File); (str "d", Dir [])]); (str "e", File)])];
                   time := 4 |}).
Proof. vm_compute. auto. Qed.

(** A symbolic link to a directory: the files of the target, outside the subtree, are
    deleted, and the call fails. *)
Theorem C19_symlink_refuted : exists t p q d',
  ~ below p q /\ shape t q = Some SFile /\
  coco_remove_directory (fun _ => false) 1 p {| root := t; time := 0 |} = Ok ((-1)%Z, d') /\
  shape (root d') q = None /\ shape (root d') p <> None.
Proof.
  exists (Dir [(str "keep", Dir [(str "x", File)]); (str "r", Dir [(str "l", Link [str "keep"])])]),
         [str "r"], [str "keep"; str "x"].
  eexists. split; [intros [s H]; discriminate|]. split; [reflexivity|]. split; [vm_compute; reflexivity|].
  split; [reflexivity|discriminate].
Qed.

(** Long paths below the directory: buffer overflow. *)
Theorem C19_long_path_refuted : exists t p n,
  List.length n = 255 /\ walk t [p] = Some (Dir [(n, File)]) /\
  coco_remove_directory (fun _ => false) 200 [p] {| root := t; time := 0 |} = UB.
Proof.
  exists (Dir [(str "r", Dir [(repeat "a"%char 255, File)])]), (str "r"), (repeat "a"%char 255).
  vm_compute. auto.
Qed.

Print Assumptions C17_join_path.
Print Assumptions C17_join_path_error.
Print Assumptions C17_join_path_complete.
Print Assumptions C17_truncated_refuted.
Print Assumptions C18_unique_directory.
Print Assumptions C18_nothing_overwritten.
Print Assumptions C18_free_candidate_found.
Print Assumptions C18_unique_filename.
Print Assumptions C18_checked_path.
Print Assumptions C18_last_candidate_refuted.
Print Assumptions C18_long_name_refuted.
Print Assumptions C19_remove_directory.
Print Assumptions C19_no_directory.
Print Assumptions C19_symlink_refuted.
Print Assumptions C19_long_path_refuted.
