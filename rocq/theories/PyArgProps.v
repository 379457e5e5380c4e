(** C82: the arguments of a Python script as a dictionary. *)
From Coq Require Import List Arith NArith ZArith Ascii String Bool Lia.
From Verif Require Import CBase StrModel PyArgModel PyArgSpec PyArgProofs.
Import ListNotations.
Local Open Scope nat_scope.
Local Notation length := List.length.

(** The dictionary has exactly the known names that an argument abbreviates, each with the value of the first such argument;
    no argument is passed over, and later values for the same name are equal to the first. *)
Theorem C82_values : forall V equal eval_value int_of args known d,
  args_to_dict V equal eval_value int_of args known [] = Some d ->
  (forall k x, get V d k = Some x <-> exists value, first_sets known args k value /\ x = eval_value value) /\
  (forall a, In a args -> exists k value x, sets known a k value /\ get V d k = Some x /\
     (equal x (eval_value value) = true \/ x = eval_value value)).
Proof. intros V equal eval_value int_of args known d H. exact (run_sound V equal eval_value int_of known args [] d H). Qed.

(** Arguments are accepted if each is of the form name=value with a clear name and equal names have equal values. *)
Theorem C82_accepted : forall V equal eval_value int_of args known,
  (forall a, In a args -> exists k v, sets known a k v) ->
  (forall k v1 a v2, first_sets known args k v1 -> In a args -> sets known a k v2 -> equal (eval_value v1) (eval_value v2) = true) ->
  exists d, args_to_dict V equal eval_value int_of args known [] = Some d.
Proof.
  intros V equal eval_value int_of args known H A. apply run_complete; [exact H|intros ? ? ? ? _ _ E; discriminate E|].
  intros b1 a1 b2 a2 c k v1 v2 E _ N S1 S2. apply (A k v1 a2 v2); [|rewrite E|exact S2].
  - exists b1, a1, (b2 ++ a2 :: c). split; [exact E|]. split; [exact S1|exact N].
  - apply in_app_iff. right. right. apply in_app_iff. right. left. reflexivity.
Qed.

(** Everything else is a ValueError: an argument without a clear name, or two different values for a name. *)
Theorem C82_rejected : forall V equal eval_value int_of args known, (forall x, equal x x = true) ->
  (exists a, In a args /\ forall k v, ~ sets known a k v) \/
  (exists k v1 a v2, first_sets known args k v1 /\ In a args /\ sets known a k v2 /\ equal (eval_value v1) (eval_value v2) = false) ->
  args_to_dict V equal eval_value int_of args known [] = None.
Proof.
  intros V equal eval_value int_of args known R [(a & I & N)|(k & v1 & a & v2 & F & I & S & E)].
  - eapply run_rejects; eassumption.
  - destruct (args_to_dict V equal eval_value int_of args known []) as [d|] eqn:D; [|reflexivity]. exfalso.
    destruct (C82_values _ _ _ _ _ _ _ D) as [G A]. destruct (A a I) as (k' & v' & x & S' & Gx & Ex).
    destruct (sets_unique known a _ _ _ _ S S') as [<- <-].
    assert (G1 : get V d k = Some (eval_value v1)) by (apply G; exists v1; split; [exact F|reflexivity]).
    rewrite Gx in G1. injection G1 as ->. destruct Ex as [Ex|Ex]; [congruence|]. rewrite <- Ex, R in E. discriminate E.
Qed.

(** A special argument batch=v1/v2/... sets the names given for it to integers and nothing else; it is refused if the numbers
    of names and values differ or a value is not an integer. *)
Theorem C82_batch : forall V equal eval_value int_of known ks vs res,
  without "/" ks -> without "/" vs -> NoDup ks -> ~ In "="%char (joined_by "/" vs) ->
  let r := process V equal eval_value int_of known [(str "batch", joined_by "/" ks)] res (str "batch=" ++ joined_by "/" vs) in
  (r = None <-> length ks <> length vs \/ exists v, In v vs /\ int_of v = None) /\
  forall d, r = Some d ->
    (forall i k v, nth_error ks i = Some k -> nth_error vs i = Some v -> exists x, int_of v = Some x /\ get V d k = Some x) /\
    (forall k, ~ In k ks -> get V d k = get V res k).
Proof.
  intros V equal eval_value int_of known ks vs res Hk Hv N E. cbv zeta.
  assert (P : process V equal eval_value int_of known [(str "batch", joined_by "/" ks)] res (str "batch=" ++ joined_by "/" vs) =
    if length ks =? length vs then assign V int_of ks vs res else None).
  { unfold process. assert (A : assigns (str "batch=" ++ joined_by "/" vs) (str "batch") (joined_by "/" vs)).
    { split; [reflexivity|]. split; [|exact E]. intros I. cbn in I. repeat (destruct I as [I|I]; [discriminate I|]). exact I. }
    apply split_assigns in A. rewrite A. cbn [find fst]. change (streq (str "batch") (str "batch")) with true. cbv iota.
    unfold batch. rewrite !split_joined by assumption. reflexivity. }
  rewrite P. destruct (Nat.eqb_spec (length ks) (length vs)) as [L|L].
  - split.
    + rewrite (assign_complete V int_of ks vs res L). tauto.
    + intros d D. exact (assign_sound V int_of ks vs res d L N D).
  - split; [tauto|discriminate].
Qed.

(** An argument for a special name other than batch is refused, even if it would abbreviate a known name. *)
Theorem C82_special : forall V equal eval_value int_of known specials args a name value names,
  assigns a name value -> In (name, names) specials -> name <> str "batch" -> In a args ->
  args_to_dict V equal eval_value int_of args known specials = None.
Proof.
  intros V equal eval_value int_of known specials args a name value names A S N I.
  assert (P : forall res, process V equal eval_value int_of known specials res a = None).
  { intros res. unfold process. apply split_assigns in A. rewrite A.
    destruct (find (fun s => streq (fst s) name) specials) as [[n t]|] eqn:F.
    - apply find_some in F as [_ F]. destruct (streq name (str "batch")) eqn:B; [|reflexivity]. apply streq_spec in B. contradiction.
    - pose proof (List.find_none _ _ F (name, names) S) as K. cbn [fst] in K. assert (streq name name = true) by (apply streq_spec; reflexivity). congruence. }
  unfold args_to_dict. generalize (@nil (cstr * V)) as res. induction args as [|b args IH]; intros res; [destruct I|]. cbn [run].
  destruct I as [->|I]; [rewrite P; reflexivity|]. destruct (process V equal eval_value int_of known specials res b); [apply IH; exact I|reflexivity].
Qed.
Example C82_special_example : assigns (str "folder=x") (str "folder") (str "x") /\ str "folder" <> str "batch" /\
  args_to_dict nat Nat.eqb (fun _ => 0) (fun _ => None) [str "folder=x"] (Some [str "folder_name"]) [] <> None.
Proof.
  split; [split; [reflexivity|split; intros I; cbn in I; repeat (destruct I as [I|I]; [discriminate I|]); exact I]|].
  split; [discriminate|]. vm_compute. discriminate.
Qed.

(** Deviation: a known name that is the beginning of another known name cannot be given. *)
Theorem C82_exact_name_refuted : forall V equal eval_value int_of known k k' value args,
  In k known -> In k' known -> k <> k' -> begins k k' -> ~ In "="%char k -> ~ In "="%char value ->
  In (k ++ "="%char :: value) args ->
  args_to_dict V equal eval_value int_of args (Some known) [] = None.
Proof.
  intros V equal eval_value int_of known k k' value args I I' Ne B Nk Nv Ia. eapply run_rejects; [exact Ia|].
  intros k0 v0 (n & A & (b & a & E & Bn & Fb & Fa)). apply split_assigns in A.
  assert (A' : split "=" (k ++ "="%char :: value) = [k; value]) by (apply split_assigns; split; [reflexivity|split; assumption]).
  rewrite A' in A. injection A as <- <-. rewrite Forall_forall in Fb, Fa.
  assert (Bk : begins k k) by (exists []; symmetry; apply app_nil_r).
  assert (One : forall o, In o known -> begins k o -> o = k0).
  { intros o Io Bo. rewrite E in Io. apply in_app_iff in Io as [Io|[Io|Io]]; [contradiction (Fb o Io)|symmetry; exact Io|contradiction (Fa o Io)]. }
  apply Ne. rewrite (One k I Bk), (One k' I' B). reflexivity.
Qed.

(** ** Examples: values are the texts themselves *)
Definition texts (args known : list string) : option (list (string * string)) :=
  option_map (map (fun e => (string_of_list_ascii (fst e), string_of_list_ascii (snd e))))
    (args_to_dict cstr streq (fun s => s) (fun s => Some s) (map str args) (Some (map str known)) [(str "batch", str "current_batch/batches")]).
Local Open Scope string_scope.
Local Open Scope list_scope.
Example C82_example :
  texts ["budget=7"; "bed=x"; "budg=7"] ["budget"; "bed"; "number"] = Some [("budget", "7"); ("bed", "x")]%string /\
  texts ["b=7"] ["budget"; "bed"; "number"] = None /\
  texts ["number=7"; "num=8"] ["budget"; "bed"; "number"] = None /\
  texts ["number"] ["number"] = None /\
  texts ["batch=2/5"; "n=3"] ["number"] = Some [("current_batch", "2"); ("batches", "5"); ("number", "3")]%string /\
  texts ["batch=2"] ["number"] = None /\
  texts ["budget=7"] ["budget"; "budget_multiplier"] = None.
Proof. vm_compute. repeat split. Qed.
Example C82_hypotheses :
  let known := Some (map str ["budget"; "bed"]) in
  sets known (str "bu=7") (str "budget") (str "7") /\ first_sets known [str "be=1"; str "bu=7"] (str "budget") (str "7").
Proof.
  cbv zeta. assert (S : sets (Some (map str ["budget"; "bed"])) (str "bu=7") (str "budget") (str "7")).
  { exists (str "bu"). split.
    - split; [reflexivity|]. split; intros I; cbn in I; repeat (destruct I as [I|I]; [discriminate I|]); exact I.
    - exists [], [str "bed"]. split; [reflexivity|]. split; [exists (str "dget"); reflexivity|]. split; [constructor|].
      constructor; [|constructor]. intros [r E]. discriminate E. }
  split; [exact S|]. exists [str "be=1"], (str "bu=7"), []. split; [reflexivity|]. split; [exact S|].
  intros a w [<-|[]] (n & A & N). apply split_assigns in A. vm_compute in A. injection A as <- <-.
  destruct N as (b & c & _ & [r E] & _). discriminate E.
Qed.

Print Assumptions C82_values.
Print Assumptions C82_accepted.
Print Assumptions C82_rejected.
Print Assumptions C82_batch.
Print Assumptions C82_special.
Print Assumptions C82_exact_name_refuted.
