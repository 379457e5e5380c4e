(** C41: problem ids. *)
From Coq Require Import List Arith NArith Ascii String Bool Lia ZifyBool ZifyNat ZifyN.
From Verif Require Import CBase OptModel IdModel IdSpec IdProofs.
Import ListNotations.
Local Notation length := List.length.
Open Scope nat_scope.

(** The check: for ids of less than 220 characters it accepts exactly the safe ones; longer ones end the program;
    the outcome is undefined only if there is a percent sign that is not doubled. *)
Theorem C41_check : forall id,
  (coco_problem_id_is_fine id = Ok true <-> length id < 220 /\ safe id) /\
  (coco_problem_id_is_fine id = Err <-> 220 <= length id) /\
  (length id < 220 -> ~ In "%"%char id -> ~ safe id -> coco_problem_id_is_fine id = Ok false) /\
  (coco_problem_id_is_fine id = UB -> In "%"%char id).
Proof.
  intros id. unfold coco_problem_id_is_fine, coco_vstrdupf, fmt_max.
  destruct (Nat.leb_spec 220 (length id)) as [L|L].
  { cbn [bind]. split; [split; [discriminate|intros [Q _]; lia]|]. split; [split; auto|]. split; [lia|discriminate]. }
  destruct (in_dec ascii_dec PERCENT id) as [P|P].
  - assert (Ns : ~ safe id) by (intros S; exact (safe_no_percent id S P)).
    destruct (vsprintf id []) as [t| |] eqn:E; cbn [bind].
    + pose proof (vsprintf_length _ _ E). rewrite strdupf_short by lia. cbn [bind].
      assert (Nt : id_loop t true = false).
      { apply id_loop_bool. intros S. exact (safe_no_percent t S (vsprintf_percent _ _ P E)). }
      rewrite Nt. split; [split; [discriminate|intros [_ Q]; contradiction]|]. split; [split; [discriminate|lia]|].
      split; [intros _ Q; contradiction|discriminate].
    + exfalso. clear - E L. revert E.
      assert (G : forall n s, length s <= n -> vsprintf s [] <> Err).
      { induction n as [|n IH]; intros s Ls E; destruct s as [|c s]; try discriminate E; cbn [length] in Ls; [lia|].
        cbn [vsprintf] in E. destruct (Ascii.eqb c PERCENT); cbn [negb] in E.
        - destruct s as [|c1 s1]; [discriminate E|]. cbn [length] in Ls. destruct (Ascii.eqb c1 PERCENT).
          + destruct (vsprintf s1 []) eqn:E1; try discriminate E. apply (IH s1); [lia|exact E1].
          + destruct (Ascii.eqb c1 "s"); [discriminate E|]. destruct (Ascii.eqb c1 "l"); [destruct s1; discriminate E|].
            destruct (Ascii.eqb c1 "0"); [|discriminate E]. destruct s1 as [|? [|? [|? ?]]]; discriminate E.
        - destruct (vsprintf s []) eqn:E1; try discriminate E. apply (IH s); [lia|exact E1]. }
      exact (G _ id (le_n _)).
    + split; [split; [discriminate|intros [_ Q]; contradiction]|]. split; [split; [discriminate|lia]|].
      split; [intros _ Q; contradiction|intros _; exact P].
  - rewrite vsprintf_plain by exact P. cbn [bind]. rewrite strdupf_short by lia. cbn [bind].
    split; [|split; [split; [discriminate|lia]|split; [|discriminate]]].
    + rewrite <- id_loop_spec. split; [intros Q; injection Q as Q; auto|intros [_ ->]; reflexivity].
    + intros _ _ S. apply id_loop_bool in S. rewrite S. reflexivity.
Qed.

(** Whatever the format and the arguments: an id that is set is safe and is the formatted text. *)
Theorem C41_set : forall fmt args id, coco_problem_set_id fmt args = Ok id ->
  safe id /\ length id < 220 /\ vsprintf fmt args = Ok id.
Proof.
  intros fmt args id H. unfold coco_problem_set_id in H. apply bind_Ok in H as [t [E H]]. apply bind_Ok in H as [b [Eb H]].
  destruct b; [|discriminate H]. injection H as ->. apply C41_check in Eb as [L S]. split; [exact S|]. split; [exact L|].
  unfold coco_vstrdupf in E. destruct (fmt_max <=? length fmt); [discriminate E|].
  apply bind_Ok in E as [u [Eu E]]. apply strdupf_inv in E as [-> _]. exact Eu.
Qed.

(** Stacking keeps ids safe. *)
Theorem C41_stacked : forall id1 id2, safe (stacked_id id1 id2) <-> safe id1 /\ safe id2.
Proof.
  intros id1 id2. unfold stacked_id, safe. rewrite !Forall_app.
  assert (Forall safe_char (str "__")) by (apply str_safe; reflexivity). tauto.
Qed.

#[local] Opaque print_lu.

(** The ids of the suites for all numbers of functions, instances and dimensions. *)
Definition row (s : suite_id) : nat :=
  match s with
  | Bbob => 0 | BbobBoxed => 1 | BbobNoisy => 2 | BbobLargescale => 3 | BbobMixint => 4 | BbobBiobj => 5
  | BbobBiobjMixint => 6 | BbobConstrained => 7 | BbobConstrainedActive => 8 | BbobConstrainedPlain => 9
  end.

Theorem C41_suite_ids : forall s f i d, (f < 2 ^ 64)%N -> (i < 2 ^ 64)%N -> (d < 2 ^ 64)%N ->
  exists name wf wi wd id, nth_error suite_table (row s) = Some (name, (wf, wi, wd)) /\
    suite_problem_id s f i d = Ok id /\ id_text (str name) wf wi wd f i d id /\ safe id.
Proof.
  intros s f i d Hf Hi Hd.
  assert (G : forall name wf wi wd, forallb id_char (str name) = true -> length (str name) <= 30 -> wf <= 20 -> wi <= 20 -> wd <= 20 ->
    vsprintf (template s) (template_args s f i d) =
      Ok (str name ++ str "_f" ++ print_lu wf f ++ str "_i" ++ print_lu wi i ++ str "_d" ++ print_lu wd d) ->
    length (template s) < 220 -> nth_error suite_table (row s) = Some (name, (wf, wi, wd)) ->
    exists name wf wi wd id, nth_error suite_table (row s) = Some (name, (wf, wi, wd)) /\
    suite_problem_id s f i d = Ok id /\ id_text (str name) wf wi wd f i d id /\ safe id).
  { intros name wf wi wd Hn Ln L1 L2 L3 E Lt Er.
    exists name, wf, wi, wd. eexists. split; [exact Er|].
    assert (Sf : safe (str name ++ str "_f" ++ print_lu wf f ++ str "_i" ++ print_lu wi i ++ str "_d" ++ print_lu wd d)).
    { assert (Pd : forall w n, (n < 2 ^ 64)%N -> safe (print_lu w n)).
      { intros w n Hw. apply digits_safe. pose proof (print_lu_numeral w n Hw) as [_ [D _]]. exact D. }
      apply safe_app; [apply str_safe; exact Hn|]. apply safe_app; [apply str_safe; reflexivity|].
      apply safe_app; [apply Pd; exact Hf|]. apply safe_app; [apply str_safe; reflexivity|].
      apply safe_app; [apply Pd; exact Hi|]. apply safe_app; [apply str_safe; reflexivity|]. apply Pd; exact Hd. }
    split; [|split; [|exact Sf]].
    - unfold suite_problem_id. apply set_id_ok; [exact Lt|exact E|exact Sf|].
      rewrite !app_length. pose proof (print_lu_length wf f L1). pose proof (print_lu_length wi i L2).
      pose proof (print_lu_length wd d L3).
      change (length (str "_f")) with 2. change (length (str "_i")) with 2. change (length (str "_d")) with 2. lia.
    - exists (print_lu wf f), (print_lu wi i), (print_lu wd d).
      split; [apply print_lu_numeral; exact Hf|]. split; [apply print_lu_numeral; exact Hi|].
      split; [apply print_lu_numeral; exact Hd|reflexivity]. }
  assert (R : forall t : cstr, t ++ [] = t) by (intros t; apply app_nil_r).
  destruct s;
    match goal with |- context [nth_error suite_table (row ?s)] =>
      let r := eval vm_compute in (nth_error suite_table (row s)) in
      match r with Some (?n, (?a, ?b, ?c)) =>
        apply (G n a b c); [reflexivity|vm_compute; lia|lia|lia|lia| |vm_compute; lia|reflexivity] end end;
    (* the formatted text *)
    cbn -[print_lu]; rewrite R; reflexivity.
Qed.

#[local] Transparent print_lu.

(** Different problems of a suite have different ids. *)
Theorem C41_distinct : forall s f i d f' i' d' id, (f < 2 ^ 64)%N -> (i < 2 ^ 64)%N -> (d < 2 ^ 64)%N ->
  (f' < 2 ^ 64)%N -> (i' < 2 ^ 64)%N -> (d' < 2 ^ 64)%N ->
  suite_problem_id s f i d = Ok id -> suite_problem_id s f' i' d' = Ok id -> f = f' /\ i = i' /\ d = d'.
Proof.
  intros s f i d f' i' d' id Hf Hi Hd Hf' Hi' Hd' E E'.
  destruct (C41_suite_ids s f i d Hf Hi Hd) as [name [wf [wi [wd [id1 [R [E1 [[tf [ti [td [Nf [Ni [Nd T]]]]]] _]]]]]]]].
  destruct (C41_suite_ids s f' i' d' Hf' Hi' Hd') as [name' [wf' [wi' [wd' [id1' [R' [E1' [[tf' [ti' [td' [Nf' [Ni' [Nd' T']]]]]] _]]]]]]]].
  rewrite R in R'. injection R' as <- <- <- <-. assert (Q : id1 = id1') by congruence.
  rewrite T in Q. rewrite T' in Q. clear T T'. rename Q into T'. apply app_inv_head in T'. apply app_inv_head in T'.
  destruct Nf as [Vf [Df _]], Ni as [Vi [Di _]], Nd as [Vd [Dd _]], Nf' as [Vf' [Df' _]], Ni' as [Vi' [Di' _]], Nd' as [Vd' [Dd' _]].
  destruct (id_parts tf tf' ti ti' td td' Df Df' Di Di' T') as [-> [-> ->]]. split; [|split]; congruence.
Qed.

(** Problems of different suites have different ids, except that bbob and bbob-largescale agree from dimension 1000 on. *)
Theorem C41_across : forall s s' f i d f' i' d' id, (f < 2 ^ 64)%N -> (i < 2 ^ 64)%N -> (d < 2 ^ 64)%N ->
  (f' < 2 ^ 64)%N -> (i' < 2 ^ 64)%N -> (d' < 2 ^ 64)%N ->
  suite_problem_id s f i d = Ok id -> suite_problem_id s' f' i' d' = Ok id ->
  f = f' /\ i = i' /\ d = d' /\
  (s = s' \/ ((s = Bbob /\ s' = BbobLargescale \/ s = BbobLargescale /\ s' = Bbob) /\ (1000 <= d)%N)).
Proof.
  intros s s' f i d f' i' d' id Hf Hi Hd Hf' Hi' Hd' E E'.
  destruct (C41_suite_ids s f i d Hf Hi Hd) as [name [wf [wi [wd [id1 [R [E1 [[tf [ti [td [Nf [Ni [Nd T]]]]]] _]]]]]]]].
  destruct (C41_suite_ids s' f' i' d' Hf' Hi' Hd') as [name' [wf' [wi' [wd' [id1' [R' [E1' [[tf' [ti' [td' [Nf' [Ni' [Nd' T']]]]]] _]]]]]]]].
  assert (Q : id1 = id1') by congruence. clear E E' E1 E1'.
  rewrite T in Q. rewrite T' in Q. clear T T'. rename Q into T'.
  assert (Same : name = name' -> f = f' /\ i = i' /\ d = d' /\ td = td').
  { intros <-. apply app_inv_head in T'. apply app_inv_head in T'.
    destruct Nf as [Vf [Df _]], Ni as [Vi [Di _]], Nd as [Vd [Dd _]], Nf' as [Vf' [Df' _]], Ni' as [Vi' [Di' _]], Nd' as [Vd' [Dd' _]].
    destruct (id_parts tf tf' ti ti' td td' Df Df' Di Di' T') as [-> [-> ->]]. split; [|split; [|split]]; congruence. }
  assert (Long : forall w w' n t, numeral w n t -> numeral w' n t -> w = 2 -> w' = 4 -> (1000 <= n)%N).
  { intros w w' n t [V [D [_ [L F]]]] [_ [_ [_ [L' _]]]] -> ->. specialize (F ltac:(lia) ltac:(lia)).
    destruct t as [|a [|b [|c [|e t]]]]; cbn [length] in L'; try lia. cbn [hd_error] in F. clear - V D F.
    change (a :: b :: c :: e :: t) with ([a] ++ (b :: c :: e :: t)) in V. rewrite number_app in V. cbn [length] in V.
    assert (1 <= number [a])%N.
    { inversion D as [|? ? Da _]; subst. cbn in Da. destruct Da as [<-|Da]; [congruence|].
      repeat (destruct Da as [<-|Da]; [vm_compute; discriminate|]). destruct Da. }
    assert (10 ^ 3 <= 10 ^ N.of_nat (S (S (S (length t)))))%N by (apply N.pow_le_mono_r; lia).
    change (10 ^ 3)%N with 1000%N in *. nia. }
  destruct s, s'; vm_compute in R, R'; injection R as <- <- <- <-; injection R' as <- <- <- <-;
    first [ (destruct (Same eq_refl) as [Q1 [Q2 [Q3 Q4]]]; subst; split; [|split; [|split]]; auto;
             (right; split; [auto|first [exact (Long _ _ _ _ Nd Nd' eq_refl eq_refl)|exact (Long _ _ _ _ Nd' Nd eq_refl eq_refl)]]))
          | (exfalso; cbn [str list_ascii_of_string app] in T'; discriminate T') ].
Qed.

(** Examples; the last two are the characters documented as allowed ('.') and as not allowed (upper case). *)
Example C41_example :
  coco_problem_id_is_fine (str "bbob-biobj_f01_i02_d40") = Ok true /\
  coco_problem_id_is_fine (str "a/b") = Ok false /\ coco_problem_id_is_fine (str "") = Ok true /\
  coco_problem_id_is_fine (str "100%%") = Ok false /\ coco_problem_id_is_fine (str "%d") = UB /\
  suite_problem_id BbobLargescale 24 101 640 = Ok (str "bbob_f024_i101_d0640") /\
  suite_problem_id BbobConstrainedActive 5 3 2 = Ok (str "bbob-constrained-active-only_f005_i03_d02").
Proof. repeat split; vm_compute; reflexivity. Qed.

(** The comment on the check says that '.' is allowed; it is rejected.  The documentation of
    coco_problem_get_id says that only lower case letters, digits, '-' and '_' occur; upper case is accepted. *)
Theorem C41_documented_refuted :
  coco_problem_id_is_fine (str "f1.5") = Ok false /\ coco_problem_id_is_fine (str "F1") = Ok true.
Proof. split; vm_compute; reflexivity. Qed.

Print Assumptions C41_check.
Print Assumptions C41_set.
Print Assumptions C41_stacked.
Print Assumptions C41_suite_ids.
Print Assumptions C41_distinct.
Print Assumptions C41_across.
Print Assumptions C41_documented_refuted.
