(** Proofs about the example experiments. *)
From Coq Require Import List Arith NArith ZArith Bool Lia.
Import ListNotations.
From Verif Require Import CBase DblModel DblSpec ProbModel ProbSpec ProbProofs DemoModel DemoSpec.
Local Open Scope nat_scope.

Lemma no_constrain : forall cs, (forall x, ~ In (Constrain x) cs) -> counted_constraints cs = 0.
Proof.
  intros cs H. unfold counted_constraints. induction cs as [|c cs IH]; [reflexivity|]. cbn [filter].
  destruct c as [x|x|x]; [|exfalso; apply (H x); left; reflexivity|]; apply IH; intros x' K; apply (H x'); right; exact K.
Qed.

Section Loop.
Context {C : class} (n no nc : nat) (I : data C -> Prop) (alg : algorithm C).
Hypothesis NF : never_fails C n no nc I.
Hypothesis Pn : 0 < n.
Hypothesis Po : 0 < no.
Definition shape (p : problem C) : Prop :=
  number_of_variables (head p) = n /\ number_of_objectives (head p) = no /\ number_of_constraints (head p) = nc /\ I (body p) /\ has_best_value (head p).

Lemma shape_static : forall p q : problem C, shape p -> static (head p) (head q) -> I (body q) -> shape q.
Proof.
  intros p q (V & O & N & B & H) St Bq. unfold shape. rewrite (static_nv _ _ St), (static_no _ _ St), (static_nc _ _ St). repeat (split; [assumption|]).
  unfold has_best_value. rewrite St. exact H.
Qed.
Lemma session_shape : forall cs p, shape p -> sized n cs -> (nc = 0 -> forall x, ~ In (Constrain x) cs) ->
  exists ys q, session p cs = Ok (ys, q) /\ shape q.
Proof.
  induction cs as [|c cs IH]; intros p S Z NC; [exists [], p; split; [reflexivity|exact S]|]. cbn [session].
  inversion Z as [|? ? Z1 Z2]; subst. pose proof S as (V & O & N & B & H).
  destruct (perform_total C n no nc I p c NF Pn Po V N B Z1) as (y & q & P & Bq); [intros E x K; apply (NC E x); left; auto|].
  rewrite P. cbn [bind]. destruct (perform_counts p c y q) as [St _]; [congruence|exact P|].
  destruct (IH q) as (ys & q' & E & S'); [exact (shape_static p q S St Bq)|exact Z2|intros E x K; apply (NC E x); right; exact K|].
  rewrite E. cbn [bind]. exists (y :: ys), q'. split; [reflexivity|exact S'].
Qed.
Lemma target_ok : forall p, shape p -> exists b, coco_problem_final_target_hit (head p) = Ok b.
Proof.
  intros p (_ & _ & _ & _ & H). unfold coco_problem_final_target_hit. destruct (negb _ || _); [eexists; reflexivity|].
  destruct (best_value (head p)) as [v|] eqn:E; [|eexists; reflexivity]. specialize (H v E). destruct v; [contradiction|]. eexists. reflexivity.
Qed.
(** One run of any algorithm *)
Lemma execute_any : forall a : algorithm C, forall run b p, shape p -> sized n (a run b p) -> (nc = 0 -> forall x, ~ In (Constrain x) (a run b p)) ->
  exists q, execute a run b p = Ok q /\ shape q /\
    evaluations (head q) = (evaluations (head p) + N.of_nat (counted_evaluations (a run b p)))%N /\
    evaluations_constraints (head q) = (evaluations_constraints (head p) + N.of_nat (counted_constraints (a run b p)))%N.
Proof.
  intros a run b p S Z NC. destruct (session_shape (a run b p) p S Z NC) as (ys & q & E & S').
  exists q. unfold execute. rewrite E. cbn [bind]. split; [reflexivity|]. split; [exact S'|].
  destruct (session_counts (a run b p) p ys q) as (_ & A & B & _); [destruct S as (V & _); rewrite V; exact Z|exact E|]. split; assumption.
Qed.
Hypothesis KB : keeps_budget n nc alg.
Lemma execute_ok : forall run b p, shape p -> exists q, execute alg run b p = Ok q /\ shape q /\
  exists fe ce, evaluations (head q) = (evaluations (head p) + fe)%N /\ evaluations_constraints (head q) = (evaluations_constraints (head p) + ce)%N /\
    (fe + ce <= b)%N /\ (nc = 0 -> ce = 0%N) /\ (evaluates nc alg -> (0 < b)%N -> (0 < fe)%N).
Proof.
  intros run b p S. pose proof S as (_ & _ & N & _). destruct (KB run b p N) as (Z & NC & LE).
  destruct (execute_any alg run b p S Z NC) as (q & E & S' & A & B). exists q. split; [exact E|]. split; [exact S'|].
  exists (N.of_nat (counted_evaluations (alg run b p))), (N.of_nat (counted_constraints (alg run b p))). split; [exact A|]. split; [exact B|].
  split; [lia|]. split; [intros K; rewrite (no_constrain _ (NC K)); reflexivity|]. intros EV Lb. specialize (EV run b p N Lb). lia.
Qed.

Lemma sound_nil : forall B M p, (total_evaluations p <= B)%N -> sound (C:=C) B M [] p.
Proof. intros B M p L. split; [exact L|]. split; [cbn; lia|]. split; [constructor|intros []]. Qed.
Lemma sound_cons : forall B M p b l q, ~ hit p -> (0 < b)%N -> (total_evaluations p + b = B)%N -> sound B M l q ->
  sound (C:=C) B (S M) (Signal :: Run p b :: l) q /\ sound (C:=C) B (S M) (Run p b :: l) q.
Proof.
  intros B M p b l q H P T (A & R & F & NC). split; (split; [exact A|]; split; [cbn; unfold runs_of in R; lia|]; split;
  [repeat (constructor; [first [exact Logic.I|exact (conj H (conj P T))]|]); exact F|intros K; cbn in K; intuition discriminate]).
Qed.
Lemma complete_cons : forall B M p b l q, complete B M l q -> complete (C:=C) B (S M) (Signal :: Run p b :: l) q /\ complete (C:=C) B (S M) (Run p b :: l) q.
Proof. intros B M p b l q [H|[H|H]]; (split; [left + (right; left) + (right; right)| left + (right; left) + (right; right)]); first [exact H|unfold runs_of in *; cbn [filter is_run List.length]; congruence]. Qed.

Lemma c_runs_ok : forall B k run p, nc = 0 -> (B < 2 ^ 64)%N -> shape p -> evaluations_constraints (head p) = 0%N -> (total_evaluations p <= B)%N ->
  exists l q, c_runs alg B k run p = Ok (l, q) /\ sound B k l q /\ announced l /\ (evaluates nc alg -> complete B k l q).
Proof.
  intros B k. induction k as [|k IH]; intros run p Z LB S EC T; cbn [c_runs].
  - exists [], p. split; [reflexivity|]. split; [apply sound_nil; exact T|]. split; [exact Logic.I|]. intros _. right. right. reflexivity.
  - destruct (target_ok p S) as [h Hh]. rewrite Hh. cbn [bind].
    assert (D : w64 (total_evaluations p) = total_evaluations p) by (unfold w64; apply N.mod_small; lia). rewrite D.
    assert (R : w64 (B + 2 ^ 64 - total_evaluations p) = (B - total_evaluations p)%N).
    { unfold w64. replace (B + 2 ^ 64 - total_evaluations p)%N with ((B - total_evaluations p) + 1 * 2 ^ 64)%N by lia.
      rewrite N.mod_add by discriminate. apply N.mod_small. lia. }
    rewrite R. pose proof S as (_ & _ & Nc & _). rewrite (proj2 (Nat.eqb_eq _ 0) (eq_trans Nc Z)), andb_true_r.
    destruct h; cbn [orb].
    { exists [], p. split; [reflexivity|]. split; [apply sound_nil; exact T|]. split; [exact Logic.I|]. intros _. left. exact Hh. }
    destruct (N.eqb_spec (B - total_evaluations p) 0) as [E|E].
    { exists [], p. split; [reflexivity|]. split; [apply sound_nil; exact T|]. split; [exact Logic.I|]. intros _. right. left. lia. }
    destruct (execute_ok run (B - total_evaluations p)%N p S) as (q & X & S' & fe & ce & Fe & Ce & LE & C0 & EV). rewrite X. cbn [bind].
    specialize (C0 Z). assert (NH : ~ hit p) by (unfold hit; congruence).
    assert (TE : total_evaluations p = evaluations (head p)) by (unfold total_evaluations; lia).
    assert (TQ : (total_evaluations q <= B)%N) by (unfold total_evaluations in *; lia).
    rewrite TE. destruct (N.eqb_spec (evaluations (head q)) (evaluations (head p))) as [K|K].
    { eexists. exists q. split; [reflexivity|].
      split; [|split; [exact Logic.I|]].
      - split; [exact TQ|]. split; [cbn; lia|]. split; [|cbn; intuition discriminate].
        repeat constructor; [exact NH|lia|lia].
      - intros Ev. specialize (EV Ev). lia. }
    destruct (N.ltb_spec (evaluations (head q)) (evaluations (head p))); [lia|].
    destruct (IH (Datatypes.S run) q Z LB S') as (l & r & E1 & E2 & E3 & E4); [lia|exact TQ|]. rewrite E1. cbn [bind].
    eexists. exists r. split; [reflexivity|]. split; [apply sound_cons; [exact NH|lia|lia|exact E2]|]. split; [exact E3|].
    intros Ev. apply complete_cons. exact (E4 Ev).
Qed.
Lemma java_runs_ok : forall B k run p, nc = 0 -> shape p -> evaluations_constraints (head p) = 0%N -> (total_evaluations p <= B)%N ->
  exists l q, java_runs alg (Z.of_N B) k run p = Ok (l, q) /\ sound B k l q /\ announced l /\ (evaluates nc alg -> complete B k l q).
Proof.
  intros B k. induction k as [|k IH]; intros run p Z S EC T; cbn [java_runs].
  - exists [], p. split; [reflexivity|]. split; [apply sound_nil; exact T|]. split; [exact Logic.I|]. intros _. right. right. reflexivity.
  - destruct (target_ok p S) as [h Hh]. rewrite Hh. cbn [bind].
    replace (Z.to_N (Z.of_N B - Z.of_N (total_evaluations p))) with (B - total_evaluations p)%N by lia.
    destruct h; cbn [orb].
    { exists [], p. split; [reflexivity|]. split; [apply sound_nil; exact T|]. split; [exact Logic.I|]. intros _. left. exact Hh. }
    destruct (Z.leb_spec (Z.of_N B - Z.of_N (total_evaluations p)) 0) as [E|E].
    { exists [], p. split; [reflexivity|]. split; [apply sound_nil; exact T|]. split; [exact Logic.I|]. intros _. right. left. lia. }
    destruct (execute_ok run (B - total_evaluations p)%N p S) as (q & X & S' & fe & ce & Fe & Ce & LE & C0 & EV). rewrite X. cbn [bind].
    specialize (C0 Z). assert (NH : ~ hit p) by (unfold hit; congruence).
    assert (TE : total_evaluations p = evaluations (head p)) by (unfold total_evaluations; lia).
    assert (TQ : (total_evaluations q <= B)%N) by (unfold total_evaluations in *; lia).
    rewrite TE in *. destruct (Z.eqb_spec (Z.of_N (evaluations (head q))) (Z.of_N (evaluations (head p)))) as [K|K].
    { eexists. exists q. split; [reflexivity|].
      split; [|split; [exact Logic.I|]].
      - split; [exact TQ|]. split; [cbn; lia|]. split; [|cbn; intuition discriminate].
        repeat constructor; [exact NH|lia|lia].
      - intros Ev. specialize (EV Ev). lia. }
    destruct (Z.ltb_spec (Z.of_N (evaluations (head q))) (Z.of_N (evaluations (head p)))); [lia|].
    destruct (IH (Datatypes.S run) q Z S') as (l & r & E1 & E2 & E3 & E4); [lia|exact TQ|]. rewrite E1. cbn [bind app].
    eexists. exists r. split; [reflexivity|]. split; [apply sound_cons; [exact NH|lia|lia|exact E2]|]. split; [exact E3|].
    intros Ev. apply complete_cons. exact (E4 Ev).
Qed.
Lemma matlab_runs_ok : forall B k run p, shape p -> (total_evaluations p <= B)%N -> ~ hit p ->
  exists l q, matlab_runs alg B k run p = Ok (l, q) /\ sound B k l q /\ announced l /\ (evaluates nc alg -> complete B k l q).
Proof.
  intros B k. induction k as [|k IH]; intros run p S T NH; cbn [matlab_runs].
  - exists [], p. split; [reflexivity|]. split; [apply sound_nil; exact T|]. split; [exact Logic.I|]. intros _. right. right. reflexivity.
  - destruct (N.ltb_spec (total_evaluations p) B) as [L|L]; cbn [negb].
    2: { exists [], p. split; [reflexivity|]. split; [apply sound_nil; exact T|]. split; [exact Logic.I|]. intros _. right. left. lia. }
    destruct (execute_ok run (B - total_evaluations p)%N p S) as (q & X & S' & fe & ce & Fe & Ce & LE & C0 & EV). rewrite X. cbn [bind].
    assert (TQ : (total_evaluations q <= B)%N) by (unfold total_evaluations in *; lia).
    assert (TG : total_evaluations q = (total_evaluations p + fe + ce)%N) by (unfold total_evaluations in *; lia).
    destruct (target_ok q S') as [h Hh]. rewrite Hh. cbn [bind].
    destruct (h || (B <=? total_evaluations q)%N) eqn:HB.
    { eexists. exists q. split; [reflexivity|]. split; [|split; [exact Logic.I|]].
      - split; [exact TQ|]. split; [cbn; lia|]. split; [|cbn; intuition discriminate]. repeat constructor; [exact NH|lia|lia].
      - intros _. apply orb_true_iff in HB as [->|HB]; [left; exact Hh|]. apply N.leb_le in HB. right. left. lia. }
    apply orb_false_iff in HB as [-> HB]. destruct (N.eqb_spec (total_evaluations q) (total_evaluations p)) as [K|K].
    { eexists. exists q. split; [reflexivity|]. split; [|split; [exact Logic.I|]].
      - split; [exact TQ|]. split; [cbn; lia|]. split; [|cbn; intuition discriminate]. repeat constructor; [exact NH|lia|lia].
      - intros Ev. specialize (EV Ev). lia. }
    destruct (N.ltb_spec (total_evaluations q) (total_evaluations p)); [lia|].
    destruct (IH (Datatypes.S run) q S') as (l & r & E1 & E2 & E3 & E4); [exact TQ|unfold hit; congruence|]. rewrite E1. cbn [bind app].
    eexists. exists r. split; [reflexivity|]. split; [apply sound_cons; [exact NH|lia|lia|exact E2]|]. split; [exact E3|].
    intros Ev. apply complete_cons. exact (E4 Ev).
Qed.
Lemma rust_runs_ok : forall B k run p, shape p -> (total_evaluations p <= B)%N ->
  exists l q, rust_runs alg B k run p = Ok (l, q) /\ sound B k l q /\ (evaluates nc alg -> complete B k l q).
Proof.
  intros B k. induction k as [|k IH]; intros run p S T; cbn [rust_runs].
  - exists [], p. split; [reflexivity|]. split; [apply sound_nil; exact T|]. intros _. right. right. reflexivity.
  - destruct (target_ok p S) as [h Hh]. rewrite Hh. cbn [bind]. destruct h; cbn [orb].
    { exists [], p. split; [reflexivity|]. split; [apply sound_nil; exact T|]. intros _. left. exact Hh. }
    destruct (N.eqb_spec (B - total_evaluations p) 0) as [E|E].
    { exists [], p. split; [reflexivity|]. split; [apply sound_nil; exact T|]. intros _. right. left. lia. }
    destruct (execute_ok run (B - total_evaluations p)%N p S) as (q & X & S' & fe & ce & Fe & Ce & LE & C0 & EV). rewrite X. cbn [bind].
    assert (TQ : (total_evaluations q <= B)%N) by (unfold total_evaluations in *; lia).
    destruct (IH (Datatypes.S run) q S' TQ) as (l & r & E1 & E2 & E4). rewrite E1. cbn [bind].
    eexists. exists r. split; [reflexivity|]. split; [apply sound_cons; [unfold hit; congruence|lia|lia|exact E2]|].
    intros Ev. apply complete_cons. exact (E4 Ev).
Qed.
End Loop.
