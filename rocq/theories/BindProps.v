(** C90: evaluating from MATLAB, Rust and Java. *)
From Coq Require Import List Arith NArith ZArith Bool Lia.
From Flocq Require Import BinarySingleNaN.
Import ListNotations.
From Verif Require Import CBase DblModel DblSpec ProbModel ProbSpec ProbProofs BindModel BindSpec.
From Verif Require ProbProps.
Local Open Scope nat_scope.

Definition outputs (no nc : nat) (c : call) : nat := match c with Evaluate _ => no | Constrain _ => nc | Recommend _ => 0 end.
Lemma perform_sized : forall C n no nc I (p : problem C) c y q, never_fails C n no nc I ->
  number_of_variables (head p) = n -> number_of_objectives (head p) = no -> number_of_constraints (head p) = nc -> I (body p) ->
  length (argument c) = n -> (nc = 0 -> forall x, c <> Constrain x) -> perform p c = Ok (y, q) -> length y = outputs no nc c.
Proof.
  intros C n no nc I p c y q (Pe & Pr & Pc) V O Nc B L NC H. destruct c as [x|x|x]; cbn [argument perform outputs] in *.
  - destruct (classify x) as [[R _]|[[R _]|[R _]]].
    + destruct (eval_regular p x y q) as (d & E & _); [congruence|exact R|exact H|].
      destruct (Pe (head p) (body p) x B V L R) as (y' & d' & E' & _ & Ly). congruence.
    + rewrite eval_inf in H by congruence. injection H as <- _. rewrite repeat_length. exact O.
    + rewrite eval_nan in H by congruence. injection H as <- _. rewrite repeat_length. exact O.
  - destruct Pc as [Z|(f & F & Pf)]; [contradiction (NC Z x eq_refl)|]. unfold coco_evaluate_constraint in H.
    destruct (classify x) as [[R _]|[[R _]|[R _]]].
    + unfold coco_evaluate_constraint_optional_update in H. rewrite F in H. apply bind_Ok in H as [m [_ H]]. apply bind_Ok in H as [iv [_ H]].
      destruct iv; [injection H as <- _; rewrite repeat_length; exact Nc|]. apply bind_Ok in H as [b [_ H]].
      destruct b; [injection H as <- _; rewrite repeat_length; exact Nc|]. apply bind_Ok in H as [[vs d] [E H]]. injection H as <- _.
      destruct (Pf (head p) (body p) x true B V L) as (vs' & d' & E' & _ & Lv). congruence.
    + rewrite (cons_inf f p x true F) in H by congruence. injection H as <- _. rewrite repeat_length. exact Nc.
    + rewrite (cons_nan f p x true F) in H by congruence. injection H as <- _. rewrite repeat_length. exact Nc.
  - apply bind_Ok in H as [r [_ H]]. injection H as <- _. reflexivity.
Qed.
Lemma fill_all : forall block y, length block = length y -> fill block y = Ok y.
Proof.
  intros block y L. unfold fill. rewrite L, Nat.ltb_irrefl, <- L, skipn_all, app_nil_r. reflexivity.
Qed.
Lemma c_call_ok : forall C (p : problem C) k x block y q, perform p (to_call k x) = Ok (y, q) -> length block = length y ->
  c_call p k x block = Ok (Values y, q).
Proof.
  intros C p k x block y q H L. destruct k; cbn [to_call perform c_call] in *.
  - rewrite H. cbn [bind]. rewrite fill_all by exact L. reflexivity.
  - rewrite H. cbn [bind]. rewrite fill_all by exact L. reflexivity.
  - apply bind_Ok in H as [r [E H]]. rewrite E. cbn [bind]. injection H as <- <-. reflexivity.
Qed.

(** One proof for the bindings *)
Section Runs.
Context {C : class} {A : Type} (n no nc : nat) (I : data C -> Prop).
Context (one : problem C -> A -> res (answer * problem C)) (ok : A -> bool) (conv : A -> call).
Fixpoint runs (p : problem C) (l : list A) : res (list answer * problem C) :=
  match l with
  | [] => Ok ([], p)
  | a :: l' => do (r, p1) <- one p a; do (s, p2) <- runs p1 l'; Ok (r :: s, p2)
  end.
Definition shape (p : problem C) : Prop :=
  number_of_variables (head p) = n /\ number_of_objectives (head p) = no /\ number_of_constraints (head p) = nc /\ I (body p).
Lemma runs_weave : forall l p, never_fails C n no nc I -> 0 < n -> 0 < no -> shape p ->
  (forall p a, In a l -> shape p -> ok a = false -> one p a = Ok (Raised, p)) ->
  (forall a, In a l -> ok a = true -> length (argument (conv a)) = n /\ (nc = 0 -> forall x, conv a <> Constrain x)) ->
  (forall p a y q, In a l -> shape p -> ok a = true -> perform p (conv a) = Ok (y, q) -> length y = outputs no nc (conv a) -> one p a = Ok (Values y, q)) ->
  exists ys q, session p (map conv (filter ok l)) = Ok (ys, q) /\ runs p l = Ok (weave ok l ys, q).
Proof.
  induction l as [|a l IH]; intros p NF Pn Po S REJ ARG ACC; [exists [], p; split; reflexivity|].
  cbn [filter runs weave]. destruct (ok a) eqn:K.
  - cbn [map session]. destruct (ARG a (or_introl eq_refl) K) as [L NC]. pose proof S as (V & O & Nc & B).
    destruct (perform_total C n no nc I p (conv a) NF Pn Po V Nc B L NC) as (y & q & P & Bq).
    pose proof (perform_sized C n no nc I p (conv a) y q NF V O Nc B L NC P) as Ly.
    rewrite P, (ACC p a y q (or_introl eq_refl) S K P Ly). cbn [bind].
    destruct (perform_counts p (conv a) y q) as [St _]; [congruence|exact P|].
    destruct (IH q NF Pn Po) as (ys & q' & E1 & E2).
    + split; [rewrite (static_nv _ _ St); exact V|]. split; [rewrite (static_no _ _ St); exact O|]. split; [rewrite (static_nc _ _ St); exact Nc|exact Bq].
    + intros p' a' H. apply REJ. right. exact H.
    + intros a' H. apply ARG. right. exact H.
    + intros p' a' y' q' H. apply ACC. right. exact H.
    + rewrite E1, E2. cbn [bind]. exists (y :: ys), q'. split; reflexivity.
  - rewrite (REJ p a (or_introl eq_refl) S K). cbn [bind].
    destruct (IH p NF Pn Po S) as (ys & q' & E1 & E2).
    + intros p' a' H. apply REJ. right. exact H.
    + intros a' H. apply ARG. right. exact H.
    + intros p' a' y' q' H. apply ACC. right. exact H.
    + rewrite E2. cbn [bind]. exists ys, q'. split; [exact E1|reflexivity].
Qed.
End Runs.
Lemma outputs_count : forall no nc k x, outputs no nc (to_call k x) = count no nc k.
Proof. intros no nc [] x; reflexivity. Qed.
Lemma room_count : forall C (p : problem C) k, room p k = count (number_of_objectives (head p)) (number_of_constraints (head p)) k.
Proof. intros C p []; reflexivity. Qed.

(** MATLAB and Octave: any sequence of calls with any arrays succeeds; arrays that are not a row or column of the right length give an
    error and change nothing, the others make the calls of C with exactly the given values, whose results are returned. *)
Theorem C90_matlab : forall (C : class) (no : nat) (I : data C -> Prop) (p : problem C) (l : list (what * mx)),
  let n := number_of_variables (head p) in let nc := number_of_constraints (head p) in
  never_fails C n no nc I -> 0 < n -> 0 < no -> number_of_objectives (head p) = no -> I (body p) ->
  Forall (fun r => mx_ok (snd r)) l -> (nc = 0 -> Forall (fun r => fst r <> Constraint) l) ->
  exists ys q, session p (map (fun r => to_call (fst r) (reals (snd r))) (filter (matlab_accepts n) l)) = Ok (ys, q) /\
               matlab_calls p l = Ok (weave (matlab_accepts n) l ys, q).
Proof.
  intros C no I p l n nc NF Pn Po O B W NC. rewrite Forall_forall in W.
  assert (EQ : forall p : problem C, matlab_calls p l = runs (fun (p : problem C) r => matlab_call p (fst r) (snd r)) p l).
  { clear. induction l as [|[k x] l IH]; intros p; cbn [matlab_calls runs fst snd]; [reflexivity|]. destruct (matlab_call p k x) as [[a p1]| |]; cbn [bind]; [rewrite IH|..]; reflexivity. }
  rewrite EQ. apply (runs_weave n no nc I); auto.
  - split; [reflexivity|]. split; [exact O|]. split; [reflexivity|exact B].
  - intros p' [k x] _ (V & _) K. cbn [fst snd] in *. unfold matlab_accepts in K. cbn [snd] in K. unfold matlab_call.
    destruct (is_double x); [|reflexivity]. cbn [andb negb] in *. rewrite (proj2 (dimension_ok (head p') n)) by (split; [congruence|exact Pn]). cbn [bind].
    apply orb_false_iff in K as [K1 K2]. rewrite K1, K2. reflexivity.
  - intros [k x] H K. cbn [fst snd] in *. specialize (W _ H). cbn [snd] in W. split.
    + unfold matlab_accepts in K. cbn [snd] in K. apply andb_true_iff in K as [_ K]. replace (argument (to_call k (reals x))) with (reals x) by (destruct k; reflexivity).
      rewrite W. apply orb_true_iff in K as [K|K]; apply andb_true_iff in K as [K1 K2]; apply Nat.eqb_eq in K1, K2; rewrite K1, K2; lia.
    + intros Z x' E. specialize (NC Z). rewrite Forall_forall in NC. apply (NC _ H). cbn [fst]. destruct k; [discriminate E|reflexivity|discriminate E].
  - intros p' [k x] y q H (V & O' & N' & _) K P Ly. cbn [fst snd] in *. unfold matlab_accepts in K. cbn [snd] in K. unfold matlab_call.
    apply andb_true_iff in K as [K1 K2]. rewrite K1. cbn [negb]. rewrite (proj2 (dimension_ok (head p') n)) by (split; [congruence|exact Pn]). cbn [bind].
    rewrite <- negb_orb, orb_comm, K2. cbn [negb]. apply c_call_ok; [exact P|]. rewrite repeat_length, Ly, outputs_count, room_count. congruence.
Qed.
(** Rust: the same with slices; wrong lengths panic before anything happens. *)
Theorem C90_rust : forall (C : class) (no : nat) (I : data C -> Prop) (p : problem C) (l : list (what * list double * list double)),
  let n := number_of_variables (head p) in let nc := number_of_constraints (head p) in
  never_fails C n no nc I -> 0 < n -> 0 < no -> number_of_objectives (head p) = no -> I (body p) ->
  (nc = 0 -> Forall (fun r => fst (fst r) <> Constraint) l) ->
  exists ys q, session p (map (fun r => to_call (fst (fst r)) (snd (fst r))) (filter (rust_accepts n no nc) l)) = Ok (ys, q) /\
               rust_calls p l = Ok (weave (rust_accepts n no nc) l ys, q).
Proof.
  intros C no I p l n nc NF Pn Po O B NC.
  assert (EQ : forall p : problem C, rust_calls p l = runs (fun (p : problem C) r => rust_call p (fst (fst r)) (snd (fst r)) (snd r)) p l).
  { clear. induction l as [|[[k x] y] l IH]; intros p; cbn [rust_calls runs fst snd]; [reflexivity|]. destruct (rust_call p k x y) as [[a p1]| |]; cbn [bind]; [rewrite IH|..]; reflexivity. }
  rewrite EQ. apply (runs_weave n no nc I); auto.
  - split; [reflexivity|]. split; [exact O|]. split; [reflexivity|exact B].
  - intros p' [[k x] y] _ (V & O' & N' & _) K. cbn [fst snd] in *. unfold rust_accepts in K. cbn [fst snd] in K. unfold rust_call.
    rewrite (proj2 (dimension_ok (head p') n)) by (split; [congruence|exact Pn]). cbn [bind]. rewrite room_count, O', N'.
    rewrite (Nat.eqb_sym n), (Nat.eqb_sym (count no nc k)). destruct (length x =? n); [|reflexivity]. cbn [negb andb] in *. rewrite K. reflexivity.
  - intros [[k x] y] H K. cbn [fst snd] in *. split.
    + unfold rust_accepts in K. cbn [fst snd] in K. apply andb_true_iff in K as [K _]. apply Nat.eqb_eq in K. destruct k; exact K.
    + intros Z x' E. specialize (NC Z). rewrite Forall_forall in NC. apply (NC _ H). cbn [fst]. destruct k; [discriminate E|reflexivity|discriminate E].
  - intros p' [[k x] y] ys q H (V & O' & N' & _) K P Ly. cbn [fst snd] in *. unfold rust_accepts in K. cbn [fst snd] in K. unfold rust_call.
    apply andb_true_iff in K as [K1 K2]. rewrite (proj2 (dimension_ok (head p') n)) by (split; [congruence|exact Pn]). cbn [bind].
    rewrite (Nat.eqb_sym n), K1. cbn [negb]. rewrite room_count, O', N', (Nat.eqb_sym (count no nc k)), K2. cbn [negb].
    apply c_call_ok; [exact P|]. apply Nat.eqb_eq in K2. rewrite Ly, outputs_count. exact K2.
Qed.
(** Java: with arrays that are long enough the calls are those of C with the first values, the rest is ignored. *)
Theorem C90_java : forall (C : class) (no : nat) (I : data C -> Prop) (p : problem C) (l : list (what * list double)),
  let n := number_of_variables (head p) in let nc := number_of_constraints (head p) in
  never_fails C n no nc I -> 0 < n -> 0 < no -> number_of_objectives (head p) = no -> I (body p) ->
  (nc = 0 -> Forall (fun r => fst r <> Constraint) l) -> Forall (fun r => n <= length (snd r)) l ->
  exists ys q, session p (map (fun r => to_call (fst r) (firstn n (snd r))) l) = Ok (ys, q) /\ java_calls p l = Ok (map Values ys, q).
Proof.
  intros C no I p l n nc NF Pn Po O B NC LE. rewrite Forall_forall in LE.
  assert (EQ : forall p : problem C, java_calls p l = runs (fun (p : problem C) r => java_call p (fst r) (snd r)) p l).
  { clear. induction l as [|[k x] l IH]; intros p; cbn [java_calls runs fst snd]; [reflexivity|]. destruct (java_call p k x) as [[a p1]| |]; cbn [bind]; [rewrite IH|..]; reflexivity. }
  destruct (runs_weave n no nc I (fun (p : problem C) r => java_call p (fst r) (snd r)) (fun _ => true) (fun r => to_call (fst r) (firstn n (snd r))) l p) as (ys & q & E1 & E2); auto.
  - split; [reflexivity|]. split; [exact O|]. split; [reflexivity|exact B].
  - intros ? ? _ _ K. discriminate K.
  - intros [k x] H _. cbn [fst snd] in *. specialize (LE _ H). cbn [snd] in LE. split.
    + replace (argument (to_call k (firstn n x))) with (firstn n x) by (destruct k; reflexivity). apply firstn_length_le. exact LE.
    + intros Z x' E. specialize (NC Z). rewrite Forall_forall in NC. apply (NC _ H). cbn [fst]. destruct k; [discriminate E|reflexivity|discriminate E].
  - intros p' [k x] y q H (V & O' & N' & _) _ P Ly. cbn [fst snd] in *. unfold java_call. rewrite V. rewrite outputs_count in Ly. rewrite room_count, O', N'.
    destruct k; cbn [to_call perform count] in *.
    + destruct (Nat.eqb_spec no 0); [lia|]. rewrite P. cbn [bind]. rewrite Ly, Nat.eqb_refl. reflexivity.
    + destruct (Nat.eqb_spec nc 0) as [Z|]; [specialize (NC Z); rewrite Forall_forall in NC; contradiction (NC _ H eq_refl)|].
      rewrite P. cbn [bind]. rewrite Ly, Nat.eqb_refl. reflexivity.
    + apply bind_Ok in P as [r [E P]]. rewrite E. cbn [bind]. injection P as <- <-. reflexivity.
  - exists ys, q. replace (filter (fun _ => true) l) with l in E1 by (clear; induction l as [|a l IH]; [reflexivity|cbn [filter]; congruence]).
    split; [exact E1|]. rewrite EQ, E2. do 2 f_equal.
    assert (LL : length ys = length l).
    { clear - E1. clearbody n. revert p ys E1. induction l as [|a l IH]; intros p ys E; cbn [map session] in E; [injection E as <- _; reflexivity|].
      apply bind_Ok in E as [[y p1] [_ E]]. apply bind_Ok in E as [[ys' p2] [E' E]]. injection E as <- E3. cbn [length]. f_equal. apply (IH p1). congruence. }
    clear - LL. revert ys LL. induction l as [|a l IH]; intros ys LL; destruct ys as [|y ys]; try discriminate LL; [reflexivity|]. cbn [weave map]. f_equal. apply IH. injection LL as LL. exact LL.
Qed.
(** Deviation: Java checks no length; with fewer values than variables (none of them infinite) memory behind the array is read. *)
Lemma first_inf_short : forall n x, length x < n -> Forall fin x -> first_inf n x = UB.
Proof.
  induction n as [|n IH]; intros x L F; [lia|]. destruct x as [|v x]; [reflexivity|]. cbn [first_inf length] in *. inversion F as [|? ? F1 F2]; subst.
  pose proof (first_inf_none [v] (regular_no_inf [v] (Forall_cons v F1 (Forall_nil _)))) as E. cbn [length first_inf] in E.
  destruct (coco_is_inf v); [discriminate E|]. apply IH; [lia|exact F2].
Qed.
Theorem C90_java_short_refuted : forall (C : class) (p : problem C) x, 0 < number_of_objectives (head p) ->
  length x < number_of_variables (head p) -> Forall fin x ->
  java_call p Function x = UB /\ rust_call p Function x (repeat dzero (number_of_objectives (head p))) = Ok (Raised, p).
Proof.
  intros C p x O L F. assert (D : coco_problem_get_dimension (head p) = Ok (number_of_variables (head p))) by (apply dimension_ok; split; [reflexivity|lia]).
  split.
  - unfold java_call. cbn [room]. destruct (Nat.eqb_spec (number_of_objectives (head p)) 0); [lia|]. rewrite firstn_all2 by lia.
    unfold coco_evaluate_function. rewrite D. cbn [bind]. rewrite first_inf_short by assumption. reflexivity.
  - unfold rust_call. rewrite D. cbn [bind]. destruct (Nat.eqb_spec (number_of_variables (head p)) (length x)); [lia|reflexivity].
Qed.
(** Evaluating constraints of a problem without any ends the process in all three: *)
Theorem C90_unconstrained_refuted : forall (C : class) (p : problem C) x, evaluate_constraint C = None -> number_of_constraints (head p) = 0 ->
  0 < number_of_variables (head p) -> length x = number_of_variables (head p) ->
  matlab_call p Constraint {| is_double := true; rows := 1; columns := length x; reals := x |} = Err /\
  rust_call p Constraint x [] = Err /\ java_call p Constraint x = Err.
Proof.
  intros C p x E Z P L. assert (D : coco_problem_get_dimension (head p) = Ok (number_of_variables (head p))) by (apply dimension_ok; split; [reflexivity|lia]).
  split; [|split].
  - unfold matlab_call. cbn [is_double negb]. rewrite D. cbn [bind rows columns reals]. rewrite L, !Nat.eqb_refl. cbn [andb negb].
    rewrite andb_false_r. unfold c_call, coco_evaluate_constraint, coco_evaluate_constraint_optional_update. rewrite E. reflexivity.
  - unfold rust_call. rewrite D. cbn [bind]. rewrite L, Nat.eqb_refl. cbn [negb room]. rewrite Z. cbn [length Nat.eqb negb].
    unfold c_call, coco_evaluate_constraint, coco_evaluate_constraint_optional_update. rewrite E. reflexivity.
  - unfold java_call. cbn [room]. rewrite Z. reflexivity.
Qed.
(** Two columns, a row, not of class double, then a wrong shape *)
Definition example_calls : list (what * mx) :=
  [(Function, {| is_double := true; rows := 1; columns := 1; reals := [dint 3] |});
   (Function, {| is_double := true; rows := 1; columns := 2; reals := [dint 3; dint 4] |});
   (Constraint, {| is_double := true; rows := 1; columns := 1; reals := [dint 2] |});
   (Function, {| is_double := false; rows := 1; columns := 1; reals := [dint 3] |});
   (Solution, {| is_double := true; rows := 1; columns := 1; reals := [dint 2] |})].
Example C90_example : let p := ProbProps.square_problem 1 in
  never_fails ProbProps.square 1 1 1 (fun _ => True) /\ Forall (fun r => mx_ok (snd r)) example_calls /\
  filter (matlab_accepts 1) example_calls = [nth 0 example_calls (Solution, {| is_double := true; rows := 0; columns := 0; reals := [] |});
    nth 2 example_calls (Solution, {| is_double := true; rows := 0; columns := 0; reals := [] |});
    nth 4 example_calls (Solution, {| is_double := true; rows := 0; columns := 0; reals := [] |})] /\
  match matlab_calls p example_calls with
  | Ok ([Values [a]; Raised; Values [b]; Raised; Values []], q) =>
      (negb (dlt a (dint 9)) && negb (dlt (dint 9) a) && dlt b dzero, evaluations (head q), evaluations_constraints (head q)) = (true, 1, 1)%N
  | _ => False
  end.
Proof.
  cbv zeta. split; [exact ProbProps.square_never_fails|]. split; [repeat constructor|]. split; [reflexivity|].
  vm_compute. reflexivity.
Qed.

Print Assumptions C90_matlab.
Print Assumptions C90_rust.
Print Assumptions C90_java.
Print Assumptions C90_java_short_refuted.
Print Assumptions C90_unconstrained_refuted.
