(** C84: the Python class for bare bbob functions. *)
From Coq Require Import List Arith NArith ZArith Ascii String Bool Lia.
From Flocq Require Import BinarySingleNaN.
From Verif Require Import CBase DblModel DblSpec StrModel IdModel IdSpec IdProps ProbModel ProbSpec ProbProofs PySuiteModel PyBareModel.
Import ListNotations.
Local Open Scope nat_scope.
Local Open Scope list_scope.

(** A bbob function in range: the object, its attributes and the text of str(). *)
Theorem C84_created : forall C allocate f d i p, (1 <= f <= 24)%Z -> (0 <= d < 2 ^ 31)%Z -> (0 <= i < 2 ^ 31)%Z ->
  allocate (Z.to_N f) (Z.to_N d) (Z.to_N i) = Ok p ->
  exists b, BareProblem C allocate (str "bbob") f d i = Ret b /\
    suite_name b = str "bbob" /\ function b = f /\ dimension b = d /\ instance b = i /\ object b = p /\
    id_text (str "bbob") 3 2 2 (Z.to_N f) (Z.to_N i) (Z.to_N d) (id b).
Proof.
  intros C allocate f d i p Hf Hd Hi E. unfold BareProblem.
  assert (CI : c_int f && c_int d && c_int i = true).
  { unfold c_int. rewrite !andb_true_iff, !Z.leb_le, !Z.ltb_lt. lia. }
  assert (CS : c_size_t f && c_size_t d && c_size_t i = true).
  { unfold c_size_t. rewrite !andb_true_iff, !Z.leb_le, !Z.ltb_lt. lia. }
  rewrite CI, CS. change (ascii_text (str "bbob")) with true. change (streq (str "bbob") (str "bbob")) with true. cbn [negb].
  assert (G : coco_get_bbob_problem C allocate (Z.to_N f) (Z.to_N d) (Z.to_N i) = Ok p).
  { unfold coco_get_bbob_problem. destruct (N.leb_spec 1 (Z.to_N f)); [|lia]. destruct (N.leb_spec (Z.to_N f) 24); [|lia]. exact E. }
  rewrite G.
  destruct (C41_suite_ids Bbob (Z.to_N f) (Z.to_N i) (Z.to_N d)) as (name & wf & wi & wd & t & R & T & X & _); [lia|lia|lia|].
  rewrite T. cbn in R. injection R as <- <- <- <-.
  eexists. split; [reflexivity|]. cbn. repeat (split; [reflexivity|]). exact X.
Qed.

(** Everything else: an exception or the end of the process; never NoSuchProblem. *)
Definition fits_int (z : Z) : Prop := (- 2 ^ 31 <= z < 2 ^ 31)%Z.
Theorem C84_rejected : forall C allocate name f d i, Forall (fun c => (N_of_ascii c < 128)%N) name ->
  (fits_int f /\ fits_int d /\ fits_int i -> name <> str "bbob" -> BareProblem C allocate name f d i = Raise NoSuchSuite) /\
  (~ (fits_int f /\ fits_int d /\ fits_int i) -> BareProblem C allocate name f d i = Raise OverflowError) /\
  ((f < 0 \/ d < 0 \/ i < 0)%Z -> name = str "bbob" -> BareProblem C allocate name f d i = Raise OverflowError).
Proof.
  intros C allocate name f d i A. unfold BareProblem.
  assert (AT : ascii_text name = true) by (unfold ascii_text; apply forallb_forall; intros c H; apply N.ltb_lt; rewrite Forall_forall in A; exact (A c H)).
  rewrite AT. cbn [negb].
  assert (CI : c_int f && c_int d && c_int i = true <-> fits_int f /\ fits_int d /\ fits_int i).
  { unfold c_int, fits_int. rewrite !andb_true_iff, !Z.leb_le, !Z.ltb_lt. tauto. }
  split; [|split].
  - intros F N. apply CI in F. rewrite F. cbn [negb]. destruct (streq name (str "bbob")) eqn:S; [|reflexivity].
    apply streq_spec in S. contradiction.
  - intros F. destruct (c_int f && c_int d && c_int i); [|reflexivity]. exfalso. apply F, CI. reflexivity.
  - intros L ->. destruct (c_int f && c_int d && c_int i); [|reflexivity]. change (streq (str "bbob") (str "bbob")) with true. cbn [negb].
    assert (CS : c_size_t f && c_size_t d && c_size_t i = false).
    { unfold c_size_t. apply not_true_iff_false. rewrite !andb_true_iff, !Z.leb_le, !Z.ltb_lt. lia. }
    rewrite CS. reflexivity.
Qed.
(** Deviation: the documented NoSuchProblemException is never raised; a function number outside of 1 to 24 ends the process. *)
Theorem C84_no_exception_refuted :
  (forall C allocate name f d i, BareProblem C allocate name f d i <> Raise NoSuchProblem) /\
  (forall C allocate f d i, (0 <= f < 2 ^ 31)%Z -> ~ (1 <= f <= 24)%Z -> (0 <= d < 2 ^ 31)%Z -> (0 <= i < 2 ^ 31)%Z ->
     BareProblem C allocate (str "bbob") f d i = Dead).
Proof.
  split.
  - intros C allocate name f d i. unfold BareProblem. destruct (negb (ascii_text name)); [discriminate|].
    destruct (negb (c_int f && c_int d && c_int i)); [discriminate|]. destruct (negb (streq name (str "bbob"))); [discriminate|].
    destruct (negb (c_size_t f && c_size_t d && c_size_t i)); [discriminate|].
    destruct (coco_get_bbob_problem _ _ _ _ _); [|discriminate|discriminate]. destruct (suite_problem_id _ _ _ _); discriminate.
  - intros C allocate f d i Hf F Hd Hi. unfold BareProblem.
    assert (CI : c_int f && c_int d && c_int i = true).
    { unfold c_int. rewrite !andb_true_iff, !Z.leb_le, !Z.ltb_lt. lia. }
    assert (CS : c_size_t f && c_size_t d && c_size_t i = true).
    { unfold c_size_t. rewrite !andb_true_iff, !Z.leb_le, !Z.ltb_lt. lia. }
    rewrite CI, CS. change (ascii_text (str "bbob")) with true. change (streq (str "bbob") (str "bbob")) with true. cbn [negb].
    assert (G : coco_get_bbob_problem C allocate (Z.to_N f) (Z.to_N d) (Z.to_N i) = Err).
    { unfold coco_get_bbob_problem. destruct (N.leb_spec 1 (Z.to_N f)), (N.leb_spec (Z.to_N f) 24); try reflexivity. lia. }
    rewrite G. reflexivity.
Qed.

(** One vector: the value of the C function; further entries are ignored without notice. *)
Theorem C84_vector : forall C (b : bare C) x more q y ys,
  List.length x = number_of_variables (head (object b)) -> coco_evaluate_function (object b) x = Ok (y :: ys, q) ->
  bare_call C b (Vector (x ++ more)) = (Ret (Number y), set_object b q).
Proof.
  intros C b x more q y ys L E. cbn [bare_call]. unfold evaluate_at. rewrite <- L, firstn_app, Nat.sub_diag, firstn_O, app_nil_r, firstn_all, E.
  reflexivity.
Qed.

Lemma evaluate_variables : forall C (p q : problem C) x y, coco_evaluate_function p x = Ok (y, q) ->
  number_of_variables (head q) = number_of_variables (head p).
Proof.
  intros C p q x y H. unfold coco_evaluate_function in H. apply bind_Ok in H as [n [_ H]]. apply bind_Ok in H as [[v|] [_ H]].
  { injection H as _ <-. reflexivity. }
  apply bind_Ok in H as [nan [_ H]]. destruct nan; [injection H as _ <-; reflexivity|].
  apply bind_Ok in H as [[y' d] [_ H]]. apply bind_Ok in H as [y0 [_ H]].
  set (p1 := {| head := _; body := d |}) in H.
  destruct (dlt y0 _); [|injection H as _ <-; reflexivity].
  apply bind_Ok in H as [[feas p2] [F H]].
  assert (V : number_of_variables (head p2) = number_of_variables (head p1)).
  { destruct (0 <? _); [|injection F as _ <-; reflexivity]. unfold coco_is_feasible in F.
    apply bind_Ok in F as [n' [_ F]]. apply bind_Ok in F as [fi [_ F]]. destruct (negb fi); [injection F as _ <-; reflexivity|].
    destruct (_ =? 0); [injection F as _ <-; reflexivity|]. destruct (evaluate_constraint C); [|discriminate F].
    apply bind_Ok in F as [[vs d'] [_ F]]. apply bind_Ok in F as [fe [_ F]]. injection F as _ <-. reflexivity. }
  destruct feas; injection H as _ <-; exact V.
Qed.
Lemma evaluate_at_variables : forall C (p q : problem C) x y, evaluate_at C p x = Ok (y, q) ->
  number_of_variables (head q) = number_of_variables (head p).
Proof.
  intros C p q x y H. unfold evaluate_at in H. apply bind_Ok in H as [[y' q'] [E H]]. apply bind_Ok in H as [y0 [_ H]].
  injection H as _ <-. exact (evaluate_variables _ _ _ _ _ E).
Qed.
Lemma set_set : forall C (b : bare C) p q, set_object (set_object b p) q = set_object b q.
Proof. reflexivity. Qed.
Lemma set_same : forall C (b : bare C), set_object b (object b) = b.
Proof. intros C []. reflexivity. Qed.
Lemma firstn_row : forall A n (r : list A) l, List.length r = n -> firstn n (r ++ l) = r.
Proof. intros A n r l <-. rewrite firstn_app, Nat.sub_diag, firstn_O, app_nil_r, firstn_all. reflexivity. Qed.
Lemma rows_calls : forall C n rows i (done : list double) (b b' : bare C) ys, List.length done = i * n ->
  Forall (fun r => List.length r = n) rows -> number_of_variables (head (object b)) = n ->
  (exists q, rows_from C (object b) n i (List.length rows) (done ++ List.concat rows) = Ok (ys, q) /\ b' = set_object b q) <->
  bare_calls C b (map Vector rows) = (map (fun y => Ret (Number y)) ys, b').
Proof.
  intros C n rows. induction rows as [|r rows IH]; intros i done b b' ys Ld F V; cbn [List.length rows_from map bare_calls].
  - split.
    + intros (q & E & ->). injection E as <- <-. rewrite set_same. reflexivity.
    + intros E. injection E as E <-. destruct ys; [|discriminate E]. exists (object b). split; [reflexivity|]. symmetry. apply set_same.
  - inversion F as [|r1 rows1 Lr F' Q1]. clear r1 rows1 Q1 H.
    assert (M : evaluate_at C (object b) (skipn (i * n) (done ++ List.concat (r :: rows))) = evaluate_at C (object b) r).
    { unfold evaluate_at. rewrite V, <- Ld, skipn_app, skipn_all, Nat.sub_diag. cbn [skipn List.concat app].
      rewrite firstn_row by exact Lr. rewrite <- Lr, firstn_all. reflexivity. }
    rewrite M. cbn [bare_call]. destruct (evaluate_at C (object b) r) as [[y q]| |] eqn:E; cbn [bind].
    + specialize (IH (S i) (done ++ r) (set_object b q) b').
      rewrite app_length, Ld in IH. specialize (fun ys => IH ys ltac:(rewrite Lr; lia) F').
      assert (VV : number_of_variables (head (object (set_object b q))) = n) by (cbn; rewrite (evaluate_at_variables _ _ _ _ _ E); exact V).
      cbn [List.concat]. rewrite <- app_assoc in IH. cbn [object set_object] in IH.
      split.
      * intros (q' & E' & ->). apply bind_Ok in E' as [[ys' r'] [R E']]. injection E' as <- <-.
        assert (Y : bare_calls C (set_object b q) (map Vector rows) = (map (fun y => Ret (Number y)) ys', set_object b r')).
        { apply IH; [exact VV|]. exists r'. split; [exact R|reflexivity]. }
        rewrite Y. reflexivity.
      * destruct (bare_calls C (set_object b q) (map Vector rows)) as [zs b2] eqn:Z. intros H. injection H as H <-.
        destruct ys as [|y1 ys]; [discriminate H|]. cbn [map] in H. injection H as Hy H. subst zs y1.
        assert (Y : exists q', rows_from C q n (S i) (List.length rows) (done ++ r ++ List.concat rows) = Ok (ys, q') /\
          b2 = set_object (set_object b q) q').
        { apply IH; [exact VV|reflexivity]. }
        destruct Y as (q' & R & ->). exists q'. rewrite R. split; reflexivity.
    + split; [intros (q' & E' & _); discriminate E'|]. destruct (bare_calls C b (map Vector rows)). destruct ys; discriminate.
    + split; [intros (q' & E' & _); discriminate E'|]. destruct (bare_calls C b (map Vector rows)). destruct ys; discriminate.
Qed.

(** Many vectors at once: the same values, and the same state afterwards, as with the rows one after the other. *)
Theorem C84_batch : forall C (b b' : bare C) rows ys,
  Forall (fun r => List.length r = number_of_variables (head (object b))) rows ->
  (bare_call C b (Matrix true (List.length rows) (number_of_variables (head (object b))) (List.concat rows)) = (Ret (Numbers ys), b') <->
   bare_calls C b (map Vector rows) = (map (fun y => Ret (Number y)) ys, b')).
Proof.
  intros C b b' rows ys F. rewrite <- (rows_calls C _ rows 0 [] b b' ys eq_refl F eq_refl). cbn [bare_call app].
  destruct (rows_from _ _ _ _ _ _) as [[zs q]| |].
  - split.
    + intros H. injection H as -> <-. exists q. split; reflexivity.
    + intros (q' & E & ->). injection E as -> ->. reflexivity.
  - split; [discriminate|]. intros (q' & E & _). discriminate E.
  - split; [discriminate|]. intros (q' & E & _). discriminate E.
Qed.
(** The attributes stay, whatever is called. *)
Theorem C84_attributes : forall C (b : bare C) xs, let b' := snd (bare_calls C b xs) in
  suite_name b' = suite_name b /\ function b' = function b /\ dimension b' = dimension b /\ instance b' = instance b /\ id b' = id b.
Proof.
  intros C b xs. revert b. induction xs as [|x xs IH]; intros b; [repeat split|]. cbn [bare_calls].
  destruct (bare_call C b x) as [y b1] eqn:E. specialize (IH b1). destruct (bare_calls C b1 xs) as [ys b2]. cbn [snd] in *.
  assert (S : exists q, b1 = set_object b q).
  { destruct x as [v|[|] n d v|]; cbn [bare_call] in E.
    - destruct (evaluate_at C (object b) v) as [[? q]| |]; injection E as _ <-; [exists q; reflexivity| |]; exists (object b); rewrite set_same; reflexivity.
    - destruct (rows_from _ _ _ _ _ _) as [[? q]| |]; injection E as _ <-; [exists q; reflexivity| |]; exists (object b); rewrite set_same; reflexivity.
    - injection E as _ <-. exists (object b). rewrite set_same. reflexivity.
    - injection E as _ <-. exists (object b). rewrite set_same. reflexivity. }
  destruct S as [q ->]. exact IH.
Qed.

(** Deviation: the number of entries is not tested.  Too few of them: the C code reads behind the vector. *)
Theorem C84_short : forall C (b : bare C) x, List.length x < number_of_variables (head (object b)) ->
  Forall (fun v => coco_is_inf v = false) x -> bare_call C b (Vector x) = (Dead, b).
Proof.
  intros C b x L F. cbn [bare_call]. unfold evaluate_at, coco_evaluate_function, coco_problem_get_dimension.
  rewrite firstn_all2 by lia. destruct (Nat.eqb_spec (number_of_variables (head (object b))) 0); [lia|]. cbn [bind].
  assert (U : first_inf (number_of_variables (head (object b))) x = UB).
  { clear -L F. revert L. generalize (number_of_variables (head (object b))) as n. intros n. revert n.
    induction F as [|v x H F IH]; intros [|n] L; cbn [List.length] in L; try lia; cbn [first_inf]; [reflexivity|].
    rewrite H. apply IH. lia. }
  rewrite U. reflexivity.
Qed.

(** Example class: the sum of the entries *)
Definition sum_class : class :=
  {| data := unit; evaluate_function := fun _ d x => Ok ([fold_right dadd dzero x], d); evaluate_constraint := None;
     recommend_solution := None; last_noise_free := fun _ => None |}.
Definition sum_problem (n : nat) : problem sum_class :=
  {| head := {| number_of_variables := n; number_of_objectives := 1; number_of_constraints := 0; number_of_integer_variables := 0;
       is_opt_known := false; best_value := None; best_parameter := Some (repeat dzero n); is_tainted := false; evaluations := 0;
       evaluations_constraints := 0; final_target_delta := dzero; best_observed_fvalue := dint 1000; best_observed_evaluation := 0 |};
     body := (tt : data sum_class) |}.
Definition sum_allocate (f d i : N) : res (problem sum_class) := Ok (sum_problem (N.to_nat d)).
Definition sum_bare (n : Z) (i : Z) (t : string) : bare sum_class := mk_bare (str "bbob") 1 n i (str t) (sum_problem (Z.to_nat n)).
(** Deviation: with too few columns the value of a row depends on the next row (the last row is infinite, so that nothing
    is read behind the matrix). *)
Definition first_value (r : out result * bare sum_class) : option double :=
  match fst r with Ret (Numbers (y :: _)) => Some y | _ => None end.
Theorem C84_next_row_refuted : exists b u v w,
  BareProblem sum_class sum_allocate (str "bbob") 1 2 1 = Ret b /\
  match first_value (bare_call sum_class b (Matrix true 3 1 [u; v; dinf])), first_value (bare_call sum_class b (Matrix true 3 1 [u; w; dinf])) with
  | Some y1, Some y2 => deq y1 y2 = false
  | _, _ => False
  end.
Proof.
  exists (sum_bare 2 1 "bbob_f001_i01_d02"), (dint 1), (dint 2), (dint 3). split; [|vm_compute; reflexivity].
  unfold BareProblem. replace (suite_problem_id Bbob (Z.to_N 1) (Z.to_N 1) (Z.to_N 2)) with (Ok (str "bbob_f001_i01_d02")) by (symmetry; vm_compute; reflexivity).
  reflexivity.
Qed.

(** The best parameter: reading it taints the problem, again and again with the same result. *)
Theorem C84_best_parameter : forall C (b b' : bare C) r, bare_best_parameter C b = (r, b') ->
  match r with
  | Some x => bare_is_tainted C b' = true /\ bare_best_parameter C b' = (Some x, b') /\
              exists v, best_parameter (head (object b)) = Some v /\ x = firstn (number_of_variables (head (object b))) v
  | None => b' = b
  end.
Proof.
  intros C b b' r H. unfold bare_best_parameter in H. destruct (coco_problem_get_best_parameter (head (object b))) as [x h] eqn:E.
  injection H as <- <-. unfold coco_problem_get_best_parameter in E. destruct (best_parameter (head (object b))) as [v|] eqn:B.
  - destruct (Nat.eqb_spec (number_of_objectives (head (object b))) 1) as [O|O].
    + injection E as <- <-. split; [reflexivity|]. split; [|exists v; split; reflexivity].
      unfold bare_best_parameter, coco_problem_get_best_parameter. cbn [object set_object set_head head best_parameter number_of_objectives]. rewrite O.
      reflexivity.
    + injection E as <- <-. destruct b as [? ? ? ? ? [? ?]]. reflexivity.
  - injection E as <- <-. destruct b as [? ? ? ? ? [? ?]]. reflexivity.
Qed.

Example C84_example : let b := sum_bare 2 3 "bbob_f001_i03_d02" in
  BareProblem sum_class sum_allocate (str "bbob") 1 2 3 = Ret b /\
  Forall (fun r => List.length r = number_of_variables (head (object b))) [[dint 1; dint 2]; [dint 3; dint 4]] /\
  match bare_call sum_class b (Matrix true 2 2 [dint 1; dint 2; dint 3; dint 4]) with
  | (Ret (Numbers [y1; y2]), b') => deq y1 (dint 3) && deq y2 (dint 7) && (evaluations (head (object b')) =? 2)%N
  | _ => false
  end = true /\
  fst (bare_best_parameter sum_class b) <> None /\ bare_is_tainted sum_class b = false /\
  BareProblem sum_class sum_allocate (str "bbob-biobj") 1 2 3 = Raise NoSuchSuite.
Proof.
  cbv zeta. split.
  { unfold BareProblem. replace (suite_problem_id Bbob (Z.to_N 1) (Z.to_N 3) (Z.to_N 2)) with (Ok (str "bbob_f001_i03_d02")) by (symmetry; vm_compute; reflexivity).
    reflexivity. }
  split; [repeat constructor|]. split; [vm_compute; reflexivity|]. split; [vm_compute; discriminate|].
  split; reflexivity.
Qed.

Print Assumptions C84_created.
Print Assumptions C84_rejected.
Print Assumptions C84_no_exception_refuted.
Print Assumptions C84_vector.
Print Assumptions C84_batch.
Print Assumptions C84_attributes.
Print Assumptions C84_short.
Print Assumptions C84_next_row_refuted.
Print Assumptions C84_best_parameter.
