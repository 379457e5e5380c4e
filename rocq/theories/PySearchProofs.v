(** Proofs about random search. *)
From Coq Require Import List Arith ZArith Bool Reals Lia Lra.
From Flocq Require Import Core BinarySingleNaN.
From Verif Require Import CBase DblModel DblSpec DblProofs ProbSpec ProbProofs PySearchModel PySearchSpec.
Import ListNotations.
Local Open Scope nat_scope.

(** [i] is the position of the first smallest value of l. *)
Definition least (l : list double) (i : nat) (v : double) : Prop :=
  nth_error l i = Some v /\ (forall w, In w l -> ~ below w v) /\ (forall j w, j < i -> nth_error l j = Some w -> below v w).

Lemma not_below : forall a b, num a -> num b -> ~ below a b -> (val b <= val a)%R.
Proof. intros a b A B H. destruct (Rle_or_lt (val b) (val a)) as [L|L]; [exact L|]. exfalso. apply H. repeat split; assumption. Qed.
Lemma nan_num : forall v, num v -> coco_is_nan v = false.
Proof. intros v H. rewrite is_nan_num. exact H. Qed.

Lemma nth_app_mid : forall A (pre : list A) w l, nth_error (pre ++ w :: l) (length pre) = Some w.
Proof. intros. rewrite nth_error_app2 by lia. rewrite Nat.sub_diag. reflexivity. Qed.

Lemma argmin_from_least : forall l pre best v, Forall num (pre ++ l) -> best < length pre -> least pre best v ->
  exists u, least (pre ++ l) (argmin_from best v (length pre) l) u.
Proof.
  intros l. induction l as [|w l IH]; intros pre best v F B L.
  - exists v. rewrite app_nil_r. exact L.
  - cbn [argmin_from]. assert (Nw : num w) by (rewrite Forall_forall in F; apply F, in_or_app; right; left; reflexivity).
    destruct L as (E & M & S). assert (Nv : num v).
    { rewrite Forall_forall in F. apply F, in_or_app. left. exact (nth_error_In _ _ E). }
    rewrite (nan_num v Nv), (nan_num w Nw). cbn [orb].
    assert (F2 : Forall num ((pre ++ [w]) ++ l)) by (rewrite <- app_assoc; exact F).
    assert (Q : pre ++ w :: l = (pre ++ [w]) ++ l) by (rewrite <- app_assoc; reflexivity).
    assert (Fp : forall u, In u pre -> num u) by (intros u Hu; rewrite Forall_forall in F; apply F, in_or_app; left; exact Hu).
    destruct (dlt w v) eqn:D.
    + apply below_dlt in D. destruct (IH (pre ++ [w]) (length pre) w F2) as [u U].
      * rewrite app_length. cbn. lia.
      * split; [apply nth_app_mid|]. split.
        -- intros u Hu. apply in_app_or in Hu as [Hu|[<-|[]]]; [|apply below_irrefl].
           intros K. apply (M u Hu). exact (below_trans _ _ _ K D).
        -- intros j u Hj Ej. rewrite nth_error_app1 in Ej by exact Hj. pose proof (nth_error_In _ _ Ej) as Hu.
           pose proof (not_below u v (Fp u Hu) Nv (M u Hu)). destruct D as (_ & _ & D). repeat split; [exact Nw|exact (Fp u Hu)|lra].
      * exists u. rewrite app_length in U. cbn [length] in U. rewrite Nat.add_1_r in U. rewrite Q. exact U.
    + destruct (IH (pre ++ [w]) best v F2) as [u U].
      * rewrite app_length. cbn. lia.
      * split; [rewrite nth_error_app1 by exact B; exact E|]. split.
        -- intros u Hu. apply in_app_or in Hu as [Hu|[<-|[]]]; [exact (M u Hu)|]. intros K. apply below_dlt in K. congruence.
        -- intros j u Hj Ej. rewrite nth_error_app1 in Ej by lia. exact (S j u Hj Ej).
      * exists u. rewrite app_length in U. cbn [length] in U. rewrite Nat.add_1_r in U. rewrite Q. exact U.
Qed.
Lemma argmin_least : forall l, l <> [] -> Forall num l -> exists u, least l (argmin l) u.
Proof.
  intros [|v l] NE F; [contradiction|]. cbn [argmin]. apply (argmin_from_least l [v] 0 v F); [cbn; lia|].
  split; [reflexivity|]. split; [|intros j w Hj; lia]. intros w [<-|[]]. apply below_irrefl.
Qed.

Lemma call_all_app : forall P X Y h, call_all P h (X ++ Y) = call_all P h X ++ call_all P (h ++ X) Y.
Proof.
  intros P X. induction X as [|x X IH]; intros Y h; [cbn; rewrite app_nil_r; reflexivity|].
  cbn [app call_all]. rewrite IH, <- app_assoc. reflexivity.
Qed.
Lemma call_all_length : forall P X h, length (call_all P h X) = length X.
Proof. intros P X. induction X as [|x X IH]; intros h; [reflexivity|]. cbn. rewrite IH. reflexivity. Qed.
Lemma call_all_values : forall P X h k x, nth_error X k = Some x -> nth_error (call_all P h X) k = Some (value P (h ++ firstn k X) x).
Proof.
  intros P X. induction X as [|y X IH]; intros h [|k] x E; try discriminate E; cbn in *.
  - injection E as ->. rewrite app_nil_r. reflexivity.
  - rewrite (IH (h ++ [y]) k x E), <- app_assoc. reflexivity.
Qed.
Lemma values_call_all : forall P H V, values_of P H V <-> V = call_all P [] H.
Proof.
  intros P H V. split.
  - intros [L E]. assert (X : forall k, nth_error V k = nth_error (call_all P [] H) k).
    { intros k. destruct (nth_error H k) as [x|] eqn:K.
      - rewrite (E k x K), (call_all_values P H [] k x K). reflexivity.
      - apply nth_error_None in K. assert (nth_error V k = None) as -> by (apply nth_error_None; lia).
        symmetry. apply nth_error_None. rewrite call_all_length. exact K. }
    assert (L2 : length V = length (call_all P [] H)) by (rewrite call_all_length; exact L).
    clear -X L2. revert X L2. generalize (call_all P [] H) as W. induction V as [|v V IH]; intros [|w W] X L; try discriminate L; [reflexivity|].
    pose proof (X 0) as X0. cbn in X0. injection X0 as ->. f_equal. apply IH; [exact (fun k => X (S k))|]. injection L. auto.
  - intros ->. split; [apply call_all_length|]. intros k x E. rewrite (call_all_values P H [] k x E). reflexivity.
Qed.

Lemma satisfies_test : forall P x, satisfies P x -> forallb (fun c => dle c dzero) (constraint P x) = true.
Proof.
  intros P x H. apply forallb_forall. intros c I. unfold satisfies in H. rewrite Forall_forall in H. destruct (H c I) as [N L].
  apply dle_val; [exact N|reflexivity|exact L].
Qed.
Lemma all_feasible : forall P X F, length F = length X -> Forall (satisfies P) X -> feasible_values P X F = F.
Proof.
  intros P X. unfold feasible_values. induction X as [|x X IH]; intros [|v F] L A; try discriminate L; [reflexivity|].
  inversion A; subst. cbn [combine filter fst]. rewrite (satisfies_test P x) by assumption. cbn [map snd]. f_equal.
  apply IH; [injection L; auto|assumption].
Qed.

Definition fine (P : problem_view) (H : list (list double)) : Prop :=
  Forall num (call_all P [] H) /\ (number_of_constraints P = 0 \/ Forall (satisfies P) H).
Definition best_so_far (P : problem_view) (s : search) : Prop :=
  let V := call_all P [] (history s) in
  match x_min s, f_min s with
  | None, None => history s = []
  | Some x, Some v => exists i, nth_error (history s) i = Some x /\ least V i v
  | _, _ => False
  end.

Lemma least_num : forall l i v, Forall num l -> least l i v -> num v.
Proof. intros l i v F (E & _). rewrite Forall_forall in F. exact (F v (nth_error_In _ _ E)). Qed.
Lemma least_app_left : forall l m i v, Forall num (l ++ m) -> least l i v -> (forall w, In w m -> ~ below w v) -> least (l ++ m) i v.
Proof.
  intros l m i v F (E & M & S) K. assert (B : i < length l) by (apply nth_error_Some; congruence).
  split; [rewrite nth_error_app1 by exact B; exact E|]. split.
  - intros w Hw. apply in_app_or in Hw as [Hw|Hw]; [exact (M w Hw)|exact (K w Hw)].
  - intros j w Hj Ej. rewrite nth_error_app1 in Ej by lia. exact (S j w Hj Ej).
Qed.
Lemma least_app_right : forall l m i v u j, Forall num (l ++ m) -> least l i v -> least m j u -> below u v -> least (l ++ m) (length l + j) u.
Proof.
  intros l m i v u j F (E & M & S) (E' & M' & S') B. rewrite Forall_forall in F.
  assert (Nv : num v) by (apply F, in_or_app; left; exact (nth_error_In _ _ E)).
  assert (Nu : num u) by (apply F, in_or_app; right; exact (nth_error_In _ _ E')).
  assert (K : forall w, In w l -> below u w).
  { intros w Hw. assert (num w) by (apply F, in_or_app; left; exact Hw). pose proof (not_below w v H Nv (M w Hw)).
    destruct B as (_ & _ & B). split; [exact Nu|]. split; [exact H|lra]. }
  split; [rewrite nth_error_app2 by lia; replace (length l + j - length l) with j by lia; exact E'|]. split.
  - intros w Hw C. apply in_app_or in Hw as [Hw|Hw]; [|exact (M' w Hw C)]. apply (below_irrefl u). exact (below_trans _ _ _ (K w Hw) C).
  - intros k w Hk Ek. destruct (Nat.lt_ge_cases k (length l)) as [L|L].
    + rewrite nth_error_app1 in Ek by exact L. exact (K w (nth_error_In _ _ Ek)).
    + rewrite nth_error_app2 in Ek by exact L. apply (S' (k - length l) w); [lia|exact Ek].
Qed.

Lemma pass_best : forall P X s, number_of_objectives P = 1 -> X <> [] ->
  (fine P (history s) -> best_so_far P s) -> fine P (history (pass P X s)) -> best_so_far P (pass P X s).
Proof.
  intros P X s O NE IH. unfold pass. rewrite O. cbn [Nat.eqb]. set (A := call_all P (history s) X).
  destruct (better X (if 0 <? number_of_constraints P then feasible_values P X A else A) (x_min s) (f_min s)) as [x v] eqn:E.
  cbn [history]. intros [F C]. unfold best_so_far. cbn [history x_min f_min]. rewrite call_all_app in *. cbn [app] in *. fold A in F. fold A.
  assert (LA : length A = length X) by apply call_all_length.
  assert (EF : (if 0 <? number_of_constraints P then feasible_values P X A else A) = A).
  { destruct C as [C|C]; [rewrite C; reflexivity|]. destruct (0 <? _); [|reflexivity]. apply all_feasible; [exact LA|].
    apply Forall_app in C. apply C. }
  rewrite EF in E. clear EF.
  assert (H0 : fine P (history s)).
  { split; [apply Forall_app in F; apply F|]. destruct C as [C|C]; [left; exact C|right; apply Forall_app in C; apply C]. }
  specialize (IH H0). unfold best_so_far in IH. set (V := call_all P [] (history s)) in *.
  assert (LV : length V = length (history s)) by apply call_all_length.
  assert (NA : A <> []) by (intros Z; rewrite Z in LA; destruct X; [contradiction|discriminate LA]).
  destruct (argmin_least A NA ltac:(apply Forall_app in F; apply F)) as [u U].
  assert (Iu : nth (argmin A) A dzero = u) by (apply nth_error_nth; apply U).
  assert (Ix : nth_error X (argmin A) = Some (nth (argmin A) X [])).
  { apply nth_error_nth'. rewrite <- LA. apply nth_error_Some. destruct U as [U _]. rewrite U. discriminate. }
  assert (B : better X A (x_min s) (f_min s) =
    if match f_min s with None => true | Some w => dlt u w end then (Some (nth (argmin A) X []), Some u) else (x_min s, f_min s)).
  { unfold better. destruct A; [contradiction|]. rewrite Iu. reflexivity. }
  rewrite B in E. clear B. destruct (f_min s) as [w|].
  - destruct (x_min s) as [x0|]; [|contradiction]. destruct IH as (i & Ei & L).
    destruct (dlt u w) eqn:D; injection E as <- <-.
    + apply below_dlt in D. exists (length (history s) + argmin A). split.
      * rewrite nth_error_app2 by lia. rewrite <- Ix. f_equal. lia.
      * rewrite <- LV. eapply least_app_right; eassumption.
    + exists i. split; [rewrite nth_error_app1 by (apply nth_error_Some; congruence); exact Ei|].
      apply least_app_left; [exact F|exact L|]. intros z Hz K. destruct U as (EU & MU & _).
      rewrite Forall_forall in F.
      assert (num z) by (apply F, in_or_app; right; exact Hz).
      assert (Nu : num u) by (apply F, in_or_app; right; exact (nth_error_In _ _ EU)).
      assert (Nw : num w) by (apply F, in_or_app; left; destruct L as [L _]; exact (nth_error_In _ _ L)).
      pose proof (not_below z u H Nu (MU z Hz)). destruct K as (_ & _ & K).
      apply dlt_false in D; [|exact Nu|exact Nw]. lra.
  - destruct (x_min s); [contradiction|]. injection E as <- <-. rewrite IH in *. exists (argmin A). split; [exact Ix|].
    assert (V = []) as -> by (unfold V; rewrite IH; reflexivity). exact U.
Qed.

(** Invariants of the loop *)
Lemma loop_inv : forall P lower upper rows (I : Z -> search -> Prop),
  (forall budget s, (0 < budget)%Z -> I budget s ->
     let chunk := chunk_size (length lower) budget in
     let X := map (fun k => point lower upper (rows k)) (seq (length (history s)) (Z.to_nat chunk)) in
     I (budget - cost P chunk)%Z (pass P X s)) ->
  forall fuel budget s, Z.to_nat budget <= fuel -> I budget s ->
  exists b', (b' <= 0)%Z /\ I b' (loop fuel P lower upper rows budget s).
Proof.
  intros P lower upper rows I Step. induction fuel as [|fuel IH]; intros budget s F H.
  - exists budget. split; [lia|exact H].
  - cbn [loop]. destruct (Z.leb_spec budget 0) as [L|L]; [exists budget; split; [exact L|exact H]|].
    apply IH; [|apply (Step budget s L H)].
    assert (1 <= chunk_size (length lower) budget)%Z by (unfold chunk_size; lia).
    unfold cost. destruct (0 <? _); lia.
Qed.
Lemma pass_history : forall P X s, history (pass P X s) = history s ++ X.
Proof. intros P X s. unfold pass. destruct (if _ =? 1 then _ else _). reflexivity. Qed.
Lemma pass_constraints : forall P X s, constraint_calls (pass P X s) = constraint_calls s + if 0 <? number_of_constraints P then length X else 0.
Proof. intros P X s. unfold pass. destruct (if _ =? 1 then _ else _). reflexivity. Qed.
Lemma pass_objectives : forall P X s, number_of_objectives P <> 1 -> x_min (pass P X s) = x_min s.
Proof. intros P X s H. unfold pass. destruct (Nat.eqb_spec (number_of_objectives P) 1); [contradiction|reflexivity]. Qed.
