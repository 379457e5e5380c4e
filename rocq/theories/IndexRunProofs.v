(** Proofs about the files of the bbob logger: whole experiments. *)
From Coq Require Import String List Arith NArith ZArith Ascii Bool Lia.
From Verif Require Import CBase StrModel OptModel FsModel FsSpec FsProofs IdModel IdSpec IdProofs DblModel BbobModel
  IndexModel IndexSpec IndexProofs.
Import ListNotations.
Local Notation length := List.length.
Local Open Scope nat_scope.

Lemma snoc_cases : forall (A : Type) (l : list A), l = [] \/ exists l0 x, l = l0 ++ [x].
Proof. intros A l. destruct l as [|x l _] using rev_ind; eauto. Qed.

(** A decomposition of a list with one more element at the end *)
Lemma snoc_split : forall (A : Type) (l : list A) x a y b, l ++ [x] = a ++ y :: b ->
  (b = [] /\ a = l /\ y = x) \/ exists b0, b = b0 ++ [x] /\ l = a ++ y :: b0.
Proof.
  intros A l x a y b E. destruct (snoc_cases A b) as [->|(b0 & z & ->)].
  - left. apply app_inj_tail in E as [-> ->]. auto.
  - right. exists b0. change (a ++ y :: b0 ++ [z]) with (a ++ (y :: b0) ++ [z]) in E. rewrite app_assoc in E.
    apply app_inj_tail in E as [-> ->]. auto.
Qed.

Lemma same_key_eq : forall a b, same_key a b = true <-> a = b.
Proof.
  intros [a1 a2] [b1 b2]. unfold same_key. cbn [fst snd]. rewrite andb_true_iff, !N.eqb_eq. split; [intros [-> ->]; auto|].
  intros E. split; congruence.
Qed.

Lemma of_key_head : forall k r ms n, of_key k {| name := n; members := r :: ms |} = same_key (key r) k.
Proof. reflexivity. Qed.

Lemma uniform_key : forall s r k, uniform s -> In r (members s) -> of_key k s = true <-> k = key r.
Proof.
  intros s r k [N U] I. specialize (U r I). unfold of_key in *. destruct (members s) as [|q ms]; [now destruct N|].
  rewrite same_key_eq in *. rewrite U. split; auto.
Qed.

Lemma uniform_function : forall s r f, uniform s -> In r (members s) -> of_function f s = true <-> f = function r.
Proof.
  intros s r f [N U] I. specialize (U r I). unfold of_key, of_function in *. destruct (members s) as [|q ms]; [now destruct N|].
  rewrite same_key_eq in U. rewrite N.eqb_eq. apply (f_equal fst) in U. cbn [key fst] in U. rewrite U. split; auto.
Qed.

Lemma count_app : forall k a b, count k (a ++ b) = count k a + count k b.
Proof. intros k a b. unfold count. rewrite filter_app, app_length. reflexivity. Qed.

Lemma count_one : forall k s, count k [s] = if of_key k s then 1 else 0.
Proof. intros k s. unfold count. cbn [filter]. destruct (of_key k s); reflexivity. Qed.

Lemma apart_nil : apart [].
Proof. intros a s t b r E. destruct a; discriminate. Qed.

Lemma apart_snoc : forall ss t, apart (ss ++ [t]) <->
  apart ss /\ (forall ss0 s r, ss = ss0 ++ [s] -> In r (members s) -> of_key (key r) t = false).
Proof.
  intros ss t. split.
  - intros H. split.
    + intros a s u b r -> I. apply (H a s u (b ++ [t]) r); [|exact I]. rewrite <- app_assoc. reflexivity.
    + intros ss0 s r -> I. apply (H ss0 s t [] r); [|exact I]. rewrite <- app_assoc. reflexivity.
  - intros [H K] a s u b r E I. apply snoc_split in E as [(Eb & _ & _)|(b0 & Eb & E)].
    + discriminate Eb.
    + destruct b0 as [|v b0].
      * cbn [app] in Eb. injection Eb as -> ->. eapply K; [|exact I]. exact E.
      * cbn [app] in Eb. injection Eb as -> ->. eapply H; [|exact I]. exact E.
Qed.

Section Runs.
Variable dec : N -> cstr.
Hypothesis Hdec : decimals dec.
Variables e12 e1 e9 e4 : double -> cstr.
Variable version : cstr.
Variable refused : disk -> cstr -> bool.
Variable o : observer.
Hypothesis Hfits : fits o.

Lemma named_nil : named dec [].
Proof. intros a s b r E. destruct a; discriminate. Qed.

Lemma named_snoc : forall ss t, named dec (ss ++ [t]) <->
  named dec ss /\ (forall r, In r (members t) ->
    name t = candidate (base_name dec (key r)) (count (key r) ss) /\ count (key r) ss <= N.to_nat 9998).
Proof.
  intros ss t. split.
  - intros H. split.
    + intros a s b r -> I. apply (H a s (b ++ [t]) r); [|exact I]. rewrite <- app_assoc. reflexivity.
    + intros r I. apply (H ss t [] r); auto.
  - intros [H K] a s b r E I. apply snoc_split in E as [(-> & -> & ->)|(b0 & -> & E)].
    + apply K. exact I.
    + eapply H; [exact E|exact I].
Qed.

(** Session j of a function and dimension *)
Lemma nth_session : forall k ss j, Forall uniform ss -> j < count k ss ->
  exists a s b r, ss = a ++ s :: b /\ In r (members s) /\ key r = k /\ count k a = j.
Proof.
  intros k ss j. induction ss as [|t ss IH] using rev_ind; intros U L; [cbn in L; lia|].
  apply Forall_app in U as [U1 U2]. inversion U2 as [|? ? Ut _]; subst. rewrite count_app, count_one in L.
  destruct (lt_dec j (count k ss)) as [L'|L'].
  - destruct (IH U1 L') as (a & s & b & r & -> & I & K & C). exists a, s, (b ++ [t]), r. rewrite <- app_assoc. auto.
  - destruct (of_key k t) eqn:E; [|lia]. pose proof Ut as [Nt _]. destruct (members t) as [|r ms] eqn:Em; [now destruct Nt|].
    exists ss, t, [], r. rewrite Em. split; [reflexivity|]. split; [left; reflexivity|].
    assert (I : In r (members t)) by (rewrite Em; left; reflexivity). apply (uniform_key t r k Ut I) in E. subst k.
    split; [reflexivity|lia].
Qed.

Lemma unlines_app : forall a b, a <> [] -> b <> [] -> unlines (a ++ b) = unlines a ++ NL :: unlines b.
Proof.
  induction a as [|l a IH]; intros b Na Nb; [now destruct Na|]. destruct a as [|m a].
  - cbn [app]. destruct b as [|x b]; [now destruct Nb|]. reflexivity.
  - change ((l :: m :: a) ++ b) with (l :: (m :: a) ++ b).
    change (unlines (l :: (m :: a) ++ b)) with (l ++ NL :: unlines ((m :: a) ++ b)). rewrite IH by (discriminate || exact Nb).
    change (unlines (l :: m :: a)) with (l ++ NL :: unlines (m :: a)). rewrite <- app_assoc. reflexivity.
Qed.

Lemma unlines_last : forall a l e, unlines (a ++ [l ++ e]) = unlines (a ++ [l]) ++ e.
Proof.
  intros a l e. destruct a as [|x a]; [reflexivity|]. rewrite !unlines_app by discriminate. cbn [unlines].
  rewrite <- app_assoc. reflexivity.
Qed.

Notation recorded' := (recorded dec e12 e1 e9 e4 version o).
Notation info_text' := (info_text dec e1 version o).

Record inv (d0 : disk) (ss : list session) (s : last_used) (d : disk) : Prop := {
  i_uniform : Forall uniform ss;
  i_apart : apart ss;
  i_named : named dec ss;
  i_plausible : forall t r, In t ss -> In r (members t) -> plausible r;
  i_recorded : recorded' ss d0 d;
  i_first : ss = [] -> s = new_observer;
  i_last : forall ss0 t r, ss = ss0 ++ [t] -> In r (members t) ->
    s = {| last_function := function r; last_dimension := dimension r; last_dat_file := name t |} }.

Lemma plausible_small : forall r, plausible r -> small (key r).
Proof. intros r (H1 & H2 & _). split; assumption. Qed.

(** The sessions' names *)
Lemma session_name : forall d0 ss s d t, inv d0 ss s d -> In t ss ->
  exists a b r, ss = a ++ t :: b /\ In r (members t) /\ plausible r /\
    name t = candidate (base_name dec (key r)) (count (key r) a) /\ count (key r) a <= N.to_nat 9998 /\
    count (key r) a < count (key r) ss.
Proof.
  intros d0 ss s d t H I. pose proof (i_uniform _ _ _ _ H) as U. rewrite Forall_forall in U. specialize (U t I).
  pose proof U as [Nt _]. destruct (members t) as [|r ms] eqn:Em; [now destruct Nt|].
  assert (Ir : In r (members t)) by (rewrite Em; left; reflexivity).
  destruct (in_split t ss I) as (a & b & E). exists a, b, r. rewrite <- Em.
  split; [exact E|]. split; [exact Ir|]. split; [exact (i_plausible _ _ _ _ H t r I Ir)|].
  destruct (i_named _ _ _ _ H a t b r E Ir) as [Q1 Q2]. split; [exact Q1|]. split; [exact Q2|].
  rewrite E. change (t :: b) with ([t] ++ b). rewrite !count_app, count_one.
  rewrite (proj2 (uniform_key t r (key r) U Ir) eq_refl). lia.
Qed.

Lemma name_length : forall d0 ss s d t, inv d0 ss s d -> In t ss -> length (name t) <= 100.
Proof.
  intros d0 ss s d t H I. destruct (session_name _ _ _ _ _ H I) as (a & b & r & _ & _ & P & -> & _).
  pose proof (candidate_length (base_name dec (key r)) (count (key r) a)).
  pose proof (base_length dec Hdec (key r) (plausible_small r P)). lia.
Qed.

(** Names not used yet *)
Lemma not_written : forall d0 ss s d k j e, inv d0 ss s d -> small k -> j <= N.to_nat 9998 -> count k ss <= j ->
  ~ written dec o ss (data_path o (candidate (base_name dec k) j) e).
Proof.
  intros d0 ss s d k j e H S J C (t & I & [(r & _ & E)|(e' & E)]).
  - exact (info_not_data dec o _ _ _ (eq_sym E)).
  - destruct (session_name _ _ _ _ _ H I) as (a & b & r & _ & _ & P & Q & L & K). rewrite Q in E.
    apply (data_path_inj dec Hdec o) in E as (-> & -> & _); try lia; auto using plausible_small.
Qed.

Lemma in_folder : forall d0 p, empty_folder o d0 -> d0 (result_folder o ++ str "/" ++ p) = None.
Proof. auto. Qed.

Lemma unused : forall d0 ss s d k j e, empty_folder o d0 -> inv d0 ss s d -> small k -> j <= N.to_nat 9998 -> count k ss <= j ->
  d (data_path o (candidate (base_name dec k) j) e) = None.
Proof.
  intros d0 ss s d k j e E0 H S J C. destruct (i_recorded _ _ _ _ H) as (_ & _ & R). rewrite R.
  - apply E0.
  - eapply not_written; eauto.
Qed.

Lemma used : forall d0 ss s d k j, inv d0 ss s d -> j < count k ss ->
  exists_file d (data_path o (candidate (base_name dec k) j) Dat) = true.
Proof.
  intros d0 ss s d k j H L. destruct (nth_session k ss j (i_uniform _ _ _ _ H) L) as (a & t & b & r & E & I & <- & <-).
  destruct (i_named _ _ _ _ H a t b r E I) as [<- _].
  destruct (i_recorded _ _ _ _ H) as (_ & R & _). unfold exists_file. rewrite R; [reflexivity|].
  rewrite E. apply in_or_app. right. left. reflexivity.
Qed.

Lemma candidate_path : forall k j, small k ->
  checked_path (result_folder o) (candidate (base_name dec k) j) (str ".dat") =
  Ok (data_path o (candidate (base_name dec k) j) Dat).
Proof.
  intros k j S. destruct Hfits as [F L].
  assert (L' : length (result_folder o) + length (prefix o) <= N.to_nat 3900) by exact L.
  rewrite checked_path_short; [reflexivity|exact F|].
  pose proof (candidate_length (base_name dec k) j). pose proof (base_length dec Hdec k S). cbn [str list_ascii_of_string length]. lia.
Qed.

Lemma unique_is : forall d0 ss s d k n, empty_folder o d0 -> inv d0 ss s d -> small k ->
  coco_create_unique_filename (fun _ p => exists_file d p) (result_folder o) (base_name dec k) (str ".dat") = Ok n ->
  n = candidate (base_name dec k) (count k ss) /\ count k ss <= N.to_nat 9998.
Proof.
  intros d0 ss s d k n E0 H S E. apply unique_filename_spec in E as (j & p & J & -> & P & F & T).
  rewrite candidate_path in P by exact S.
  assert (P' : data_path o (candidate (base_name dec k) j) Dat = p) by congruence. subst p. clear P.
  destruct (Nat.lt_trichotomy j (count k ss)) as [L|[L|L]].
  - exfalso. rewrite (used _ _ _ _ _ _ H L) in F. discriminate F.
  - subst j. auto.
  - exfalso. destruct (T (count k ss) L) as (p' & P' & T'). rewrite candidate_path in P' by exact S.
    assert (Q : data_path o (candidate (base_name dec k) (count k ss)) Dat = p') by congruence. subst p'.
    unfold exists_file in T'. rewrite (unused _ _ _ _ k (count k ss) Dat E0 H S) in T' by lia. discriminate T'.
Qed.

Lemma firstn_name : forall n : cstr, length n <= 100 -> firstn COCO_PATH_MAX n = n.
Proof. intros n H. apply firstn_all2. rewrite max_value. lia. Qed.

(** * A problem that starts a new session *)

Lemma filter_same : forall f ss t, filter (of_function f) (ss ++ [t]) =
  filter (of_function f) ss ++ (if of_function f t then [t] else []).
Proof. intros f ss t. rewrite filter_app. reflexivity. Qed.

Lemma recorded_new : forall d0 ss s d r d', empty_folder o d0 -> inv d0 ss s d -> plausible r ->
  let n := candidate (base_name dec (key r)) (count (key r) ss) in
  count (key r) ss <= N.to_nat 9998 ->
  adds dec e12 e1 e9 e4 version o true n r d d' ->
  recorded' (ss ++ [{| name := n; members := [r] |}]) d0 d'.
Proof.
  intros d0 ss s d r d' E0 H P n C (A1 & A2 & A3). pose proof (i_recorded _ _ _ _ H) as (R1 & R2 & R3).
  pose proof (plausible_small r P) as S. pose proof P as (Hf & _).
  assert (U : forall e, d (data_path o n e) = None) by (intros e; eapply unused; eauto).
  split; [|split].
  - intros f Lf. unfold info_text. rewrite filter_same. unfold of_function at 2. cbn [members].
    destruct (N.eqb_spec (function r) f) as [<-|Nf].
    + rewrite A1. clear A1 A2 A3. specialize (R1 (function r) Hf). unfold info_text in R1. unfold opening, exists_file, old. rewrite R1.
      assert (T : unlines (session_lines dec e1 version o {| name := n; members := [r] |}) =
        first_line dec version o r ++ NL :: str "%" ++ NL :: n ++ str ".dat" ++ entry dec e1 r).
      { cbn [session_lines members name map concat unlines]. rewrite app_nil_r. rewrite <- ?app_assoc. reflexivity. }
      assert (X : forall u : session, In u (filter (of_function (function r)) ss) -> session_lines dec e1 version o u <> []).
      { intros u Iu. apply filter_In in Iu as [_ Iu]. unfold of_function in Iu. unfold session_lines.
        destruct (members u); discriminate. }
      destruct (filter (of_function (function r)) ss) as [|x l] eqn:El.
      * cbn [app map concat]. rewrite app_nil_r, T. do 4 (cbn [app]; rewrite <- ?app_assoc). reflexivity.
      * cbn [app]. change (x :: l ++ [{| name := n; members := [r] |}]) with ((x :: l) ++ [{| name := n; members := [r] |}]).
        rewrite map_app, concat_app. rewrite unlines_app.
        -- cbn [map concat]. rewrite (app_nil_r (session_lines _ _ _ _ _)), T.
           do 4 (cbn [app]; rewrite <- ?app_assoc). reflexivity.
        -- cbn [map concat]. intros Q. apply app_eq_nil in Q as [Q _]. exact (X x (or_introl eq_refl) Q).
        -- cbn [map concat session_lines members]. discriminate.
    + rewrite app_nil_r. rewrite A3.
      * exact (R1 f Lf).
      * intros Q. apply info_path_inj in Q; auto.
      * intros k. apply info_not_data.
  - intros t k I. apply in_app_or in I as [I|[<-|[]]].
    + rewrite A3; [apply R2; exact I| |].
      * intros Q. exact (info_not_data dec o _ _ _ (eq_sym Q)).
      * intros e Q. destruct (session_name _ _ _ _ _ H I) as (a & b & q & _ & _ & Pq & Eq & L & K). rewrite Eq in Q. unfold n in Q.
        apply (data_path_inj dec Hdec o) in Q as (K1 & K2 & _); try lia; auto using plausible_small. rewrite K1 in *. lia.
    + cbn [name]. rewrite A2. unfold old. rewrite U. unfold data_text. cbn [members map concat]. rewrite app_nil_r. reflexivity.
  - intros p W. rewrite A3.
    + apply R3. intros (t & I & Q). apply W. exists t. split; [apply in_or_app; left; exact I|exact Q].
    + intros ->. apply W. exists {| name := n; members := [r] |}. split; [apply in_or_app; right; left; reflexivity|].
      left. exists r. split; [left; reflexivity|reflexivity].
    + intros k ->. apply W. exists {| name := n; members := [r] |}. split; [apply in_or_app; right; left; reflexivity|].
      right. exists k. reflexivity.
Qed.

(** * A problem that continues a session *)

Lemma recorded_same : forall d0 ss t s d r d', inv d0 (ss ++ [t]) s d -> plausible r -> of_key (key r) t = true ->
  adds dec e12 e1 e9 e4 version o false (name t) r d d' ->
  recorded' (ss ++ [{| name := name t; members := members t ++ [r] |}]) d0 d'.
Proof.
  intros d0 ss t s d r d' H P K (A1 & A2 & A3). pose proof (i_recorded _ _ _ _ H) as (R1 & R2 & R3).
  pose proof P as (Hf & _).
  assert (It : In t (ss ++ [t])) by (apply in_or_app; right; left; reflexivity).
  pose proof (i_uniform _ _ _ _ H) as U. rewrite Forall_forall in U. pose proof (U t It) as Ut.
  destruct (members t) as [|q ms] eqn:Em; [destruct Ut as [Nt _]; congruence|].
  assert (Iq : In q (members t)) by (rewrite Em; left; reflexivity).
  assert (Kq : key q = key r) by (symmetry; apply (uniform_key t q (key r) Ut Iq); exact K).
  assert (Fq : function q = function r) by (apply (f_equal fst) in Kq; exact Kq).
  set (t' := {| name := name t; members := (q :: ms) ++ [r] |}).
  split; [|split].
  - intros f Lf. specialize (R1 f Lf). unfold info_text in *. rewrite filter_same in *.
    assert (E : of_function f t' = of_function f t) by (unfold of_function, t'; rewrite Em; reflexivity). rewrite E.
    destruct (of_function f t) eqn:Ef.
    + assert (f = function r) as -> by (rewrite <- Fq; apply (uniform_function t q f Ut Iq); exact Ef).
      rewrite A1. cbn [app]. unfold old.
      assert (T : exists l3, session_lines dec e1 version o t = [first_line dec version o q; str "%"] ++ [l3] /\
                session_lines dec e1 version o t' = [first_line dec version o q; str "%"] ++ [l3 ++ entry dec e1 r]).
      { eexists. unfold session_lines, t'. rewrite Em. cbn [members name app]. split; [reflexivity|].
        rewrite app_comm_cons, map_app, concat_app. cbn [map concat]. rewrite app_nil_r. rewrite <- !app_assoc. reflexivity. }
      destruct T as (l3 & T1 & T2).
      assert (Q : forall l, unlines (concat (map (session_lines dec e1 version o) (l ++ [t']))) =
                unlines (concat (map (session_lines dec e1 version o) (l ++ [t]))) ++ entry dec e1 r).
      { intros l. rewrite !map_app, !concat_app. cbn [map concat]. rewrite !app_nil_r, T1, T2.
        rewrite (app_assoc _ _ [l3]), (app_assoc _ _ [l3 ++ _]). apply unlines_last. }
      rewrite R1. destruct (filter (of_function (function r)) ss) as [|x l].
      * cbn [app]. specialize (Q []). cbn [app] in Q. rewrite Q. reflexivity.
      * specialize (Q (x :: l)). cbn [app] in *. rewrite Q. reflexivity.
    + rewrite A3; [exact R1| |intros k; apply info_not_data]. intros Q. apply info_path_inj in Q; auto. subst f.
      rewrite (proj2 (uniform_function t q (function r) Ut Iq) (eq_sym Fq)) in Ef. discriminate Ef.
  - intros u k I. apply in_app_or in I as [I|[<-|[]]].
    + rewrite A3; [apply R2; apply in_or_app; left; exact I| |].
      * intros Q. exact (info_not_data dec o _ _ _ (eq_sym Q)).
      * intros e Q.
        destruct (i_named _ _ _ _ H ss t [] q eq_refl Iq) as [Et Lt]. rewrite Et in Q.
        destruct (in_split u ss I) as (a & b & Es).
        pose proof (U u ltac:(apply in_or_app; left; exact I)) as Uu.
        destruct (members u) as [|v vs] eqn:Ev; [destruct Uu as [Nu _]; congruence|].
        assert (Iv : In v (members u)) by (rewrite Ev; left; reflexivity).
        destruct (i_named _ _ _ _ H a u (b ++ [t]) v) as [Eu Lu]; [rewrite Es, <- app_assoc; reflexivity|exact Iv|].
        rewrite Eu in Q.
        apply (data_path_inj dec Hdec o) in Q as (K1 & K2 & _); try lia.
        -- rewrite K1 in K2. rewrite Es in K2. change (u :: b) with ([u] ++ b) in K2. rewrite !count_app, count_one in K2.
           rewrite (proj2 (uniform_key u v (key q) Uu Iv) (eq_sym K1)) in K2. lia.
        -- apply plausible_small. exact (i_plausible _ _ _ _ H u v ltac:(apply in_or_app; left; exact I) Iv).
        -- apply plausible_small. exact (i_plausible _ _ _ _ H t q It Iq).
    + cbn [t' name]. rewrite A2. unfold old. rewrite (R2 t k It). unfold data_text. cbn [t' members].
      rewrite Em, map_app, concat_app. cbn [map concat]. rewrite app_nil_r. reflexivity.
  - intros p W. rewrite A3.
    + apply R3. intros (u & I & Q). apply W. apply in_app_or in I as [I|[<-|[]]].
      * exists u. split; [apply in_or_app; left; exact I|exact Q].
      * exists t'. split; [apply in_or_app; right; left; reflexivity|]. destruct Q as [(v & Iv & Q)|Q]; [left|right; exact Q].
        exists v. split; [|exact Q]. cbn [t' members]. apply in_or_app. left. rewrite <- Em. exact Iv.
    + intros ->. apply W. exists t'. split; [apply in_or_app; right; left; reflexivity|].
      left. exists r. split; [cbn [t' members]; apply in_or_app; right; left; reflexivity|reflexivity].
    + intros k ->. apply W. exists t'. split; [apply in_or_app; right; left; reflexivity|].
      right. exists k. reflexivity.
Qed.

(** * The steps *)

Notation run' := (run_problem e12 e1 e9 e4 version refused o).

Lemma start_spec : forall s r, logger_bbob_start_new_line s (dimension r) (function r) = false <->
  last_function s = function r /\ last_dimension s = dimension r.
Proof.
  intros s r. unfold logger_bbob_start_new_line.
  destruct (N.eqb_spec (function r) (last_function s)), (N.eqb_spec (dimension r) (last_dimension s)); cbn [andb];
    split; intros Q; try discriminate; auto; destruct Q; congruence.
Qed.

(** The name chosen for the files of a problem *)
Lemma name_cases : forall d0 ss s d r n s1, empty_folder o d0 -> inv d0 ss s d -> plausible r ->
  new_name dec o s r d = Ok (n, s1) ->
  length n <= 100 /\
  ((exists ss0 t, ss = ss0 ++ [t] /\ of_key (key r) t = true /\ n = name t /\ s1 = s /\
      logger_bbob_start_new_line s (dimension r) (function r) = false) \/
   ((forall ss0 t q, ss = ss0 ++ [t] -> In q (members t) -> same_key (key r) (key q) = false) /\
    n = candidate (base_name dec (key r)) (count (key r) ss) /\ count (key r) ss <= N.to_nat 9998 /\
    s1 = {| last_function := function r; last_dimension := dimension r; last_dat_file := n |} /\
    logger_bbob_start_new_line s (dimension r) (function r) = true)).
Proof.
  intros d0 ss s d r n s1 E0 H P E. unfold new_name in E.
  destruct (logger_bbob_start_new_line s (dimension r) (function r)) eqn:St.
  - destruct (coco_create_unique_filename (fun _ p => exists_file d p) (result_folder o) (base_name dec (key r)) (str ".dat"))
      as [n'| |] eqn:Eu; cbn [bind] in E; try discriminate.
    destruct (unique_is _ _ _ _ _ _ E0 H (plausible_small r P) Eu) as [En C].
    assert (L : length n' <= 100).
    { rewrite En. pose proof (candidate_length (base_name dec (key r)) (count (key r) ss)).
      pose proof (base_length dec Hdec (key r) (plausible_small r P)). lia. }
    rewrite firstn_name in E by exact L.
    assert (X : forall (a b : cstr) (u v : last_used), Ok (a, u) = Ok (b, v) -> a = b /\ u = v) by (intros; split; congruence).
    apply X in E as [-> <-]. split; [exact L|]. right. split; [|auto].
    intros ss0 t q Es I. destruct (same_key (key r) (key q)) eqn:K; [|reflexivity]. apply same_key_eq in K.
    rewrite (i_last _ _ _ _ H ss0 t q Es I) in St. unfold logger_bbob_start_new_line in St. cbn [last_function last_dimension] in St.
    assert (X1 : function r = function q) by (apply (f_equal fst) in K; exact K).
    assert (X2 : dimension r = dimension q) by (apply (f_equal snd) in K; exact K).
    rewrite X1, X2, !N.eqb_refl in St. discriminate St.
  - assert (X : n = last_dat_file s /\ s1 = s) by (split; congruence). destruct X as [-> ->]. clear E.
    apply start_spec in St as [F D]. destruct (snoc_cases _ ss) as [->|(ss0 & t & Es)].
    { exfalso. rewrite (i_first _ _ _ _ H eq_refl) in D. cbn in D. destruct P as (_ & _ & P & _). lia. }
    assert (It : In t ss) by (rewrite Es; apply in_or_app; right; left; reflexivity).
    pose proof (i_uniform _ _ _ _ H) as U. rewrite Forall_forall in U. pose proof (U t It) as Ut. pose proof Ut as [Nt _].
    destruct (members t) as [|q ms] eqn:Em; [now destruct Nt|].
    assert (Iq : In q (members t)) by (rewrite Em; left; reflexivity).
    pose proof (i_last _ _ _ _ H ss0 t q Es Iq) as Ls. rewrite Ls in F, D |- *. cbn [last_function last_dimension last_dat_file] in *.
    split; [eapply name_length; eauto|]. left. exists ss0, t. split; [exact Es|]. split.
    { apply (uniform_key t q); auto. unfold key. rewrite F, D. reflexivity. }
    split; [reflexivity|]. split; reflexivity.
Qed.

Lemma step_inv : forall d0 ss s d r s1 d1, empty_folder o d0 -> inv d0 ss s d -> plausible r -> observed r = true ->
  run' s d r = Ok (s1, d1) ->
  exists ss', inv d0 ss' s1 d1 /\ concat (map members ss') = concat (map members ss) ++ [r].
Proof.
  intros d0 ss s d r s1 d1 E0 H P O E. unfold observed in O. destruct (outcome r) as [[[n g] f]|] eqn:Eo; [|discriminate].
  destruct (step_ok dec Hdec e12 e1 e9 e4 version refused o Hfits s r d s1 d1 n g f P Eo) as (nm & En & A); [|exact E|].
  { intros n' s' En. eapply name_cases; eauto. }
  destruct (name_cases _ _ _ _ _ _ _ E0 H P En) as (_ & [(ss0 & t & Es & K & -> & -> & St)|(K & Enm & C & -> & St)]);
    rewrite St in A.
  - subst ss. exists (ss0 ++ [{| name := name t; members := members t ++ [r] |}]). split.
    + pose proof (recorded_same _ _ _ _ _ _ _ H P K A) as R.
      pose proof (i_uniform _ _ _ _ H) as U. apply Forall_app in U as [U1 U2]. inversion U2 as [|? ? Ut _]; subst.
      pose proof Ut as [Nt Ut']. destruct (members t) as [|q ms] eqn:Em; [now destruct Nt|].
      assert (Iq : In q (members t)) by (rewrite Em; left; reflexivity).
      assert (Kq : key r = key q) by (apply (uniform_key t q (key r) Ut Iq); exact K).
      assert (Hk : forall a, In a ((q :: ms) ++ [r]) -> key a = key q).
      { intros a I. apply in_app_or in I as [I|[<-|[]]]; [|exact Kq].
        apply (uniform_key t q (key a) Ut Iq). rewrite <- Em in I. apply (uniform_key t a (key a) Ut I). reflexivity. }
      constructor.
      * apply Forall_app. split; [exact U1|]. constructor; [|constructor]. split; [discriminate|].
        cbn [members]. intros a I. cbn [app]. rewrite of_key_head. apply same_key_eq. symmetry. apply Hk. exact I.
      * apply apart_snoc. pose proof (i_apart _ _ _ _ H) as Ap. apply apart_snoc in Ap as [Ap1 Ap2]. split; [exact Ap1|].
        intros a u v Ea Iv. cbn [app]. rewrite of_key_head. specialize (Ap2 a u v Ea Iv). unfold of_key in Ap2. rewrite Em in Ap2. exact Ap2.
      * apply named_snoc. pose proof (i_named _ _ _ _ H) as Nm. apply named_snoc in Nm as [Nm1 Nm2]. split; [exact Nm1|].
        cbn [members name]. intros a I. rewrite (Hk a I). apply Nm2. exact Iq.
      * intros u v Iu Iv. apply in_app_or in Iu as [Iu|[<-|[]]].
        -- apply (i_plausible _ _ _ _ H u v); [apply in_or_app; left; exact Iu|exact Iv].
        -- cbn [members] in Iv. apply in_app_or in Iv as [Iv|[<-|[]]]; [|exact P].
           apply (i_plausible _ _ _ _ H t v); [apply in_or_app; right; left; reflexivity|rewrite Em; exact Iv].
      * exact R.
      * intros Q. apply app_eq_nil in Q as [_ Q]. discriminate Q.
      * intros a u v Q Iv. apply app_inj_tail in Q as [<- <-]. cbn [members name] in *.
        rewrite (i_last _ _ _ _ H ss0 t q eq_refl Iq).
        pose proof (Hk v Iv) as Kv.
        assert (X1 : function v = function q) by (apply (f_equal fst) in Kv; exact Kv).
        assert (X2 : dimension v = dimension q) by (apply (f_equal snd) in Kv; exact Kv).
        rewrite X1, X2. reflexivity.
    + rewrite !map_app, !concat_app. cbn [map concat members]. rewrite !app_nil_r, <- app_assoc. reflexivity.
  - exists (ss ++ [{| name := nm; members := [r] |}]). split.
    + subst nm. pose proof (recorded_new _ _ _ _ _ _ E0 H P C A) as R.
      constructor.
      * apply Forall_app. split; [exact (i_uniform _ _ _ _ H)|]. constructor; [|constructor]. split; [discriminate|].
        cbn [members]. intros a [<-|[]]. rewrite of_key_head. apply same_key_eq. reflexivity.
      * apply apart_snoc. split; [exact (i_apart _ _ _ _ H)|]. intros a u v Ea Iv. rewrite of_key_head. eapply K; eauto.
      * apply named_snoc. split; [exact (i_named _ _ _ _ H)|]. cbn [members name]. intros a [<-|[]]. auto.
      * intros u v Iu Iv. apply in_app_or in Iu as [Iu|[<-|[]]].
        -- apply (i_plausible _ _ _ _ H u v Iu Iv).
        -- cbn [members] in Iv. destruct Iv as [<-|[]]. exact P.
      * exact R.
      * intros Q. apply app_eq_nil in Q as [_ Q]. discriminate Q.
      * intros a u v Q Iv. apply app_inj_tail in Q as [<- <-]. cbn [members name] in *. destruct Iv as [<-|[]]. reflexivity.
    + rewrite !map_app, !concat_app. cbn [map concat members app]. reflexivity.
Qed.

Lemma run_all_inv : forall d0 rs ss s d s1 d1, empty_folder o d0 -> inv d0 ss s d -> Forall plausible rs ->
  run_all e12 e1 e9 e4 version refused o s d rs = Ok (s1, d1) ->
  exists ss', inv d0 ss' s1 d1 /\ concat (map members ss') = concat (map members ss) ++ filter observed rs.
Proof.
  intros d0 rs. induction rs as [|r rs IH]; intros ss s d s1 d1 E0 H P E; cbn [run_all] in E.
  - assert (X : s = s1 /\ d = d1) by (split; congruence). destruct X as [-> ->]. exists ss. rewrite app_nil_r. auto.
  - inversion P as [|? ? Pr Prs]; subst. destruct (run' s d r) as [[s2 d2]| |] eqn:Er; cbn [bind] in E; try discriminate.
    cbn [filter]. destruct (observed r) eqn:Or.
    + destruct (step_inv _ _ _ _ _ _ _ E0 H Pr Or Er) as (ss2 & H2 & C2).
      destruct (IH ss2 s2 d2 s1 d1 E0 H2 Prs E) as (ss3 & H3 & C3). exists ss3. split; [exact H3|].
      rewrite C3, C2, <- app_assoc. reflexivity.
    + unfold run_problem in Er. unfold observed in Or. destruct (outcome r) as [[[? ?] ?]|]; [discriminate|].
      assert (X : s = s2 /\ d = d2) by (split; congruence). destruct X as [-> ->]. eapply IH; eauto.
Qed.

Lemma inv_start : forall d, empty_folder o d -> inv d [] new_observer d.
Proof.
  intros d E. constructor; auto using apart_nil, named_nil.
  - intros t r [].
  - split; [|split]; auto.
    + intros f _. apply E.
    + intros s k [].
  - intros ss0 t r Q. apply (f_equal (@length session)) in Q. rewrite app_length in Q. cbn in Q. lia.
Qed.

Lemma campaign_recorded : forall d rs d', Forall plausible rs -> empty_folder o d ->
  campaign e12 e1 e9 e4 version refused o d rs = Ok d' ->
  exists ss, sessions_of dec rs ss /\ recorded' ss d d'.
Proof.
  intros d rs d' P E H. unfold campaign in H.
  destruct (run_all e12 e1 e9 e4 version refused o new_observer d rs) as [[s1 d1]| |] eqn:Er; cbn [bind] in H; try discriminate.
  assert (d1 = d') by congruence. subst d1.
  destruct (run_all_inv _ _ _ _ _ _ _ E (inv_start d E) P Er) as (ss & I & C). exists ss. cbn [map concat app] in C. destruct I.
  split; [|assumption]. split; [exact C|]. auto.
Qed.

(** * An experiment comes to its end *)

Lemma unique_loop_free : forall d k n counter c, small k -> counter + n = N.to_nat 9999 -> 1 <= counter <= c -> c <= N.to_nat 9998 ->
  (forall j, counter <= j < c -> exists_file d (data_path o (candidate (base_name dec k) j) Dat) = true) ->
  exists_file d (data_path o (candidate (base_name dec k) c) Dat) = false ->
  exists name, unique_filename_loop (fun _ p => exists_file d p) n counter (result_folder o) (base_name dec k) (str ".dat") = Ok name.
Proof.
  intros d k n. induction n as [|n IH]; intros counter c S N C C9 T F; [lia|]. cbn [unique_filename_loop].
  rewrite numbered_candidate by lia. rewrite strdupf_ok.
  2: { pose proof (candidate_length (base_name dec k) counter). pose proof (base_length dec Hdec k S). lia. }
  cbn [bind]. rewrite candidate_path by exact S. cbn [bind].
  destruct (exists_file d (data_path o (candidate (base_name dec k) counter) Dat)) eqn:E; [|eauto].
  destruct (Nat.eq_dec counter c) as [->|Q]; [congruence|].
  apply (IH (Datatypes.S counter) c); auto; try lia. intros j J. apply T. lia.
Qed.

Lemma unique_free : forall d0 ss s d k, empty_folder o d0 -> inv d0 ss s d -> small k -> count k ss <= N.to_nat 9998 ->
  exists n, coco_create_unique_filename (fun _ p => exists_file d p) (result_folder o) (base_name dec k) (str ".dat") = Ok n.
Proof.
  intros d0 ss s d k E0 H S C. unfold coco_create_unique_filename.
  pose proof (candidate_path k 0 S) as Q. cbn [candidate] in Q. rewrite Q. cbn [bind].
  change (base_name dec k) with (candidate (base_name dec k) 0) at 1.
  destruct (exists_file d (data_path o (candidate (base_name dec k) 0) Dat)) eqn:E; [|eauto].
  assert (F : exists_file d (data_path o (candidate (base_name dec k) (count k ss)) Dat) = false).
  { unfold exists_file. rewrite (unused _ _ _ _ k (count k ss) Dat E0 H S); auto. }
  apply (unique_loop_free d k (N.to_nat 9998) 1 (count k ss)); auto; try lia.
  - split; [lia|]. destruct (count k ss); [|lia]. congruence.
  - intros j J. eapply used; eauto. lia.
Qed.

Lemma step_total : forall d0 ss s d r, empty_folder o d0 -> inv d0 ss s d -> plausible r ->
  (forall d p, refused d p = false) -> count (key r) ss <= N.to_nat 9998 ->
  exists s1 d1, run' s d r = Ok (s1, d1).
Proof.
  intros d0 ss s d r E0 H P R C. unfold run_problem. destruct (outcome r) as [[[n g] f]|]; [|eauto].
  assert (Q : exists nm s1, new_name dec o s r d = Ok (nm, s1)).
  { unfold new_name. destruct (logger_bbob_start_new_line s (dimension r) (function r)); [|eauto].
    destruct (unique_free _ _ _ _ (key r) E0 H (plausible_small r P) C) as [nm ->]. cbn [bind]. eauto. }
  assert (LN : forall n s1, new_name dec o s r d = Ok (n, s1) -> length n <= 100) by (intros; eapply name_cases; eauto).
  rewrite (initialize_ok dec Hdec e12 version refused o Hfits s r d P LN). destruct Q as (nm & s1 & ->). cbn [bind]. cbv zeta.
  unfold logger_bbob_open_file.
  repeat (rewrite R; cbn [bind]). eauto.
Qed.

Lemma count_members : forall k ss, Forall uniform ss -> count k ss <= length (concat (map members ss)).
Proof.
  intros k ss U. induction ss as [|t ss IH]; [cbn; lia|]. inversion U as [|? ? [Nt _] Us]; subst. specialize (IH Us).
  change (t :: ss) with ([t] ++ ss). rewrite count_app, count_one, map_app, concat_app, app_length.
  cbn [map concat]. rewrite app_nil_r. destruct (members t); [now destruct Nt|]. cbn [length]. destruct (of_key k t); lia.
Qed.

Lemma filter_length : forall (A : Type) (f : A -> bool) l, length (filter f l) <= length l.
Proof. intros A f l. induction l as [|a l IH]; [cbn; lia|]. cbn [filter]. destruct (f a); cbn [length]; lia. Qed.

Lemma run_all_total : forall d0 rs ss s d, empty_folder o d0 -> inv d0 ss s d -> Forall plausible rs ->
  (forall d p, refused d p = false) -> length (concat (map members ss)) + length rs <= N.to_nat 9999 ->
  exists s1 d1, run_all e12 e1 e9 e4 version refused o s d rs = Ok (s1, d1).
Proof.
  intros d0 rs. induction rs as [|r rs IH]; intros ss s d E0 H P R L; [cbn; eauto|]. cbn [run_all].
  inversion P as [|? ? Pr Prs]; subst.
  pose proof (count_members (key r) ss (i_uniform _ _ _ _ H)) as C. cbn [length] in L.
  destruct (step_total _ _ _ _ r E0 H Pr R) as (s2 & d2 & Er); [lia|]. rewrite Er. cbn [bind].
  destruct (observed r) eqn:Or.
  - destruct (step_inv _ _ _ _ _ _ _ E0 H Pr Or Er) as (ss2 & H2 & C2).
    apply (IH ss2 s2 d2); auto. rewrite C2, app_length. cbn [length]. lia.
  - unfold run_problem in Er. unfold observed in Or. destruct (outcome r) as [[[? ?] ?]|]; [discriminate|].
    assert (X : s = s2 /\ d = d2) by (split; congruence). destruct X as [-> ->]. apply (IH ss s2 d2); auto. lia.
Qed.

Lemma campaign_total : forall d rs, Forall plausible rs -> empty_folder o d -> (forall d p, refused d p = false) ->
  length rs <= N.to_nat 9999 -> exists d', campaign e12 e1 e9 e4 version refused o d rs = Ok d'.
Proof.
  intros d rs P E R L. unfold campaign.
  destruct (run_all_total _ rs _ _ _ E (inv_start d E) P R) as (s1 & d1 & ->); [cbn [map concat length]; lia|]. cbn [bind]. eauto.
Qed.
End Runs.

(** * Files are only extended *)

Lemma extends_refl : forall d, extends d d.
Proof. intros d p t H. exists []. rewrite app_nil_r. exact H. Qed.

Lemma extends_trans : forall a b c, extends a b -> extends b c -> extends a c.
Proof.
  intros a b c H K p t E. destruct (H p t E) as [u Eu]. destruct (K p _ Eu) as [v Ev]. exists (u ++ v). rewrite app_assoc. exact Ev.
Qed.

Lemma extends_append : forall d p t, extends d (append d p t).
Proof. intros d p t q u H. apply append_extends. exact H. Qed.

Ltac ext := repeat (apply extends_refl || (eapply extends_trans; [|apply extends_append])).

Lemma extends_open : forall refused d p d', logger_bbob_open_file refused d p = Ok d' -> extends d d'.
Proof. intros refused d p d' H. apply open_ok in H as ->. apply extends_append. Qed.

Lemma extends_data : forall refused o d n e p d', logger_bbob_open_data_file refused o d n e = Ok (p, d') -> extends d d'.
Proof.
  intros refused o d n e p d' H. unfold logger_bbob_open_data_file in H.
  destruct (checked_path (result_folder o) n e); cbn [bind] in H; try discriminate.
  destruct (logger_bbob_open_file refused d a) eqn:E; cbn [bind] in H; try discriminate.
  assert (a0 = d') by congruence. subst. eapply extends_open; eauto.
Qed.

Lemma extends_info : forall version refused o r d f n st p d',
  logger_bbob_open_info_file version refused o r d f n st = Ok (p, d') -> extends d d'.
Proof.
  intros version refused o r d f n st p d' H. unfold logger_bbob_open_info_file in H. cbv zeta in H.
  destruct (cat _ _) in H; cbn [bind] in H; try discriminate.
  destruct (cat _ _) in H; cbn [bind] in H; try discriminate.
  destruct (cat _ _) in H; cbn [bind] in H; try discriminate.
  destruct (coco_join_path _ _ _ _) in H; cbn [bind] in H; try discriminate.
  destruct (logger_bbob_open_file refused d a2) eqn:E; cbn [bind] in H; try discriminate.
  apply extends_open in E.
  destruct st; [|assert (a3 = d') by congruence; subst; exact E].
  match type of H with Ok (_, ?x) = _ => assert (Q : x = d') by congruence; rewrite <- Q; clear Q H end.
  eapply extends_trans; [exact E|]. destruct (exists_file d a2); ext.
Qed.

Lemma extends_run : forall e12 e1 e9 e4 version refused o s d r s1 d1,
  run_problem e12 e1 e9 e4 version refused o s d r = Ok (s1, d1) -> extends d d1.
Proof.
  intros e12 e1 e9 e4 version refused o s d r s1 d1 H. unfold run_problem in H.
  destruct (outcome r) as [[[n g] f]|]; [|assert (d = d1) by congruence; subst; apply extends_refl].
  destruct (logger_bbob_initialize e12 version refused o s r d) as [[[h s2] d0]| |] eqn:E; cbn [bind] in H; try discriminate.
  cbv zeta in H. match type of H with Ok (_, ?x) = _ => assert (Q : x = d1) by congruence; rewrite <- Q; clear Q H end.
  enough (extends d d0) by (ext; assumption).
  unfold logger_bbob_initialize in E.
  do 2 (destruct (FsModel.coco_strdupf _) in E; cbn [bind] in E; try discriminate).
  destruct (cat _ _) in E; cbn [bind] in E; try discriminate.
  destruct (coco_join_path _ _ _ _) in E; cbn [bind] in E; try discriminate.
  do 4 (destruct (cat _ _) in E; cbn [bind] in E; try discriminate). cbv zeta in E.
  match type of E with bind ?x _ = _ => destruct x as [[nm s3]| |]; cbn [bind] in E; try discriminate end.
  match type of E with bind ?x _ = _ => destruct x as [[p1 d1']| |] eqn:E1; cbn [bind] in E; try discriminate end.
  apply extends_info in E1.
  match type of E with bind ?x _ = _ => destruct x as [[p2 d2']| |] eqn:E2; cbn [bind] in E; try discriminate end.
  apply extends_data in E2.
  match type of E with bind ?x _ = _ => destruct x as [[p3 d3']| |] eqn:E3; cbn [bind] in E; try discriminate end.
  apply extends_data in E3.
  match type of E with bind ?x _ = _ => destruct x as [[p4 d4']| |] eqn:E4; cbn [bind] in E; try discriminate end.
  apply extends_data in E4.
  match type of E with bind ?x _ = _ => destruct x as [[p5 d5']| |] eqn:E5; cbn [bind] in E; try discriminate end.
  apply extends_data in E5.
  match type of E with Ok (_, _, ?x) = _ => assert (Q : x = d0) by congruence; rewrite <- Q; clear Q E end.
  eapply extends_trans; [exact E1|]. eapply extends_trans; [apply extends_append|].
  eapply extends_trans; [exact E2|]. eapply extends_trans; [apply extends_append|].
  eapply extends_trans; [exact E3|]. eapply extends_trans; [apply extends_append|].
  eapply extends_trans; [exact E4|]. eapply extends_trans; [apply extends_append|].
  eapply extends_trans; [exact E5|]. apply extends_append.
Qed.

Lemma extends_campaign : forall e12 e1 e9 e4 version refused o d rs d',
  campaign e12 e1 e9 e4 version refused o d rs = Ok d' -> extends d d'.
Proof.
  intros e12 e1 e9 e4 version refused o d rs d' H. unfold campaign in H. revert H. generalize new_observer as s. revert d.
  induction rs as [|r rs IH]; intros d s H; cbn [run_all bind] in H.
  - assert (d = d') by congruence. subst. apply extends_refl.
  - destruct (run_problem e12 e1 e9 e4 version refused o s d r) as [[s1 d1]| |] eqn:E; cbn [bind] in H; try discriminate.
    eapply extends_trans; [eapply extends_run; exact E|]. eapply IH. exact H.
Qed.

(** * Reading the index file line by line *)
Lemma split_one : forall sep l, ~ In sep l -> split_on sep l = [l].
Proof.
  intros sep. induction l as [|c l IH]; intros H; [reflexivity|]. cbn [split_on].
  destruct (Ascii.eqb_spec c sep) as [->|N]; [exfalso; apply H; left; reflexivity|].
  rewrite IH; [reflexivity|]. intros Q. apply H. right. exact Q.
Qed.

Lemma split_more : forall sep l t, ~ In sep l -> split_on sep (l ++ sep :: t) = l :: split_on sep t.
Proof.
  intros sep. induction l as [|c l IH]; intros t H; cbn [app split_on].
  - rewrite Ascii.eqb_refl. reflexivity.
  - destruct (Ascii.eqb_spec c sep) as [->|N]; [exfalso; apply H; left; reflexivity|].
    rewrite IH; [reflexivity|]. intros Q. apply H. right. exact Q.
Qed.

Lemma lines_unlines : forall ls, ls <> [] -> Forall (fun l => ~ In NL l) ls -> lines (unlines ls) = ls.
Proof.
  unfold lines. induction ls as [|l ls IH]; intros N F; [now destruct N|]. inversion F as [|? ? Fl Fs]; subst. destruct ls as [|m ls].
  - cbn [unlines]. apply split_one. exact Fl.
  - change (unlines (l :: m :: ls)) with (l ++ NL :: unlines (m :: ls)). rewrite split_more by exact Fl.
    rewrite IH; [reflexivity|discriminate|exact Fs].
Qed.

Lemma split_fields : forall sep (l : list cstr) first, ~ In sep first -> Forall (fun t => ~ In sep t) l ->
  split_on sep (first ++ concat (map (cons sep) l)) = first :: l.
Proof.
  intros sep. induction l as [|t l IH]; intros first F H; cbn [map concat app].
  - rewrite app_nil_r. apply split_one. exact F.
  - inversion H as [|? ? Ht Hl]; subst. rewrite split_more by exact F. f_equal. apply IH; assumption.
Qed.

Lemma digits_not : forall c s, ~ is_digit c -> Forall is_digit s -> ~ In c s.
Proof. intros c s N F I. rewrite Forall_forall in F. apply N, F. exact I. Qed.

Definition special (c : ascii) : Prop := c = NL \/ c = ","%char.

Lemma special_digit : forall c, special c -> ~ is_digit c.
Proof.
  intros c [->| ->] Q; unfold is_digit, digits in Q; cbn in Q; repeat (destruct Q as [Q|Q]; [discriminate Q|]); destruct Q.
Qed.

Lemma not_in_app : forall (c : ascii) s t, ~ In c s -> ~ In c t -> ~ In c (s ++ t).
Proof. intros c s t H K I. apply in_app_or in I as [I|I]; auto. Qed.

Lemma str_plain : forall c s, existsb (Ascii.eqb c) s = false -> ~ In c s.
Proof.
  intros c s F I. rewrite <- Bool.not_true_iff_false in F. apply F. apply existsb_exists. exists c. split; [exact I|apply Ascii.eqb_refl].
Qed.

Lemma decimal4_plain : forall c j, special c -> ~ In c (decimal4 j).
Proof.
  intros c j S I. unfold decimal4 in I. apply in_map_iff in I as (d & E & _).
  assert (X : In c (str "0123456789")).
  { rewrite <- E. destruct (nth_in_or_default d (str "0123456789") "0"%char) as [Q|Q]; [exact Q|]. rewrite Q. left. reflexivity. }
  exact (special_digit c S X).
Qed.

Section Reading.
Variable dec : N -> cstr.
Hypothesis Hdec : decimals dec.
Variables e1 : double -> cstr.
Variable version : cstr.
Variable o : observer.

Lemma dec_plain : forall c n, special c -> (n < 2 ^ 64)%N -> ~ In c (dec n).
Proof. intros c n S H. apply digits_not; [apply special_digit; exact S|apply (dec_digits dec Hdec); exact H]. Qed.

Lemma name_plain : forall c k j, special c -> small k -> ~ In c (candidate (base_name dec k) j).
Proof.
  intros c k j S [H1 H2].
  assert (B : ~ In c (base_name dec k)).
  { unfold base_name. repeat apply not_in_app; try (apply dec_plain; assumption); apply str_plain; destruct S as [->| ->]; reflexivity. }
  destruct j as [|j]; [exact B|]. cbn [candidate]. apply not_in_app; [exact B|].
  apply not_in_app; [apply str_plain; destruct S as [->| ->]; reflexivity|apply decimal4_plain; exact S].
Qed.

Lemma entry_field : forall r, observed r = true -> entry dec e1 r = ","%char :: field dec e1 r.
Proof. intros r O. unfold field, entry, observed in *. destruct (outcome r) as [[[n g] f]|]; [reflexivity|discriminate]. Qed.

Lemma field_plain : forall c r, special c -> (forall x, ~ In c (e1 x)) -> plausible r -> ~ In c (field dec e1 r).
Proof.
  intros c r S F (_ & _ & _ & Hi & Hn). unfold field, entry. destruct (outcome r) as [[[n g] f]|]; [|auto].
  change (tl (str ", " ++ dec (instance r) ++ str ":" ++ dec n ++ str "|" ++ e1 g)) with
    (str " " ++ dec (instance r) ++ str ":" ++ dec n ++ str "|" ++ e1 g).
  repeat apply not_in_app; try (apply dec_plain; assumption); try (apply str_plain; destruct S as [->| ->]; reflexivity). apply F.
Qed.

Lemma third_line : forall s, (forall r, In r (members s) -> observed r = true) ->
  name s ++ str ".dat" ++ concat (map (entry dec e1) (members s)) =
  (name s ++ str ".dat") ++ concat (map (cons ","%char) (map (field dec e1) (members s))).
Proof.
  intros s O. rewrite <- app_assoc. do 2 f_equal. f_equal. rewrite map_map. apply map_ext_in. intros r I. apply entry_field, O, I.
Qed.

Lemma session_plain : forall s rs k j, readable e1 version o rs -> small k -> name s = candidate (base_name dec k) j ->
  (forall r, In r (members s) -> In r rs /\ observed r = true /\ plausible r) ->
  Forall (fun l => ~ In NL l) (session_lines dec e1 version o s).
Proof.
  intros s rs k j (R1 & R2 & R3 & R4 & R5) S E M. unfold session_lines.
  destruct (members s) as [|q ms] eqn:Em; [constructor|]. rewrite <- Em in *.
  assert (Sn : special NL) by (left; reflexivity).
  assert (Iq : In q (members s)) by (rewrite Em; left; reflexivity).
  destruct (M q Iq) as (Q1 & Q2 & (P1 & P2 & _)).
  repeat constructor.
  - unfold first_line. repeat apply not_in_app; try assumption; try (apply dec_plain; assumption); try (apply R4; exact Q1);
      apply str_plain; reflexivity.
  - apply str_plain; reflexivity.
  - rewrite third_line by (intros r I; apply (M r I)).
    repeat apply not_in_app; [rewrite E; apply name_plain; assumption|apply str_plain; reflexivity|].
    intros I. apply in_concat in I as (l & Il & I). apply in_map_iff in Il as (x & <- & Ix).
    apply in_map_iff in Ix as (r & <- & Ir). destruct I as [I|I]; [vm_compute in I; discriminate I|].
    revert I. apply field_plain; [exact Sn|intros y; apply R5|apply (M r Ir)].
Qed.
End Reading.

(** * Names and lines of the sessions *)
Lemma names_differ : forall dec, decimals dec -> forall rs ss, Forall plausible rs -> sessions_of dec rs ss -> NoDup (map name ss).
Proof.
  intros dec Hdec rs ss P (C & U & A & M).
  assert (Pl : forall t r, In t ss -> In r (members t) -> plausible r).
  { intros t r It Ir. rewrite Forall_forall in P. apply P. assert (I : In r (filter observed rs)).
    { rewrite <- C. apply in_concat. exists (members t). split; [apply in_map; exact It|exact Ir]. }
    apply filter_In in I. apply I. }
  clear C A P. revert M U Pl. induction ss as [|t ss IH] using rev_ind; intros M U Pl; [constructor|].
  apply named_snoc in M as [M Mt]. apply Forall_app in U as [U Ut]. inversion Ut as [|? ? Ut' _]; subst. clear Ut.
  rewrite map_app. cbn [map]. apply NoDup_rev in IH; [|exact M|exact U|intros s r I; apply Pl; apply in_or_app; left; exact I].
  rewrite <- (rev_involutive (map name ss ++ [name t])). apply NoDup_rev. rewrite rev_app_distr. cbn [rev app].
  constructor; [|exact IH]. rewrite <- in_rev. intros I. apply in_map_iff in I as (s & E & I).
  pose proof Ut' as [Nt _]. destruct (members t) as [|r ms] eqn:Em; [now destruct Nt|].
  assert (Ir : In r (members t)) by (rewrite Em; left; reflexivity). rewrite <- Em in Mt. destruct (Mt r Ir) as [Et Bt].
  rewrite Forall_forall in U. pose proof (U s I) as Us. pose proof Us as [Ns _].
  destruct (members s) as [|q qs] eqn:Es; [now destruct Ns|].
  assert (Iq : In q (members s)) by (rewrite Es; left; reflexivity).
  destruct (in_split s ss I) as (a & b & Ea). destruct (M a s b q Ea Iq) as [Eq Bq].
  rewrite Et, Eq in E. apply (f_equal (fun x => x ++ ["."%char])) in E.
  apply candidate_inj in E as (K & J & _); auto; try lia.
  - rewrite K in J. rewrite Ea in J. change (s :: b) with ([s] ++ b) in J. rewrite !count_app, count_one in J.
    rewrite <- K in J. rewrite (proj2 (uniform_key s q (key q) Us Iq) eq_refl) in J. lia.
  - apply plausible_small. apply (Pl s q); [apply in_or_app; left; exact I|exact Iq].
  - apply plausible_small. apply (Pl t r); [apply in_or_app; right; left; reflexivity|exact Ir].
Qed.

Lemma session_readable : forall dec, decimals dec -> forall e1 version o rs ss, Forall plausible rs -> sessions_of dec rs ss ->
  readable e1 version o rs -> forall s, In s ss ->
  session_lines dec e1 version o s <> [] /\ Forall (fun l => ~ In NL l) (session_lines dec e1 version o s) /\
  split_on ","%char (name s ++ str ".dat" ++ concat (map (entry dec e1) (members s))) =
    (name s ++ str ".dat") :: map (field dec e1) (members s).
Proof.
  intros dec Hdec e1 version o rs ss P (C & U & A & M) R s I.
  assert (Q : forall r, In r (members s) -> In r rs /\ observed r = true /\ plausible r).
  { intros r Ir. assert (J : In r (filter observed rs)).
    { rewrite <- C. apply in_concat. exists (members s). split; [apply in_map; exact I|exact Ir]. }
    apply filter_In in J as [J1 J2]. rewrite Forall_forall in P. auto. }
  rewrite Forall_forall in U. pose proof (U s I) as [Ns _].
  destruct (members s) as [|q qs] eqn:Es; [now destruct Ns|].
  assert (Iq : In q (members s)) by (rewrite Es; left; reflexivity). rewrite <- Es in *.
  destruct (in_split s ss I) as (a & b & Ea). destruct (M a s b q Ea Iq) as [Eq _].
  assert (Sm : small (key q)) by (apply plausible_small, (Q q Iq)).
  split; [unfold session_lines; rewrite Es; discriminate|]. split.
  - eapply session_plain; eauto.
  - rewrite third_line by (intros r Ir; apply (Q r Ir)). apply split_fields.
    + rewrite Eq. apply not_in_app; [apply name_plain; [exact Hdec|right; reflexivity|exact Sm]|apply str_plain; reflexivity].
    + apply Forall_forall. intros l Il. apply in_map_iff in Il as (r & <- & Ir). apply field_plain; [exact Hdec|right; reflexivity| |apply (Q r Ir)].
      intros x. apply R.
Qed.

Lemma info_lines : forall dec, decimals dec -> forall e1 version o rs ss, Forall plausible rs -> sessions_of dec rs ss ->
  readable e1 version o rs -> forall f t, info_text dec e1 version o f ss = Some t ->
  lines t = concat (map (session_lines dec e1 version o) (filter (of_function f) ss)).
Proof.
  intros dec Hdec e1 version o rs ss P S R f t E. unfold info_text in E.
  assert (Q : forall s, In s (filter (of_function f) ss) -> In s ss) by (intros s J; apply filter_In in J; apply J).
  destruct (filter (of_function f) ss) as [|s l]; [discriminate|].
  assert (t = unlines (concat (map (session_lines dec e1 version o) (s :: l)))) as -> by congruence.
  apply lines_unlines.
  - cbn [map concat]. intros N. apply app_eq_nil in N as [N _]. revert N. eapply session_readable; eauto. apply Q. left. reflexivity.
  - apply Forall_forall. intros x Ix. apply in_concat in Ix as (ls & Il & Ix). apply in_map_iff in Il as (s' & <- & Is).
    destruct (session_readable dec Hdec e1 version o rs ss P S R s' (Q s' Is)) as (_ & F & _). rewrite Forall_forall in F. exact (F x Ix).
Qed.

(** * The lines and columns of the data files *)
Lemma split_app : forall sep a b, split_on sep (a ++ sep :: b) = split_on sep a ++ split_on sep b.
Proof.
  intros sep. induction a as [|c a IH]; intros b; cbn [app split_on].
  - rewrite Ascii.eqb_refl. reflexivity.
  - destruct (Ascii.eqb c sep); [rewrite IH; reflexivity|]. rewrite IH. destruct (split_on sep a) eqn:E; [|reflexivity].
    exfalso. destruct a as [|x a]; cbn [split_on] in E; [discriminate|]. destruct (Ascii.eqb x sep); [discriminate|].
    destruct (split_on sep a); discriminate.
Qed.

Lemma words_app : forall a b, words (a ++ " "%char :: b) = words a ++ words b.
Proof. intros a b. unfold words. rewrite split_app. apply filter_app. Qed.

Lemma word_one : forall w, w <> [] -> ~ In " "%char w -> words w = [w].
Proof. intros w N B. unfold words. rewrite split_one by exact B. destruct w; [now destruct N|reflexivity]. Qed.

Definition extra (c : ascii) : Prop := c = NL \/ c = " "%char.
Lemma extra_digit : forall c, extra c -> ~ is_digit c.
Proof.
  intros c [->| ->] Q; unfold is_digit, digits in Q; cbn in Q; repeat (destruct Q as [Q|Q]; [discriminate Q|]); destruct Q.
Qed.

Section Columns.
Variable dec : N -> cstr.
Hypothesis Hdec : decimals dec.

Lemma dec_print : forall n, (n < 2 ^ 64)%N -> print_lu 0 n = dec n.
Proof. intros n H. apply (numeral_unique n); [apply print_lu_numeral; exact H|apply Hdec; exact H]. Qed.

Lemma dec_extra : forall c n, extra c -> (n < 2 ^ 64)%N -> ~ In c (dec n).
Proof. intros c n S H. apply digits_not; [apply extra_digit; exact S|apply (dec_digits dec Hdec); exact H]. Qed.

Lemma dec_some : forall n, (n < 2 ^ 64)%N -> dec n <> [].
Proof. intros n H. exact (proj1 (proj2 (proj2 (Hdec n H)))). Qed.

Lemma dec_word : forall n, (n < 2 ^ 64)%N -> words (dec n) = [dec n].
Proof. intros n H. apply word_one; [apply dec_some; exact H|apply dec_extra; [right; reflexivity|exact H]]. Qed.

Lemma int_bound : forall z, (Z.abs z < 2 ^ 63)%Z -> (Z.to_N (Z.abs z) < 2 ^ 64)%N.
Proof.
  intros z H. apply N2Z.inj_lt. rewrite Z2N.id by apply Z.abs_nonneg.
  eapply Z.lt_trans; [exact H|]. reflexivity.
Qed.

Lemma int_print : forall z, (Z.abs z < 2 ^ 63)%Z -> print_int z = integer_text dec z.
Proof. intros z H. unfold print_int, integer_text. rewrite dec_print by (apply int_bound; exact H). reflexivity. Qed.

Lemma int_extra : forall c z, extra c -> (Z.abs z < 2 ^ 63)%Z -> ~ In c (integer_text dec z).
Proof.
  intros c z S H. unfold integer_text. apply not_in_app; [|apply dec_extra; [exact S|apply int_bound; exact H]].
  destruct (z <? 0)%Z; apply str_plain; destruct S as [->| ->]; reflexivity.
Qed.

Lemma int_some : forall z, (Z.abs z < 2 ^ 63)%Z -> integer_text dec z <> [].
Proof.
  intros z H E. unfold integer_text in E. apply app_eq_nil in E as [_ E]. revert E. apply dec_some, int_bound, H.
Qed.

Lemma int_word : forall z, (Z.abs z < 2 ^ 63)%Z -> words (integer_text dec z) = [integer_text dec z].
Proof. intros z H. apply word_one; [apply int_some; exact H|apply int_extra; [right; reflexivity|exact H]]. Qed.

Lemma ints_extra : forall c l, extra c -> (forall z, In z l -> (Z.abs z < 2 ^ 63)%Z) -> ~ In c (concat (map (integer_text dec) l)).
Proof.
  intros c l S H I. apply in_concat in I as (t & It & I). apply in_map_iff in It as (z & <- & Iz). revert I. apply int_extra; auto.
Qed.

Variables e9 e4 : double -> cstr.
Hypothesis H9 : forall x, one_word (e9 x).
Hypothesis H4 : forall x, one_word (e4 x).

Definition body (l : line) : cstr :=
  dec (f_evaluations l) ++ " "%char :: dec (g_evaluations l) ++ " "%char :: e9 (gap l) ++ " "%char :: e9 (measured l) ++ " "%char ::
  match fifth l with inl digits => concat (map (integer_text dec) digits) | inr best => e9 best end ++
  concat (map (fun c => " "%char :: match c with inl z => integer_text dec z | inr v => e4 v end) (coordinates l)).

Lemma line_body : forall l, representable l -> line_text e9 e4 l = body l ++ [NL].
Proof.
  intros l (B1 & B2 & B3 & B4). unfold line_text, body. rewrite !dec_print by assumption.
  assert (Q1 : match fifth l with inl digits => concat (map print_int digits) | inr best => e9 best end =
    match fifth l with inl digits => concat (map (integer_text dec) digits) | inr best => e9 best end).
  { destruct (fifth l) as [ds|b]; [|reflexivity]. f_equal. apply map_ext_in. intros z I. apply int_print, B3, I. }
  assert (Q2 : map (fun c => match c with inl z => str " " ++ print_int z | inr v => str " " ++ e4 v end) (coordinates l) =
    map (fun c => " "%char :: match c with inl z => integer_text dec z | inr v => e4 v end) (coordinates l)).
  { apply map_ext_in. intros [z|v] I; [|reflexivity]. rewrite int_print by (apply B4; exact I). reflexivity. }
  rewrite Q1, Q2. change (str " ") with [" "%char]. do 8 (cbn [app]; rewrite <- ?app_assoc). reflexivity.
Qed.

Lemma coordinates_words : forall l t, (forall z, In (inl z) l -> (Z.abs z < 2 ^ 63)%Z) ->
  words (t ++ concat (map (fun c : Z + double => " "%char :: match c with inl z => integer_text dec z | inr v => e4 v end) l)) =
  words t ++ concat (map (fun c => match c with inl z => [integer_text dec z] | inr v => words (e4 v) end) l).
Proof.
  induction l as [|c l IH]; intros t H; cbn [map concat]; [rewrite !app_nil_r; reflexivity|].
  rewrite <- app_comm_cons, words_app, IH by (intros z I; apply H; right; exact I). f_equal. f_equal.
  destruct c as [z|v]; [|reflexivity]. apply int_word, H. left. reflexivity.
Qed.

Lemma body_columns : forall l, representable l -> words (body l) = columns dec e9 e4 l.
Proof.
  intros l (B1 & B2 & B3 & B4). unfold body, columns. rewrite !words_app, !dec_word by assumption.
  rewrite coordinates_words by exact B4. cbn [app]. do 5 f_equal.
  destruct (fifth l) as [ds|b]; [|reflexivity]. destruct B3 as [N B3]. apply word_one.
  - destruct ds as [|z ds]; [now destruct N|]. cbn [map concat]. intros E. apply app_eq_nil in E as [E _]. revert E.
    apply int_some, B3. left. reflexivity.
  - apply ints_extra; [right; reflexivity|exact B3].
Qed.

Lemma body_plain : forall l, representable l -> ~ In NL (body l).
Proof.
  intros l (B1 & B2 & B3 & B4). assert (S : extra NL) by (left; reflexivity).
  assert (K : forall s t, ~ In NL s -> ~ In NL t -> ~ In NL (s ++ " "%char :: t)).
  { intros s t Hs Ht. apply not_in_app; [exact Hs|]. intros [Q|Q]; [discriminate Q|]. auto. }
  unfold body. repeat (apply K); try (apply dec_extra; assumption); try apply H9. apply not_in_app.
  - destruct (fifth l) as [ds|b]; [|apply H9]. apply ints_extra; [exact S|apply B3].
  - intros I. apply in_concat in I as (t & It & I). apply in_map_iff in It as (c & <- & Ic). destruct I as [I|I]; [discriminate I|].
    destruct c as [z|v]; [revert I; apply int_extra; [exact S|apply B4; exact Ic]|revert I; apply H4].
Qed.

Lemma columns_count : forall l, List.length (columns dec e9 e4 l) = 5 + List.length (coordinates l).
Proof.
  intros l. unfold columns. cbn [List.length]. rewrite !app_length.
  assert (W9 : forall x, List.length (words (e9 x)) = 1) by (intros x; destruct (H9 x) as [_ [w ->]]; reflexivity).
  assert (W4 : forall x, List.length (words (e4 x)) = 1) by (intros x; destruct (H4 x) as [_ [w ->]]; reflexivity).
  rewrite !W9. replace (List.length match fifth l with inl ds => [concat (map (integer_text dec) ds)] | inr b => words (e9 b) end) with 1
    by (destruct (fifth l); [reflexivity|rewrite W9; reflexivity]).
  cbn [Nat.add]. do 5 f_equal.
  induction (coordinates l) as [|c cs IH]; [reflexivity|]. cbn [map concat].
  destruct c as [z|v]; [cbn [app List.length]; f_equal; exact IH|].
  destruct (H4 v) as [_ [w ->]]. cbn [app List.length]. f_equal. exact IH.
Qed.

Lemma line_columns : forall l, representable l ->
  words (removelast (line_text e9 e4 l)) = columns dec e9 e4 l /\ List.length (columns dec e9 e4 l) = 5 + List.length (coordinates l).
Proof.
  intros l B. split; [|apply columns_count]. rewrite line_body by exact B. rewrite removelast_last. apply body_columns. exact B.
Qed.

Variable e12 : double -> cstr.
Hypothesis H12 : forall x, one_word (e12 x).

Lemma header_line : forall b x, exists t, header e12 b x = t ++ [NL] /\ ~ In NL t.
Proof.
  intros b x. unfold header.
  exists (str "% f evaluations | g evaluations | best noise-free fitness - " ++ str (if b then "Fopt" else "Fref") ++
    str " (" ++ e12 x ++ str ") + sum g_i+ | measured fitness | best measured fitness or single-digit g-values | x1 | x2...").
  split; [rewrite <- !app_assoc; reflexivity|].
  repeat apply not_in_app; try (apply str_plain; reflexivity); [destruct b; apply str_plain; reflexivity|apply H12].
Qed.

Lemma ended_lines : forall ls, Forall (fun l => exists t, l = t ++ [NL] /\ ~ In NL t) ls ->
  lines (concat ls) = map (fun l => removelast l) ls ++ [[]].
Proof.
  unfold lines. induction ls as [|l ls IH]; intros F; [reflexivity|]. inversion F as [|? ? (t & -> & N) Fs]; subst.
  cbn [concat map]. rewrite <- app_assoc. cbn [app]. rewrite split_more by exact N. rewrite removelast_last, IH by exact Fs. reflexivity.
Qed.

Lemma data_lines : forall k s,
  (forall r n g f l, In r (members s) -> outcome r = Some (n, g, f) -> In l (data k f) -> representable l) ->
  lines (data_text e12 e9 e4 k s) = concat (map (problem_lines e12 e9 e4 k) (members s)) ++ [[]].
Proof.
  intros k s H. unfold data_text.
  assert (Q : exists ls, concat (map (part e12 e9 e4 k) (members s)) = concat ls /\
     Forall (fun l => exists t, l = t ++ [NL] /\ ~ In NL t) ls /\
     map (fun l => removelast l) ls = concat (map (problem_lines e12 e9 e4 k) (members s))).
  { induction (members s) as [|r rs IH]; [exists []; repeat split; constructor|].
    destruct IH as (ls & E1 & E2 & E3); [intros; eapply H; eauto; right; assumption|].
    cbn [map concat]. rewrite E1, <- E3. unfold part, problem_lines.
    destruct (outcome r) as [[[n g] f]|] eqn:Er; [|exists ls; auto].
    exists ((header e12 (opt_known r) (optimum r) :: map (line_text e9 e4) (data k f)) ++ ls).
    split; [rewrite concat_app; reflexivity|]. split.
    - apply Forall_app. split; [|exact E2]. constructor; [apply header_line|]. apply Forall_forall. intros t It.
      apply in_map_iff in It as (l & <- & Il). assert (B : representable l) by (eapply H; eauto; left; reflexivity).
      exists (body l). split; [apply line_body; exact B|apply body_plain; exact B].
    - rewrite map_app. f_equal. cbn [map]. rewrite map_map. reflexivity. }
  destruct Q as (ls & -> & F & <-). apply ended_lines. exact F.
Qed.
End Columns.
