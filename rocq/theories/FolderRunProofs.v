(** Proofs about experiments with the bi-objective logger. *)
From Coq Require Import String List Arith NArith ZArith Ascii Bool Lia.
From Verif Require Import CBase StrModel StrSpec StrProofs FsModel FsSpec FsProofs FsRemoveProofs IdModel IdSpec IdProofs DblModel BiobjModel
  IndexModel FolderModel FolderSpec FolderProofs.
From Verif Require IndexSpec IndexProofs IndexRunProofs.
Import ListNotations.
Local Notation length := List.length.
Local Open Scope nat_scope.

Lemma key_eq : forall a b, same_key a b = true <-> a = b.
Proof. exact IndexRunProofs.same_key_eq. Qed.

Section Run.
Variable dec : N -> cstr.
Hypothesis Hdec : decimals dec.
Variables ef ex e1 : double -> cstr.
Variable version : cstr.
Variable refused : disk -> cstr -> bool.
Variable o : observer.
Hypothesis Hfits : fits o.
Variable stem : observed -> cstr.

Notation path' := (path o stem).
Notation part' := (part dec ef ex o).
Notation adds' := (all_adds dec ef ex e1 version o stem).
Notation run' := (run_all ef ex e1 version refused o).

Lemma adds_keys : forall s th p a, In a (adds' s th p) ->
  (exists k, used o k = true /\ fst a = path' k p) \/ (compute_indicators o = true /\ fst a = info_path o (problem_type p)).
Proof.
  intros s th p a I. unfold all_adds, archive_adds, indicator_adds, info_adds, mdat_adds, body_adds, file_adds, last_adds in I.
  destruct (used o Adat) eqn:UA; destruct (compute_indicators o) eqn:C; destruct th; destruct (changed s p); cbn [app In] in I;
    repeat match type of I with _ \/ _ => destruct I as [<-|I] | False => destruct I end; cbn [fst];
    first [ right; split; reflexivity
          | left; exists Adat; split; [exact UA|reflexivity]
          | left; exists Mdat; split; reflexivity
          | left; exists Dat; split; [exact C|reflexivity]
          | left; exists Tdat; split; [exact C|reflexivity]
          | left; exists Rdat; split; [exact C|reflexivity] ].
Qed.

Lemma streq_paths : forall k k' p, streq (path' k p) (path' k' p) = match k, k' with
  | Adat, Adat | Dat, Dat | Tdat, Tdat | Rdat, Rdat | Mdat, Mdat => true | _, _ => false end.
Proof.
  intros k k' p. destruct k, k'; try apply streq_refl; apply streq_neq; apply path_apart; discriminate.
Qed.
Lemma streq_info : forall k p t, streq (path' k p) (info_path o t) = false.
Proof. intros k p t. apply streq_neq. apply path_info. Qed.
Lemma streq_data : forall k p t, streq (info_path o t) (path' k p) = false.
Proof. intros k p t. apply streq_neq. intros E. symmetry in E. exact (path_info o stem k p t E). Qed.

Lemma data_texts : forall s th p k, used o k = true ->
  texts (path' k p) (adds' s th p) <> [] /\ concat (texts (path' k p) (adds' s th p)) = part' k p.
Proof.
  intros s th p k U. unfold all_adds, archive_adds, indicator_adds, info_adds, mdat_adds, body_adds, file_adds, last_adds.
  cbv zeta. rewrite !texts_app.
  destruct k; cbn [used] in U; unfold used; rewrite ?U; destruct (log_nondom_mode o) eqn:M; try discriminate U;
    destruct (compute_indicators o) eqn:C; try discriminate U; destruct th; destruct (changed s p);
    unfold texts; rewrite ?filter_app; cbn [filter fst app]; rewrite ?streq_paths, ?streq_info; cbn [map snd app];
    (split; [discriminate|]); cbn [concat app part]; unfold mdat_head; rewrite ?app_nil_r, <- ?app_assoc; reflexivity.
Qed.

Lemma data_elsewhere : forall s th p k q, path' k p <> path' k q -> texts (path' k q) (adds' s th p) = [].
Proof.
  intros s th p k q N. apply texts_other. intros a I E. apply adds_keys in I as [(k' & _ & F)|(_ & F)].
  - assert (k' = k) by (destruct k, k'; try reflexivity; exfalso; rewrite F in E; revert E; apply path_apart; discriminate).
    subst k'. congruence.
  - rewrite F in E. symmetry in E. exact (path_info o stem k q _ E).
Qed.

(** The data files *)
Lemma data_step : forall s d p s1 d1 k x, plausible stem p -> used o k = true -> (exists q, x = path' k q) ->
  run_problem ef ex e1 version refused o s d p = Ok (s1, d1) ->
  d1 x = added (d x) (if streq (path' k p) x then [part' k p] else []).
Proof.
  intros s d p s1 d1 k x P U (q & ->) H. destruct (problem_is dec Hdec ef ex e1 version refused o Hfits stem s d p s1 d1 P H) as [_ ->].
  rewrite apply_at. destruct (streq (path' k p) (path' k q)) eqn:E.
  - apply streq_spec in E. rewrite <- E. destruct (data_texts s (exists_file d (info_path o (problem_type p))) p k U) as [N C].
    apply added_concat; [split; [intros X; now destruct N|discriminate]|]. rewrite C. cbn [concat]. rewrite app_nil_r. reflexivity.
  - rewrite data_elsewhere; [reflexivity|]. intros X. rewrite X, streq_refl in E. discriminate.
Qed.

Lemma data_run : forall ps s d s1 d1 k x, Forall (plausible stem) ps -> used o k = true -> (exists q, x = path' k q) ->
  run' s d ps = Ok (s1, d1) -> d1 x = added (d x) (map (part' k) (filter (fun q => streq (path' k q) x) ps)).
Proof.
  induction ps as [|p ps IH]; intros s d s1 d1 k x P U X H; cbn [run_all] in H.
  - assert (d = d1) by congruence. subst. reflexivity.
  - inversion P as [|? ? P1 P2]; subst.
    destruct (run_problem ef ex e1 version refused o s d p) as [[s2 d2]| |] eqn:E; cbn [bind] in H; try discriminate.
    rewrite (IH s2 d2 s1 d1 k x P2 U X H), (data_step s d p s2 d2 k x P1 U X E), added_added. cbn [filter].
    destruct (streq (path' k p) x); reflexivity.
Qed.

(** The other files *)
Lemma untouched_run : forall ps s d s1 d1, Forall (plausible stem) ps -> run' s d ps = Ok (s1, d1) -> untouched o stem ps d d1.
Proof.
  induction ps as [|p ps IH]; intros s d s1 d1 P H x X I; cbn [run_all] in H.
  - congruence.
  - inversion P as [|? ? P1 P2]; subst.
    destruct (run_problem ef ex e1 version refused o s d p) as [[s2 d2]| |] eqn:E; cbn [bind] in H; try discriminate.
    rewrite (IH s2 d2 s1 d1 P2 H x).
    + apply (problem_is dec Hdec ef ex e1 version refused o Hfits stem) in E as [_ ->]; [|exact P1]. rewrite apply_at, texts_other; [reflexivity|].
      intros a Ia Ea. apply adds_keys in Ia as [(k & U & F)|(C & F)].
      * apply (X k p U (or_introl eq_refl)). congruence.
      * apply (I C p (or_introl eq_refl)). congruence.
    + intros k q U J. apply X; [exact U|right; exact J].
    + intros C q J. apply I; [exact C|right; exact J].
Qed.

(** Nothing is lost *)
Lemma kept_apply : forall l d, extends d (apply_all d l).
Proof.
  intros l d x t E. rewrite apply_at, E. destruct (texts x l); [exists []; rewrite app_nil_r; reflexivity|].
  cbn [added]. eexists. reflexivity.
Qed.
Lemma kept_run : forall ps s d s1 d1, Forall (plausible stem) ps -> run' s d ps = Ok (s1, d1) -> extends d d1.
Proof.
  induction ps as [|p ps IH]; intros s d s1 d1 P H; cbn [run_all] in H.
  - assert (d = d1) by congruence. subst. apply IndexRunProofs.extends_refl.
  - inversion P as [|? ? P1 P2]; subst.
    destruct (run_problem ef ex e1 version refused o s d p) as [[s2 d2]| |] eqn:E; cbn [bind] in H; try discriminate.
    apply (problem_is dec Hdec ef ex e1 version refused o Hfits stem) in E as [_ ->]; [|exact P1].
    eapply IndexRunProofs.extends_trans; [apply kept_apply|]. eapply IH; eauto.
Qed.

(** * The index *)
Definition session_head (p : observed) : cstr :=
  str "function = " ++ padded (dec (suite_dep_function p)) ++ str ", dim = " ++ padded (dec (number_of_variables p)) ++
  str ", " ++ stem p ++ str "_hyp.dat".
Definition grown (s : previous) (old : option cstr) (p : observed) : cstr :=
  match old with None => title version o p ++ [NL] ++ comment o | Some t => t end ++
  (if changed s p then NL :: session_head p else []) ++ entry dec e1 p.
Fixpoint index (T : cstr) (s : previous) (old : option cstr) (ps : list observed) : option cstr :=
  match ps with
  | [] => old
  | p :: ps' => index T (next_previous o s p) (if streq (problem_type p) T then Some (grown s old p) else old) ps'
  end.

Lemma info_texts : forall s th p, compute_indicators o = true ->
  texts (info_path o (problem_type p)) (adds' s th p) <> [] /\
  concat (texts (info_path o (problem_type p)) (adds' s th p)) =
    (if th then [] else title version o p ++ [NL] ++ comment o) ++ (if changed s p then NL :: session_head p else []) ++ entry dec e1 p.
Proof.
  intros s th p C. unfold all_adds, archive_adds, indicator_adds, info_adds, mdat_adds, body_adds, file_adds, last_adds.
  cbv zeta. rewrite !texts_app. rewrite C.
  destruct (used o Adat); destruct th; destruct (changed s p);
    unfold texts; rewrite ?filter_app; cbn [filter fst app]; rewrite ?streq_data, ?streq_refl; cbn [map snd app];
    (split; [discriminate|]); cbn [concat app]; unfold session_head; rewrite ?app_nil_r, <- ?app_assoc; reflexivity.
Qed.

Lemma info_step : forall s d p s1 d1 T, plausible stem p -> compute_indicators o = true ->
  run_problem ef ex e1 version refused o s d p = Ok (s1, d1) ->
  s1 = next_previous o s p /\
  d1 (info_path o T) = if streq (problem_type p) T then Some (grown s (d (info_path o T)) p) else d (info_path o T).
Proof.
  intros s d p s1 d1 T P C H. destruct (problem_is dec Hdec ef ex e1 version refused o Hfits stem s d p s1 d1 P H) as [-> ->].
  split; [reflexivity|]. rewrite apply_at. destruct (streq (problem_type p) T) eqn:E.
  - apply streq_spec in E. subst T. destruct (info_texts s (exists_file d (info_path o (problem_type p))) p C) as [N Q].
    destruct (texts _ _) as [|t l]; [now destruct N|]. cbn [added]. rewrite Q. unfold grown, exists_file.
    destruct (d (info_path o (problem_type p))); cbn [app]; rewrite <- ?app_assoc; reflexivity.
  - rewrite texts_other; [reflexivity|]. intros a I F. apply adds_keys in I as [(k & _ & G)|(_ & G)].
    + rewrite G in F. exact (path_info o stem k p T F).
    + rewrite G in F. apply info_inj in F. rewrite F, streq_refl in E. discriminate.
Qed.

Lemma info_run : forall ps s d s1 d1 T, Forall (plausible stem) ps -> compute_indicators o = true -> run' s d ps = Ok (s1, d1) ->
  d1 (info_path o T) = index T s (d (info_path o T)) ps.
Proof.
  induction ps as [|p ps IH]; intros s d s1 d1 T P C H; cbn [run_all] in H.
  - cbn [index]. congruence.
  - inversion P as [|? ? P1 P2]; subst.
    destruct (run_problem ef ex e1 version refused o s d p) as [[s2 d2]| |] eqn:E; cbn [bind] in H; try discriminate.
    destruct (info_step s d p s2 d2 T P1 C E) as [-> Q]. rewrite (IH _ d2 s1 d1 T P2 C H), Q. reflexivity.
Qed.

(** The sessions *)
Definition at_key (p : observed) : previous :=
  {| previous_function := Z.of_N (suite_dep_function p); previous_dimension := Z.of_N (number_of_variables p) |}.
Lemma changed_key : forall p q, changed (at_key p) q = negb (same_key (key p) (key q)).
Proof.
  intros p q. unfold changed, at_key, same_key, IndexSpec.same_key, key. cbn [previous_function previous_dimension fst snd].
  rewrite negb_andb. f_equal; f_equal.
  - destruct (N.eqb_spec (suite_dep_function p) (suite_dep_function q)) as [-> |N]; [apply Z.eqb_refl|]. apply Z.eqb_neq. lia.
  - destruct (N.eqb_spec (number_of_variables p) (number_of_variables q)) as [-> |N]; [apply Z.eqb_refl|]. apply Z.eqb_neq. lia.
Qed.
Lemma changed_new : forall q, changed new_previous q = true.
Proof.
  intros q. unfold changed, new_previous. cbn [previous_function previous_dimension].
  replace (-1 =? Z.of_N (suite_dep_function q))%Z with false; [reflexivity|]. symmetry. apply Z.eqb_neq. lia.
Qed.
Lemma key_at : forall p q, key p = key q -> at_key p = at_key q.
Proof. intros p q E. unfold key in E. unfold at_key. assert (suite_dep_function p = suite_dep_function q) by congruence.
  assert (number_of_variables p = number_of_variables q) by congruence. congruence. Qed.

Hypothesis C : compute_indicators o = true.

Lemma next_at : forall s p, next_previous o s p = at_key p.
Proof. intros s p. unfold next_previous. rewrite C. reflexivity. Qed.

(** The rest of a session *)
Lemma index_rest : forall T r ms rest old, (forall p, In p ms -> key p = key r /\ problem_type p = problem_type r) ->
  (streq (problem_type r) T = true -> old <> None) ->
  index T (at_key r) old (ms ++ rest) =
  index T (at_key r) (if streq (problem_type r) T then match old with Some t => Some (t ++ concat (map (entry dec e1) ms)) | None => None end else old) rest.
Proof.
  intros T r. induction ms as [|p ms IH]; intros rest old U N.
  - cbn [app map concat]. destruct (streq (problem_type r) T); [|reflexivity]. destruct old; [rewrite app_nil_r|]; reflexivity.
  - cbn [app index]. destruct (U p (or_introl eq_refl)) as [K E]. rewrite next_at, E, (key_at p r K).
    assert (Ch : changed (at_key r) p = false).
    { rewrite changed_key, K. rewrite (proj2 (key_eq (key r) (key r)) eq_refl). reflexivity. }
    unfold grown. rewrite Ch. rewrite IH.
    + destruct (streq (problem_type r) T); [|reflexivity]. destruct old as [t|]; [|now destruct (N eq_refl)].
      cbn [map concat app]. rewrite <- app_assoc. reflexivity.
    + intros q I. apply U. right. exact I.
    + intros S. rewrite S. discriminate.
Qed.

Lemma index_session : forall T s r ms rest old, changed s r = true ->
  (forall p, In p ms -> key p = key r /\ problem_type p = problem_type r) ->
  index T s old ((r :: ms) ++ rest) =
  index T (at_key r) (if of_type T (r :: ms) then
    Some (match old with None => title version o r ++ [NL] ++ comment o | Some t => t end ++ NL :: session_line dec e1 stem (r :: ms)) else old) rest.
Proof.
  intros T s r ms rest old Ch U. cbn [app index of_type]. rewrite next_at. rewrite index_rest; [|exact U|intros ->; discriminate].
  destruct (streq (problem_type r) T); [|reflexivity]. f_equal. f_equal. unfold grown. rewrite Ch, <- !app_assoc.
  apply (f_equal (app (match old with Some t => t | None => title version o r ++ NL :: comment o end))).
  unfold session_line, session_head. cbn [map concat app]. unfold entry. rewrite <- ?app_assoc. reflexivity.
Qed.

Definition sound (ss : list (list observed)) : Prop :=
  Forall (fun s => s <> [] /\ (forall p q, In p s -> In q s -> key p = key q) /\ forall p q, In p s -> In q s -> problem_type p = problem_type q) ss /\
  forall a s t b p q, ss = a ++ s :: t :: b -> In p s -> In q t -> key p <> key q.

Lemma index_sessions : forall T ss s old, sound ss -> (forall r ms ss', ss = (r :: ms) :: ss' -> changed s r = true) ->
  index T s old (concat ss) =
  match filter (of_type T) ss with
  | [] => old
  | l => Some (match old with Some t => t | None => match l with (r :: _) :: _ => title version o r ++ [NL] ++ comment o | _ => [] end end ++
               concat (map (fun m => NL :: session_line dec e1 stem m) l))
  end.
Proof.
  intros T. induction ss as [|m ss IH]; intros s old [U A] H; [reflexivity|].
  inversion U as [|? ? (N & K & Ty) Us]; subst. destruct m as [|r ms]; [now destruct N|]. cbn [concat].
  rewrite index_session.
  2:{ eapply H. reflexivity. }
  2:{ intros p I. split; [apply K|apply Ty]; solve [right; exact I | left; reflexivity]. }
  rewrite IH.
  - cbn [filter]. destruct (of_type T (r :: ms)) eqn:E; [|reflexivity].
    destruct (filter (of_type T) ss) as [|m' l].
    + cbn [map concat]. rewrite app_nil_r. reflexivity.
    + cbn [map concat]. rewrite <- !app_assoc. cbn [app]. rewrite <- ?app_assoc. reflexivity.
  - split; [exact Us|]. intros a u t b p q E. apply (A ((r :: ms) :: a) u t b p q). rewrite E. reflexivity.
  - intros r' ms' ss' E. rewrite changed_key. apply negb_true_iff. apply not_true_is_false. intros S.
    apply (proj1 (key_eq _ _)) in S. subst ss.
    apply (A [] (r :: ms) (r' :: ms') ss' r r'); auto; left; reflexivity.
Qed.

Lemma unlines_two : forall a b l, unlines (a :: b :: l) = (a ++ [NL] ++ b) ++ concat (map (cons NL) l).
Proof.
  intros a b l. revert a b. induction l as [|c l IH]; intros a b.
  - cbn. rewrite app_nil_r. reflexivity.
  - change (unlines (a :: b :: c :: l)) with (a ++ NL :: unlines (b :: c :: l)). rewrite IH. cbn [map concat].
    rewrite <- !app_assoc. reflexivity.
Qed.

Lemma sessions_sound : forall ps ss, typed ps -> sessions_of ps ss -> sound ss.
Proof.
  intros ps ss T (E & U & A). split; [|exact A]. rewrite Forall_forall in *. intros s I. destruct (U s I) as [N K].
  split; [exact N|]. split; [exact K|]. intros p q Ip Iq. apply T; [| |apply K; assumption]; rewrite <- E; apply in_concat; eauto.
Qed.

Lemma index_is : forall ps ss T, typed ps -> sessions_of ps ss ->
  index T new_previous None ps = match info_lines dec e1 version o stem T ss with [] => None | l => Some (unlines l) end.
Proof.
  intros ps ss T Ty S. pose proof (sessions_sound ps ss Ty S) as So. destruct S as (<- & _ & _).
  rewrite (index_sessions T ss new_previous None So) by (intros; apply changed_new).
  unfold info_lines. destruct (filter (of_type T) ss) as [|m l] eqn:E; [reflexivity|].
  assert (I : In m (filter (of_type T) ss)) by (rewrite E; left; reflexivity). apply filter_In in I as [I _].
  destruct So as [U _]. rewrite Forall_forall in U. destruct (U m I) as [N _]. destruct m as [|r ms]; [now destruct N|].
  f_equal. rewrite unlines_two, map_map. reflexivity.
Qed.

Lemma info_recorded_run : forall d ps s1 d1 ss, Forall (plausible stem) ps -> no_index o d -> typed ps -> sessions_of ps ss ->
  run' new_previous d ps = Ok (s1, d1) -> info_recorded dec e1 version o stem ss d1.
Proof.
  intros d ps s1 d1 ss P E T S H type. rewrite (info_run ps new_previous d s1 d1 type P C H), E. apply index_is; assumption.
Qed.
End Run.

(** There are sessions. *)
Fixpoint cut (ps : list observed) : list (list observed) :=
  match ps with
  | [] => []
  | p :: ps' =>
    match cut ps' with
    | (q :: s) :: ss => if same_key (key p) (key q) then (p :: q :: s) :: ss else [p] :: (q :: s) :: ss
    | _ => [[p]]
    end
  end.

Lemma cut_sessions : forall ps, sessions_of ps (cut ps).
Proof.
  induction ps as [|p ps (E & U & A)].
  - split; [reflexivity|]. split; [constructor|]. intros a s t b x y E. destruct a; discriminate.
  - cbn [cut]. destruct (cut ps) as [|[|q s] ss] eqn:Ec.
    + cbn [concat] in E. subst ps. split; [reflexivity|]. split.
      * constructor; [|constructor]. split; [discriminate|]. intros x y [<-|[]] [<-|[]]. reflexivity.
      * intros a s t b x y Es. destruct a as [|? [|? a]]; discriminate.
    + inversion U as [|? ? [N _] _]; subst. now destruct N.
    + inversion U as [|? ? [N K] Us]; subst. destruct (same_key (key p) (key q)) eqn:S.
      * apply (proj1 (key_eq _ _)) in S. split; [reflexivity|].
        assert (Kp : forall x, In x (q :: s) -> key x = key p) by (intros x I; rewrite S; apply K; [exact I|left; reflexivity]).
        split.
        -- constructor; [|exact Us]. split; [discriminate|]. intros x y [<-|I] [<-|J]; [reflexivity|symmetry; auto|auto|].
           rewrite (Kp x I), (Kp y J). reflexivity.
        -- intros a u t b x y Es I J. destruct a as [|a0 a]; cbn [app] in Es.
           ++ assert (u = p :: q :: s) by congruence. assert (ss = t :: b) by congruence. subst u ss. destruct I as [<-|I].
              ** rewrite S. apply (A [] (q :: s) t b q y); [reflexivity|left; reflexivity|exact J].
              ** apply (A [] (q :: s) t b x y); [reflexivity|exact I|exact J].
           ++ assert (ss = a ++ u :: t :: b) by congruence. subst ss. apply (A ((q :: s) :: a) u t b x y); [reflexivity|exact I|exact J].
      * split; [reflexivity|]. split.
        -- constructor; [|exact U]. split; [discriminate|]. intros x y [<-|[]] [<-|[]]. reflexivity.
        -- intros a u t b x y Es I J. destruct a as [|a0 a]; cbn [app] in Es.
           ++ assert (u = [p]) by congruence. assert (t = q :: s) by congruence. subst u t. destruct I as [<-|[]].
              intros X. rewrite (K y q J (or_introl eq_refl)) in X. rewrite X, (proj2 (key_eq _ _) eq_refl) in S. discriminate.
           ++ apply (A a u t b x y); [congruence|exact I|exact J].
Qed.
