(** C32-C34: archives of solutions (coco_archive.c). *)
From Coq Require Import List Arith ZArith Bool Lia Sorted Permutation String.
Import ListNotations.
From Verif Require Import CBase MoModel ArchModel ArchSpec FrontProofs AreaProofs KeptProofs ArchProofs.
Open Scope Z_scope.

(** All answers of an archive, for every sequence of additions, readings and queries, are the expected
    ones; in particular no assertion fails and no freed node is touched. *)
Theorem C32_answers : forall t1 t2 us, exists a a',
  coco_archive t1 t2 = Ok a /\ perform_all a us = Ok (expected t1 t2 (extremes t1 t2) 0 us, a').
Proof.
  intros t1 t2 us. destruct (archive_inv t1 t2) as (a & E & H).
  destruct (perform_all_expected t1 t2 us _ _ _ H) as (a' & p & E' & _). eauto.
Qed.

(** The archive holds the front of everything added, in order. *)
Theorem C32_content : forall t1 t2 us a o a', coco_archive t1 t2 = Ok a -> perform_all a us = Ok (o, a') ->
  map (fun i => (ny i, text i)) (tree a') = front (extremes t1 t2 ++ added us).
Proof.
  intros t1 t2 us a o a' E P. destruct (archive_inv t1 t2) as (b & E' & H). rewrite E in E'. injection E' as <-.
  destruct (perform_all_expected t1 t2 us _ _ _ H) as (a'' & p & P' & I). rewrite P in P'. injection P' as -> <-.
  apply (i_tree _ _ _ _ _ I).
Qed.

(** The front consists of the solutions not weakly dominated by an earlier and not dominated by a
    later one, ... *)
Theorem C32_front_members : forall (h : list entry) e, In e (front h) <->
  exists h1 h2, h = h1 ++ e :: h2 /\ (forall f, In f h1 -> weakly (fst f) (fst e) = false) /\
                (forall f, In f h2 -> dominates (fst f) (fst e) = false).
Proof. exact front_members. Qed.

(** ... sorted strictly by increasing second and decreasing first objective (so each once). *)
Theorem C32_front_sorted : forall (h : list entry),
  StronglySorted (fun e f => snd (fst e) < snd (fst f) /\ fst (fst f) < fst (fst e)) (front h).
Proof. exact front_stair. Qed.

(** The extreme solutions are always the first and the last. *)
Theorem C32_extremes : forall t1 t2 us, exists mid,
  front (extremes t1 t2 ++ added us) = ((unit, 0), t1) :: mid ++ [((0, unit), t2)].
Proof.
  intros t1 t2 us. destruct (archive_inv t1 t2) as (a & E & H).
  destruct (perform_all_expected t1 t2 us _ _ _ H) as (a' & p & E' & I).
  destruct (i_shape _ _ _ _ _ I) as (i1 & mid & i2 & T & E1 & E2 & _).
  exists (map entry_of mid). rewrite <- (i_tree _ _ _ _ _ I), T. cbn [map]. rewrite map_app. cbn [map].
  rewrite E1, E2. reflexivity.
Qed.

(** C33: the hypervolume is the dominated area (counted in [expected] by [area]) ... *)
Theorem C33_hypervolume : forall t1 t2 us a o a' v a'',
  coco_archive t1 t2 = Ok a -> perform_all a us = Ok (o, a') -> coco_archive_get_hypervolume a' = Ok (v, a'') ->
  v = area unit (map fst (extremes t1 t2 ++ added us)) /\ v = area unit (map ny (tree a')).
Proof.
  intros t1 t2 us a o a' v a'' E P V. destruct (archive_inv t1 t2) as (b & E' & H). rewrite E in E'. injection E' as <-.
  destruct (perform_all_expected t1 t2 us _ _ _ H) as (a2 & p & P' & I). rewrite P in P'. injection P' as -> <-.
  unfold coco_archive_get_hypervolume in V. destruct (update_inv _ _ _ _ _ I) as (a3 & EU & I3 & U).
  rewrite EU in V. cbn [bind] in V. injection V as <- <-.
  destruct (i_shape _ _ _ _ _ I3) as (i1 & mid & i2 & T & E1' & E2' & X1 & X2 & RS). rewrite U in RS.
  destruct RS as (_ & -> & _). split; [reflexivity|]. apply area_ext. intros c _. rewrite covered_front.
  rewrite <- (i_tree _ _ _ _ _ I), map_map. reflexivity.
Qed.

(** ... which does not depend on the order of the solutions and does not decrease by additions. *)
Theorem C33_order : forall n (h1 h2 : list entry), Permutation h1 h2 -> area n (map fst h1) = area n (map fst h2).
Proof.
  intros n h1 h2 P. apply area_ext. intros c _. unfold covered. apply (Permutation_map fst) in P.
  apply eq_true_iff_eq. rewrite !existsb_exists. split; intros (x & Hx & W); exists x; split; auto.
  - eapply Permutation_in; eauto.
  - eapply Permutation_in; [apply Permutation_sym|]; eauto.
Qed.

Theorem C33_monotone : forall n (h1 h2 : list entry), area n (map fst h1) <= area n (map fst (h1 ++ h2)).
Proof.
  intros n h1 h2. apply area_mono. intros c _ H. rewrite map_app, covered_app, H. reflexivity.
Qed.

(** The measure [area] is what it is called: the area of a rectangle, additivity, and monotonicity. *)
Theorem C33_area_rectangle : forall n a b, 0 <= a <= n -> 0 <= b <= n -> area n [(a, b)] = (n - a) * (n - b).
Proof.
  intros n a b Ha Hb. rewrite stair_area_spec.
  - cbn [stair_area fst snd]. ring.
  - repeat constructor.
  - intros p [<-|[]]. auto.
Qed.

(** C34: reading after the archive has been used in any way: [k] further texts. *)
Theorem C34_reading : forall t1 t2 us k txt n, accepted (extremes t1 t2 ++ added us) (normalised k, txt) = true ->
  exists a a', coco_archive t1 t2 = Ok a /\
    perform_all a (us ++ Add k txt :: repeat Next n) =
    Ok (expected t1 t2 (extremes t1 t2) 0 us ++ Added 1 ::
        map (fun j => Text (Some (nth j (reading t1 t2 (extremes t1 t2 ++ added us ++ [(normalised k, txt)])) []))) (seq 0 n), a').
Proof.
  intros t1 t2 us k txt n A. destruct (C32_answers t1 t2 (us ++ Add k txt :: repeat Next n)) as (a & a' & E & P).
  exists a, a'. split; auto. rewrite P. f_equal. f_equal.
  assert (R : forall m h pos, expected t1 t2 h pos (repeat Next m) =
    map (fun j => Text (Some (nth j (reading t1 t2 h) []))) (seq pos m)).
  { induction m as [|m IH]; intros h pos; cbn [repeat expected seq map]; auto. f_equal. apply IH. }
  assert (G : forall us h pos, accepted (h ++ added us) (normalised k, txt) = true ->
    expected t1 t2 h pos (us ++ Add k txt :: repeat Next n) =
    expected t1 t2 h pos us ++ Added 1 ::
        map (fun j => Text (Some (nth j (reading t1 t2 (h ++ added us ++ [(normalised k, txt)])) []))) (seq 0 n)).
  { clear - R. induction us as [|u us IH]; intros h pos A; cbn [added app expected] in *.
    - rewrite app_nil_r in A. rewrite A, R. reflexivity.
    - destruct u as [k' txt'| | |]; cbn [app expected].
      + replace (h ++ (normalised k', txt') :: added us) with ((h ++ [(normalised k', txt')]) ++ added us) in A
          by (rewrite <- app_assoc; reflexivity).
        destruct (accepted h (normalised k', txt')); rewrite IH by auto; rewrite <- app_assoc; reflexivity.
      + rewrite IH by auto. reflexivity.
      + rewrite IH by auto. reflexivity.
      + rewrite IH by auto. reflexivity. }
  apply G. exact A.
Qed.

(** The texts read are those of the archived solutions: extremes first, then the others by second objective. *)
Theorem C34_order : forall t1 t2 us, exists mid,
  front (extremes t1 t2 ++ added us) = ((unit, 0), t1) :: mid ++ [((0, unit), t2)] /\
  reading t1 t2 (extremes t1 t2 ++ added us) = [t1; t2] ++ map snd mid.
Proof.
  intros t1 t2 us. destruct (archive_inv t1 t2) as (a & E & H).
  destruct (perform_all_expected t1 t2 us _ _ _ H) as (a' & p & E' & I).
  destruct (i_shape _ _ _ _ _ I) as (i1 & mid & i2 & T & E1 & E2 & _).
  exists (map entry_of mid). split.
  - rewrite <- (i_tree _ _ _ _ _ I), T. cbn [map]. rewrite map_app. cbn [map]. rewrite E1, E2. reflexivity.
  - rewrite (reading_mid _ _ _ _ _ i1 mid i2 I T E1 E2), map_map. reflexivity.
Qed.

(** The enumeration does not start anew after the empty text, and a rejected solution does not restart it. *)
Definition results (us : list use) : option (list seen) :=
  match (do a <- coco_archive (str "A") (str "B"); perform_all a us) with Ok (o, _) => Some o | _ => None end.

Theorem C34_no_restart_refuted : exists us,
  results us = Some [Text (Some (str "A")); Text (Some (str "B")); Text (Some []); Text (Some []); Text (Some [])].
Proof. exists [Next; Next; Next; Next; Next]. vm_compute. reflexivity. Qed.

Example C32_example :
  results [Add (1000000000000, 1000000000000) (str "m"); Hyper; Count;
           Add (500000000000, 1500000000000) (str "l"); Next; Next; Next;
           Add (1200000000000, 1200000000000) (str "x"); Next; Next; Hyper;
           Add (400000000000, 900000000000) (str "w"); Count; Next; Next; Next; Next] =
  Some [Added 1; Volume (10000000000000 * 10000000000000); Number 3;
        Added 1; Text (Some (str "A")); Text (Some (str "B")); Text (Some (str "m"));
        Added 0; Text (Some (str "l")); Text (Some []); Volume (10000000000000 * 10000000000000 + 5000000000000 * 5000000000000);
        Added 1; Number 3; Text (Some (str "A")); Text (Some (str "B")); Text (Some (str "w")); Text (Some [])].
Proof. vm_compute. reflexivity. Qed.

Example C34_example :
  accepted (extremes (str "A") (str "B") ++ added [Add (1000000000000, 1000000000000) (str "m"); Next])
           (normalised (500000000000, 1500000000000), str "l") = true /\
  results [Add (1000000000000, 1000000000000) (str "m"); Next; Add (500000000000, 1500000000000) (str "l"); Next; Next; Next; Next; Next]
  = Some [Added 1; Text (Some (str "A")); Added 1; Text (Some (str "A")); Text (Some (str "B")); Text (Some (str "m"));
          Text (Some (str "l")); Text (Some [])].
Proof. vm_compute. auto. Qed.

Example C33_example : area 4 [(1, 2); (2, 1); (3, 3); (0, 4)] = 8.
Proof. vm_compute. reflexivity. Qed.

Print Assumptions C32_answers.
Print Assumptions C32_content.
Print Assumptions C32_front_members.
Print Assumptions C32_front_sorted.
Print Assumptions C32_extremes.
Print Assumptions C33_hypervolume.
Print Assumptions C33_order.
Print Assumptions C33_monotone.
Print Assumptions C33_area_rectangle.
Print Assumptions C34_reading.
Print Assumptions C34_order.
Print Assumptions C34_no_restart_refuted.
