(** The Schwefel function: u sin(sqrt |u|) is at most 418.9828872724339 (plus the penalty outside [-500, 500]), and this
    is its value at 420.968746 up to 2.5e-13. *)

From Coq Require Import ZArith QArith Qreals List Bool Reals Lra Lia Machin Rtrigo_alt.
Local Open Scope R_scope.

(** ** Seventeen digits of pi *)

Fixpoint qpow (q : Q) (k : nat) : Q := match k with O => 1 | S j => q * qpow q j end.

Definition qterm (k : nat) : Q :=
  Qred ((if Nat.even k then 1 else -1) * ((2 # 3) * qpow (1 # 9) k + (1 # 7) * qpow (1 # 49) k) / inject_Z (2 * Z.of_nat k + 1)).

Fixpoint qsum (k : nat) : Q := match k with O => qterm 0 | S j => Qred (qsum j + qterm (S j)) end.

Lemma Q2R_pow q k : Q2R (qpow q k) = Q2R q ^ k.
Proof.
  induction k as [|k IH]; cbn [qpow Rpow_def.pow]; [unfold Q2R; cbn; field|]. rewrite Q2R_mult, IH. reflexivity.
Qed.

Lemma Q2R_IZR z : Q2R (inject_Z z) = IZR z.
Proof. unfold Q2R, inject_Z. cbn. field. Qed.

Lemma qterm_tg k : Q2R (qterm k) = tg_alt PI_2_3_7_tg k.
Proof.
  unfold qterm. rewrite (Qeq_eqR _ _ (Qred_correct _)).
  unfold Qdiv. rewrite !Q2R_mult, Q2R_inv, Q2R_plus, !Q2R_mult, !Q2R_pow, Q2R_IZR.
  2:{ intros H. unfold Qeq, inject_Z in H. cbn [Qnum Qden] in H. lia. }
  unfold tg_alt, PI_2_3_7_tg, Ratan_seq.
  assert (E : Q2R (if Nat.even k then 1 else -1) = (-1) ^ k).
  { destruct (Nat.even k) eqn:P.
    - apply Nat.even_spec in P. destruct P as (j & ->). rewrite pow_1_even. unfold Q2R. cbn. field.
    - assert (O : Nat.odd k = true) by (unfold Nat.odd; rewrite P; reflexivity). apply Nat.odd_spec in O. destruct O as (j & ->).
      rewrite Nat.add_1_r, pow_1_odd. unfold Q2R. cbn. field. }
  rewrite E. rewrite !pow_add, !pow_mult, !pow_1.
  replace (IZR (2 * Z.of_nat k + 1)) with (INR (2 * k + 1)) by (rewrite INR_IZR_INZ; f_equal; lia).
  replace (Q2R (1 # 9)) with ((/3)^2) by (unfold Q2R; cbn; field).
  replace (Q2R (1 # 49)) with ((/7)^2) by (unfold Q2R; cbn; field).
  replace (Q2R (2 # 3)) with (2 * /3) by (unfold Q2R; cbn; field).
  replace (Q2R (1 # 7)) with (/7) by (unfold Q2R; cbn; field).
  field. apply not_0_INR. lia.
Qed.

Lemma qsum_tg k : Q2R (qsum k) = sum_f_R0 (tg_alt PI_2_3_7_tg) k.
Proof.
  induction k as [|k IH]; [apply qterm_tg|]. cbn [qsum sum_f_R0]. rewrite (Qeq_eqR _ _ (Qred_correct _)), Q2R_plus, IH, qterm_tg. reflexivity.
Qed.

Lemma qle_R a b : Qle_bool a b = true -> Q2R a <= Q2R b.
Proof. intros H. apply Qle_Rle, Qle_bool_iff. exact H. Qed.

Definition a_up : R := 204203522483336561 / 10000000000000000.
Definition a_low : R := 2552544031041707 / 125000000000000.

Lemma pi_bounds : a_low <= 13 * PI / 2 <= a_up.
Proof.
  destruct (PI_2_3_7_ineq 10) as (H1 & H2). rewrite <- qsum_tg in H1, H2.
  assert (L : Q2R ((2552544031041707 # 125000000000000) * (2 # 52)) <= Q2R (qsum (S (2 * 10)))) by (apply qle_R; vm_compute; reflexivity).
  assert (U : Q2R (qsum (2 * 10)) <= Q2R ((204203522483336561 # 10000000000000000) * (2 # 52))) by (apply qle_R; vm_compute; reflexivity).
  rewrite Q2R_mult in L, U.
  replace (Q2R (2 # 52)) with (/26) in L, U by (unfold Q2R; cbn; field).
  replace (Q2R (2552544031041707 # 125000000000000)) with a_low in L by (unfold Q2R, a_low; cbn -[IZR]; reflexivity).
  replace (Q2R (204203522483336561 # 10000000000000000)) with a_up in U by (unfold Q2R, a_up; cbn -[IZR]; reflexivity).
  split; lra.
Qed.

(** ** Polynomial bounds for cos *)

Lemma INR_fact k : INR (fact (S k)) = INR (S k) * INR (fact k).
Proof. rewrite <- mult_INR. reflexivity. Qed.

Definition cos_up (s : R) : R := 1 - s^2/2 + s^4/24 - s^6/720 + s^8/40320.
Definition cos_low (s : R) : R := 1 - s^2/2 + s^4/24 - s^6/720 + s^8/40320 - s^10/3628800.

Ltac facts := repeat rewrite INR_fact; replace (INR (fact 0)) with 1 by reflexivity;
  repeat match goal with |- context [INR (S ?k)] => rewrite (INR_IZR_INZ (S k)); let z := eval compute in (Z.of_nat (S k)) in change (Z.of_nat (S k)) with z end.

Lemma cos_below s : -2 <= s <= 2 -> cos s <= cos_up s.
Proof.
  intros (H1 & H2). destruct (pre_cos_bound s 1 H1 H2) as (_ & H). eapply Rle_trans; [exact H|]. right.
  unfold cos_approx, cos_up. cbn [Nat.mul Nat.add sum_f_R0]. unfold cos_term. cbn [Nat.mul Nat.add]. facts. field.
Qed.

Lemma cos_above s : -2 <= s <= 2 -> cos_low s <= cos s.
Proof.
  intros (H1 & H2). destruct (pre_cos_bound s 2 H1 H2) as (H & _). eapply Rle_trans; [|exact H]. right.
  unfold cos_approx, cos_low. cbn [Nat.mul Nat.add sum_f_R0]. unfold cos_term. cbn [Nat.mul Nat.add]. facts. field.
Qed.

(** ** The maximum *)

Definition top : R := 4189828872724339 / 10000000000000.
Definition base : R := 9717066 / 100000000.

Lemma expand_up y : top - (a_up + (base + y))^2 * cos_up (base + y) =
  (458817695558324139905097894068384617439587174933564995943421319582910726658324548353/2500000000000000000000000000000000000000000000000000000000000000000000000000000000000000000000000) + (-4270883685818224046173295974848579084642945020931105696362411633607990426395845459/6250000000000000000000000000000000000000000000000000000000000000000000000000000000000000) * y + y^2 * ((371835260132971164160043564855628597379680845314580698346680494103015855624006021273/1750000000000000000000000000000000000000000000000000000000000000000000000000000000) + (239939715886475651490230279990565180199641315999447454454443177295917879781/17500000000000000000000000000000000000000000000000000000000000000000000000) * y^1 + (-2114820090403733487185189522821252442405023774081221265135716264347/120000000000000000000000000000000000000000000000000000000000000000) * y^2 + (-4132656584351547028950227403808008214294012297001197047359/3000000000000000000000000000000000000000000000000000000000) * y^3 + (206504804948168230095088918376185672625087550149831/360000000000000000000000000000000000000000000000000) * y^4 + (177898678692805842662295869657470645557101/3600000000000000000000000000000000000000000) * y^5 + (-5673319228795688291851423142758103/576000000000000000000000000000000000) * y^6 + (-209062055483336561/201600000000000000000) * y^7 + (-1/40320) * y^8).
Proof. unfold top, base, cos_up, a_up. field. Qed.

Lemma expand_low y : top - (a_low + (base + y))^2 * cos_low (base + y) =
  (13420149785007671773181249279804931650056104233794887765091328186465102578749678394136558153887521/68359375000000000000000000000000000000000000000000000000000000000000000000000000000000000000000000000000000000) + (-93425458039816417198283117482267515324747369388311079773552358834902655693190563877240389105363/136718750000000000000000000000000000000000000000000000000000000000000000000000000000000000000000000000) * y + y^2 * ((1161985187915762272306742616221831139058968336081726988020328803798634911861259106999478797160401/5468750000000000000000000000000000000000000000000000000000000000000000000000000000000000000000) + (187452903051932766559602686443537145857792138557609459407042854923539159597875048538999/13671875000000000000000000000000000000000000000000000000000000000000000000000000000000) * y^1 + (-57827111779321645651270242282951751909199046951235656787423365887272263295089137/3281250000000000000000000000000000000000000000000000000000000000000000000000000) * y^2 + (-226004615078177470256584607321999312885092002769456712063752998447502967/164062500000000000000000000000000000000000000000000000000000000000000000) * y^3 + (322664993358511088082154257492344581583334217472925373159540643/562500000000000000000000000000000000000000000000000000000000000) * y^4 + (973139036298008226109049414327658310676911217324355671/19687500000000000000000000000000000000000000000000000000) * y^5 + (-30866759078065245558017224042648248571537539439/3150000000000000000000000000000000000000000000000) * y^6 + (-28962787810642007697118306569055277387/31500000000000000000000000000000000000000) * y^7 + (5801057301840187262274278473849/56700000000000000000000000000000000) * y^8 + (2625422026041707/226800000000000000000) * y^9 + (1/3628800) * y^10).
Proof. unfold top, base, cos_low, a_low. field. Qed.

Lemma pow_abs_bound y c k : Rabs y <= c -> - c ^ k <= y ^ k <= c ^ k.
Proof.
  intros H. assert (Rabs (y ^ k) <= c ^ k).
  { rewrite <- RPow_abs. apply pow_incr. split; [apply Rabs_pos|exact H]. }
  unfold Rabs in H0. destruct (Rcase_abs _); lra.
Qed.

Lemma core_up s : 0 <= s <= 62/100 -> (a_up + s)^2 * cos_up s <= top.
Proof.
  intros S. replace s with (base + (s - base)) by ring. set (y := s - base).
  assert (Y : Rabs y <= 53/100).
  { unfold y, base. apply Rabs_le. lra. }
  pose proof (expand_up y) as E.
  match type of E with _ = _ + _ + y^2 * ?q => assert (Q : 200 <= q) end.
  { pose proof (pow_abs_bound y _ 1 Y). pose proof (pow_abs_bound y _ 2 Y). pose proof (pow_abs_bound y _ 3 Y).
    pose proof (pow_abs_bound y _ 4 Y). pose proof (pow_abs_bound y _ 5 Y). pose proof (pow_abs_bound y _ 6 Y).
    pose proof (pow_abs_bound y _ 7 Y). pose proof (pow_abs_bound y _ 8 Y). lra. }
  match type of E with _ = _ + _ + y^2 * ?q => set (p := q) in * end.
  assert (0 <= y^2) by (rewrite <- Rsqr_pow2; apply Rle_0_sqr).
  assert (y^2 * 200 <= y^2 * p) by (apply Rmult_le_compat_l; assumption).
  assert (0 <= (y - 1/100000000)^2) by (rewrite <- Rsqr_pow2; apply Rle_0_sqr).
  nra.
Qed.

Lemma core_low s : base - 1/100000000 <= s <= base + 1/100000000 -> top - 23/100000000000000 <= (a_low + s)^2 * cos_low s.
Proof.
  intros S. replace s with (base + (s - base)) by ring. set (y := s - base).
  assert (Y : Rabs y <= 1/100000000).
  { unfold y. apply Rabs_le. lra. }
  assert (Y1 : - (1/100000000) <= y <= 1/100000000) by (unfold y; lra).
  pose proof (expand_low y) as E.
  match type of E with _ = _ + _ + y^2 * ?q => assert (Q : 0 <= q <= 220) end.
  { pose proof (pow_abs_bound y _ 1 Y). pose proof (pow_abs_bound y _ 2 Y). pose proof (pow_abs_bound y _ 3 Y).
    pose proof (pow_abs_bound y _ 4 Y). pose proof (pow_abs_bound y _ 5 Y). pose proof (pow_abs_bound y _ 6 Y).
    pose proof (pow_abs_bound y _ 7 Y). pose proof (pow_abs_bound y _ 8 Y). pose proof (pow_abs_bound y _ 9 Y).
    pose proof (pow_abs_bound y _ 10 Y). split; lra. }
  match type of E with _ = _ + _ + y^2 * ?q => set (p := q) in * end.
  pose proof (pow_abs_bound y _ 2 Y) as (_ & Y2).
  assert (0 <= y^2) by (rewrite <- Rsqr_pow2; apply Rle_0_sqr).
  assert (y^2 * p <= y^2 * 220) by (apply Rmult_le_compat_l; lra).
  lra.
Qed.

Lemma sin_shift t : sin t = cos (t - 13 * PI / 2).
Proof.
  replace t with ((t - 13 * PI / 2) + PI / 2 + 2 * INR 3 * PI) at 1 by (cbn; field).
  rewrite sin_period, sin_plus, cos_PI2, sin_PI2. ring.
Qed.

Definition excess1 (u : R) : R := if Rlt_dec 0 (Rabs u - 500) then (Rabs u - 500) * (Rabs u - 500) else 0.

Lemma excess1_nonneg u : 0 <= excess1 u.
Proof. unfold excess1. destruct (Rlt_dec _ _); [apply Rle_0_sqr|lra]. Qed.

Lemma term_abs u : u * sin (sqrt (Rabs u)) <= Rabs u.
Proof.
  pose proof (SIN_bound (sqrt (Rabs u))) as (H1 & H2). unfold Rabs at 2. destruct (Rcase_abs u); nra.
Qed.

Lemma sqrt_bounds v lo hi : 0 <= lo -> 0 <= hi -> lo * lo <= v <= hi * hi -> lo <= sqrt v <= hi.
Proof.
  intros L H (H1 & H2). split.
  - rewrite <- (sqrt_square lo L). apply sqrt_le_1_alt. exact H1.
  - rewrite <- (sqrt_square hi H). apply sqrt_le_1_alt. exact H2.
Qed.

(** No coordinate contributes more than the constant of the code. *)
Lemma term_le u : u * sin (sqrt (Rabs u)) <= top + excess1 u.
Proof.
  pose proof (term_abs u) as A. pose proof (excess1_nonneg u) as X. pose proof pi_bounds as (PL & PU).
  unfold a_low, a_up in *.
  destruct (Rle_dec (Rabs u) 418) as [H|H]; [unfold top; lra|].
  destruct (Rle_dec 510 (Rabs u)) as [K|K].
  { unfold excess1. destruct (Rlt_dec _ _) as [L|L]; [|lra]. unfold top. nra. }
  set (e := excess1 u) in *. clearbody e.
  assert (T : 2044/100 <= sqrt (Rabs u) <= 2259/100) by (apply sqrt_bounds; lra).
  assert (T2 : sqrt (Rabs u) * sqrt (Rabs u) = Rabs u) by (apply sqrt_sqrt, Rabs_pos).
  set (t := sqrt (Rabs u)) in *. rewrite sin_shift. set (s := t - 13 * PI / 2).
  assert (S : 1/100 <= s <= 218/100) by (unfold s; lra).
  destruct (Rle_dec 0 u) as [U|U].
  - rewrite (Rabs_pos_eq u U) in *. destruct (Rle_dec s (62/100)) as [S1|S1].
    + pose proof (cos_below s ltac:(lra)) as C. pose proof (core_up s ltac:(lra)) as Q. unfold a_up in Q.
      rewrite <- T2. replace t with (13 * PI / 2 + s) by (unfold s; ring).
      assert (0 <= cos_up s).
      { assert (s^2 <= 1). { assert (s * s <= 1) by nra. cbn. lra. }
        unfold cos_up. assert (0 <= s^4) by (apply pow_le; lra). assert (0 <= s^8) by (apply pow_le; lra).
        assert (s^6 <= 1). { replace (s^6) with (s^2 * s^2 * s^2) by ring. assert (0 <= s^2) by (apply pow_le; lra).
          assert (s^2 * s^2 <= 1) by nra. nra. }
        lra. }
      assert ((13 * PI / 2 + s) * (13 * PI / 2 + s) <= (204203522483336561 / 10000000000000000 + s)^2).
      { cbn. rewrite Rmult_1_r. apply Rmult_le_compat; lra. }
      assert (0 <= (13 * PI / 2 + s) * (13 * PI / 2 + s)) by apply Rle_0_sqr.
      apply Rle_trans with ((13 * PI / 2 + s) * (13 * PI / 2 + s) * cos_up s); [apply Rmult_le_compat_l; assumption|].
      eapply Rle_trans; [apply Rmult_le_compat_r; [assumption|eassumption]|]. lra.
    + assert (cos s <= cos (62/100)).
      { apply cos_decr_1; lra. }
      pose proof (cos_below (62/100) ltac:(lra)) as C. unfold cos_up in C. unfold top. nra.
  - assert (cos s >= - (62/100)).
    { destruct (Rle_dec s (PI/2)) as [Q|Q].
      - assert (0 <= cos s) by (apply cos_ge_0; lra). lra.
      - replace s with ((s - PI/2) + PI/2) by ring. rewrite cos_plus, cos_PI2, sin_PI2.
        assert (sin (s - PI/2) < s - PI/2) by (apply sin_lt_x; lra). lra. }
    rewrite (Rabs_left u) in * by lra. unfold top. nra.
Qed.

(** The reported point attains it up to 2.3e-13. *)
Lemma term_ge u : 42096874621/100000000 <= u <= 42096874637/100000000 ->
  top - 23/100000000000000 <= u * sin (sqrt (Rabs u)).
Proof.
  intros U. rewrite (Rabs_pos_eq u) by lra. pose proof pi_bounds as (PL & PU).
  assert (T2 : sqrt u * sqrt u = u) by (apply sqrt_sqrt; lra).
  assert (T : a_low + base - 99/10000000000 <= sqrt u <= a_low + base + 99/10000000000).
  { apply sqrt_bounds; unfold a_low, base; lra. }
  set (t := sqrt u) in *. rewrite sin_shift. set (s := t - 13 * PI / 2).
  assert (S : base - 1/100000000 <= s <= base + 1/100000000).
  { unfold s. unfold a_low, a_up, base in *. lra. }
  pose proof (core_low s S) as Q. eapply Rle_trans; [exact Q|].
  assert (B : 9/100 <= s <= 1/10) by (unfold base in S; lra).
  pose proof (cos_above s ltac:(lra)) as C.
  assert (0 <= cos_low s).
  { unfold cos_low. assert (s^2 <= 1) by (replace (s^2) with (s * s) by ring; nra).
    assert (0 <= s^4) by (apply pow_le; lra). assert (0 <= s^8) by (apply pow_le; lra).
    assert (s^6 <= 1). { replace 1 with (1^6) by ring. apply pow_incr. lra. }
    assert (s^10 <= 1). { replace 1 with (1^10) by ring. apply pow_incr. lra. } lra. }
  rewrite <- T2. replace t with (13 * PI / 2 + s) by (unfold s; ring).
  assert ((a_low + s)^2 <= (13 * PI / 2 + s) * (13 * PI / 2 + s)).
  { cbn. rewrite Rmult_1_r. unfold a_low in *. apply Rmult_le_compat; lra. }
  apply Rle_trans with ((13 * PI / 2 + s) * (13 * PI / 2 + s) * cos_low s).
  - apply Rmult_le_compat_r; assumption.
  - apply Rmult_le_compat_l; [apply Rle_0_sqr|exact C].
Qed.
