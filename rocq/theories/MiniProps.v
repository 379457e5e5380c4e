(** Theorems about MiniPrint (C98). *)
From Coq Require Import String List Arith NArith ZArith Ascii Bool Lia.
From Verif Require Import CBase IdModel IdSpec IdProofs MiniModel MiniSpec.
Import ListNotations.
Local Notation length := List.length.
Local Open Scope nat_scope.

Definition state_of (day : N) (st : mini) (past : list call) : Prop :=
  day0 st = day /\ sweeps st = N.of_nat (passes past) /\
  match past with
  | [] => m_dimension st = None /\ m_function st = None /\ calls st = 0
  | b :: _ => m_dimension st = Some (c_dimension b) /\ m_function st = Some (c_function b) /\ last_index st = c_index b /\ calls st = row past
  end.
Definition done_text (n : nat) : cstr := ["010"%char] ++ str "Suite done (" ++ print_lu 0 (N.of_nat n) ++ str ")".
Lemma call_ok : forall day st past c, state_of day st past ->
  snd (mini_call st c) = expected (fun c => stime day (now c)) done_text past c /\ state_of day (fst (mini_call st c)) (c :: past).
Proof.
  intros day st past c (D & S & P).
  assert (SW : (if final c then (sweeps st + 1)%N else sweeps st) = N.of_nat (passes (c :: past))).
  { rewrite S. unfold passes. cbn [filter]. destruct (final c); [cbn [List.length]; lia|reflexivity]. }
  assert (FIN : forall x, x = N.of_nat (passes (c :: past)) -> (if final c then match message c with NoMessage | Message [] => [] | Message t => [Final t]
      | Flag => [Final (["010"%char] ++ str "Suite done (" ++ print_lu 0 x ++ str ")")] end else []) =
    match final c, message c with true, Message (x :: t) => [Final (x :: t)] | true, Flag => [Final (done_text (passes (c :: past)))] | _, _ => [] end).
  { intros x ->. destruct (final c); [|reflexivity]. destruct (message c) as [|[|a t]|]; reflexivity. }
  assert (SY : (if hit c then "|"%char else if restarted c then ":"%char else "."%char) = symbol_of c) by (unfold symbol_of; destruct (hit c), (restarted c); reflexivity).
  unfold mini_call, expected. rewrite SW, SY, (FIN _ eq_refl), D. clear FIN SY.
  destruct past as [|b past].
  - destruct P as (P1 & P2 & P3). rewrite P1, P2. cbn. split; [reflexivity|]. repeat split; assumption || reflexivity.
  - destruct P as (P1 & P2 & P3 & P4). rewrite P1, P2, P3, P4. cbn [is]. set (R := row (b :: past)).
    assert (RR : row (c :: b :: past) = if begins_block (b :: past) c || (begins_function (b :: past) c && (50 <=? R)) then 1 else Datatypes.S R) by reflexivity.
    unfold state_of. rewrite RR. clearbody R. cbn [begins_function]. cbn [begins_block]. destruct (negb (c_dimension b =? c_dimension c)%N || (c_index c <? c_index b)%Z) eqn:NB.
    + rewrite orb_true_r. cbn. repeat split; assumption || reflexivity.
    + rewrite orb_false_r. cbn [orb negb andb]. destruct (negb (c_function b =? c_function c)%N); cbn [andb]; [destruct (50 <=? R)|]; cbn; repeat split; assumption || reflexivity.
Qed.

(** Exactly the expected tokens are written, for all sequences of calls. *)
Theorem C98_output : forall day cs,
  mini_calls (new_mini day) cs = expected_all (fun c => stime day (now c)) (fun n => "010"%char :: str "Suite done (" ++ print_lu 0 (N.of_nat n) ++ str ")") [] cs.
Proof.
  intros day cs. assert (H : state_of day (new_mini day) []) by (repeat split). revert H. generalize (new_mini day), (@nil call).
  induction cs as [|c cs IH]; intros st past H; [reflexivity|]. cbn [mini_calls expected_all]. destruct (call_ok day st past c H) as [A B].
  destruct (mini_call st c) as [st' t]. cbn in A, B. rewrite A. f_equal. apply IH. exact B.
Qed.

(** One symbol for each call, in order. *)
Theorem C98_symbols : forall day cs, filter is_symbol (mini_calls (new_mini day) cs) = map (fun c => Symbol (symbol_of c)) cs.
Proof.
  intros day cs. rewrite C98_output. generalize (@nil call). induction cs as [|c cs IH]; intros past; [reflexivity|].
  cbn [expected_all map]. rewrite filter_app, IH. unfold expected. rewrite !filter_app.
  destruct (begins_block past c), past as [|b past], (begins_function _ c); cbn [filter is_symbol app andb]; try destruct (50 <=? _); cbn [filter is_symbol app];
    destruct (final c); try destruct (message c) as [|[|]|]; reflexivity.
Qed.

(** A row has at most 49 symbols more than a function has calls in a row. *)
Lemma row_bound : forall past, row past <= 49 + same_name past.
Proof.
  induction past as [|c past IH]; cbn [row same_name]; [lia|].
  destruct (begins_block past c) eqn:B; cbn [orb]; [destruct (begins_function past c); lia|].
  destruct (begins_function past c); cbn [andb]; [|lia]. destruct (Nat.leb_spec 50 (row past)); lia.
Qed.
Lemma longest_app : forall ts n us, (forall t, In t ts -> match t with Label _ | Final _ => True | _ => False end) -> longest n (ts ++ us) = longest n us.
Proof. induction ts as [|t ts IH]; intros n us H; [reflexivity|]. pose proof (H t (or_introl eq_refl)). destruct t; try contradiction; cbn; apply IH; intros u U; apply H; right; exact U. Qed.
Theorem C98_rows : forall day cs k, names_up_to k [] cs -> longest 0 (mini_calls (new_mini day) cs) <= 49 + k.
Proof.
  intros day cs k. rewrite C98_output. match goal with |- context [expected_all ?f ?g _ _] => generalize f, g end. intros f g.
  assert (G : forall past, row past <= 49 + k -> names_up_to k past cs -> longest (row past) (expected_all f g past cs) <= 49 + k).
  { induction cs as [|c cs IH]; intros past R H; [exact R|]. destruct H as [H1 H2]. cbn [expected_all].
    assert (B : row (c :: past) <= 49 + k) by (pose proof (row_bound (c :: past)); lia).
    specialize (IH (c :: past) B H2). unfold expected. rewrite <- !app_assoc.
    set (fin := match final c with true => _ | false => _ end). set (rest := expected_all f g (c :: past) cs) in *.
    assert (L : forall n, longest n ((if begins_function past c then [Label (c_function c)] else []) ++ [Symbol (symbol_of c)] ++ fin ++ rest) = longest (S n) rest).
    { intros n. rewrite longest_app by (intros t; destruct (begins_function past c); intros I; destruct I as [<-|[]] || destruct I; exact I).
      cbn [app longest]. apply longest_app. intros t. unfold fin. destruct (final c); [|intros []]. destruct (message c) as [|[|]|]; intros I; try destruct I as [<-|[]]; try destruct I; exact Logic.I. }
    set (tail := (if begins_function past c then [Label (c_function c)] else []) ++ [Symbol (symbol_of c)] ++ fin ++ rest) in *. clearbody tail.
    cbn [row] in IH. destruct (begins_block past c) eqn:BB; cbn [orb] in IH.
    - destruct past as [|b past]; cbn [app longest]; rewrite L; lia.
    - destruct (begins_function past c) eqn:BF; cbn [andb] in *; [destruct (50 <=? row past)|]; cbn [app longest]; rewrite ?L; try lia; exact IH. }
  intros H. apply (G []); [cbn; lia|exact H].
Qed.

(** The texts *)
Theorem C98_texts : forall d f h m s day, (d < 2 ^ 64)%N -> (f < 2 ^ 64)%N -> (h < 24)%N -> (m < 60)%N -> (s < 62)%N -> (1 <= day)%N -> (day <= 31)%N ->
  (forall clock, exists td, numeral 0 d td /\ render (Header d clock) = td ++ str "D " ++ clock ++ ["010"%char]) /\
  (exists tf, numeral 0 f tf /\ render (Label f) = (if (f <? 10)%N then str " f" else str "f") ++ tf) /\
  (exists th tm ts, numeral 0 h th /\ numeral 2 m tm /\ numeral 2 s ts /\
     let t := th ++ str "h" ++ tm ++ str ":" ++ ts in
     stime day (day, h, m, s) = t /\
     (* later in the same month *)
     forall n, (1 <= n)%N -> (day + n <= 31)%N -> exists tn, numeral 0 n tn /\ stime day ((day + n)%N, h, m, s) = t ++ str "+" ++ tn ++ str "d").
Proof.
  intros d f h m s day Hd Hf Hh Hm Hs H1 H31. split; [|split].
  - intros clock. exists (print_lu 0 d). split; [apply print_lu_numeral; exact Hd|reflexivity].
  - exists (print_lu 0 f). split; [apply print_lu_numeral; exact Hf|]. cbn [render]. destruct (f <? 10)%N; reflexivity.
  - exists (print_lu 0 h), (print_lu 2 m), (print_lu 2 s). split; [apply print_lu_numeral; lia|]. split; [apply print_lu_numeral; lia|]. split; [apply print_lu_numeral; lia|].
    cbv zeta. unfold stime. rewrite N.ltb_irrefl. split; [reflexivity|]. intros n N1 N2. exists (print_lu 0 n). split; [apply print_lu_numeral; lia|].
    replace (day <? day + n)%N with true by (symmetry; apply N.ltb_lt; lia). replace (day + n - day)%N with n by lia. rewrite <- !app_assoc. reflexivity.
Qed.

(** On the first day of the next month the number of days is missing, and days of a later month are counted from the day of the start. *)
Theorem C98_next_month_refuted : exists day h m s,
  stime day (1%N, h, m, s) = str "9h05:00" /\ (day = 31)%N /\ stime 30 (31%N, h, m, s) = str "9h05:00+1d".
Proof. exists 31%N, 9%N, 5%N, 0%N. repeat split; reflexivity. Qed.

Definition a_call (i : Z) (d f : N) (h r : bool) (e : final_message) : call :=
  {| c_index := i; c_dimension := d; c_function := f; hit := h; restarted := r;
     final := match e with NoMessage => false | _ => true end; message := e; now := (3, 10, 2, 7)%N |}.
Example C98_example :
  let cs := [a_call 0 2 1 false false NoMessage; a_call 1 2 1 true false NoMessage; a_call 2 2 12 false true NoMessage; a_call 3 3 12 false false Flag;
             a_call 3 3 12 false true NoMessage; a_call 0 3 12 true false Flag] in
  string_of_list_ascii (concat (map render (mini_calls (new_mini 3) cs))) =
"2D 10h02:07
 f1.|f12:
3D 10h02:07
f12.
Suite done (1)
:
3D 10h02:07
f12|
Suite done (2)
"%string /\ names_up_to 2 [] cs.
Proof. split; [vm_compute; reflexivity|]. cbn. repeat split; lia. Qed.
Example C98_rows_example :
  let cs := map (fun i => a_call (Z.of_nat i) 2 (N.of_nat (i / 15)) false false NoMessage) (seq 0 150) in
  names_up_to 15 [] cs /\ longest 0 (mini_calls (new_mini 3) cs) = 60.
Proof. split; [vm_compute; repeat split; repeat constructor|vm_compute; reflexivity]. Qed.

Print Assumptions C98_output.
Print Assumptions C98_symbols.
Print Assumptions C98_rows.
Print Assumptions C98_texts.
Print Assumptions C98_next_month_refuted.
