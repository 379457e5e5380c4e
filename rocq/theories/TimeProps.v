(** Theorems about ascetime (C99). *)
From Coq Require Import String List NArith ZArith Reals Lra Lia Ascii Bool.
From Flocq Require Import Core BinarySingleNaN.
From Verif Require Import CBase IdModel IdSpec IdProofs DblModel DblSpec DblProofs TimeModel TimeSpec TimeProofs.
Import ListNotations.
Local Open Scope R_scope.

(** The printed time is at most a second (and a millionth) too small and at most a millionth of a second too large. *)
Theorem C99_error : forall sec, fin sec -> 0 <= val sec <= 4294967296 -> exists h m s t,
  ascetime sec = Some t /\ clock_text h m s t /\ (0 <= h)%Z /\ (0 <= m <= 59)%Z /\ (0 <= s <= 59)%Z /\
  - / 1000000 < val sec - IZR (3600 * h + 60 * m + s) < 1 + / 1000000.
Proof.
  intros sec F [P B]. destruct (fields_ok sec F P) as (h & m & s & E & H & M & S & K). specialize (K B).
  assert (HB : (h < 2 ^ 60)%Z).
  { apply lt_IZR. change (IZR (2 ^ 60)) with 1152921504606846976. rewrite !plus_IZR, !mult_IZR in K.
    assert (0 <= IZR h /\ 0 <= IZR m /\ 0 <= IZR s) by (repeat split; apply IZR_le; lia). lra. }
  exists h, m, s. eexists. split; [|split; [|auto]].
  - unfold ascetime. replace (is_finite sec && negb (dlt sec dzero)) with true; [rewrite E; reflexivity|].
    symmetry. apply andb_true_intro. split; [exact F|]. apply negb_true_iff. apply dlt_false; [apply fin_num; exact F|reflexivity|]. exact P.
  - exists (print_lu 0 (Z.to_N h)), (print_lu 2 (Z.to_N m)), (print_lu 2 (Z.to_N s)).
    split; [apply print_lu_numeral; lia|]. split; [apply print_lu_numeral; lia|]. split; [apply print_lu_numeral; lia|reflexivity].
Qed.

(** For whole numbers of seconds the time is right or one second too small. *)
Theorem C99_whole : forall z, (0 <= z <= 4294967296)%Z -> exists h m s t,
  ascetime (dint z) = Some t /\ clock_text h m s t /\ (0 <= h)%Z /\ (0 <= m <= 59)%Z /\ (0 <= s <= 59)%Z /\
  (3600 * h + 60 * m + s = z \/ 3600 * h + 60 * m + s = z - 1)%Z.
Proof.
  intros z Hz. destruct (dint_val z ltac:(lia)) as [F V].
  destruct (C99_error (dint z) F) as (h & m & s & t & A & T & H & M & S & K); [rewrite V; split; apply IZR_le; lia|].
  exists h, m, s, t. repeat (split; [assumption|]). rewrite V, <- minus_IZR in K. destruct K as [K1 K2].
  assert (-1 < z - (3600 * h + 60 * m + s))%Z by (apply lt_IZR; lra). assert (z - (3600 * h + 60 * m + s) < 2)%Z by (apply lt_IZR; lra). lia.
Qed.

(** The time of the documentation, 33 minutes and 21 seconds, is printed with 20 seconds. *)
Theorem C99_documentation_refuted : exists z t, z = (33 * 60 + 21)%Z /\ ascetime (dint z) = Some t /\ t <> str "0h33:21" /\ t = str "0h33:20".
Proof. exists 2001%Z, (str "0h33:20"). split; [reflexivity|]. split; [vm_compute; reflexivity|]. split; [discriminate|reflexivity]. Qed.

Example C99_example : map (fun z => option_map string_of_list_ascii (ascetime (dint z))) [0; 12; 13; 60; 3600; 3661; 86399; 90000; -1]%Z =
  [Some "0h00:00"; Some "0h00:12"; Some "0h00:12"; Some "0h01:00"; Some "1h00:00"; Some "1h01:00"; Some "23h59:58"; Some "25h00:00"; None]%string.
Proof. vm_compute. reflexivity. Qed.

Print Assumptions C99_error.
Print Assumptions C99_whole.
Print Assumptions C99_documentation_refuted.
