(** Common ground for the models: outcomes, characters, C strings, checked memory. *)
From Coq Require Import List Arith NArith ZArith Ascii String Bool Lia.
Import ListNotations.

(** Outcome of a C function.  [Err] is a call of coco_error (src/coco_runtime_c.c: prints and
    calls exit), [UB] is undefined behaviour (access outside an object, NULL dereference, use of
    indeterminate memory, failed assert is also counted here). *)
Inductive res (A : Type) : Type :=
| Ok (a : A)
| Err
| UB.
Arguments Ok {A} a.
Arguments Err {A}.
Arguments UB {A}.

Definition bind {A B : Type} (r : res A) (f : A -> res B) : res B :=
  match r with Ok a => f a | Err => Err | UB => UB end.

Notation "'do' x <- r ; k" := (bind r (fun x => k))
  (at level 200, x pattern, r at level 100, k at level 200).

(** C strings: the characters before the terminating NUL. *)
Definition cstr := list ascii.
Definition NUL : ascii := "000"%char.
Definition str (s : string) : cstr := list_ascii_of_string s.

(** A list of characters that can be the content of a C string. *)
Definition no_nul (s : cstr) : Prop := ~ In NUL s.

(** Character classes of the C locale (ctype.h), argument converted to unsigned char. *)
Definition code (c : ascii) : nat := nat_of_ascii c.
Definition isspace (c : ascii) : bool :=
  ((9 <=? code c) && (code c <=? 13)) || (code c =? 32).
Definition isdigit (c : ascii) : bool := (48 <=? code c) && (code c <=? 57).
Definition isalpha (c : ascii) : bool :=
  ((65 <=? code c) && (code c <=? 90)) || ((97 <=? code c) && (code c <=? 122)).

(** Bytes that are negative as a (signed) char. *)
Definition high_char (c : ascii) : bool := 128 <=? code c.

Arguments code _ : simpl never.
Arguments high_char _ : simpl never.
Arguments isspace _ : simpl never.
Arguments isdigit _ : simpl never.
Arguments isalpha _ : simpl never.

(** Reading character i of a NUL-terminated string: position [length s] holds the NUL, anything
    beyond is outside the object. *)
Definition cget (s : cstr) (i : nat) : res ascii :=
  match nth_error s i with
  | Some c => Ok c
  | None => if i =? List.length s then Ok NUL else UB
  end.

(** Checked memory of a fixed size. *)
Definition mget {A} (b : list A) (i : nat) : res A :=
  match nth_error b i with Some c => Ok c | None => UB end.

Fixpoint upd {A} (b : list A) (i : nat) (v : A) : list A :=
  match b, i with
  | [], _ => []
  | _ :: t, O => v :: t
  | h :: t, S j => h :: upd t j v
  end.

Definition mset {A} (b : list A) (i : nat) (v : A) : res (list A) :=
  if i <? List.length b then Ok (upd b i v) else UB.

(** The C string held by a character buffer: everything before the first NUL. *)
Fixpoint cstr_of (b : list ascii) : cstr :=
  match b with
  | [] => []
  | c :: t => if Ascii.eqb c NUL then [] else c :: cstr_of t
  end.

Fixpoint list_eqb {A} (eqb : A -> A -> bool) (l1 l2 : list A) : bool :=
  match l1, l2 with
  | [], [] => true
  | a :: t1, b :: t2 => eqb a b && list_eqb eqb t1 t2
  | _, _ => false
  end.

(** strcmp(s1, s2) == 0 *)
Definition streq (s1 s2 : cstr) : bool := list_eqb Ascii.eqb s1 s2.

(** Generic facts used everywhere. *)
Lemma bind_Ok : forall A B (r : res A) (f : A -> res B) b,
  bind r f = Ok b -> exists a, r = Ok a /\ f a = Ok b.
Proof. intros A B [a| |] f b H; simpl in H; try discriminate; eauto. Qed.

Lemma upd_length : forall A (b : list A) i v, List.length (upd b i v) = List.length b.
Proof. induction b; destruct i; simpl; intros; auto. Qed.

Lemma nth_error_upd_same : forall A (b : list A) i v,
  i < List.length b -> nth_error (upd b i v) i = Some v.
Proof.
  induction b; simpl; intros i v H; [lia|].
  destruct i; simpl; auto. apply IHb; lia.
Qed.

Lemma nth_error_upd_other : forall A (b : list A) i j v,
  i <> j -> nth_error (upd b i v) j = nth_error b j.
Proof.
  induction b; simpl; intros i j v H; [destruct i; auto|].
  destruct i, j; simpl; auto; try lia.
Qed.

Lemma upd_app_middle : forall A (p : list A) x q v,
  upd (p ++ x :: q) (List.length p) v = p ++ v :: q.
Proof. induction p; simpl; intros; auto. f_equal; auto. Qed.

Lemma nth_error_app_middle : forall A (p : list A) x q,
  nth_error (p ++ x :: q) (List.length p) = Some x.
Proof. induction p; simpl; auto. Qed.

Lemma mset_app_middle : forall A (p : list A) x q v,
  mset (p ++ x :: q) (List.length p) v = Ok (p ++ v :: q).
Proof.
  intros. unfold mset.
  destruct (Nat.ltb_spec (List.length p) (List.length (p ++ x :: q))).
  - rewrite upd_app_middle. reflexivity.
  - rewrite app_length in H. simpl in H. lia.
Qed.

Lemma cget_in : forall s i c, nth_error s i = Some c -> cget s i = Ok c.
Proof. intros. unfold cget. rewrite H. reflexivity. Qed.

Lemma cget_end : forall s, cget s (List.length s) = Ok NUL.
Proof.
  intros. unfold cget.
  replace (nth_error s (List.length s)) with (@None ascii)
    by (symmetry; apply nth_error_None; lia).
  rewrite Nat.eqb_refl. reflexivity.
Qed.

Lemma streq_spec : forall s1 s2, streq s1 s2 = true <-> s1 = s2.
Proof.
  unfold streq.
  induction s1 as [|a s1 IH]; destruct s2 as [|b s2]; simpl; split; intros H; try easy.
  - apply andb_true_iff in H as [H1 H2]. apply Ascii.eqb_eq in H1. apply IH in H2. congruence.
  - injection H as -> ->. rewrite Ascii.eqb_refl. simpl. now apply IH.
Qed.

Lemma cstr_of_app_nul : forall s t, no_nul s -> cstr_of (s ++ NUL :: t) = s.
Proof.
  induction s as [|c s IH]; simpl; intros t H; auto.
  destruct (Ascii.eqb_spec c NUL).
  - exfalso. apply H. left. auto.
  - f_equal. apply IH. intro K. apply H. right. auto.
Qed.
