(** C31: the dominance comparison. *)
From Coq Require Import List ZArith Lia.
Import ListNotations.
From Verif Require Import MoModel MoSpec MoProofs.
Open Scope Z_scope.

(** The four answers, for values counted in any unit and any precision. *)
Theorem C31_answers : forall p a b, 0 < p -> length a = length b ->
  answers p a b (mo_get_dominance p a b).
Proof. exact dominance_answers. Qed.

Theorem C31_swap : forall p a b, 0 < p -> length a = length b ->
  mo_get_dominance p b a = swapped (mo_get_dominance p a b).
Proof. exact dominance_swap. Qed.

(** On vectors whose components are equal or at least the precision apart (rounded normalised
    values are) the comparison is Pareto dominance and equality. *)
Theorem C31_pareto : forall p a b, 0 < p -> everywhere (separated p) a b ->
  (mo_get_dominance p a b = 1 <-> pareto a b) /\
  (mo_get_dominance p a b = -1 <-> pareto b a) /\
  (mo_get_dominance p a b = -2 <-> a = b) /\
  (mo_get_dominance p a b = 0 <-> a <> b /\ ~ pareto a b /\ ~ pareto b a).
Proof. exact dominance_separated. Qed.

Theorem C31_transitive : forall p a b c, 0 < p ->
  everywhere (separated p) a b -> everywhere (separated p) b c -> everywhere (separated p) a c ->
  mo_get_dominance p a b = 1 -> mo_get_dominance p b c = 1 -> mo_get_dominance p a c = 1.
Proof.
  intros p a b c Hp H1 H2 H3 D1 D2.
  apply (dominance_separated p a c Hp H3). apply pareto_trans with b.
  - apply (dominance_separated p a b Hp H1). exact D1.
  - apply (dominance_separated p b c Hp H2). exact D2.
Qed.

Example C31_example :
  everywhere (separated 2) [3; 10; 7] [5; 10; 7] /\ mo_get_dominance 2 [3; 10; 7] [5; 10; 7] = 1 /\
  mo_get_dominance 2 [5; 10; 7] [3; 10; 7] = -1 /\ mo_get_dominance 2 [3; 10; 7] [5; 8; 7] = 0 /\
  mo_get_dominance 2 [3; 10; 7] [3; 10; 7] = -2.
Proof.
  repeat split. unfold everywhere.
  repeat constructor; unfold separated, clearly_less; lia.
Qed.

(** Without separation the answer 'identical' is not transitive and dominance can be cyclic. *)
Theorem C31_identical_refuted : exists a b c,
  mo_get_dominance mo_precision a b = -2 /\ mo_get_dominance mo_precision b c = -2 /\
  mo_get_dominance mo_precision a c = 1.
Proof. exists [0], [1], [2]. vm_compute. auto. Qed.

Theorem C31_cycle_refuted : exists a b c,
  mo_get_dominance mo_precision a b = 1 /\ mo_get_dominance mo_precision b c = 1 /\
  mo_get_dominance mo_precision c a = 1.
Proof.
  exists [0; 0; 0], [-1; 2; -1], [-2; 1; 1]. vm_compute. auto.
Qed.

Print Assumptions C31_answers.
Print Assumptions C31_swap.
Print Assumptions C31_pareto.
Print Assumptions C31_transitive.
Print Assumptions C31_identical_refuted.
Print Assumptions C31_cycle_refuted.
