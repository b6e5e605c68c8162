From Coq Require Import List Arith Reals.
From Verif Require Import Err ChooseQoIs_Spec ChooseQoIs_Examples UniqueVecs_Model UniqueVecs_Spec UniqueVecs_Proofs UniqueVecs_Examples.
Import ListNotations.
Local Open Scope R_scope.

(** C54 *)
Theorem unique_vecs_maximal : forall ord jac o tol qois remove_zeros, set_order ord ->
  (forall i, In i (match qois with Some q => q | None => seq 0 o end) -> (i < o)%nat) ->
  exists kept, find_unique_vecs ord (Some jac) o tol qois remove_zeros = Ok kept /\
    maximal_dissimilar jac tol remove_zeros (match qois with Some q => q | None => seq 0 o end) kept.
Proof. exact unique_lemma. Qed.
Print Assumptions unique_vecs_maximal.
Example unique_vecs_case : set_order set_list /\ find_unique_vecs set_list (Some jac_ex) 4 (1 / 2) None true = Ok [0%nat; 2%nat].
Proof. split; [exact set_list_good | exact unique_ex]. Qed.
