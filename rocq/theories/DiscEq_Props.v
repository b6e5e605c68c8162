(** C121: equality of discretizations. *)
From Coq Require Import List Arith QArith Qcanon Lia.
From Verif Require Import Err Num Ext Equality_Model Equality_Spec DiscEq_Model DiscEq_Spec DiscEq_Proofs DiscEq_Examples.
Import ListNotations.
Local Open Scope nat_scope.

Theorem disc_copy_equal_partial : forall fresh d, plain_disc d -> disc_eq d (copy_disc fresh d) = Ok true.
Proof. exact copy_equal_lemma. Qed.
Print Assumptions disc_copy_equal_partial.
Example disc_copy_equal_ex : plain_disc disc_a.
Proof.
  split.
  - intros s [H|[H|H]]; [injection H as <- | injection H as <- | cbn in H; intuition discriminate]; (constructor; [exact I | constructor; [|constructor]]); intros r x [<-|[]] [<-|[<-|[]]]; discriminate.
  - intros p H. cbn in H. intuition (subst; exact I).
Qed.
Theorem disc_equality_detects_partial : forall d e, same_layout d e -> disc_eq d e = Ok true -> same_disc d e.
Proof. exact detects_lemma. Qed.
Print Assumptions disc_equality_detects_partial.
Theorem disc_equality_decides_partial : forall d e, same_layout d e -> plain_disc d -> (disc_eq d e = Ok true <-> same_disc d e).
Proof. exact decides_lemma. Qed.
Print Assumptions disc_equality_decides_partial.
Example disc_equality_detects_ex : same_layout disc_a disc_a /\ disc_eq disc_a disc_a = Ok true.
Proof.
  split; [|reflexivity]. split; [|repeat constructor]. unfold disc_a, small_set. cbn.
  repeat (constructor; [repeat split; repeat constructor; intros r [<-|[]]; reflexivity|]). repeat constructor.
Qed.
(** A set that only one of them has, or sets of different classes: never equal, and
    TypeError instead of False if nothing before differs. *)
Theorem disc_equality_kinds_refuted : forall d e i, sets_differ_in_kind d e i ->
  disc_eq d e <> Ok true /\
  ((forall j x y, j < i -> nth_error (sets d) j = Some x -> nth_error (sets e) j = Some y -> eset_eq x y = Ok true) -> disc_eq d e = Raise PyTypeError).
Proof. exact missing_lemma. Qed.
Print Assumptions disc_equality_kinds_refuted.
Example disc_equality_kinds_ex : sets_differ_in_kind disc_a disc_b 5 /\ disc_eq disc_a disc_b = Raise PyTypeError.
Proof. split; [exact I | reflexivity]. Qed.
(** A pointer that is a list passes for equal to any array of its length. *)
Theorem disc_equality_list_array_refuted : forall a b, length (mrows a) = length (mrows b) -> ptr_eq (PtrList a) (PtrArr b) = Ok true.
Proof. exact list_array_lemma. Qed.
Print Assumptions disc_equality_list_array_refuted.
Example disc_equality_list_array_ex : disc_eq (mk_edisc [None] [PtrList (mk_marr [[Fin 0]; [Fin 1]]%Qc 1)]) (mk_edisc [None] [PtrArr (mk_marr [[Fin 1]; [Fin 0]]%Qc 1)]) = Ok true.
Proof. reflexivity. Qed.
(** A discretization with a list as pointer cannot even be compared with itself. *)
Theorem disc_equality_lists_refuted : forall d i l, all_eq eset_eq (sets d) (sets d) = Ok true -> nth_error (ptrs d) i = Some (PtrList l) ->
  (forall j p, j < i -> nth_error (ptrs d) j = Some p -> ptr_eq p p = Ok true) -> disc_eq d d = Raise PyAttributeError.
Proof. exact list_lemma. Qed.
Print Assumptions disc_equality_lists_refuted.
Example disc_equality_lists_ex : disc_eq (mk_edisc (sets disc_a) (PtrNone :: PtrList (mk_marr [[Fin 0]; [Fin 1]]%Qc 1) :: repeat PtrNone 4)) (mk_edisc (sets disc_a) (PtrNone :: PtrList (mk_marr [[Fin 0]; [Fin 1]]%Qc 1) :: repeat PtrNone 4)) = Raise PyAttributeError.
Proof. reflexivity. Qed.
