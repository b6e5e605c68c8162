(** C09: equality of a sample set with its copy. *)
From Coq Require Import List Arith QArith Qcanon.
From Verif Require Import Err Num Ext Equality_Model Equality_Spec Equality_Proofs.
Import ListNotations.
Local Open Scope nat_scope.

(** A copy compares equal if no array holds a nan and no field holds an object
    that is compared by identity. *)
Theorem copy_compares_equal_partial : forall fresh s, Forall plain_field s ->
  set_eq s (copy_set fresh s) = Ok true.
Proof. exact copy_equal. Qed.
Print Assumptions copy_compares_equal_partial.
Example copy_compares_equal_partial_ex :
  Forall plain_field [PNone; PArr (mk_marr [[Fin 1; PInf]; [Fin 0; NInf]]%Qc 2); PScalar 4; PMaps [mk_marr [] 0]].
Proof.
  repeat constructor.
  - intros r x [<-|[<-|[]]] [<-|[<-|[]]]; discriminate.
  - intros a [<-|[]] r x [].
Qed.

Theorem copy_compares_equal_refuted : exists s fresh, (forall x, In x s -> forall i, x <> PObject i) /\
  set_eq s (copy_set fresh s) = Ok false.
Proof. exact copy_nan_differs. Qed.
Print Assumptions copy_compares_equal_refuted.

(** A set whose probability parameters hold kernel density objects never equals
    its copy. *)
Theorem copy_with_objects_refuted : forall s fresh i, In (PObject i) s -> (forall j, fresh j <> j) ->
  set_eq s (copy_set fresh s) <> Ok true.
Proof. exact copy_object_differs. Qed.
Print Assumptions copy_with_objects_refuted.
Example copy_with_objects_refuted_ex :
  (forall j, S j <> j) /\ set_eq [PScalar 1; PObject 7] (copy_set S [PScalar 1; PObject 7]) = Ok false.
Proof. split; [intro j; apply Nat.neq_succ_diag_l | reflexivity]. Qed.

(** Between sets whose arrays have the same shapes, equality detects every
    difference; without nan and objects it is exactly equality. *)
Theorem equality_detects_difference_partial : forall s t, length s = length t -> Forall2 comparable s t ->
  set_eq s t = Ok true -> Forall2 same_field s t.
Proof. exact set_eq_detects. Qed.
Print Assumptions equality_detects_difference_partial.
Theorem equality_decides_partial : forall s t, length s = length t -> Forall2 comparable s t -> Forall plain_field s ->
  (set_eq s t = Ok true <-> Forall2 same_field s t).
Proof. exact set_eq_decides. Qed.
Print Assumptions equality_decides_partial.
Example equality_detects_difference_partial_ex :
  let a := mk_marr [[Fin 1%Qc]; [PInf]] 1 in
  rectangular a /\ same_shape a a /\ set_eq [PArr a; PScalar 3] [PArr a; PScalar 3] = Ok true /\
  set_eq [PArr a; PScalar 3] [PArr (mk_marr [[Fin 1%Qc]; [NInf]] 1); PScalar 3] = Ok false.
Proof. repeat split. intros r [<-|[<-|[]]]; reflexivity. Qed.

(** Sets with one and with two (equal) samples compare equal. *)
Theorem equality_detects_difference_refuted : exists s t, length s = length t /\ set_eq s t = Ok true /\
  set_eq t s = Ok true /\ ~ Forall2 same_field s t.
Proof. exact broadcast_witness. Qed.
Print Assumptions equality_detects_difference_refuted.

(** An array in only one of the sets: for two or more entries one direction
    raises, the other is False; an array without entries passes for None. *)
Theorem equality_missing_array_refuted : forall pre pre' x b s t, length pre = length pre' -> set_eq pre pre' = Ok true -> set_eq pre' pre = Ok true -> no_array x ->
  let n := length (mrows b) * width b in
  set_eq (pre ++ x :: s) (pre' ++ PArr b :: t) = (if n =? 0 then set_eq s t else if n =? 1 then Ok false else Raise PyValueError) /\
  set_eq (pre' ++ PArr b :: t) (pre ++ x :: s) = (if n =? 0 then set_eq t s else Ok false).
Proof. exact missing_array_lemma. Qed.
Print Assumptions equality_missing_array_refuted.
(** Further cluster maps on the right are not looked at, on the left they raise. *)
Theorem equality_clusters_refuted : forall l r, (forall a, In a l -> no_nan a) ->
  set_eq [PMaps l] [PMaps (l ++ r)] = Ok true /\ (r <> [] -> set_eq [PMaps (l ++ r)] [PMaps l] = Raise PyIndexError).
Proof. exact clusters_lemma. Qed.
Print Assumptions equality_clusters_refuted.
Example equality_missing_ex : set_eq [PScalar 2; PNone] [PScalar 2; PArr (mk_marr [[Fin 1%Qc; PInf]] 2)] = Raise PyValueError /\
  set_eq [PMaps [mk_marr [[Fin 1%Qc]] 1]] [PMaps [mk_marr [[Fin 0%Qc]] 1]] = Ok false.
Proof. split; reflexivity. Qed.

(** s == t is False while t == s raises ValueError. *)
Theorem equality_symmetric_refuted : exists s t, set_eq s t = Ok false /\ set_eq t s = Raise PyValueError.
Proof. exact asymmetry_witness. Qed.
Print Assumptions equality_symmetric_refuted.

(** The comparison of two arrays is symmetric. *)
Theorem array_difference_symmetric : forall a b, any_ne a b = any_ne b a.
Proof. exact any_ne_sym. Qed.
Print Assumptions array_difference_symmetric.
