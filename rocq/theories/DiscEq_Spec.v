From Coq Require Import List Arith.
From Verif Require Import Err Ext Equality_Model Equality_Spec DiscEq_Model.
Import ListNotations.

(** Six sets and six pointers. *)
Definition whole (d : edisc) : Prop := length (sets d) = 6 /\ length (ptrs d) = 6.
(** The same sets are present, with the same classes, and their fields can be
    compared; pointers that are arrays on both sides have the same shape, and a
    pointer only one of them has is not empty. *)
Definition same_layout (d e : edisc) : Prop :=
  Forall2 (fun x y => match x, y with
                      | None, None => True
                      | Some s, Some t => cls s = cls t /\ length (flds s) = length (flds t) /\ Forall2 comparable (flds s) (flds t)
                      | _, _ => False end) (sets d) (sets e) /\
  Forall2 (fun x y => match x, y with
                      | PtrNone, PtrNone | PtrNone, PtrList _ => True
                      | PtrArr a, PtrNone | PtrNone, PtrArr a => has_entries a
                      | PtrArr a, PtrArr b => rectangular a /\ rectangular b /\ same_shape a b
                      | _, _ => False end) (ptrs d) (ptrs e).
(** The discretizations hold the same sets and pointers. *)
Definition same_disc (d e : edisc) : Prop :=
  Forall2 (fun x y => match x, y with
                      | None, None => True
                      | Some s, Some t => cls s = cls t /\ Forall2 same_field (flds s) (flds t)
                      | _, _ => False end) (sets d) (sets e) /\
  Forall2 (fun x y => match x, y with
                      | PtrArr a, PtrArr b => mrows a = mrows b
                      | _, _ => x = y end) (ptrs d) (ptrs e).
(** Sets without nan and without objects compared by identity; pointers are arrays. *)
Definition plain_disc (d : edisc) : Prop :=
  (forall s, In (Some s) (sets d) -> Forall plain_field (flds s)) /\
  (forall p, In p (ptrs d) -> match p with PtrArr a => no_nan a | PtrNone => True | PtrList _ => False end).
(** One of the two lacks the i-th set, or the two sets have different classes. *)
Definition sets_differ_in_kind (d e : edisc) (i : nat) : Prop :=
  match nth_error (sets d) i, nth_error (sets e) i with
  | Some None, Some (Some _) | Some (Some _), Some None => True
  | Some (Some s), Some (Some t) => cls s <> cls t
  | _, _ => False
  end.
