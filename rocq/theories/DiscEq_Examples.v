(** Concrete discretizations for the examples of DiscEq_Props.v. *)
From Coq Require Import List Arith QArith Qcanon.
From Verif Require Import Num Ext Equality_Model DiscEq_Model.
Import ListNotations.

Definition none6 : list pointer_field := repeat PtrNone 6.
Definition small_set : eset := mk_eset 0 [PNone; PArr (mk_marr [[Fin 1; Fin 0]]%Qc 2)].
Definition disc_a : edisc := mk_edisc [Some small_set; Some small_set; None; None; None; None] none6.
Definition disc_b : edisc := mk_edisc [Some small_set; Some small_set; None; None; None; Some small_set] none6.
