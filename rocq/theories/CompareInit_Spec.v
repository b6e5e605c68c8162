From Coq Require Import List Arith QArith Qcanon.
From Verif Require Import Err Num Ext CompareInit_Model.
Import ListNotations.

(** The set an argument stands for: itself, or the input or the output of a
    discretization. *)
Inductive stands_for : bool -> cobj -> mset -> Prop :=
| stands_set inputs s : stands_for inputs (CSet s) s
| stands_input i out : stands_for true (CDisc i out) i
| stands_output i o : stands_for false (CDisc i (Some o)) o.
(** Usable argument: stands for an instance of sample_set. *)
Definition usable (inputs : bool) (o : cobj) (s : mset) : Prop := stands_for inputs o s /\ is_sample_set s = true.
(** The measure asked for. *)
Definition measure (init : bool) (s : mset) : points -> result (list xnum) := if init then mpdf_init s else mpdf s.
(** n is the number of points at which both densities are zero. *)
Definition counts_common_zeros (p q : list xnum) (n : nat) : Prop :=
  exists idx, NoDup idx /\ length idx = n /\
    forall k, In k idx <-> nth_error p k = Some (Fin 0%Qc) /\ nth_error q k = Some (Fin 0%Qc).
