From Coq Require Import List Arith QArith Qcanon.
From Verif Require Import Num Normalize_Model.
Import ListNotations.
Local Open Scope nat_scope.

(** What a user sees in a field: its rows, or nothing. *)
Definition contents (s : nset) (f : fld) : option (list vec) := option_map (read (mem s)) (fields s f).

(** No two fields share memory, and every buffer is allocated. *)
Definition separate (s : nset) : Prop :=
  (forall f g r q, f <> g -> fields s f = Some r -> fields s g = Some q -> buf r <> buf q) /\
  (forall f r, fields s f = Some r -> buf r < next s).

(** Every vector has as many entries as the domain has intervals. *)
Definition well_shaped (s : nset) (d : list (Qc * Qc)) : Prop :=
  forall f l v, contents s f = Some l -> In v l -> length v = length d.

Definition nondegenerate (d : list (Qc * Qc)) : Prop := Forall (fun p => fst p < snd p)%Qc d.

(** Coordinates relative to the box: (v_i - a_i) / (b_i - a_i). *)
Definition unit_coordinates (d : list (Qc * Qc)) (v w : vec) : Prop :=
  length v = length d /\ length w = length d /\
  forall i a b x y, nth_error d i = Some (a, b) -> nth_error v i = Some x -> nth_error w i = Some y ->
    (y * (b - a) = x - a)%Qc.
(** Scaling of a gradient: v_i * (b_i - a_i). *)
Definition scaled_gradient (d : list (Qc * Qc)) (v w : vec) : Prop :=
  length v = length d /\ length w = length d /\
  forall i a b x y, nth_error d i = Some (a, b) -> nth_error v i = Some x -> nth_error w i = Some y ->
    (y = x * (b - a))%Qc.

Definition is_gradient (f : fld) : bool := match f with Jac | JacL => true | _ => false end.
