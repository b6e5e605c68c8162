From Coq Require Import List Arith.
From Verif Require Import Err SampleSet_Model Extend_Model.
Import ListNotations.
Local Open Scope nat_scope.

Definition part_eqb (p q : part) : bool := match p, q with PValues, PValues | PJacobians, PJacobians | PErrors, PErrors => true | _, _ => false end.
(** The stored arrays *)
Definition array_of (p : part) : attr := match p with PValues => Values | PJacobians => Jacobians | PErrors => ErrorEstimates end.
(** All rows appended to one array, in order *)
Definition given_to {R} (p : part) (l : list (part * arr R)) : list R := concat (map (fun e => rows (snd e)) (filter (fun e => part_eqb p (fst e)) l)).
(** The set has values, Jacobians and error estimates with these rows and shapes. *)
Definition has_parts {R} (s : sset R) (f : part -> list R) (sh : part -> list nat) : Prop := forall p, glob s (array_of p) = Some (mk_arr (f p) (sh p)).
(** and nothing else *)
Definition only_parts {R} (s : sset R) : Prop := forall a, (forall p, a <> array_of p) -> glob s a = None.
Definition fitting_shapes {R} (sh : part -> list nat) (l : list (part * arr R)) : Prop := Forall (fun e => tail_shape (snd e) = sh (fst e)) l.
