(** C08: normalizing the domain and undoing it. *)
From Coq Require Import List Arith QArith Qcanon Lia.
From Verif Require Import Num Normalize_Model Normalize_Spec Normalize_Proofs.
Import ListNotations.
Local Open Scope nat_scope.

(** If no two arrays share memory, undo restores every array and the domain. *)
Theorem normalize_undo_partial : forall s d, separate s -> dom s = Some d -> well_shaped s d -> nondegenerate d ->
  (forall f, contents (undo_normalize_domain (normalize_domain s)) f = contents s f) /\
  dom (undo_normalize_domain (normalize_domain s)) = Some d.
Proof. exact normalize_undo_restores. Qed.
Print Assumptions normalize_undo_partial.

(** ... and normalizing takes every vector to unit coordinates, every Jacobian
    row to the scaled gradient. *)
Theorem normalize_affine_partial : forall s d f l, separate s -> dom s = Some d -> well_shaped s d -> nondegenerate d ->
  contents s f = Some l ->
  exists l', contents (normalize_domain s) f = Some l' /\
    Forall2 (if is_gradient f then scaled_gradient d else unit_coordinates d) l l'.
Proof. exact normalize_unit. Qed.
Print Assumptions normalize_affine_partial.

Theorem unit_coordinates_in_unit_box : forall d v w, nondegenerate d -> unit_coordinates d v w ->
  (forall i a b x, nth_error d i = Some (a, b) -> nth_error v i = Some x -> (a <= x <= b)%Qc) ->
  forall y, In y w -> (0 <= y <= 1)%Qc.
Proof. exact unit_in_box. Qed.
Print Assumptions unit_coordinates_in_unit_box.

(** The hypotheses hold of a two-dimensional set with values and Jacobians in
    separate buffers. *)
Example normalize_partial_ex :
  let d := [(1, qn 3)%Qc; (0, qn 4)%Qc] in
  let s := mk_nset (fun b => match b with 0 => [[qn 2; qn 1]; [qn 3; qn 4]]%Qc | 1 => [[qn 1; qn 5]]%Qc | _ => [] end) 2
    (fun f => match f with Val => Some (mk_ref 0 0 2) | Jac => Some (mk_ref 1 0 1) | _ => None end) (Some d) None in
  separate s /\ well_shaped s d /\ nondegenerate d /\
  option_map (map (map this)) (contents (normalize_domain s) Val) = Some [[1 # 2; 1 # 4]; [1; 1]]%Q.
Proof.
  repeat split.
  - intros f g r q N F G. destruct f, g; simpl in *; try discriminate; try congruence; injection F as <-; injection G as <-; discriminate.
  - intros f r F. destruct f; simpl in F; try discriminate; injection F as <-; simpl; lia.
  - intros f l v E Hv. destruct f; simpl in E; try discriminate; injection E as <-; simpl in Hv; intuition (subst; reflexivity).
  - constructor; [reflexivity | constructor; [reflexivity | constructor]].
Qed.

(** With local values that are a window of the global array (as global_to_local
    creates them) undo does not restore the local values: 3 comes back as 2. *)
Theorem normalize_undo_refuted :
  exists s d, dom s = Some d /\ nondegenerate d /\ well_shaped s d /\
    fields s Val = fields s ValL /\ contents s ValL = Some [[qn 3]] /\
    contents (undo_normalize_domain (normalize_domain s)) Val = Some [[qn 3]] /\
    contents (undo_normalize_domain (normalize_domain s)) ValL = Some [[qn 2]].
Proof. exact alias_witness. Qed.
Print Assumptions normalize_undo_refuted.

(** The caller's own array (still referenced by the caller) is changed. *)
Theorem normalize_caller_array_refuted :
  exists s d r, dom s = Some d /\ separate s /\ fields s Val = Some r /\
    read (mem s) r = [[qn 3]] /\ read (mem (normalize_domain s)) r = [[qn 2]].
Proof. exact caller_witness. Qed.
Print Assumptions normalize_caller_array_refuted.

(** Normalizing twice: undo no longer brings the domain back. *)
Theorem normalize_twice_loses_domain : forall s d, separate s -> dom s = Some d ->
  dom (undo_normalize_domain (normalize_domain (normalize_domain s))) = Some (map (fun _ => (0, 1)%Qc) d) /\
  dom_original (undo_normalize_domain (normalize_domain (normalize_domain s))) = None.
Proof. exact normalize_twice. Qed.
Print Assumptions normalize_twice_loses_domain.
