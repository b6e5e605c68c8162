(** C11: setters and getters. *)
From Coq Require Import List Arith Lia.
From Verif Require Import Err Fields_Model Fields_Spec Fields_Proofs.
Import ListNotations.

(** After any sequence of setter calls on any of the 28 properties with arrays of
    the documented shape, get returns the value set last (the initial one if it was
    never set). *)
Theorem get_returns_last_set_partial : forall V (shape : V -> list nat) fixed dim p ops (o o' : obj),
  fixes shape fixed dim -> p <> error_id_local -> Forall (fun pv => shape_fits dim (fst pv) (shape (snd pv))) ops ->
  set_all shape fixed dim ops o = (o', None) -> get_prop p o' = last_set p ops (get_prop p o).
Proof. exact @set_all_get. Qed.
Print Assumptions get_returns_last_set_partial.
Definition fix_shape (dim : nat) (s : list nat) : list nat :=
  match s with [n] => if dim =? 1 then [n; 1] else [1; n] | [n; m] => if m =? dim then [n; m] else [m; n] | _ => s end.
Lemma fix_shape_fixes : forall dim, fixes (fun v => v) (fix_shape dim) dim.
Proof.
  intros dim. split; [|split; [|split]].
  - intros v n ->. cbn. now rewrite Nat.eqb_refl.
  - intros v n m -> Hm. cbn. apply Nat.eqb_neq in Hm. now rewrite Hm.
  - intros v n -> ->. reflexivity.
  - intros v n -> Hd. cbn. apply Nat.eqb_neq in Hd. now rewrite Hd.
Qed.
Example get_returns_last_set_partial_ex :
  let ops := [(values, [5; 2]); (error_id_local, [5]); (volumes, [5]); (values, [3; 2])] in
  Forall (fun pv => shape_fits 2 (fst pv) (snd pv)) ops /\
  exists o', set_all (fun v => v) (fix_shape 2) 2 ops (fun _ => None) = (o', None) /\
    get_prop values o' = Some [3; 2] /\ get_prop volumes o' = Some [5] /\ get_prop region o' = None.
Proof. split; [repeat constructor; eexists; reflexivity|]. eexists; repeat split; reflexivity. Qed.

(** The 24 setters without a shape test always succeed. *)
Theorem unchecked_setters_accept : forall V (shape : V -> list nat) fixed dim p v (o : obj),
  p <> reference_value -> p <> domain -> p <> values -> p <> values_local ->
  exists o', set_prop shape fixed dim p v o = (o', None).
Proof. exact @set_accepts. Qed.
Print Assumptions unchecked_setters_accept.
Example unchecked_setters_accept_ex : exists o', set_prop (fun v => v) (fix_shape 2) 2 jacobians [7; 1; 2] (fun _ => None) = (o', None).
Proof. eexists; reflexivity. Qed.

(** A value of the documented shape is stored; a reference value or domain of
    another shape is rejected and changes nothing. *)
Theorem setters_check_shape : forall V (shape : V -> list nat) fixed dim p v (o : obj),
  (fixes shape fixed dim -> shape_fits dim p (shape v) -> set_prop shape fixed dim p v o = (store p v o, None)) /\
  (p = reference_value \/ p = domain -> ~ shape_fits dim p (shape v) -> set_prop shape fixed dim p v o = (o, Some DimNotMatching)).
Proof. exact (fun V shape fixed dim p v o => conj (fits_ok shape fixed dim p v o) (rejects shape fixed dim p v o)). Qed.
Print Assumptions setters_check_shape.
Example setters_check_shape_ex : set_prop (fun v => v) (fix_shape 3) 3 domain [2; 2] (fun _ => None) = (fun _ => None, Some DimNotMatching) /\
  exists o', set_prop (fun v => v) (fix_shape 3) 3 domain [3; 2] (fun _ => None) = (o', None).
Proof. split; [reflexivity|eexists; reflexivity]. Qed.

(** set_error_id_local never changes what get_error_id_local returns. *)
Theorem get_after_set_refuted : forall V (shape : V -> list nat) fixed dim v (o : obj),
  exists o', set_prop shape fixed dim error_id_local v o = (o', None) /\
  get_prop error_id_local o' = get_prop error_id_local o.
Proof. exact @error_id_local_lost. Qed.
Print Assumptions get_after_set_refuted.
Example get_after_set_refuted_ex :
  exists o', set_prop (fun v => v) (fix_shape 2) 2 error_id_local [4] (fun _ => None) = (o', None) /\
    get_prop error_id_local o' <> Some [4].
Proof. eexists; split; [reflexivity | discriminate]. Qed.
(** An array of values that fits neither way raises and is stored all the same. *)
Theorem rejected_values_stored_refuted : forall V (shape : V -> list nat) fixed dim p v (o : obj) n m,
  fixes shape fixed dim -> p = values \/ p = values_local -> shape v = [n; m] -> m <> dim -> n <> dim ->
  exists o' w, set_prop shape fixed dim p v o = (o', Some DimNotMatching) /\ get_prop p o' = Some w /\ shape w = [m; n].
Proof. exact @lost. Qed.
Print Assumptions rejected_values_stored_refuted.
Example rejected_values_stored_ex : exists o', set_prop (fun v => v) (fix_shape 2) 2 values [4; 5] (fun _ => None) = (o', Some DimNotMatching) /\
  get_prop values o' = Some [5; 4].
Proof. eexists; split; reflexivity. Qed.
