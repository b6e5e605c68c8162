(** C116: sets of rectangles and balls after setup. *)
From Coq Require Import List Arith Lia QArith Qcanon.
From Verif Require Import Err Num Ext Query_Model Query_Spec Query_Proofs Query_Examples SelfQuery_Spec SelfQuery_Proofs.
Import ListNotations.
Local Open Scope nat_scope.

Theorem rectangle_setup_accepts : forall d maxes mins,
  ((exists s, rect_setup d maxes mins = Ok s) <-> length maxes = length mins /\ rows_have d maxes /\ rows_have d mins) /\
  (forall e, rect_setup d maxes mins = Raise e -> e = LengthNotMatching).
Proof. exact rect_setup_iff_lemma. Qed.
Print Assumptions rectangle_setup_accepts.
Theorem ball_setup_accepts : forall d cs rs,
  ((exists s, ball_setup d cs rs = Ok s) <-> length cs = length rs /\ rows_have d cs) /\
  (forall e, ball_setup d cs rs = Raise e -> e = LengthNotMatching).
Proof. exact ball_setup_iff_lemma. Qed.
Print Assumptions ball_setup_accepts.

Theorem rectangle_values_are_middles : forall d maxes mins s, rect_setup d maxes mins = Ok s ->
  stored_rows d (rvalues s) (length maxes) PInf
    (fun i v => exists l r, nth_error mins i = Some l /\ nth_error maxes i = Some r /\ middle_of l r v).
Proof. exact rect_values_lemma. Qed.
Print Assumptions rectangle_values_are_middles.
Theorem ball_values_are_centers : forall d cs rs s, ball_setup d cs rs = Ok s ->
  stored_rows d (bvalues s) (length cs) NaN (fun i v => nth_error cs i = Some v).
Proof. exact ball_values_lemma. Qed.
Print Assumptions ball_values_are_centers.

Theorem rectangle_query_own_value : forall d maxes mins s i l r, rect_setup d maxes mins = Ok s ->
  nth_error mins i = Some l -> nth_error maxes i = Some r -> has_width l r -> no_overlap d (box_contains mins maxes) ->
  exists v, nth_error (rvalues s) i = Some (map Fin v) /\ rect_query s v 1 = Ok [(i, Fin 0%Qc)].
Proof. exact rect_self_lemma. Qed.
Print Assumptions rectangle_query_own_value.
Theorem ball_query_own_value : forall norm_lt d cs rs s i c r, ball_setup d cs rs = Ok s ->
  nth_error cs i = Some c -> nth_error rs i = Some r -> norm_lt (map (fun _ => 0%Qc) c) r = true ->
  no_overlap d (ball_contains (fun v r => norm_lt v r = true) cs rs) ->
  exists v, nth_error (bvalues s) i = Some (map Fin v) /\ ball_query norm_lt s v 1 = Ok [(i, Fin 0%Qc)].
Proof. exact ball_self_lemma. Qed.
Print Assumptions ball_query_own_value.
Example own_value_ex :
  let mn := [[0%Qc]; [1%Qc]] in let mx := [[1%Qc]; [Q2Qc 2]] in
  (exists s, rect_setup 1 mx mn = Ok s) /\ has_width [1%Qc] [Q2Qc 2] /\ no_overlap 1 (box_contains mn mx).
Proof.
  split; [eexists; reflexivity|]. split.
  - intros [|j] l r Hl Hr; [|destruct j; discriminate]. injection Hl as <-. injection Hr as <-. reflexivity.
  - intros x i j Lx (l & r & Hl & Hr & _ & _ & Bi) (l' & r' & Hl' & Hr' & _ & _ & Bj). destruct x as [|a [|b x]]; try discriminate.
    destruct i as [|[|i]], j as [|[|j]]; try reflexivity; try (destruct i; discriminate); try (destruct j; discriminate);
      injection Hl as <-; injection Hr as <-; injection Hl' as <-; injection Hr' as <-;
      destruct (Bi 0 a _ _ eq_refl eq_refl eq_refl); destruct (Bj 0 a _ _ eq_refl eq_refl eq_refl); exfalso; qc_lra.
Qed.
