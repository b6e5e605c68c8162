(** Concrete samplers: witnesses and cases that meet the hypotheses. *)
From Coq Require Import List Arith Bool QArith Qcanon Lia.
From Verif Require Import Err Num NumPy Lists SampleSet_Model Prob_Model Disc_Model Disc_Examples Workflow_Model Workflow_Spec Refs_Model Refs_Spec Refs_Examples Sampler_Model Sampler_Spec.
Import ListNotations.
Local Open Scope nat_scope.

Definition start : swork := mk_swork [] [] None None.
(** A model that returns its inputs, draws 0, 1, ..., later draws 10, 11, ... *)
Definition same_model (b : arr cell) : arr cell := mk_arr (map (fun x => x) (rows b)) [1].
Lemma same_model_rows : row_model 1 1 (fun x => x) same_model.
Proof. intros xs. reflexivity. Qed.
Definition draw_at (k0 : nat) (r k : nat) : list (list Qc) := map (fun i => [qn (k0 + i + r)]) (seq 0 k).
Lemma draw_at_full k0 : full_draws (draw_at k0).
Proof. intros r k. unfold draw_at. now rewrite map_length, seq_length. Qed.
Definition unit_interval (_ : nat) : Qc * Qc := (0, 1)%Qc.
Definition cube (n r : nat) : list (list Qc) := repeat [half] n.
Lemma cube_length n r : length (cube n r) = n.
Proof. apply repeat_length. Qed.

Definition flat_cell (c : cell) : list Q := match c with Num q => [this q] | Vec l => concat (map show_cell l) end.
Definition shown_attr (x : attr) (w : swork) (a : nat) : option (list Q) :=
  match nth_error (w_sets w) a with Some s => option_map (fun y => concat (map flat_cell (rows y))) (glob s x) | None => None end.
Definition work_of {X Y} (p : X * Y) : X := fst p.

(** *** C144 *)
(** A set with volumes, after other samples were drawn into it. *)
Definition old_set : sset cell := Disc_Examples.get (new_sset 1) (global_to_local 1 (line_set [0; 1]%Qc (Some [quarter; three_quarters]) None)).
Definition old_work : swork := mk_swork [old_set] [] None None.
Lemma stale_witness : exists w1, s_random 1 2 true (draw_at 10) unit_interval (SetAt 0) old_work = (w1, Ok 0) /\
  shown_attr Values old_work 0 = Some [0; 1]%Q /\ shown_attr Volumes old_work 0 = Some [1 # 4; 3 # 4]%Q /\
  shown_attr Values w1 0 = Some [10; 11]%Q /\ shown_attr Volumes w1 0 = Some [1 # 4; 3 # 4]%Q.
Proof.
  exists (work_of (s_random 1 2 true (draw_at 10) unit_interval (SetAt 0) old_work)).
  split; [vm_compute; reflexivity |]. split; [vm_compute; reflexivity |]. split; [vm_compute; reflexivity |]. split; vm_compute; reflexivity.
Qed.

(** *** C145 *)
(** Two discretizations made one after the other from the same set. *)
Definition made : swork := work_of (s_create_random same_model 2 (Some 3) true (draw_at 0) unit_interval (Dim 1) start).
Lemma unpaired_witness : exists w1 d, s_create_random same_model 2 (Some 3) true (draw_at 0) unit_interval (Dim 1) start = (made, Ok 0) /\
  s_random 2 3 true (draw_at 10) unit_interval (SetAt 0) made = (w1, Ok 0) /\
  nth_error (w_discs made) 0 = Some d /\ nth_error (w_discs w1) 0 = Some d /\ r_in d = Some 0 /\ r_out d = Some 1 /\
  shown_attr Values made 0 = shown_attr Values made 1 /\ shown_attr Values w1 1 = Some [0; 1; 1]%Q /\ shown_attr Values w1 0 = Some [10; 11; 11]%Q.
Proof.
  exists (work_of (s_random 2 3 true (draw_at 10) unit_interval (SetAt 0) made)), (pair_disc 0 1).
  split; [vm_compute; reflexivity |]. split; [vm_compute; reflexivity |]. split; [vm_compute; reflexivity |]. split; [vm_compute; reflexivity |].
  split; [vm_compute; reflexivity |]. split; [vm_compute; reflexivity |]. split; [vm_compute; reflexivity |]. split; vm_compute; reflexivity.
Qed.
(** Calls that do not reach the first discretization: the sampler has made a
    second one, with new sets. *)
Definition made_twice : swork := work_of (s_create_random same_model 2 (Some 2) true (draw_at 5) unit_interval (Dim 1) made).
Definition later_calls : list scall :=
  [CToGlobal; CRandom 4 true (draw_at 10) unit_interval (SetAt 2); CRegular [3] (SetAt 0); CCompute None true; CLhs 5 true (cube 5) (Dim 1); CCompute None false; CToGlobal].
Lemma later_example : exists v, nth_error (w_discs made_twice) 0 = Some (pair_disc 0 1) /\ sees (w_sets made_twice) (pair_disc 0 1) v /\
  out_of_reach (fun a => In a (refs (pair_disc 0 1))) (eq 0) made_twice later_calls /\
  forallb is_ok (snd (scall_run near same_model 2 later_calls made_twice)) = true /\ length (w_discs (work_of (scall_run near same_model 2 later_calls made_twice))) = 4.
Proof.
  exists (mk_disc (nth_error (w_sets made_twice) 0) (nth_error (w_sets made_twice) 1) None None None None None None None None None None).
  split; [vm_compute; reflexivity |]. split; [repeat split; vm_compute; discriminate |]. split; [| split; vm_compute; reflexivity].
  assert (Ld : w_discs made_twice = [pair_disc 0 1; pair_disc 2 3]) by (vm_compute; reflexivity).
  assert (Ls : length (w_sets made_twice) = 4) by (vm_compute; reflexivity).
  split; [| split; [| split; [| split; [| split; [| split]]]]].
  - intros a Ha. rewrite Ls. cbn in Ha. lia.
  - intros j <-. rewrite Ld. cbn. lia.
  - intros j d a Ej nj Ia Ha. rewrite Ld in Ej. destruct j as [|[|j]]; [congruence | | destruct j; discriminate]. injection Ej as <-. cbn in Ia, Ha. lia.
  - intros a Ea Ha. assert (E2 : s_in made_twice = Some 2) by (vm_compute; reflexivity). rewrite E2 in Ea. injection Ea as <-. cbn in Ha. lia.
  - intros j Ej <-. assert (E2 : s_disc made_twice = Some 1) by (vm_compute; reflexivity). congruence.
  - intros c a Hc Ha Hr. unfold later_calls in Hc. cbn in Hc. repeat (destruct Hc as [<- | Hc]; [cbn in Ha, Hr; lia |]). destruct Hc.
  - intros c j Hc Hj. unfold later_calls in Hc. cbn in Hc. repeat (destruct Hc as [<- | Hc]; [discriminate |]). destruct Hc.
Qed.

(** *** C146 *)
Lemma later_case_example : exists w w1 w2, s_random 2 3 false (draw_at 0) unit_interval (Dim 1) start = (w, Ok 0) /\
  s_compute same_model 2 None true w = (w1, Ok 0) /\ s_compute same_model 2 None false w = (w2, Ok 0) /\
  shown_attr Values w1 1 = Some [0; 1; 1]%Q /\ shown_attr Values w2 1 = None.
Proof.
  set (w := work_of (s_random 2 3 false (draw_at 0) unit_interval (Dim 1) start)).
  exists w, (work_of (s_compute same_model 2 None true w)), (work_of (s_compute same_model 2 None false w)).
  split; [vm_compute; reflexivity |]. split; [vm_compute; reflexivity |]. split; [vm_compute; reflexivity |]. split; vm_compute; reflexivity.
Qed.

(** *** C147 *)
Definition copied : swork := work_of (s_copy made_twice).
Definition copy_calls : list scall := [CRandom 2 true (draw_at 10) unit_interval (SetAt 4); CCompute None true; CUser 2 (RIoPtr true)].
Lemma copy_example : exists d v, s_copy made_twice = (copied, Ok (Some 4, Some 2)) /\ s_in made_twice = Some 2 /\ s_disc made_twice = Some 1 /\
  nth_error (w_discs made_twice) 1 = Some d /\ sees (w_sets made_twice) d v /\ nth_error (w_discs copied) 2 = Some (pair_disc 4 5) /\
  shown_attr Values copied 4 = shown_attr Values made_twice 2 /\ shown_attr Values copied 5 = shown_attr Values made_twice 3 /\
  (forall c a, In c copy_calls -> In a (given c) -> length (w_sets made_twice) <= a) /\
  (forall c k, In c copy_calls -> works_on c = Some k -> length (w_discs made_twice) <= k).
Proof.
  exists (pair_disc 2 3), (mk_disc (nth_error (w_sets made_twice) 2) (nth_error (w_sets made_twice) 3) None None None None None None None None None None).
  assert (Ld : length (w_discs made_twice) = 2) by (vm_compute; reflexivity).
  assert (Ls : length (w_sets made_twice) = 4) by (vm_compute; reflexivity).
  split; [vm_compute; reflexivity |]. split; [vm_compute; reflexivity |]. split; [vm_compute; reflexivity |]. split; [vm_compute; reflexivity |].
  split; [repeat split; vm_compute; discriminate |]. split; [vm_compute; reflexivity |]. split; [vm_compute; reflexivity |]. split; [vm_compute; reflexivity |]. split.
  - intros c a Hc Ha. rewrite Ls. cbn in Hc. repeat (destruct Hc as [<- | Hc]; [cbn in Ha; lia |]). destruct Hc.
  - intros c k Hc Hk. rewrite Ld. cbn in Hc. repeat (destruct Hc as [<- | Hc]; [cbn in Hk; try discriminate; injection Hk as <-; lia |]). destruct Hc.
Qed.
