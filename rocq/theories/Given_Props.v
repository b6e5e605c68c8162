(** C156: samples in any layout. *)
From Coq Require Import List Arith QArith Qcanon Lia.
From Verif Require Import Err Util_Model Util_Spec Given_Model Given_Spec Given_Proofs.
Import ListNotations.
Local Open Scope nat_scope.

(** set_values takes exactly the inputs whose rows or columns are points, and
    stores one point per row. *)
Theorem given_accepted : forall v s, plain v -> (snd (g_set_values v s) = None <-> exists pts, given v (g_dim s) pts).
Proof. exact accepted_iff. Qed.
Print Assumptions given_accepted.
Theorem given_stored : forall v s pts, plain v -> given v (g_dim s) pts ->
  exists a, g_set_values v s = (mk_gset (g_dim s) (Some a), None) /\ in_rows a (g_dim s) pts.
Proof. exact set_lemma. Qed.
Print Assumptions given_stored.
Definition columns3 : pyval := PyArr (mk_nd [2; 3] [1; 0; 1; 0; 1; 1]%Qc).
Example given_stored_ex : plain columns3 /\ given columns3 2 [[1; 0]; [0; 1]; [1; 1]]%Qc /\
  g_set_values columns3 (new_gset 2) = (mk_gset 2 (Some (mk_nd [3; 2] [1; 0; 0; 1; 1; 1]%Qc)), None).
Proof.
  split; [split; [reflexivity|right; reflexivity]|]. split; [|reflexivity]. right. split; [|cbn; lia].
  split; [reflexivity|]. split; [reflexivity|].
  intros [|[|[|i]]] p H; cbn in H; [injection H as <- | injection H as <- | injection H as <- | destruct i; discriminate];
    (split; [reflexivity|]); intros [|[|j]] Hj; try lia; reflexivity.
Qed.

(** After any accepted calls of set_values and append_values the set holds, one per
    row and in order, the points last set and those appended since. *)
Theorem given_history : forall d h pl s, gscript (new_gset d) h = (s, None) ->
  Forall (fun c => plain (argument c)) h -> Forall2 (fun c p => given (argument c) d p) h pl ->
  match samples_by (rev (combine h pl)) with
  | None => g_values s = None
  | Some pts => exists a, g_values s = Some a /\ in_rows a d pts
  end.
Proof. intros d h pl s H Hp Hg. exact (proj2 (history_lemma d h pl s H Hp Hg)). Qed.
Print Assumptions given_history.
Example given_history_ex : gscript (new_gset 2) [GSet columns3; GAppend (PySeq (mk_nd [2] [0; 0]%Qc)); GAppend columns3] =
    (mk_gset 2 (Some (mk_nd [7; 2] [1; 0; 0; 1; 1; 1; 0; 0; 1; 0; 0; 1; 1; 1]%Qc)), None) /\
  given (PySeq (mk_nd [2] [0; 0]%Qc)) 2 [[0; 0]]%Qc.
Proof.
  split; [reflexivity|]. right. split; [|cbn; lia]. split; [reflexivity|]. split; [reflexivity|].
  intros [|i] p H; cbn in H; [injection H as <- | destruct i; discriminate]. split; [reflexivity|].
  intros [|[|j]] Hj; try lia; reflexivity.
Qed.
Theorem given_appended : forall v s q p, plain v -> given v (g_dim s) p -> (exists a, g_values s = Some a /\ in_rows a (g_dim s) q) ->
  exists c, g_append_values v s = (mk_gset (g_dim s) (Some c), None) /\ in_rows c (g_dim s) (q ++ p).
Proof. exact append_ok. Qed.
Print Assumptions given_appended.
(** append_values rejects what does not fit and leaves the set as it was. *)
Theorem given_append_rejected : forall v s q, plain v -> misfit v (g_dim s) -> (exists a, g_values s = Some a /\ in_rows a (g_dim s) q) ->
  g_append_values v s = (s, Some PyValueError).
Proof. exact append_misfit. Qed.
Print Assumptions given_append_rejected.

(** The orientation of an array that is not square does not matter. *)
Theorem given_either_way : forall a s n m, well_formed a -> shape a = [n; m] -> n <> m -> n = g_dim s \/ m = g_dim s ->
  g_set_values (PyArr (transpose a)) s = g_set_values (PyArr a) s.
Proof. exact either_way. Qed.
Print Assumptions given_either_way.
(** As many points as dimensions are always read by rows. *)
Theorem given_square_refuted : forall a s, well_formed a -> shape a = [g_dim s; g_dim s] ->
  g_set_values (PyArr a) s = (mk_gset (g_dim s) (Some a), None) /\
  g_set_values (PyArr (transpose a)) s = (mk_gset (g_dim s) (Some (transpose a)), None).
Proof. exact square_lemma. Qed.
Print Assumptions given_square_refuted.
Example given_square_ex : transpose (mk_nd [2; 2] [1; 1; 0; 1]%Qc) = mk_nd [2; 2] [1; 0; 1; 1]%Qc /\ [1; 1; 0; 1]%Qc <> [1; 0; 1; 1]%Qc.
Proof. split; [reflexivity|]. intros H. apply (f_equal (fun l => this (nth 1 l 0%Qc))) in H. discriminate. Qed.

(** set_values raises on an input that does not fit, but has replaced the samples
    by it: afterwards the set holds an array of the wrong width. *)
Theorem given_rejected_refuted : forall v s, plain v -> misfit v (g_dim s) ->
  exists a, g_set_values v s = (mk_gset (g_dim s) (Some a), Some DimNotMatching) /\ second_axis a <> g_dim s.
Proof. exact misfit_lemma. Qed.
Print Assumptions given_rejected_refuted.
Example given_rejected_ex : exists s, gscript (new_gset 2) [GSet columns3; GSet (PySeq (mk_nd [4] [1; 1; 1; 1]%Qc))] = (s, Some DimNotMatching) /\
  g_values s = Some (mk_nd [1; 4] [1; 1; 1; 1]%Qc).
Proof. eexists. split; reflexivity. Qed.
