(** C16, C17, C18, C19: queries of rectangle, ball and cartesian sets. *)
From Coq Require Import List Arith Lia QArith Qcanon.
From Verif Require Import Err Num Ext Query_Model Query_Spec Query_Proofs Query_Examples.
Import ListNotations.
Local Open Scope nat_scope.

(** C16: the answer is the first rectangle containing the point, with distance
    0, or the remainder cell, with distance inf, when there is none. *)
Theorem rectangle_query_first : forall d maxes mins s x, rect_setup d maxes mins = Ok s -> length x = d ->
  exists i dist, rect_query s x 1 = Ok [(i, dist)] /\
    cell_answer (length maxes) (box_contains mins maxes x) i dist.
Proof. exact rect_query_first. Qed.
Print Assumptions rectangle_query_first.
Example rectangle_query_first_ex : exists s, rect_setup 2 maxes2 mins2 = Ok s /\
  rect_query s [Q2Qc 2; Q2Qc 2] 1 = Ok [(0, Fin 0%Qc)] /\
  rect_query s [Q2Qc 2; Q2Qc 3] 1 = Ok [(1, Fin 0%Qc)] /\
  rect_query s [0%Qc; Q2Qc 2] 1 = Ok [(2, PInf)].
Proof. eexists. split; [reflexivity|]. repeat split; reflexivity. Qed.

(** C19: the same for balls, for every norm. *)
Theorem ball_query_first_ball : forall norm_lt d cs rs s x, ball_setup d cs rs = Ok s -> length x = d ->
  exists i dist, ball_query norm_lt s x 1 = Ok [(i, dist)] /\
    cell_answer (length cs) (ball_contains (fun v r => norm_lt v r = true) cs rs x) i dist.
Proof. exact ball_query_first. Qed.
Print Assumptions ball_query_first_ball.
Example ball_query_first_ball_ex : exists s, ball_setup 2 [[0; 0]; [1; 0]]%Qc [1; 1]%Qc = Ok s /\
  ball_query norm2_lt s [Q2Qc (1#2); Q2Qc (1#2)] 1 = Ok [(0, Fin 0%Qc)] /\
  ball_query norm2_lt s [1%Qc; 0%Qc] 1 = Ok [(1, Fin 0%Qc)] /\
  ball_query norm1_lt s [Q2Qc (1#2); Q2Qc (1#2)] 1 = Ok [(2, PInf)].
Proof. eexists. split; [reflexivity|]. repeat split; reflexivity. Qed.

(** C17 is false: with k >= 3 some cell is always listed twice. *)
Theorem rectangle_k_query_distinct_refuted : forall s x k row, 3 <= k -> rect_query s x k = Ok row -> ~ NoDup (map fst row).
Proof. exact rect_query_k_repeats. Qed.
Print Assumptions rectangle_k_query_distinct_refuted.

Theorem ball_k_query_distinct_refuted : forall norm_lt s x k row, 3 <= k -> ball_query norm_lt s x k = Ok row -> ~ NoDup (map fst row).
Proof. exact ball_query_k_repeats. Qed.
Print Assumptions ball_k_query_distinct_refuted.

(** Three boxes and the remainder; the point lies in box 0; k = 3 answers
    0, 3, 0. *)
Theorem k_query_distinct_refuted : exists s x row, rect_setup 1 (fst unit_boxes) (snd unit_boxes) = Ok s /\ 3 <= rnum s /\
  rect_query s x 3 = Ok row /\ map fst row = [0; 3; 0].
Proof. exact k_query_witness. Qed.
Print Assumptions k_query_distinct_refuted.

(** With k = 2 and a point inside some rectangle the two cells differ. *)
Theorem k_query_distinct_partial : forall d maxes mins s x row, rect_setup d maxes mins = Ok s -> length x = d ->
  (exists i, box_contains mins maxes x i) -> rect_query s x 2 = Ok row -> NoDup (map fst row).
Proof. exact rect_query_2. Qed.
Print Assumptions k_query_distinct_partial.
Example k_query_distinct_partial_ex : exists s, rect_setup 2 maxes2 mins2 = Ok s /\
  box_contains mins2 maxes2 [Q2Qc 2; Q2Qc 2] 1 /\
  rect_query s [Q2Qc 2; Q2Qc 2] 2 = Ok [(0, Fin 0%Qc); (1, Fin 0%Qc)].
Proof.
  eexists. split; [reflexivity|]. split; [|reflexivity].
  exists [1%Qc; 1%Qc], [Q2Qc 3; Q2Qc 3]. repeat split;
    destruct j as [|[|[|]]]; simpl in *; try discriminate;
    repeat match goal with H : Some _ = Some _ |- _ => injection H as <- end; try discriminate; reflexivity.
Qed.

(** C18 *)
Theorem cartesian_partition : forall d xi, length xi = d -> 1 <= d -> (forall l, In l xi -> breakpoints l) ->
  exists s, cart_setup d xi = Ok s /\
    rnum s = S (nat_prod (map (fun l => length l - 1) xi)) /\
    (forall l r, grid_cell xi l r <-> exists i, nth_error (lefts s) i = Some l /\ nth_error (rights s) i = Some r) /\
    NoDup (combine (lefts s) (rights s)) /\
    (forall x, in_outer_box xi x -> exists i, i < rnum s - 1 /\ box_contains (lefts s) (rights s) x i /\
       (forall j, box_contains (lefts s) (rights s) x j -> j = i) /\ rect_query s x 1 = Ok [(i, Fin 0%Qc)]) /\
    (forall x, length x = d -> ~ in_outer_box xi x ->
       (forall j, ~ box_contains (lefts s) (rights s) x j) /\ rect_query s x 1 = Ok [(rnum s - 1, PInf)]).
Proof. exact cart_partition. Qed.
Print Assumptions cartesian_partition.
Example cartesian_partition_ex : (forall l, In l grid2 -> breakpoints l) /\ in_outer_box grid2 [1%Qc; Q2Qc 4] /\
  exists s, cart_setup 2 grid2 = Ok s /\ rnum s = 7 /\ rect_query s [1%Qc; Q2Qc 4] 1 = Ok [(2, Fin 0%Qc)].
Proof.
  split; [|split].
  - intros l [<-|[<-|[]]]; repeat split; simpl; lia.
  - split; [reflexivity|]. intros [|[|[|j]]] a l Ha Hl; simpl in *; try discriminate;
      injection Ha as <-; injection Hl as <-; split; simpl; try reflexivity; discriminate.
  - eexists. repeat split; reflexivity.
Qed.
