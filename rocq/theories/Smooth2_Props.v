(** C125: smoothing of two-dimensional marginals. *)
From Coq Require Import ZArith List Arith Bool Reals Lra Lia.
From Verif Require Import Err CompareR_Model MarginalDist_Model Smooth_Model Smooth_Spec Smooth_Proofs Smooth2_Model Smooth2_Spec Smooth2_Proofs Smooth2_Examples.
Import ListNotations.
Local Open Scope R_scope.

(** With two or more bins in both directions the result is a table of probabilities. *)
Theorem smooth2_is_distribution_partial : forall nx ny sx sy dx dy marg, (2 <= nx)%nat -> (2 <= ny)%nat -> 0 < sx -> 0 < sy -> 0 < dx -> 0 < dy -> table nx ny marg -> marginal2_ok marg ->
  exists t, smooth_2D nx ny sx sy dx dy marg = Ok t /\ probability_table nx ny t.
Proof. exact smooth2_lemma. Qed.
Print Assumptions smooth2_is_distribution_partial.
Example smooth2_is_distribution_ex : table 2 3 [[/ 4; / 2; 0]; [0; 0; / 4]] /\ marginal2_ok [[/ 4; / 2; 0]; [0; 0; / 4]].
Proof.
  split; [split; [reflexivity | intros row [<-|[<-|[]]]; reflexivity]|]. split.
  - intros row x [<-|[<-|[]]] [<-|[<-|[<-|[]]]]; lra.
  - exists [/ 4; / 2; 0], (/ 4). split; [left; reflexivity | split; [left; reflexivity | lra]].
Qed.
(** Smoothing acts on independent variables separately: each factor is smoothed as
    smooth_marginals_1D smooths it. *)
Theorem smooth2_independent : forall sx sy dx dy p q p' q',
  smooth_1D (length p) sx dx p = Ok (map Some p') -> smooth_1D (length q) sy dy q = Ok (map Some q') -> p <> [] -> q <> [] ->
  smooth_2D (length p) (length q) sx sy dx dy (independent p q) = Ok (map (map Some) (independent p' q')).
Proof. exact independent_lemma. Qed.
Print Assumptions smooth2_independent.
Example smooth2_independent_ex : exists p' q', smooth_1D 3 10 1 [/ 4; / 2; / 4] = Ok (map Some p') /\ smooth_1D 2 5 (/ 2) [0; 1] = Ok (map Some q').
Proof.
  destruct (smooth_lemma 3 10 1 [/ 4; / 2; / 4]) as (l & E & p' & -> & _); try lra; try lia; [reflexivity | exact smooth_ok_ex1 |].
  destruct (smooth_lemma 2 5 (/ 2) [0; 1]) as (l & E2 & q' & -> & _); try lra; try lia; [reflexivity | exact smooth_ok_ex2 |]. exists p', q'. split; assumption.
Qed.
(** One column: every entry is nan. *)
Theorem smooth2_one_column_refuted : forall nx sx sy dx dy marg, 0 < sy -> 0 < dy -> table nx 1 marg -> smooth_2D nx 1 sx sy dx dy marg = Ok (repeat [None] nx).
Proof. exact one_column_lemma. Qed.
Print Assumptions smooth2_one_column_refuted.
Example smooth2_one_column_ex : table 2 1 [[/ 2]; [/ 2]].
Proof. split; [reflexivity | intros row [<-|[<-|[]]]; reflexivity]. Qed.
(** Odd numbers of bins: a mass in bin (m, n) is moved to bin (m-1, n-1). *)
Theorem smooth2_centred_refuted : forall q r m n sx sy dx dy, (1 <= q)%nat -> (1 <= r)%nat -> (1 <= m)%nat -> (1 <= n)%nat -> (m < 2 * q + 1)%nat -> (n < 2 * r + 1)%nat -> 0 < sx -> 0 < sy -> 0 < dx -> 0 < dy ->
  exists u v, smooth_2D (2 * q + 1) (2 * r + 1) sx sy dx dy (independent (unit_mass (2 * q + 1) m) (unit_mass (2 * r + 1) n)) = Ok (map (map Some) (independent u v)) /\
    peak_at u (m - 1) /\ peak_at v (n - 1).
Proof. exact moved_lemma. Qed.
Print Assumptions smooth2_centred_refuted.
Example smooth2_centred_ex : exists u v, smooth_2D 3 5 10 10 1 1 (independent (unit_mass 3 1) (unit_mass 5 4)) = Ok (map (map Some) (independent u v)) /\ peak_at u 0 /\ peak_at v 3.
Proof. apply (moved_lemma 1 2 1 4); lra || lia. Qed.

(** A marginal with one row or one column is treated as if it were repeated; every
    other shape is refused. *)
Theorem smooth2_one_row : forall nx ny sx sy dx dy row, (0 < nx)%nat -> smooth_2D nx ny sx sy dx dy [row] = smooth_2D nx ny sx sy dx dy (repeat row nx).
Proof. exact one_row_lemma. Qed.
Print Assumptions smooth2_one_row.
Theorem smooth2_one_col : forall nx ny sx sy dx dy col, (0 < ny)%nat ->
  smooth_2D nx ny sx sy dx dy (map (fun x => [x]) col) = smooth_2D nx ny sx sy dx dy (map (fun x => repeat x ny) col).
Proof. exact one_col_lemma. Qed.
Print Assumptions smooth2_one_col.
Theorem smooth2_refused : forall nx ny sx sy dx dy marg, smooth_2D nx ny sx sy dx dy marg = Raise PyValueError <->
  ~ ((length marg = nx \/ length marg = 1%nat) /\ forall row, In row marg -> length row = ny \/ length row = 1%nat).
Proof. exact refused_lemma. Qed.
Print Assumptions smooth2_refused.
Example smooth2_refused_ex : ~ ((length [[1; 2]; [3; 4]] = 3%nat \/ length [[1; 2]; [3; 4]] = 1%nat) /\ forall row, In row [[1; 2]; [3; 4]] -> length row = 2%nat \/ length row = 1%nat).
Proof. intros [[H|H] _]; discriminate H. Qed.
