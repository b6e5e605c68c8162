(** The five samples of Workflow_Examples: the model that doubles, and one that
    cannot tell small numbers apart. *)
From Coq Require Import List Arith QArith Qcanon Lia.
From Verif Require Import Err Num Lists SampleSet_Model SampleSet_Spec Disc_Model Prob_Spec Disc_Spec Disc_Examples Workflow_Model Workflow_Spec Workflow_Examples DataUnif_Model DataUnif_Spec Show.
Import ListNotations.
Local Open Scope nat_scope.

(** A point that is equal if there is one, otherwise the nearest one *)
Fixpoint place (l : list cell) (y : cell) : option nat :=
  match l with [] => None | c :: r => if cell_dec c y then Some 0 else option_map S (place r y) end.
Definition equal_or_near (l : list cell) (y : cell) : nat := match place l y with Some i => i | None => near l y end.
Lemma place_finds l y : In y l -> exists i, place l y = Some i /\ nth_error l i = Some y.
Proof.
  induction l as [|c l IH]; intros H; [destruct H|]. cbn [place]. destruct (cell_dec c y) as [->|N]; [exists 0; split; reflexivity|].
  destruct H as [->|H]; [contradiction|]. destruct (IH H) as (i & E & X). exists (S i). rewrite E. split; [reflexivity|exact X].
Qed.
Lemma equal_or_near_finds : finds_equal equal_or_near.
Proof. intros l y H. unfold equal_or_near. destruct (place_finds l y H) as (i & -> & X). exact X. Qed.

Definition coarse (c : cell) : cell := match c with Vec [Num a] => if qltb a (Q2Qc (1 # 2)) then Vec [Num 0%Qc] else c | _ => c end.
Definition coarse_model (a : arr cell) : arr cell := mk_arr (map coarse (rows a)) [1].
Lemma coarse_rows : row_model 1 1 coarse coarse_model.
Proof. intros xs. reflexivity. Qed.
Lemma five_sampled : sampled 2 1 1 double doubling (Given five_volumes) true five /\ sampled 3 1 1 coarse coarse_model (Given five_volumes) true five /\ sampled 3 1 1 coarse coarse_model MonteCarlo false five.
Proof.
  split; [|split]; (split; [lia|]); (split; [exact doubling_rows || exact coarse_rows|]); (split; [discriminate|]); (split; [intros v [= <-]; exact five_volumes_ok || discriminate|]); (discriminate || reflexivity).
Qed.
Lemma five_positive : all_positive (volume_list (Given five_volumes) (length five)) /\ all_positive (volume_list MonteCarlo (length five)).
Proof. split; intros x Hx; cbn in Hx; repeat (destruct Hx as [<-|Hx]; [reflexivity|]); destruct Hx. Qed.
Lemma doubled_differ : NoDup (map double five).
Proof.
  assert (E : nodup cell_dec (map double five) = map double five) by (vm_compute; reflexivity). rewrite <- E. apply NoDup_nodup.
Qed.
Lemma coarse_repeats : ~ NoDup (map coarse five).
Proof. intros N. inversion N as [|? ? H]. apply H. left. reflexivity. Qed.
