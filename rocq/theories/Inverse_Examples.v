From Coq Require Import ZArith List Arith Lia QArith Qcanon.
From Verif Require Import Err Num Ext Show NumPy Lists Inverse_Model Inverse_Spec Inverse_Proofs Inverse2_Proofs Inverse3_Proofs.
Import ListNotations.
Local Open Scope nat_scope.

Definition xs3 : list (list Qc) := [[0%Qc; qn 3]; [qn 3; 0%Qc]].
Definition ws3 : list Qc := [qn 1; qn 2].
Lemma weighted_ex_lemma : weighted_mean_and_cov 2 xs3 ws3 = Some ([qn 2; qn 1], [[qn 2; - qn 2]; [- qn 2; qn 2]]%Qc) /\
  (quad 2 [[qn 2; - qn 2]; [- qn 2; qn 2]]%Qc (fun i => if i =? 0 then 1 else - (1))%Qc = qn 8).
Proof.
  split; [|qc_compute]. unfold weighted_mean_and_cov. replace (qeqb (qsum ws3) 0) with false by (vm_compute; reflexivity).
  assert (E : weighted_mean 2 xs3 ws3 = [qn 2; qn 1]) by qc_compute. rewrite E.
  assert (E2 : weighted_cov 2 xs3 ws3 [qn 2; qn 1] = [[qn 2; - qn 2]; [- qn 2; qn 2]]%Qc) by qc_compute. rewrite E2. reflexivity.
Qed.

(** Two clusters of predictions: samples 0, 2 and samples 1, 3, 4. *)
Definition in5 : list (list Qc) := [[qn 1]; [qn 2]; [qn 3]; [qn 4]; [qn 5]].
Definition val5 : list Qc := [qn 4; 0%Qc; 0%Qc; qn 4; qn 5].
Definition reg5 : list Z := [0; 1; 0; 1; 1]%Z.
Definition obs5 : list Z := [0; 1; 1; 0; 1]%Z.
Definition ratio5 (i : nat) (x : Qc) : Qc := x.
Definition draws5 (i : nat) : list Qc := if i =? 0 then [Q2Qc (1 # 2); Q2Qc (1 # 4)] else [Q2Qc (1 # 9); Q2Qc (4 # 5); Q2Qc (9 # 10)].

Lemma clusters_reg5 : clusters reg5 2.
Proof. split; [|right; simpl; auto]. intros l H. simpl in H. intuition subst; reflexivity. Qed.
Lemma rejection_ex_lemma : clusters reg5 2 /\
  match invert_rejection_sampling 1 in5 None None val5 reg5 obs5 ratio5 draws5 with
  | Ok res => res_values res = [[qn 1]; [qn 4]; [qn 5]] /\ res_domain res = [(qn 1, qn 5)] /\ res_probs res = [Q2Qc (1 # 3); Q2Qc (1 # 3); Q2Qc (1 # 3)]
  | Raise _ => False
  end.
Proof.
  split; [exact clusters_reg5|].
  assert (E : exists res, invert_rejection_sampling 1 in5 None None val5 reg5 obs5 ratio5 draws5 = Ok res /\
     map (map this) (res_values res) = map (map this) [[qn 1]; [qn 4]; [qn 5]] /\
     map (fun ab => (this (fst ab), this (snd ab))) (res_domain res) = [(this (qn 1), this (qn 5))] /\
     map this (res_probs res) = [1 # 3; 1 # 3; 1 # 3]%Q).
  { eexists. split; [vm_compute; reflexivity|]. vm_compute. auto. }
  destruct E as (res & -> & A & B & C). split; [apply qlist2_eq, A|]. split; [|apply qlist_eq, C].
  destruct (res_domain res) as [|(a, b) [|? ?]]; cbn [map fst snd] in B; try discriminate. assert (a = qn 1) by (apply this_inj; congruence). assert (b = qn 5) by (apply this_inj; congruence).
  subst. reflexivity.
Qed.
Lemma rejection_empty_ex_lemma : length [1; 1]%Z = length [qn 3; qn 4] /\ clusters [1; 1]%Z 2 /\ count_label [1; 1]%Z 0 = 0 /\
  match invert 0%Qc None None [qn 3; qn 4] [1; 1]%Z [1; 1; 0]%Z (fun _ x => x) with Ok (w, _, _) => w = [qn 3; qn 4] | Raise _ => False end.
Proof.
  split; [reflexivity|]. split; [|split; [reflexivity|]].
  - split; [|right; simpl; auto]. intros l H. simpl in H. intuition subst; reflexivity.
  - vm_compute. apply qlist_eq. reflexivity.
Qed.
Lemma invert_ex_lemma : match invert 0%Qc None None val5 reg5 obs5 ratio5 with
  | Ok (w, _, ptrs) => w = [qn 4; 0%Qc; 0%Qc; qn 4; qn 5] /\ ptrs = [[0; 2]; [1; 3; 4]] | Raise _ => False end.
Proof. vm_compute. split; [apply qlist_eq; reflexivity | reflexivity]. Qed.
Lemma fit_weights_ex_lemma : match invert 0%Qc None None val5 reg5 obs5 ratio5 with
  | Ok (_, rs, ptrs) => total_weights 5 rs ptrs (cluster_weights obs5 2) = Ok [Q2Qc (8 # 5); 0%Qc; 0%Qc; Q2Qc (12 # 5); Q2Qc (15 # 5)] | Raise _ => False end.
Proof. vm_compute. f_equal. apply qlist_eq. reflexivity. Qed.
Lemma cluster_weights_refuted_lemma : exists (values : list Qc) regions oregions out,
  length regions = length values /\ invert 0%Qc None None values regions oregions (fun _ x => x) = Ok out /\
  clusters regions 2 /\ qsum (cluster_weights oregions 2) = Q2Qc (2 # 3).
Proof.
  exists [qn 1; qn 2; qn 3; qn 4], [0; 0; 1; 1]%Z, [0; 0; 1; 1; 2; 2]%Z. eexists. split; [reflexivity|]. split; [vm_compute; reflexivity|]. split; [|qc_compute].
  split; [|right; simpl; auto]. intros l H. simpl in H. intuition subst; reflexivity.
Qed.
Lemma labels_both_lemma : forall a b n m, regions_used (Some a) (Some b) n m = (a, b).
Proof. reflexivity. Qed.
