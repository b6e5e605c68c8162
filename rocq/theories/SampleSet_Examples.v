(** Concrete sets used by the examples and refutations of SampleSet_Props. *)
From Coq Require Import List Arith QArith Qcanon Permutation Lia.
From Verif Require Import Err Num NumPy SampleSet_Model SampleSet_Spec SampleSet_Proofs.
Import ListNotations.
Local Open Scope nat_scope.

(** Three samples with probabilities; rows are numbers for brevity. *)
Definition ex_set : sset nat :=
  set_glob Probabilities (Some (mk_arr [10; 11; 12] []))
    (set_glob Values (Some (mk_arr [5; 6; 7] [1])) (new_sset 1)).
Definition ex_set2 : sset nat := set_glob Values (Some (mk_arr [8; 9] [1])) (new_sset 1).
Definition ex_local : sset nat :=
  set_loc Volumes (Some [mk_arr [1; 2] []; mk_arr [3] []])
    (set_loc Values (Some [mk_arr [5; 6] [1]; mk_arr [7] [1]]) (new_sset 1)).

Lemma ex_set_rows : all_have_rows ex_set 3.
Proof. intros a x G. destruct a; simpl in G; try discriminate; injection G as <-; reflexivity. Qed.

Lemma ex_set_hyps :
  has_global ex_set /\ (exists n, all_have_rows ex_set n) /\ width_is_dim ex_set /\
  (forall a, glob ex_set a = None -> loc ex_set a = None).
Proof.
  repeat split.
  - exists Values. eexists. reflexivity.
  - exists 3. exact ex_set_rows.
  - intros x [= <-]. exists []. reflexivity.
Qed.

Lemma ex_set_valid : valid_set ex_set 3.
Proof. split; [exact ex_set_rows | eexists; split; reflexivity]. Qed.

Lemma ex_set2_valid : valid_set ex_set2 2.
Proof.
  split; [|eexists; split; reflexivity].
  intros a x G. destruct a; simpl in G; try discriminate; injection G as <-; reflexivity.
Qed.

Lemma ex_wrong_width :
  let s := set_glob Values (Some (mk_arr [5; 6; 7] [2])) ex_set in
  has_global s /\ all_have_rows s 3 /\ values_2d s /\ check_num 1 s = Raise DimNotMatching.
Proof.
  intro s. repeat split.
  - exists Values. eexists. reflexivity.
  - intros a x G. destruct a; simpl in G; try discriminate; injection G as <-; reflexivity.
  - intros x [= <-]. discriminate.
Qed.

Lemma ex_local_hyps :
  (forall a, glob ex_local a = None) /\ (forall r, r < 2 -> local_rows ex_local r (2 - r)) /\
  check_num 2 ex_local = Ok 3.
Proof.
  split; [reflexivity|]. split; [|reflexivity]. intros r Hr. split.
  - exists Values. destruct r as [|[|r]]; [do 2 eexists; split; reflexivity .. | lia].
  - intros a bs b L B. destruct a; simpl in L; try discriminate; injection L as <-;
      destruct r as [|[|r]]; simpl in B; try lia; injection B as <-; reflexivity.
Qed.

Lemma clip_weights_witness :
  exists (s s' : sset nat) w, valid_set s 3 /\ weights s = Some w /\ length (rows w) = 3 /\
    clip 1 2 s = Ok s' /\ valid_set s' 2 /\ weights s' = Some w.
Proof.
  set (s := mk_sset 1 (glob ex_set) (fun _ => None) None None None (Some (mk_arr [20; 21; 22] []))).
  assert (V : valid_set s 3) by exact ex_set_valid.
  destruct (clip_spec 1 2 s 3 ltac:(lia) V) as (s' & E & _ & _ & _ & V' & _).
  exists s, s', (mk_arr [20; 21; 22] []). split; [exact V|]. split; [reflexivity|]. split; [reflexivity|].
  split; [exact E|]. split; [exact V'|]. vm_compute in E. injection E as <-. reflexivity.
Qed.

Lemma ex_merge :
  ready 2 ex_set 3 /\ ready 2 ex_set2 2 /\ compatible_domains ex_set ex_set2 /\
  exists u, merge 2 ex_set ex_set2 = Ok u /\ glob u Values = Some (mk_arr [5; 6; 8; 7; 9] [1]).
Proof.
  split; [split; [exact ex_set_valid | intro H; exfalso; apply H; reflexivity]|].
  split; [split; [exact ex_set2_valid | intro H; exfalso; apply H; reflexivity]|].
  split; [intros d e D; discriminate | eexists; split; reflexivity].
Qed.

Lemma ex_domains_apart : ~ close_domains [(0, 1)%Qc] [(0, 1 + 1)%Qc].
Proof.
  intro H. inversion H as [|? ? ? ? [_ H2] _]; subst. unfold close_numbers in H2. simpl in H2.
  vm_compute in H2. apply H2. reflexivity.
Qed.

Lemma merge_order_witness :
  exists (s t u : sset nat) x y z, ready 2 s 3 /\ ready 2 t 2 /\ merge 2 s t = Ok u /\
    glob s Values = Some x /\ glob t Values = Some y /\ glob u Values = Some z /\
    rows z <> rows x ++ rows y.
Proof.
  destruct ex_merge as (H1 & H2 & _ & u & H3 & H4).
  exists ex_set, ex_set2, u, (mk_arr [5; 6; 7] [1]), (mk_arr [8; 9] [1]), (mk_arr [5; 6; 8; 7; 9] [1]).
  repeat split; auto; try apply H1; try apply H2. discriminate.
Qed.

(** One-dimensional samples. *)
Definition abs_dist (x y : Qc) : Qc := qabs (x - y).

Lemma stale_query_witness nn : nn_contract abs_dist nn ->
  exists ops s x i s' v, vrun nn 1 ops (new_sset 1) = Ok s /\ query nn 1 x s = Ok (i, s') /\
    glob s' Values = Some v /\ ~ nearest abs_dist (rows v) x i.
Proof.
  intro C. exists [VSetValues (mk_arr [0; 1]%Qc [1]); VQuery 0%Qc; VSetValues (mk_arr [1; 0]%Qc [1])].
  do 2 eexists. exists (nn [0; 1]%Qc 0%Qc). do 2 eexists.
  split; [reflexivity|]. split; [reflexivity|]. split; [reflexivity|].
  cbn [rows].
  destruct (C [0; 1]%Qc 0%Qc) as (v & Hv & Hm); [discriminate|].
  assert (E : nn [0; 1]%Qc 0%Qc = 0).
  { destruct (nn [0; 1]%Qc 0%Qc) as [|[|k]]; [reflexivity| |destruct k; discriminate].
    simpl in Hv. injection Hv as <-. specialize (Hm 0%Qc (or_introl eq_refl)).
    vm_compute in Hm. exfalso. apply Hm. reflexivity. }
  rewrite E. intros (w & Hw & Hn). simpl in Hw. injection Hw as <-.
  specialize (Hn 0%Qc (or_intror (or_introl eq_refl))). vm_compute in Hn. apply Hn. reflexivity.
Qed.

Lemma stale_local_witness :
  exists (s s1 s2 : sset nat) q, valid_set s 3 /\ length (rows q) = 3 /\ global_to_local 2 s = Ok s1 /\
    local_to_global (set_glob Probabilities (Some q) s1) = Ok s2 /\ glob s2 Probabilities <> Some q.
Proof.
  exists ex_set. do 2 eexists. exists (mk_arr [0; 0; 1] []).
  split; [exact ex_set_valid|]. split; [reflexivity|]. split; [reflexivity|]. split; [reflexivity|]. discriminate.
Qed.
