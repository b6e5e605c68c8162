From Coq Require Import List Arith Bool QArith Qcanon Lia Permutation.
From Verif Require Import Err Num Lists NumPy Show SampleSet_Model SampleSet_Spec SampleSet_Proofs
  Volume_Model Bounds_Model Bounds_Spec Bounds_Proofs.
Import ListNotations.
Local Open Scope nat_scope.

(** Two samples 1/4 and 3/4 in the interval [0, 2]. *)
Definition q4 (n : Z) : Qc := Q2Qc (n # 4).
Definition two_values : arr pt := mk_arr [[q4 1]; [q4 3]] [1].
Definition two_set : sset pt :=
  mk_sset 1 (fun a => match a with Values => Some two_values | _ => None end) (fun _ => None) None None
          (Some [(0, 1 + 1)%Qc]) None.
Definition dist1 (x y : pt) : Qc := qsum (map (fun p => qabs (fst p - snd p)%Qc) (combine x y)).
Definition nn1 (l : list pt) (x : pt) : nat := argmin (map (dist1 x) l).

Lemma nn1_contract : nn_contract dist1 nn1.
Proof. apply argmin_contract. Qed.

Lemma two_set_valid : valid_set two_set 2.
Proof.
  split; [intros [] x H; simpl in H; try discriminate; injection H as <-; reflexivity|].
  exists two_values. split; reflexivity.
Qed.
Lemma two_set_ready : radii_ready two_set 2 two_values [(0, 1 + 1)%Qc].
Proof.
  split; [exact two_set_valid|]. split; [reflexivity|]. split; [left; reflexivity|]. split; [reflexivity|].
  split; [reflexivity|]. intros p [<-|[]]. reflexivity.
Qed.

Definition draws1 : list (list pt) := [[[q4 0]; [q4 3]; [Q2Qc (1 # 5)]]].
Definition draws2 : list (list pt) := [[[q4 0]; [q4 3]]; [[Q2Qc (1 # 5)]]].
Definition draws2' : list (list pt) := [[[q4 0]; [q4 3]]; [[Q2Qc (1 # 5)]; [q4 2]]].

Lemma draws1_hit : all_cells_hit nn1 [(0, 1 + 1)%Qc] (rows two_values) draws1.
Proof.
  intros b i Hb Hi. destruct Hb as [<-|[]]. destruct i as [|[|i]]; [| |simpl in Hi; lia].
  - exists [q4 0]. split; [left; reflexivity | vm_compute; reflexivity].
  - exists [q4 3]. split; [right; left; reflexivity | vm_compute; reflexivity].
Qed.
Lemma draws2'_hit : all_cells_hit nn1 [(0, 1 + 1)%Qc] (rows two_values) draws2'.
Proof.
  intros b i Hb Hi. destruct Hb as [<-|[<-|[]]]; (destruct i as [|[|i]]; [| |simpl in Hi; lia]).
  - exists [q4 0]. split; [left; reflexivity | vm_compute; reflexivity].
  - exists [q4 3]. split; [right; left; reflexivity | vm_compute; reflexivity].
  - exists [Q2Qc (1 # 5)]. split; [left; reflexivity | vm_compute; reflexivity].
  - exists [q4 2]. split; [right; left; reflexivity | vm_compute; reflexivity].
Qed.
Lemma draws_in_cube : forall b u, In b draws2' -> In u b -> in_box (unit_cube 1) u.
Proof.
  intros b u [<-|[<-|[]]] Hu; simpl in Hu;
    repeat match goal with H : _ \/ _ |- _ => destruct H as [<-|H] | H : False |- _ => destruct H end;
    (constructor; [split; vm_compute; discriminate | constructor]).
Qed.
Lemma draws2_not_hit : ~ all_cells_hit nn1 [(0, 1 + 1)%Qc] (rows two_values) draws2.
Proof.
  intro H. destruct (H [[Q2Qc (1 # 5)]] 1) as (u & [<-|[]] & E); [right; left; reflexivity | simpl; lia | vm_compute in E; discriminate].
Qed.

(** The same three draws: one process finishes, two processes do not. *)
Lemma radii_two_ranks : exists dist nn s n x d us1 us2 s',
  nn_contract dist nn /\ radii_ready s n x d /\ concat us1 = concat us2 /\ length us1 = 1 /\ length us2 = 2 /\
  map (@length _) us2 = [mc_share 3 2 0; mc_share 3 2 1] /\
  estimate_radii dist nn 1 true us1 s = Ok s' /\ estimate_radii dist nn 2 true us2 s = Raise PyValueError.
Proof.
  destruct (proj2 (proj1 (estimate_radii_iff dist1 nn1 1 true draws1 two_set 2 two_values _ ltac:(lia) ltac:(discriminate) two_set_ready)) draws1_hit) as [s' E].
  exists dist1, nn1, two_set, 2, two_values, [(0, 1 + 1)%Qc], draws1, draws2, s'.
  split; [exact nn1_contract|]. split; [exact two_set_ready|]. repeat (split; [reflexivity|]). split; [exact E|].
  apply (proj2 (estimate_radii_iff dist1 nn1 2 true draws2 two_set 2 two_values _ ltac:(lia) ltac:(discriminate) two_set_ready)). exact draws2_not_hit.
Qed.

(** Fewer points than processes: some rank draws nothing, and the call fails. *)
Lemma radii_few_points dist nn P normalize n_mc us s n x d : 0 < P -> n_mc < P -> 0 < n -> radii_ready s n x d ->
  map (@length _) us = map (mc_share n_mc P) (seq 0 P) -> estimate_radii dist nn P normalize us s = Raise PyValueError.
Proof.
  intros HP Hm Hn Rd L.
  assert (Lu : length us = P) by (apply (f_equal (@length nat)) in L; rewrite !map_length, seq_length in L; exact L).
  apply (proj2 (estimate_radii_iff dist nn P normalize us s n x d HP ltac:(destruct us; [simpl in Lu; lia | discriminate]) Rd)).
  intro H. assert (Hl : In (nth (P - 1) us []) us) by (apply nth_In; lia).
  destruct (H _ 0 Hl) as (u & Hu & _); [pose proof (radii_rows _ _ _ _ Rd); unfold pt in *; lia|].
  assert (E : length (nth (P - 1) us []) = 0).
  { assert (E : nth_error (map (@length _) us) (P - 1) = Some (length (nth (P - 1) us []))) by (rewrite nth_error_map, (nth_error_nth' us [] (n := P - 1)) by lia; reflexivity).
    rewrite L, nth_error_map, nth_error_seq in E. destruct (Nat.ltb_spec (P - 1) P); [|lia]. simpl in E. injection E as E. rewrite <- E.
    unfold mc_share. rewrite Nat.div_small, Nat.mod_small by exact Hm. destruct (Nat.ltb_spec (P - 1) n_mc); [lia | reflexivity]. }
  destruct (nth (P - 1) us []); [destruct Hu | discriminate].
Qed.

(** *** Bounding box and appending *)
Definition vals_a : arr pt := mk_arr [[0%Qc]; [1%Qc]] [1].
Definition vals_b : arr pt := mk_arr [[(1 + 1)%Qc]] [1].

Lemma box_witness : exists ops b c b' v, brun ops (new_boxed 1) = Ok b /\ get_bounding_box b = Ok (c, b') /\
  glob (bset b) Values = Some v /\ (forall r, In r (rows v) -> length r = 1) /\ exists x, In x (rows v) /\ ~ in_box c x.
Proof.
  exists [BSetValues vals_a; BGetBox; BSetValues vals_b]. do 4 eexists.
  split; [reflexivity|]. split; [reflexivity|]. split; [reflexivity|].
  split; [intros r [<-|[]]; reflexivity|]. exists [(1 + 1)%Qc]. split; [left; reflexivity|].
  intro F. inversion_clear F as [|? ? ? ? [_ F1] _]. vm_compute in F1. apply F1. reflexivity.
Qed.
Lemma box_history_ex :
  let ops := [BSetValues vals_a; BGetBox; BAppend vals_b; BSetBox; BGetBox] in
  box_refreshed false false ops = true /\ exists b, brun ops (new_boxed 1) = Ok b.
Proof. split; [reflexivity | eexists; reflexivity]. Qed.

Lemma boxes_ignore : exists (s s' : sset pt) x v, valid_set s 2 /\ rows x <> [] /\ append_values Boxes x s = Ok s' /\
  glob s' Values = Some v /\ forall r, In r (rows x) -> ~ In r (rows v).
Proof.
  exists two_set, two_set, vals_b, two_values. split; [exact two_set_valid|]. split; [discriminate|].
  split; [reflexivity|]. split; [reflexivity|]. intros r [<-|[]] [H|[H|[]]]; injection H as H; discriminate H.
Qed.
