(** C101-C106: bounds, appending, bounding boxes and radii of sample sets. *)
From Coq Require Import List Arith QArith Qcanon Lia Permutation.
From Verif Require Import Err Num SampleSet_Model SampleSet_Spec Volume_Spec Bounds_Model Bounds_Spec Bounds_Proofs Bounds_Examples.
Import ListNotations.
Local Open Scope nat_scope.

(** ** C101 *)
Theorem bounds_repeat_the_domain : forall s n d, valid_set s n -> domain s = Some d ->
  exists s', update_bounds None s = Ok s' /\
    constant_rows (glob s' Left_) n (map fst d) /\ constant_rows (glob s' Right_) n (map snd d) /\
    constant_rows (glob s' Width_) n (map (fun p => (snd p - fst p)%Qc) d) /\
    (forall a, a <> Left_ -> a <> Right_ -> a <> Width_ -> glob s' a = glob s a) /\
    valid_set s' n.
Proof. exact update_bounds_spec. Qed.
Print Assumptions bounds_repeat_the_domain.
Example bounds_repeat_the_domain_ex : valid_set two_set 2 /\ domain two_set = Some [(0, 1 + 1)%Qc].
Proof. split; [exact two_set_valid | reflexivity]. Qed.

(** Another number of rows than there are samples makes the set inconsistent. *)
Theorem bounds_of_other_number : forall s n d k, valid_set s n -> domain s = Some d -> k <> n ->
  exists s', update_bounds (Some k) s = Ok s' /\ forall P, check_num P s' = Raise LengthNotMatching.
Proof. exact update_bounds_other_number. Qed.
Print Assumptions bounds_of_other_number.

(** On every rank the local bounds are the blocks of the global ones. *)
Theorem bounds_commute_with_localize : forall P s n d, 0 < P -> valid_set s n -> domain s = Some d ->
  exists s1 s2 t1 t2, global_to_local P s = Ok s1 /\ update_bounds_local s1 = Ok s2 /\
    update_bounds None s = Ok t1 /\ global_to_local P t1 = Ok t2.
Proof. exact bounds_commute_total. Qed.
Print Assumptions bounds_commute_with_localize.
Theorem local_bounds_are_blocks : forall P s s1 s2 t1 t2, 0 < P -> glob s Values <> None ->
  global_to_local P s = Ok s1 -> update_bounds_local s1 = Ok s2 ->
  update_bounds None s = Ok t1 -> global_to_local P t1 = Ok t2 ->
  loc s2 Left_ = loc t2 Left_ /\ loc s2 Right_ = loc t2 Right_ /\ loc s2 Width_ = loc t2 Width_.
Proof. exact bounds_commute. Qed.
Print Assumptions local_bounds_are_blocks.

(** (x - left) / width lies in the unit cube exactly for the points of the domain. *)
Theorem relative_coordinates_in_unit_cube : forall d x, (forall p, In p d -> (fst p < snd p)%Qc) -> length x = length d ->
  (in_box (unit_cube (length d)) (unit_pt d x) <-> in_box d x) /\ scale_pt d (unit_pt d x) = x.
Proof. exact unit_cube_both. Qed.
Print Assumptions relative_coordinates_in_unit_cube.
Example relative_coordinates_ex : (forall p, In p [(0, 1 + 1)%Qc] -> (fst p < snd p)%Qc).
Proof. exact (proj2 (proj2 (proj2 (proj2 (proj2 two_set_ready))))). Qed.

(** ** C102 *)
Theorem append_adds_rows : forall x v (s : sset pt), glob s Values = Some v -> tail_shape v = tail_shape x ->
  exists s', append_values Voronoi x s = Ok s' /\ glob s' Values = Some (mk_arr (rows v ++ rows x) (tail_shape v)) /\
    (forall a, a <> Values -> glob s' a = glob s a) /\ kd s' = kd s /\ loc s' = loc s /\ dim s' = dim s /\ domain s' = domain s.
Proof. exact append_rows. Qed.
Print Assumptions append_adds_rows.

(** Afterwards the set is consistent exactly if nothing but the values is stored. *)
Theorem append_consistent_iff : forall P x (s s' : sset pt) n, valid_set s n -> rows x <> [] -> append_values Voronoi x s = Ok s' ->
  (check_num P s' = Ok (n + length (rows x)) <-> forall a, a <> Values -> glob s a = None) /\
  (check_num P s' = Raise LengthNotMatching <-> exists a, a <> Values /\ glob s a <> None).
Proof. exact append_check. Qed.
Print Assumptions append_consistent_iff.
Example append_consistent_iff_ex : valid_set two_set 2 /\ exists s', append_values Voronoi vals_b two_set = Ok s'.
Proof. split; [exact two_set_valid | eexists; reflexivity]. Qed.

(** Once a set was queried, no query works after an append. *)
Theorem append_after_query_refuted : forall nn P p q x (s s1 s2 : sset pt) i, kd s = None ->
  query nn P p s = Ok (i, s1) -> rows x <> [] -> append_values Voronoi x s1 = Ok s2 ->
  query nn P q s2 = Raise LengthNotMatching.
Proof. exact append_after_query. Qed.
Print Assumptions append_after_query_refuted.
Example append_after_query_refuted_ex :
  kd two_set = None /\ exists i s1 s2, query nn1 1 [0%Qc] two_set = Ok (i, s1) /\ append_values Voronoi vals_b s1 = Ok s2.
Proof. split; [reflexivity | do 3 eexists; split; reflexivity]. Qed.

(** Rectangle and ball sets ignore the call. *)
Theorem append_to_boxes_refuted : exists (s s' : sset pt) x v, valid_set s 2 /\ rows x <> [] /\ append_values Boxes x s = Ok s' /\
  glob s' Values = Some v /\ forall r, In r (rows x) -> ~ In r (rows v).
Proof. exact boxes_ignore. Qed.
Print Assumptions append_to_boxes_refuted.

(** Rebuilding the tree makes the new samples count. *)
Theorem append_then_rebuild_partial : forall dist nn P q x v (s s1 : sset pt), nn_contract dist nn -> glob s Values = Some v ->
  tail_shape v = [dim s] -> (forall a, a <> Values -> a <> KdtreeValues -> glob s a = None) -> rows v ++ rows x <> [] ->
  append_values Voronoi x s = Ok s1 ->
  exists s2 i s3, set_kdtree s1 = Ok s2 /\ query nn P q s2 = Ok (i, s3) /\ nearest dist (rows v ++ rows x) q i.
Proof. exact append_then_tree. Qed.
Print Assumptions append_then_rebuild_partial.
Example append_then_rebuild_partial_ex : nn_contract dist1 nn1 /\ (forall a, a <> Values -> a <> KdtreeValues -> glob two_set a = None).
Proof. split; [exact nn1_contract | intros [] H _; try reflexivity; congruence]. Qed.

(** ** C103 *)
Theorem bounding_box_refuted : exists ops b c b' v, brun ops (new_boxed 1) = Ok b /\ get_bounding_box b = Ok (c, b') /\
  glob (bset b) Values = Some v /\ (forall r, In r (rows v) -> length r = 1) /\ exists x, In x (rows v) /\ ~ in_box c x.
Proof. exact box_witness. Qed.
Print Assumptions bounding_box_refuted.

(** In general: after a first answer new values never change the answer. *)
Theorem bounding_box_stays : forall b c b1 x b2, get_bounding_box b = Ok (c, b1) -> boxed_set_values x b1 = Ok b2 ->
  get_bounding_box b2 = Ok (c, b2).
Proof. exact box_stale. Qed.
Print Assumptions bounding_box_stays.

Theorem bounding_box_partial : forall d ops b c b' v, box_refreshed false false ops = true -> brun ops (new_boxed d) = Ok b ->
  get_bounding_box b = Ok (c, b') -> glob (bset b) Values = Some v -> (forall r, In r (rows v) -> length r = dim (bset b)) ->
  smallest_box c (rows v).
Proof. exact refreshed_box. Qed.
Print Assumptions bounding_box_partial.
Example bounding_box_partial_ex :
  let ops := [BSetValues vals_a; BGetBox; BAppend vals_b; BSetBox; BGetBox] in
  box_refreshed false false ops = true /\ exists b, brun ops (new_boxed 1) = Ok b.
Proof. exact box_history_ex. Qed.

(** ** C104 *)
Theorem radii_are_largest_distances_partial : forall dist nn P normalize us s n x d s', 0 < P -> us <> [] -> radii_ready s n x d ->
  estimate_radii dist nn P normalize us s = Ok s' ->
  (exists rad, glob s' ((if normalize then NormalizedRadii else Radii)) = Some (mk_arr (map (fun q => [q]) rad) []) /\ length rad = n /\
     forall i v, nth_error (rows x) i = Some v -> exists q, nth_error rad i = Some q /\
       greatest q (distances_in_cell dist nn normalize d (rows x) (map (place d) (concat us)) i v)) /\
  (forall a, a <> (if normalize then NormalizedRadii else Radii) -> a <> Left_ -> a <> Right_ -> a <> Width_ -> a <> KdtreeValues -> glob s' a = glob s a) /\
  (forall a, local_is_split P s' a).
Proof. exact estimate_radii_spec. Qed.
Print Assumptions radii_are_largest_distances_partial.

(** It returns exactly if every process hit every cell; otherwise it raises. *)
Theorem radii_returned_iff : forall dist nn P normalize us s n x d, 0 < P -> us <> [] -> radii_ready s n x d ->
  ((exists s', estimate_radii dist nn P normalize us s = Ok s') <-> all_cells_hit nn d (rows x) us) /\
  (~ all_cells_hit nn d (rows x) us -> estimate_radii dist nn P normalize us s = Raise PyValueError).
Proof. exact estimate_radii_iff. Qed.
Print Assumptions radii_returned_iff.
Example radii_returned_iff_ex : radii_ready two_set 2 two_values [(0, 1 + 1)%Qc] /\
  all_cells_hit nn1 [(0, 1 + 1)%Qc] (rows two_values) draws2'.
Proof. split; [exact two_set_ready | exact draws2'_hit]. Qed.

Theorem radii_layout_independent_partial : forall dist nn P P' normalize us us' s n x d s1 s2,
  0 < P -> 0 < P' -> us <> [] -> us' <> [] -> radii_ready s n x d ->
  Permutation (concat us) (concat us') ->
  estimate_radii dist nn P normalize us s = Ok s1 -> estimate_radii dist nn P' normalize us' s = Ok s2 ->
  glob s1 ((if normalize then NormalizedRadii else Radii)) = glob s2 ((if normalize then NormalizedRadii else Radii)).
Proof. exact radii_layout. Qed.
Print Assumptions radii_layout_independent_partial.

Theorem radii_process_count_refuted : exists dist nn s n x d us1 us2 s',
  nn_contract dist nn /\ radii_ready s n x d /\ concat us1 = concat us2 /\ length us1 = 1 /\ length us2 = 2 /\
  map (@length _) us2 = [mc_share 3 2 0; mc_share 3 2 1] /\
  estimate_radii dist nn 1 true us1 s = Ok s' /\ estimate_radii dist nn 2 true us2 s = Raise PyValueError.
Proof. exact radii_two_ranks. Qed.
Print Assumptions radii_process_count_refuted.

(** With fewer points than processes the call always fails. *)
Theorem radii_few_points_refuted : forall dist nn P normalize n_mc us s n x d, 0 < P -> n_mc < P -> 0 < n -> radii_ready s n x d ->
  map (@length _) us = map (mc_share n_mc P) (seq 0 P) -> estimate_radii dist nn P normalize us s = Raise PyValueError.
Proof. exact radii_few_points. Qed.
Print Assumptions radii_few_points_refuted.

(** ** C105 *)
Theorem radii_never_exceed_true_radius : forall dist pd nn P normalize us s n x d s' rad, 0 < P -> us <> [] -> radii_ready s n x d ->
  nn_contract pd nn -> (forall b u, In b us -> In u b -> in_box (unit_cube (length d)) u) ->
  estimate_radii dist nn P normalize us s = Ok s' ->
  glob s' ((if normalize then NormalizedRadii else Radii)) = Some (mk_arr (map (fun q => [q]) rad) []) ->
  forall i v q rho, nth_error (rows x) i = Some v -> nth_error rad i = Some q ->
    (forall y, in_box d y -> nearest pd (rows x) y i -> (dist (coords normalize d y) (coords normalize d v) <= rho)%Qc) ->
    (q <= rho)%Qc.
Proof. exact radii_below. Qed.
Print Assumptions radii_never_exceed_true_radius.
Example radii_never_exceed_ex : nn_contract dist1 nn1 /\ (forall b u, In b draws2' -> In u b -> in_box (unit_cube 1) u) /\
  exists s', estimate_radii dist1 nn1 2 true draws2' two_set = Ok s'.
Proof. split; [exact nn1_contract|]. split; [exact draws_in_cube|]. eexists. reflexivity. Qed.

(** ** C106 *)
Theorem radii_and_volumes : forall dist pd nn P normalize n_mc us s n x d s', 0 < P -> us <> [] -> radii_ready s n x d -> 0 < n ->
  nn_contract pd nn -> length (concat us) = n_mc ->
  estimate_radii_and_volume dist nn P normalize n_mc us s = Ok s' ->
  (exists s'' : sset pt, estimate_radii dist nn P normalize us s = Ok s'' /\ glob s' ((if normalize then NormalizedRadii else Radii)) = glob s'' ((if normalize then NormalizedRadii else Radii))) /\
  (exists vol, glob s' Volumes = Some (mk_arr (map (fun q => [q]) vol) []) /\ length vol = n /\
    (forall i, i < n -> nth_error vol i = Some (fraction (nn (rows x)) (map (place d) (concat us)) i)) /\
    qsum vol = 1%Qc /\ (forall w, In w vol -> (0 <= w)%Qc)) /\
  (forall a, local_is_split P s' a).
Proof. exact radii_volume_spec. Qed.
Print Assumptions radii_and_volumes.
Example radii_and_volumes_ex : exists s', estimate_radii_and_volume dist1 nn1 2 true 4 draws2' two_set = Ok s'.
Proof. eexists. reflexivity. Qed.

Theorem radii_and_volumes_returned_iff : forall dist nn P normalize n_mc us s n x d, 0 < P -> us <> [] -> radii_ready s n x d ->
  ((exists s', estimate_radii_and_volume dist nn P normalize n_mc us s = Ok s') <-> all_cells_hit nn d (rows x) us).
Proof. exact radii_volume_iff. Qed.
Print Assumptions radii_and_volumes_returned_iff.

(** The processes together draw the requested number of points. *)
Theorem monte_carlo_shares_add_up : forall n P, 0 < P -> list_sum (map (mc_share n P) (seq 0 P)) = n.
Proof. exact mc_shares_total. Qed.
Print Assumptions monte_carlo_shares_add_up.
