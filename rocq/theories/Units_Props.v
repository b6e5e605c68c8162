From Coq Require Import List Arith QArith Qcanon.
From Verif Require Import Err Num Ext SampleSet_Spec Query_Model SimpleInputs_Model SimpleFun_Model OutGrid_Spec Units_Spec Units_Proofs Units_Examples.
Import ListNotations.
Local Open Scope nat_scope.

(** C194: units of the quantities of interest.  With a regular partition the
    probabilities of the cells and the answers of all queries stay. *)
Theorem units_queries : forall dim a b Q size cells, length a = dim -> length b = dim -> length Q = dim -> length size = dim -> length cells = dim -> 1 <= dim ->
  (forall u, In u a -> (0 < u)%Qc) -> (forall s, In s size -> (0 < s)%Qc) -> (forall n, In n cells -> 0 < n) ->
  forall s P, regular_partition dim Q size cells = Ok (s, P) -> exists s', regular_partition dim (in_units a b Q) (length_in_units a size) cells = Ok (s', P) /\
  forall x k, length x = dim -> rect_query s' (in_units a b x) k = rect_query s x k.
Proof. exact units_lemma. Qed.
Print Assumptions units_queries.
(** The outputs are found in the same cells, so that prob is called with the
    same probabilities, pointers and volumes. *)
Theorem units_pointers : forall dim a b Q size cells, length a = dim -> length b = dim -> length Q = dim -> length size = dim -> length cells = dim -> 1 <= dim ->
  (forall u, In u a -> (0 < u)%Qc) -> (forall s, In s size -> (0 < s)%Qc) -> (forall n, In n cells -> 0 < n) ->
  forall s P outputs ptrs, regular_partition dim Q size cells = Ok (s, P) -> (forall x, In x (concat outputs) -> length x = dim) -> found_in s outputs ptrs ->
  exists s', regular_partition dim (in_units a b Q) (length_in_units a size) cells = Ok (s', P) /\ found_in s' (map (map (in_units a b)) outputs) ptrs.
Proof. intros dim a b Q size cells h1 h2 h3 h4 h5 h6 h7 h8 h9 s P o p E LX F. destruct (units_lemma dim a b Q size cells h1 h2 h3 h4 h5 h6 h7 h8 h9 s P E) as (s' & E' & H). exists s'. split; [exact E'|]. exact (units_found dim a b s s' o p H LX F). Qed.
Print Assumptions units_pointers.
(** rectangle_domain variants: the box of the domain in the new units *)
Theorem units_domain : forall a b lo hi, length a = length b -> length a = length lo -> length lo = length hi -> (forall u, In u a -> (0 < u)%Qc) ->
  domain_center (in_units a b lo) (in_units a b hi) = in_units a b (domain_center lo hi) /\ domain_lengths (in_units a b lo) (in_units a b hi) = length_in_units a (domain_lengths lo hi).
Proof. intros a b lo hi E1 E2 E3 P. split; [apply domain_center_units; assumption|apply domain_lengths_units; assumption]. Qed.
Print Assumptions units_domain.
(** rectangle_scaled variants: the lengths computed from the data *)
Theorem units_scaled : forall a b data scale sz, length a = length b -> (forall u, In u a -> (0 < u)%Qc) -> (forall v, In v data -> length v = length a) ->
  scaled_sizes data scale = Ok (NArr sz) -> scaled_sizes (map (in_units a b) data) scale = Ok (NArr (length_in_units a sz)).
Proof. exact scaled_units. Qed.
Print Assumptions units_scaled.
(** uniform partitions: the same draws give the same centers and points in the
    new units (k = 3/2 for the centers, 1 for the points) *)
Theorem units_draws : forall k a b size Q u, length a = length b -> rect_point k (length_in_units a size) (in_units a b Q) u = in_units a b (rect_point k size Q u).
Proof. exact rect_point_units. Qed.
Print Assumptions units_draws.
(** Voronoi cells: a common factor keeps the nearest values *)
Theorem units_common_factor : forall u b l x i, (0 < u)%Qc -> length x = length b -> (forall v, In v l -> length v = length b) ->
  nearest distance2 l x i <-> nearest distance2 (map (in_units (repeat u (length b)) b) l) (in_units (repeat u (length b)) b x) i.
Proof. exact common_factor_lemma. Qed.
Print Assumptions units_common_factor.
(** Different factors do not, for every nearest neighbour search *)
Theorem units_voronoi_refuted : forall nn, nn_contract distance2 nn -> exists l x a b, length a = length x /\ length b = length x /\ (forall u, In u a -> (0 < u)%Qc) /\
  nn (map (in_units a b) l) (in_units a b x) <> nn l x.
Proof.
  intros nn H. exists un_values, un_zero, un_three, un_zero. destruct (un_voronoi nn H) as [-> ->]. repeat split; [|discriminate]. intros u [<-|[<-|[]]]; reflexivity.
Qed.
Print Assumptions units_voronoi_refuted.
(** Nor does a negative factor with a regular partition: two outputs of one cell
    are separated. *)
Theorem units_sign_refuted : exists Q size cells a b x y, let r := regular_partition 1 Q size cells in let r' := regular_partition 1 (in_units a b Q) size cells in
  un_cell r x = un_cell r y /\ un_cell r x <> [] /\ un_cell r' (in_units a b x) <> un_cell r' (in_units a b y).
Proof.
  exists [Q2Qc 1], [Q2Qc 2], [2], [Q2Qc (-1)], [0%Qc], [Q2Qc 1], [Q2Qc (1 # 2)]. cbv zeta. destruct un_reversed as (-> & -> & -> & ->). repeat split; discriminate.
Qed.
Print Assumptions units_sign_refuted.
(** Celsius and metres, then Fahrenheit and millimetres *)
Example units_case : map this (in_units un_a un_b un_x) = [68 # 1; 750 # 1]%Q /\ un_cell (regular_partition 2 un_ref un_size [2; 3]) un_x = [2] /\
  un_cell (regular_partition 2 (in_units un_a un_b un_ref) (length_in_units un_a un_size) [2; 3]) (in_units un_a un_b un_x) = [2].
Proof. exact un_case. Qed.
Example units_draws_case : map this (rect_point (Q2Qc (3 # 2)) un_size un_ref [Q2Qc (3 # 4); Q2Qc (1 # 4)]) = [95 # 4; 1 # 8]%Q /\
  map this (rect_point (Q2Qc (3 # 2)) (length_in_units un_a un_size) (in_units un_a un_b un_ref) [Q2Qc (3 # 4); Q2Qc (1 # 4)]) = [299 # 4; 125 # 1]%Q.
Proof. exact un_draws. Qed.
