(** C127: finite polygons for the cells of a Voronoi diagram. *)
From Coq Require Import ZArith List Arith Bool Reals Lra Lia Permutation.
From Verif Require Import Err Polygons_Model Polygons_Spec Polygons_Proofs Polygons_Examples.
Import ListNotations.
Local Open Scope R_scope.

(** There is one polygon for each point, and all its vertices, those of the diagram and
    those that are added, are points of the Voronoi cell of that point. *)
Theorem polygons_lie_in_cells : forall order v radius, contract v -> orders order -> (forall r, radius = Some r -> 0 <= r) ->
  exists regs verts, finite_polygons order v radius = Ok (regs, verts) /\ length regs = length (v_points v) /\
    (exists extra, verts = map Some (v_vertices v) ++ map Some extra) /\ forall i reg, nth_error regs i = Some reg -> polygon_in_cell v verts i reg.
Proof. exact cells_lemma. Qed.
Print Assumptions polygons_lie_in_cells.
(** Finite cells are returned as they are. *)
Theorem finite_cells_unchanged : forall order v radius regs verts i r reg0, contract v -> orders order -> (forall r, radius = Some r -> 0 <= r) -> finite_polygons order v radius = Ok (regs, verts) ->
  nth_error (v_point_region v) i = Some r -> nth_error (v_regions v) r = Some reg0 -> (forall z, In z reg0 -> (0 <= z)%Z) -> nth_error regs i = Some (map Z.to_nat reg0).
Proof. exact finite_lemma. Qed.
Print Assumptions finite_cells_unchanged.
(** An infinite cell keeps its finite vertices and gets one vertex for each of its
    infinite ridges: a point of the ridge (it lies in both cells) at distance radius from
    the finite end of the ridge. *)
Theorem infinite_cells_closed : forall order v radius regs verts i r reg0 reg, contract v -> orders order -> (forall r, radius = Some r -> 0 <= r) -> finite_polygons order v radius = Ok (regs, verts) ->
  nth_error (v_point_region v) i = Some r -> nth_error (v_regions v) r = Some reg0 -> (exists z, In z reg0 /\ (z < 0)%Z) -> nth_error regs i = Some reg ->
  exists new, Permutation reg (map Z.to_nat (filter (fun z => (0 <=? z)%Z) reg0) ++ new) /\
    (forall k, In k new -> exists f j w, nth_error verts k = Some (Some f) /\ infinite_ridge v i j w /\ dist2 f w = Rsqr (the_radius v radius) /\ in_cell v f i /\ in_cell v f j) /\
    (forall j w, infinite_ridge v i j w -> exists k f, In k new /\ nth_error verts k = Some (Some f) /\ dist2 f w = Rsqr (the_radius v radius) /\ in_cell v f i /\ in_cell v f j).
Proof. exact infinite_lemma. Qed.
Print Assumptions infinite_cells_closed.
(** A square with its middle: the cell of the middle is finite, the others are not. *)
Example polygons_ex : contract square /\ nth_error (v_regions square) 0 = Some [0; 1; 2; 3]%Z /\ infinite_ridge square 1 2 (1, 0) /\ orders (fun l => seq 0 (length l)).
Proof.
  split; [exact square_contract|]. split; [reflexivity|]. split; [|intro l; apply Permutation_refl].
  exists (-1)%Z, 0%Z, 0%Z. split; [left; cbn; tauto|]. split; [left; split; [lia | reflexivity]|]. split; [lia | reflexivity].
Qed.
(** The polygons need not cover the samples: here all samples are above the line y = 0
    and all polygons are below y = -2. *)
Theorem polygons_cover_refuted : exists v, contract v /\ (forall q, In q (v_points v) -> 0 <= snd q) /\
  (exists regs verts, finite_polygons (fun l => seq 0 (length l)) v None = Ok (regs, verts) /\ length regs = 3%nat) /\
  forall order regs verts, orders order -> finite_polygons order v None = Ok (regs, verts) ->
  forall i reg k w, nth_error regs i = Some reg -> In k reg -> nth_error verts k = Some (Some w) -> snd w <= -2.
Proof. exact flat_refuted. Qed.
Print Assumptions polygons_cover_refuted.
