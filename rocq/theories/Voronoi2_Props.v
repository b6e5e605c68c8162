From Coq Require Import List Arith QArith Qcanon.
From Verif Require Import Num Show Voronoi2_Model Voronoi2_Spec Voronoi2_Proofs Voronoi2_Examples.
Import ListNotations.
Local Open Scope Qc_scope.

(** C115: every volume is the area of the cell cut to the domain, divided by the
    area of the domain, if every cell that reaches a side belongs to a sample close
    to that side. *)
Theorem exact_volume_2D_correct : forall simplices P dom ratio (vals : list point), (0 < P)%nat ->
  (forall q, In q vals -> inside dom q) ->
  (forall k q b, In q vals -> on_side dom k b -> in_cell vals q b -> close_to dom ratio k q) ->
  diagram_of simplices (extended dom ratio vals) ->
  exists vols, exact_volume_2D simplices P dom ratio vals = Some vols /\ length vols = length vals /\
    forall i q, nth_error vals i = Some q ->
      exists a, has_area (fun p => in_domain dom p /\ in_cell vals q p) a /\
        nth_error vols i = Some (a / (width dom West * width dom South)).
Proof. exact exact_lemma. Qed.
Print Assumptions exact_volume_2D_correct.
Example exact_volume_2D_correct_ex :
  (forall q, In q vals1 -> inside dom1 q) /\
  (forall k q b, In q vals1 -> on_side dom1 k b -> in_cell vals1 q b -> close_to dom1 1 k q) /\
  diagram_of simp1 (extended dom1 1 vals1) /\ exact_volume_2D simp1 3 dom1 1 vals1 = Some [1].
Proof. split; [exact inside1|]. split; [exact reach1_|]. split; [exact diagram1 | qc_compute]. Qed.

(** With a ratio of at least 1 every sample is close to every side. *)
Theorem full_reflection_suffices : forall dom ratio k q, inside dom q -> 1 <= ratio -> close_to dom ratio k q.
Proof. exact wide_ratio. Qed.
Print Assumptions full_reflection_suffices.

(** The diagram exists: the extended list is one that Qhull accepts. *)
Theorem extended_list_acceptable : forall dom ratio vals, vals <> [] -> NoDup vals ->
  (forall q, In q vals -> inside dom q) ->
  (forall k q b, In q vals -> on_side dom k b -> in_cell vals q b -> close_to dom ratio k q) ->
  acceptable (extended dom ratio vals).
Proof. exact extended_acceptable_lemma. Qed.
Print Assumptions extended_list_acceptable.

(** If no sample is close to some side, the sample nearest to that side gets the
    volume 0, ... *)
Theorem exact_volume_2D_refuted : forall simplices P dom ratio (vals : list point) k i s, (0 < P)%nat ->
  (forall q, In q vals -> inside dom q) -> diagram_of simplices (extended dom ratio vals) ->
  (forall q, In q vals -> ~ close_to dom ratio k q) ->
  nth_error vals i = Some s -> (forall q, In q vals -> gap dom k s <= gap dom k q) ->
  exists vols, exact_volume_2D simplices P dom ratio vals = Some vols /\ nth_error vols i = Some 0.
Proof. exact no_points_lemma. Qed.
Print Assumptions exact_volume_2D_refuted.
(** ... although its cell contains a square of the domain. *)
Theorem cells_have_room : forall dom vals s, inside dom s -> exists e, 0 < e /\
  forall p, - e <= fst p - fst s -> fst p - fst s <= e -> - e <= snd p - snd s -> snd p - snd s <= e ->
    in_domain dom p /\ in_cell vals s p.
Proof. exact cell_room_lemma. Qed.
Print Assumptions cells_have_room.
(** Five samples in the middle of [0,8]^2 and the default ratio 0.25: the volumes
    sum to 1/32. *)
Example exact_volume_2D_refuted_ex :
  (forall q, In q vals2 -> inside dom2 q) /\ diagram_of simp2 (extended dom2 quarter vals2) /\
  (forall q, In q vals2 -> ~ close_to dom2 quarter West q) /\
  exact_volume_2D simp2 2 dom2 quarter vals2 = Some [0; 0; 0; 0; Q2Qc (1 # 32)].
Proof. split; [exact inside2|]. split; [exact diagram2|]. split; [exact far2 | qc_compute]. Qed.
