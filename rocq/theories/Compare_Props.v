From Coq Require Import List Arith QArith Qcanon.
From Verif Require Import Err Num Ext Show Inverse_Model Compare_Model Compare_Spec Compare_Proofs Compare_Examples.
Import ListNotations.
Local Open Scope nat_scope.

(** C49 *)
Theorem tv_is_metric : forall (X : Type) (f g h : X -> Qc) v, v <> [] ->
  exists dfg dgf dgh dfh s1 s2 s3 s4,
    distance f g tv false (set_compare v new_cmp) = Ok (Some dfg, s1) /\ distance g f tv false (set_compare v new_cmp) = Ok (Some dgf, s2) /\
    distance g h tv false (set_compare v new_cmp) = Ok (Some dgh, s3) /\ distance f h tv false (set_compare v new_cmp) = Ok (Some dfh, s4) /\
    (0 <= dfg)%Qc /\ dfg = dgf /\ (dfg = 0%Qc <-> forall x, In x v -> f x = g x) /\ (dfh <= dfg + dgh)%Qc.
Proof. exact tv_metric_lemma. Qed.
Print Assumptions tv_is_metric.
Theorem tv_normalized_is_bounded_metric : forall (X : Type) (f g h : X -> Qc) v,
  (forall x, In x v -> (0 <= f x)%Qc /\ (0 <= g x)%Qc /\ (0 <= h x)%Qc) -> (0 < sum_at f v)%Qc -> (0 < sum_at g v)%Qc -> (0 < sum_at h v)%Qc ->
  exists dfg dgf dgh dfh s1 s2 s3 s4,
    distance f g tv true (set_compare v new_cmp) = Ok (Some dfg, s1) /\ distance g f tv true (set_compare v new_cmp) = Ok (Some dgf, s2) /\
    distance g h tv true (set_compare v new_cmp) = Ok (Some dgh, s3) /\ distance f h tv true (set_compare v new_cmp) = Ok (Some dfh, s4) /\
    (0 <= dfg)%Qc /\ (dfg <= 1)%Qc /\ dfg = dgf /\ (dfg = 0%Qc <-> forall x, In x v -> (f x / sum_at f v = g x / sum_at g v)%Qc) /\ (dfh <= dfg + dgh)%Qc.
Proof. exact tv_normalized_lemma. Qed.
Print Assumptions tv_normalized_is_bounded_metric.
Example tv_ex : value (distance f_ex g_ex tv false (set_compare [0; 1] new_cmp)) = Some (Q2Qc (1 # 2)) /\
  value (distance f_ex g_ex tv true (set_compare [0; 1] new_cmp)) = Some (Q2Qc (1 # 4)).
Proof. exact tv_value_ex. Qed.

(** C50 *)
Theorem compare_box_refuted : (compare_ranges 2 [[0%Qc; 0%Qc]] [[qn 100; 1%Qc]] 0%Qc = Ok [(0%Qc, 1%Qc); (0%Qc, 1%Qc)] /\
  ~ covers 0%Qc 0%Qc 1%Qc (map (fun r => nth 0 r 0%Qc) [[0%Qc; 0%Qc]; [qn 100; 1%Qc]])) /\
  (compare_ranges 1 [[0%Qc]] [[1%Qc]] 1%Qc = Ok [((- (1))%Qc, 1%Qc)] /\ ~ covers 1%Qc (- (1))%Qc 1%Qc [0%Qc; 1%Qc]).
Proof. exact (conj ranges_ex ranges_top_ex). Qed.
Print Assumptions compare_box_refuted.
(** What is done: all dimensions use the range of the last one, not enlarged at
    the upper end. *)
Theorem compare_box_actual : forall dim v1 v2 factor, 0 < dim -> v1 ++ v2 <> [] ->
  let col := map (fun r => nth (dim - 1) r 0%Qc) (v1 ++ v2) in
  exists ranges, compare_ranges dim v1 v2 factor = Ok ranges /\ length ranges = dim /\
  forall i, i < dim -> nth_error ranges i = Some ((qlist_min col - factor * (qlist_max col - qlist_min col))%Qc, qlist_max col).
Proof. exact ranges_lemma. Qed.
Print Assumptions compare_box_actual.
Theorem compare_box_partial : forall v1 v2, v1 ++ v2 <> [] ->
  exists lo hi, compare_ranges 1 v1 v2 0%Qc = Ok [(lo, hi)] /\ covers 0%Qc lo hi (map (fun r => nth 0 r 0%Qc) (v1 ++ v2)).
Proof. exact ranges_one_lemma. Qed.
Print Assumptions compare_box_partial.

(** C51: true unless a normalized distance came before an unnormalized one. *)
Theorem distance_history_partial : forall (X V : Type) (f g : X -> Qc) (h : list (call X V)) v (F : Qc -> arr -> arr -> V) d s', v <> [] ->
  (forall c, In c h -> exists G, c = Dist G false) ->
  distance f g F false (set_compare v new_cmp) = Ok (d, s') -> exists s2, distance f g F false (run f g h (set_compare v new_cmp)) = Ok (d, s2).
Proof. exact history_plain_lemma. Qed.
Print Assumptions distance_history_partial.
Theorem distance_history_normalized_partial : forall (X V : Type) (f g : X -> Qc) (h : list (call X V)) v (F : Qc -> arr -> arr -> V) d s',
  (forall c, In c h -> exists G b, c = Dist G b) ->
  distance f g F true (set_compare v new_cmp) = Ok (d, s') -> exists s2, distance f g F true (run f g h (set_compare v new_cmp)) = Ok (d, s2).
Proof. exact history_normalized_lemma. Qed.
Print Assumptions distance_history_normalized_partial.
Theorem distance_history_refuted : forall (X V : Type) (f g : X -> Qc) v (F G : Qc -> arr -> arr -> V), v <> [] ->
  exists s, distance f g F false (run f g [Dist G true] (set_compare v new_cmp))
  = Ok (F (1 / qn (length v))%Qc (normalized (map (fun x => Some (f x)) v)) (normalized (map (fun x => Some (g x)) v)), s).
Proof. exact history_refuted_lemma. Qed.
Print Assumptions distance_history_refuted.
Example distance_history_ex : value (distance f_ex g_ex tv false (run f_ex g_ex [Dist tv true] (set_compare [0; 1] new_cmp))) = Some (Q2Qc (1 # 8)).
Proof. exact history_ex. Qed.

(** C85: new comparison points are ignored once a distance was computed. *)
Theorem distance_at_current_points_refuted : forall (X V : Type) (f g : X -> Qc) v w (F G : Qc -> arr -> arr -> V) b n, v <> [] ->
  forall d s, distance f g F n (run f g [Dist G b] (set_compare v new_cmp)) = Ok (d, s) ->
  exists s2, distance f g F n (run f g [Dist G b; Points w] (set_compare v new_cmp)) = Ok (d, s2).
Proof. exact stale_points_lemma. Qed.
Print Assumptions distance_at_current_points_refuted.
Example distance_at_current_points_ex : value (distance f_ex g_ex tv false (run f_ex g_ex [Dist tv false; Points [2; 2; 2]] (set_compare [0; 1] new_cmp))) = Some (Q2Qc (1 # 2)) /\
  value (distance f_ex g_ex tv false (set_compare [2; 2; 2] new_cmp)) = Some 0%Qc.
Proof. exact stale_points_ex. Qed.

(** C86: which factor and arrays 'hell' and 'sqhell' use *)
Theorem hell_uses : forall (X V : Type) (f g : X -> Qc) v (sq : Qc -> arr -> arr -> V) root, v <> [] ->
  exists s1 s2 s3 s4 p q, distance f g sq false (set_compare v new_cmp) = Ok (sq (1 / qn (length v))%Qc (map (fun x => Some (f x)) v) (map (fun x => Some (g x)) v), s1) /\
  distance_hell f g sq root false (set_compare v new_cmp) = Ok (root (sq (1 / qn (length v))%Qc (map (fun x => Some (f x)) v) (map (fun x => Some (g x)) v)), s2) /\
  distance f g sq true (set_compare v new_cmp) = Ok (sq 1%Qc p q, s3) /\
  distance_hell f g sq root true (set_compare v new_cmp) = Ok (root (sq (1 / qn (length v))%Qc p q), s4).
Proof. exact hell_lemma. Qed.
Print Assumptions hell_uses.

(** C88 *)
Theorem marginal_interval_actual : forall a b d2 c1 c2 factor lo hi,
  marginal_interval (Some (Fin a, Fin b)) (Some d2) c1 c2 factor = Ok (lo, hi) -> lo = (a - factor * (b - a))%Qc /\ hi = (b + factor * (b - a))%Qc.
Proof. exact interval_lemma. Qed.
Print Assumptions marginal_interval_actual.
Theorem marginal_interval_refuted : marginal_interval (Some (Fin 0%Qc, Fin 1%Qc)) (Some (Fin 0%Qc, Fin (qn 5))) [] [] 0%Qc = Ok (0%Qc, 1%Qc).
Proof. exact interval_ex. Qed.
Print Assumptions marginal_interval_refuted.
Theorem marginal_interval_partial : forall d1 d2 c1 c2 factor, (d1 = None \/ d2 = None) -> (0 <= factor)%Qc ->
  (length c1 <> length c2 -> marginal_interval d1 d2 c1 c2 factor = Raise PyValueError) /\
  (length c1 = length c2 -> c1 <> [] -> exists lo hi, marginal_interval d1 d2 c1 c2 factor = Ok (lo, hi) /\ covers factor lo hi (c1 ++ c2)).
Proof. exact interval_values_lemma. Qed.
Print Assumptions marginal_interval_partial.
Example marginal_interval_partial_ex : marginal_interval None None [0%Qc; 1%Qc] [qn 2; qn 3] 1%Qc = Ok ((- qn 3)%Qc, qn 6).
Proof. vm_compute. reflexivity. Qed.
