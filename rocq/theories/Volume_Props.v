(** C12, C13, C14, C15: volumes of cells. *)
From Coq Require Import List Arith NArith QArith Qcanon Lia Permutation.
From Verif Require Import Err Num Ext Query_Model Query_Spec Query_Examples Volume_Model Volume_Spec Volume_Proofs BoxVolume_Proofs Volume_Examples Show.
Import ListNotations.
Local Open Scope nat_scope.

(** C12: every cell gets the fraction of all emulated points that the query
    sends to it, *)
Theorem emulated_volumes_are_fractions : forall X num (ptr : X -> nat) blocks, concat blocks <> [] ->
  estimate_volume_emulated num ptr blocks = map (fun i => Fin (fraction ptr (concat blocks) i)) (seq 0 num).
Proof. exact @emulated_eq. Qed.
Print Assumptions emulated_volumes_are_fractions.
Example emulated_volumes_ex :
  estimate_volume_emulated 3 (fun x : nat => x) [[0; 2]; []; [2; 2; 0]] = map Fin [Q2Qc (2#5); 0%Qc; Q2Qc (3#5)].
Proof. qc_compute. Qed.

(** they are non-negative and sum to one, *)
Theorem emulated_volumes_sum_to_one : forall X num (ptr : X -> nat) blocks,
  concat blocks <> [] -> (forall x, In x (concat blocks) -> ptr x < num) ->
  exists v, estimate_volume_emulated num ptr blocks = map Fin v /\ length v = num /\ qsum v = 1%Qc /\
    forall w, In w v -> (0 <= w)%Qc.
Proof. exact @emulated_sum. Qed.
Print Assumptions emulated_volumes_sum_to_one.

(** and they depend neither on the distribution of the points over the ranks
    nor on the number of ranks. *)
Theorem emulated_volumes_layout_independent : forall X num (ptr : X -> nat) blocks blocks',
  Permutation (concat blocks) (concat blocks') ->
  estimate_volume_emulated num ptr blocks = estimate_volume_emulated num ptr blocks'.
Proof. exact @emulated_independent. Qed.
Print Assumptions emulated_volumes_layout_independent.
Example emulated_volumes_layout_ex : Permutation (concat [[0; 2]; []; [2; 2; 0]]) (concat [[0; 0; 2; 2; 2]]).
Proof. simpl. apply perm_skip. apply Permutation_sym. apply (Permutation_cons_app [2; 2; 2] [] 0 (l := [2; 2; 2])). reflexivity. Qed.

(** The same for the Monte Carlo estimate, whose divisor is the requested
    number of points: the shares drawn by the ranks add up to it (C02). *)
Theorem mc_volumes_are_fractions : forall X num n (ptr : X -> nat) blocks, 0 < n -> length (concat blocks) = n ->
  estimate_volume num n ptr blocks = map (fun i => Fin (fraction ptr (concat blocks) i)) (seq 0 num).
Proof. exact @mc_eq. Qed.
Print Assumptions mc_volumes_are_fractions.

(** Under the Monte Carlo assumption all volumes are 1/num. *)
Theorem mc_assumption_volumes : forall num, 0 < num -> exists v, estimate_volume_mc num = map Fin v /\ length v = num /\
  qsum v = 1%Qc /\ forall w, In w v -> w = (1 / qn num)%Qc.
Proof. exact mc_assumption. Qed.
Print Assumptions mc_assumption_volumes.

(** C13: lengths of the Voronoi intervals; equal samples share one interval. *)
Theorem exact_1D_volumes : forall (argsort : list Qc -> list nat) lo hi samples, is_argsort samples (argsort samples) ->
  2 <= length samples -> (lo < hi)%Qc -> (forall w, In w samples -> (lo <= w)%Qc /\ (w <= hi)%Qc) ->
  exists vs, exact_volume_1D argsort lo hi samples = Ok (map Fin vs) /\ length vs = length samples /\
    (forall w, In w vs -> (0 <= w)%Qc) /\ qsum vs = 1%Qc /\
    forall v, In v samples -> exists a b, (a <= b)%Qc /\
      (forall x, voronoi_interval lo hi samples v x <-> (a <= x)%Qc /\ (x <= b)%Qc) /\
      qsum (values_at samples v vs) = ((b - a) / (hi - lo))%Qc.
Proof. exact exact_1D. Qed.
Print Assumptions exact_1D_volumes.
Example exact_1D_volumes_ex : is_argsort samples3 (argsort3 samples3) /\ (forall w, In w samples3 -> (0 <= w)%Qc /\ (w <= 1)%Qc) /\
  exact_volume_1D argsort3 0 1 samples3 = Ok (map Fin [Q2Qc (2#5); Q2Qc (3#10); Q2Qc (3#10)]).
Proof. split; [exact argsort3_ok|]. split; [exact samples3_in | qc_compute]. Qed.

Theorem exact_1D_volumes_distinct : forall (argsort : list Qc -> list nat) lo hi samples, is_argsort samples (argsort samples) ->
  NoDup samples -> 2 <= length samples -> (lo < hi)%Qc -> (forall w, In w samples -> (lo <= w)%Qc /\ (w <= hi)%Qc) ->
  exists vs, exact_volume_1D argsort lo hi samples = Ok (map Fin vs) /\ length vs = length samples /\
    forall i v, nth_error samples i = Some v -> exists a b, (a <= b)%Qc /\
      (forall x, voronoi_interval lo hi samples v x <-> (a <= x)%Qc /\ (x <= b)%Qc) /\
      nth_error vs i = Some ((b - a) / (hi - lo))%Qc.
Proof. exact exact_1D_distinct. Qed.
Print Assumptions exact_1D_volumes_distinct.
Example exact_1D_volumes_distinct_ex : NoDup samples3.
Proof. exact samples3_NoDup. Qed.

Theorem exact_1D_volumes_reorder : forall (argsort : list Qc -> list nat) lo hi samples samples',
  is_argsort samples (argsort samples) -> is_argsort samples' (argsort samples') ->
  Permutation samples samples' -> NoDup samples ->
  2 <= length samples -> (lo < hi)%Qc -> (forall w, In w samples -> (lo <= w)%Qc /\ (w <= hi)%Qc) ->
  exists vol : Qc -> Qc, exact_volume_1D argsort lo hi samples = Ok (map (fun v => Fin (vol v)) samples) /\
    exact_volume_1D argsort lo hi samples' = Ok (map (fun v => Fin (vol v)) samples').
Proof. exact exact_1D_reorder. Qed.
Print Assumptions exact_1D_volumes_reorder.

(** The bound of two samples is sharp: one sample raises. *)
Theorem exact_1D_one_sample : forall argsort lo hi v, exact_volume_1D argsort lo hi [v] = Raise PyIndexError.
Proof. exact exact_1D_single. Qed.
Print Assumptions exact_1D_one_sample.

(** C14: box volumes relative to the domain; they sum to one with the
    remainder cell; disjoint sub-boxes leave a non-negative remainder. *)
Theorem rectangle_volumes : forall dom d maxes mins s, rect_setup d maxes mins = Ok s -> length dom = d -> proper_domain dom ->
  exists vs rem, exact_volume_lebesgue dom s = Some (vs ++ [rem]) /\ length vs = length maxes /\
    (forall i l r, nth_error mins i = Some l -> nth_error maxes i = Some r ->
       nth_error vs i = Some (volume l r / volume (map fst dom) (map snd dom))%Qc) /\
    qsum (vs ++ [rem]) = 1%Qc /\
    ((forall l r, In (l, r) (combine mins maxes) -> sub_box dom l r) -> disjoint_boxes mins maxes -> (0 <= rem)%Qc).
Proof. exact lebesgue_volumes. Qed.
Print Assumptions rectangle_volumes.
Example rectangle_volumes_ex : proper_domain dom2 /\ (forall l r, In (l, r) (combine boxes_lo boxes_hi) -> sub_box dom2 l r) /\
  disjoint_boxes boxes_lo boxes_hi /\
  exists s, rect_setup 2 boxes_hi boxes_lo = Ok s /\
    exact_volume_lebesgue dom2 s = Some [Q2Qc (1#2); Q2Qc (1#4); Q2Qc (1#4)].
Proof.
  split; [exact dom2_proper|]. split; [exact boxes_sub|]. split; [exact boxes_disjoint|].
  eexists. split; [reflexivity|]. qc_compute.
Qed.

(** A cartesian grid fills its outer box: nothing is left for the remainder
    cell, and every other cell has positive volume. *)
Theorem cartesian_volumes : forall d xi, length xi = d -> 1 <= d -> (forall l, In l xi -> breakpoints l) ->
  exists s vs, cart_setup d xi = Ok s /\
    exact_volume_lebesgue (map (fun l => (hd 0%Qc l, last l 0%Qc)) xi) s = Some (vs ++ [0%Qc]) /\
    (forall v, In v vs -> (0 < v)%Qc).
Proof. exact cart_volumes. Qed.
Print Assumptions cartesian_volumes.
Example cartesian_volumes_ex : forall l, In l [[0; Q2Qc (1#3); 1]; [0; Q2Qc 2; Q2Qc 3]]%Qc -> breakpoints l.
Proof. intros l [<-|[<-|[]]]; repeat split; simpl; lia. Qed.

(** C15 is false: a budget of 5000 leads to a draw of 10000 points ... *)
Theorem local_volume_budget_refuted : exists hits need mx inside total draws,
  local_emulation hits need mx = Some (inside, total, draws) /\ exists n, In n draws /\ (mx < n)%N.
Proof. exact budget_witness. Qed.
Print Assumptions local_volume_budget_refuted.

(** ... and a budget of at most 10 draws nothing, so that all volumes are
    0/0. *)
Theorem local_volume_positive_refuted : forall (balls : list Qc) hits need mx, (mx <= 10)%N ->
  exists r, local_emulation hits need mx = Some r /\
    normalized_volumes (map (fun b => cell_estimate b r) balls) = map (fun _ => NaN) balls.
Proof. exact no_budget_nan. Qed.
Print Assumptions local_volume_positive_refuted.

(** What holds: the loop ends for every outcome of the draws, having reached
    the requested hits or the budget; each draw is below ten times the budget
    and all draws of a cell together below 100/9 times; *)
Theorem local_volume_budget_partial : forall hits need mx, exists inside total draws,
  local_emulation hits need mx = Some (inside, total, draws) /\
  (need <= inside \/ mx <= total)%N /\
  (forall n, In n draws -> (n < 10 * mx)%N) /\
  (draws = [] \/ (9 * fold_right N.add 0 draws < 100 * mx)%N).
Proof. exact local_emulation_bounds. Qed.
Print Assumptions local_volume_budget_partial.
Example local_volume_budget_ex : local_emulation (fun n => (n / 20)%N) 40%N 10000%N = Some (50, 1000, [100; 1000])%N.
Proof. reflexivity. Qed.

(** if one estimate is positive the final volumes sum to one, and a factor
    common to all ball volumes does not matter. *)
Theorem local_volume_normalized_partial : forall vs, (forall v, In v vs -> (0 <= v)%Qc) -> (exists v, In v vs /\ (0 < v)%Qc) ->
  exists ws, normalized_volumes vs = map Fin ws /\ qsum ws = 1%Qc /\ forall w, In w ws -> (0 <= w)%Qc.
Proof. exact normalized_sum. Qed.
Print Assumptions local_volume_normalized_partial.
(** With a budget above 10 and draws that always hit, every volume is positive,
    they sum to one and are proportional to the volume of the ball times the part
    of the last draw in the cell. *)
Theorem local_volume_positive_partial : forall need mx (cells : list (Qc * (N -> N))), (10 < mx)%N -> (0 < need)%N -> cells <> [] ->
  (forall b h, In (b, h) cells -> (0 < b)%Qc /\ forall n, (0 < n)%N -> (0 < h n)%N) ->
  exists rs ws c, Forall2 (fun c r => local_emulation (snd c) need mx = Some r) cells rs /\
    normalized_volumes (map (fun p => cell_estimate (fst p) (snd p)) (combine (map fst cells) rs)) = map Fin ws /\ qsum ws = 1%Qc /\ (forall w, In w ws -> (0 < w)%Qc) /\ (0 < c)%Qc /\
    forall i b h inside total draws w, nth_error cells i = Some (b, h) -> nth_error rs i = Some (inside, total, draws) -> nth_error ws i = Some w ->
      last draws 0%N = total /\ (0 < total)%N /\ (c * w * qN total = b * qN (h total))%Qc.
Proof. exact positive_volumes. Qed.
Print Assumptions local_volume_positive_partial.
Example local_volume_positive_ex : forall b h, In (b, h) [(1%Qc, fun n : N => (n / 20 + 1)%N); (Q2Qc 2, fun n => n)] -> (0 < b)%Qc /\ forall n, (0 < n)%N -> (0 < h n)%N.
Proof. intros b h [[= <- <-]|[[= <- <-]|[]]]; (split; [reflexivity|]); intros n Hn; [apply N.add_pos_r; reflexivity|exact Hn]. Qed.
Theorem local_volume_scale_free : forall c vs, (0 < c)%Qc -> qsum vs <> 0%Qc ->
  normalized_volumes (map (fun v => c * v)%Qc vs) = normalized_volumes vs.
Proof. exact normalized_scale. Qed.
Print Assumptions local_volume_scale_free.
Example local_volume_normalized_ex : normalized_volumes [1%Qc; Q2Qc 3] = map Fin [Q2Qc (1#4); Q2Qc (3#4)].
Proof. qc_compute. Qed.
