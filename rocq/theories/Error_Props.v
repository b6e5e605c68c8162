From Coq Require Import ZArith List Arith QArith Qcanon.
From Verif Require Import Err Num Ext Show Volume_Spec Prob_Spec Error_Model Error_Spec Error_Proofs ModelError_Proofs Error_Examples.
Import ListNotations.
Local Open Scope nat_scope.

(** C32: bounds for contour events, on a fresh object. *)
Theorem contour_bounds : forall io nei vols, neighbour_table io nei -> length vols = length io -> all_positive vols -> forall probs,
  exists ups lows BC', contour_events io vols probs (boundary_sets io nei) = Ok (ups, lows, BC') /\
  length ups = length probs /\ length lows = length probs /\
  forall i p, nth_error probs i = Some p ->
  ((p <= 0)%Qc -> nth_error ups i = Some (Fin 0%Qc) /\ nth_error lows i = Some (Fin 0%Qc)) /\
  ((0 < p)%Qc -> ~ (exists k, interior io nei i k) -> nth_error ups i = Some NaN /\ nth_error lows i = Some NaN) /\
  ((0 < p)%Qc -> (exists k, interior io nei i k) -> forall B C AC,
     lists_set B (interior io nei i) -> lists_set C (touching nei i) ->
     lists_set AC (fun k => nth_error io k = Some i /\ touching nei i k) ->
     exists u l, nth_error ups i = Some (Fin u) /\ nth_error lows i = Some (Fin l) /\
       u = (p * (vol vols AC / vol vols B - 1))%Qc /\ l = (p * (vol vols B / vol vols C - 1))%Qc /\
       (l <= 0)%Qc /\ (0 <= u)%Qc).
Proof. exact contour_bounds_lemma. Qed.
Print Assumptions contour_bounds.
Example contour_bounds_ex : neighbour_table io5 nei5 /\ all_positive ones5 /\
  ups_of (contour_events io5 ones5 [Q2Qc (1 # 2); Q2Qc (1 # 2)] (boundary_sets io5 nei5)) = [Fin (Q2Qc (1 # 4)); Fin (Q2Qc (1 # 2))] /\
  lows_of (contour_events io5 ones5 [Q2Qc (1 # 2); Q2Qc (1 # 2)] (boundary_sets io5 nei5)) = [Fin (Q2Qc (-1 # 4)); Fin (Q2Qc (-1 # 3))].
Proof. split; [exact table5|]. split; [exact ones5_pos|]. split; qc_compute. Qed.

(** C33: refuted for every argsort; holds when the sorting permutation is its
    own inverse (in particular for increasing samples). *)
Theorem connectivity_1D_refuted : forall argsort, (forall l, is_argsort l (argsort l)) -> exists x io nei,
  NoDup x /\ length io = length x /\ connectivity_1D argsort x io = Ok nei /\
  (exists p q l e, adjacent x p q /\ nth_error nei p = Some l /\ nth_error io q = Some e /\ ~ In e l) /\
  (exists p q l e, ~ adjacent x p q /\ nth_error nei p = Some l /\ nth_error io q = Some e /\ In e l /\ NoDup io).
Proof. exact connectivity_refuted_lemma. Qed.
Print Assumptions connectivity_1D_refuted.
Theorem connectivity_1D_partial : forall argsort x io, is_argsort x (argsort x) -> NoDup x -> length io = length x ->
  (forall i j, nth_error (argsort x) i = Some j -> nth_error (argsort x) j = Some i) ->
  exists nei, connectivity_1D argsort x io = Ok nei /\ neighbour_table io nei /\
  forall p l, nth_error nei p = Some l -> forall e,
    In e l <-> exists q, adjacent x p q /\ nth_error io q = Some e.
Proof. exact connectivity_1D_lemma. Qed.
Print Assumptions connectivity_1D_partial.
Example connectivity_1D_ex : is_argsort xs_sorted [0; 1; 2] /\ connectivity_1D (fun _ => [0; 1; 2]) xs_sorted [7; 8; 9] = Ok [[8]; [7; 9]; [8]].
Proof. exact sorted_case. Qed.
(** More dimensions: neighbours are the pairs of vertices of a simplex. *)
Theorem connectivity_nD : forall simplices io, (forall s, In s simplices -> NoDup s /\ forall k, In k s -> k < length io) ->
  exists nei, nei_list io (links_nD simplices) = Ok nei /\ neighbour_table io nei /\
  forall p l, nth_error nei p = Some l -> forall e,
    In e l <-> exists q s, In s simplices /\ In p s /\ In q s /\ p <> q /\ nth_error io q = Some e.
Proof. exact connectivity_nD_lemma. Qed.
Print Assumptions connectivity_nD.
Example connectivity_nD_ex : nei_list [0; 0; 1; 2] (links_nD [[0; 1; 2]; [1; 2; 3]]) = Ok [[0; 1]; [0; 1; 2]; [0; 2]; [0; 1]].
Proof. reflexivity. Qed.

(** C69: the interior and boundary sets of the events. *)
Theorem boundary_sets_meaning : forall (io : list nat) nei, neighbour_table io nei -> forall i,
  lists_set (lookup (fst (boundary_sets io nei)) i) (interior io nei i) /\
  lists_set (lookup (snd (boundary_sets io nei)) i) (touching nei i) /\
  (fst (boundary_sets io nei) i = None <-> ~ exists k, interior io nei i k).
Proof. exact boundary_sets_lemma. Qed.
Print Assumptions boundary_sets_meaning.
Theorem event_enclosed_refuted : exists (io : list nat) nei i k, neighbour_table io nei /\ nth_error io k = Some i /\
  ~ In k (lookup (snd (boundary_sets io nei)) i).
Proof. exact event_not_enclosed_lemma. Qed.
Print Assumptions event_enclosed_refuted.

(** C70: bounds for regions. *)
Theorem region_bounds_refuted : exists io nei probs blocks u l, neighbour_table io nei /\
  fst (region_bounds io probs blocks (boundary_sets io nei)) = Some (u, l) /\ (u < 0)%Qc /\ (l < 0)%Qc.
Proof. exact region_bracket_refuted_lemma. Qed.
Print Assumptions region_bounds_refuted.
Theorem region_bounds_partial : forall io nei probs blocks, neighbour_table io nei ->
  (forall i p, nth_error probs i = Some p -> (0 < p)%Qc -> connected_event io nei i) ->
  forall u l, fst (region_bounds io probs blocks (boundary_sets io nei)) = Some (u, l) -> (l <= 0)%Qc /\ (0 <= u)%Qc.
Proof. exact region_bracket_lemma. Qed.
Print Assumptions region_bounds_partial.
Example region_bounds_ex : neighbour_table io5 nei5 /\ (forall i, connected_event io5 nei5 i) /\
  option_map fst (fst (region_bounds io5 [1; 0]%Qc [[(true, 0); (true, 2)]; [(false, 1); (true, 3)]] (boundary_sets io5 nei5))) = Some (Q2Qc (5 # 6)).
Proof. split; [exact table5|]. split; [exact connected5|]. qc_compute. Qed.

(** C36: the history of the object. *)
Theorem contour_history_refuted : exists io nei vols probs q ups lows BC ups' lows' BC',
  neighbour_table io nei /\ length vols = length io /\ all_positive vols /\
  contour_events io vols probs (boundary_sets io nei) = Ok (ups, lows, BC) /\
  contour_events io vols probs (ask_all io vols probs [q] (boundary_sets io nei)) = Ok (ups', lows', BC') /\
  nth_error ups 0 = Some NaN /\ nth_error ups' 0 = Some PInf /\
  nth_error lows 0 = Some NaN /\ nth_error lows' 0 = Some (Fin (- (1))%Qc).
Proof. exact contour_history_refuted_lemma. Qed.
Print Assumptions contour_history_refuted.
(** Events without probability or with an interior cell are not affected. *)
Theorem contour_history_partial : forall io nei vols, neighbour_table io nei -> length vols = length io -> forall probs qs,
  exists ups lows BC1 ups' lows' BC2,
  contour_events io vols probs (boundary_sets io nei) = Ok (ups, lows, BC1) /\
  contour_events io vols probs (ask_all io vols probs qs (boundary_sets io nei)) = Ok (ups', lows', BC2) /\
  forall i p, nth_error probs i = Some p -> ((p <= 0)%Qc \/ exists k, interior io nei i k) ->
    nth_error ups' i = nth_error ups i /\ nth_error lows' i = nth_error lows i.
Proof. exact history_lemma. Qed.
Print Assumptions contour_history_partial.
(** Answers for regions never depend on the history. *)
Theorem region_history_partial : forall io nei vols, neighbour_table io nei -> length vols = length io -> forall probs qs blocks,
  fst (region_bounds io probs blocks (ask_all io vols probs qs (boundary_sets io nei))) =
  fst (region_bounds io probs blocks (boundary_sets io nei)).
Proof. exact region_history. Qed.
Print Assumptions region_history_partial.

(** C34: model error of contour events. *)
Theorem model_error_contour : forall blocks probs i p,
  (forall s, In s (concat blocks) -> (0 <= snd s)%Qc) -> nth_error probs i = Some p ->
  ((p <= 0)%Qc -> nth_error (model_error_contours blocks probs) i = Some (Fin 0%Qc)) /\
  ((0 < p)%Qc -> (0 < vol_before (concat blocks) i)%Qc -> (0 < vol_after (concat blocks) i)%Qc -> exists er,
     nth_error (model_error_contours blocks probs) i = Some (Fin er) /\
     er = (p * (1 - vol_kept (concat blocks) i / vol_after (concat blocks) i))%Qc /\ (0 <= er)%Qc /\ (er <= p)%Qc /\
     ((forall s, In s (concat blocks) -> snd (fst s) = i -> fst (fst s) = i) -> er = 0%Qc)) /\
  ((0 < p)%Qc -> (vol_before (concat blocks) i = 0%Qc \/ vol_after (concat blocks) i = 0%Qc) ->
     nth_error (model_error_contours blocks probs) i = Some NaN).
Proof. exact model_error_lemma. Qed.
Print Assumptions model_error_contour.
Theorem model_error_process_independent : forall blocks blocks' probs, concat blocks = concat blocks' ->
  model_error_contours blocks probs = model_error_contours blocks' probs.
Proof. exact model_error_split. Qed.
Print Assumptions model_error_process_independent.
Example model_error_ex : model_error_contours [[(0, 0, 1%Qc); (0, 1, 1%Qc)]; [(1, 1, 1%Qc); (1, 0, Q2Qc 2)]] [Q2Qc (1 # 2); Q2Qc (1 # 2)] =
  [Fin (Q2Qc (1 # 3)); Fin (Q2Qc (1 # 4))].
Proof. qc_compute. Qed.

(** C35: model error of regions (both versions; see mc_version). *)
Theorem region_errors_cancel_partial : forall labels rs probs pts, NoDup rs -> (forall r, In r rs -> In r labels) ->
  (forall e, In e (concat pts) -> exists l, nth_error labels (fst (fst e)) = Some l /\ In l rs) ->
  all_present probs (concat pts) ->
  exists est, (forall r, In r rs -> sample_set_region labels r probs pts = Ok (est r)) /\ qsum (map est rs) = 0%Qc.
Proof. exact regions_cancel. Qed.
Print Assumptions region_errors_cancel_partial.
Theorem region_error_bounded : forall labels r probs pts est, nonneg probs -> all_present probs (concat pts) ->
  sample_set_region labels r probs pts = Ok est -> (qabs est <= qsum probs)%Qc.
Proof. exact region_bounded. Qed.
Print Assumptions region_error_bounded.
Theorem region_error_zero_estimates : forall labels r probs pts, In r labels -> all_present probs (concat pts) ->
  (forall e, In e (concat pts) -> snd (fst e) = snd e) -> sample_set_region labels r probs pts = Ok 0%Qc.
Proof. exact region_no_change. Qed.
Print Assumptions region_error_zero_estimates.
Theorem region_error_process_independent : forall labels r probs pts pts', concat pts = concat pts' ->
  sample_set_region labels r probs pts = sample_set_region labels r probs pts'.
Proof. exact region_split. Qed.
Print Assumptions region_error_process_independent.
(** Without points of a cell of positive probability before or after: an
    exception, even if the error estimates are zero. *)
Theorem region_error_defined_refuted : forall labels r probs pts, In r labels -> ~ all_present probs (concat pts) ->
  sample_set_region labels r probs pts = Raise PyZeroDivision.
Proof. exact region_defined. Qed.
Print Assumptions region_error_defined_refuted.
Example region_errors_ex : all_present [Q2Qc (1 # 2); Q2Qc (1 # 2)] (concat pts_ex) /\
  map (fun r => sample_set_region [5%Z; 6%Z; 5%Z] r [Q2Qc (1 # 2); Q2Qc (1 # 2)] pts_ex) [5%Z; 6%Z] = [Ok (Q2Qc (-1 # 12)); Ok (Q2Qc (1 # 12))].
Proof. exact pts_case. Qed.

(** C71: the Monte Carlo version returns the same estimate (inf instead of the
    exception), and the error indicators of the cells add up to it. *)
Theorem mc_version : forall labels r probs pts,
  match sample_set_region labels r probs pts with
  | Ok est => exists ids, sample_set_region_mc labels r probs pts = Ok (Fin est, map (map Fin) ids) /\
                same_lengths pts ids /\ qsum (concat ids) = est
  | Raise PyZeroDivision => exists ids, sample_set_region_mc labels r probs pts = Ok (PInf, ids)
  | Raise e => sample_set_region_mc labels r probs pts = Raise e
  end.
Proof. exact mc_agrees_lemma. Qed.
Print Assumptions mc_version.
