(** What the properties of surrogate objects say.  Points, sets of points,
    problems and the change of the share of a region are those of
    ErrorDisc_Spec. *)
From Coq Require Import List Arith Bool QArith Qcanon.
From Verif Require Import Err Num Ext NumPy SampleSet_Model SampleSet_Spec Disc_Model Disc_Spec Prob_Spec ErrorDisc_Spec Surrogate_Model.
Import ListNotations.
Local Open Scope nat_scope.

(** *** The discretization a surrogate is built from *)
Definition is_point (d : nat) (c : cell) : Prop := exists l, c = row l /\ length l = d.
Definition coords (c : cell) : list Qc :=
  match c with Vec l => map (fun e => match e with Num q => q | Vec _ => 0%Qc end) l | Num _ => [] end.

(** The data of the problem, whether the error estimates are stored, and the
    Jacobians if they are stored. *)
Record old_data := mk_old { o_problem : problem; o_estimates : bool; o_jacobians : option (list (list (list Qc))) }.
Definition sound (a : old_data) : Prop :=
  well_posed (o_problem a) /\ Forall (is_point (p_in (o_problem a))) (samples (o_problem a)) /\
  forall J, o_jacobians a = Some J -> length J = length (samples (o_problem a)) /\
    forall M, In M J -> length M = p_out (o_problem a) /\ forall r, In r M -> length r = p_in (o_problem a).
Definition holds_old (P : nat) (a : old_data) (d : disc cell) : Prop :=
  let b := o_problem a in
  (exists inp, d_in d = Some inp /\ points_are P (p_in b) inp (samples b) /\ (forall dom, domain inp = Some dom -> length dom = p_in b) /\
     glob inp Jacobians = option_map (fun J => mk_arr (map (fun M => Vec (map row M)) J) [p_out b; p_in b]) (o_jacobians a)) /\
  (exists out, d_out d = Some out /\ points_are P (p_out b) out (map row (outputs b)) /\
     glob out ErrorEstimates = if o_estimates a then Some (mk_arr (map row (estimates b)) [p_out b]) else None) /\
  (exists pr, d_prob d = Some pr /\ points_are P (p_out b) pr (cells b) /\ glob pr Probabilities = Some (vec_arr (probs b))).

(** *** The problem of the new samples: every new sample takes the output, or the
    linear function, and the error estimate of the nearest old sample *)
Definition minus (a b : list Qc) : list Qc := map (fun p => (fst p - snd p)%Qc) (combine a b).
Definition times (a b : list Qc) : Qc := qsum (map (fun p => (fst p * snd p)%Qc) (combine a b)).
Section New.
Context (nn : list cell -> cell -> nat) (a : old_data).
Let b := o_problem a.
Definition home (y : cell) : nat := nn (samples b) y.
(** As coded: the old sample minus the new one. *)
Definition new_output (order : nat) (y : cell) : list Qc :=
  let z := nth (home y) (outputs b) [] in
  match order, o_jacobians a with
  | 1, Some J => plus z (map (fun r => times r (minus (coords (nth (home y) (samples b) (Vec []))) (coords y))) (nth (home y) J []))
  | _, _ => z
  end.
Definition new_estimate (y : cell) : list Qc := nth (home y) (estimates b) [].
Definition new_problem (order : nat) (ys : list cell) : problem :=
  mk_problem (p_in b) (p_out b) ys (map (new_output order) ys) (map new_estimate ys) (cells b) (probs b) None.

(** Volumes: those of the given set if the ranks have them; otherwise equal. *)
Definition brings (s : sset cell) (w : option (list Qc)) : Prop :=
  match w with
  | Some v => glob s Volumes = Some (vec_arr v) /\ (loc s Volumes <> None \/ loc s Values = None)
  | None => glob s Volumes = None \/ (loc s Volumes = None /\ loc s Values <> None)
  end.
Definition new_volumes (ys : list cell) (w : option (list Qc)) : list Qc :=
  match w with Some v => v | None => map (fun _ => (1 / qn (length ys))%Qc) ys end.

(** The share of a sample in its event: p times its part of the volume. *)
Definition event_share (ps : list Qc) (evs : list (nat * Qc)) (e : nat * Qc) : Qc :=
  match nth_error ps (fst e) with
  | Some p => if qltb 0 p && qltb 0 (total_in evs (fst e)) then (p * snd e / total_in evs (fst e))%Qc else 0%Qc
  | None => 0%Qc
  end.
Definition sample_probs (b' : problem) (v : list Qc) : list Qc :=
  let evs := combine (cells_before nn b') v in map (event_share (probs b') evs) evs.

(** Probability of a region: of the samples in its cells. *)
Definition region_prob (b' : problem) (v : list Qc) (ss : list cell) (labels : list Qc) (region : Qc) : Qc :=
  qsum (map snd (filter (fun e => in_the_region nn ss labels region (fst e)) (combine (samples b') (sample_probs b' v)))).
(** Probabilities of the cells of a set. *)
Definition cell_probs (b' : problem) (v : list Qc) (ss : list cell) : list Qc :=
  map (fun k => qsum (map snd (filter (fun e => nn ss (fst e) =? k) (combine (samples b') (sample_probs b' v))))) (seq 0 (length ss)).
(** Its error estimate, and the identifier of each sample: its part of the
    contributions of the events it entered or left. *)
Definition region_err (b' : problem) (ss : list cell) (labels : list Qc) (region : Qc) : xnum :=
  let pts := sample_points nn b' ss labels region in
  if some_event_empty (probs b') pts then PInf else Fin (total_change (probs b') pts).
Definition moved (i : nat) (e : spoint) : bool := xorb (from i e) (to i e).
Definition event_part (pts : list spoint) (ip : nat * Qc) : xnum :=
  if existsb (from (fst ip)) pts && existsb (to (fst ip)) pts
  then Fin (share_change pts (fst ip) (snd ip) / number (moved (fst ip)) pts)%Qc else PInf.
Definition sample_id (ps : list Qc) (pts : list spoint) (e : spoint) : xnum :=
  xsum (map (event_part pts) (filter (fun ip => moved (fst ip) e) (events ps))).
Definition sample_ids (b' : problem) (ss : list cell) (labels : list Qc) (region : Qc) : list xnum :=
  let pts := sample_points nn b' ss labels region in map (sample_id (probs b') pts) pts.

(** What the update stores for the old samples. *)
Definition old_probs (b' : problem) (v : list Qc) : list Qc :=
  map (fun k => qsum (map snd (filter (fun e => home (fst e) =? k) (combine (samples b') (sample_probs b' v))))) (seq 0 (length (samples b))).
Definition old_ids (b' : problem) (ss : list cell) (labels : list Qc) (region : Qc) : list xnum :=
  map (fun k => xsum (map snd (filter (fun e => home (fst e) =? k) (combine (samples b') (sample_ids b' ss labels region))))) (seq 0 (length (samples b))).

(** *** Histories of calls on one object *)
(** A set of regions: its tree, if any, belongs to its values.  What the ranks
    hold does not matter. *)
Definition region_set_is (d : nat) (s : sset cell) (ss : list cell) (labels : list Qc) : Prop :=
  valid_set s (length ss) /\ tree_current s /\ dim s = d /\ glob s Values = Some (mk_arr ss [d]) /\ glob s Region = Some (vec_arr labels).
Inductive call :=
| Generate (order : nat) (s : sset cell) (ys : list cell) (w : option (list Qc))
| Regions (s : sset cell) (ss : list cell) (labels regions : list Qc) (update : bool).
Definition proper_call (P : nat) (c : call) : Prop :=
  match c with
  | Generate _ s ys w => ys <> [] /\ points_are P (p_in b) s ys /\ Forall (is_point (p_in b)) ys /\ brings s w
  | Regions s ss labels regions _ => ss <> [] /\ region_set_is (p_in b) s ss labels /\ regions <> []
  end.
(** The same call on another number of processes. *)
Definition same_call (c1 c2 : call) : Prop :=
  match c1, c2 with
  | Generate o1 _ ys1 w1, Generate o2 _ ys2 w2 => o1 = o2 /\ ys1 = ys2 /\ w1 = w2
  | Regions _ ss1 l1 r1 u1, Regions _ ss2 l2 r2 u2 => ss1 = ss2 /\ l1 = l2 /\ r1 = r2 /\ u1 = u2
  | _, _ => False
  end.
Definition make (P : nat) (c : call) (u : surrogate) : result (list (Qc * xnum) * surrogate) :=
  match c with
  | Generate order s _ _ => rmap (fun u1 => ([], u1)) (generate nn P order s u)
  | Regions s _ _ regions update => rmap (fun r => (fst (fst r), snd r)) (region_probabilities nn P s regions update u)
  end.
Fixpoint make_all (P : nat) (cs : list call) (u : surrogate) : result (list (list (Qc * xnum)) * surrogate) :=
  match cs with
  | [] => Ok ([], u)
  | c :: r =>
      match make P c u with
      | Ok (x, u1) => rmap (fun t => (x :: fst t, snd t)) (make_all P r u1)
      | Raise x => Raise x
      end
  end.

(** What is known in the course of a history: the problem of the new samples with
    the volumes, and what the last update stored. *)
Record known := mk_known { k_new : option (problem * list Qc); k_stored : option (list Qc * list xnum) }.
Definition answer_to (k : known) (c : call) : result (list (Qc * xnum)) :=
  match c with
  | Generate order _ _ _ =>
      match order, o_jacobians a with
      | 0, _ | 1, Some _ => Ok []
      | _, _ => Raise WrongArgumentType
      end
  | Regions _ ss labels regions _ =>
      match k_new k with
      | Some (b', v) =>
          if o_estimates a && forallb (fun r => existsb (fun l => qeqb l r) labels) regions
          then Ok (map (fun r => (region_prob b' v ss labels r, region_err b' ss labels r)) regions)
          else Raise WrongArgumentType
      | None => Raise WrongArgumentType
      end
  end.
Definition learn (k : known) (c : call) : known :=
  match c with
  | Generate order _ ys w => mk_known (Some (new_problem order ys, new_volumes ys w)) (k_stored k)
  | Regions _ ss labels regions update =>
      match k_new k with
      | Some (b', v) => mk_known (k_new k) (if update then Some (old_probs b' v, old_ids b' ss labels (last regions 0%Qc)) else k_stored k)
      | None => k
      end
  end.
Fixpoint answers_to (k : known) (cs : list call) : list (result (list (Qc * xnum))) :=
  match cs with [] => [] | c :: r => answer_to k c :: answers_to (learn k c) r end.

(** The surrogate discretization: the new samples with their outputs and error
    estimates, block by block. *)
Definition surrogate_disc_is (P : nat) (b' : problem) (e : disc cell) : Prop :=
  (exists inp, d_in e = Some inp /\ dim inp = p_in b' /\ glob inp Values = Some (mk_arr (samples b') [p_in b']) /\
     loc inp Values = Some (split_arr P (mk_arr (samples b') [p_in b']))) /\
  (exists out, d_out e = Some out /\ dim out = p_out b' /\ loc out Values = Some (split_arr P (mk_arr (map row (outputs b')) [p_out b'])) /\
     loc out ErrorEstimates = if o_estimates a then Some (split_arr P (mk_arr (map row (estimates b')) [p_out b'])) else None) /\
  (exists pr, d_prob e = Some pr /\ dim pr = p_out b' /\ glob pr Values = Some (mk_arr (cells b') [p_out b']) /\ glob pr Probabilities = Some (vec_arr (probs b'))).
(** The old discretization: everything stored is still there, apart from what an
    update replaces. *)
Definition old_kept (st : option (list Qc * list xnum)) (d : disc cell) (u : surrogate) : Prop :=
  (exists inp inp1, d_in d = Some inp /\ d_in (u_disc u) = Some inp1 /\ dim inp1 = dim inp /\
     (forall x, x <> KdtreeValues -> x <> Probabilities -> glob inp1 x = glob inp x) /\
     glob inp1 Probabilities = match st with Some (p, _) => Some (vec_arr p) | None => glob inp Probabilities end) /\
  stored_same (d_out d) (d_out (u_disc u)) /\ stored_same (d_prob d) (d_prob (u_disc u)) /\
  u_base_ids u = option_map snd st.
(** Old samples of the affine map x -> A x + c, with its exact Jacobians. *)
Definition affine (A : list (list Qc)) (c x : list Qc) : list Qc := map (fun rc => (times (fst rc) x + snd rc)%Qc) (combine A c).
Definition of_affine (A : list (list Qc)) (c : list Qc) : Prop :=
  outputs b = map (fun x => affine A c (coords x)) (samples b) /\ o_jacobians a = Some (repeat A (length (samples b))) /\ length c = length A.
End New.
