(** What the properties of sampling_error objects say. *)
From Coq Require Import List Arith Bool QArith Qcanon.
From Verif Require Import Err Num Ext NumPy SampleSet_Model SampleSet_Spec Volume_Spec Disc_Model Disc_Spec Error_Spec ErrorDisc_Model ErrorDisc_Spec SampErr_Model.
Import ListNotations.
Local Open Scope nat_scope.
Local Open Scope err_scope.

(** The data of the problem: input samples, their outputs and the cells of the
    output probability set. *)
Record survey := mk_survey { g_in : nat; g_out : nat; g_samples : list cell; g_outputs : list cell; g_cells : list cell }.
(** What may change: probabilities of the output cells, points of the emulated
    input set, stored volumes of the input cells.  [w_seen]: the events that
    earlier questions about regions came across. *)
Record view := mk_view { w_probs : list Qc; w_emulated : option (list cell); w_vols : option (list Qc); w_seen : list nat }.
Definition proper_survey (g : survey) : Prop :=
  g_samples g <> [] /\ g_cells g <> [] /\ length (g_outputs g) = length (g_samples g).
Definition proper_view (g : survey) (w : view) : Prop :=
  length (w_probs w) = length (g_cells g) /\ w_emulated w <> Some [] /\
  forall v x, w_vols w = Some v -> In x v -> (0 <= x)%Qc.

(** The contour event of each sample. *)
Definition sample_events (nn : list cell -> cell -> nat) (g : survey) : list nat := map (nn (g_cells g)) (g_outputs g).

(** The discretization holds the data.  Global pointers that were computed
    earlier belong to the present sets. *)
Definition emulated_are (P : nat) (g : survey) (w : view) (o : option (sset cell)) : Prop :=
  match w_emulated w, o with
  | Some ps, Some em => points_are P (g_in g) em ps
  | None, None => True
  | _, _ => False
  end.
Definition holds_survey (nn : list cell -> cell -> nat) (P : nat) (g : survey) (w : view) (d : disc cell) : Prop :=
  (exists inp, d_in d = Some inp /\ points_are P (g_in g) inp (g_samples g) /\ glob inp Volumes = option_map vec_arr (w_vols w)) /\
  (exists out, d_out d = Some out /\ points_are P (g_out g) out (g_outputs g)) /\
  (exists pr, d_prob d = Some pr /\ points_are P (g_out g) pr (g_cells g) /\ glob pr Probabilities = Some (vec_arr (w_probs w))) /\
  emulated_are P g w (d_ein d) /\
  (forall l, io d = Some l -> l = sample_events nn g) /\
  (forall l, ii d = Some l -> exists ps, w_emulated w = Some ps /\ ii_loc d = Some (array_split (map (nn (g_samples g)) ps) P)).

(** Neighbouring cells: on the line, samples without another sample between
    them (with distinct samples in increasing order, or at least in an order
    whose sorting permutation is its own inverse); otherwise vertices of the same
    simplex of the Delaunay triangulation. *)
Definition own_inverse (p : list nat) : Prop := forall i j, nth_error p i = Some j -> nth_error p j = Some i.
Definition neighbours_are (argsort : list Qc -> list nat) (delaunay : list cell -> result (list (list nat))) (g : survey) (nb : nat -> nat -> bool) : Prop :=
  (g_in g = 1 /\ exists xs, g_samples g = map (fun q => row [q]) xs /\ NoDup xs /\ is_argsort xs (argsort xs) /\ own_inverse (argsort xs) /\
     forall p q, nb p q = true <-> adjacent xs p q) \/
  (g_in g <> 1 /\ exists t, delaunay (g_samples g) = Ok t /\ (forall s, In s t -> NoDup s /\ forall k, In k s -> k < length (g_samples g)) /\
     forall p q, nb p q = true <-> exists s, In s t /\ In p s /\ In q s /\ p <> q).

(** *** Bounds *)
Section Bounds.
Context (ev : list nat) (nb : nat -> nat -> bool).
Definition ids : list nat := seq 0 (length ev).
(** cells of event i, cells with a neighbour in i, cells of i that have
    neighbours, all of them in i *)
Definition in_ev (i k : nat) : bool := nth k ev 0 =? i.
Definition touches (i k : nat) : bool := existsb (fun l => nb k l && in_ev i l) ids.
Definition inside (i k : nat) : bool := in_ev i k && touches i k && forallb (fun l => implb (nb k l) (in_ev i l)) ids.

(** volume of a set of cells *)
Definition cells_vol (v : list Qc) (f : nat -> bool) : Qc := qsum (map (fun k => nth k v 0%Qc) (filter f ids)).
(** Upper and lower bound for an event of probability p: inner volume a, volume
    c of the touching cells, volume d of those of them in the event. *)
Definition bounds_from (p a c d : Qc) : xnum * xnum :=
  if qltb 0 a then (Fin (p * (d / a - 1))%Qc, Fin (p * (a / c - 1))%Qc)
  else if qltb 0 d then (PInf, Fin (- p)%Qc)
  else if qltb 0 c then (Fin (- p)%Qc, Fin (- p)%Qc)
  else (NaN, NaN).
Definition event_bounds (v : list Qc) (seen : list nat) (i : nat) (p : Qc) : xnum * xnum :=
  if qltb 0 p then
    if existsb (inside i) ids || existsb (Nat.eqb i) seen
    then bounds_from p (cells_vol v (inside i)) (cells_vol v (touches i)) (cells_vol v (fun k => touches i k && in_ev i k))
    else (NaN, NaN)
  else (Fin 0%Qc, Fin 0%Qc).

(** A point: in the region or not, its input cell. *)
Definition rpoint := (bool * nat)%type.
Definition npts (f : nat -> bool) (pts : list rpoint) : Qc := qn (length (filter (fun e => f (snd e)) pts)).
Definition npts_in (f : nat -> bool) (pts : list rpoint) : Qc := qn (length (filter (fun e => fst e && f (snd e)) pts)).
Definition hit (f : nat -> bool) (pts : list rpoint) : bool := existsb (fun e => f (snd e)) pts.
Definition all_hit (pts : list rpoint) (i : nat) : bool := hit (in_ev i) pts && hit (touches i) pts && hit (inside i) pts.
Definition term_1 (pts : list rpoint) (i : nat) : Qc := (npts_in (inside i) pts / npts (touches i) pts - npts_in (in_ev i) pts / npts (in_ev i) pts)%Qc.
Definition term_2 (pts : list rpoint) (i : nat) : Qc := (npts_in (touches i) pts / npts (inside i) pts - npts_in (in_ev i) pts / npts (in_ev i) pts)%Qc.
Definition region_value (ps : list Qc) (pts : list rpoint) : xnum * xnum :=
  if forallb (fun ip => all_hit pts (fst ip)) (events ps)
  then (Fin (qsum (map (fun ip => (snd ip * qmax (term_1 pts (fst ip)) (term_2 pts (fst ip)))%Qc) (events ps))),
        Fin (qsum (map (fun ip => (snd ip * qmin (term_1 pts (fst ip)) (term_2 pts (fst ip)))%Qc) (events ps))))
  else (NaN, NaN).
(** The question stops at the first event that is not hit; an event without
    points is not looked at closer. *)
Fixpoint come_across (evs : list (nat * Qc)) (pts : list rpoint) : list nat :=
  match evs with
  | [] => []
  | ip :: r =>
      if hit (in_ev (fst ip)) pts then fst ip :: (if all_hit pts (fst ip) then come_across r pts else []) else []
  end.
End Bounds.

(** *** Answers *)
(** The volumes of the input cells: those that are stored; otherwise the share
    of the emulated points in each cell, or equal shares. *)
Definition volumes_now (nn : list cell -> cell -> nat) (g : survey) (w : view) : list Qc :=
  match w_vols w, w_emulated w with
  | Some v, _ => v
  | None, Some ps => map (fun k => (qn (hits nn (g_samples g) ps k) / qn (length ps))%Qc) (seq 0 (length (g_samples g)))
  | None, None => map (fun _ => (1 / qn (length (g_samples g)))%Qc) (g_samples g)
  end.
Definition region_pts (nn : list cell -> cell -> nat) (g : survey) (ss : list cell) (labels : list Qc) (region : Qc) (ps : list cell) : list rpoint :=
  map (fun x => (in_the_region nn ss labels region x, nn (g_samples g) x)) ps.
Definition points_used (g : survey) (w : view) (em : option (sset cell * list cell)) : list cell :=
  match em, w_emulated w with Some (_, ps), _ => ps | None, Some ps => ps | None, None => g_samples g end.
(** The upper bounds, the lower bounds and what may have changed. *)
Definition reply (nn : list cell -> cell -> nat) (g : survey) (nb : nat -> nat -> bool) (w : view) (q : question) : result (list xnum * list xnum * view) :=
  let ev := sample_events nn g in
  match q with
  | Contours =>
      let v := volumes_now nn g w in
      let bs := map (fun ip => event_bounds ev nb v (w_seen w) (fst ip) (snd ip)) (combine (seq 0 (length (w_probs w))) (w_probs w)) in
      Ok (map fst bs, map snd bs, mk_view (w_probs w) (w_emulated w) (Some v) (w_seen w))
  | Region_ _ ss labels region em =>
      if existsb (fun l => qeqb l region) labels then
        let pts := region_pts nn g ss labels region (points_used g w em) in
        let b := region_value ev nb (w_probs w) pts in
        Ok ([fst b], [snd b], mk_view (w_probs w) (w_emulated w) (w_vols w) (w_seen w ++ come_across ev nb (events (w_probs w)) pts))
      else Raise WrongArgumentType
  end.

(** Questions, new probabilities of the output cells and new emulated sets. *)
Inductive sevent := SAsk (q : question) | SProbs (p : list Qc) | SEmulated (e : sset cell) (ps : list cell).
Definition proper_sevent (P : nat) (g : survey) (e : sevent) : Prop :=
  match e with
  | SAsk Contours => True
  | SAsk (Region_ s ss labels region em) =>
      ss <> [] /\ region_points_are P (g_in g) s ss labels /\
      match em with Some (e, ps) => points_are P (g_in g) e ps | None => True end
  | SProbs p => length p = length (g_cells g)
  | SEmulated e ps => points_are P (g_in g) e ps /\ ps <> []
  end.
Fixpoint replies (nn : list cell -> cell -> nat) (g : survey) (nb : nat -> nat -> bool) (w : view) (es : list sevent) : result (list (list xnum * list xnum)) :=
  match es with
  | [] => Ok []
  | SAsk q :: r => do a <- reply nn g nb w q ; do rest <- replies nn g nb (snd a) r ; Ok (fst a :: rest)
  | SProbs p :: r => replies nn g nb (mk_view p (w_emulated w) (w_vols w) (w_seen w)) r
  | SEmulated _ ps :: r => replies nn g nb (mk_view (w_probs w) (Some ps) (w_vols w) (w_seen w)) r
  end.

(** The events as calls on the object. *)
Definition pair_of (o : option (Qc * Qc)) : list xnum * list xnum :=
  match o with Some (u, l) => ([Fin u], [Fin l]) | None => ([NaN], [NaN]) end.
Definition on_disc (f : disc cell -> disc cell) (m : samp_err) : samp_err := mk_serr (f (se_disc m)) (se_num m) (se_sets m).
Definition spose (nn : list cell -> cell -> nat) (P : nat) (q : question) (m : samp_err) : result (list xnum * list xnum * samp_err) :=
  match q with
  | Contours => sampling_contours nn P m
  | Region_ s _ _ region em => rmap (fun r => (pair_of (fst r), snd r)) (sampling_region nn P s region (option_map fst em) m)
  end.
Definition put_probs (p : list Qc) (d : disc cell) : disc cell :=
  with_prob (option_map (set_glob Probabilities (Some (vec_arr p))) (d_prob d)) d.
Fixpoint srun (nn : list cell -> cell -> nat) (P : nat) (es : list sevent) (m : samp_err) : result (list (list xnum * list xnum) * samp_err) :=
  match es with
  | [] => Ok ([], m)
  | SAsk q :: r => do a <- spose nn P q m ; do rest <- srun nn P r (snd a) ; Ok (fst a :: fst rest, snd rest)
  | SProbs p :: r => srun nn P r (on_disc (put_probs p) m)
  | SEmulated e _ :: r => do d <- done (set_emulated_input e (se_disc m)) ; srun nn P r (on_disc (fun _ => d) m)
  end.
Definition no_new_emulated (es : list sevent) : Prop := forall e ps, ~ In (SEmulated e ps) es.

(** Asking keeps what is stored; the pointers on the ranks may be computed anew. *)
Definition forget (d : disc cell) : disc cell := with_ii (ii d) None (with_io (io d) None d).
Definition kept (d d' : disc cell) : Prop := nothing_lost (forget d) d'.
(** Zero lies between the bounds, or there are none. *)
Definition brackets (u l : xnum) : Prop := (u = NaN /\ l = NaN) \/ (xleb l (Fin 0%Qc) = true /\ xleb (Fin 0%Qc) u = true).
(** The sets the object is for: Voronoi sets of the 2-norm. *)
Definition euclidean : set_kind := VoronoiSet (Fin (Q2Qc 2)).
