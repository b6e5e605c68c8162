From Coq Require Import String List Arith Bool QArith Qcanon.
From Verif Require Import Err Num Ext PlotDomains_Spec PlotP_Model.
Import ListNotations.
Local Open Scope nat_scope.

(** Edge k of n equal bins of the interval d. *)
Definition edge (d : Qc * Qc) (n k : nat) : Qc := (fst d + qn k * ((snd d - fst d) / qn n))%Qc.
Definition edges (d : Qc * Qc) (n : nat) : list Qc := map (edge d n) (seq 0 (n + 1)).
Definition bin_width (d : Qc * Qc) (n k : nat) : Qc := (edge d n (k + 1) - edge d n k)%Qc.

(** A curve shows the density of the marginal m: point k lies over bin k, and its
    height times the width of the bin is the probability of the bin. *)
Definition curve_shows (d : Qc * Qc) (m : list Qc) (x : list Qc) (y : list xnum) : Prop :=
  length x = length m /\ length y = length m /\
  forall k p, nth_error m k = Some p -> exists u h, nth_error x k = Some u /\ nth_error y k = Some (Fin h) /\
    (edge d (length m) k <= u /\ u <= edge d (length m) (k + 1))%Qc /\ (h * bin_width d (length m) k = p)%Qc.

(** The rectangle of pixel (r, c) of an image with [rows] rows and [cols] columns;
    row 0 is the lowest one. *)
Definition pixel_box (extent : (Qc * Qc) * (Qc * Qc)) (rows cols r c : nat) : (Qc * Qc) * (Qc * Qc) :=
  ((edge (fst extent) cols c, edge (fst extent) cols (c + 1)), (edge (snd extent) rows r, edge (snd extent) rows (r + 1))).
(** The image shows the density of the table m with ni rows and nj columns: for
    every bin (a, b) there is one pixel that covers exactly this bin, and its
    value times the area is the probability. *)
Definition image_shows (di dj : Qc * Qc) (ni nj : nat) (m : list (list Qc)) (extent : (Qc * Qc) * (Qc * Qc)) (pixels : list (list xnum)) : Prop :=
  length pixels = nj /\ (forall row, In row pixels -> length row = ni) /\
  forall a b mrow p, nth_error m a = Some mrow -> nth_error mrow b = Some p ->
    exists prow h, nth_error pixels b = Some prow /\ nth_error prow a = Some (Fin h) /\
      pixel_box extent nj ni b a = ((edge di ni a, edge di ni (a + 1)), (edge dj nj b, edge dj nj (b + 1))) /\
      (h * (bin_width di ni a * bin_width dj nj b) = p)%Qc.
Definition table (ni nj : nat) (m : list (list Qc)) : Prop := length m = ni /\ forall row, In row m -> length row = nj.
(** The argument stands for the sample set s. *)
Definition set_of (a : marg) (s : mset) : Prop := a = MSet s \/ a = MDisc (Some s).
Definition own_or {A} (given own : option A) : option A := match given with Some x => Some x | None => own end.
(** Every key has an entry in the list, if there is a list. *)
Definition long_enough {A} (l : option (list A)) (i : nat) : Prop := forall x, l = Some x -> i < length x.

(** The label of axis i: the given one, or that of parameter i + 1. *)
Definition param_axis (lab : option (list string)) (i : nat) (l : string) : Prop :=
  match lab with
  | Some ls => nth_error ls i = Some l
  | None => l = append "$\lambda_{" (append (PlotDomains_Model.dec (S i)) "}$")
  end.
(** The axis ends five percent above the highest point, and the mark of the
    reference value is drawn two percent above the bottom of the axis. *)
Definition axis_height (ref : option (list Qc)) (f : curve_fig) : Prop :=
  exists top, In (Fin top) (c_y f) /\ (forall h, In h (c_y f) -> exists h', h = Fin h' /\ (h' <= top)%Qc) /\
    c_top f = Fin (top + top * Q2Qc (5 # 100))%Qc /\
    (ref <> None -> option_map snd (c_mark f) = Some (Fin ((top + top * Q2Qc (5 # 100)) * Q2Qc (2 # 100))%Qc)).
(** The figure of the key [fst im]. *)
Definition shown_1D (dom : list (Qc * Qc)) (ref : option (list Qc)) (lab : option (list string)) (im : nat * list Qc) (f : curve_fig) : Prop :=
  exists d, nth_error dom (fst im) = Some d /\ curve_shows d (snd im) (c_x f) (c_y f) /\
    option_map fst (c_mark f) = match ref with Some r => nth_error r (fst im) | None => None end /\
    param_axis lab (fst im) (c_label f) /\
    axis_height ref f.
(** What is required of an item of the dictionary. *)
Definition item_ok (dom : list (Qc * Qc)) (bins : list (list Qc)) (ref : option (list Qc)) (lab : option (list string)) (least : nat)
    (im : (nat * nat) * (nat * list (list Qc))) : Prop :=
  let '((i, j), (nj, m)) := im in
  exists di dj, nth_error dom i = Some di /\ nth_error dom j = Some dj /\ (fst di < snd di)%Qc /\ (fst dj < snd dj)%Qc /\
    least <= length m /\ least <= nj /\ table (length m) nj m /\
    nth_error bins i = Some (edges di (length m)) /\ nth_error bins j = Some (edges dj nj) /\
    long_enough ref i /\ long_enough ref j /\ long_enough lab i /\ long_enough lab j.
(** Where the reference value is marked. *)
Definition mark_of (ref : option (list Qc)) (i j : nat) : option (Qc * Qc) :=
  match ref with
  | Some r => match nth_error r i, nth_error r j with Some x, Some y => Some (x, y) | _, _ => None end
  | None => None
  end.
(** The image or the contours of the key (i, j). *)
Definition shown_2D (dom : list (Qc * Qc)) (ref : option (list Qc)) (lab : option (list string)) (im : (nat * nat) * (nat * list (list Qc)))
    (extent : (Qc * Qc) * (Qc * Qc)) (pixels : list (list xnum)) (mark : option (Qc * Qc)) (labels : string * string) : Prop :=
  let '((i, j), (nj, m)) := im in
  exists di dj, nth_error dom i = Some di /\ nth_error dom j = Some dj /\ image_shows di dj (length m) nj m extent pixels /\
    mark = mark_of ref i j /\ param_axis lab i (fst labels) /\ param_axis lab j (snd labels).
(** The surface has the probabilities at the middles of the bins. *)
Definition surface_shown (dom : list (Qc * Qc)) (im : (nat * nat) * (nat * list (list Qc))) (f : surface_fig) : Prop :=
  let '((i, j), (nj, m)) := im in
  exists di dj, nth_error dom i = Some di /\ nth_error dom j = Some dj /\ u_z f = m /\ length (u_x f) = length m /\ length (u_y f) = nj /\
    (forall k, k < length m -> nth_error (u_x f) k = Some ((edge di (length m) k + edge di (length m) (k + 1)) / qn 2)%Qc) /\
    (forall k, k < nj -> nth_error (u_y f) k = Some ((edge dj nj k + edge dj nj (k + 1)) / qn 2)%Qc).
(** Contours: further marks for every given reference, and the part of the plane that is shown. *)
Definition shown_contour (dom : list (Qc * Qc)) (ref : option (list Qc)) (lab : option (list string)) (lam_refs : option (list (list Qc)))
   (plot_domain : option (list (Qc * Qc))) (im : (nat * nat) * (nat * list (list Qc))) (f : contour_fig) : Prop :=
  shown_2D dom ref lab im (o_extent f) (o_heights f) (o_mark f) (o_labels f) /\
  (match lam_refs with Some q => Forall2 (restricted 0 [fst (fst im); snd (fst im)]) q (o_marks f) | None => o_marks f = [] end) /\
  Some (o_axis f) = (let d := match plot_domain with Some p => p | None => dom end in
     match nth_error d (fst (fst im)), nth_error d (snd (fst im)) with Some x, Some y => Some (x, y) | _, _ => None end).

(** ** Densities *)
Definition stands_for (inputs : bool) (a : darg) (s : dset) : Prop :=
  a = DSet s \/ exists i o, a = DDisc i o /\ (if inputs then i else o) = Some s.
(** The entry of set k in the legend. *)
Definition legend_entry (given : option (list string)) (suffix extra : string) (i k : nat) (s : dset) (l : string) : Prop :=
  match given with
  | Some ls => nth_error ls k = Some l
  | None => match d_labels s with
            | None => l = append "Set " (append (PlotDomains_Model.dec k) suffix)
            | Some ls => exists l0, nth_error ls i = Some l0 /\ l = append l0 extra
            end
  end.
(** The curve of set k: the initial density (solid) or the updated one (dashed). *)
Definition is_curve (x : list Qc) (i : nat) (initials : bool) (upd ini : option (list string)) (k : nat) (s : dset) (c : dcurve) : Prop :=
  (e_dashed c = false /\ initials = true /\ (exists f, d_init s = Some f /\ e_y c = f x i) /\ legend_entry ini " Initial" " Initial" i k s (e_label c)) \/
  (e_dashed c = true /\ (exists f, d_upd s = Some f /\ e_y c = f x i) /\ legend_entry upd " Updated" "" i k s (e_label c)).
Definition num_curves (initials : bool) (s : dset) : nat :=
  (match d_init s with Some _ => if initials then 1 else 0 | None => 0 end) + (match d_upd s with Some _ => 1 | None => 0 end).
(** n equidistant points from a to b *)
Definition is_grid (a b : Qc) (n : nat) (x : list Qc) : Prop :=
  length x = n /\ forall k, k < n -> nth_error x k = Some (a + qn k * ((b - a) / qn (n - 1)))%Qc.
(** v is the coordinate i of a sample of one of the sets. *)
Definition value_of (sets : list dset) (i : nat) (v : Qc) : Prop := exists s row, In s sets /\ In row (d_values s) /\ nth_error row i = Some v.
Definition least_value (sets : list dset) (i : nat) (v : Qc) : Prop := value_of sets i v /\ forall w, value_of sets i w -> (v <= w)%Qc.
Definition greatest_value (sets : list dset) (i : nat) (v : Qc) : Prop := value_of sets i v /\ forall w, value_of sets i w -> (w <= v)%Qc.
(** The points at which the densities are evaluated. *)
Definition points_of (interval : option (Qc * Qc)) (num_points : nat) (sets : list dset) (i : nat) (x : list Qc) : Prop :=
  match interval with
  | Some ab => is_grid (fst ab) (snd ab) num_points x
  | None => exists lo hi, least_value sets i lo /\ greatest_value sets i hi /\ is_grid (lo - (hi - lo) / qn 4)%Qc (hi + (hi - lo) / qn 4)%Qc 100 x
  end.
(** The label of the axis. *)
Definition axis_of (label : option string) (sets : list dset) (i : nat) (l : string) : Prop :=
  match label with
  | Some t => l = t
  | None => exists s, nth_error sets 0 = Some s /\ match d_labels s with Some ls => nth_error ls i = Some l | None => l = append "Parameter " (PlotDomains_Model.dec i) end
  end.
(** The curves of every set. *)
Definition curves_of (x : list Qc) (i : nat) (initials : bool) (upd ini : option (list string)) (sets : list dset) (cs : list dcurve) : Prop :=
  exists css, cs = concat css /\ length css = length sets /\
    forall k s, nth_error sets k = Some s -> exists l, nth_error css k = Some l /\ length l = num_curves initials s /\ forall c, In c l <-> is_curve x i initials upd ini k s c.
(** What is required of a set: labels, and samples if their range is needed. *)
Definition dset_ok (interval : option (Qc * Qc)) (i : nat) (s : dset) : Prop :=
  long_enough (d_labels s) i /\ (interval = None -> d_values s <> [] /\ forall row, In row (d_values s) -> i < length row).
