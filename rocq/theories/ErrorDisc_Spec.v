(** What the properties of model_error objects say. *)
From Coq Require Import List Arith Bool QArith Qcanon.
From Verif Require Import Err Num Ext NumPy SampleSet_Model SampleSet_Spec Disc_Model Disc_Spec Error_Spec ErrorDisc_Model.
Import ListNotations.
Local Open Scope nat_scope.

(** A point with these coordinates; the sum of two points. *)
Definition row (l : list Qc) : cell := Vec (map Num l).
Definition plus (a b : list Qc) : list Qc := map (fun p => (fst p + snd p)%Qc) (combine a b).

(** A set of n samples whose tree, if any, was built from its present values and
    whose arrays on the ranks are the parts of its global arrays (those numpy's
    array_split makes). *)
Definition in_step (P : nat) (s : sset cell) (n : nat) : Prop :=
  valid_set s n /\ (tree_current s /\ (glob s KdtreeValues = None \/ glob s KdtreeValues = glob s Values)) /\
  forall a bs, loc s a = Some bs -> exists x, glob s a = Some x /\ map rows bs = array_split (rows x) P /\ forall b, In b bs -> tail_shape b = tail_shape x.
Definition points_are (P : nat) (d : nat) (s : sset cell) (xs : list cell) : Prop :=
  in_step P s (length xs) /\ dim s = d /\ glob s Values = Some (mk_arr xs [d]).

(** The data of the problem: input samples, outputs, error estimates of the
    outputs, cells of the output probability set, their probabilities, and the
    points of the emulated input set, if there is one. *)
Record problem := mk_problem {
  p_in : nat; p_out : nat;
  samples : list cell; outputs : list (list Qc); estimates : list (list Qc);
  cells : list cell; probs : list Qc; emulated : option (list cell) }.
Definition well_posed (b : problem) : Prop :=
  samples b <> [] /\ cells b <> [] /\
  length (outputs b) = length (samples b) /\ length (estimates b) = length (samples b) /\
  (forall z, In z (outputs b) \/ In z (estimates b) -> length z = p_out b) /\
  length (probs b) = length (cells b) /\ emulated b <> Some [].

(** The events of a sample: the cell of its output, and the cell of its output
    plus the error estimate. *)
Definition cells_before (nn : list cell -> cell -> nat) (b : problem) : list nat :=
  map (fun z => nn (cells b) (row z)) (outputs b).
Definition cells_after (nn : list cell -> cell -> nat) (b : problem) : list nat :=
  map (fun ze => nn (cells b) (row (plus (fst ze) (snd ze)))) (combine (outputs b) (estimates b)).

(** The discretization holds the data.  Pointers that were computed earlier
    belong to the present sets. *)
Definition emulated_set_is (P : nat) (b : problem) (o : option (sset cell)) : Prop :=
  match emulated b, o with
  | Some ps, Some em => points_are P (p_in b) em ps
  | None, None => True
  | _, _ => False
  end.
Definition holds_problem (nn : list cell -> cell -> nat) (P : nat) (b : problem) (d : disc cell) : Prop :=
  (exists inp, d_in d = Some inp /\ points_are P (p_in b) inp (samples b)) /\
  (exists out, d_out d = Some out /\ points_are P (p_out b) out (map row (outputs b)) /\
     glob out ErrorEstimates = Some (mk_arr (map row (estimates b)) [p_out b])) /\
  (exists pr, d_prob d = Some pr /\ points_are P (p_out b) pr (cells b) /\ glob pr Probabilities = Some (vec_arr (probs b))) /\
  emulated_set_is P b (d_ein d) /\
  (forall l, io d = Some l -> l = cells_before nn b) /\
  (forall bs, io_loc d = Some bs -> bs = array_split (cells_before nn b) P) /\
  (forall bs, ii_loc d = Some bs -> exists ps, emulated b = Some ps /\ bs = array_split (map (nn (samples b)) ps) P).

(** The volumes of the input cells: those that are stored; otherwise the share
    of the emulated points in each cell, or equal shares. *)
Definition hits (nn : list cell -> cell -> nat) (xs ps : list cell) (k : nat) : nat :=
  length (filter (fun p => nn xs p =? k) ps).
Definition input_volumes (nn : list cell -> cell -> nat) (b : problem) (stored : option (list Qc)) : list Qc :=
  match stored, emulated b with
  | Some v, _ => v
  | None, Some ps => map (fun k => (qn (hits nn (samples b) ps k) / qn (length ps))%Qc) (seq 0 (length (samples b)))
  | None, None => map (fun _ => (1 / qn (length (samples b)))%Qc) (samples b)
  end.
Definition stored_volumes (d : disc cell) (v : option (list Qc)) : Prop :=
  exists inp, d_in d = Some inp /\ glob inp Volumes = option_map vec_arr v.

(** *** The answers *)

(** Error of the event i of probability p: p times the share of the volume of
    the samples with corrected output in i that had their output elsewhere. *)
Definition event_error (s : list (nat * nat * Qc)) (i : nat) (p : Qc) : xnum :=
  if qltb 0 p then
    if qeqb (vol_before s i) 0 || qeqb (vol_after s i) 0 then NaN
    else Fin (p * ((vol_after s i - vol_kept s i) / vol_after s i))%Qc
  else Fin 0%Qc.
Definition moved_volumes (nn : list cell -> cell -> nat) (b : problem) (v : list Qc) : list (nat * nat * Qc) :=
  combine (combine (cells_before nn b) (cells_after nn b)) v.
Definition contour_answer (nn : list cell -> cell -> nat) (b : problem) (v : list Qc) : list xnum :=
  map (fun ip => event_error (moved_volumes nn b v) (fst ip) (snd ip)) (combine (seq 0 (length (probs b))) (probs b)).

(** A point: in the region or not, its event before and after. *)
Definition spoint := (bool * nat * nat)%type.
Definition number (f : spoint -> bool) (pts : list spoint) : Qc := qn (length (filter f pts)).
Definition is_in (e : spoint) : bool := fst (fst e).
Definition from (i : nat) (e : spoint) : bool := snd (fst e) =? i.
Definition to (i : nat) (e : spoint) : bool := snd e =? i.
(** The share of the region in event i, before minus after, times p. *)
Definition share_change (pts : list spoint) (i : nat) (p : Qc) : Qc :=
  (p * (number (fun e => is_in e && from i e) pts / number (from i) pts -
        number (fun e => is_in e && to i e) pts / number (to i) pts))%Qc.
(** The events of positive probability; one of them is empty, before or after. *)
Definition events (ps : list Qc) : list (nat * Qc) := filter (fun ip => qltb 0 (snd ip)) (combine (seq 0 (length ps)) ps).
Definition some_event_empty (ps : list Qc) (pts : list spoint) : bool :=
  existsb (fun ip => negb (existsb (from (fst ip)) pts) || negb (existsb (to (fst ip)) pts)) (events ps).
Definition total_change (ps : list Qc) (pts : list spoint) : Qc :=
  qsum (map (fun ip => share_change pts (fst ip) (snd ip)) (events ps)).

(** The region: the cells of a sample set with this label. *)
Definition region_points_are (P : nat) (d : nat) (s : sset cell) (ss : list cell) (labels : list Qc) : Prop :=
  points_are P d s ss /\ glob s Region = Some (vec_arr labels).
Definition in_the_region (nn : list cell -> cell -> nat) (ss : list cell) (labels : list Qc) (region : Qc) (x : cell) : bool :=
  match nth_error labels (nn ss x) with Some l => qeqb l region | None => false end.
(** Emulated points take the events of the nearest sample. *)
Definition emulated_points (nn : list cell -> cell -> nat) (b : problem) (ss : list cell) (labels : list Qc) (region : Qc) (ps : list cell) : list spoint :=
  map (fun x => (in_the_region nn ss labels region x,
                 nth (nn (samples b) x) (cells_before nn b) 0, nth (nn (samples b) x) (cells_after nn b) 0)) ps.
Definition sample_points (nn : list cell -> cell -> nat) (b : problem) (ss : list cell) (labels : list Qc) (region : Qc) : list spoint :=
  combine (combine (map (in_the_region nn ss labels region) (samples b)) (cells_before nn b)) (cells_after nn b).

(** A question and its answer.  [em]: points of the emulated set given with the
    call. *)
Inductive question :=
| Contours
| Region_ (s_set : sset cell) (ss : list cell) (labels : list Qc) (region : Qc) (em : option (sset cell * list cell)).
Definition proper_question (P : nat) (b : problem) (q : question) : Prop :=
  match q with
  | Contours => True
  | Region_ s ss labels region em =>
      ss <> [] /\ region_points_are P (p_in b) s ss labels /\
      match em with Some (e, ps) => points_are P (p_in b) e ps | None => True end
  end.
Definition answer (nn : list cell -> cell -> nat) (b : problem) (v : list Qc) (q : question) : result (list xnum) :=
  match q with
  | Contours => Ok (contour_answer nn b v)
  | Region_ _ ss labels region em =>
      if existsb (fun l => qeqb l region) labels then
        match em, emulated b with
        | Some (_, ps), _ | None, Some ps =>
            let pts := emulated_points nn b ss labels region ps in
            if some_event_empty (probs b) pts then Raise PyZeroDivision else Ok [Fin (total_change (probs b) pts)]
        | None, None =>
            let pts := sample_points nn b ss labels region in
            Ok [if some_event_empty (probs b) pts then PInf else Fin (total_change (probs b) pts)]
        end
      else Raise WrongArgumentType
  end.
(** The answers up to the first exception. *)
Fixpoint in_turn {A} (l : list (result A)) : result (list A) :=
  match l with
  | [] => Ok []
  | Ok a :: r => match in_turn r with Ok rs => Ok (a :: rs) | Raise x => Raise x end
  | Raise x :: _ => Raise x
  end.

(** The questions as calls on the object. *)
Definition pose (nn : list cell -> cell -> nat) (P : nat) (q : question) (m : model_error) : result (list xnum * model_error) :=
  match q with
  | Contours => contour_errors nn P m
  | Region_ s _ _ region em => rmap (fun r => ([fst r], snd r)) (region_errors nn P s region (option_map fst em) m)
  end.
Fixpoint pose_all (nn : list cell -> cell -> nat) (P : nat) (qs : list question) (m : model_error) : result (list (list xnum) * model_error) :=
  match qs with
  | [] => Ok ([], m)
  | q :: r =>
      match pose nn P q m with
      | Ok (a, m1) => rmap (fun t => (a :: fst t, snd t)) (pose_all nn P r m1)
      | Raise x => Raise x
      end
  end.

(** What a user stored is still there: the arrays of the sets apart from the
    values of the tree, the pointers.  Volumes of the input cells may have been
    added where there were none. *)
Definition stored_same (o o' : option (sset cell)) : Prop :=
  match o, o' with
  | Some s, Some s' => dim s' = dim s /\ forall a, a <> KdtreeValues -> glob s' a = glob s a
  | None, None => True
  | _, _ => False
  end.
Definition inputs_same (o o' : option (sset cell)) : Prop :=
  match o, o' with
  | Some s, Some s' => dim s' = dim s /\ forall a, a <> KdtreeValues -> glob s' a = glob s a \/ (a = Volumes /\ glob s Volumes = None)
  | None, None => True
  | _, _ => False
  end.
Definition pointer_same {A} (o o' : option A) : Prop := forall x, o = Some x -> o' = Some x.
Definition nothing_lost (d d' : disc cell) : Prop :=
  inputs_same (d_in d) (d_in d') /\ stored_same (d_out d) (d_out d') /\ stored_same (d_prob d) (d_prob d') /\
  stored_same (d_ein d) (d_ein d') /\ d_eout d' = d_eout d /\ d_obs d' = d_obs d /\
  (pointer_same (io d) (io d') /\ pointer_same (io_loc d) (io_loc d') /\ pointer_same (ii d) (ii d') /\
   pointer_same (ii_loc d) (ii_loc d') /\ pointer_same (oo d) (oo d') /\ pointer_same (oo_loc d) (oo_loc d')).

(** Questions and new probabilities of the output cells in any order. *)
Inductive event_ := Ask (q : question) | NewProbs (p : list Qc).
Definition set_probs (p : list Qc) (m : model_error) : model_error :=
  mk_merr (with_prob (option_map (set_glob Probabilities (Some (vec_arr p))) (d_prob (me_disc m))) (me_disc m)) (me_new m).
Definition with_probs (p : list Qc) (b : problem) : problem :=
  mk_problem (p_in b) (p_out b) (samples b) (outputs b) (estimates b) (cells b) p (emulated b).
Fixpoint run (nn : list cell -> cell -> nat) (P : nat) (es : list event_) (m : model_error) : result (list (list xnum)) :=
  match es with
  | [] => Ok []
  | Ask q :: r => match pose nn P q m with Ok (a, m1) => rmap (cons a) (run nn P r m1) | Raise x => Raise x end
  | NewProbs p :: r => run nn P r (set_probs p m)
  end.
Fixpoint answers_now (nn : list cell -> cell -> nat) (b : problem) (v : list Qc) (es : list event_) : list (result (list xnum)) :=
  match es with
  | [] => []
  | Ask q :: r => answer nn b v q :: answers_now nn b v r
  | NewProbs p :: r => answers_now nn (with_probs p b) v r
  end.
Definition proper_event (P : nat) (b : problem) (e : event_) : Prop :=
  match e with Ask q => proper_question P b q | NewProbs p => length p = length (cells b) end.
