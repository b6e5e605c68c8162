(** What the properties about bounds, bounding boxes, appending and radii say. *)
From Coq Require Import List Arith QArith Qcanon.
From Verif Require Import Err Num SampleSet_Model SampleSet_Spec Bounds_Model.
Import ListNotations.
Local Open Scope nat_scope.

(** x lies in the box d. *)
Definition in_box (d : list (Qc * Qc)) (x : list Qc) : Prop :=
  Forall2 (fun p v => (fst p <= v)%Qc /\ (v <= snd p)%Qc) d x.
(** b is the smallest box that contains all the points. *)
Definition smallest_box (b : list (Qc * Qc)) (l : list (list Qc)) : Prop :=
  (forall x, In x l -> in_box b x) /\
  (forall c, (forall x, In x l -> in_box c x) ->
     Forall2 (fun p q => (fst q <= fst p)%Qc /\ (snd p <= snd q)%Qc) b c).

(** The array holds n copies of the row v. *)
Definition constant_rows (o : option (arr pt)) (n : nat) (v : list Qc) : Prop :=
  exists x, o = Some x /\ length (rows x) = n /\ forall r, In r (rows x) -> r = v.

(** The largest number of a list. *)
Definition greatest (q : Qc) (l : list Qc) : Prop := In q l /\ forall y, In y l -> (y <= q)%Qc.

(** The point of the box d with relative coordinates u, and the relative
    coordinates of a point. *)
Fixpoint place (d : list (Qc * Qc)) (u : list Qc) : list Qc :=
  match d, u with
  | (l, r) :: d', t :: u' => (l + t * (r - l))%Qc :: place d' u'
  | _, _ => []
  end.
Fixpoint relative (d : list (Qc * Qc)) (x : list Qc) : list Qc :=
  match d, x with
  | (l, r) :: d', v :: x' => ((v - l) / (r - l))%Qc :: relative d' x'
  | _, _ => []
  end.
Definition unit_cube (n : nat) : list (Qc * Qc) := repeat (0%Qc, 1%Qc) n.

(** The distances from sample i (which is v) to the drawn points whose nearest
    sample is number i; in relative coordinates if asked. *)
Definition coords (normalize : bool) (d : list (Qc * Qc)) (x : list Qc) : list Qc :=
  if normalize then relative d x else x.
Definition distances_in_cell (dist : list Qc -> list Qc -> Qc) (nn : list (list Qc) -> list Qc -> nat)
    (normalize : bool) (d : list (Qc * Qc)) (samples drawn : list (list Qc)) (i : nat) (v : list Qc) : list Qc :=
  map (fun x => dist (coords normalize d x) (coords normalize d v))
      (filter (fun x => nn samples x =? i) drawn).

(** A set of n samples with a domain of the right dimension whose sides have
    positive length, and no outdated search tree. *)
Definition radii_ready (s : sset pt) (n : nat) (x : arr pt) (d : list (Qc * Qc)) : Prop :=
  valid_set s n /\ glob s Values = Some x /\ (kd s = None \/ kd s = Some x) /\
  domain s = Some d /\ length d = dim s /\ forall p, In p d -> (fst p < snd p)%Qc.

(** Every rank drew a point in every cell. *)
Definition all_cells_hit (nn : list (list Qc) -> list Qc -> nat) (d : list (Qc * Qc))
    (samples : list (list Qc)) (us : list (list (list Qc))) : Prop :=
  forall b i, In b us -> i < length samples -> exists u, In u b /\ nn samples (place d u) = i.

(** Histories of calls on a set with a bounding box. *)
Inductive bop := BSetValues (x : arr pt) | BAppend (x : arr pt) | BSetBox | BGetBox.
Definition bstep (o : bop) (b : boxed) : result boxed :=
  match o with
  | BSetValues x => boxed_set_values x b
  | BAppend x => boxed_append x b
  | BSetBox => set_bounding_box b
  | BGetBox => rmap snd (get_bounding_box b)
  end.
Definition brun (ops : list bop) (b : boxed) : result boxed :=
  fold_left (fun r o => bind r (bstep o)) ops (Ok b).
Definition new_boxed (d : nat) : boxed := mk_boxed (new_sset d) None.
(** Once a box exists, every change of the values is followed by
    set_bounding_box before the next change or question. *)
Fixpoint box_refreshed (built stale : bool) (ops : list bop) : bool :=
  match ops with
  | [] => negb stale
  | BSetValues _ :: r | BAppend _ :: r => box_refreshed built built r
  | BSetBox :: r => box_refreshed true false r
  | BGetBox :: r => negb stale && box_refreshed true false r
  end.
