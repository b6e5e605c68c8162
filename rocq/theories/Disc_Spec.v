(** What the properties of discretizations say. *)
From Coq Require Import List Arith QArith Qcanon Permutation.
From Verif Require Import Err Num SampleSet_Model SampleSet_Spec Disc_Model.
Import ListNotations.
Local Open Scope nat_scope.

(** All six places for a sample set. *)
Definition places {R} : list (disc R -> option (sset R)) := [d_in; d_out; d_prob; d_ein; d_eout; d_obs].

(** A set whose tree, if any, was built from its present values. *)
Definition tree_current {R} (s : sset R) : Prop := kd s = None \/ kd s = glob s Values.

(** A set of n samples in a consistent state. *)
Definition good_set {R} (P : nat) (s : sset R) (n : nat) : Prop := ready P s n /\ tree_current s.
Definition good_place {R} (P : nat) (o : option (sset R)) : Prop := forall s, o = Some s -> exists n, good_set P s n.

(** ** Pointers *)

(** The local pointer is the local part of the global one. *)
Definition agree (g : option (list nat)) (l : option (list (list nat))) : Prop :=
  forall x bs, g = Some x -> l = Some bs -> x = concat bs.

(** The three pointers, and the calls that recompute one of them on every rank
    (only locally, or locally and globally). *)
Inductive pointer := Io | Ii | Oo.
Definition global_ptr {R} (k : pointer) (d : disc R) : option (list nat) :=
  match k with Io => io d | Ii => ii d | Oo => oo d end.
Definition local_ptr {R} (k : pointer) (d : disc R) : option (list (list nat)) :=
  match k with Io => io_loc d | Ii => ii_loc d | Oo => oo_loc d end.
Definition only_local {R} (k : pointer) (o : dop (R := R)) : bool :=
  match k, o with
  | Io, OIoPtr false | Io, OProb _ | Ii, OIiPtr false | Oo, OOoPtr false => true
  | _, _ => false
  end.
Definition makes_global {R} (k : pointer) (o : dop (R := R)) : bool :=
  match k, o with
  | Io, OIoPtr true | Ii, OIiPtr true | Oo, OOoPtr true | _, OGlobalize => true
  | _, _ => false
  end.
(** In the history the pointer is never recomputed only locally once a global
    one may exist ([g]). *)
Fixpoint no_late_local {R} (k : pointer) (g : bool) (ops : list (dop (R := R))) : bool :=
  match ops with
  | [] => true
  | o :: r => negb (only_local k o && g) && no_late_local k (g || makes_global k o) r
  end.
Definition no_pointers {R} (d : disc R) : Prop := forall k, global_ptr k d = None /\ local_ptr k d = None.

(** A newly constructed discretization with the sets stored in d. *)
Definition same_sets_anew {R} (d : disc R) : disc R :=
  mk_disc (d_in d) (d_out d) (d_prob d) (d_ein d) (d_eout d) (d_obs d) None None None None None None.
(** The probabilities (global array, array of every rank) that a calculation
    stored in the input set or in the emulated input set. *)
Definition stored (o : option (sset cell)) : option (option (arr cell) * option (list (arr cell))) :=
  option_map (fun s => (glob s Probabilities, loc s Probabilities)) o.
Definition input_probabilities (r : result (disc cell)) := rmap (fun d => stored (d_in d)) r.
Definition emulated_probabilities (r : result (disc cell)) := rmap (fun d => stored (d_ein d)) r.

(** In the history no set is replaced after a pointer that depends on it was
    computed, except for the output probability set, whose setter recomputes
    the pointer.  [o], [i]: whether the io and the ii pointer may exist. *)
Fixpoint no_late_replacement {R} (o i : bool) (ops : list (dop (R := R))) : bool :=
  match ops with
  | [] => true
  | OOut _ :: r => negb o && no_late_replacement o i r
  | OIn _ :: r => negb i && no_late_replacement o i r
  | OEin _ :: r => negb i && no_late_replacement o i r
  | OProb _ :: r => no_late_replacement true i r
  | OIoPtr _ :: r => no_late_replacement true i r
  | OIiPtr _ :: r => no_late_replacement o true r
  | _ :: r => no_late_replacement o i r
  end.
(** Every set given to a setter is in a consistent state. *)
Definition good_argument {R} (P : nat) (o : dop (R := R)) : Prop :=
  match o with
  | OIn s | OOut s | OProb s | OEin s | OEout s | OObs s => exists n, good_set P s n
  | _ => True
  end.
Definition good_sets {R} (P : nat) (d : disc R) : Prop := forall pl, In pl places -> good_place P (pl d).

(** ** Merging *)

(** The number of value rows on every rank, after localizing if necessary:
    numpy.array_split gives the first (n mod P) ranks one row more. *)
Definition rank_rows {R} (P : nat) (s : sset R) (n : nat) : list nat :=
  match loc s Values with
  | Some bs => map (fun b => length (rows b)) bs
  | None => map (fun r => n / P + if r <? n mod P then 1 else 0) (seq 0 P)
  end.

(** ** Selecting columns *)

(** The cell has exactly the shape [sh]. *)
Fixpoint has_shape (sh : list nat) (c : cell) : Prop :=
  match sh, c with
  | [], Num _ => True
  | n :: t, Vec l => length l = n /\ (fix all l := match l with [] => True | x :: r => has_shape t x /\ all r end) l
  | _, _ => False
  end.
Definition proper (x : arr cell) : Prop := Forall (has_shape (tail_shape x)) (rows x).
(** Entry of a row under a list of indices. *)
Fixpoint entry (path : list nat) (c : cell) : option cell :=
  match path with
  | [] => Some c
  | i :: p => match c with
              | Vec l => match nth_error l i with Some x => entry p x | None => None end
              | Num _ => None
              end
  end.
(** [y] has the rows of [x], with the columns idx of [x]. *)
Definition columns_of (idx : list nat) (x y : arr cell) : Prop :=
  length (rows y) = length (rows x) /\
  (exists w t, tail_shape x = w :: t /\ tail_shape y = length idx :: t) /\
  forall r cx cy j k, nth_error (rows x) r = Some cx -> nth_error (rows y) r = Some cy ->
    nth_error idx j = Some k -> entry [j] cy = entry [k] cx /\ entry [k] cx <> None.
(** The same for Jacobians: entry (output, input). *)
Definition jacobian_of (inputs outputs : list nat) (x y : arr cell) : Prop :=
  length (rows y) = length (rows x) /\
  (exists o w t, tail_shape x = o :: w :: t /\ tail_shape y = length outputs :: length inputs :: t) /\
  forall r cx cy j k j' k', nth_error (rows x) r = Some cx -> nth_error (rows y) r = Some cy ->
    nth_error outputs j = Some k -> nth_error inputs j' = Some k' ->
    entry [j; j'] cy = entry [k; k'] cx /\ entry [k; k'] cx <> None.
(** Present on both sides and related, or absent on both. *)
Definition both {A B} (rel : A -> B -> Prop) (a : option A) (b : option B) : Prop :=
  match a, b with Some x, Some y => rel x y | None, None => True | _, _ => False end.
Definition in_range (idx : list nat) (n : nat) : Prop := forall i, In i idx -> i < n.
Definition selected {A} (idx : list nat) (l m : list A) : Prop :=
  length m = length idx /\ forall j k, nth_error idx j = Some k -> nth_error m j = nth_error l k.

(** A set whose arrays all have the shape they claim: values n x dim, error
    estimates with as many columns, Jacobians n x outs x dim. *)
Definition well_shaped (outs : nat) (s : sset cell) : Prop :=
  (forall x, glob s Values = Some x -> proper x /\ tail_shape x = [dim s]) /\
  (forall bs b, loc s Values = Some bs -> In b bs -> proper b /\ tail_shape b = [dim s]) /\
  (forall x, glob s ErrorEstimates = Some x -> proper x /\ tail_shape x = [dim s]) /\
  (forall bs b, loc s ErrorEstimates = Some bs -> In b bs -> proper b /\ tail_shape b = [dim s]) /\
  (forall x, glob s Jacobians = Some x -> proper x /\ tail_shape x = [outs; dim s]) /\
  (forall bs b, loc s Jacobians = Some bs -> In b bs -> proper b /\ tail_shape b = [outs; dim s]) /\
  (forall dm, domain s = Some dm -> length dm = dim s).

(** The new set of one side: the columns idx of values, error estimates, domain
    and reference value, and the same p-norm. *)
Definition sliced {N} (idx : list nat) (s s' : rset N) : Prop :=
  dim (base s') = length idx /\
  both (columns_of idx) (glob (base s) Values) (glob (base s') Values) /\
  both (Forall2 (columns_of idx)) (loc (base s) Values) (loc (base s') Values) /\
  both (columns_of idx) (glob (base s) ErrorEstimates) (glob (base s') ErrorEstimates) /\
  both (Forall2 (columns_of idx)) (loc (base s) ErrorEstimates) (loc (base s') ErrorEstimates) /\
  both (selected idx) (domain (base s)) (domain (base s')) /\
  both (selected idx) (reference s) (reference s') /\
  p_norm s' = p_norm s.
