(** What the properties of samplers say. *)
From Coq Require Import List Arith Bool QArith Qcanon.
From Verif Require Import Err Num NumPy SampleSet_Model Prob_Model Disc_Model Refs_Model Refs_Spec Sampling_Spec Sampler_Model.
Import ListNotations.
Local Open Scope nat_scope.

(** The sets that a call is given to write into.  regular_sample_set only reads
    its argument. *)
Definition obj_names (o : obj) : list nat := match o with SetAt a => [a] | _ => [] end.
Definition given (c : scall) : list nat :=
  match c with
  | CRandom _ _ _ _ o | CLhs _ _ _ o | CCreate _ _ _ _ o => obj_names o
  | CRegular _ _ | CToGlobal => []
  | CCompute inp _ => ref_list inp
  | CUser _ o => names o
  end.
(** The discretization that the user calls a method of *)
Definition works_on (c : scall) : option nat := match c with CUser j _ => Some j | _ => None end.

(** The sets A and discretizations J are out of the reach of the calls: they
    exist, no other discretization holds a set of A, the sampler has moved on to
    another set and another discretization, and no call is given one of them. *)
Definition out_of_reach (A J : nat -> Prop) (w : swork) (cs : list scall) : Prop :=
  (forall a, A a -> a < length (w_sets w)) /\ (forall j, J j -> j < length (w_discs w)) /\
  (forall j d a, nth_error (w_discs w) j = Some d -> ~ J j -> In a (refs d) -> ~ A a) /\
  (forall a, s_in w = Some a -> ~ A a) /\ (forall j, s_disc w = Some j -> ~ J j) /\
  (forall c a, In c cs -> In a (given c) -> ~ A a) /\ (forall c j, In c cs -> works_on c = Some j -> ~ J j).

(** A set with nothing but samples: local ones, and global ones if g. *)
Definition only_samples (d : nat) (bs : list (arr cell)) (g : bool) (extra : attr -> option (arr cell)) (s : sset cell) : Prop :=
  dim s = d /\ (forall a, loc s a = if attr_eq_dec a Values then Some bs else None) /\
  (forall a, glob s a = if attr_eq_dec a Values then (if g then Some (mk_arr (concat (map rows bs)) [d]) else None) else extra a) /\
  kd s = None /\ weights s = None.

(** The same set, field by field *)
Definition same_set (s t : sset cell) : Prop :=
  dim s = dim t /\ (forall a, glob s a = glob t a) /\ (forall a, loc s a = loc t a) /\ local_index s = local_index t /\
  kd s = kd t /\ domain s = domain t /\ weights s = weights t.
Definition same_work (w1 w2 : swork) : Prop :=
  Forall2 same_set (w_sets w1) (w_sets w2) /\ w_discs w1 = w_discs w2 /\ s_in w1 = s_in w2 /\ s_disc w1 = s_disc w2.

(** Draws of the requested numbers *)
Definition full_draws (draw : nat -> nat -> list (list Qc)) : Prop := forall r k, length (draw r k) = k.

(** An object that is not a set: its dimension. *)
Definition new_dim (o : obj) : option nat := match o with SetAt _ => None | Dim d => Some d | Box dom => Some (length dom) end.
(** Its domain: the unit cube if it is only a dimension. *)
Definition box_of (o : obj) : list (Qc * Qc) := match o with SetAt _ => [] | Dim d => unit_cube d | Box dom => dom end.
(** n times the same row *)
Definition all_rows (n d : nat) (l : list Qc) : option (arr cell) := Some (mk_arr (repeat (row l) n) [d]).
(** n samples of dimension d: rank r draws the number of rows that would be its
    part of n rows. *)
Definition drawn (P n : nat) (draw : nat -> nat -> list (list Qc)) (d : nat) : list (arr cell) :=
  map (fun r => mk_arr (map row (draw r (length (nth r (array_split (repeat tt n) P) [])))) [d]) (seq 0 P).
(** The blocks of outputs that belong to blocks of inputs *)
Definition outputs (o : nat) (f : cell -> cell) (bs : list (arr cell)) : list (arr cell) := map (fun b => mk_arr (map f (rows b)) [o]) bs.
Definition nothing (_ : attr) : option (arr cell) := None.
(** A discretization of an input set and an output set, nothing else *)
Definition pair_disc (a o : nat) : rdisc := mk_rdisc (Some a) (Some o) None None None None None None None None None None.
