(** What the properties about shared sample sets say. *)
From Coq Require Import List Arith Bool QArith Qcanon.
From Verif Require Import Err Num NumPy SampleSet_Model Prob_Model Disc_Model Refs_Model.
Import ListNotations.
Local Open Scope nat_scope.

(** The six references of a discretization. *)
Definition ref_list (o : option nat) : list nat := match o with Some a => [a] | None => [] end.
Definition refs (d : rdisc) : list nat :=
  ref_list (r_in d) ++ ref_list (r_out d) ++ ref_list (r_prob d) ++ ref_list (r_ein d) ++ ref_list (r_eout d) ++ ref_list (r_obs d).

(** What a user sees through the references: a discretization with sample sets as
    values, as in Disc_Model. *)
Definition sees_place {R} (h : list (sset R)) (o : option nat) (s : option (sset R)) : Prop :=
  match o with None => s = None | Some a => nth_error h a = s /\ s <> None end.
Definition sees {R} (h : list (sset R)) (d : rdisc) (v : disc R) : Prop :=
  sees_place h (r_in d) (d_in v) /\ sees_place h (r_out d) (d_out v) /\ sees_place h (r_prob d) (d_prob v) /\
  sees_place h (r_ein d) (d_ein v) /\ sees_place h (r_eout d) (d_eout v) /\ sees_place h (r_obs d) (d_obs v) /\
  r_io d = io v /\ r_ii d = ii v /\ r_oo d = oo v /\ r_io_loc d = io_loc v /\ r_ii_loc d = ii_loc v /\ r_oo_loc d = oo_loc v.

(** The calls of Disc_Model, which know no references. *)
Definition value_call (nn : list cell -> cell -> nat) (P : nat) (o : rop cell) : option (disc cell -> result (disc cell)) :=
  match o with
  | RIoPtr g => Some (set_io_ptr nn P g)
  | RIiPtr g => Some (set_ii_ptr nn P g)
  | ROoPtr g => Some (set_oo_ptr nn P g)
  | RGlobalize => Some (fun d => Ok (globalize_ptrs d))
  | RToGlobal => Some disc_local_to_global
  | RToLocal => Some (disc_global_to_local P)
  | RSolve g => Some (prob_disc nn P g)
  | RSolveEmulated g => Some (emulated_disc nn P g)
  | _ => None
  end.
(** ... and those with a sample set as argument; the argument is the set at a. *)
Definition value_setter (nn : list cell -> cell -> nat) (P : nat) (o : rop cell) : option (nat * (sset cell -> disc cell -> result (disc cell))) :=
  match o with
  | RIn a => Some (a, fun s d => done (set_input s d))
  | ROut a => Some (a, fun s d => done (set_output s d))
  | RProb a => Some (a, fun s d => done (set_probability nn P s d))
  | REin a => Some (a, fun s d => done (set_emulated_input s d))
  | REout a => Some (a, fun s d => done (set_emulated_output s d))
  | RObs a => Some (a, fun s d => done (set_observed s d))
  | RSimple a => Some (a, fun s d => store_output_probability nn P s d)
  | _ => None
  end.

(** The sets that a call names. *)
Definition names (o : rop cell) : list nat :=
  match o with
  | RIn a | ROut a | RProb a | REin a | REout a | RObs a | RSimple a | RMethod a _ => [a]
  | _ => []
  end.
(** Every set belongs to one discretization ([own]), and every call made on a
    discretization names only sets that belong to it. *)
Definition each_its_own (own : nat -> nat) (w : world) (ops : list (nat * rop cell)) : Prop :=
  (forall i d a, nth_error (snd w) i = Some d -> In a (refs d) -> own a = i) /\
  (forall i o a, In (i, o) ops -> In a (names o) -> own a = i).
(** The calls on discretization i, and how they ended. *)
Definition on {A} (i : nat) (l : list (nat * A)) : list (nat * A) := filter (fun e => fst e =? i) l.

(** The probabilities stored in a set. *)
Definition probabilities_of (s : sset cell) : option (arr cell) * option (list (arr cell)) := (glob s Probabilities, loc s Probabilities).
(** The same set except for its search tree. *)
Definition same_but_tree {R} (s t : sset R) : Prop :=
  dim t = dim s /\ loc t = loc s /\ local_index t = local_index s /\ domain t = domain s /\ weights t = weights s /\
  forall a, a <> KdtreeValues -> glob t a = glob s a.
(** The same set except for its tree, and for its local arrays, if it had none. *)
Definition same_but_local {R} (s t : sset R) : Prop :=
  dim t = dim s /\ domain t = domain s /\ weights t = weights s /\ (loc s Values <> None -> loc t = loc s) /\
  forall a, a <> KdtreeValues -> glob t a = glob s a.
(** h1 has the sets of h, possibly changed as [rel] says, and further ones. *)
Definition extends {R} (rel : sset R -> sset R -> Prop) (h h1 : list (sset R)) : Prop :=
  length h <= length h1 /\ forall a s, nth_error h a = Some s -> exists t, nth_error h1 a = Some t /\ rel s t.
(** A set with samples. *)
Definition has_samples {R} (o : option (sset R)) : Prop :=
  match o with Some s => glob s Values <> None \/ loc s Values <> None | None => False end.
