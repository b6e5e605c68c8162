(** What the properties about sample sets say, without the model's functions:
    only the observable fields of a state are used. *)
From Coq Require Import List Arith QArith Qcanon.
From Verif Require Import Err Num SampleSet_Model.
Import ListNotations.
Local Open Scope nat_scope.

(** [bs] is [l] cut into P consecutive blocks of almost equal length. *)
Definition is_block_split {A} (P : nat) (l : list A) (bs : list (list A)) : Prop :=
  length bs = P /\ concat bs = l /\
  (forall b c, In b bs -> In c bs -> length b <= S (length c)).

(** Some global per-sample array is present. *)
Definition has_global {R} (s : sset R) : Prop := exists a x, glob s a = Some x.

(** Every present global array has n rows. *)
Definition all_have_rows {R} (s : sset R) (n : nat) : Prop :=
  forall a x, glob s a = Some x -> length (rows x) = n.

(** The value rows, if present, have the declared dimension. *)
Definition width_is_dim {R} (s : sset R) : Prop :=
  forall x, glob s Values = Some x -> exists t, tail_shape x = dim s :: t.
(** The values form a 2-D (or higher) array. *)
Definition values_2d {R} (s : sset R) : Prop :=
  forall x, glob s Values = Some x -> tail_shape x <> [].

(** On rank r every present local array has n rows. *)
Definition local_rows {R} (s : sset R) (r n : nat) : Prop :=
  (exists a bs b, loc s a = Some bs /\ nth_error bs r = Some b) /\
  (forall a bs b, loc s a = Some bs -> nth_error bs r = Some b -> length (rows b) = n).

(** A set of n samples: arrays agree and the values are present, n by dim. *)
Definition valid_set {R} (s : sset R) (n : nat) : Prop :=
  all_have_rows s n /\ exists x, glob s Values = Some x /\ tail_shape x = [dim s].

(** The local array of attribute [a] is the split of the global array. *)
Definition local_is_split {R} (P : nat) (s : sset R) (a : attr) : Prop :=
  forall x, glob s a = Some x ->
    exists bs, loc s a = Some bs /\ is_block_split P (rows x) (map rows bs) /\
               (forall b, In b bs -> tail_shape b = tail_shape x).

(** A valid set whose local values, if any, are blocks of the global values. *)
Definition ready {R} (P : nat) (s : sset R) (n : nat) : Prop :=
  valid_set s n /\ (loc s Values <> None -> local_is_split P s Values).

(** Two domains that agree to the tolerance of numpy.allclose. *)
Definition close_numbers (a b : Qc) : Prop :=
  (qabs (a - b) <= Q2Qc (1 # 100000000) + Q2Qc (1 # 100000) * qabs b)%Qc.
Definition close_domains (d e : list (Qc * Qc)) : Prop :=
  Forall2 (fun p q => close_numbers (fst p) (fst q) /\ close_numbers (snd p) (snd q)) d e.
Definition compatible_domains {R} (s t : sset R) : Prop :=
  forall d e, domain s = Some d -> domain t = Some e -> length d = length e /\ close_domains d e.

(** i is the index of a row of [l] closest to x. *)
Definition nearest {R} (dist : R -> R -> Qc) (l : list R) (x : R) (i : nat) : Prop :=
  exists v, nth_error l i = Some v /\ forall w, In w l -> (dist x v <= dist x w)%Qc.

(** The contract assumed of the KD-tree search. *)
Definition nn_contract {R} (dist : R -> R -> Qc) (nn : list R -> R -> nat) : Prop :=
  forall l x, l <> [] -> nearest dist l x (nn l x).

(** Histories of calls on a Voronoi set. *)
Inductive vop (R : Type) := VSetValues (x : arr R) | VSetKdtree | VQuery (x : R).
Arguments VSetValues {R}. Arguments VSetKdtree {R}. Arguments VQuery {R}.

Definition vstep {R} (nn : list R -> R -> nat) (P : nat) (o : vop R) (s : sset R) : result (sset R) :=
  match o with
  | VSetValues x => set_values x s
  | VSetKdtree => set_kdtree s
  | VQuery x => rmap snd (query nn P x s)
  end.
Definition vrun {R} (nn : list R -> R -> nat) (P : nat) (ops : list (vop R)) (s : sset R) : result (sset R) :=
  fold_left (fun r o => bind r (vstep nn P o)) ops (Ok s).

(** In the history, values assigned after a tree exists are followed at once by
    set_kdtree.  [built] says whether a tree exists already. *)
Fixpoint refreshes {R} (built : bool) (ops : list (vop R)) : bool :=
  match ops with
  | [] => true
  | VSetValues _ :: r =>
      if built then match r with VSetKdtree :: r' => refreshes true r' | _ => false end
      else refreshes false r
  | VSetKdtree :: r => refreshes true r
  | VQuery _ :: r => refreshes true r
  end.
