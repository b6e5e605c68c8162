From Coq Require Import List.
From Verif Require Import Fields_Model.
Import ListNotations.

Definition prop_eq_dec (a b : prop) : {a = b} + {a <> b}.
Proof. decide equality. Defined.

(** The value most recently passed to the setter of [p], or [init]. *)
Fixpoint last_set {V} (p : prop) (ops : list (prop * V)) (init : option V) : option V :=
  match ops with
  | [] => init
  | (q, v) :: r => last_set p r (if prop_eq_dec q p then Some v else init)
  end.

(** The shapes that the setters require. *)
Definition shape_fits (dim : nat) (p : prop) (s : list nat) : Prop :=
  match p with
  | reference_value => s = [dim]
  | domain => exists r, s = dim :: r
  | values | values_local => exists n, s = [n; dim]
  | _ => True
  end.

(** What reshaping does to shapes (util.fix_dimensions_data): a vector becomes a
    column, and an array whose second axis is not dim is transposed; an array with
    one sample per row stays as it is. *)
Definition fixes {V} (shape : V -> list nat) (fixed : V -> V) (dim : nat) : Prop :=
  (forall v n, shape v = [n; dim] -> fixed v = v) /\
  (forall v n m, shape v = [n; m] -> m <> dim -> shape (fixed v) = [m; n]) /\
  (forall v n, shape v = [n] -> dim = 1 -> shape (fixed v) = [n; 1]) /\
  (forall v n, shape v = [n] -> dim <> 1 -> shape (fixed v) = [1; n]).
