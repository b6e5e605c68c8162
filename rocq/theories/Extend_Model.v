(** Arrays extended by append_values, append_jacobians and append_error_estimates,
    and the shapes of a set (bet/sample.py). *)
From Coq Require Import List Arith Bool.
From Verif Require Import Err NumPy SampleSet_Model.
Import ListNotations.
Local Open Scope nat_scope.
Local Open Scope err_scope.

(** bet/sample.py: sample_set_base (664-676, 1024-1039, 1061-1075) appends;
    rectangle_sample_set (1901-1962) and ball_sample_set (2058-2120) only log a
    warning. *)
Inductive family := Appending | Fixed.
Inductive part := PValues | PJacobians | PErrors.
Definition attr_of (p : part) : attr := match p with PValues => Values | PJacobians => Jacobians | PErrors => ErrorEstimates end.
(** np.concatenate with None raises ValueError, as do different trailing shapes.
    Simplification: append_values is given an array of shape (m, dim) (other shapes:
    C156). *)
Definition append_part {R} (k : family) (p : part) (x : arr R) (s : sset R) : result (sset R) :=
  match k with
  | Fixed => Ok s
  | Appending => match glob s (attr_of p) with
                 | None => Raise PyValueError
                 | Some v => do z <- concat_arr v x ; Ok (set_glob (attr_of p) (Some z) s)
                 end
  end.
Fixpoint append_parts {R} (k : family) (l : list (part * arr R)) (s : sset R) : result (sset R) :=
  match l with [] => Ok s | (p, x) :: t => do s1 <- append_part k p x s ; append_parts k t s1 end.
(** bet/sample.py:1364-1373 shape and 1375-1384 shape_local (one shape per process);
    None.shape raises AttributeError. *)
Definition shape_of {R} (x : arr R) : list nat := length (rows x) :: tail_shape x.
Definition shape {R} (s : sset R) : result (list nat) := match glob s Values with None => Raise PyAttributeError | Some x => Ok (shape_of x) end.
Definition shape_local {R} (s : sset R) : result (list (list nat)) := match loc s Values with None => Raise PyAttributeError | Some bs => Ok (map shape_of bs) end.
