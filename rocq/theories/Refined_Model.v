(** Samples of an evaluated set replaced or extended, and a second run
    (bet/sample.py, bet/sampling/basicSampling.py). *)
From Coq Require Import List Arith Bool QArith Qcanon.
From Verif Require Import Err Num NumPy SampleSet_Model Prob_Model Disc_Model Workflow_Model.
Import ListNotations.
Local Open Scope nat_scope.
Local Open Scope err_scope.

(** bet/sample.py:808-818 set_values and 664-676 append_values.  Simplification:
    the arrays have the shape (number, dim) (other shapes: C156).  np.concatenate
    with None raises ValueError. *)
Inductive change := SetValues (zs : list cell) | AppendValues (zs : list cell).
Definition change_values (c : change) (s : sset cell) : result (sset cell) :=
  match c with
  | SetValues zs => Ok (set_glob Values (Some (mk_arr zs [dim s])) s)
  | AppendValues zs => match glob s Values with
                       | None => Raise PyValueError
                       | Some x => Ok (set_glob Values (Some (mk_arr (rows x ++ zs) [dim s])) s)
                       end
  end.
Fixpoint change_all (cs : list change) (s : sset cell) : result (sset cell) :=
  match cs with [] => Ok s | c :: r => do s1 <- change_values c s ; change_all r s1 end.
(** The second run starts with the evaluation of the model, with global_to_local
    (bet/sample.py:1325-1337), or with estimate_volume_mc (1257-1276). *)
Inductive start := Evaluate | Distribute | VolumesFirst.
Definition second_run (nn : list cell -> cell -> nat) (P : nat) (model : arr cell -> arr cell) (k : start) (setter : bool) (s pr : sset cell) : result (disc cell) :=
  match k with
  | Evaluate => solve nn P model MonteCarlo false setter s pr
  | Distribute => do s1 <- global_to_local P s ; solve nn P model MonteCarlo false setter s1 pr
  | VolumesFirst => solve nn P model MonteCarlo true setter s pr
  end.
(** One of several runs with the same input set: the changes, the start, the model
    and the output probabilities.  compute_qoi_and_create_discretization distributes
    the set it is given (basicSampling.py:462-463) and puts it into the
    discretization; the changes are made to this set. *)
Record run := mk_run { changes : list change; starts : start; model_of : arr cell -> arr cell; setter_of : bool; outputs : sset cell }.
Definition one_run (nn : list cell -> cell -> nat) (P : nat) (r : run) (d : disc cell) : result (disc cell) :=
  do s <- need (d_in d) ;
  do s1 <- change_all (changes r) s ;
  second_run nn P (model_of r) (starts r) (setter_of r) s1 (outputs r).
Fixpoint more_runs (nn : list cell -> cell -> nat) (P : nat) (rs : list run) (d : disc cell) : result (disc cell) :=
  match rs with [] => Ok d | r :: t => do e <- one_run nn P r d ; more_runs nn P t e end.
(** The first evaluation, and all further runs *)
Definition runs (nn : list cell -> cell -> nat) (P : nat) (model : arr cell -> arr cell) (rs : list run) (s : sset cell) : result (disc cell) :=
  do d <- qoi model P true s ; more_runs nn P rs d.
