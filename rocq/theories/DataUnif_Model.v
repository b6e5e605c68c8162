(** bet/calculateP/simpleFunP.py:513-556: the same probability for every output
    that was computed, and the inverse problem with these probabilities. *)
From Coq Require Import List Arith Bool QArith Qcanon.
From Verif Require Import Err Num NumPy SampleSet_Model Disc_Model Workflow_Model.
Import ListNotations.
Local Open Scope nat_scope.
Local Open Scope err_scope.

(** line 551: np.ones((num,)) / num; without entries there is no division *)
Definition equal_probabilities (num : nat) : arr cell := vec_arr (repeat (1 / qn num)%Qc num).

(** lines 530-534, 551: the first argument is a sample set.  copy() is deepcopy,
    so the local arrays and the tree are copied as well. *)
Definition data_samples_set (P : nat) (s : sset cell) : result (sset cell) :=
  do num <- check_num P s ;
  Ok (set_glob Probabilities (Some (equal_probabilities num)) s).
(** lines 540-545, 551: a two-dimensional array *)
Definition data_samples_array (x : arr cell) : result (sset cell) :=
  match tail_shape x with
  | d :: _ => Ok (set_glob Probabilities (Some (equal_probabilities (length (rows x)))) (set_glob Values (Some x) (new_sset d)))
  | [] => Raise PyIndexError
  end.
(** lines 535-539, 551-555: a discretization; the new set is stored in it *)
Definition data_samples_disc (nn : list cell -> cell -> nat) (P : nat) (d : disc cell) : result (disc cell) :=
  do num <- check_nums P d ;
  do out <- need (d_out d) ;
  store_output_probability nn P (set_glob Probabilities (Some (equal_probabilities num)) out) d.

(** The outputs can be given as the discretization itself, as its output sample
    set or as the array of its values; in the last two cases the result is put
    into the discretization with set_output_probability_set. *)
Inductive given_as := AsDisc | AsSet | AsArray.
Definition data_samples (nn : list cell -> cell -> nat) (P : nat) (k : given_as) (d : disc cell) : result (disc cell) :=
  match k with
  | AsDisc => data_samples_disc nn P d
  | AsSet => do out <- need (d_out d) ; do s <- data_samples_set P out ; done (set_probability nn P s d)
  | AsArray => do out <- need (d_out d) ; do x <- need (glob out Values) ; do s <- data_samples_array x ; done (set_probability nn P s d)
  end.
(** The whole calculation, as [solve] in Workflow_Model *)
Definition solve_data_samples (nn : list cell -> cell -> nat) (P : nat) (model : arr cell -> arr cell) (w : volumes_by) (before : bool) (k : given_as)
  (s : sset cell) : result (disc cell) :=
  do s1 <- (if before then define_volumes P w s else Ok s) ;
  do d <- qoi model P true s1 ;
  do d1 <- (if before then Ok d else define_input_volumes P w d) ;
  do d2 <- data_samples nn P k d1 ;
  prob_disc nn P true d2.
