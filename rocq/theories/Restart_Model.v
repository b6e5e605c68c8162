(** A calculation stopped and continued in a second run, perhaps with another
    number of processes: the discretization is saved with globalize=True (the
    default) and loaded again. *)
From Coq Require Import List Arith Bool QArith Qcanon.
From Verif Require Import Err Num NumPy SampleSet_Model Disc_Model Workflow_Model.
Import ListNotations.
Local Open Scope nat_scope.
Local Open Scope err_scope.

(** bet/util.py:245-254: every process writes the same file, which holds the
    object of process [w] in the end; lines 274-277: each of the P' processes of
    the second run reads it.  So what was different on the P processes is now that
    of process w everywhere.  The pickled tree is taken to be restored as it was. *)
Definition of_rank {A} (w P' : nat) (bs : list A) : option (list A) := option_map (fun b => repeat b P') (nth_error bs w).
Definition bind_opt {A B} (o : option A) (f : A -> option B) : option B := match o with Some x => f x | None => None end.
Definition read_set (w P' : nat) (s : sset cell) : sset cell :=
  mk_sset (dim s) (glob s) (fun a => bind_opt (loc s a) (of_rank w P')) (bind_opt (local_index s) (of_rank w P')) (kd s) (domain s) (weights s).
Definition read_disc (w P' : nat) (d : disc cell) : disc cell :=
  mk_disc (option_map (read_set w P') (d_in d)) (option_map (read_set w P') (d_out d)) (option_map (read_set w P') (d_prob d))
    (option_map (read_set w P') (d_ein d)) (option_map (read_set w P') (d_eout d)) (option_map (read_set w P') (d_obs d)) (io d) (ii d) (oo d)
    (bind_opt (io_loc d) (of_rank w P')) (bind_opt (ii_loc d) (of_rank w P')) (bind_opt (oo_loc d) (of_rank w P')).
(** bet/util.py:228-277, save_object (line 250: local_to_global) then load_object;
    [localize] is the argument of load_object (line 276: global_to_local). *)
Definition restart (w P' : nat) (localize : bool) (d : disc cell) : result (disc cell) :=
  do e <- disc_local_to_global d ;
  if localize then disc_global_to_local P' (read_disc w P' e) else Ok (read_disc w P' e).

(** When the calculation is interrupted: after the model evaluations (and the
    volumes), or after the output probability set was defined; in the second case
    the user may call set_io_ptr again (bet/sample.py:2378-2394) in the second run. *)
Inductive stopped := AfterModel | AfterOutput (repoint : bool).
(** [solve] of Workflow_Model with the interruption *)
Definition solve_restarted (nn : list cell -> cell -> nat) (P w P' : nat) (localize : bool) (m : stopped) (model : arr cell -> arr cell) (vol : volumes_by) (before setter : bool)
  (s pr : sset cell) : result (disc cell) :=
  do s1 <- (if before then define_volumes P vol s else Ok s) ;
  do d <- qoi model P true s1 ;
  do d1 <- (if before then Ok d else define_input_volumes P vol d) ;
  match m with
  | AfterModel =>
      do e <- restart w P' localize d1 ;
      do d2 <- define_output nn P' setter pr e ;
      prob_disc nn P' true d2
  | AfterOutput repoint =>
      do d2 <- define_output nn P setter pr d1 ;
      do e <- restart w P' localize d2 ;
      do f <- (if repoint then set_io_ptr nn P' false e else Ok e) ;
      prob_disc nn P' true f
  end.
