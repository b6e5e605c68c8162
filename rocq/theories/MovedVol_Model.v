(** prob_from_sample_set_with_emulated_volumes on stored sets
    (bet/calculateP/calculateP.py:136-205).  The formulas on lists are in Prob_Model;
    here the arrays are read from the sets and stored in them.  The three sets are
    different objects. *)
From Coq Require Import List Arith Bool QArith Qcanon.
From Verif Require Import Err Num NumPy SampleSet_Model Prob_Model Disc_Model Workflow_Model ErrorDisc_Model Moved_Model.
Import ListNotations.
Local Open Scope nat_scope.
Local Open Scope err_scope.

Section MovedVol.
Context (nn : list cell -> cell -> nat) (P : nat).

(** lines 178, 179: the global probabilities of the old samples are only read if
    there is one; None cannot be subscripted. *)
Definition old_probs (num_old : nat) (old : sset cell) : result (list Qc) :=
  if num_old =? 0 then Ok [] else do p <- subscript (glob old Probabilities) ; scalars (rows p).
(** lines 153-205: the old, the new and the emulated set after the call and the
    result.  If no emulated point is nearest to an old sample with positive
    probability numpy divides zero by zero and stores nan (Prob_Props,
    transfer_emulated_all_missed); the model stops with ZeroDivisionError there. *)
Definition transfer_points (old new : sset cell) (em : option (sset cell)) : result (sset cell * sset cell * option (sset cell) * list Qc) :=
  match em with
  | None => do r <- transfer_set nn P old new ; Ok (fst r, None, snd r)
  | Some e =>
      do num_old <- check_num P old ;
      do num_new <- check_num P new ;
      do _ <- check_num P e ;
      if negb (dim old =? dim new) || negb (dim old =? dim e) then Raise DimNotMatching else
      do e1 <- localized P e ;
      do xs <- loc_values e1 ;
      do q1 <- query_blocks nn P xs old ;
      do q2 <- query_blocks nn P xs new ;
      do probs <- old_probs num_old (snd q1) ;
      do x <- transfer_emulated probs num_new (fst q1) (fst q2) ;
      do r <- finite x ;
      Ok (snd q1, set_glob Probabilities (Some (vec_arr r)) (snd q2), Some e1, r)
  end.
End MovedVol.
