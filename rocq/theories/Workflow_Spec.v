From Coq Require Import List Arith QArith Qcanon.
From Verif Require Import Err Num SampleSet_Model SampleSet_Spec Disc_Model Prob_Spec Workflow_Model.
Import ListNotations.
Local Open Scope nat_scope.

(** A sample set of dimension d on which only set_values (and set_domain) was
    called. *)
Definition values_set (d : nat) (dom : option (list (Qc * Qc))) (xs : list cell) : sset cell :=
  mk_sset d (fun a => match a with Values => Some (mk_arr xs [d]) | _ => None end) (fun _ => None) None None dom None.
(** The same with probabilities. *)
Definition probability_set (d : nat) (dom : option (list (Qc * Qc))) (ys : list cell) (probs : list Qc) : sset cell :=
  mk_sset d (fun a => match a with Values => Some (mk_arr ys [d]) | Probabilities => Some (vec_arr probs) | _ => None end) (fun _ => None) None None dom None.
(** The model maps row by row, from dimension d to dimension o. *)
Definition row_model (d o : nat) (g : cell -> cell) (model : arr cell -> arr cell) : Prop :=
  forall xs, model (mk_arr xs [d]) = mk_arr (map g xs) [o].

(** One column of numbers instead of a one-dimensional array *)
Definition column_of (flat b : arr cell) : Prop := tail_shape flat = [] /\ tail_shape b = [1] /\ rows b = map (fun c => Vec [c]) (rows flat).

(** The volumes of n samples: all 1/n, or those given by the user. *)
Definition volume_list (w : volumes_by) (n : nat) : list Qc := match w with MonteCarlo => repeat (1 / qn n)%Qc n | Given v => v end.
(** The solution: sample x with volume v, whose output lies in cell c(x), gets
    the probability of that cell times its part of the volume of all samples
    with outputs in the cell.  (If these volumes are all zero it gets zero.) *)
Definition solution (c : cell -> nat) (probs : list Qc) (samples : list (cell * Qc)) : list Qc :=
  map (fun xv => (snd xv * (nth (c (fst xv)) probs 0 / total_in (map (fun yw => (c (fst yw), snd yw)) samples) (c (fst xv))))%Qc) samples.

Definition global_probabilities (r : result (disc cell)) : option (list cell) :=
  match r with Ok d => match d_in d with Some s => option_map rows (glob s Probabilities) | None => None end | Raise _ => None end.
Definition local_probabilities (r : result (disc cell)) : option (list (list cell)) :=
  match r with Ok d => match d_in d with Some s => option_map (map rows) (loc s Probabilities) | None => None end | Raise _ => None end.
(** The samples with their probabilities. *)
Definition sample_of (r : result (disc cell)) : option (list cell) :=
  match r with Ok d => match d_in d with Some s => option_map rows (glob s Values) | None => None end | Raise _ => None end.
