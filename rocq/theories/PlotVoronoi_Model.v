(** The one-dimensional Voronoi plot (bet/postProcess/plotVoronoi.py:34-117), up to the
    arguments of plt.hlines.  argsort is a parameter; the gathered arrays of a set whose
    values are distributed over the processes are given directly. *)
From Coq Require Import List Arith Bool QArith Qcanon.
From Verif Require Import Err Num Ext NumPy Query_Model Volume_Model.
Import ListNotations.
Local Open Scope nat_scope.

(** A sample set: probabilities and their local parts can be missing; [ps_probs_local]
    are the concatenated local parts, which local_to_global makes the probabilities. *)
Record pset := { ps_dim : nat; ps_values : list Qc; ps_probs : option (list Qc); ps_probs_local : option (list Qc); ps_lo : Qc; ps_hi : Qc }.
(** The argument sample_set: a discretization, a sample set, or anything else. *)
Inductive parg := PDisc (input : option pset) | PSet (s : pset) | POther.
(** Lines 64-82: checks of the argument; the set and its probabilities. *)
Definition checked (dim : nat) (a : parg) : result (pset * list Qc) :=
  match (match a with PDisc (Some s) | PSet s => Ok s | PDisc None => Raise MissingAttribute | POther => Raise BadObject end) with
  | Raise e => Raise e
  | Ok s =>
      if negb (ps_dim s =? dim) then Raise DimNotMatching
      else match ps_probs s, ps_probs_local s with
           | Some p, _ => Ok (s, p)
           | None, Some p => Ok (s, p)
           | None, None => Raise MissingAttribute
           end
  end.
(** The arguments y, xmin, xmax of plt.hlines. *)
Record lines := { l_y : list xnum; l_min : list Qc; l_max : list Qc }.
(** Lines 87-103.  [ind_sort[0]] is the index of the smallest sample; the index array has
    one entry, so the probability has shape (1,) and is divided by every width. *)
Definition plot_1D_voronoi (argsort : list Qc -> list nat) (density : bool) (a : parg) : result lines :=
  match checked 1 a with
  | Raise e => Raise e
  | Ok (s, probs) =>
      let ind_sort := argsort (ps_values s) in
      match take_idx (ps_values s) ind_sort with
      | None => Raise PyIndexError
      | Some sorted =>
          let ends := mid_points sorted in
          let mins := ps_lo s :: ends in
          let maxes := ends ++ [ps_hi s] in
          match ind_sort with
          | [] => Raise PyIndexError
          | i0 :: _ =>
              match nth_error probs i0 with
              | None => Raise PyIndexError
              | Some p0 =>
                  Ok {| l_y := if density then map (fun mm => xdivq p0 (snd mm - fst mm)%Qc) (combine mins maxes) else [Fin p0];
                        l_min := mins; l_max := maxes |}
              end
          end
      end
  end.
