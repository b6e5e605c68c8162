(** Vocabulary for histories of inversions. *)
From Coq Require Import String ZArith List Arith Bool QArith Qcanon.
From Verif Require Import Err Num Ext NumPy SampleSet_Model Disc_Model Inverse_Spec Density_Model Density_Spec Fits_Model Fits_Spec Measure_Model.
Import ListNotations.
Local Open Scope nat_scope.

(** Other observations; no weights. *)
Definition observing (r : rset) (d : rdisc) : rdisc := mk_rdisc (r_in d) (r_out d) r.
Definition unweighted (d : rdisc) : rdisc :=
  mk_rdisc (mk_rset (arrays (r_in d)) (maps (r_in d)) (weights_init (r_in d)) None (updated (r_in d))) (r_out d) (r_obs d).

Section Calls.
Context (gkde : list cell -> option (list xnum) -> result (cell -> Qc)) (gkde1 : list Qc -> list xnum -> result (Qc -> Qc)).
Context (fit : string -> RvSet_Model.dict -> list Qc -> result (list Qc)).
(** What the call c leaves in an input set without weights and measure, if it is
    the only one; and the exception that it raises. *)
Definition alone (P : nat) (c : call) (d : rdisc) : mstate * option exn := step gkde gkde1 fit P c (mk_m (unweighted d) None None).
Definition newer {A} (x old : option A) : option A := match x with Some _ => x | None => old end.
(** Weights and measure after a history: those of the last call that leaves some,
    each call being made on the original discretization with the latest
    observations. *)
Fixpoint latest (P : nat) (d : rdisc) (h : list call) (ws : option (list xnum)) (l : option law) : option (list xnum) * option law :=
  match h with
  | [] => (ws, l)
  | CObserve r :: h' => latest P (observing r d) h' ws l
  | c :: h' => latest P d h' (newer (sample_weights (r_in (m_disc (fst (alone P c d))))) ws) (newer (m_law (fst (alone P c d))) l)
  end.
Fixpoint exceptions (P : nat) (d : rdisc) (h : list call) : list (option exn) :=
  match h with
  | [] => []
  | CObserve r :: h' => None :: exceptions P (observing r d) h'
  | c :: h' => snd (alone P c d) :: exceptions P d h'
  end.
End Calls.
(** The observed sets of a history. *)
Fixpoint observed_sets (h : list call) : list rset :=
  match h with [] => [] | CObserve r :: h' => r :: observed_sets h' | _ :: h' => observed_sets h' end.
(** Density-based inversion is possible. *)
Definition invertible (gkde : list cell -> option (list xnum) -> result (cell -> Qc)) (P : nat) (d : rdisc) (di o : nat) (xs : list (list Qc)) (ys : list cell) (lo : option (list Z))
    (w : option (list Qc)) (oo : nat) (zs : list cell) (mo : option (list Z)) : Prop :=
  exists ls ms p q K, inversion gkde P d di o oo xs ys zs lo mo w ls ms p q K.
(** The same for two discretizations that hold the same samples on P and P'
    processes. *)
Definition both_invertible (gkde : list cell -> option (list xnum) -> result (cell -> Qc)) (P P' : nat) (d d' : rdisc) (di o : nat) (xs : list (list Qc)) (ys : list cell) (lo : option (list Z))
    (w : option (list Qc)) (oo : nat) (zs : list cell) (mo : option (list Z)) : Prop :=
  exists ls ms p q K, inversion gkde P d di o oo xs ys zs lo mo w ls ms p q K /\ inversion gkde P' d' di o oo xs ys zs lo mo w ls ms p q K.
(** All observed sets have labels and so have the outputs, or none of them has. *)
Definition labels_agree (d : rdisc) (h : list call) : Prop :=
  (forall r, In r (r_obs d :: observed_sets h) -> glob (arrays r) Region = None) \/
  ((glob (arrays (r_out d)) Region <> None \/ loc (arrays (r_out d)) Region <> None) /\ forall r, In r (r_obs d :: observed_sets h) -> glob (arrays r) Region <> None).
(** Random variables are stored as pairs of a name and parameters. *)
Definition fitted_entry (e : RvSet_Model.entry) : Prop := match e with RvSet_Model.EPair _ _ => True | _ => False end.
Definition proper (l : option law) : Prop := match l with Some (LRv es) => Forall fitted_entry es | _ => True end.

(** The distributions that the argument rv asks for: one name for all dimensions, a
    name with start values for all dimensions, or a pair for each dimension. *)
Definition pair_of (e : RvSet_Model.entry) : option (string * RvSet_Model.dict) :=
  match e with RvSet_Model.EPair s a => Some (s, a) | _ => None end.
Inductive requested (di : nat) : RvSet_Model.rv_arg -> list (string * RvSet_Model.dict) -> Prop :=
| req_name s : requested di (RvSet_Model.RName s) (repeat (s, []) di)
| req_start s a : requested di (RvSet_Model.RSeq [RvSet_Model.EName s; RvSet_Model.EDict a]) (repeat (s, a) di)
| req_each l : length l = di -> requested di (RvSet_Model.RSeq (map (fun e => RvSet_Model.EPair (fst e) (snd e)) l)) l.
(** The names under which fitted numbers are stored. *)
Definition parameter_names (k : nat) : list string :=
  match k with 2 => ["loc"; "scale"] | 3 => ["a"; "loc"; "scale"] | 4 => ["a"; "b"; "loc"; "scale"] | _ => [] end%string.
Definition named (A : list Qc) : RvSet_Model.dict := combine (parameter_names (length A)) (map Fin A).
Definition stored_pairs (l : list (string * RvSet_Model.dict)) : list RvSet_Model.entry := map (fun e => RvSet_Model.EPair (fst e) (snd e)) l.
