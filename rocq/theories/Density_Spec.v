(** Vocabulary for density-based inversion of stored samples. *)
From Coq Require Import ZArith List Arith Permutation QArith Qcanon.
From Verif Require Import Err Num Ext NumPy SampleSet_Model Disc_Model Inverse_Spec Density_Model.
Import ListNotations.
Local Open Scope nat_scope.

(** The arrays of a set with the values [xs] of dimension d and perhaps labels. *)
Definition content (d : nat) (xs : list cell) (labels : option (list Z)) (a : attr) : option (arr cell) :=
  match a with
  | Values => Some (mk_arr xs [d])
  | Region => option_map (fun l => mk_arr (map (fun z => Num (Q2Qc (inject_Z z))) l) []) labels
  | _ => None
  end.
(** A set keeps them, each array on all processes or distributed over them. *)
Definition keeps (P : nat) (s : sset cell) (d : nat) (xs : list cell) (labels : option (list Z)) : Prop :=
  dim s = d /\ forall a, match content d xs labels a with
    | Some x => loc s a = Some (split_arr P x) \/ loc s a = None /\ glob s a = Some x
    | None => loc s a = None /\ glob s a = None
    end.
Definition keeps_global (s : sset cell) (d : nat) (xs : list cell) (labels : option (list Z)) : Prop :=
  dim s = d /\ forall a, glob s a = content d xs labels a.

(** Members of cluster j of labelled samples. *)
Definition members {A} (l : list (A * Z)) (j : nat) : list A := map fst (filter (fun e => Z.eqb (snd e) (Z.of_nat j)) l).
(** Labels used: one cluster unless both sets have labels. *)
Definition used_labels (n m : nat) (lo mo : option (list Z)) : list Z * list Z :=
  match lo, mo with Some l, Some k => (l, k) | _, _ => (repeat 0%Z n, repeat 0%Z m) end.
(** The weight of a sample: observed over predicted density of its cluster at its
    own output; samples with negative labels belong to no cluster. *)
Definition ratio (p o : nat -> cell -> Qc) (j : nat) (y : cell) : xnum := xdivq (o j y) (p j y).
Definition weight (p o : nat -> cell -> Qc) (e : cell * Z) : xnum :=
  if (snd e <? 0)%Z then Fin 0 else ratio p o (Z.to_nat (snd e)) (fst e).
(** Arithmetic mean of numbers: infinite if one of them is, nan if one of them is or
    both infinities occur. *)
Definition is_mean (l : list xnum) (m : xnum) : Prop :=
  (forall q, l = map Fin q -> q <> [] -> exists v, m = Fin v /\ (v * qn (length q) = qsum q)%Qc) /\
  (In NaN l \/ (In PInf l /\ In NInf l) -> m = NaN) /\
  (~ In NaN l -> In PInf l -> ~ In NInf l -> m = PInf) /\
  (~ In NaN l -> In NInf l -> ~ In PInf l -> m = NInf).
(** The part of the observations in a cluster. *)
Definition share (ms : list Z) (j : nat) : Qc := (qn (count_label ms j) / qn (length ms))%Qc.
Definition axis (i : nat) (x : list Qc) : Qc := nth i x 0%Qc.
Definition point_row (x : list Qc) : cell := Vec (map Num x).

(** A discretization stores inputs, outputs and observations, with labels of the
    outputs and of the observations or without.  Only the observations have to be
    present on all processes; labels of the outputs without labels of the
    observations must not be distributed. *)
Definition stores (P : nat) (d : rdisc) (di : nat) (xs : list (list Qc)) (o : nat) (ys : list cell) (lo : option (list Z)) (oo : nat) (zs : list cell) (mo : option (list Z)) : Prop :=
  keeps P (arrays (r_in d)) di (map point_row xs) None /\ keeps P (arrays (r_out d)) o ys lo /\ keeps_global (arrays (r_obs d)) oo zs mo /\
  maps (r_out d) = None /\ maps (r_obs d) = None /\ (mo = None -> loc (arrays (r_out d)) Region = None).
(** One input, output and label (if any) per sample. *)
Definition matching (di : nat) (xs : list (list Qc)) (ys : list cell) (lo : option (list Z)) (zs : list cell) (mo : option (list Z)) (w : option (list Qc)) : Prop :=
  ys <> [] /\ length xs = length ys /\ (forall x, In x xs -> length x = di) /\
  (forall l, lo = Some l -> length l = length ys) /\ (forall m, mo = Some m -> length m = length zs) /\ (forall v, w = Some v -> length v = length ys).

Section Estimates.
Context (gkde : list cell -> option (list xnum) -> result (cell -> Qc)) (gkde1 : list Qc -> list xnum -> result (Qc -> Qc)).
(** The densities p j and o j of cluster j are the estimates from its outputs
    (with the initial weights of the output set, if any) and from its
    observations; every cluster with outputs has two outputs and two observations. *)
Definition estimated (ys : list cell) (ls : list Z) (w : option (list Qc)) (zs : list cell) (ms : list Z) (p o : nat -> cell -> Qc) : Prop :=
  (forall j, 2 <= length (members (combine ys ls) j) -> gkde (members (combine ys ls) j) (option_map (fun v => map Fin (members (combine v ls) j)) w) = Ok (p j)) /\
  (forall j, 2 <= length (members (combine zs ms) j) -> gkde (members (combine zs ms) j) None = Ok (o j)) /\
  forall l, In l ls -> (0 <= l)%Z -> 2 <= length (members (combine ys ls) (Z.to_nat l)) /\ 2 <= length (members (combine zs ms) (Z.to_nat l)).
(** f i j is the estimate of coordinate i from the inputs of cluster j, weighted by
    their ratios. *)
Definition estimated_inputs (di : nat) (xs : list (list Qc)) (ys : list cell) (ls : list Z) (p o : nat -> cell -> Qc) (f : nat -> nat -> Qc -> Qc) : Prop :=
  forall i j, i < di -> members (combine ys ls) j <> [] ->
    gkde1 (map (axis i) (members (combine xs ls) j)) (map (ratio p o j) (members (combine ys ls) j)) = Ok (f i j).
End Estimates.
(** The mixture over K clusters and the product over the coordinates. *)
Definition mixture (ms : list Z) (K : nat) (f : nat -> Qc -> Qc) (x : Qc) : Qc := qsum (map (fun j => (f j x * share ms j)%Qc) (seq 0 K)).
Definition product (ms : list Z) (K : nat) (f : nat -> nat -> Qc -> Qc) (x : list Qc) : Qc :=
  qprod (map (fun e => mixture ms K (f (fst e)) (snd e)) (combine (seq 0 (length x)) x)).
(** What an inversion leaves in the input set. *)
Definition leaves (r : result rdisc) (ws : list xnum) (m : measure) : Prop :=
  exists d, r = Ok d /\ sample_weights (r_in d) = Some ws /\ updated (r_in d) = Some m.
(** Kernel density estimates do not depend on the order of the samples. *)
Definition alike {A} (r r' : result (A -> Qc)) : Prop :=
  match r, r' with Ok f, Ok g => forall x, f x = g x | Raise e, Raise e' => e = e' | _, _ => False end.
Definition order_free (gkde : list cell -> option (list xnum) -> result (cell -> Qc)) : Prop :=
  forall l l', Permutation l l' -> alike (gkde l None) (gkde l' None).
Definition order_free1 (gkde1 : list Qc -> list xnum -> result (Qc -> Qc)) : Prop :=
  forall (l l' : list (Qc * xnum)), Permutation l l' -> alike (gkde1 (map fst l) (map snd l)) (gkde1 (map fst l') (map snd l')).
(** Another discretization that differs in the initial weights of the input set. *)
Definition with_input_weights (w : option (list Qc)) (d : rdisc) : rdisc :=
  mk_rdisc (mk_rset (arrays (r_in d)) (maps (r_in d)) w (sample_weights (r_in d)) (updated (r_in d))) (r_out d) (r_obs d).
(** A set that holds its values only distributed over the processes. *)
Definition distributed (P : nat) (s : sset cell) (d : nat) (xs : list cell) : Prop :=
  dim s = d /\ (forall a, glob s a = None) /\ forall a, loc s a = match a with Values => Some (split_arr P (mk_arr xs [d])) | _ => None end.
