From Coq Require Import List Arith Bool QArith Qcanon.
From Verif Require Import Err Num SampleSet_Model SampleSet_Spec Disc_Model Post_Spec PostObj_Model.
Import ListNotations.
Local Open Scope nat_scope.

(** The set a marginal is calculated from, and the object with that set changed. *)
Inductive uses : post_arg -> sset cell -> (sset cell -> post_arg) -> Prop :=
| uses_set s : uses (ASet s) s ASet
| uses_emulated d s : d_ein d = Some s -> uses (ADisc d) s (fun t => ADisc (with_ein (Some t) d))
| uses_input d s : d_ein d = None -> d_in d = Some s -> uses (ADisc d) s (fun t => ADisc (with_in (Some t) d)).

(** Samples with their probabilities. *)
Definition weighted := list (list Qc * Qc).
Definition value_rows (data : weighted) : list cell := map (fun e => Vec (map Num (fst e))) data.
Definition weight_rows (data : weighted) : list cell := map (fun e => Num (snd e)) data.
(** The set has these samples with these probabilities: in local arrays, or in
    global arrays if there are no local probabilities. *)
Definition global_data (s : sset cell) (data : weighted) : Prop :=
  exists x p, glob s Values = Some x /\ glob s Probabilities = Some p /\ rows x = value_rows data /\ rows p = weight_rows data /\ valid_set s (length data).
Definition local_data (s : sset cell) (blocks : list weighted) : Prop :=
  exists x p, loc s Values = Some x /\ loc s Probabilities = Some p /\ map rows x = map value_rows blocks /\ map rows p = map weight_rows blocks.
Definition carries (s : sset cell) (data : weighted) : Prop :=
  (forall e, In e data -> length (fst e) = dim s) /\
  ((loc s Probabilities = None /\ global_data s data) \/ exists blocks, concat blocks = data /\ local_data s blocks).
(** One number of bins for all dimensions, or one for each. *)
Definition bins_given (b : bins_arg) (d : nat) (ns : list nat) : Prop :=
  match b with BInt n => ns = repeat n d | BArr l => ns = l /\ d <= length l | BNumpyInt _ => False end.
Definition proper (dom : list (Qc * Qc)) : Prop := forall ab, In ab dom -> (fst ab <= snd ab)%Qc.
(** Total probability of the samples with a property. *)
Definition weight_of (data : weighted) (f : list Qc -> bool) : Qc := qsum (map snd (filter (fun e => f (fst e)) data)).
(** A call may store blocks of the global arrays; nothing else changes. *)
Definition only_localized (s t : sset cell) : Prop :=
  dim t = dim s /\ (forall a, glob t a = glob s a) /\ domain t = domain s /\ kd t = kd s /\ weights t = weights s.

(** A set with values, probabilities and perhaps volumes, all global, and
    nothing else. *)
Definition plain_set (s : sset cell) (d : nat) (xs : list cell) (probs : list Qc) (ov : option (list Qc)) : Prop :=
  dim s = d /\ glob s Values = Some (mk_arr xs [d]) /\ glob s Probabilities = Some (vec_arr probs) /\ glob s Volumes = option_map vec_arr ov /\
  (forall a, a <> Values -> a <> Probabilities -> a <> Volumes -> glob s a = None) /\ (forall a, loc s a = None) /\ domain s = None.
(** The global arrays that are read. *)
Definition has_arrays (s : sset cell) (xs : list cell) (probs : list Qc) (ov : option (list Qc)) : Prop :=
  glob s Values = Some (mk_arr xs [dim s]) /\ glob s Probabilities = Some (vec_arr probs) /\ glob s Volumes = option_map vec_arr ov /\
  length xs = length probs /\ (forall v, ov = Some v -> length v = length probs).
(** Non-negative probabilities and volumes, never both zero. *)
Definition proper_measure (probs : list Qc) (ov : option (list Qc)) : Prop :=
  (forall p, In p probs -> (0 <= p)%Qc) /\ (forall v x, ov = Some v -> In x v -> (0 <= x)%Qc) /\
  (forall v i, ov = Some v -> i < length probs -> nth i v 0%Qc = 0%Qc -> nth i probs 0%Qc <> 0%Qc).
Definition outputs_only (s : sset cell) (d : nat) (zs : list cell) : Prop :=
  dim s = d /\ glob s Values = Some (mk_arr zs [d]) /\ (forall a, a <> Values -> glob s a = None) /\ (forall a, loc s a = None) /\ domain s = None.
(** The argument is a set, or a discretization, with these inputs,
    probabilities, volumes and outputs. *)
Definition given (a : post_arg) (xs : list cell) (probs : list Qc) (ov : option (list Qc)) (oz : option (list cell)) : Prop :=
  match a with
  | ASet s => has_arrays s xs probs ov /\ oz = None
  | ADisc d => exists i o zs, d_in d = Some i /\ d_out d = Some o /\ has_arrays i xs probs ov /\ glob o Values = Some (mk_arr zs [dim o]) /\ length zs = length probs /\ oz = Some zs
  | AOther => False
  end.
(** The result has nothing but these arrays. *)
Definition returned (a a' : post_arg) (xs : list cell) (probs : list Qc) (ov : option (list Qc)) (oz : option (list cell)) : Prop :=
  match a, a' with
  | ASet s, ASet t => plain_set t (dim s) xs probs ov /\ oz = None
  | ADisc d, ADisc e => exists i o i' o' zs, d_in d = Some i /\ d_out d = Some o /\ e = mk_disc (Some i') (Some o') None None None None None None None None None None /\
      plain_set i' (dim i) xs probs ov /\ outputs_only o' (dim o) zs /\ oz = Some zs
  | _, _ => False
  end.
(** Points as rows of an array. *)
Definition points (pts : list (list Qc)) : list cell := map (fun x => Vec (map Num x)) pts.
