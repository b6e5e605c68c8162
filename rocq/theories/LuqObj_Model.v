(** bet/sampling/useLUQ.py: the object between BET and LUQ, call by call. *)
From Coq Require Import ZArith List Arith Bool.
From Verif Require Import Err Inverse_Model Luq_Model.
Import ListNotations.
Local Open Scope nat_scope.
Local Open Scope err_scope.

(** A sample set, reduced to its values: the global array and the local arrays of
    the processes (either may be missing). *)
Record lset (X : Type) := mk_lset { ls_values : option (list X); ls_local : option (list (list X)) }.
Arguments mk_lset {X}. Arguments ls_values {X}. Arguments ls_local {X}.
(** sample.py:1227-1235, local_to_global. *)
Definition globalized {X} (s : lset X) : lset X :=
  mk_lset (match ls_local s with Some b => Some (concat b) | None => ls_values s end) (ls_local s).

(** What make_disc reads from the LUQ object (lines 149-157). *)
Record learned_data (V : Type) := mk_learned { num_pcs : option (list nat);
  plabels : option (list Z); pmaps : option (list (list V)); olabels : option (list Z); omaps : option (list (list V)) }.
Arguments mk_learned {V}. Arguments num_pcs {V}. Arguments plabels {V}. Arguments pmaps {V}. Arguments olabels {V}. Arguments omaps {V}.

(** What is outside of this file: the number of processes, the user's model (given
    the global values, which may be None, and the times), whether luq can be
    imported, the constructor of luq.luq.LUQ and the attributes of that object.
    Every process makes the same calls with the same data, so one copy of the LUQ
    object stands for all. *)
Record environment (X T S L V : Type) := mk_env { procs : nat; lb_model : option (list X) -> T -> result S;
  importable : bool; new_luq : option S -> option S -> T -> result L; attributes : L -> learned_data V }.
Arguments mk_env {X T S L V}. Arguments procs {X T S L V}. Arguments lb_model {X T S L V}.
Arguments importable {X T S L V}. Arguments new_luq {X T S L V}. Arguments attributes {X T S L V}.

(** lines 54-61, the attributes of the object. *)
Record luq_object (X T S L : Type) := mk_lo { predict_set : lset X; obs_set : option (lset X); lo_times : T;
  predicted_series : option S; observed_series : option S; learn : option L }.
Arguments mk_lo {X T S L}. Arguments predict_set {X T S L}. Arguments obs_set {X T S L}. Arguments lo_times {X T S L}.
Arguments predicted_series {X T S L}. Arguments observed_series {X T S L}. Arguments learn {X T S L}.
(** lines 42-61, __init__. *)
Definition use_luq {X T S L} (p : lset X) (o : option (lset X)) (t : T) : luq_object X T S L := mk_lo p o t None None None.

(** A sample set made by make_disc: labels as local array of every process, the
    global labels once they are gathered, the cluster maps. *)
Record lout (V : Type) := mk_lout { lo_dim : nat; lo_region_local : option (list Z); lo_region : option (list Z); lo_maps : option (list (list V)) }.
Arguments mk_lout {V}. Arguments lo_dim {V}. Arguments lo_region_local {V}. Arguments lo_region {V}. Arguments lo_maps {V}.
Definition gather_lout {V} (P : nat) (s : lout V) : lout V :=
  mk_lout (lo_dim s) (lo_region_local s) (match lo_region_local s with Some r => Some (gathered P r) | None => lo_region s end) (lo_maps s).
Record ldisc (X V : Type) := mk_ldisc { ld_input : lset X; ld_output : lout V; ld_observed : option (lout V) }.
Arguments mk_ldisc {X V}. Arguments ld_input {X V}. Arguments ld_output {X V}. Arguments ld_observed {X V}.

Section Calls.
Context {X T S L V : Type} (E : environment X T S L V).
Notation obj := (luq_object X T S L).

(** What a user does with the object: its methods, in any order, and setting the
    values of the two sample sets in between. *)
Inductive call :=
| GetPredictions | GetObs | SetObserved (s : option S) | Initialize (p o : option S) (t : option T) | Setup
| Learn (f : L -> L * option exn) (* clean_data, dynamics, learn_qois_and_transform with any arguments *)
| MakeDisc | SetPredictValues (s : lset X) | SetObsValues (s : lset X).

(** lines 71-75, get_predictions. *)
Definition get_predictions (x : obj) : obj * option exn :=
  match lb_model E (ls_values (predict_set x)) (lo_times x) with
  | Ok s => (mk_lo (predict_set x) (obs_set x) (lo_times x) (Some s) (observed_series x) (learn x), None)
  | Raise e => (x, Some e) end.
(** lines 77-81, get_obs: None has no get_values. *)
Definition get_obs (x : obj) : obj * option exn :=
  match obs_set x with
  | None => (x, Some PyAttributeError)
  | Some o => match lb_model E (ls_values o) (lo_times x) with
              | Ok s => (mk_lo (predict_set x) (obs_set x) (lo_times x) (predicted_series x) (Some s) (learn x), None)
              | Raise e => (x, Some e) end end.
(** lines 83-90, set_observed_time_series. *)
Definition set_observed (s : option S) (x : obj) : obj := mk_lo (predict_set x) (obs_set x) (lo_times x) (predicted_series x) s (learn x).
(** lines 92-115, initialize: arguments that are None are replaced by the stored
    series and times; given ones are not stored. *)
Definition default {A} (a b : option A) : option A := match a with Some v => Some v | None => b end.
Definition initialize (p o : option S) (t : option T) (x : obj) : obj * option exn :=
  if importable E then
    match new_luq E (default p (predicted_series x)) (default o (observed_series x)) (match t with Some v => v | None => lo_times x end) with
    | Ok l => (mk_lo (predict_set x) (obs_set x) (lo_times x) (predicted_series x) (observed_series x) (Some l), None)
    | Raise e => (x, Some e) end
  else (x, Some MissingModule).
(** lines 117-123, setup. *)
Definition setup (x : obj) : obj * option exn :=
  match get_predictions x with
  | (x1, Some e) => (x1, Some e)
  | (x1, None) => match get_obs x1 with
                  | (x2, Some e) => (x2, Some e)
                  | (x2, None) => initialize (predicted_series x2) (observed_series x2) (Some (lo_times x2)) x2 end end.
(** lines 125-141: the three wrappers; before initialize, None has no such method. *)
Definition learn_call (f : L -> L * option exn) (x : obj) : obj * option exn :=
  match learn x with
  | None => (x, Some PyAttributeError)
  | Some l => (mk_lo (predict_set x) (obs_set x) (lo_times x) (predicted_series x) (observed_series x) (Some (fst (f l))), snd (f l)) end.
(** lines 143-173, make_disc.  The outputs have no values, so check_nums in the two
    constructors accepts any number of labels (sample.py:2353-2361).  The gathering
    changes the two input sets, which the discretizations share with the object;
    the observed output of the first discretization is the output of the second
    one, so it is gathered if there is a second one. *)
Definition make_disc (x : obj) : obj * result (ldisc X V * option (ldisc X V)) :=
  match learn x with
  | None => (x, Raise PyAttributeError)
  | Some l =>
    match num_pcs (attributes E l) with
    | None => (x, Raise PyTypeError)
    | Some [] => (x, Raise PyIndexError)
    | Some (d :: _) =>
      let out := gather_lout (procs E) (mk_lout d (plabels (attributes E l)) None (pmaps (attributes E l))) in
      let obs := mk_lout d (olabels (attributes E l)) None (omaps (attributes E l)) in
      let p := globalized (predict_set x) in
      match obs_set x with
      | None => (mk_lo p None (lo_times x) (predicted_series x) (observed_series x) (learn x), Ok (mk_ldisc p out (Some obs), None))
      | Some o =>
        let o := globalized o in let obs := gather_lout (procs E) obs in
        (mk_lo p (Some o) (lo_times x) (predicted_series x) (observed_series x) (learn x),
         Ok (mk_ldisc p out (Some obs), Some (mk_ldisc o obs None))) end end end.

(** One call on the object: the object after it and the exception, if any. *)
Definition call_step (x : obj) (c : call) : obj * option exn :=
  match c with
  | GetPredictions => get_predictions x
  | GetObs => get_obs x
  | SetObserved s => (set_observed s x, None)
  | Initialize p o t => initialize p o t x
  | Setup => setup x
  | Learn f => learn_call f x
  | MakeDisc => (fst (make_disc x), match snd (make_disc x) with Ok _ => None | Raise e => Some e end)
  | SetPredictValues s => (mk_lo s (obs_set x) (lo_times x) (predicted_series x) (observed_series x) (learn x), None)
  | SetObsValues s => (mk_lo (predict_set x) (match obs_set x with Some _ => Some s | None => None end) (lo_times x)
                             (predicted_series x) (observed_series x) (learn x), None)
  end.
(** A script: the calls in turn, stopping at the first exception. *)
Fixpoint script (x : obj) (h : list call) : obj * option exn :=
  match h with
  | [] => (x, None)
  | c :: h => match call_step x c with (x, None) => script x h | (x, Some e) => (x, Some e) end end.

(** lines 63-69 and 175-179, save: local_to_global does nothing here, and all the
    processes write the same file (util.py:245-252), which holds the object of
    process [w] in the end.  util.load_object (lines 274-277) gives this one object
    to each of the P processes: its local array is that of process w everywhere.
    The pickled learner and series are taken to be restored as they were. *)
Definition loaded_lset (w P : nat) (s : lset X) : lset X :=
  mk_lset (ls_values s) (match ls_local s with Some b => Some (repeat (nth w b []) P) | None => None end).
Definition save_load (w P : nat) (x : obj) : obj :=
  mk_lo (loaded_lset w P (predict_set x)) (option_map (loaded_lset w P) (obs_set x)) (lo_times x) (predicted_series x) (observed_series x) (learn x).
End Calls.

(** calculateR.invert (calculateR.py:87-123) on the first discretization: the
    second gathering (line 34) leaves the sets as they are; check_num counts the
    global labels, or sums the lengths of the local ones (sample.py:743-747); the
    sets have no values, which are only read if there are no cluster maps. *)
Definition label_count {V} (P : nat) (s : lout V) : nat :=
  match lo_region s with
  | Some r => length r
  | None => match lo_region_local s with Some r => P * length r | None => 0 end end.
Definition invert_ldisc {X V R} (zero : R) (P : nat) (d : ldisc X V) (ratio : nat -> V -> R)
  : result (list R * list (option (list R)) * list (list nat)) :=
  match ld_observed d with
  | None => Raise PyAttributeError
  | Some obs =>
    let '(regions, oregions) := regions_used (lo_region (ld_output d)) (lo_region obs) (label_count P (ld_output d)) (label_count P obs) in
    match lo_maps (ld_output d) with
    | None => Raise PyTypeError
    | Some m => fold_result (invert_step (Some m) (lo_maps obs) [] regions oregions ratio)
                            (seq 0 (length m)) (repeat zero (length regions), [], []) end end.
