(** What it means that the processes of a run finish, or that they hang. *)
From Coq Require Import List Arith.
From Verif Require Import Err SampleSet_Model Spmd_Model.
Import ListNotations.

(** No process can go on. *)
Definition stuck {V A} (s : list (proc V A)) : Prop := forall t, ~ step s t.

(** Whatever the order in which the processes take their steps, the run is over
    after at most some number of steps, until then some process can go on, and
    what is left of the programs of the ranks at the end is [fs]. *)
Definition always_ends {V A} (ps fs : list (prog V A)) : Prop :=
  exists most, forall n s, steps n (start ps) s ->
    n <= most /\ ((exists t, step s t) \/ (stuck s /\ map code s = fs)).

(** Every process ends, with these results (values or exceptions). *)
Definition finishes {V A} (ps : list (prog V A)) (rs : list (result A)) : Prop :=
  always_ends ps (map Stop rs).

(** However the run goes, some process waits for ever in a call. *)
Definition waits {V A} (p : proc V A) : Prop := exists h o x k, p = mk_proc (h ++ [(o, x)]) true (Call o x k).
Definition hangs {V A} (ps : list (prog V A)) : Prop :=
  exists most, forall n s, steps n (start ps) s ->
    n <= most /\ ((exists t, step s t) \/ (stuck s /\ exists p, In p s /\ waits p)).

(** The part that rank r has of a sample set: the global arrays and its block of
    every local array. *)
Definition part {R} (s : sset R) (r : nat) : rset R :=
  mk_rset (dim s) (glob s)
    (fun a => match loc s a with Some bs => nth_error bs r | None => None end)
    (match local_index s with Some bs => nth_error bs r | None => None end).

(** one block of every local array per rank *)
Definition blocks_per_rank {R} (P : nat) (s : sset R) : Prop :=
  forall a bs, loc s a = Some bs -> length bs = P.

(** two parts are the same data *)
Definition same_part {R} (x y : rset R) : Prop :=
  rdim x = rdim y /\ (forall a, rglob x a = rglob y a) /\ (forall a, rloc x a = rloc y a)
  /\ rindex x = rindex y.
