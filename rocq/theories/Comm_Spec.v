(** Running one program per process. *)
From Coq Require Import List Arith QArith Qcanon.
From Verif Require Import Num Comm_Model.
Import ListNotations.
Local Open Scope nat_scope.

(** All processes make their next call together and go on with their replies;
    None is the outcome of a failed call, or of some processes ending while others
    still call. *)
Inductive runs {A} : list (prog A) -> option (list A) -> Prop :=
| runs_end outs : runs (map Ret outs) (Some outs)
| runs_call ps replies out : ps <> [] -> length replies = length ps ->
    mpi (map fst ps) = Some replies -> runs (map (fun e => snd (fst e) (snd e)) (combine ps replies)) out ->
    runs (map (fun e => Call (fst e) (snd e)) ps) out
| runs_fail ps : mpi (map fst ps) = None -> runs (map (fun e => Call (fst e) (snd e)) ps) None
| runs_stuck ps a c k : In (Ret a) ps -> In (Call c k) ps -> runs ps None.

(** The calls for which the replacement may stand in: a scattered object has one
    part, and a receive buffer already holds what was sent. *)
Definition replaceable (c : call) : Prop :=
  match c with
  | Scatter_obj v => (exists x, v = VList [x]) \/ (exists q, v = VArr [q])
  | Allgather_buf send recv => recv = send
  | Allreduce_buf _ send recv => recv = send
  | Scatter_buf send recv => recv = send
  | _ => True
  end.
Inductive only_replaceable {A} : prog A -> Prop :=
| or_ret a : only_replaceable (Ret a)
| or_call c k : replaceable c -> only_replaceable (k (fallback c)) -> only_replaceable (Call c k).

(** Entry j of the sum of several arrays of the same length. *)
Definition column_sums (bs : list (list Qc)) (n : nat) : list Qc := map (fun j => qsum (map (fun b => nth j b 0%Qc) bs)) (seq 0 n).
(** m is the largest of the numbers. *)
Definition largest (m : Qc) (l : list Qc) : Prop := In m l /\ forall x, In x l -> (x <= m)%Qc.
(** The program does not scatter objects on its way with the replacement. *)
Inductive no_scatter {A} : prog A -> Prop :=
| ns_ret a : no_scatter (Ret a)
| ns_call c k : (forall v, c <> Scatter_obj v) -> no_scatter (k (fallback c)) -> no_scatter (Call c k).
