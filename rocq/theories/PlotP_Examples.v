(** Concrete sets and marginals for the theorems of PlotP_Props. *)
From Coq Require Import String List Arith QArith Qcanon.
From Verif Require Import Err Num Ext PlotP_Model PlotP_Spec.
Import ListNotations.
Local Open Scope nat_scope.
Definition ex_dom : list (Qc * Qc) := [(Q2Qc 0, Q2Qc 2); (Q2Qc 0, Q2Qc 1)].
Definition ex_mset : mset := {| m_domain := Some ex_dom; m_ref := Some [Q2Qc 1; Q2Qc (1 # 2)] |}.
Definition ex_m : list Qc := [Q2Qc (1 # 4); Q2Qc (3 # 4)].
Definition ex_bins (n0 n1 : nat) : list (list Qc) := [edges (Q2Qc 0, Q2Qc 2) n0; edges (Q2Qc 0, Q2Qc 1) n1].
Definition ex_t : list (list Qc) := [[Q2Qc (1 # 8); Q2Qc (1 # 8); 0%Qc]; [Q2Qc (1 # 4); Q2Qc (1 # 4); Q2Qc (1 # 4)]].
Definition ex_item : (nat * nat) * (nat * list (list Qc)) := ((0, 1), (3, ex_t)).
(** Two sets: the first without labels, with both densities; the second with labels and an updated density. *)
Definition ex_d0 : dset := {| d_values := [[Q2Qc 1; Q2Qc 2]; [Q2Qc 3; Q2Qc 4]]; d_labels := None;
  d_init := Some (fun x _ => map (fun _ => Q2Qc 1) x); d_upd := Some (fun x _ => map (fun _ => Q2Qc 2) x) |}.
Definition ex_d1 : dset := {| d_values := [[Q2Qc 5; Q2Qc 2]]; d_labels := Some ["a"; "b"]%string;
  d_init := None; d_upd := Some (fun x _ => x) |}.
