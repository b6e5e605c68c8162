(** Concrete sets for the theorems of PlotDomains_Props. *)
From Coq Require Import String List Arith QArith Qcanon.
From Verif Require Import Err Num PlotDomains_Model PlotDomains_Spec.
Import ListNotations.
Local Open Scope nat_scope.
Definition q (n : Z) : Qc := Q2Qc (n # 1).
(** Two samples in d coordinates: (0, 1, ..) and (10, 11, ..), reference value (20, 21, ..). *)
Definition row (a : Z) (d : nat) : list Qc := map (fun i => q (a + Z.of_nat i)) (seq 0 d).
Definition ex_set (d : nat) : vset :=
  {| v_dim := d; v_values := [row 0 d; row 10 d]; v_ref := Some (row 20 d); v_volumes := Some [q 3; q 4]; v_probs := None;
     v_radii := None; v_nradii := Some [q 5; q 6]; v_error := None |}.
Definition ex_disc (d e : nat) : obj := ODisc (Some (ex_set d)) (Some (ex_set e)).
(** A density on the data: the first coordinate. *)
Definition ex_rho (vals : list (list Qc)) : list Qc := map (fun r => nth 0 r 0%Qc) vals.
