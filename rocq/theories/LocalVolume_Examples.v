(** Two samples on a line. *)
From Coq Require Import List Arith Bool QArith Qcanon Lia.
From Verif Require Import Num Ext Show LocalVolume_Model LocalVolume_Spec.
Import ListNotations.
Local Open Scope nat_scope.

Definition two : list pt := [[Q2Qc (1 # 4)]; [Q2Qc (3 # 4)]].
(** Every drawn point of the unit ball is b. *)
Definition same (b : Qc) (i n : nat) : list pt := repeat [b] n.
(** The nearest of the two samples. *)
Definition near (r : Qc) (x : pt) : nat := if qleb (hd 0%Qc x) (Q2Qc (1 # 2)) then 0 else 1.
Definition shown (o : option (list Qc) * (list xnum * list (list xnum))) : list (option Q) :=
  map (fun x => match x with Fin q => Some (this q) | _ => None end) (fst (snd o)).

Lemma two_first_call : shown (estimate_local_volume two (same (Q2Qc (7 # 8))) near 1 1 1 1 11 None [Q2Qc (1 # 4); Q2Qc (1 # 8)] [1; 1]%Qc)
  = [Some 0; Some 1]%Q.
Proof. vm_compute. reflexivity. Qed.
Lemma two_second_call : let first := estimate_local_volume two (same (Q2Qc (7 # 8))) near 1 1 1 1 11 None [Q2Qc (1 # 4); Q2Qc (1 # 8)] [1; 1]%Qc in
  shown (estimate_local_volume two (same (Q2Qc (7 # 8))) near 1 1 1 1 11 (fst first) [Q2Qc (1 # 4); Q2Qc (1 # 8)] [1; 1]%Qc)
  = [Some (2 # 3); Some (1 # 3)]%Q.
Proof. vm_compute. reflexivity. Qed.
Lemma two_differs : exists samples ball ptr P g dim nloc nmax fresh est,
  let first := estimate_local_volume samples ball ptr P g dim nloc nmax None fresh est in
  let second := estimate_local_volume samples ball ptr P g dim nloc nmax (fst first) fresh est in
  fst (snd second) <> fst (snd first).
Proof.
  exists two, (same (Q2Qc (7 # 8))), near, 1, 1%Qc, 1, 1, 11, [Q2Qc (1 # 4); Q2Qc (1 # 8)], [1; 1]%Qc. cbn zeta. intros E.
  pose proof two_second_call as S. pose proof two_first_call as F. unfold shown in S, F. cbn zeta in S. rewrite E in S. rewrite S in F. discriminate.
Qed.
