From Coq Require Import List Arith Permutation QArith Qcanon.
From Verif Require Import Num Ext.
Import ListNotations.
Local Open Scope nat_scope.

(** numpy sorts nan last. *)
Definition sorts_before (a b : xnum) : Prop := match a, b with _, NaN => True | NaN, _ => False | _, _ => xleb a b = true end.
Definition is_xargsort (l : list xnum) (p : list nat) : Prop :=
  Permutation p (seq 0 (length l)) /\
  forall i j a b x y, i < j -> nth_error p i = Some a -> nth_error p j = Some b -> nth_error l a = Some x -> nth_error l b = Some y -> sorts_before x y.
(** Density of sample i. *)
Definition density (P : list Qc) (vol : option (list Qc)) (i : nat) : xnum :=
  match vol with None => Fin (nth i P 0%Qc) | Some v => xdivq (nth i P 0%Qc) (nth i v 0%Qc) end.
(** Rows of [out] are the rows of [l] at the indices. *)
Definition selects {A} (l : list A) (idx : list nat) (out : list A) : Prop :=
  length out = length idx /\ forall k i, nth_error idx k = Some i -> nth_error out k = nth_error l i /\ i < length l.
Definition selects_opt {A} (l : option (list A)) (idx : list nat) (out : option (list A)) : Prop :=
  match l, out with None, None => True | Some a, Some b => selects a idx b | _, _ => False end.
Definition decreasing_density (P : list Qc) (vol : option (list Qc)) (idx : list nat) : Prop :=
  forall i j a b, i < j -> nth_error idx i = Some a -> nth_error idx j = Some b -> xleb (density P vol b) (density P vol a) = true.
Definition increasing_density (P : list Qc) (vol : option (list Qc)) (idx : list nat) : Prop :=
  forall i j a b, i < j -> nth_error idx i = Some a -> nth_error idx j = Some b -> xleb (density P vol a) (density P vol b) = true.
(** All samples with positive probability, each of them once *)
Definition all_positive (P : list Qc) (idx : list nat) : Prop := NoDup idx /\ forall i, In i idx <-> i < length P /\ (0 < nth i P 0)%Qc.
(** Total probability of the first m samples of a list of indices. *)
Definition total (P : list Qc) (idx : list nat) : Qc := fold_right Qcplus 0%Qc (map (fun i => nth i P 0%Qc) idx).
(** The longest beginning of the list whose probability is at most pc *)
Definition longest_within (P : list Qc) (pc : Qc) (order : list nat) (num : nat) : Prop :=
  num <= length order /\ (total P (firstn num order) <= pc)%Qc /\ forall m, num < m -> m <= length order -> (pc < total P (firstn m order))%Qc.
Definition in_box1 (ab : Qc * Qc) (x : Qc) : bool := Qle_bool (fst ab) x && Qle_bool x (snd ab).

(** The n equal bins of an interval: lower edges, and the points of bin k; the last bin is closed. *)
Definition bin_edge (ab : Qc * Qc) (n k : nat) : Qc := (fst ab + qn k * ((snd ab - fst ab) / qn n))%Qc.
Definition bin_has (ab : Qc * Qc) (n k : nat) (x : Qc) : bool :=
  Qle_bool (bin_edge ab n k) x && (if S k =? n then Qle_bool x (snd ab) else negb (Qle_bool (bin_edge ab n (S k)) x)).
