From Coq Require Import List Arith Permutation QArith Qcanon Reals Qreals.
From Verif Require Import Num Ext Gradient_Spec ChooseQoIs_Spec.
Import ListNotations.
Local Open Scope nat_scope.

(** An optional argument and its default. *)
Definition given {A} (x : option A) (default : A) : A := match x with Some a => a | None => default end.

(** The Jacobian matrix of the affine model with coefficients A: o rows of d
    numbers; with normalization every row is divided by its 1-norm. *)
Definition coefficients (A : nat -> nat -> Qc) (o d : nat) (normalized : bool) (M : list (list Qc)) : Prop :=
  length M = o /\
  forall a w, nth_error M a = Some w ->
    if normalized then normalized_of (map (A a) (seq 0 d)) w else w = map (A a) (seq 0 d).
Definition real_matrix (M : list (list Qc)) : list (list R) := map (map (fun q : Qc => Q2R q)) M.
(** The rows of M with the given indices. *)
Definition rows_of (M : list (list Qc)) (c : list nat) : list (list Qc) := map (fun i => nth i M []) c.

(** Singular values of at most d rows: as many as rows, not negative; their
    product (the volume of the parallelepiped spanned by the rows) does not
    depend on the order of the rows. *)
Definition singular_values (d : nat) (sv : list (list Qc) -> list Qc) : Prop :=
  forall M, length M <= d -> length (sv M) = length M /\ (forall x, In x (sv M) -> (0 <= x)%Qc) /\
    forall M', Permutation M M' -> product (sv M') = product (sv M).
(** The volume is at most the length of any row times the volume of the others. *)
Definition row_lengths (d : nat) (sv : list (list Qc) -> list Qc) (len : list Qc -> Qc) : Prop :=
  forall M1 v M2, length (M1 ++ v :: M2) <= d -> (product (sv (M1 ++ v :: M2)) <= len v * product (sv (M1 ++ M2)))%Qc.

(** Measure of the inverse image of a box of measure one: one over the volume. *)
Definition is_inverse_volume (vol : Qc) (x : xnum) : Prop :=
  (vol = 0%Qc -> x = PInf) /\ (vol <> 0%Qc -> x = Fin (/ vol)%Qc).
(** Volume of some rows, and for each of them the volume of the others and its
    length. *)
Fixpoint with_rest {A} (l : list A) : list (A * list A) :=
  match l with [] => [] | x :: r => (x, r) :: map (fun p => (fst p, x :: snd p)) (with_rest r) end.
Definition volumes (sv : list (list Qc) -> list Qc) (len : list Qc -> Qc) (M : list (list Qc)) : Qc * list (Qc * Qc) :=
  (product (sv M), map (fun p => (product (sv (snd p)), len (fst p))) (with_rest M)).
