From Coq Require Import List Arith QArith Qcanon.
From Verif Require Import Num Ext.
Import ListNotations.
Local Open Scope nat_scope.

(** The half-open box (left, right]. *)
Definition in_box (x left right : list Qc) : Prop :=
  length x = length left /\ length x = length right /\
  forall j a l r, nth_error x j = Some a -> nth_error left j = Some l -> nth_error right j = Some r ->
    (l < a)%Qc /\ (a <= r)%Qc.

(** [i] is the first of the cells 0..n-1 that contains the point. *)
Definition first_of (n : nat) (contains : nat -> Prop) (i : nat) : Prop :=
  i < n /\ contains i /\ forall j, j < i -> ~ contains j.

(** What a query for the cell of a point should answer among n cells and a
    remainder cell numbered n. *)
Definition cell_answer (n : nat) (contains : nat -> Prop) (i : nat) (d : xnum) : Prop :=
  (first_of n contains i /\ d = Fin 0%Qc) \/
  (i = n /\ d = PInf /\ forall j, j < n -> ~ contains j).

Definition box_contains (ls rs : list (list Qc)) (x : list Qc) (i : nat) : Prop :=
  exists l r, nth_error ls i = Some l /\ nth_error rs i = Some r /\ in_box x l r.

Definition ball_contains (norm_lt : list Qc -> Qc -> Prop) (cs : list (list Qc)) (rs : list Qc) (x : list Qc) (i : nat) : Prop :=
  exists c r, nth_error cs i = Some c /\ nth_error rs i = Some r /\
    norm_lt (map (fun p => (fst p - snd p)%Qc) (combine x c)) r.

Definition nat_prod (l : list nat) : nat := fold_right Nat.mul 1 l.

(** Strictly increasing breakpoints, at least two of them. *)
Fixpoint increasing (l : list Qc) : Prop :=
  match l with
  | a :: (b :: _) as r => (a < b)%Qc /\ increasing r
  | _ => True
  end.
Definition breakpoints (l : list Qc) : Prop := 2 <= length l /\ increasing l.
(** The half-open box spanned by the breakpoints. *)
Definition in_outer_box (xi : list (list Qc)) (x : list Qc) : Prop :=
  length x = length xi /\
  forall j a l, nth_error x j = Some a -> nth_error xi j = Some l -> (hd 0 l < a)%Qc /\ (a <= last l 0)%Qc.
(** A cell of the grid: one pair of consecutive breakpoints per dimension. *)
Definition grid_cell (xi : list (list Qc)) (left right : list Qc) : Prop :=
  length left = length xi /\ length right = length xi /\
  forall j l a b, nth_error xi j = Some l -> nth_error left j = Some a -> nth_error right j = Some b ->
    exists m, nth_error l m = Some a /\ nth_error l (S m) = Some b.
