(** Extended numbers: exact rationals plus the IEEE values inf, -inf and nan,
    for the places where the code can produce or compare them. *)
From Coq Require Import List Bool QArith Qcanon.
From Verif Require Import Num.
Import ListNotations.
Local Open Scope Qc_scope.

Inductive xnum := Fin (q : Qc) | PInf | NInf | NaN.

(** x == y of IEEE 754: nan equals nothing. *)
Definition xeqb (x y : xnum) : bool :=
  match x, y with
  | Fin a, Fin b => qeqb a b
  | PInf, PInf | NInf, NInf => true
  | _, _ => false
  end.
Definition xneb (x y : xnum) : bool := negb (xeqb x y).

Definition sgn_inf (q : Qc) : xnum := if qltb 0 q then PInf else NInf.

(** a / b on finite operands with the IEEE results for b = 0 (the sign of a
    zero divisor is taken to be +). *)
Definition xdivq (a b : Qc) : xnum :=
  if qeqb b 0 then (if qeqb a 0 then NaN else sgn_inf a) else Fin (a / b).

Definition xneg (x : xnum) : xnum :=
  match x with Fin a => Fin (- a) | PInf => NInf | NInf => PInf | NaN => NaN end.
Definition xadd (x y : xnum) : xnum :=
  match x, y with
  | NaN, _ | _, NaN => NaN
  | Fin a, Fin b => Fin (a + b)
  | PInf, NInf | NInf, PInf => NaN
  | PInf, _ | _, PInf => PInf
  | NInf, _ | _, NInf => NInf
  end.
Definition xmul (x y : xnum) : xnum :=
  match x, y with
  | NaN, _ | _, NaN => NaN
  | Fin a, Fin b => Fin (a * b)
  | Fin a, PInf | PInf, Fin a => if qeqb a 0 then NaN else sgn_inf a
  | Fin a, NInf | NInf, Fin a => if qeqb a 0 then NaN else xneg (sgn_inf a)
  | PInf, PInf | NInf, NInf => PInf
  | _, _ => NInf
  end.
(** x <= y and x < y: false if either is nan. *)
Definition xleb (x y : xnum) : bool :=
  match x, y with
  | NaN, _ | _, NaN => false
  | Fin a, Fin b => qleb a b
  | NInf, _ | _, PInf => true
  | _, _ => false
  end.
Definition xltb (x y : xnum) : bool :=
  match x, y with
  | NaN, _ | _, NaN => false
  | _, _ => negb (xleb y x)
  end.

Definition is_nan (x : xnum) : bool := match x with NaN => true | _ => false end.
Definition is_inf (x : xnum) : bool := match x with PInf | NInf => true | _ => false end.
Definition finite (x : xnum) : bool := match x with Fin _ => true | _ => false end.

Definition xsum (l : list xnum) : xnum := fold_right xadd (Fin 0) l.

Lemma xeqb_true x y : xeqb x y = true -> x = y.
Proof. destruct x, y; simpl; try discriminate; try reflexivity. intro H. apply qeqb_true in H. congruence. Qed.

Lemma xeqb_refl x : is_nan x = false -> xeqb x x = true.
Proof. destruct x; simpl; try reflexivity; try discriminate. intros _. apply qeqb_true. reflexivity. Qed.

Lemma xeqb_sym x y : xeqb x y = xeqb y x.
Proof.
  destruct x, y; simpl; try reflexivity.
  destruct (qeqb q q0) eqn:E, (qeqb q0 q) eqn:E'; try reflexivity.
  - apply qeqb_true in E. subst. rewrite <- E'. symmetry. apply qeqb_true. reflexivity.
  - apply qeqb_true in E'. subst. rewrite <- E. apply qeqb_true. reflexivity.
Qed.

Lemma xdivq_fin a b : b <> 0 -> xdivq a b = Fin (a / b).
Proof. intro H. unfold xdivq. destruct (qeqb b 0) eqn:E; [apply qeqb_true in E; contradiction | reflexivity]. Qed.

Lemma xsum_fin l : xsum (map Fin l) = Fin (qsum l).
Proof. induction l as [|a l IH]; simpl; [reflexivity|]. unfold xsum in *. rewrite IH. reflexivity. Qed.
