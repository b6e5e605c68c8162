(** Tactics that prove equations between concrete numbers by computation. *)
From Coq Require Import List ZArith QArith Qcanon.
From Verif Require Import Err Num Ext.
Import ListNotations.

Lemma qlist_eq (l m : list Qc) : map this l = map this m -> l = m.
Proof.
  revert m; induction l as [|x l IH]; intros [|y m] H; simpl in *; try discriminate; [reflexivity|].
  injection H as H1 H2. f_equal; [apply Qc_is_canon; rewrite H1; reflexivity | apply IH, H2].
Qed.
Lemma qlist2_eq (l m : list (list Qc)) : map (map this) l = map (map this) m -> l = m.
Proof.
  revert m; induction l as [|x l IH]; intros [|y m] H; simpl in *; try discriminate; [reflexivity|].
  injection H as H1 H2. f_equal; [apply qlist_eq, H1 | apply IH, H2].
Qed.
Definition xshow (x : xnum) : Z * Q :=
  match x with Fin q => (0%Z, this q) | PInf => (1%Z, 0%Q) | NInf => (2%Z, 0%Q) | NaN => (3%Z, 0%Q) end.
Lemma xshow_inj x y : xshow x = xshow y -> x = y.
Proof. destruct x, y; simpl; intro H; try discriminate; [|reflexivity..]. f_equal. apply Qc_is_canon. injection H as H. rewrite H. reflexivity. Qed.
Lemma xlist_eq (l m : list xnum) : map xshow l = map xshow m -> l = m.
Proof.
  revert m; induction l as [|x l IH]; intros [|y m] H; simpl in *; try discriminate; [reflexivity|].
  assert (E : x = y) by (apply xshow_inj; congruence). f_equal; [exact E | apply IH; congruence].
Qed.
Lemma ok_eq {A B} (f : A -> B) (r : result A) (a : A) : (forall x y, f x = f y -> x = y) ->
  match r with Ok b => Some (f b) | Raise _ => None end = Some (f a) -> r = Ok a.
Proof. intros I H. destruct r as [b|e]; [|discriminate]. f_equal. apply I. congruence. Qed.
Lemma some_eq {A B} (f : A -> B) (r : option A) (a : A) : (forall x y, f x = f y -> x = y) ->
  match r with Some b => Some (f b) | None => None end = Some (f a) -> r = Some a.
Proof. intros I H. destruct r as [b|]; [|discriminate]. f_equal. apply I. congruence. Qed.

Lemma this_inj (x y : Qc) : this x = this y -> x = y.
Proof. intro H. apply Qc_is_canon. rewrite H. reflexivity. Qed.
Ltac qc_compute :=
  first
  [ apply Qc_is_canon; vm_compute; reflexivity
  | apply qlist_eq; vm_compute; reflexivity
  | apply qlist2_eq; vm_compute; reflexivity
  | apply xshow_inj; vm_compute; reflexivity
  | apply xlist_eq; vm_compute; reflexivity
  | apply (ok_eq _ _ _ qlist_eq); vm_compute; reflexivity
  | apply (ok_eq _ _ _ qlist2_eq); vm_compute; reflexivity
  | apply (ok_eq _ _ _ xlist_eq); vm_compute; reflexivity
  | apply (some_eq _ _ _ qlist_eq); vm_compute; reflexivity
  | apply (some_eq _ _ _ xlist_eq); vm_compute; reflexivity
  | apply (ok_eq _ _ _ this_inj); vm_compute; reflexivity
  | apply (some_eq _ _ _ this_inj); vm_compute; reflexivity ].
