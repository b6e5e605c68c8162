From Coq Require Import List Arith Bool Lia QArith Qcanon.
From Verif Require Import Err Num Util_Model Reference_Model Reference_Spec.
Import ListNotations.
Local Open Scope nat_scope.

(** samples.dot(matrix) with two columns of two entries: flat points are allowed. *)
Fixpoint rows2 (l : list Qc) : list (list Qc) := match l with x :: y :: r => [x; y] :: rows2 r | _ => [] end.
Definition sum_diff (x : list Qc) : list Qc := match x with [a; b] => [a + b; a - b]%Qc | _ => [] end.
Definition dot_model (a : nd) : reply :=
  match shape a with
  | [2] => Array (mk_nd [2] (sum_diff (data a)))
  | [n; 2] => Array (mk_nd [n; 2] (concat (map sum_diff (rows2 (data a)))))
  | _ => Throws PyValueError
  end.
(** x = samples[:, 0]; y = samples[:, 1]: a flat array raises IndexError. *)
Definition column_model (a : nd) : reply :=
  match shape a with
  | [n; 2] => Array (mk_nd [n; 2] (concat (map sum_diff (rows2 (data a)))))
  | _ => Throws PyIndexError
  end.
Lemma rows2_concat rows : (forall x, In x rows -> length x = 2) -> rows2 (concat rows) = rows.
Proof.
  induction rows as [|x rows IH]; intro H; [reflexivity|]. pose proof (H x (or_introl eq_refl)) as L. destruct x as [|a [|b [|c x]]]; try discriminate L. cbn. rewrite IH; [reflexivity|]. intros y I. apply H. right. exact I.
Qed.
Lemma sum_diff_length x : length x = 2 -> length (sum_diff x) = 2.
Proof. destruct x as [|a [|b [|c x]]]; try discriminate. reflexivity. Qed.
Lemma dot_model_point : point_model 2 2 sum_diff dot_model.
Proof. intros x L. reflexivity. Qed.
Lemma column_model_rows : row_model 2 2 sum_diff column_model.
Proof.
  split; [apply sum_diff_length|]. intros rows H. unfold column_model. cbn [shape data]. rewrite rows2_concat by exact H. reflexivity.
Qed.
Definition sum_model (a : nd) : reply :=
  match shape a with
  | [n; 2] => Array (mk_nd [n] (map (fun x => hd 0%Qc (sum_diff x)) (rows2 (data a))))
  | _ => Throws PyValueError
  end.
Lemma sum_model_scalar : scalar_model 2 (fun x => hd 0%Qc (sum_diff x)) sum_model.
Proof.
  split.
  - intros rows H. unfold sum_model. cbn [shape data]. rewrite rows2_concat by exact H. reflexivity.
  - intros x L. reflexivity.
Qed.
