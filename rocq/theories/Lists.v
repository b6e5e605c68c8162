(** General list facts missing from the standard library of Coq 8.16. *)
From Coq Require Import List Arith Lia Permutation.
Import ListNotations.

Lemma nth_error_ext {A} (l l' : list A) : (forall i, nth_error l i = nth_error l' i) -> l = l'.
Proof.
  revert l'; induction l as [|x l IH]; intros [|y l'] H; [reflexivity | specialize (H 0); discriminate .. |].
  f_equal; [specialize (H 0); simpl in H; congruence | apply IH; intro i; apply (H (S i))].
Qed.

Lemma concat_length {A} (ll : list (list A)) : length (concat ll) = list_sum (map (@length A) ll).
Proof. induction ll as [|x ll IH]; simpl; [reflexivity | rewrite app_length, IH; reflexivity]. Qed.

Lemma NoDup_app {A} (l1 l2 : list A) : NoDup l1 -> NoDup l2 ->
  (forall x, In x l1 -> ~ In x l2) -> NoDup (l1 ++ l2).
Proof.
  induction l1 as [|a l1 IH]; intros N1 N2 D; simpl; [exact N2|].
  inversion N1; subst. constructor.
  - rewrite in_app_iff. intros [H|H]; [auto | apply (D a); [left; reflexivity | exact H]].
  - apply IH; auto. intros x Hx. apply D. right. exact Hx.
Qed.

Lemma nth_error_seq a n i : nth_error (seq a n) i = if i <? n then Some (a + i) else None.
Proof.
  destruct (Nat.ltb_spec i n) as [H|H].
  - rewrite (nth_error_nth' _ 0) by (rewrite seq_length; lia). rewrite seq_nth by lia. reflexivity.
  - apply nth_error_None. rewrite seq_length. lia.
Qed.

Lemma concat_map_map {A B C} (f : A -> B) (g : C -> list A) rs :
  concat (map (fun r => map f (g r)) rs) = map f (concat (map g rs)).
Proof. induction rs as [|r rs IH]; simpl; [reflexivity | rewrite map_app, IH; reflexivity]. Qed.

Lemma map_seq_ext {A} (f g : nat -> A) a n :
  (forall i, a <= i < a + n -> f i = g i) -> map f (seq a n) = map g (seq a n).
Proof. intro H. apply map_ext_in. intros i Hi. apply in_seq in Hi. apply H. lia. Qed.

Lemma map_nth_seq {A} (d : A) l : map (fun i => nth i l d) (seq 0 (length l)) = l.
Proof.
  apply nth_error_ext. intro i. rewrite nth_error_map, nth_error_seq.
  destruct (Nat.ltb_spec i (length l)) as [H|H]; simpl.
  - symmetry. apply nth_error_nth'. exact H.
  - symmetry. apply nth_error_None. exact H.
Qed.

Lemma length_S_inv {A} (l : list A) n : length l = S n -> exists x r, l = x :: r /\ length r = n.
Proof. destruct l as [|x r]; simpl; intro H; [discriminate | exists x, r; split; [reflexivity | lia]]. Qed.

Lemma combine_map_l {A B C} (f : A -> C) (l : list A) (r : list B) :
  combine (map f l) r = map (fun p => (f (fst p), snd p)) (combine l r).
Proof. revert r; induction l as [|a l IH]; intros [|b r]; simpl; [reflexivity..|]. rewrite IH. reflexivity. Qed.

Lemma combine_map_r {A B C} (f : B -> C) (l : list A) (r : list B) :
  combine l (map f r) = map (fun p => (fst p, f (snd p))) (combine l r).
Proof. revert r; induction l as [|a l IH]; intros [|b r]; simpl; [reflexivity..|]. rewrite IH. reflexivity. Qed.

Lemma filter_map_comm {A B} (f : A -> B) p l : filter p (map f l) = map f (filter (fun x => p (f x)) l).
Proof. induction l as [|a l IH]; simpl; [reflexivity|]. destruct (p (f a)); simpl; rewrite IH; reflexivity. Qed.

Lemma filter_concat {A} (p : A -> bool) ll : filter p (concat ll) = concat (map (filter p) ll).
Proof. induction ll as [|l ll IH]; simpl; [reflexivity|]. rewrite filter_app, IH. reflexivity. Qed.

Lemma Forall2_length {A B} (R : A -> B -> Prop) l m : Forall2 R l m -> length l = length m.
Proof. induction 1; simpl; congruence. Qed.
