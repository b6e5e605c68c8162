(** Exact rational arithmetic used by the models, and generic lemmas on sums
    over lists.  Nothing here models a particular function of the code. *)
From Coq Require Import List Arith Lia QArith Qcanon Lqa Permutation Bool.
Import ListNotations.
Local Open Scope Qc_scope.

(** ** Moving between [Qc] and [Q] so that [lra] applies *)
Lemma this_add (x y : Qc) : (this (x + y) == this x + this y)%Q.
Proof. unfold Qcplus, Q2Qc. cbn [this]. apply Qred_correct. Qed.
Lemma this_mul (x y : Qc) : (this (x * y) == this x * this y)%Q.
Proof. unfold Qcmult, Q2Qc. cbn [this]. apply Qred_correct. Qed.
Lemma this_opp (x : Qc) : (this (- x) == - this x)%Q.
Proof. unfold Qcopp, Q2Qc. cbn [this]. apply Qred_correct. Qed.
Lemma this_sub (x y : Qc) : (this (x - y) == this x - this y)%Q.
Proof. unfold Qcminus. rewrite this_add, this_opp. reflexivity. Qed.
Lemma this_inv (x : Qc) : (this (/ x) == / this x)%Q.
Proof. unfold Qcinv, Q2Qc. cbn [this]. apply Qred_correct. Qed.
Lemma this_Q2Qc (q : Q) : (this (Q2Qc q) == q)%Q.
Proof. unfold Q2Qc. cbn [this]. apply Qred_correct. Qed.
Lemma Qc_eq_this (x y : Qc) : x = y <-> (this x == this y)%Q.
Proof. split; [intros ->; reflexivity | apply Qc_is_canon]. Qed.
Lemma Qc_neq_this (x y : Qc) : x <> y <-> ~ (this x == this y)%Q.
Proof. rewrite Qc_eq_this. reflexivity. Qed.

Ltac qc_push_all :=
  repeat match goal with
  | H : @eq Qc _ _ |- _ => apply Qc_eq_this in H
  | H : ~ (@eq Qc _ _) |- _ => apply Qc_neq_this in H
  | |- @eq Qc _ _ => apply Qc_eq_this
  | |- ~ (@eq Qc _ _) => apply Qc_neq_this
  end;
  unfold Qcle, Qclt, Qcdiv in *;
  repeat match goal with
  | H : context [this (?x + ?y)%Qc] |- _ => setoid_rewrite this_add in H
  | H : context [this (?x * ?y)%Qc] |- _ => setoid_rewrite this_mul in H
  | H : context [this (- ?x)%Qc] |- _ => setoid_rewrite this_opp in H
  | H : context [this (?x - ?y)%Qc] |- _ => setoid_rewrite this_sub in H
  | H : context [this (Q2Qc ?x)] |- _ => setoid_rewrite this_Q2Qc in H
  | |- context [this (?x + ?y)%Qc] => setoid_rewrite this_add
  | |- context [this (?x * ?y)%Qc] => setoid_rewrite this_mul
  | |- context [this (- ?x)%Qc] => setoid_rewrite this_opp
  | |- context [this (?x - ?y)%Qc] => setoid_rewrite this_sub
  | |- context [this (Q2Qc ?x)] => setoid_rewrite this_Q2Qc
  end.

(** Linear (and mildly non-linear) goals over [Qc]. *)
Ltac qc_lra := qc_push_all; lra.
Ltac qc_nra := qc_push_all; nra.

Example qc_lra_test (x y z : Qc) : x <= y -> y + 1 < z -> (1 + 1) * x + Q2Qc (1#2) < z + x - 0.
Proof. intros. qc_lra. Qed.

(** ** Boolean comparisons *)
Definition qleb (x y : Qc) : bool := Qle_bool x y.
Definition qltb (x y : Qc) : bool := negb (Qle_bool y x).
Definition qeqb (x y : Qc) : bool := Qeq_bool x y.

Lemma qleb_true x y : qleb x y = true <-> x <= y.
Proof. unfold qleb, Qcle. apply Qle_bool_iff. Qed.
Lemma qltb_true x y : qltb x y = true <-> x < y.
Proof.
  unfold qltb. rewrite negb_true_iff.
  rewrite <- not_true_iff_false. rewrite Qle_bool_iff. unfold Qclt. split; intro H.
  - apply Qnot_le_lt. exact H.
  - apply Qlt_not_le. exact H.
Qed.
Lemma qeqb_true x y : qeqb x y = true <-> x = y.
Proof. unfold qeqb. rewrite Qeq_bool_iff. rewrite Qc_eq_this. reflexivity. Qed.
Lemma qleb_false x y : qleb x y = false <-> y < x.
Proof. rewrite <- not_true_iff_false, qleb_true. split; intro H; [apply Qcnot_le_lt; exact H | apply Qclt_not_le; exact H]. Qed.
Lemma qltb_false x y : qltb x y = false <-> y <= x.
Proof. rewrite <- not_true_iff_false, qltb_true. split; intro H; [apply Qcnot_lt_le; exact H | apply Qcle_not_lt; exact H]. Qed.
Lemma qeqb_false x y : qeqb x y = false <-> x <> y.
Proof. rewrite <- not_true_iff_false, qeqb_true. reflexivity. Qed.

Lemma qleb_spec x y : reflect (x <= y) (qleb x y).
Proof. apply iff_reflect. symmetry. apply qleb_true. Qed.
Lemma qltb_spec x y : reflect (x < y) (qltb x y).
Proof. apply iff_reflect. symmetry. apply qltb_true. Qed.
Lemma qeqb_spec x y : reflect (x = y) (qeqb x y).
Proof. apply iff_reflect. symmetry. apply qeqb_true. Qed.

Definition qmax (x y : Qc) : Qc := if qleb x y then y else x.
Definition qmin (x y : Qc) : Qc := if qleb x y then x else y.
Definition qabs (x : Qc) : Qc := if qleb 0 x then x else - x.

Lemma qmax_ge_l x y : x <= qmax x y.
Proof. unfold qmax. destruct (qleb_spec x y); [assumption | apply Qcle_refl]. Qed.
Lemma qmax_ge_r x y : y <= qmax x y.
Proof. unfold qmax. destruct (qleb_spec x y) as [|n]; [apply Qcle_refl |]. apply Qcnot_le_lt in n. qc_lra. Qed.
Lemma qmin_le_l x y : qmin x y <= x.
Proof. unfold qmin. destruct (qleb_spec x y) as [|n]; [apply Qcle_refl |]. apply Qcnot_le_lt in n. qc_lra. Qed.
Lemma qmin_le_r x y : qmin x y <= y.
Proof. unfold qmin. destruct (qleb_spec x y); [assumption | apply Qcle_refl]. Qed.
Lemma qmax_cases x y : qmax x y = x \/ qmax x y = y.
Proof. unfold qmax. destruct (qleb x y); auto. Qed.
Lemma qmin_cases x y : qmin x y = x \/ qmin x y = y.
Proof. unfold qmin. destruct (qleb x y); auto. Qed.

Lemma qabs_nonneg x : 0 <= qabs x.
Proof. unfold qabs. destruct (qleb_spec 0 x) as [|n]; [assumption|]. apply Qcnot_le_lt in n. qc_lra. Qed.
Lemma qabs_pos_eq x : 0 <= x -> qabs x = x.
Proof. intro H. unfold qabs. destruct (qleb_spec 0 x) as [|n]; [reflexivity | contradiction]. Qed.
Lemma qabs_neg_eq x : x <= 0 -> qabs x = - x.
Proof. intro H. unfold qabs. destruct (qleb_spec 0 x) as [h|n]; [| reflexivity]. assert (x = 0) as -> by (apply Qcle_antisym; assumption). reflexivity. Qed.
Lemma qabs_opp x : qabs (- x) = qabs x.
Proof.
  unfold qabs. destruct (qleb_spec 0 x) as [h|n], (qleb_spec 0 (- x)) as [h'|n'];
    try (apply Qcnot_le_lt in n); try (apply Qcnot_le_lt in n'); qc_lra.
Qed.
Lemma qabs_le x y : qabs x <= y <-> - y <= x /\ x <= y.
Proof.
  unfold qabs. destruct (qleb_spec 0 x) as [h|n]; try (apply Qcnot_le_lt in n);
    (split; [intro; split | intros [? ?]]); qc_lra.
Qed.
Lemma qabs_triangle x y : qabs (x + y) <= qabs x + qabs y.
Proof.
  unfold qabs. destruct (qleb_spec 0 x) as [hx|hx], (qleb_spec 0 y) as [hy|hy], (qleb_spec 0 (x+y)) as [hz|hz];
    repeat match goal with H : ~ (_ <= _) |- _ => apply Qcnot_le_lt in H end; qc_lra.
Qed.
Lemma qabs_zero x : qabs x = 0 -> x = 0.
Proof. unfold qabs. destruct (qleb_spec 0 x); intro; [assumption|]. qc_lra. Qed.
Lemma qabs_mul x y : qabs (x * y) = qabs x * qabs y.
Proof.
  unfold qabs. destruct (qleb_spec 0 x) as [hx|hx], (qleb_spec 0 y) as [hy|hy], (qleb_spec 0 (x*y)) as [hz|hz];
    repeat match goal with H : ~ (_ <= _) |- _ => apply Qcnot_le_lt in H end; qc_nra.
Qed.

(** ** Integers as rationals *)
Definition qn (n : nat) : Qc := Q2Qc (inject_Z (Z.of_nat n)).
Lemma this_qn n : (this (qn n) == inject_Z (Z.of_nat n))%Q.
Proof. apply this_Q2Qc. Qed.
Lemma qn_add a b : qn (a + b) = qn a + qn b.
Proof. apply Qc_eq_this. rewrite this_add, !this_qn, Nat2Z.inj_add, inject_Z_plus. reflexivity. Qed.
Lemma qn_mul a b : qn (a * b) = qn a * qn b.
Proof. apply Qc_eq_this. rewrite this_mul, !this_qn, Nat2Z.inj_mul, inject_Z_mult. reflexivity. Qed.
Lemma qn_0 : qn 0 = 0.
Proof. apply Qc_is_canon. reflexivity. Qed.
Lemma qn_1 : qn 1 = 1.
Proof. apply Qc_is_canon. reflexivity. Qed.
Lemma qn_S n : qn (S n) = qn n + 1.
Proof. rewrite <- Nat.add_1_r, qn_add, qn_1. reflexivity. Qed.
Lemma qn_nonneg n : 0 <= qn n.
Proof. unfold Qcle. rewrite this_qn. change (this 0) with (inject_Z 0). rewrite <- Zle_Qle. lia. Qed.
Lemma qn_pos n : (0 < n)%nat -> 0 < qn n.
Proof. intro H. unfold Qclt. rewrite this_qn. change (this 0) with (inject_Z 0). rewrite <- Zlt_Qlt. lia. Qed.
Lemma qn_le a b : (a <= b)%nat -> qn a <= qn b.
Proof. intro H. unfold Qcle. rewrite !this_qn. rewrite <- Zle_Qle. lia. Qed.
Lemma qn_lt a b : (a < b)%nat -> qn a < qn b.
Proof. intro H. unfold Qclt. rewrite !this_qn. rewrite <- Zlt_Qlt. lia. Qed.
Lemma qn_inj a b : qn a = qn b -> a = b.
Proof. intro H. apply Qc_eq_this in H. rewrite !this_qn in H. apply (proj1 (inject_Z_injective _ _)) in H. lia. Qed.
Lemma qn_neq0 n : (0 < n)%nat -> qn n <> 0.
Proof. intros H E. rewrite <- qn_0 in E. apply qn_inj in E. lia. Qed.

(** ** Order facts used everywhere *)
Lemma Qclt_neq0 x : 0 < x -> x <> 0.
Proof. intros H E. rewrite E in H. apply (Qclt_not_eq _ _ H). reflexivity. Qed.
Lemma qc_div_nonneg a b : 0 <= a -> 0 < b -> 0 <= a / b.
Proof.
  intros Ha Hb. unfold Qcle, Qcdiv in *. rewrite this_mul, this_inv.
  apply Qle_shift_div_l; [exact Hb|]. change (this 0) with 0%Q in *. lra.
Qed.
Lemma qc_div_pos a b : 0 < a -> 0 < b -> 0 < a / b.
Proof.
  intros Ha Hb. unfold Qclt, Qcdiv in *. rewrite this_mul, this_inv.
  apply Qlt_shift_div_l; [exact Hb|]. change (this 0) with 0%Q in *. lra.
Qed.
Lemma qc_inv_pos b : 0 < b -> 0 < / b.
Proof. intro H. replace (/ b) with (1 / b) by (unfold Qcdiv; ring). apply qc_div_pos; [reflexivity | exact H]. Qed.
Lemma qc_div_le a b c : 0 < b -> a <= c * b -> a / b <= c.
Proof.
  intros Hb H. unfold Qcle, Qclt, Qcdiv in *. rewrite this_mul, this_inv. rewrite this_mul in H.
  apply Qle_shift_div_r; assumption.
Qed.
Lemma qc_le_div a b c : 0 < b -> c * b <= a -> c <= a / b.
Proof.
  intros Hb H. unfold Qcle, Qclt, Qcdiv in *. rewrite this_mul, this_inv. rewrite this_mul in H.
  apply Qle_shift_div_l; assumption.
Qed.
Lemma qc_div_mul a b : b <> 0 -> a / b * b = a.
Proof. intro H. field. exact H. Qed.
Lemma qc_mul_nonneg a b : 0 <= a -> 0 <= b -> 0 <= a * b.
Proof. intros. qc_nra. Qed.
Lemma qc_mul_pos a b : 0 < a -> 0 < b -> 0 < a * b.
Proof. intros. qc_nra. Qed.
Lemma qc_sq_nonneg a : 0 <= a * a.
Proof. qc_nra. Qed.
Lemma qc_mul_le_l a b c : 0 <= c -> a <= b -> c * a <= c * b.
Proof. intros. qc_nra. Qed.

(** ** Sums *)
Fixpoint qsum (l : list Qc) : Qc :=
  match l with [] => 0 | x :: r => x + qsum r end.

Lemma qsum_app l m : qsum (l ++ m) = qsum l + qsum m.
Proof. induction l as [|x l IH]; simpl; [ring | rewrite IH; ring]. Qed.
Lemma qsum_concat ll : qsum (concat ll) = qsum (map qsum ll).
Proof. induction ll as [|l ll IH]; simpl; [reflexivity | rewrite qsum_app, IH; reflexivity]. Qed.
Lemma qsum_perm l m : Permutation l m -> qsum l = qsum m.
Proof. induction 1; simpl; [reflexivity | congruence | ring | congruence]. Qed.
Lemma qsum_nonneg l : (forall x, In x l -> 0 <= x) -> 0 <= qsum l.
Proof.
  induction l as [|x l IH]; simpl; intro H; [apply Qcle_refl|].
  assert (0 <= x) by (apply H; auto). assert (0 <= qsum l) by (apply IH; auto). qc_lra.
Qed.
Lemma qsum_map_add {A} (f g : A -> Qc) l : qsum (map (fun a => f a + g a) l) = qsum (map f l) + qsum (map g l).
Proof. induction l as [|x l IH]; simpl; [ring | rewrite IH; ring]. Qed.
Lemma qsum_map_sub {A} (f g : A -> Qc) l : qsum (map (fun a => f a - g a) l) = qsum (map f l) - qsum (map g l).
Proof. induction l as [|x l IH]; simpl; [ring | rewrite IH; ring]. Qed.
Lemma qsum_map_mul {A} c (f : A -> Qc) l : qsum (map (fun a => c * f a) l) = c * qsum (map f l).
Proof. induction l as [|x l IH]; simpl; [ring | rewrite IH; ring]. Qed.
Lemma qsum_map_mul_r {A} c (f : A -> Qc) l : qsum (map (fun a => f a * c) l) = qsum (map f l) * c.
Proof. induction l as [|x l IH]; simpl; [ring | rewrite IH; ring]. Qed.
Lemma qsum_map_div {A} c (f : A -> Qc) l : qsum (map (fun a => f a / c) l) = qsum (map f l) / c.
Proof. unfold Qcdiv. apply qsum_map_mul_r. Qed.
Lemma qsum_map_zero {A} (f : A -> Qc) l : (forall a, In a l -> f a = 0) -> qsum (map f l) = 0.
Proof.
  induction l as [|x l IH]; simpl; intro H; [reflexivity|].
  rewrite (H x) by auto. rewrite IH by auto. ring.
Qed.
Lemma qsum_map_const {A} c (l : list A) : qsum (map (fun _ => c) l) = qn (length l) * c.
Proof. induction l as [|x l IH]; cbn [map qsum length]; [rewrite qn_0; ring | rewrite IH, qn_S; ring]. Qed.
Lemma qsum_map_ext {A} (f g : A -> Qc) l : (forall a, In a l -> f a = g a) -> qsum (map f l) = qsum (map g l).
Proof.
  induction l as [|x l IH]; simpl; intro H; [reflexivity|].
  rewrite (H x) by auto. rewrite IH by auto. reflexivity.
Qed.
Lemma qsum_map_le {A} (f g : A -> Qc) l : (forall a, In a l -> f a <= g a) -> qsum (map f l) <= qsum (map g l).
Proof.
  induction l as [|x l IH]; simpl; intro H; [apply Qcle_refl|].
  assert (f x <= g x) by auto. assert (qsum (map f l) <= qsum (map g l)) by auto. qc_lra.
Qed.
Lemma qsum_ge_elem l x : (forall y, In y l -> 0 <= y) -> In x l -> x <= qsum l.
Proof.
  induction l as [|y l IH]; simpl; intros H Hin; [contradiction|].
  assert (0 <= y) by auto. assert (0 <= qsum l) by (apply qsum_nonneg; auto).
  destruct Hin as [->|Hin]; [qc_lra|]. assert (x <= qsum l) by auto. qc_lra.
Qed.
Lemma qsum_swap {A B} (f : A -> B -> Qc) la lb :
  qsum (map (fun a => qsum (map (fun b => f a b) lb)) la) =
  qsum (map (fun b => qsum (map (fun a => f a b) la)) lb).
Proof.
  induction la as [|a la IH]; simpl.
  - symmetry. apply qsum_map_zero. reflexivity.
  - rewrite IH, <- qsum_map_add. reflexivity.
Qed.
Lemma qsum_abs l : qabs (qsum l) <= qsum (map qabs l).
Proof.
  induction l as [|x l IH]; simpl; [apply Qcle_refl|].
  pose proof (qabs_triangle x (qsum l)). qc_lra.
Qed.
Lemma qsum_zero_nonneg l : (forall x, In x l -> 0 <= x) -> qsum l = 0 -> forall x, In x l -> x = 0.
Proof.
  intros H E x Hx. apply Qcle_antisym; [|auto]. rewrite <- E. apply qsum_ge_elem; assumption.
Qed.

(** Sum of [f] over the elements satisfying [p], as an indicator sum. *)
Definition ind (b : bool) (x : Qc) : Qc := if b then x else 0.
Lemma qsum_filter {A} (p : A -> bool) (f : A -> Qc) l :
  qsum (map f (filter p l)) = qsum (map (fun a => ind (p a) (f a)) l).
Proof.
  induction l as [|x l IH]; simpl; [reflexivity|].
  destruct (p x) eqn:E; simpl; rewrite IH; unfold ind; [reflexivity | ring].
Qed.
Lemma ind_le b x : 0 <= x -> ind b x <= x.
Proof. intro H. destruct b; simpl; [apply Qcle_refl | exact H]. Qed.
Lemma ind_nonneg b x : 0 <= x -> 0 <= ind b x.
Proof. intro H. destruct b; simpl; [exact H | apply Qcle_refl]. Qed.

(** Exactly one index of [seq 0 n] equals a given [k < n]. *)
Lemma qsum_ind_seq n k x : (k < n)%nat ->
  qsum (map (fun i => ind (Nat.eqb k i) x) (seq 0 n)) = x.
Proof.
  intro H.
  assert (G : forall a m, (a <= k < a + m)%nat -> qsum (map (fun i => ind (Nat.eqb k i) x) (seq a m)) = x).
  { intros a m; revert a; induction m as [|m IH]; intros a Ha; [lia|].
    cbn [seq map qsum]. destruct (Nat.eqb_spec k a) as [->|Hne].
    - rewrite qsum_map_zero; [simpl; ring|].
      intros i Hi. apply in_seq in Hi. destruct (Nat.eqb_spec a i); [lia | reflexivity].
    - simpl ind. rewrite IH by lia. ring. }
  apply G. lia.
Qed.
Lemma qsum_ind_seq_out n k x : (n <= k)%nat ->
  qsum (map (fun i => ind (Nat.eqb k i) x) (seq 0 n)) = 0.
Proof.
  intro H. apply qsum_map_zero. intros i Hi. apply in_seq in Hi.
  destruct (Nat.eqb_spec k i); [lia | reflexivity].
Qed.

(** Products *)
Fixpoint qprod (l : list Qc) : Qc :=
  match l with [] => 1 | x :: r => x * qprod r end.
Lemma qprod_app l m : qprod (l ++ m) = qprod l * qprod m.
Proof. induction l as [|x l IH]; simpl; [ring | rewrite IH; ring]. Qed.
Lemma qprod_nonneg l : (forall x, In x l -> 0 <= x) -> 0 <= qprod l.
Proof.
  induction l as [|x l IH]; simpl; intro H; [discriminate|].
  apply qc_mul_nonneg; [apply H; auto | apply IH; auto].
Qed.
Lemma qprod_pos l : (forall x, In x l -> 0 < x) -> 0 < qprod l.
Proof.
  induction l as [|x l IH]; simpl; intro H; [reflexivity|].
  apply qc_mul_pos; [apply H; auto | apply IH; auto].
Qed.

(** numpy.argmin: the first index of a smallest entry (0 on the empty list). *)
Fixpoint argmin (l : list Qc) : nat :=
  match l with
  | [] => O
  | x :: r =>
      match r with
      | [] => O
      | _ => let j := argmin r in if qleb x (nth j r 0) then O else S j
      end
  end.

Lemma argmin_spec l : l <> [] -> exists d, nth_error l (argmin l) = Some d /\ forall w, In w l -> d <= w.
Proof.
  induction l as [|x r IH]; intro N; [congruence|]. destruct r as [|y r].
  - exists x. split; [reflexivity|]. intros w [<-|[]]. apply Qcle_refl.
  - destruct IH as (d & Hd & Hm); [discriminate|].
    remember (y :: r) as r' eqn:Er. change (argmin (x :: r')) with
      (match r' with [] => O | _ => let j := argmin r' in if qleb x (nth j r' 0) then O else S j end).
    assert (E : (match r' with [] => O | _ => let j := argmin r' in if qleb x (nth j r' 0) then O else S j end)
              = if qleb x (nth (argmin r') r' 0) then O else S (argmin r')) by (subst; reflexivity).
    rewrite E. rewrite (nth_error_nth _ _ 0 Hd).
    destruct (qleb x d) eqn:L.
    + apply qleb_true in L. exists x. split; [reflexivity|].
      intros w [<-|Hw]; [apply Qcle_refl | eapply Qcle_trans; [exact L | apply Hm, Hw]].
    + apply qleb_false in L. exists d. split; [exact Hd|].
      intros w [<-|Hw]; [apply Qclt_le_weak, L | apply Hm, Hw].
Qed.
