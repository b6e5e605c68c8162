From Coq Require Import List Arith Bool QArith Qcanon Lia.
From Verif Require Import Err Num Ext Equality_Model Equality_Spec.
Import ListNotations.
Local Open Scope nat_scope.

Lemma broadcast_same {A} (l m : list A) : length l = length m -> broadcast l m = Some (combine l m).
Proof. intro E. unfold broadcast. rewrite E, Nat.eqb_refl. reflexivity. Qed.

Lemma is_nan_false x : x <> NaN -> is_nan x = false.
Proof. destruct x; simpl; congruence. Qed.

Lemma combine_self {A} (l : list A) p : In p (combine l l) -> fst p = snd p /\ In (fst p) l.
Proof.
  induction l as [|a l IH]; simpl; [contradiction|]. intros [<-|H]; [auto|].
  destruct (IH H). auto.
Qed.

Lemma any_ne_refl a : no_nan a -> any_ne a a = false.
Proof.
  intro N. unfold any_ne, compatible_width. rewrite Nat.eqb_refl. simpl.
  rewrite broadcast_same by reflexivity.
  apply not_true_is_false. intro H. apply existsb_exists in H. destruct H as ([r r'] & Hin & Hne).
  apply combine_self in Hin. destruct Hin as [E Hin]. simpl in E, Hin. subst r'.
  unfold row_any_ne in Hne. simpl in Hne. rewrite broadcast_same in Hne by reflexivity.
  apply existsb_exists in Hne. destruct Hne as ([x y] & Hx & Hxy).
  apply combine_self in Hx. destruct Hx as [E Hx]. simpl in E, Hx, Hxy. subst y.
  unfold xneb in Hxy. rewrite xeqb_refl in Hxy; [discriminate|]. apply is_nan_false. eapply N; eauto.
Qed.

Lemma array_equal_refl a : no_nan a -> array_equal a a = true.
Proof.
  intro N. unfold array_equal. rewrite !Nat.eqb_refl. simpl.
  apply forallb_forall. intros [r r'] Hin. apply combine_self in Hin. destruct Hin as [E Hin]. simpl in E, Hin. subst r'.
  simpl. rewrite Nat.eqb_refl. simpl. apply forallb_forall. intros [x y] Hx.
  apply combine_self in Hx. destruct Hx as [E Hx]. simpl in E, Hx. subst y. simpl.
  apply xeqb_refl, is_nan_false. eapply N; eauto.
Qed.

Lemma maps_equal_refl l : (forall a, In a l -> no_nan a) -> maps_equal l l = Ok true.
Proof.
  induction l as [|a l IH]; intro H; simpl; [reflexivity|].
  rewrite array_equal_refl by (apply H; left; reflexivity). apply IH. intros b Hb. apply H. right. exact Hb.
Qed.

Lemma copy_equal fresh s : Forall plain_field s -> set_eq s (copy_set fresh s) = Ok true.
Proof.
  induction 1 as [|x s Hx Hs IH]; simpl; [reflexivity|].
  assert (E : field_eq x (copy_field fresh x) = Ok true).
  { destruct x as [|a|n|l|i]; simpl in *.
    - reflexivity.
    - rewrite any_ne_refl by exact Hx. reflexivity.
    - rewrite Nat.eqb_refl. reflexivity.
    - apply maps_equal_refl, Hx.
    - contradiction. }
  rewrite E. simpl. exact IH.
Qed.

Lemma copy_nan_differs : exists s fresh, (forall x, In x s -> forall i, x <> PObject i) /\
  set_eq s (copy_set fresh s) = Ok false.
Proof.
  exists [PNone; PArr (mk_marr [[Fin 1%Qc]; [NaN]] 1)], (fun i => i). split.
  - intros x [<-|[<-|[]]] i; discriminate.
  - reflexivity.
Qed.

Lemma copy_object_differs s fresh i : In (PObject i) s -> (forall j, fresh j <> j) ->
  set_eq s (copy_set fresh s) <> Ok true.
Proof.
  intros Hin Hf. induction s as [|x s IH]; simpl; [contradiction|]. destruct Hin as [->|Hin].
  - simpl. destruct (Nat.eqb_spec i (fresh i)) as [E|_]; [exfalso; apply (Hf i); congruence | simpl; discriminate].
  - destruct (field_eq x (copy_field fresh x)) as [[]|]; simpl; [apply IH, Hin | discriminate | discriminate].
Qed.

Lemma existsb_combine_ext (l m : list xnum) : length l = length m ->
  existsb (fun xy => xneb (fst xy) (snd xy)) (combine l m) = false -> l = m.
Proof.
  revert m; induction l as [|a l IH]; intros [|b m] L H; simpl in *; try discriminate; [reflexivity|].
  apply orb_false_iff in H. destruct H as [H1 H2]. unfold xneb in H1. apply negb_false_iff in H1.
  apply xeqb_true in H1. f_equal; [exact H1 | apply IH; [lia | exact H2]].
Qed.

Lemma any_ne_detects a b : rectangular a -> rectangular b -> same_shape a b -> any_ne a b = false -> mrows a = mrows b.
Proof.
  intros Ra Rb [L W]. unfold any_ne, compatible_width. rewrite W, Nat.eqb_refl. simpl.
  rewrite broadcast_same by exact L. unfold rectangular in *. rewrite <- W in Rb. clear W.
  revert Ra Rb L. generalize (width a) as w. generalize (mrows b) as m. generalize (mrows a) as l.
  induction l as [|r l IH]; intros [|q m] w Ra Rb L H; simpl in *; try discriminate; [reflexivity|].
  apply orb_false_iff in H. destruct H as [H1 H2]. f_equal.
  - unfold row_any_ne in H1. simpl in H1.
    assert (E : length r = length q) by (rewrite (Ra r), (Rb q); auto).
    rewrite broadcast_same in H1 by exact E. apply existsb_combine_ext; assumption.
  - apply (IH m w); auto.
Qed.

Lemma existsb_combine_xeq (l m : list xnum) : length l = length m -> forallb (fun xy => xeqb (fst xy) (snd xy)) (combine l m) = true -> l = m.
Proof.
  revert m; induction l as [|a l IH]; intros [|b m] L H; simpl in *; try discriminate; [reflexivity|].
  apply andb_true_iff in H. destruct H as [H1 H2]. apply xeqb_true in H1. f_equal; [exact H1 | apply IH; [lia | exact H2]].
Qed.
Lemma array_equal_true a b : array_equal a b = true -> a = b.
Proof.
  unfold array_equal. intro H. apply andb_true_iff in H. destruct H as [H H3]. apply andb_true_iff in H. destruct H as [H1 H2]. apply Nat.eqb_eq in H1, H2.
  destruct a as [ra wa], b as [rb wb]. simpl in *. subst wb. f_equal. revert rb H2 H3. induction ra as [|r ra IH]; intros [|q rb] L H; simpl in *; try discriminate; [reflexivity|].
  apply andb_true_iff in H. destruct H as [H1 H2]. apply andb_true_iff in H1. destruct H1 as [H0 H1]. apply Nat.eqb_eq in H0. f_equal; [apply existsb_combine_xeq; assumption | apply IH; [lia | exact H2]].
Qed.
Lemma maps_equal_true l m : length l = length m -> maps_equal l m = Ok true -> l = m.
Proof.
  revert m; induction l as [|a l IH]; intros [|b m] L H; simpl in *; try discriminate; [reflexivity|].
  destruct (array_equal a b) eqn:E; [|discriminate]. apply array_equal_true in E. subst b. f_equal. apply IH; [lia | exact H].
Qed.
Lemma size_entries a : has_entries a -> size a <> 0.
Proof. intros [H1 H2]. unfold size. destruct (mrows a) as [|r l]; [contradiction|]. simpl. destruct (width a); [contradiction|]. simpl. discriminate. Qed.
Lemma truth_not_true n : n <> 0 -> truth_of_all_true n <> Ok true.
Proof. destruct n as [|[|n]]; simpl; [congruence | discriminate | discriminate]. Qed.

(** Equal fields have equal entries. *)
Lemma field_eq_detects x y : comparable x y -> field_eq x y = Ok true -> same_field x y.
Proof.
  destruct x as [|a|n|l|i], y as [|b|m|k|j]; simpl; intros C E; try reflexivity; try discriminate;
    try (exfalso; exact (truth_not_true _ (size_entries _ C) E));
    try (injection E as E; apply Nat.eqb_eq in E; first [congruence | exfalso; exact (size_entries _ C E)]).
  - destruct C as (Ra & Rb & S). injection E as E. apply negb_true_iff in E. apply any_ne_detects; assumption.
  - f_equal. apply maps_equal_true; assumption.
Qed.
Lemma any_ne_same a b : mrows a = mrows b -> width a = width b -> any_ne a b = any_ne a a.
Proof. destruct a, b; simpl. intros -> ->. reflexivity. Qed.
Lemma field_eq_complete x y : comparable x y -> plain_field x -> same_field x y -> field_eq x y = Ok true.
Proof.
  destruct x as [|a|n|l|i]; simpl; intros C Pl S; try contradiction.
  - subst y. reflexivity.
  - destruct y as [|b|m|k|j]; try discriminate. destruct C as (_ & _ & _ & W). rewrite any_ne_same by assumption. rewrite any_ne_refl by exact Pl. reflexivity.
  - subst y. rewrite Nat.eqb_refl. reflexivity.
  - subst y. apply maps_equal_refl. exact Pl.
Qed.
Lemma set_eq_detects s t : length s = length t -> Forall2 comparable s t -> set_eq s t = Ok true -> Forall2 same_field s t.
Proof.
  intros _ F. induction F as [|x y s t Hxy F IH]; intro H; [constructor|]. simpl in H.
  destruct (field_eq x y) as [[]|] eqn:E; simpl in H; try discriminate. constructor; [|apply IH, H]. apply field_eq_detects; assumption.
Qed.
Lemma set_eq_decides s t : length s = length t -> Forall2 comparable s t -> Forall plain_field s -> (set_eq s t = Ok true <-> Forall2 same_field s t).
Proof.
  intros L F Pl. split; [apply set_eq_detects; assumption|]. clear L. induction F as [|x y s t Hxy F IH]; intro H; [reflexivity|].
  inversion Pl as [|? ? P1 P2]; subst. inversion H as [|? ? ? ? S1 S2]; subst. simpl. rewrite field_eq_complete by assumption. simpl. apply IH; assumption.
Qed.

(** Fields that only one of the sets has *)
Lemma set_eq_prefix pre pre' s t : length pre = length pre' -> set_eq pre pre' = Ok true -> set_eq (pre ++ s) (pre' ++ t) = set_eq s t.
Proof.
  revert pre'. induction pre as [|x pre IH]; intros [|y pre'] L H; try discriminate; [reflexivity|]. simpl in *. destruct (field_eq x y) as [[]|]; simpl in *; try discriminate. apply IH; [lia | exact H].
Qed.
Lemma missing_array_lemma pre pre' x b s t : length pre = length pre' -> set_eq pre pre' = Ok true -> set_eq pre' pre = Ok true -> no_array x ->
  let n := length (mrows b) * width b in
  set_eq (pre ++ x :: s) (pre' ++ PArr b :: t) = (if n =? 0 then set_eq s t else if n =? 1 then Ok false else Raise PyValueError) /\
  set_eq (pre' ++ PArr b :: t) (pre ++ x :: s) = (if n =? 0 then set_eq t s else Ok false).
Proof.
  intros L E E' N. cbv zeta. rewrite !set_eq_prefix by (assumption || symmetry; assumption). destruct x; try contradiction; simpl; unfold size; destruct (length (mrows b) * width b) as [|[|k]]; split; reflexivity.
Qed.
Lemma clusters_lemma l r : (forall a, In a l -> no_nan a) -> set_eq [PMaps l] [PMaps (l ++ r)] = Ok true /\ (r <> [] -> set_eq [PMaps (l ++ r)] [PMaps l] = Raise PyIndexError).
Proof.
  intros N. simpl. split.
  - assert (E : maps_equal l (l ++ r) = Ok true) by (induction l as [|a l IH]; [reflexivity|]; simpl; rewrite array_equal_refl by (apply N; left; reflexivity); apply IH; intros b Hb; apply N; right; exact Hb).
    rewrite E. reflexivity.
  - intros H. assert (E : maps_equal (l ++ r) l = Raise PyIndexError) by (induction l as [|a l IH]; [destruct r; [contradiction|reflexivity]|]; simpl; rewrite array_equal_refl by (apply N; left; reflexivity); apply IH; intros b Hb; apply N; right; exact Hb).
    rewrite E. reflexivity.
Qed.

Definition one_row := PArr (mk_marr [[Fin 0%Qc]] 1).
Definition two_rows := PArr (mk_marr [[Fin 0%Qc]; [Fin 0%Qc]] 1).
Lemma broadcast_witness : exists s t, length s = length t /\ set_eq s t = Ok true /\
  set_eq t s = Ok true /\ ~ Forall2 same_field s t.
Proof.
  exists [one_row], [two_rows]. repeat split.
  intro F. inversion F as [|? ? ? ? H _]; subst. simpl in H. discriminate.
Qed.
Lemma asymmetry_witness : exists s t, set_eq s t = Ok false /\ set_eq t s = Raise PyValueError.
Proof. exists [two_rows], [PNone]. split; reflexivity. Qed.

Lemma any_ne_sym a b : any_ne a b = any_ne b a.
Proof.
  assert (Bsym : forall A (f : A * A -> bool), (forall x y, f (x, y) = f (y, x)) ->
     forall l m, match broadcast l m with Some ps => existsb f ps | None => true end =
                 match broadcast m l with Some ps => existsb f ps | None => true end).
  { intros A f Hf l m. unfold broadcast. rewrite (Nat.eqb_sym (length m) (length l)).
    destruct (Nat.eqb_spec (length l) (length m)) as [E|E].
    - revert m E. induction l as [|x l IH]; intros [|y m] E; simpl in *; try discriminate; [reflexivity|].
      rewrite Hf, IH by lia. reflexivity.
    - assert (M : forall x (k : list A), existsb f (map (fun y => (x, y)) k) = existsb f (map (fun y => (y, x)) k)).
      { intros x k. induction k as [|z k IH]; simpl; [reflexivity|]. rewrite Hf, IH. reflexivity. }
      destruct l as [|x [|x' l]], m as [|y [|y' m]]; simpl in E; try lia; try reflexivity;
        try (apply M); try (symmetry; apply M). }
  unfold any_ne.
  assert (C : compatible_width a b = compatible_width b a).
  { unfold compatible_width. rewrite (Nat.eqb_sym (width b) (width a)).
    destruct (width a =? width b), (width a =? 1), (width b =? 1); reflexivity. }
  rewrite C. destruct (compatible_width b a); [|reflexivity].
  apply Bsym. intros r q. unfold row_any_ne. simpl. apply (Bsym _ (fun xy => xneb (fst xy) (snd xy))).
  intros x y. unfold xneb. simpl. rewrite xeqb_sym. reflexivity.
Qed.
