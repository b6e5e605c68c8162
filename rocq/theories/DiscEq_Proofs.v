From Coq Require Import List Arith Bool QArith Qcanon Lia.
From Verif Require Import Err Num Ext Equality_Model Equality_Spec Equality_Proofs DiscEq_Model DiscEq_Spec.
Import ListNotations.
Local Open Scope nat_scope.

Lemma all_eq_true {A} (f : A -> A -> result bool) l m : length l = length m -> (all_eq f l m = Ok true <-> Forall2 (fun x y => f x y = Ok true) l m).
Proof.
  revert m. induction l as [|x l IH]; intros [|y m] L; try discriminate L.
  - cbn. split; [constructor | reflexivity].
  - injection L as L. cbn [all_eq]. split.
    + intro H. destruct (f x y) as [[|]|] eqn:E; cbn in H; try discriminate H. constructor; [exact E | apply IH; assumption].
    + intro H. inversion H as [|? ? ? ? E F]. subst. rewrite E. cbn. apply IH; assumption.
Qed.
Lemma all_eq_first {A} (f : A -> A -> result bool) l m i x y r : nth_error l i = Some x -> nth_error m i = Some y -> f x y = r -> r <> Ok true ->
  (forall j a b, j < i -> nth_error l j = Some a -> nth_error m j = Some b -> f a b = Ok true) -> all_eq f l m = match r with Ok _ => Ok false | Raise e => Raise e end.
Proof.
  revert m i. induction l as [|a l IH]; intros [|b m] [|i] Hx Hy Hr Nr H; try discriminate.
  - cbn in Hx, Hy. injection Hx as ->. injection Hy as ->. cbn. rewrite Hr. destruct r as [[|]|e]; [contradiction | reflexivity | reflexivity].
  - cbn [all_eq]. rewrite (H 0 a b); [|lia | reflexivity | reflexivity]. cbn. apply (IH m i); try assumption. intros j u v Hj. apply (H (S j)). lia.
Qed.
Lemma copy_equal_lemma : forall fresh d, plain_disc d -> disc_eq d (copy_disc fresh d) = Ok true.
Proof.
  intros fresh d (H1 & H2). unfold disc_eq, copy_disc. cbn [sets ptrs]. assert (all_eq eset_eq (sets d) (map (option_map (fun s => mk_eset (cls s) (copy_set fresh (flds s)))) (sets d)) = Ok true) as E1.
  2:{ rewrite E1. cbn. apply all_eq_true; [reflexivity|]. clear H1. induction (ptrs d) as [|p l IH]; constructor.
    + specialize (H2 p (or_introl eq_refl)). destruct p as [|a|l']; cbn; [reflexivity | rewrite any_ne_refl by exact H2; reflexivity | contradiction].
    + apply IH. intros q I. apply H2. right. exact I. }
  apply all_eq_true.
  - rewrite map_length. reflexivity.
  - clear H2. induction (sets d) as [|x l IH]; cbn; constructor.
    + destruct x as [s|]; cbn; [|reflexivity]. rewrite Nat.eqb_refl. apply copy_equal, H1. left. reflexivity.
    + apply IH. intros s I. apply H1. right. exact I.
Qed.
Lemma detects_lemma : forall d e, same_layout d e -> disc_eq d e = Ok true -> same_disc d e.
Proof.
  intros d e (L1 & L2) H. unfold disc_eq in H. destruct (all_eq eset_eq (sets d) (sets e)) as [[|]|] eqn:E; cbn in H; try discriminate H.
  apply all_eq_true in E; [|clear - L1; induction L1; cbn; congruence]. apply all_eq_true in H; [|clear - L2; induction L2; cbn; congruence]. split.
  - clear - L1 E. induction L1 as [|x y l m K _ IH]; inversion E as [|? ? ? ? E1 E2]; subst; constructor; [|apply IH; assumption]. destruct x as [s|], y as [t|]; try contradiction; [|exact I].
    destruct K as (C & L & F). split; [exact C|]. cbn in E1. rewrite C, Nat.eqb_refl in E1. apply set_eq_detects; assumption.
  - clear - L2 H. induction L2 as [|x y l m K _ IH]; inversion H as [|? ? ? ? E1 E2]; subst; constructor; [|apply IH; assumption]. destruct x as [|a|], y as [|b|]; try contradiction; try reflexivity.
    + exfalso. exact (truth_not_true _ (size_entries _ K) E1).
    + cbn in E1. discriminate E1.
    + exfalso. cbn in E1. injection E1 as E1. apply Nat.eqb_eq in E1. exact (size_entries _ K E1).
    + destruct K as (Ra & Rb & S_). cbn in E1. injection E1 as E1. apply negb_true_iff in E1. apply any_ne_detects; assumption.
Qed.
Lemma decides_lemma : forall d e, same_layout d e -> plain_disc d -> (disc_eq d e = Ok true <-> same_disc d e).
Proof.
  intros d e L (P1 & P2). split; [apply detects_lemma, L|]. destruct L as (L1 & L2). intros (H1 & H2). unfold disc_eq.
  assert (all_eq eset_eq (sets d) (sets e) = Ok true) as E.
  { apply all_eq_true; [clear - L1; induction L1; cbn; congruence|]. clear - L1 P1 H1. induction L1 as [|x y l m K _ IH]; inversion H1 as [|? ? ? ? E1 E2]; subst; constructor; [|apply IH; [intros s Hs; apply P1; right; exact Hs | exact E2]].
    destruct x as [s|], y as [t|]; try contradiction; [|reflexivity]. destruct K as (C & L & F). destruct E1 as (_ & E1). cbn. rewrite C, Nat.eqb_refl. apply set_eq_decides; [exact L | exact F | apply P1; left; reflexivity | exact E1]. }
  rewrite E. cbn. apply all_eq_true; [clear - L2; induction L2; cbn; congruence|]. clear - L2 P2 H2. induction L2 as [|x y l m K _ IH]; inversion H2 as [|? ? ? ? E1 E2]; subst; constructor; [|apply IH; [intros s Hs; apply P2; right; exact Hs | exact E2]].
  pose proof (P2 x (or_introl eq_refl)) as N. destruct x as [|a|], y as [|b|]; try contradiction; try discriminate E1; [reflexivity|]. destruct K as (_ & _ & _ & W). cbn. rewrite any_ne_same by assumption. rewrite any_ne_refl by exact N. reflexivity.
Qed.
Lemma missing_lemma : forall d e i, sets_differ_in_kind d e i ->
  disc_eq d e <> Ok true /\
  ((forall j x y, j < i -> nth_error (sets d) j = Some x -> nth_error (sets e) j = Some y -> eset_eq x y = Ok true) -> disc_eq d e = Raise PyTypeError).
Proof.
  intros d e i K. unfold sets_differ_in_kind in K. destruct (nth_error (sets d) i) as [x|] eqn:Ex; [|contradiction]. destruct (nth_error (sets e) i) as [y|] eqn:Ey; [|destruct x; contradiction].
  assert (eset_eq x y = Raise PyTypeError) as R.
  { destruct x as [s|], y as [t|]; try contradiction; cbn; try reflexivity. destruct (Nat.eqb_spec (cls s) (cls t)); [contradiction | reflexivity]. }
  split.
  - intro H. unfold disc_eq in H. destruct (all_eq eset_eq (sets d) (sets e)) as [[|]|] eqn:E; cbn in H; try discriminate H. clear H K.
    revert E Ex Ey. generalize (sets d) (sets e) i. clear - R. induction l as [|a l IH]; intros [|b m] [|j] E Ex Ey; try discriminate.
    + cbn in Ex, Ey, E. injection Ex as ->. injection Ey as ->. rewrite R in E. discriminate E.
    + cbn in E. destruct (eset_eq a b) as [[|]|]; try discriminate E. exact (IH _ _ E Ex Ey).
  - intro H. unfold disc_eq. rewrite (all_eq_first _ _ _ i x y _ Ex Ey R); [reflexivity | discriminate | exact H].
Qed.
(** list pointers *)
Lemma list_array_lemma : forall a b, length (mrows a) = length (mrows b) -> ptr_eq (PtrList a) (PtrArr b) = Ok true.
Proof. intros a b L. cbn. rewrite broadcast_same by exact L. reflexivity. Qed.
Lemma list_lemma : forall d i l, all_eq eset_eq (sets d) (sets d) = Ok true -> nth_error (ptrs d) i = Some (PtrList l) ->
  (forall j p, j < i -> nth_error (ptrs d) j = Some p -> ptr_eq p p = Ok true) -> disc_eq d d = Raise PyAttributeError.
Proof.
  intros d i l H1 H2 H3. unfold disc_eq. rewrite H1. cbn. rewrite (all_eq_first _ _ _ i _ _ (Raise PyAttributeError) H2 H2); [reflexivity | reflexivity | discriminate|]. intros j a b Hj Ha Hb. rewrite Ha in Hb. injection Hb as <-. exact (H3 j a Hj Ha).
Qed.
