From Coq Require Import List Arith Bool Lia QArith Qcanon.
From Verif Require Import Err Num Util_Model Reference_Model Reference_Spec.
Import ListNotations.
Local Open Scope nat_scope.

Lemma shape_is_iff s t : shape_is s t = true <-> s = t.
Proof. unfold shape_is. destruct (list_eq_dec Nat.eq_dec s t); split; intro H; congruence. Qed.
Lemma set_reference_ok dim r v : set_reference dim r = Ok v <-> r = Array (mk_nd [dim] v).
Proof.
  destruct r as [(s, d)| |e]; cbn; try (split; discriminate). destruct (shape_is s [dim]) eqn:E.
  - apply shape_is_iff in E. subst. split; intro H; injection H as <-; reflexivity.
  - split; [discriminate|]. intro H. injection H as -> ->. rewrite (proj2 (shape_is_iff _ _) eq_refl) in E. discriminate E.
Qed.
Lemma set_reference_value_error dim r : set_reference dim r = Raise PyValueError <-> r = Throws PyValueError.
Proof.
  destruct r as [(s, d)| |e]; cbn; try (split; discriminate).
  - destruct (shape_is s [dim]); split; discriminate.
  - split; intro H; injection H as ->; reflexivity.
Qed.
Lemma mapped_iff : forall out model lam v, map_reference out model (Some lam) = Ok (Some v) <->
  model (mk_nd [length lam] lam) = Array (mk_nd [out] v) \/
  (model (mk_nd [length lam] lam) = Throws PyValueError /\ model (mk_nd [1; length lam] lam) = Array (mk_nd [out] v)).
Proof.
  intros out model lam v. unfold map_reference. rewrite <- !set_reference_ok, <- (set_reference_value_error out).
  destruct (set_reference out (model (mk_nd [length lam] lam))) as [w|e].
  - split; [intros [= <-]; left; reflexivity | intros [[= <-]|([=] & _)]; reflexivity].
  - destruct e; try (split; [discriminate | intros [[=]|([=] & _)]]).
    destruct (set_reference out (model (mk_nd [1; length lam] lam))) as [w|e].
    + split; [intros [= <-]; right; split; reflexivity | intros [[=]|(_ & [= <-])]; reflexivity].
    + split; [destruct e; discriminate | intros [[=]|(_ & [=])]].
Qed.
Lemma point_lemma : forall dim out f model lam, point_model dim out f model -> length lam = dim -> map_reference out model (Some lam) = Ok (Some (f lam)).
Proof. intros dim out f model lam H L. apply mapped_iff. left. rewrite L. apply H, L. Qed.
Lemma scalar_lemma : forall dim f model lam, scalar_model dim f model -> length lam = dim -> map_reference 1 model (Some lam) = Ok (Some [f lam]).
Proof.
  intros dim f model lam (H1 & H2) L. apply mapped_iff. right. rewrite L. split; [apply H2, L|]. specialize (H1 [lam]). cbn in H1. rewrite app_nil_r in H1. apply H1. intros x [<-|[]]. exact L.
Qed.
Lemma row_reply dim out f model lam : row_model dim out f model -> length lam = dim -> model (mk_nd [1; length lam] lam) = Array (mk_nd [1; out] (f lam)).
Proof.
  intros (_ & H) L. rewrite L. specialize (H [lam]). cbn in H. rewrite !app_nil_r in H. apply H. intros x [<-|[]]. exact L.
Qed.
Lemma shape_1 out d : set_reference out (Array (mk_nd [1; out] d)) = Raise DimNotMatching.
Proof. cbn. destruct (shape_is [1; out] [out]) eqn:E; [apply shape_is_iff in E; discriminate E | reflexivity]. Qed.
(** A model that gives rows also for a single point, or rejects it *)
Lemma row_model_lemma : forall dim out f model lam, row_model dim out f model -> length lam = dim ->
  (model (mk_nd [dim] lam) = Array (mk_nd [1; out] (f lam)) \/ model (mk_nd [dim] lam) = Throws PyValueError -> map_reference out model (Some lam) = Raise DimNotMatching) /\
  (forall e, model (mk_nd [dim] lam) = Throws e -> e <> PyValueError -> map_reference out model (Some lam) = Raise e).
Proof.
  intros dim out f model lam R L. pose proof (row_reply _ _ _ _ _ R L) as H1. unfold map_reference. rewrite H1, L, shape_1. split.
  - intros [-> | ->]; [rewrite shape_1; reflexivity | reflexivity].
  - intros e -> N. cbn. destruct e; congruence.
Qed.
Lemma row_model_never : forall dim out f model lam v, row_model dim out f model -> length lam = dim ->
  map_reference out model (Some lam) = Ok (Some v) -> model (mk_nd [dim] lam) = Array (mk_nd [out] v).
Proof.
  intros dim out f model lam v R L H. apply mapped_iff in H. rewrite L in H. destruct H as [H|(_ & H)]; [exact H|]. rewrite <- L in H. rewrite (row_reply _ _ _ _ _ R L) in H. discriminate H.
Qed.
Lemma tuple_lemma : forall out model lam, model (mk_nd [length lam] lam) = Tuple -> map_reference out model (Some lam) = Raise PyAttributeError.
Proof. intros out model lam H. unfold map_reference. rewrite H. reflexivity. Qed.
Lemma none_lemma : forall out model lam, map_reference out model lam = Ok None <-> lam = None \/
  exists l, lam = Some l /\ model (mk_nd [length l] l) = Throws PyValueError /\ model (mk_nd [1; length l] l) = Throws PyValueError.
Proof.
  intros out model [l|]; cbn [map_reference]; [|split; [left; reflexivity | reflexivity]]. split.
  - intro H. right. exists l. split; [reflexivity|]. destruct (set_reference out (model (mk_nd [length l] l))) as [w|e] eqn:E; [discriminate H|]. destruct e; try discriminate H. apply set_reference_value_error in E. split; [exact E|].
    destruct (set_reference out (model (mk_nd [1; length l] l))) as [w|e] eqn:E'; [discriminate H|]. destruct e; try discriminate H. apply set_reference_value_error in E'. exact E'.
  - intros [[=]|(k & [= <-] & H1 & H2)]. rewrite H1, H2. reflexivity.
Qed.
