From Coq Require Import List Arith Lia.
From Verif Require Import Err Fields_Model Fields_Spec.
Import ListNotations.

Lemma write_read p q : p <> error_id_local -> read_field q = write_field p <-> q = p.
Proof. destruct p; intro H; try congruence; destruct q; simpl; split; congruence. Qed.

Lemma write_error q : read_field q <> write_field error_id_local.
Proof. destruct q; discriminate. Qed.

Section P.
Context {V : Type} (shape : V -> list nat) (fixed : V -> V) (dim : nat).

Lemma store_get p q v (o : obj (V := V)) : p <> error_id_local -> get_prop p (store q v o) = if prop_eq_dec q p then Some v else get_prop (V := V) p o.
Proof.
  intros Hp. unfold get_prop, store. destruct (field_eq_dec (read_field p) (write_field q)) as [Ef|Ef].
  - destruct (prop_eq_dec q error_id_local) as [->|Hq]; [exfalso; apply (write_error p), Ef|].
    apply write_read in Ef; [|exact Hq]. destruct (prop_eq_dec q p); [reflexivity | congruence].
  - destruct (prop_eq_dec q p) as [->|]; [|reflexivity]. exfalso. apply Ef. apply write_read; auto.
Qed.
Lemma set_prop_ok q v (o o1 : obj) : fixes shape fixed dim -> shape_fits dim q (shape v) -> set_prop shape fixed dim q v o = (o1, None) -> o1 = store q v o.
Proof.
  intros (Hf & _) Hs H. unfold set_prop in H. destruct q; cbn in Hs;
    try (match type of H with (if ?b then _ else _) = _ => destruct b end; [injection H as <-; reflexivity | discriminate]);
    destruct Hs as (n & Hs); rewrite (Hf v n Hs) in H; injection H as <- _; reflexivity.
Qed.

Lemma set_all_get p ops o o' : fixes shape fixed dim -> p <> error_id_local -> Forall (fun pv => shape_fits dim (fst pv) (shape (snd pv))) ops ->
  set_all shape fixed dim ops o = (o', None) -> get_prop p o' = last_set p ops (get_prop (V := V) p o).
Proof.
  intros Hf Hp. revert o. induction ops as [|[q v] ops IH]; intros o Hs H; simpl in *.
  - injection H as <-. reflexivity.
  - inversion Hs; subst. destruct (set_prop shape fixed dim q v o) as [o1 [e|]] eqn:E; [discriminate|].
    rewrite (IH o1) by assumption. f_equal. rewrite (set_prop_ok q v o o1 Hf) by assumption. now apply store_get.
Qed.

Lemma set_accepts p v (o : obj) : p <> reference_value -> p <> domain -> p <> values -> p <> values_local ->
  exists o', set_prop shape fixed dim p v o = (o', None).
Proof. intros. unfold set_prop, accepts. destruct p; try congruence; destruct (shape v); eauto. Qed.

Lemma error_id_local_lost v (o : obj) : exists o', set_prop shape fixed dim error_id_local v o = (o', None) /\
  get_prop error_id_local o' = get_prop error_id_local o.
Proof. unfold set_prop, accepts. destruct (shape v); eexists; split; reflexivity. Qed.

Lemma fits_ok p v (o : obj) : fixes shape fixed dim -> shape_fits dim p (shape v) -> set_prop shape fixed dim p v o = (store p v o, None).
Proof.
  intros (Hf & _) Hs. unfold set_prop. destruct p; cbn in Hs; unfold accepts;
    try (rewrite Hs, Nat.eqb_refl; reflexivity); try (destruct Hs as (r & Hs); rewrite Hs, Nat.eqb_refl; reflexivity);
    try (destruct (shape v); reflexivity);
    destruct Hs as (n & Hs); rewrite (Hf v n Hs), Hs; cbn [second_axis]; rewrite Nat.eqb_refl; reflexivity.
Qed.
Lemma rejects p v (o : obj) : p = reference_value \/ p = domain -> ~ shape_fits dim p (shape v) -> set_prop shape fixed dim p v o = (o, Some DimNotMatching).
Proof.
  intros [-> | ->] Hs; unfold set_prop, accepts; cbn in Hs; destruct (shape v) as [|a r]; try reflexivity.
  - destruct r; [|reflexivity]. destruct (Nat.eqb_spec a dim); [subst; now contradict Hs|reflexivity].
  - destruct (Nat.eqb_spec a dim) as [->|]; [|reflexivity]. exfalso. apply Hs. now exists r.
Qed.
Lemma turned p v (o : obj) n m : fixes shape fixed dim -> p = values \/ p = values_local -> shape v = [n; m] -> m <> dim ->
  set_prop shape fixed dim p v o = (store p (fixed v) o, if n =? dim then None else Some DimNotMatching) /\ shape (fixed v) = [m; n].
Proof.
  intros (_ & H2 & _) Hp Hs Hm. pose proof (H2 v n m Hs Hm) as H. destruct Hp as [-> | ->]; unfold set_prop; rewrite H; split; reflexivity.
Qed.
Lemma lost p v (o : obj) n m : fixes shape fixed dim -> p = values \/ p = values_local -> shape v = [n; m] -> m <> dim -> n <> dim ->
  exists o' w, set_prop shape fixed dim p v o = (o', Some DimNotMatching) /\ get_prop p o' = Some w /\ shape w = [m; n].
Proof.
  intros Hf Hp Hs Hm Hn. destruct (turned p v o n m Hf Hp Hs Hm) as [E H]. apply Nat.eqb_neq in Hn. rewrite Hn in E.
  exists (store p (fixed v) o), (fixed v). split; [exact E|]. split; [|exact H].
  rewrite store_get by (destruct Hp as [-> | ->]; discriminate). now destruct (prop_eq_dec p p).
Qed.
End P.
