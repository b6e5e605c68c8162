(** Proofs about shared sample sets. *)
From Coq Require Import List Arith Bool Lia QArith Qcanon.
From Verif Require Import Err Num NumPy SampleSet_Model Prob_Model Disc_Model Refs_Model Refs_Spec.
Import ListNotations.
Local Open Scope nat_scope.
Local Open Scope refs_scope.

(** ** Lists *)
Lemma write_length {A} : forall (l : list A) a x, length (write l a x) = length l.
Proof. induction l as [|y r IH]; intros [|a] x; cbn; auto. Qed.
Lemma write_same {A} : forall (l : list A) a x, a < length l -> nth_error (write l a x) a = Some x.
Proof. induction l as [|y r IH]; intros [|a] x H; cbn in *; try lia; auto. apply IH; lia. Qed.
Lemma write_other {A} : forall (l : list A) a b x, a <> b -> nth_error (write l a x) b = nth_error l b.
Proof. induction l as [|y r IH]; intros [|a] [|b] x H; cbn; auto; try congruence. Qed.
Lemma write_out {A} : forall (l : list A) a x, length l <= a -> write l a x = l.
Proof. induction l as [|y r IH]; intros [|a] x H; cbn in *; auto; try lia. now rewrite IH by lia. Qed.
Lemma write_app {A} : forall (l m : list A) a x, a < length l -> write (l ++ m) a x = write l a x ++ m.
Proof. induction l as [|y r IH]; intros m [|a] x H; cbn in *; try lia; auto. rewrite IH by lia. reflexivity. Qed.

(** ** Locality *)
Section Local.
Context {R : Type} (A : nat -> Prop).
Definition agree_on (h k : list (sset R)) : Prop := forall a, A a -> nth_error h a = nth_error k a.
Definition within (d : rdisc) : Prop := forall a, In a (refs d) -> A a.
Definition local {X} (Q : X -> Prop) (m : M R X) : Prop := forall h k d, within d -> agree_on h k ->
  let '(h1, d1, r1) := m h d in let '(k1, e1, r2) := m k d in
  d1 = e1 /\ r1 = r2 /\ agree_on h1 k1 /\ within d1 /\ (forall a, ~ A a -> nth_error h1 a = nth_error h a) /\
  length h1 = length h /\ (forall x, r1 = Ok x -> Q x).

Lemma local_ret {X} (Q : X -> Prop) x : Q x -> local Q (ret x).
Proof. intros q h k d W G. cbn. repeat (split; [auto; fail | ]). intros y [= <-]. exact q. Qed.
Lemma local_bind {X Y} (Q : X -> Prop) (Q' : Y -> Prop) m f :
  local Q m -> (forall x, Q x -> local Q' (f x)) -> local Q' (mbind m f).
Proof.
  intros L F h k d W G. unfold mbind. specialize (L h k d W G).
  destruct (m h d) as [[h1 d1] r1]. destruct (m k d) as [[k1 e1] r2].
  destruct L as (E1 & E2 & G1 & W1 & U & N & q). subst e1 r2.
  destruct r1 as [x|e].
  - specialize (F x (q x eq_refl) h1 k1 d1 W1 G1).
    destruct (f x h1 d1) as [[h2 d2] r3]. destruct (f x k1 d1) as [[k2 e2] r4].
    destruct F as (E3 & E4 & G2 & W2 & U2 & N2 & q2). repeat (split; [congruence || assumption | ]). split; [| split; auto; lia].
    intros a n. rewrite U2 by auto. auto.
  - repeat (split; [congruence || assumption | ]). discriminate.
Qed.
Lemma local_lift {X} (r : result X) : local (fun _ => True) (lift r).
Proof. intros h k d W G. cbn. repeat (split; [auto; fail | ]); auto. Qed.
Lemma local_self : local within self.
Proof. intros h k d W G. cbn. repeat (split; [auto; fail | ]). intros x [= <-]. exact W. Qed.
Lemma local_assign f : (forall d, within d -> within (f d)) -> local (fun _ => True) (assign f).
Proof. intros H h k d W G. cbn. repeat (split; [auto; fail | ]); auto. Qed.
Lemma local_get a : A a -> local (fun _ => True) (get a).
Proof. intros H h k d W G. cbn. rewrite (G a H). repeat (split; [auto; fail | ]); auto. Qed.
Lemma agree_write h k a s : A a -> agree_on h k -> agree_on (write h a s) (write k a s).
Proof.
  intros H G b Hb. destruct (Nat.eq_dec a b) as [<- | n].
  - pose proof (G a H) as E. destruct (le_lt_dec (length h) a) as [l | l].
    + rewrite (write_out h) by auto. rewrite write_out; auto.
      apply nth_error_None. rewrite <- E. now apply nth_error_None.
    + rewrite !write_same; auto. apply nth_error_Some. rewrite <- E. now apply nth_error_Some.
  - rewrite !write_other by auto. auto.
Qed.
Lemma local_put a s : A a -> local (fun _ => True) (put a s).
Proof.
  intros H h k d W G. cbn. repeat (split; [auto using agree_write; fail | ]). split; [| split; [apply write_length | auto]].
  intros b n. apply write_other. intros ->. auto.
Qed.
Lemma local_need (Q : nat -> Prop) o : (forall a, o = Some a -> Q a) -> local Q (lift (need o)).
Proof.
  intros H h k d W G. cbn. repeat (split; [auto; fail | ]).
  intros x. destruct o; cbn; [intros [= <-]; auto | discriminate].
Qed.
Definition is_place (f : rdisc -> option nat) : Prop := forall d a, f d = Some a -> In a (refs d).
Lemma local_place f : is_place f -> local A (place f).
Proof.
  intros H. unfold place. eapply local_bind; [apply local_self |]. intros d W.
  apply local_need. intros a E. apply W. now apply (H d).
Qed.
Lemma local_weaken {X} (Q Q' : X -> Prop) m : (forall x, Q x -> Q' x) -> local Q m -> local Q' m.
Proof.
  intros I L h k d W G. specialize (L h k d W G). destruct (m h d) as [[h1 d1] r1]. destruct (m k d) as [[k1 e1] r2].
  destruct L as (E1 & E2 & G1 & W1 & U & N & q). repeat (split; [assumption | ]). auto.
Qed.
Lemma local_call a f : A a -> local (fun _ => True) (call a f).
Proof.
  intros H. unfold call. eapply local_bind; [now apply local_get |]. intros s _.
  eapply local_bind; [apply local_lift |]. intros s1 _. now apply local_put.
Qed.
End Local.

Ltac in_refs := unfold is_place, refs, ref_list; intros d a E; rewrite E; cbn; rewrite ?in_app_iff; cbn; tauto.
Lemma place_in : is_place r_in. Proof. in_refs. Qed.
Lemma place_out : is_place r_out. Proof. in_refs. Qed.
Lemma place_prob : is_place r_prob. Proof. in_refs. Qed.
Lemma place_ein : is_place r_ein. Proof. in_refs. Qed.
Lemma place_eout : is_place r_eout. Proof. in_refs. Qed.
Lemma place_obs : is_place r_obs. Proof. in_refs. Qed.
#[local] Hint Resolve place_in place_out place_prob place_ein place_eout place_obs : refs.

(** The references after an assignment. *)
Ltac in_within := intros H d W b; specialize (W b); revert W; unfold refs; cbn -[ref_list app]; rewrite !in_app_iff; cbn [ref_list In]; intuition (subst; auto).
Lemma within_in (A : nat -> Prop) a : A a -> forall d, within A d -> within A (rwith_in (Some a) d). Proof. in_within. Qed.
Lemma within_out (A : nat -> Prop) a : A a -> forall d, within A d -> within A (rwith_out (Some a) d). Proof. in_within. Qed.
Lemma within_prob (A : nat -> Prop) a : A a -> forall d, within A d -> within A (rwith_prob (Some a) d). Proof. in_within. Qed.
Lemma within_ein (A : nat -> Prop) a : A a -> forall d, within A d -> within A (rwith_ein (Some a) d). Proof. in_within. Qed.
Lemma within_eout (A : nat -> Prop) a : A a -> forall d, within A d -> within A (rwith_eout (Some a) d). Proof. in_within. Qed.
Lemma within_obs (A : nat -> Prop) a : A a -> forall d, within A d -> within A (rwith_obs (Some a) d). Proof. in_within. Qed.

Ltac loc1 :=
  match goal with
  | |- local _ _ (mbind _ _) => eapply local_bind; [loc1 | intros ? ?]
  | |- local _ _ (lift _) => apply local_lift
  | |- local _ _ self => apply local_self
  | |- local _ _ (place _) => apply local_place; auto with refs
  | |- local _ _ (get _) => apply local_get; auto
  | |- local _ _ (put _ _) => apply local_put; auto
  | |- local _ _ (call _ _) => apply local_call; auto
  | |- local _ _ (ret _) => apply (local_ret _ (fun _ => True)); auto
  | _ => idtac
  end.
Ltac loc := repeat (loc1; try match goal with |- local _ _ (match ?x with _ => _ end) => destruct x end).

Section LocalOps.
Context {R : Type} (A : nat -> Prop).
Lemma local_check P : local A (fun _ => True) (r_check_nums (R := R) P).
Proof. unfold r_check_nums. loc. Qed.
Lemma local_query nn P b a : A b -> A a -> local A (fun _ => True) (r_query (R := R) nn P b a).
Proof. intros. unfold r_query. loc. Qed.
Lemma local_set_io nn P g : local A (fun _ => True) (r_set_io (R := R) nn P g).
Proof.
  unfold r_set_io. loc; try (apply local_query; auto). apply local_assign. intros d W. exact W.
Qed.
Lemma local_set_ii nn P g : local A (fun _ => True) (r_set_ii (R := R) nn P g).
Proof. unfold r_set_ii. loc; try (apply local_query; auto). apply local_assign. intros d W. exact W. Qed.
Lemma local_set_oo nn P g : local A (fun _ => True) (r_set_oo (R := R) nn P g).
Proof. unfold r_set_oo. loc; try (apply local_query; auto). apply local_assign. intros d W. exact W. Qed.
Lemma local_same_dim s f : is_place f -> local A (fun _ => True) (same_dim_as (R := R) s f).
Proof.
  intros H. unfold same_dim_as. eapply local_bind; [apply local_self |]. intros d W. destruct (f d) as [b|] eqn:E; loc.
  all: apply W; now apply (H d).
Qed.
Lemma local_each_place f p : is_place p -> local A (fun _ => True) (each_place (R := R) f p).
Proof.
  intros H. unfold each_place. eapply local_bind; [apply local_self |]. intros d W. destruct (p d) as [b|] eqn:E; loc.
  all: apply W; now apply (H d).
Qed.
End LocalOps.

Lemma local_step nn P (A : nat -> Prop) o : (forall a, In a (names o) -> A a) -> local A (fun _ => True) (rstep nn P o).
Proof.
  intros N.
  assert (N1 : forall a, names o = [a] -> A a) by (intros a E; apply N; rewrite E; cbn; auto).
  destruct o; cbn [rstep names] in *; clear N.
  - apply local_assign, within_in; auto.
  - apply local_assign, within_out; auto.
  - unfold r_set_probability. specialize (N1 _ eq_refl). eapply local_bind; [apply local_get; auto |]. intros s _.
    eapply local_bind; [apply local_same_dim; auto with refs |]. intros ok1 _.
    eapply local_bind; [apply local_same_dim; auto with refs |]. intros ok2 _.
    destruct (ok1 && ok2); [| apply local_lift].
    eapply local_bind; [apply local_assign, within_prob; auto |]. intros _ _. loc; apply local_set_io.
  - unfold r_set_emulated_input. specialize (N1 _ eq_refl). eapply local_bind; [apply local_get; auto |]. intros s _.
    eapply local_bind; [apply local_same_dim; auto with refs |]. intros [] _; [apply local_assign, within_ein; auto | apply local_lift].
  - unfold r_set_emulated_output. specialize (N1 _ eq_refl). eapply local_bind; [apply local_get; auto |]. intros s _.
    eapply local_bind; [apply local_same_dim; auto with refs |]. intros ok1 _.
    eapply local_bind; [apply local_same_dim; auto with refs |]. intros ok2 _.
    destruct (ok1 && ok2); [apply local_assign, within_eout; auto | apply local_lift].
  - apply local_assign, within_obs; auto.
  - unfold r_store_output_probability. eapply local_bind; [apply local_assign, within_prob; auto |]. intros _ _. apply local_set_io.
  - apply local_set_io.
  - apply local_set_ii.
  - apply local_set_oo.
  - apply local_assign. intros d W. exact W.
  - unfold r_local_to_global. repeat (eapply local_bind; [apply local_each_place; auto with refs |]; intros _ _). apply local_each_place; auto with refs.
  - unfold r_global_to_local. repeat (eapply local_bind; [apply local_each_place; auto with refs |]; intros _ _). apply local_each_place; auto with refs.
  - unfold r_prob_disc. eapply local_bind; [apply local_check |]. intros _ _. loc; try apply local_set_io.
  - unfold r_emulated_disc. eapply local_bind; [apply local_check |]. intros _ _.
    loc; try apply local_set_io; try apply local_set_ii.
  - apply local_call; auto.
Qed.

(** ** Independence *)
Definition alike (own : nat -> nat) (i : nat) (w z : world) : Prop :=
  nth_error (snd w) i = nth_error (snd z) i /\ agree_on (fun a => own a = i) (fst w) (fst z).
Definition well_owned (own : nat -> nat) (w : world) : Prop :=
  forall i d a, nth_error (snd w) i = Some d -> In a (refs d) -> own a = i.
Lemma owned_step nn P own w i o : well_owned own w -> (forall a, In a (names o) -> own a = i) ->
  well_owned own (fst (wstep nn P (i, o) w)).
Proof.
  intros W N. unfold wstep. cbn [fst snd]. destruct (nth_error (snd w) i) as [d|] eqn:E; cbn; auto.
  pose proof (local_step nn P (fun a => own a = i) o N (fst w) (fst w) d (fun a => W i d a E) (fun _ _ => eq_refl)) as L.
  destruct (rstep nn P o (fst w) d) as [[h1 d1] r1]. destruct L as (_ & _ & _ & W1 & _). cbn.
  intros j e a Hj. cbn in Hj. destruct (Nat.eq_dec i j) as [<- | n].
  - rewrite write_same in Hj by (apply nth_error_Some; congruence). injection Hj as <-. apply W1.
  - rewrite write_other in Hj by auto. apply W. exact Hj.
Qed.
Lemma other_step nn P own w i j o : well_owned own w -> (forall a, In a (names o) -> own a = j) -> i <> j ->
  alike own i w (fst (wstep nn P (j, o) w)).
Proof.
  intros W N n. unfold wstep. cbn [fst snd]. destruct (nth_error (snd w) j) as [d|] eqn:E; cbn; [| split; [auto | intros a _; auto]].
  pose proof (local_step nn P (fun a => own a = j) o N (fst w) (fst w) d (fun a => W j d a E) (fun _ _ => eq_refl)) as L.
  destruct (rstep nn P o (fst w) d) as [[h1 d1] r1]. destruct L as (_ & _ & _ & _ & U & _). cbn. split; cbn.
  - rewrite write_other; auto.
  - intros a Ha. symmetry. apply U. congruence.
Qed.
Lemma own_step nn P own w z i o : well_owned own w -> (forall a, In a (names o) -> own a = i) -> alike own i w z ->
  alike own i (fst (wstep nn P (i, o) w)) (fst (wstep nn P (i, o) z)) /\ snd (wstep nn P (i, o) w) = snd (wstep nn P (i, o) z).
Proof.
  intros W N [E G]. unfold wstep. cbn [fst snd]. rewrite <- E. destruct (nth_error (snd w) i) as [d|] eqn:F; cbn; [| repeat split; auto; congruence].
  pose proof (local_step nn P (fun a => own a = i) o N (fst w) (fst z) d (fun a => W i d a F) G) as L.
  destruct (rstep nn P o (fst w) d) as [[h1 d1] r1]. destruct (rstep nn P o (fst z) d) as [[k1 e1] r2].
  destruct L as (E1 & E2 & G1 & _). subst. cbn. split; [split |]; auto. cbn.
  rewrite !write_same; auto; apply nth_error_Some; congruence.
Qed.
Lemma alike_trans own i w z y : alike own i w z -> alike own i z y -> alike own i w y.
Proof. intros [A B] [C D]. split; [congruence |]. intros a Ha. rewrite B, D; auto. Qed.
Lemma alike_sym own i w z : alike own i w z -> alike own i z w.
Proof. intros [A B]. split; [congruence |]. intros a Ha. symmetry. auto. Qed.
Lemma independent_gen nn P own i : forall ops w z, well_owned own w -> well_owned own z ->
  (forall j o a, In (j, o) ops -> In a (names o) -> own a = j) -> alike own i w z ->
  alike own i (fst (wrun nn P ops w)) (fst (wrun nn P (on i ops) z)) /\
  on i (snd (wrun nn P ops w)) = snd (wrun nn P (on i ops) z).
Proof.
  induction ops as [|[j o] ops IH]; intros w z W Z N Al; [split; auto |].
  assert (Nj : forall a, In a (names o) -> own a = j) by (intros a Ha; apply (N j o); cbn; auto).
  assert (Nr : forall j o a, In (j, o) ops -> In a (names o) -> own a = j) by (intros j' o' a Hi; apply N; cbn; auto).
  cbn [wrun on filter fst]. destruct (j =? i) eqn:E.
  - apply Nat.eqb_eq in E. subst j. cbn [wrun]. destruct (own_step nn P own w z i o W Nj Al) as [Al' Er].
    pose proof (owned_step nn P own w i o W Nj) as W'. pose proof (owned_step nn P own z i o Z Nj) as Z'.
    destruct (wstep nn P (i, o) w) as [w1 r1]. destruct (wstep nn P (i, o) z) as [z1 r2]. cbn in *. subst r2.
    specialize (IH w1 z1 W' Z' Nr Al'). unfold on in IH.
    destruct (wrun nn P ops w1) as [w2 rs]. destruct (wrun nn P (filter (fun e => fst e =? i) ops) z1) as [z2 rs'].
    cbn in *. rewrite Nat.eqb_refl. destruct IH as [A1 A2]. split; [exact A1 | f_equal; exact A2].
  - pose proof (other_step nn P own w i j o W Nj) as Al'.
    pose proof (owned_step nn P own w j o W Nj) as W'.
    assert (n : i <> j) by (intros ->; rewrite Nat.eqb_refl in E; discriminate). specialize (Al' n).
    destruct (wstep nn P (j, o) w) as [w1 r1]. cbn in *.
    specialize (IH w1 z W' Z Nr (alike_trans _ _ _ _ _ (alike_sym _ _ _ _ Al') Al)). unfold on in IH.
    destruct (wrun nn P ops w1) as [w2 rs]. cbn in *. rewrite E. exact IH.
Qed.
Lemma independent_lemma : forall nn P own ops w i, each_its_own own w ops ->
  let '(w1, rs) := wrun nn P ops w in let '(w2, rs2) := wrun nn P (on i ops) w in
  nth_error (snd w1) i = nth_error (snd w2) i /\
  (forall a, own a = i -> nth_error (fst w1) a = nth_error (fst w2) a) /\ on i rs = rs2.
Proof.
  intros nn P own ops w i [W N]. pose proof (independent_gen nn P own i ops w w W W N (conj eq_refl (fun _ _ => eq_refl))) as H.
  destruct (wrun nn P ops w) as [w1 rs]. destruct (wrun nn P (on i ops) w) as [w2 rs2]. cbn in H.
  destruct H as [[A B] C]. repeat split; auto.
Qed.
