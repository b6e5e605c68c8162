(** Proofs about samplers: what calls leave alone. *)
From Coq Require Import List Arith Bool Lia QArith Qcanon.
From Verif Require Import Err Num NumPy SampleSet_Model Prob_Model Disc_Model Workflow_Model Refs_Model Refs_Spec Refs_Proofs RefsView_Proofs RefsNew_Proofs Sampler_Model Sampler_Spec.
Import ListNotations.
Local Open Scope nat_scope.
Local Open Scope sampler_scope.

Section Frame.
Variables A J : nat -> Prop.
Definition inv (w : swork) : Prop :=
  (forall a, A a -> a < length (w_sets w)) /\ (forall j, J j -> j < length (w_discs w)) /\
  (forall j d a, nth_error (w_discs w) j = Some d -> ~ J j -> In a (refs d) -> ~ A a) /\
  (forall a, s_in w = Some a -> ~ A a) /\ (forall j, s_disc w = Some j -> ~ J j).
Definition keeps {X} (Q : X -> Prop) (m : SM X) : Prop := forall w, inv w ->
  let '(w1, r) := m w in
  inv w1 /\ (forall a, A a -> nth_error (w_sets w1) a = nth_error (w_sets w) a) /\
  (forall j, J j -> nth_error (w_discs w1) j = nth_error (w_discs w) j) /\ (forall x, r = Ok x -> Q x).
Lemma keeps_ret {X} (Q : X -> Prop) x : Q x -> keeps Q (sret x).
Proof. intros q w I. cbn. split; auto. split; auto. split; auto. intros y [= <-]. exact q. Qed.
Lemma keeps_raise {X} (Q : X -> Prop) e : keeps Q (sraise e).
Proof. intros w I. cbn. split; auto. split; auto. split; auto. discriminate. Qed.
Lemma keeps_lift {X} (r : result X) : keeps (fun _ => True) (slift r).
Proof. intros w I. cbn. auto. Qed.
Lemma keeps_bind {X Y} (Q : X -> Prop) (Q' : Y -> Prop) m k : keeps Q m -> (forall x, Q x -> keeps Q' (k x)) -> keeps Q' (sbind m k).
Proof.
  intros Km Kk w I. unfold sbind. specialize (Km w I). destruct (m w) as [w1 [x|e]].
  - destruct Km as (I1 & S1 & D1 & q). specialize (Kk x (q x eq_refl) w1 I1). destruct (k x w1) as [w2 r].
    destruct Kk as (I2 & S2 & D2 & q2). split; auto. split; [intros a Ha; rewrite S2, S1; auto |]. split; auto.
    intros j Hj. rewrite D2, D1; auto.
  - destruct Km as (I1 & S1 & D1 & _). split; auto. split; auto. split; auto. discriminate.
Qed.
Lemma keeps_weaken {X} (Q Q' : X -> Prop) m : (forall x, Q x -> Q' x) -> keeps Q m -> keeps Q' m.
Proof.
  intros W K w I. specialize (K w I). destruct (m w) as [w1 r]. destruct K as (I1 & S1 & D1 & q). auto 6.
Qed.
Lemma inv_sets w h : inv w -> length (w_sets w) <= length h -> inv (with_sets h w).
Proof. intros (I1 & I2 & I3 & I4 & I5) L. split; [intros a Ha; specialize (I1 a Ha); cbn; lia |]. auto. Qed.
Lemma keeps_on_set a f : ~ A a -> keeps (fun _ => True) (on_set a f).
Proof.
  intros n w I. unfold on_set. destruct (nth_error (w_sets w) a) as [s|]; [| auto 6].
  destruct (f s) as [s1 r]. split; [apply inv_sets; auto; now rewrite write_length |]. split; [| auto].
  intros b Hb. cbn. apply write_other. intros ->. auto.
Qed.
Lemma keeps_on_set_ok a f : ~ A a -> keeps (fun _ => True) (on_set_ok a f).
Proof. intros n. now apply keeps_on_set. Qed.
Lemma keeps_sget a : keeps (fun _ => True) (sget a).
Proof. intros w I. cbn. auto. Qed.
Lemma keeps_new_set s : keeps (fun a => ~ A a) (new_set s).
Proof.
  intros w I. cbn. split; [apply inv_sets; auto; rewrite app_length; lia |].
  destruct I as (I1 & _). split; [intros a Ha; apply nth_error_app1; now apply I1 |]. split; auto.
  intros x [= <-] Ha. apply I1 in Ha. lia.
Qed.
Lemma keeps_new_disc d : (forall a, In a (refs d) -> ~ A a) -> keeps (fun j => ~ J j) (new_disc_object d).
Proof.
  intros Hd w (I1 & I2 & I3 & I4 & I5). cbn. split; [split; [| split; [| split; [| split]]] |]; auto.
  - intros j Hj. cbn. rewrite app_length. specialize (I2 j Hj). lia.
  - intros j e a. cbn. intros E nJ. destruct (lt_dec j (length (w_discs w))) as [l | l].
    + rewrite nth_error_app1 in E by auto. eapply I3; eauto.
    + rewrite nth_error_app2 in E by lia. destruct (j - length (w_discs w)) as [|k]; cbn in E; [injection E as <-; auto | destruct k; discriminate].
  - split; auto. split; [intros j Hj; apply nth_error_app1; now apply I2 |]. intros x [= <-] Hj. apply I2 in Hj. lia.
Qed.
Lemma keeps_s_in a : ~ A a -> keeps (fun _ => True) (modify (with_s_in (Some a))).
Proof.
  intros n w (I1 & I2 & I3 & I4 & I5). cbn. split; [split; [| split; [| split; [| split]]] |]; auto. intros b [= <-]. exact n.
Qed.
Lemma keeps_s_disc j : ~ J j -> keeps (fun _ => True) (modify (with_s_disc (Some j))).
Proof.
  intros n w (I1 & I2 & I3 & I4 & I5). cbn. split; [split; [| split; [| split; [| split]]] |]; auto. intros b [= <-]. exact n.
Qed.
Lemma keeps_the : keeps (fun a => ~ A a) (the s_in).
Proof.
  intros w I. cbn. split; auto. split; auto. split; auto. intros x. destruct (s_in w) as [a|] eqn:E; cbn; [| discriminate].
  intros [= <-]. destruct I as (_ & _ & _ & I4 & _). now apply I4.
Qed.
Lemma keeps_on_disc j m : ~ J j -> local (fun a => ~ A a) (fun _ => True) m -> keeps (fun _ => True) (on_disc j m).
Proof.
  intros n L w I. unfold on_disc. destruct (nth_error (w_discs w) j) as [d|] eqn:E; [| auto 6].
  assert (W : within (fun a => ~ A a) d) by (intros a Ha; destruct I as (_ & _ & I3 & _); eapply I3; eauto).
  specialize (L (w_sets w) (w_sets w) d W (fun _ _ => eq_refl)).
  destruct (m (w_sets w) d) as [[h d1] r]. destruct L as (_ & _ & _ & W1 & U & Le & _).
  destruct I as (I1 & I2 & I3 & I4 & I5). split; [split; [| split; [| split; [| split]]] |]; cbn; auto.
  - intros a Ha. rewrite Le. auto.
  - intros k Hk. rewrite write_length. auto.
  - intros k e a Ek nk Ia. destruct (Nat.eq_dec j k) as [<- | ne].
    + rewrite write_same in Ek by (apply nth_error_Some; congruence). injection Ek as <-. now apply W1.
    + rewrite write_other in Ek by auto. eapply I3; eauto.
  - split; [intros a Ha; apply U; auto |]. split; auto. intros k Hk. apply write_other. intros ->. auto.
Qed.
Lemma keeps_as_set o : (forall a, In a (obj_names o) -> ~ A a) -> keeps (fun a => ~ A a) (as_set o).
Proof. intros H. destruct o; cbn; [apply keeps_ret, H; now left | apply keeps_new_set | apply keeps_new_set]. Qed.
Lemma keeps_as_copy o : keeps (fun _ => True) (as_copy o).
Proof. destruct o; cbn; [apply keeps_sget | now apply keeps_ret | now apply keeps_ret]. Qed.
Lemma keeps_random P n g draw interval o : (forall a, In a (obj_names o) -> ~ A a) -> keeps (fun a => ~ A a) (s_random P n g draw interval o).
Proof.
  intros H. unfold s_random. eapply keeps_bind; [now apply keeps_as_set |]. intros a Ha.
  eapply keeps_bind; [now apply keeps_on_set |]. intros _ _. eapply keeps_bind; [now apply keeps_s_in |]. intros _ _. now apply keeps_ret.
Qed.
Lemma keeps_lhs P n g H o : (forall a, In a (obj_names o) -> ~ A a) -> keeps (fun a => ~ A a) (s_lhs P n g H o).
Proof.
  intros Ho. unfold s_lhs. eapply keeps_bind; [now apply keeps_as_set |]. intros a Ha.
  eapply keeps_bind; [now apply keeps_on_set |]. intros _ _. eapply keeps_bind; [now apply keeps_s_in |]. intros _ _. now apply keeps_ret.
Qed.
Lemma keeps_regular P ns o : keeps (fun a => ~ A a) (s_regular P ns o).
Proof.
  unfold s_regular. eapply keeps_bind; [apply keeps_as_copy |]. intros s _. eapply keeps_bind; [apply keeps_lift |]. intros s1 _.
  eapply keeps_bind; [apply keeps_new_set |]. intros a Ha. eapply keeps_bind; [now apply keeps_s_in |]. intros _ _. now apply keeps_ret.
Qed.
Lemma r_new_heap P (h : list (sset cell)) a o : exists r, r_new P h (Some a) (Some o) None None None None = (h, r) /\
  (forall d, r = Ok d -> refs d = [a; o]).
Proof.
  unfold r_new. set (d := mk_rdisc _ _ _ _ _ _ _ _ _ _ _ _).
  assert (C : exists r, r_check_nums P h d = (h, d, r)).
  { unfold r_check_nums, mbind, place, get, lift, self. cbn.
    destruct (nth_error h o) as [so|]; cbn; [| eauto]. destruct (check_num P so); cbn; [| eauto].
    destruct (nth_error h a) as [si|]; cbn; [| eauto]. destruct (check_num P si); cbn; eauto. }
  destruct C as [[k|e] ->]; eexists; (split; [reflexivity |]); [intros d' [= <-]; reflexivity | discriminate].
Qed.
Lemma keeps_compute model P inp g : (forall a, inp = Some a -> ~ A a) -> keeps (fun _ => True) (s_compute model P inp g).
Proof.
  intros H. unfold s_compute. eapply keeps_bind.
  { destruct inp as [a|]; [apply keeps_s_in; auto | apply (keeps_ret (fun _ => True)); auto]. }
  intros _ _. eapply keeps_bind; [apply keeps_the |]. intros a Ha.
  eapply keeps_bind; [now apply keeps_on_set_ok |]. intros _ _. eapply keeps_bind; [apply keeps_sget |]. intros s _.
  eapply keeps_bind; [apply keeps_lift |]. intros bs _. eapply keeps_bind; [apply keeps_lift |]. intros out _.
  eapply keeps_bind; [now apply keeps_on_set |]. intros _ _. eapply keeps_bind; [apply keeps_lift |]. intros out1 _.
  eapply keeps_bind; [apply keeps_new_set |]. intros o Ho.
  eapply (keeps_bind (fun d => forall b, In b (refs d) -> ~ A b)).
  { intros w I. destruct (r_new_heap P (w_sets w) a o) as (r & -> & Hr). destruct w. cbn. split; [exact I |]. split; auto. split; auto.
    intros d E b. rewrite (Hr d E). intros [<- | [<- | []]]; auto. }
  intros d Hd. eapply keeps_bind; [now apply keeps_new_disc |]. intros j Hj. eapply keeps_bind; [now apply keeps_s_disc |]. intros _ _.
  now apply keeps_ret.
Qed.
Lemma keeps_step nn model P c : (forall a, In a (given c) -> ~ A a) -> (forall j, works_on c = Some j -> ~ J j) ->
  keeps (fun _ => True) (scall_step nn model P c).
Proof.
  intros Hg Hw. destruct c as [n g draw interval o | n g H o | ns o | inp g | n g draw interval o | | j o]; cbn [scall_step given works_on] in *.
  - eapply keeps_bind; [now apply keeps_random |]. intros _ _. now apply keeps_ret.
  - eapply keeps_bind; [now apply keeps_lhs |]. intros _ _. now apply keeps_ret.
  - eapply keeps_bind; [now apply keeps_regular |]. intros _ _. now apply keeps_ret.
  - eapply keeps_bind; [apply keeps_compute; intros a ->; apply Hg; now left |]. intros _ _. now apply keeps_ret.
  - eapply keeps_bind; [| intros _ _; now apply (keeps_ret (fun _ => True))]. unfold s_create_random.
    eapply (keeps_bind (fun _ => True)); [destruct n; [now apply keeps_ret | apply keeps_raise] |]. intros k _.
    eapply keeps_bind; [now apply keeps_random |]. intros a Ha. apply keeps_compute. intros b [= <-]. exact Ha.
  - unfold s_local_to_global. eapply (keeps_bind (fun _ => True)).
    + intros w I. destruct (s_in w) as [a|] eqn:E; [| auto 6]. apply (keeps_on_set_ok a local_to_global); auto. destruct I as (_ & _ & _ & I4 & _). now apply I4.
    + intros _ _ w I. destruct (s_disc w) as [j|] eqn:E; [| auto 6]. apply (keeps_on_disc j r_local_to_global); auto; [destruct I as (_ & _ & _ & _ & I5); now apply I5 |].
      apply (local_step nn P (fun a => ~ A a) RToGlobal). cbn. tauto.
  - apply keeps_on_disc; auto. apply local_step. exact Hg.
Qed.
End Frame.

Lemma frame_lemma : forall nn model P A J cs w, out_of_reach A J w cs ->
  let '(w1, _) := scall_run nn model P cs w in
  (forall a, A a -> nth_error (w_sets w1) a = nth_error (w_sets w) a) /\ (forall j, J j -> nth_error (w_discs w1) j = nth_error (w_discs w) j).
Proof.
  intros nn model P A J cs. induction cs as [|c cs IH]; intros w (I1 & I2 & I3 & I4 & I5 & G & W); cbn; auto.
  assert (I : inv A J w) by (split; auto).
  pose proof (keeps_step A J nn model P c (fun a => G c a (or_introl eq_refl)) (fun j => W c j (or_introl eq_refl)) w I) as K.
  destruct (scall_step nn model P c w) as [w1 r]. destruct K as ((K1 & K2 & K3 & K4 & K5) & S1 & D1 & _).
  specialize (IH w1). destruct (scall_run nn model P cs w1) as [w2 rs]. destruct IH as [S2 D2].
  - split; auto. split; auto. split; auto. split; auto. split; auto. split; intros c' x Hc; [apply G | apply W]; now right.
  - split; [intros a Ha; rewrite S2, S1; auto | intros j Hj; rewrite D2, D1; auto].
Qed.
