(** Proofs about samplers: the discretizations they make. *)
From Coq Require Import List Arith Bool Lia QArith Qcanon.
From Verif Require Import Err Num NumPy Lists SampleSet_Model SampleSet_Spec SampleSet_Proofs Prob_Model Disc_Model Sampling_Model Workflow_Model Workflow_Spec Workflow_Proofs Refs_Model Refs_Spec Refs_Proofs RefsView_Proofs RefsNew_Proofs Sampler_Model Sampler_Spec Sampler_Proofs SamplerFill_Proofs SamplerRun_Proofs.
Import ListNotations.
Local Open Scope nat_scope.
Local Open Scope sampler_scope.

Lemma outputs_shape o f bs b : In b (outputs o f bs) -> tail_shape b = [o].
Proof. unfold outputs. rewrite in_map_iff. intros (c & <- & _). reflexivity. Qed.
Lemma outputs_length o f bs : length (outputs o f bs) = length bs.
Proof. apply map_length. Qed.
Lemma compute_samples model P d o f bs g g' w a s : 0 < P -> row_model d o f model -> length bs = P -> (forall b, In b bs -> tail_shape b = [d]) ->
  nth_error (w_sets w) a = Some s -> only_samples d bs g nothing s ->
  exists s2 out1, s_compute model P (Some a) g' w =
    (mk_swork (write (w_sets w) a s2 ++ [out1]) (w_discs w ++ [pair_disc a (length (w_sets w))]) (Some a) (Some (length (w_discs w))), Ok (length (w_discs w))) /\
    only_samples d bs g' nothing s2 /\ only_samples o (outputs o f bs) g' nothing out1 /\ domain s2 = domain s.
Proof.
  intros HP M Lb Sh En O. assert (N : bs <> []) by (intros ->; cbn in Lb; lia).
  assert (No : outputs o f bs <> []) by (intros E; apply (f_equal (@length _)) in E; rewrite outputs_length in E; cbn in E; lia).
  destruct (samples_globalized d bs g g' nothing s N Sh O) as (s2 & E2 & O2 & D2).
  pose proof (out_set_samples o (outputs o f bs)) as Oo.
  assert (Eo : exists out1, (if g' then local_to_global (set_loc Values (Some (outputs o f bs)) (new_sset o)) else Ok (set_loc Values (Some (outputs o f bs)) (new_sset o))) = Ok out1 /\
    only_samples o (outputs o f bs) g' nothing out1).
  { destruct g'; [| eauto]. destruct (samples_l2g o (outputs o f bs) false nothing _ No (outputs_shape o f bs) Oo) as (out1 & E & Oo1 & _). eauto. }
  destruct Eo as (out1 & Eo & Oo1). exists s2, out1. split; [| auto].
  assert (Lv : loc s Values = Some bs) by (destruct O as (_ & L & _); rewrite L; reflexivity).
  erewrite s_compute_eq; [| reflexivity | exact En | unfold localized; rewrite Lv; reflexivity | unfold loc_values; rewrite Lv; reflexivity
    | apply (out_set_rows d o f); auto | exact E2 | exact Eo].
  assert (C : exists k, nums_check P out1 s2 = Ok k).
  { unfold nums_check. rewrite (samples_count P o (outputs o f bs) g' out1 HP (eq_trans (outputs_length o f bs) Lb) Oo1).
    rewrite (samples_count P d _ g' s2 HP Lb O2). cbn [bind]. rewrite outputs_rows, map_length, Nat.eqb_refl. destruct (glob out1 Values), (glob s2 Values); eauto. }
  destruct C as [k ->]. reflexivity.
Qed.
Lemma fresh_dim o d : new_dim o = Some d -> exists s, fresh o = Some s /\ dim s = d.
Proof. destruct o; cbn; intros E; [discriminate | |]; injection E as <-; eexists; split; reflexivity. Qed.
Lemma random_blocks_length P n draw d : length (random_blocks P n draw d) = P.
Proof. unfold random_blocks. now rewrite map_length, seq_length. Qed.
Lemma create_lemma : forall model P n g draw interval ob d o f w, 0 < P -> new_dim ob = Some d -> row_model d o f model ->
  exists s t, s_create_random model P (Some n) g draw interval ob w =
    (mk_swork (w_sets w ++ [s; t]) (w_discs w ++ [pair_disc (length (w_sets w)) (S (length (w_sets w)))]) (Some (length (w_sets w))) (Some (length (w_discs w))), Ok (length (w_discs w))) /\
    only_samples d (drawn P n draw d) g nothing s /\ only_samples o (outputs o f (drawn P n draw d)) g nothing t /\ domain s = Some (map interval (seq 0 d)).
Proof.
  intros model P n g draw interval ob d o f w HP Nd M. destruct (fresh_dim ob d Nd) as (s0 & F & D0).
  destruct (random_fresh_lemma P n g draw interval ob s0 w HP F) as (s1 & E & O & Dm). rewrite D0, (drawn_eq P n draw d HP) in O. rewrite D0 in Dm.
  unfold s_create_random. rewrite (sbind_ok _ _ w w n eq_refl). rewrite (sbind_ok _ _ _ _ _ E).
  match goal with |- context [s_compute _ _ _ _ ?w'] => destruct (compute_samples model P d o f (drawn P n draw d) g g w' (length (w_sets w)) s1) as (s2 & t & E2 & O2 & Ot & D2) end; auto.
  - rewrite <- drawn_eq by exact HP. apply random_blocks_length.
  - rewrite <- drawn_eq by exact HP. apply random_blocks_shape.
  - cbn. rewrite nth_error_app2, Nat.sub_diag by lia. reflexivity.
  - exists s2, t. split; [| repeat split; try apply O2; try apply Ot; congruence]. rewrite E2. cbn [w_sets w_discs]. rewrite write_last, app_length. cbn [length].
    rewrite Nat.add_1_r, <- app_assoc. reflexivity.
Qed.
Lemma create_none_lemma : forall model P g draw interval ob w, s_create_random model P None g draw interval ob w = (w, Raise PyAttributeError).
Proof. reflexivity. Qed.

(** ** Globalizing later *)
Lemma same_refl s : same_set s s.
Proof. repeat split. Qed.
Lemma l2g_same s t u : (forall a, loc s a = loc t a) -> (forall a, loc s a = None -> glob s a = glob t a) -> dim s = dim t -> local_index s = local_index t -> kd s = kd t ->
  domain s = domain t -> weights s = weights t -> local_to_global t = Ok u -> exists v, local_to_global s = Ok v /\ same_set v u.
Proof.
  intros L G D I K Dm W E. destruct (local_to_global_spec t u E) as (D1 & D2 & D3 & D4 & D5 & D6 & X).
  destruct (gather_attrs_total all_attrs s) as [v Ev].
  { intros a bs _ La. specialize (X a). rewrite <- L, La in X. destruct X as (g & Hg & _). eauto. }
  exists v. split; [exact Ev |]. destruct (local_to_global_spec s v Ev) as (F1 & F2 & F3 & F4 & F5 & F6 & Y).
  split; [congruence |]. split; [| split; [intros a; rewrite D2, F2; apply L | repeat split; congruence]].
  intros a. specialize (X a). specialize (Y a). rewrite <- L in X. destruct (loc s a) as [bs|] eqn:La.
  - destruct X as (x & Hx & ->), Y as (y & Hy & ->). congruence.
  - rewrite X, Y. now apply G.
Qed.
Lemma l2g_again t u : local_to_global t = Ok u -> exists v, local_to_global u = Ok v /\ same_set v u.
Proof.
  intros E. destruct (local_to_global_spec t u E) as (D1 & D2 & D3 & D4 & D5 & D6 & X). apply (l2g_same u t u); try congruence.
  intros a La. specialize (X a). rewrite D2 in La. now rewrite La in X.
Qed.
Lemma same_trans s t u : same_set s t -> same_set t u -> same_set s u.
Proof.
  intros (A1 & A2 & A3 & A4 & A5 & A6 & A7) (B1 & B2 & B3 & B4 & B5 & B6 & B7). split; [congruence |]. split; [intros a; now rewrite A2 |]. split; [intros a; now rewrite A3 |].
  repeat split; congruence.
Qed.
Lemma l2g_mono s t u : same_set s t -> local_to_global t = Ok u -> exists v, local_to_global s = Ok v /\ same_set v u.
Proof. intros (A1 & A2 & A3 & A4 & A5 & A6 & A7). apply l2g_same; auto. Qed.
Lemma forall2_write {A} (Q : A -> A -> Prop) : forall l m a x y, Forall2 Q l m -> Q x y -> Forall2 Q (write l a x) (write m a y).
Proof. intros l m a x y F. revert a. induction F as [|u v l m q F IH]; intros [|a] q0; cbn; auto. Qed.
Lemma same_sets_refl l : Forall2 same_set l l.
Proof. induction l; constructor; auto using same_refl. Qed.
Lemma call_at {R} a (f : sset R -> result (sset R)) h d s s1 : nth_error h a = Some s -> f s = Ok s1 -> call a f h d = (write h a s1, d, Ok tt).
Proof. intros E F. unfold call, mbind, Refs_Model.get, lift, put. rewrite E. cbn. rewrite F. reflexivity. Qed.
Lemma r_l2g_pair (h : list (sset cell)) a o s s1 t t1 : nth_error h a = Some s -> nth_error h o = Some t -> a <> o -> local_to_global s = Ok s1 -> local_to_global t = Ok t1 ->
  r_local_to_global h (pair_disc a o) = (write (write h a s1) o t1, pair_disc a o, Ok tt).
Proof.
  intros Ea Eo n Ls Lt. unfold r_local_to_global, each_place.
  assert (C1 : (mbind self (fun d => match r_in d with None => ret tt | Some b => call b local_to_global end)) h (pair_disc a o) = (write h a s1, pair_disc a o, Ok tt)).
  { unfold mbind at 1, self. cbn [r_in pair_disc]. now apply (call_at a local_to_global h (pair_disc a o) s s1). }
  assert (C2 : (mbind self (fun d => match r_out d with None => ret tt | Some b => call b local_to_global end)) (write h a s1) (pair_disc a o) = (write (write h a s1) o t1, pair_disc a o, Ok tt)).
  { unfold mbind at 1, self. cbn [r_out pair_disc]. apply (call_at o local_to_global _ (pair_disc a o) t t1); auto. now rewrite write_other. }
  unfold mbind at 1. rewrite C1. unfold mbind at 1. rewrite C2. reflexivity.
Qed.
Lemma later_lemma : forall model P inp w w1 w2 j1 j2, s_compute model P inp true w = (w1, Ok j1) -> s_compute model P inp false w = (w2, Ok j2) ->
  j1 = j2 /\ exists w3, s_local_to_global w2 = (w3, Ok tt) /\ same_work w3 w1.
Proof.
  intros model P inp w w1 w2 j1 j2 E1 E2.
  destruct (s_compute_ok _ _ _ _ _ _ _ E1) as (a & s & s1 & bs & out & s2 & out1 & Ei & En & El & Ev & Eo & Eg & Eg1).
  assert (Ef : globalized false s1 = (set_glob Values None s1, Ok tt)) by reflexivity.
  rewrite (s_compute_eq _ _ _ _ _ _ _ _ _ _ _ _ Ei En El Ev Eo Eg Eg1) in E1. cbv zeta in E1.
  rewrite (s_compute_eq _ _ _ _ _ _ _ _ _ _ _ _ Ei En El Ev Eo Ef eq_refl) in E2. cbv zeta in E2.
  destruct (nums_check P out1 s2); [| discriminate]. injection E1 as <- <-. destruct (nums_check P out _); [| discriminate]. injection E2 as <- <-. split; [reflexivity |].
  assert (La : a < length (w_sets w)) by (apply nth_error_Some; congruence).
  unfold globalized in Eg. destruct (local_to_global s1) as [s2'|] eqn:L1; [| discriminate]. injection Eg as ->.
  assert (Lv : loc s1 Values <> None) by (unfold loc_values in Ev; destruct (loc s1 Values); congruence).
  destruct (l2g_same (set_glob Values None s1) s1 s2) as (s3 & E3 & S3); auto.
  { intros b Lb. cbn in Lb |- *. unfold upd. destruct (attr_eq_dec b Values); congruence. }
  destruct (l2g_again _ _ E3) as (s4 & E4 & S4).
  set (o := length (w_sets w)). set (h2 := write (w_sets w) a (set_glob Values None s1) ++ [out]).
  assert (Ho : length (write (w_sets w) a (set_glob Values None s1)) = o) by apply write_length.
  assert (Ha2 : nth_error h2 a = Some (set_glob Values None s1)) by (unfold h2; rewrite nth_error_app1 by lia; now apply write_same).
  assert (Ho2 : nth_error h2 o = Some out) by (unfold h2; rewrite nth_error_app2 by lia; rewrite Ho, Nat.sub_diag; reflexivity).
  assert (Hlen : a < length h2) by (apply nth_error_Some; congruence).
  unfold s_local_to_global, sbind. cbn [s_in]. unfold on_set_ok. erewrite (on_set_at a) by exact Ha2. rewrite E3. cbn [fst snd with_sets s_disc w_sets].
  unfold on_disc. cbn [w_discs w_sets with_sets]. rewrite nth_error_app2, Nat.sub_diag by lia. cbn [nth_error].
  rewrite (r_l2g_pair (write h2 a s3) a o s3 s4 out out1); auto.
  2: { now apply write_same. }
  2: { rewrite write_other by lia. exact Ho2. }
  2: { lia. }
  eexists. split; [reflexivity |]. unfold same_work. cbn [w_sets w_discs s_in s_disc with_sets with_discs].
  split; [| split; [apply write_id; rewrite nth_error_app2, Nat.sub_diag by lia; reflexivity | auto]].
  rewrite write_write. unfold h2. rewrite write_app by lia. rewrite write_write.
  replace o with (length (write (w_sets w) a s4)) by apply write_length. rewrite write_last.
  apply Forall2_app; [apply forall2_write; [apply same_sets_refl | eapply same_trans; eauto] | constructor; auto using same_refl].
Qed.
