(** Calls on references do what the calls of Disc_Model do on values, as long as
    no set is stored in two places. *)
From Coq Require Import List Arith Bool Lia QArith Qcanon.
From Verif Require Import Err Num NumPy SampleSet_Model Prob_Model Disc_Model Refs_Model Refs_Spec Refs_Proofs.
Import ListNotations.
Local Open Scope nat_scope.

Definition apart (x y : option nat) : Prop := forall a, x = Some a -> y <> Some a.
Definition separated (d : rdisc) : Prop :=
  (apart (r_in d) (r_out d) /\ apart (r_in d) (r_prob d) /\ apart (r_in d) (r_ein d) /\ apart (r_in d) (r_eout d) /\ apart (r_in d) (r_obs d)) /\
  (apart (r_out d) (r_prob d) /\ apart (r_out d) (r_ein d) /\ apart (r_out d) (r_eout d) /\ apart (r_out d) (r_obs d)) /\
  (apart (r_prob d) (r_ein d) /\ apart (r_prob d) (r_eout d) /\ apart (r_prob d) (r_obs d)) /\
  (apart (r_ein d) (r_eout d) /\ apart (r_ein d) (r_obs d)) /\ apart (r_eout d) (r_obs d).
Lemma nodup_head x l : NoDup (ref_list x ++ l) -> NoDup l /\ forall y, incl (ref_list y) l -> apart x y.
Proof.
  destruct x as [a|]; cbn; intros N; split; auto.
  - now inversion N.
  - intros y I b [= <-] ->. inversion N as [|? ? H]. apply H, I. cbn. auto.
  - intros y _ b. discriminate.
Qed.
Lemma separated_of d : NoDup (refs d) -> separated d.
Proof.
  unfold refs. intros N. unfold separated.
  destruct (nodup_head _ _ N) as [N1 A1]. destruct (nodup_head _ _ N1) as [N2 A2]. destruct (nodup_head _ _ N2) as [N3 A3].
  destruct (nodup_head _ _ N3) as [N4 A4]. destruct (nodup_head _ _ N4) as [N5 A5].
  repeat match goal with |- _ /\ _ => split end;
    match goal with |- apart (?f d) (?g d) =>
      first [apply A1 | apply A2 | apply A3 | apply A4 | apply A5]; intros b Hb; rewrite ?in_app_iff; auto 8; fail end.
Qed.

Section View.
Context {R : Type}.
Implicit Types (h : list (sset R)) (v : disc R).

Lemma sees_place_some h a s : sees_place h (Some a) s -> exists t, s = Some t /\ nth_error h a = Some t.
Proof. intros [E n]. destruct s as [t|]; [eauto | congruence]. Qed.
Lemma sees_place_write h a t o s : o <> Some a -> sees_place h o s -> sees_place (write h a t) o s.
Proof. destruct o as [b|]; cbn; auto. intros n [E H]. rewrite write_other by congruence. auto. Qed.
Lemma sees_place_here h a t s : sees_place h (Some a) s -> sees_place (write h a t) (Some a) (Some t).
Proof.
  intros [E n]. cbn. split; [| discriminate]. apply write_same. apply nth_error_Some. congruence.
Qed.

Ltac put_tac := intros S Sp E; unfold sees in *; unfold separated, apart in Sp; rewrite ?E in *;
  decompose [and] S; decompose [and] Sp; clear S Sp; cbn -[sees_place];
  repeat match goal with |- _ /\ _ => split end; auto;
  match goal with
  | |- sees_place (write _ ?a _) (Some ?a) _ => eapply sees_place_here; eassumption
  | |- _ => apply sees_place_write; [| assumption];
      match goal with
      | H : forall a, Some ?b = Some a -> ?o <> Some a |- ?o <> Some ?b => apply H; reflexivity
      | H : forall a, ?o = Some a -> Some ?b <> Some a |- ?o <> Some ?b => let X := fresh in intros X; apply (H _ X); reflexivity
      end
  end.
Lemma sees_put_in h d v a s : sees h d v -> separated d -> r_in d = Some a -> sees (write h a s) d (with_in (Some s) v).
Proof. put_tac. Qed.
Lemma sees_put_out h d v a s : sees h d v -> separated d -> r_out d = Some a -> sees (write h a s) d (with_out (Some s) v).
Proof. put_tac. Qed.
Lemma sees_put_prob h d v a s : sees h d v -> separated d -> r_prob d = Some a -> sees (write h a s) d (with_prob (Some s) v).
Proof. put_tac. Qed.
Lemma sees_put_ein h d v a s : sees h d v -> separated d -> r_ein d = Some a -> sees (write h a s) d (with_ein (Some s) v).
Proof. put_tac. Qed.
Lemma sees_put_eout h d v a s : sees h d v -> separated d -> r_eout d = Some a -> sees (write h a s) d (with_eout (Some s) v).
Proof. put_tac. Qed.
End View.

Definition same_refs (d e : rdisc) : Prop :=
  r_in e = r_in d /\ r_out e = r_out d /\ r_prob e = r_prob d /\ r_ein e = r_ein d /\ r_eout e = r_eout d /\ r_obs e = r_obs d.
Lemma same_refs_sep d e : same_refs d e -> separated d -> separated e.
Proof. unfold separated. intros (-> & -> & -> & -> & -> & ->). auto. Qed.
Lemma same_refs_refl d : same_refs d d. Proof. unfold same_refs; auto 10. Qed.
Lemma same_refs_refs d e : same_refs d e -> refs e = refs d.
Proof. unfold refs. intros (-> & -> & -> & -> & -> & ->). auto. Qed.
Lemma same_refs_trans d e f : same_refs d e -> same_refs e f -> same_refs d f.
Proof. unfold same_refs. intros (-> & -> & -> & -> & -> & ->). auto. Qed.

Section Refine.
Context {R : Type}.
Implicit Types (h : list (sset R)) (v : disc R).
Definition refines (m : M R unit) (f : disc R -> result (disc R)) : Prop := forall h d v, separated d -> sees h d v ->
  match f v with
  | Ok v' => exists h' d', m h d = (h', d', Ok tt) /\ sees h' d' v' /\ same_refs d d'
  | Raise e => exists h' d', m h d = (h', d', Raise e)
  end.
Ltac run := unfold mbind, place, self, lift, get, put, call, assign, ret; cbn [fst snd bind need].

Lemma check_refines P h d v : sees h d v -> r_check_nums P h d = (h, d, check_nums P v).
Proof.
  intros (Si & So & _). unfold r_check_nums, check_nums, place, mbind, self, lift, get, need, bind.
  destruct (r_out d) as [o|] eqn:Eo; [| rewrite So; reflexivity].
  apply sees_place_some in So. destruct So as (out & -> & ->).
  destruct (check_num P out) as [n|e]; [| reflexivity].
  destruct (r_in d) as [i|] eqn:Ei; [| rewrite Si; reflexivity].
  apply sees_place_some in Si. destruct Si as (inp & -> & ->).
  destruct (check_num P inp); reflexivity.
Qed.

Lemma sees_io h d v g l : sees h d v -> sees h (rwith_io g l d) (with_io g l v).
Proof. unfold sees. cbn. tauto. Qed.
Lemma sees_ii h d v g l : sees h d v -> sees h (rwith_ii g l d) (with_ii g l v).
Proof. unfold sees. cbn. tauto. Qed.
Lemma sees_oo h d v g l : sees h d v -> sees h (rwith_oo g l d) (with_oo g l v).
Proof. unfold sees. cbn. tauto. Qed.


Lemma nth_valid {A} (h : list A) a s : nth_error h a = Some s -> a < length h.
Proof. intros E. apply nth_error_Some. congruence. Qed.

Lemma io_refines nn P g : refines (r_set_io nn P g) (set_io_ptr nn P g).
Proof.
  intros h d v Sp V. pose proof V as (_ & So & Spr & _ & _ & _ & Eio & _).
  unfold r_set_io, r_query, set_io_ptr, place, call, mbind, self, lift, get, put, assign, ret, need, bind.
  destruct (r_out d) as [o|] eqn:Eo; [| rewrite So; eauto].
  apply sees_place_some in So. destruct So as (out & -> & Ho). rewrite Ho.
  destruct (localized P out) as [out1|e]; [| eauto].
  pose proof (sees_put_out h d v o out1 V Sp Eo) as V1.
  destruct (r_prob d) as [p|] eqn:Ep; [| rewrite Spr; eauto].
  assert (n : o <> p) by (intros ->; destruct Sp as (_ & (H & _) & _); apply (H p); auto).
  rewrite write_same by (eapply nth_valid; eauto).
  apply sees_place_some in Spr. destruct Spr as (pr & -> & Hp).
  destruct (loc_values out1) as [xs|e]; [| eauto]. rewrite write_other by auto. rewrite Hp.
  destruct (query_blocks nn P xs pr) as [[q pr1]|e]; [| eauto]. cbn [fst snd].
  do 2 eexists. split; [reflexivity |]. split; [| apply same_refs_refl || (unfold same_refs; cbn; auto 10)].
  rewrite Eio. apply sees_io, sees_put_prob; auto.
Qed.
Lemma ii_refines nn P g : refines (r_set_ii nn P g) (set_ii_ptr nn P g).
Proof.
  intros h d v Sp V. pose proof V as (Spr & _ & _ & So & _ & _ & _ & Eio & _).
  unfold r_set_ii, r_query, set_ii_ptr, place, call, mbind, self, lift, get, put, assign, ret, need, bind.
  destruct (r_ein d) as [o|] eqn:Eo; [| rewrite So; eauto].
  apply sees_place_some in So. destruct So as (out & -> & Ho). rewrite Ho.
  destruct (localized P out) as [out1|e]; [| eauto].
  pose proof (sees_put_ein h d v o out1 V Sp Eo) as V1.
  destruct (r_in d) as [p|] eqn:Ep; [| rewrite Spr; eauto].
  assert (n : o <> p) by (intros ->; destruct Sp as ((_ & _ & H & _) & _); apply (H p); auto).
  rewrite write_same by (eapply nth_valid; eauto).
  apply sees_place_some in Spr. destruct Spr as (pr & -> & Hp).
  destruct (loc_values out1) as [xs|e]; [| eauto]. rewrite write_other by auto. rewrite Hp.
  destruct (query_blocks nn P xs pr) as [[q pr1]|e]; [| eauto]. cbn [fst snd].
  do 2 eexists. split; [reflexivity |]. split; [| unfold same_refs; cbn; auto 10].
  rewrite Eio. apply sees_ii, sees_put_in; auto.
Qed.
Lemma oo_refines nn P g : refines (r_set_oo nn P g) (set_oo_ptr nn P g).
Proof.
  intros h d v Sp V. pose proof V as (_ & _ & Spr & _ & So & _ & _ & _ & Eio & _).
  unfold r_set_oo, r_query, set_oo_ptr, place, call, mbind, self, lift, get, put, assign, ret, need, bind.
  destruct (r_eout d) as [o|] eqn:Eo; [| rewrite So; eauto].
  apply sees_place_some in So. destruct So as (out & -> & Ho). rewrite Ho.
  destruct (localized P out) as [out1|e]; [| eauto].
  pose proof (sees_put_eout h d v o out1 V Sp Eo) as V1.
  destruct (r_prob d) as [p|] eqn:Ep; [| rewrite Spr; eauto].
  assert (n : o <> p) by (intros ->; destruct Sp as (_ & _ & (_ & H & _) & _); apply (H p); auto).
  rewrite write_same by (eapply nth_valid; eauto).
  apply sees_place_some in Spr. destruct Spr as (pr & -> & Hp).
  destruct (loc_values out1) as [xs|e]; [| eauto]. rewrite write_other by auto. rewrite Hp.
  destruct (query_blocks nn P xs pr) as [[q pr1]|e]; [| eauto]. cbn [fst snd].
  do 2 eexists. split; [reflexivity |]. split; [| unfold same_refs; cbn; auto 10].
  rewrite Eio. apply sees_oo, sees_put_prob; auto.
Qed.
Lemma globalize_refines : refines r_globalize_ptrs (fun d => Ok (globalize_ptrs d)).
Proof.
  intros h d v Sp V. cbn. do 2 eexists. split; [reflexivity |]. split; [| unfold same_refs; cbn; auto 10].
  revert V. unfold sees. cbn. intros (A1 & A2 & A3 & A4 & A5 & A6 & E1 & E2 & E3 & E4 & E5 & E6).
  rewrite E1, E2, E3, E4, E5, E6. auto 20.
Qed.

(** Moving data *)
Definition vplace (k : nat) v : option (sset R) := match k with 0 => d_in v | 1 => d_out v | 2 => d_prob v | 3 => d_ein v | _ => d_eout v end.
Definition rplace (k : nat) (d : rdisc) : option nat := match k with 0 => r_in d | 1 => r_out d | 2 => r_prob d | 3 => r_ein d | _ => r_eout d end.
Definition vwith (k : nat) (x : option (sset R)) v := match k with 0 => with_in x v | 1 => with_out x v | 2 => with_prob x v | 3 => with_ein x v | _ => with_eout x v end.
Lemma sees_rplace h d v k : sees h d v -> sees_place h (rplace k d) (vplace k v).
Proof. intros V. destruct V as (A1 & A2 & A3 & A4 & A5 & _). destruct k as [|[|[|[|k]]]]; auto. Qed.
Lemma sees_put_k h d v k a s : sees h d v -> separated d -> rplace k d = Some a -> sees (write h a s) d (vwith k (Some s) v).
Proof.
  destruct k as [|[|[|[|k]]]]; cbn; intros; [eapply sees_put_in | eapply sees_put_out | eapply sees_put_prob | eapply sees_put_ein | eapply sees_put_eout]; eauto.
Qed.
Lemma vwith_same k v : vwith k (vplace k v) v = v.
Proof. destruct v, k as [|[|[|[|k]]]]; reflexivity. Qed.
Lemma each_refines f k : refines (each_place f (rplace k)) (fun v => bind (each f (vplace k v)) (fun x => Ok (vwith k x v))).
Proof.
  intros h d v Sp V. pose proof (sees_rplace h d v k V) as Sk.
  unfold each_place, call, mbind, self, get, lift, put, ret, each, need.
  destruct (rplace k d) as [a|] eqn:Ea.
  - apply sees_place_some in Sk. destruct Sk as (s & Es & Hs). rewrite Es, Hs. cbn [bind].
    destruct (f s) as [s1|e]; cbn [bind]; [| eauto].
    do 2 eexists. split; [reflexivity |]. split; [now apply sees_put_k | apply same_refs_refl].
  - cbn in Sk. rewrite Sk. cbn [bind]. rewrite <- Sk, vwith_same. do 2 eexists. split; [reflexivity |]. split; [exact V | apply same_refs_refl].
Qed.
Lemma seq_refines m f n g : refines m f -> refines n g -> refines (mbind m (fun _ => n)) (fun v => bind (f v) g).
Proof.
  intros A B h d v Sp V. specialize (A h d v Sp V). unfold mbind. destruct (f v) as [v1|e]; cbn [bind].
  - destruct A as (h1 & d1 & -> & V1 & S1). specialize (B h1 d1 v1 (same_refs_sep _ _ S1 Sp) V1).
    destruct (g v1) as [v2|e].
    + destruct B as (h2 & d2 & -> & V2 & S2). do 2 eexists. split; [reflexivity |]. split; auto. eapply same_refs_trans; eauto.
    + destruct B as (h2 & d2 & ->). eauto.
  - destruct A as (h1 & d1 & ->). eauto.
Qed.
Lemma refines_ext m f g : (forall v, f v = g v) -> refines m f -> refines m g.
Proof. intros E A h d v Sp V. rewrite <- E. apply A; auto. Qed.
Lemma to_global_refines : refines r_local_to_global disc_local_to_global.
Proof.
  eapply refines_ext; [| unfold r_local_to_global; apply seq_refines; [apply (each_refines local_to_global 0) |];
    apply seq_refines; [apply (each_refines local_to_global 1) |]; apply seq_refines; [apply (each_refines local_to_global 2) |];
    apply seq_refines; [apply (each_refines local_to_global 3) | apply (each_refines local_to_global 4)]].
  intros v. unfold disc_local_to_global. cbn. destruct v as [i o p ei eo ob a1 a2 a3 a4 a5 a6]. cbn.
  destruct (each local_to_global i) as [i1|]; cbn; [| reflexivity].
  destruct (each local_to_global o) as [o1|]; cbn; [| reflexivity].
  destruct (each local_to_global p) as [p1|]; cbn; [| reflexivity].
  destruct (each local_to_global ei) as [ei1|]; cbn; [| reflexivity].
  destruct (each local_to_global eo) as [eo1|]; cbn; reflexivity.
Qed.
Lemma to_local_refines P : refines (r_global_to_local P) (disc_global_to_local P).
Proof.
  eapply refines_ext; [| unfold r_global_to_local; apply seq_refines; [apply (each_refines (global_to_local P) 0) |];
    apply seq_refines; [apply (each_refines (global_to_local P) 1) |]; apply seq_refines; [apply (each_refines (global_to_local P) 2) |];
    apply (each_refines (global_to_local P) 3)].
  intros v. unfold disc_global_to_local. cbn. destruct v as [i o p ei eo ob a1 a2 a3 a4 a5 a6]. cbn.
  destruct (each (global_to_local P) i) as [i1|]; cbn; [| reflexivity].
  destruct (each (global_to_local P) o) as [o1|]; cbn; [| reflexivity].
  destruct (each (global_to_local P) p) as [p1|]; cbn; [| reflexivity].
  destruct (each (global_to_local P) ei) as [ei1|]; cbn; reflexivity.
Qed.
End Refine.

(** ** The two calculations *)
Lemma query_keeps {R} nn P xs (s : sset R) q s1 : query_blocks nn P xs s = Ok (q, s1) -> same_but_tree s s1.
Proof.
  unfold query_blocks, same_but_tree. destruct (kd s) as [t|] eqn:K.
  - destruct (check_num P s); cbn [bind]; [| discriminate]. rewrite K. cbn [need bind].
    destruct (forallb _ xs); [| discriminate]. intros [= _ <-]. auto 10.
  - unfold set_kdtree. destruct (glob s Values) as [x|]; cbn [bind]; [| discriminate]. cbn [kd need bind].
    destruct (forallb _ xs); [| discriminate]. intros [= _ <-]. cbn. repeat (split; [reflexivity |]).
    intros a n. unfold upd. destruct (attr_eq_dec a KdtreeValues); congruence.
Qed.
Lemma io_keeps_prob {R} nn P g (v v1 : disc R) pr : set_io_ptr nn P g v = Ok v1 -> d_prob v = Some pr ->
  exists pr1, d_prob v1 = Some pr1 /\ same_but_tree pr pr1 /\ d_in v1 = d_in v /\ d_ein v1 = d_ein v.
Proof.
  unfold set_io_ptr. intros H E. destruct (need (d_out v)) as [out|]; cbn [bind] in H; [| discriminate].
  destruct (localized P out) as [out1|]; cbn [bind] in H; [| discriminate]. rewrite E in H. cbn [need bind] in H.
  destruct (loc_values out1) as [xs|]; cbn [bind] in H; [| discriminate].
  destruct (query_blocks nn P xs pr) as [[q pr1]|] eqn:Q; cbn [bind] in H; [| discriminate].
  injection H as <-. cbn. exists pr1. split; auto. split; auto. eapply query_keeps; eauto.
Qed.
Lemma ii_keeps {R} nn P g (v v1 : disc R) pr : set_ii_ptr nn P g v = Ok v1 -> d_prob v = Some pr -> d_prob v1 = Some pr.
Proof.
  unfold set_ii_ptr. intros H E. destruct (need (d_ein v)) as [out|]; cbn [bind] in H; [| discriminate].
  destruct (localized P out) as [out1|]; cbn [bind] in H; [| discriminate].
  destruct (need (d_in v)) as [inp|]; cbn [bind] in H; [| discriminate].
  destruct (loc_values out1) as [xs|]; cbn [bind] in H; [| discriminate].
  destruct (query_blocks nn P xs inp) as [[q pr1]|] eqn:Q; cbn [bind] in H; [| discriminate].
  injection H as <-. exact E.
Qed.
Lemma same_probs n (s t : sset cell) : same_but_tree s t -> out_probs n t = out_probs n s.
Proof. intros (_ & _ & _ & _ & _ & H). unfold out_probs. rewrite H by discriminate. reflexivity. Qed.
Lemma refs_place h (d : rdisc) (v : disc cell) k s : sees h d v -> vplace k v = Some s ->
  exists a, rplace k d = Some a /\ nth_error h a = Some s.
Proof.
  intros V E. pose proof (sees_rplace h d v k V) as Sk. rewrite E in Sk. destruct (rplace k d) as [a|]; [| discriminate].
  exists a. split; auto. apply Sk.
Qed.
Lemma need_some {A} (o : option A) x : o = Some x -> need o = Ok x.
Proof. now intros ->. Qed.


Section Run.
Context {R : Type}.
Implicit Types (h : list (sset R)).
Lemma bind_ok {X Y} (m : M R X) (k : X -> M R Y) h d h1 d1 x : m h d = (h1, d1, Ok x) -> mbind m k h d = k x h1 d1.
Proof. unfold mbind. now intros ->. Qed.
Lemma bind_raise {X Y} (m : M R X) (k : X -> M R Y) h d h1 d1 e : m h d = (h1, d1, Raise e) -> mbind m k h d = (h1, d1, Raise e).
Proof. unfold mbind. now intros ->. Qed.
Lemma place_ok f h d a : f d = Some a -> place (R := R) f h d = (h, d, Ok a).
Proof. unfold place, mbind, self, lift. now intros ->. Qed.
Lemma place_none f h d : f d = None -> place (R := R) f h d = (h, d, Raise PyAttributeError).
Proof. unfold place, mbind, self, lift. now intros ->. Qed.
Lemma get_ok a h d s : nth_error h a = Some s -> get (R := R) a h d = (h, d, Ok s).
Proof. unfold get. now intros ->. Qed.
Lemma call_ok a f h d s s1 : nth_error h a = Some s -> f s = Ok s1 -> call (R := R) a f h d = (write h a s1, d, Ok tt).
Proof. intros E F. unfold call, mbind, get, lift, put. rewrite E. cbn. now rewrite F. Qed.
Lemma call_raise a f h d s e : nth_error h a = Some s -> f s = Raise e -> call (R := R) a f h d = (h, d, Raise e).
Proof. intros E F. unfold call, mbind, get, lift, put. rewrite E. cbn. now rewrite F. Qed.
End Run.
Ltac ok_step t := erewrite bind_ok by (t; eauto); cbv beta.
Ltac self_step := erewrite bind_ok by reflexivity; cbv beta.
Ltac lift_case r x e :=
  destruct r as [x|e]; cbn [bind];
  [erewrite bind_ok by reflexivity; cbv beta | erewrite bind_raise by reflexivity; eauto; fail].

Lemma maybe_io nn P g h d (v : disc cell) pr : separated d -> sees h d v -> d_prob v = Some pr ->
  match (match io_loc v with None => set_io_ptr nn P g v | Some _ => Ok v end) with
  | Ok v1 => exists h1 d1, (match r_io_loc d with None => r_set_io nn P g | Some _ => ret tt end) h d = (h1, d1, Ok tt) /\
               sees h1 d1 v1 /\ same_refs d d1 /\ exists pr1, d_prob v1 = Some pr1 /\ same_but_tree pr pr1
  | Raise e => exists h1 d1, (match r_io_loc d with None => r_set_io nn P g | Some _ => ret tt end) h d = (h1, d1, Raise e)
  end.
Proof.
  intros Sp V Epr. assert (El : r_io_loc d = io_loc v) by (apply V). rewrite El. destruct (io_loc v).
  - do 2 eexists. split; [reflexivity |]. split; [exact V |]. split; [apply same_refs_refl |]. exists pr. split; auto. unfold same_but_tree; auto 10.
  - pose proof (io_refines nn P g h d v Sp V) as H. destruct (set_io_ptr nn P g v) as [v1|e] eqn:Q; [| exact H].
    destruct H as (h1 & d1 & H1 & V1 & S1). exists h1, d1. split; auto. split; auto. split; auto.
    destruct (io_keeps_prob _ _ _ _ _ _ Q Epr) as (pr1 & E1 & T & _). eauto.
Qed.
Lemma maybe_ii nn P g h d (v : disc cell) pr : separated d -> sees h d v -> d_prob v = Some pr ->
  match (match ii_loc v with None => set_ii_ptr nn P g v | Some _ => Ok v end) with
  | Ok v1 => exists h1 d1, (match r_ii_loc d with None => r_set_ii nn P g | Some _ => ret tt end) h d = (h1, d1, Ok tt) /\
               sees h1 d1 v1 /\ same_refs d d1 /\ d_prob v1 = Some pr
  | Raise e => exists h1 d1, (match r_ii_loc d with None => r_set_ii nn P g | Some _ => ret tt end) h d = (h1, d1, Raise e)
  end.
Proof.
  intros Sp V Epr. assert (El : r_ii_loc d = ii_loc v) by (apply V). rewrite El. destruct (ii_loc v).
  - do 2 eexists. split; [reflexivity |]. split; [exact V |]. split; [apply same_refs_refl |]. exact Epr.
  - pose proof (ii_refines nn P g h d v Sp V) as H. destruct (set_ii_ptr nn P g v) as [v1|e] eqn:Q; [| exact H].
    destruct H as (h1 & d1 & H1 & V1 & S1). exists h1, d1. split; auto. split; auto. split; auto. eapply ii_keeps; eauto.
Qed.

Lemma prob_refines nn P g : refines (r_prob_disc nn P g) (prob_disc nn P g).
Proof.
  intros h d v Sp V. unfold r_prob_disc, prob_disc. pose proof (check_refines P h d v V) as C.
  destruct (check_nums P v) as [nums|e]; cbn [bind]; [ok_step ltac:(exact C) | erewrite bind_raise by exact C; eauto].
  pose proof (sees_rplace h d v 2 V) as Spr. cbn in Spr.
  destruct (r_prob d) as [p|] eqn:Ep; [| rewrite Spr; erewrite bind_raise by (apply place_none; auto); cbn; eauto].
  apply sees_place_some in Spr. destruct Spr as (pr & Epr & Hp). rewrite Epr. cbn [need bind].
  ok_step ltac:(apply place_ok). ok_step ltac:(apply get_ok).
  lift_case (check_num P pr) opn e. self_step.
  pose proof (maybe_io nn P false h d v pr Sp V Epr) as Pre.
  destruct (match io_loc v with None => set_io_ptr nn P false v | Some _ => Ok v end) as [v1|e]; cbn [bind].
  2: { destruct Pre as (h1 & d1 & Pre). erewrite bind_raise by exact Pre. eauto. }
  destruct Pre as (h1 & d1 & Pre & V1 & S1 & pr1 & Epr1 & T).
  assert (Sp1 : separated d1) by (eapply same_refs_sep; eauto).
  ok_step ltac:(exact Pre).
  pose proof (sees_rplace h1 d1 v1 0 V1) as Si. cbn in Si.
  destruct (r_in d1) as [i|] eqn:Ei; [| rewrite Si; erewrite bind_raise by (apply place_none; auto); cbn; eauto].
  apply sees_place_some in Si. destruct Si as (inp & Einp & Hi). rewrite Einp. cbn [need bind].
  ok_step ltac:(apply place_ok).
  destruct (localized P inp) as [inp1|e] eqn:L; cbn [bind]; [| erewrite bind_raise by (eapply call_raise; eauto); eauto].
  ok_step ltac:(eapply call_ok). pose proof (sees_put_in h1 d1 v1 i inp1 V1 Sp1 Ei) as V2.
  self_step. assert (El : r_io_loc d1 = io_loc v1) by (apply V1). rewrite El.
  lift_case (subscript (io_loc v1)) ptrs e.
  destruct (refs_place (write h1 i inp1) d1 _ 2 pr1 V2 Epr1) as (p1 & Ep1 & Hp1). cbn in Ep1.
  ok_step ltac:(apply place_ok). ok_step ltac:(apply get_ok). rewrite (same_probs _ _ _ T).
  lift_case (out_probs opn pr) probs e.
  erewrite bind_ok by (apply get_ok, write_same; eapply nth_valid; eauto). cbv beta.
  lift_case (if existsb (qltb 0) probs then bind (subscript (loc inp1 Volumes)) (fun v0 => scalar_blocks v0) else Ok []) vols e.
  lift_case (prob probs ptrs vols) q e.
  unfold put. do 2 eexists. split; [reflexivity |]. split; [| exact S1].
  exact (sees_put_in _ d1 _ i (set_loc Probabilities (Some (map vec_arr q)) (if g then set_glob Probabilities (Some (vec_arr (concat q))) inp1 else inp1)) V2 Sp1 Ei).
Qed.

Lemma emulated_refines nn P g : refines (r_emulated_disc nn P g) (emulated_disc nn P g).
Proof.
  intros h d v Sp V. unfold r_emulated_disc, emulated_disc. pose proof (check_refines P h d v V) as C.
  destruct (check_nums P v) as [nums|e]; cbn [bind]; [ok_step ltac:(exact C) | erewrite bind_raise by exact C; eauto].
  pose proof (sees_rplace h d v 2 V) as Spr. cbn in Spr.
  destruct (r_prob d) as [p|] eqn:Ep; [| rewrite Spr; erewrite bind_raise by (apply place_none; auto); cbn; eauto].
  apply sees_place_some in Spr. destruct Spr as (pr & Epr & Hp). rewrite Epr. cbn [need bind].
  ok_step ltac:(apply place_ok). ok_step ltac:(apply get_ok).
  lift_case (check_num P pr) opn x.
  pose proof (sees_rplace h d v 3 V) as Sei. cbn in Sei.
  destruct (r_ein d) as [e|] eqn:Ee; [| rewrite Sei; erewrite bind_raise by (apply place_none; auto); cbn; eauto].
  apply sees_place_some in Sei. destruct Sei as (em & Eem & He). rewrite Eem. cbn [need bind].
  ok_step ltac:(apply place_ok). ok_step ltac:(apply get_ok).
  lift_case (check_num P em) emn x. self_step.
  pose proof (maybe_io nn P true h d v pr Sp V Epr) as Pre.
  destruct (match io_loc v with None => set_io_ptr nn P true v | Some _ => Ok v end) as [v1|x]; cbn [bind].
  2: { destruct Pre as (h1 & d1 & Pre). erewrite bind_raise by exact Pre. eauto. }
  destruct Pre as (h1 & d1 & Pre & V1 & S1 & pr1 & Epr1 & T).
  assert (Sp1 : separated d1) by (eapply same_refs_sep; eauto).
  ok_step ltac:(exact Pre). self_step.
  pose proof (maybe_ii nn P false h1 d1 v1 pr1 Sp1 V1 Epr1) as Pre2.
  destruct (match ii_loc v1 with None => set_ii_ptr nn P false v1 | Some _ => Ok v1 end) as [v2|x]; cbn [bind].
  2: { destruct Pre2 as (h2 & d2 & Pre2). erewrite bind_raise by exact Pre2. eauto. }
  destruct Pre2 as (h2 & d2 & Pre2 & V2 & S2 & Epr2).
  assert (Sp2 : separated d2) by (eapply same_refs_sep; eauto).
  assert (S12 : same_refs d d2) by (eapply same_refs_trans; eauto).
  ok_step ltac:(exact Pre2).
  assert (Ee2 : r_ein d2 = Some e) by (destruct S12 as (_ & _ & _ & -> & _); exact Ee).
  assert (Ep2 : r_prob d2 = Some p) by (destruct S12 as (_ & _ & -> & _); exact Ep).
  pose proof (sees_rplace h2 d2 v2 3 V2) as Sei2. cbn in Sei2. rewrite Ee2 in Sei2.
  apply sees_place_some in Sei2. destruct Sei2 as (em1 & Eem1 & He1). rewrite Eem1. cbn [need bind].
  ok_step ltac:(apply get_ok).
  lift_case (need (loc em1 Values)) bs x. self_step.
  assert (El : r_io d2 = io v2) by (apply V2). assert (El2 : r_ii_loc d2 = ii_loc v2) by (apply V2). rewrite El, El2.
  lift_case (subscript (io v2)) io_ptr x. lift_case (subscript (ii_loc v2)) ptr x.
  lift_case (follow io_ptr ptr) targets x.
  destruct (refs_place h2 d2 _ 2 pr1 V2 Epr2) as (p1 & Ep1 & Hp1). cbn in Ep1. rewrite Ep2 in Ep1. injection Ep1 as <-.
  ok_step ltac:(apply get_ok). rewrite (same_probs _ _ _ T). lift_case (out_probs opn pr) probs x.
  lift_case (emulated_probs probs io_ptr ptr (map (fun b => length (rows b)) bs)) q x.
  ok_step ltac:(apply get_ok). erewrite bind_ok by reflexivity. cbv beta.
  pose proof (sees_put_ein h2 d2 v2 e (set_loc Probabilities (Some (map vec_arr q)) em1) V2 Sp2 Ee2) as V3.
  destruct g.
  - destruct (local_to_global (set_loc Probabilities (Some (map vec_arr q)) em1)) as [em3|x] eqn:G; cbn [bind].
    + erewrite call_ok by (eauto; apply write_same; eapply nth_valid; eauto).
      do 2 eexists. split; [reflexivity |]. split; [| exact S12].
      exact (sees_put_ein _ d2 _ e em3 V3 Sp2 Ee2).
    + erewrite call_raise by (eauto; apply write_same; eapply nth_valid; eauto). eauto.
  - do 2 eexists. split; [reflexivity |]. split; [exact V3 | exact S12].
Qed.

Lemma refine_lemma : forall nn P o f h d v, value_call nn P o = Some f -> NoDup (refs d) -> sees h d v ->
  match f v with
  | Ok v' => exists h' d', rstep nn P o h d = (h', d', Ok tt) /\ sees h' d' v' /\ refs d' = refs d
  | Raise e => exists h' d', rstep nn P o h d = (h', d', Raise e)
  end.
Proof.
  intros nn P o f h d v E N V.
  assert (H : refines (rstep nn P o) f).
  { destruct o; cbn in E; try discriminate; injection E as <-; cbn [rstep];
      [apply io_refines | apply ii_refines | apply oo_refines | apply globalize_refines | apply to_global_refines | apply to_local_refines
      | apply prob_refines | apply emulated_refines]. }
  specialize (H h d v (separated_of d N) V). destruct (f v) as [v'|e]; [| exact H].
  destruct H as (h' & d' & A & B & C). exists h', d'. split; auto. split; auto. now apply same_refs_refs.
Qed.

(** ** Setters *)
Lemma nodup_of d : separated d -> NoDup (refs d).
Proof.
  destruct d as [i o p ei eo ob a1 a2 a3 a4 a5 a6]. unfold separated, apart, refs. cbn.
  intros Sp. decompose [and] Sp. clear Sp.
  destruct i as [i|], o as [o|], p as [p|], ei as [ei|], eo as [eo|], ob as [ob|]; cbn;
    repeat (apply NoDup_cons; [cbn; intuition (subst; eauto; try (match goal with H : forall a, Some ?x = Some a -> Some ?x <> Some a |- _ => exact (H x eq_refl eq_refl) end)) |]);
    apply NoDup_nil.
Qed.
Lemma not_in_refs a d : ~ In a (refs d) -> r_in d <> Some a /\ r_out d <> Some a /\ r_prob d <> Some a /\ r_ein d <> Some a /\ r_eout d <> Some a /\ r_obs d <> Some a.
Proof.
  unfold refs. rewrite !in_app_iff. intros H.
  repeat split; intros E; apply H; rewrite E; cbn; tauto.
Qed.
Ltac sep_tac :=
  match goal with Sp : separated ?d, N : ~ In ?a (refs ?d) |- separated _ =>
    apply not_in_refs in N; unfold separated, apart in *; cbn; decompose [and] Sp; decompose [and] N; clear Sp N;
    repeat match goal with |- _ /\ _ => split end; auto; intros b E; congruence || (injection E as <-; congruence) end.
Lemma sep_in a d : separated d -> ~ In a (refs d) -> separated (rwith_in (Some a) d). Proof. intros Sp N. sep_tac. Qed.
Lemma sep_out a d : separated d -> ~ In a (refs d) -> separated (rwith_out (Some a) d). Proof. intros Sp N. sep_tac. Qed.
Lemma sep_prob a d : separated d -> ~ In a (refs d) -> separated (rwith_prob (Some a) d). Proof. intros Sp N. sep_tac. Qed.
Lemma sep_ein a d : separated d -> ~ In a (refs d) -> separated (rwith_ein (Some a) d). Proof. intros Sp N. sep_tac. Qed.
Lemma sep_eout a d : separated d -> ~ In a (refs d) -> separated (rwith_eout (Some a) d). Proof. intros Sp N. sep_tac. Qed.
Lemma sep_obs a d : separated d -> ~ In a (refs d) -> separated (rwith_obs (Some a) d). Proof. intros Sp N. sep_tac. Qed.

Section Set_.
Context {R : Type}.
Implicit Types (h : list (sset R)) (v : disc R).
Ltac set_tac := intros E V; unfold sees in *; decompose [and] V; clear V; cbn -[sees_place];
  repeat match goal with |- _ /\ _ => split end; auto; cbn; (split; [exact E | discriminate]).
Lemma sees_set_in h d v a s : nth_error h a = Some s -> sees h d v -> sees h (rwith_in (Some a) d) (with_in (Some s) v).
Proof. set_tac. Qed.
Lemma sees_set_out h d v a s : nth_error h a = Some s -> sees h d v -> sees h (rwith_out (Some a) d) (with_out (Some s) v).
Proof. set_tac. Qed.
Lemma sees_set_prob h d v a s : nth_error h a = Some s -> sees h d v -> sees h (rwith_prob (Some a) d) (with_prob (Some s) v).
Proof. set_tac. Qed.
Lemma sees_set_ein h d v a s : nth_error h a = Some s -> sees h d v -> sees h (rwith_ein (Some a) d) (with_ein (Some s) v).
Proof. set_tac. Qed.
Lemma sees_set_eout h d v a s : nth_error h a = Some s -> sees h d v -> sees h (rwith_eout (Some a) d) (with_eout (Some s) v).
Proof. set_tac. Qed.
Lemma sees_set_obs h d v a s : nth_error h a = Some s -> sees h d v -> sees h (rwith_obs (Some a) d) (with_obs (Some s) v).
Proof. set_tac. Qed.
Lemma same_dim_refines h d v s k : sees h d v -> same_dim_as s (rplace k) h d = (h, d, Ok (same_dim (vplace k v) s)).
Proof.
  intros V. pose proof (sees_rplace h d v k V) as Sk. unfold same_dim_as, mbind, self, same_dim, ret, get.
  destruct (rplace k d) as [b|].
  - apply sees_place_some in Sk. destruct Sk as (t & -> & ->). reflexivity.
  - cbn in Sk. now rewrite Sk.
Qed.
End Set_.

Lemma setter_lemma : forall nn P o a f h d v s, value_setter nn P o = Some (a, f) -> NoDup (refs d) -> ~ In a (refs d) ->
  nth_error h a = Some s -> sees h d v ->
  match f s v with
  | Ok v' => exists h' d', rstep nn P o h d = (h', d', Ok tt) /\ sees h' d' v' /\ NoDup (refs d')
  | Raise e => exists h' d', rstep nn P o h d = (h', d', Raise e)
  end.
Proof.
  intros nn P o a f h d v s E ND N Hs V. pose proof (separated_of d ND) as Sp.
  destruct o as [b|b|b|b|b|b|b|b|b|b| | | |b|b|b g]; cbn in E; try discriminate; injection E as -> <-; cbn [rstep].
  - cbn. do 2 eexists. split; [reflexivity |]. split; [now apply sees_set_in | apply nodup_of, sep_in; auto].
  - cbn. do 2 eexists. split; [reflexivity |]. split; [now apply sees_set_out | apply nodup_of, sep_out; auto].
  - unfold r_set_probability, set_probability. ok_step ltac:(apply get_ok).
    erewrite bind_ok by (apply (same_dim_refines h d v s 1 V)). cbv beta.
    erewrite bind_ok by (apply (same_dim_refines h d v s 4 V)). cbv beta. cbn [vplace].
    destruct (same_dim (d_out v) s && same_dim (d_eout v) s); [| cbn; unfold lift; eauto].
    erewrite bind_ok by reflexivity. cbv beta zeta.
    pose proof (sees_set_prob h d v a s Hs V) as V1. pose proof (sep_prob a d Sp N) as Sp1.
    pose proof (sees_rplace h _ _ 1 V1) as So. cbn in So.
    destruct (r_out d) as [q|] eqn:Eo.
    + apply sees_place_some in So. destruct So as (out & -> & Ho).
      ok_step ltac:(apply place_ok). ok_step ltac:(apply get_ok).
      destruct (loc out Values); [destruct (glob s Values) |].
      * pose proof (io_refines nn P false h _ _ Sp1 V1) as H. destruct (set_io_ptr nn P false (with_prob (Some s) v)) as [v2|e]; cbn.
        -- destruct H as (h' & d' & A & B & C). exists h', d'. split; auto. split; auto. rewrite (same_refs_refs _ _ C). now apply nodup_of.
        -- exact H.
      * cbn. do 2 eexists. split; [reflexivity |]. split; auto. now apply nodup_of.
      * cbn. do 2 eexists. split; [reflexivity |]. split; auto. now apply nodup_of.
    + rewrite So. erewrite bind_raise by (apply place_none; auto). cbn. eauto.
  - unfold r_set_emulated_input, set_emulated_input. ok_step ltac:(apply get_ok).
    erewrite bind_ok by (apply (same_dim_refines h d v s 0 V)). cbv beta. cbn [vplace].
    destruct (same_dim (d_in v) s); cbn; unfold lift; [| eauto].
    do 2 eexists. split; [reflexivity |]. split; [now apply sees_set_ein | apply nodup_of, sep_ein; auto].
  - unfold r_set_emulated_output, set_emulated_output. ok_step ltac:(apply get_ok).
    erewrite bind_ok by (apply (same_dim_refines h d v s 1 V)). cbv beta.
    erewrite bind_ok by (apply (same_dim_refines h d v s 2 V)). cbv beta. cbn [vplace].
    destruct (same_dim (d_out v) s && same_dim (d_prob v) s); cbn; unfold lift; [| eauto].
    do 2 eexists. split; [reflexivity |]. split; [now apply sees_set_eout | apply nodup_of, sep_eout; auto].
  - cbn. do 2 eexists. split; [reflexivity |]. split; [now apply sees_set_obs | apply nodup_of, sep_obs; auto].
  - unfold r_store_output_probability, store_output_probability. erewrite bind_ok by reflexivity. cbv beta.
    pose proof (sees_set_prob h d v a s Hs V) as V1. pose proof (sep_prob a d Sp N) as Sp1.
    pose proof (io_refines nn P false h _ _ Sp1 V1) as H. destruct (set_io_ptr nn P false (with_prob (Some s) v)) as [v2|e]; [| exact H].
    destruct H as (h' & d' & A & B & C). exists h', d'. split; auto. split; auto. rewrite (same_refs_refs _ _ C). now apply nodup_of.
Qed.
