(** Discretizations that share sample sets. *)
From Coq Require Import List Arith Bool Lia QArith Qcanon.
From Verif Require Import Err Num NumPy SampleSet_Model Prob_Model Disc_Model Refs_Model Refs_Spec Refs_Proofs RefsView_Proofs.
Import ListNotations.
Local Open Scope nat_scope.
Local Open Scope refs_scope.

(** ** One input set, two problems *)
Lemma last_wins_lemma : forall nn P g h d1 d2 v v' a, NoDup (refs d2) -> sees h d2 v -> prob_disc nn P g v = Ok v' ->
  r_in d1 = Some a -> r_in d2 = Some a ->
  exists h' d2', rstep nn P (RSolve g) h d2 = (h', d2', Ok tt) /\ sees_place h' (r_in d1) (d_in v').
Proof.
  intros nn P g h d1 d2 v v' a N V Q E1 E2.
  pose proof (prob_refines nn P g h d2 v (separated_of _ N) V) as H. rewrite Q in H.
  destruct H as (h' & d2' & H & V' & S). exists h', d2'. split; [exact H |].
  destruct V' as (Hi & _). destruct S as (Ei & _). rewrite E1. rewrite Ei, E2 in Hi. exact Hi.
Qed.

(** prob again after the stored probabilities have been replaced *)
Lemma localized_has P (s s1 : sset cell) bs : localized P s = Ok s1 -> loc_values s1 = Ok bs -> loc s1 Values = Some bs.
Proof. unfold loc_values. destruct (loc s1 Values); congruence. Qed.
Lemma localized_id P (s : sset cell) : loc s Values <> None -> localized P s = Ok s.
Proof. unfold localized. destruct (loc s Values); congruence. Qed.

(** What prob leaves behind. *)
Lemma prob_result nn P g (v v' : disc cell) : prob_disc nn P g v = Ok v' ->
  exists n pr inp inp1 ptrs probs vols q pr', d_prob v = Some pr /\ check_num P pr = Ok n /\ d_in v = Some inp /\ localized P inp = Ok inp1 /\
    io_loc v' = Some ptrs /\ (io_loc v <> None -> io_loc v' = io_loc v) /\ out_probs n pr = Ok probs /\
    (if existsb (qltb 0) probs then bind (subscript (loc inp1 Volumes)) scalar_blocks else Ok []) = Ok vols /\
    prob probs ptrs vols = Ok q /\
    d_in v' = Some (set_loc Probabilities (Some (map vec_arr q)) (if g then set_glob Probabilities (Some (vec_arr (concat q))) inp1 else inp1)) /\
    d_prob v' = Some pr' /\ same_but_tree pr pr' /\ (pr' = pr \/ glob pr Values <> None) /\ d_out v' <> None.
Proof.
  unfold prob_disc. intros H.
  destruct (check_nums P v) as [k|] eqn:C; cbn [bind] in H; [| discriminate].
  destruct (d_prob v) as [pr|] eqn:Ep; cbn [need bind] in H; [| discriminate].
  destruct (check_num P pr) as [n|] eqn:Cn; cbn [bind] in H; [| discriminate].
  assert (Pre : forall v1, (match io_loc v with None => set_io_ptr nn P false v | Some _ => Ok v end) = Ok v1 ->
    (io_loc v <> None -> io_loc v1 = io_loc v) /\ d_in v1 = d_in v /\ d_out v1 <> None /\
    exists pr', d_prob v1 = Some pr' /\ same_but_tree pr pr' /\ (pr' = pr \/ glob pr Values <> None)).
  { intros v1. destruct (io_loc v) as [l|] eqn:L.
    - intros [= <-]. rewrite L. split; auto. split; auto. split.
      + unfold check_nums in C. destruct (d_out v); [discriminate | discriminate].
      + exists pr. split; auto. split; auto. unfold same_but_tree; auto 10.
    - intros Q. split; [congruence |]. destruct (io_keeps_prob _ _ _ _ _ _ Q Ep) as (pr1 & E1 & T & E2 & _). split; auto.
      unfold set_io_ptr in Q. destruct (d_out v) as [out|]; cbn [need bind] in Q; [| discriminate].
      destruct (localized P out) as [out1|]; cbn [bind] in Q; [| discriminate]. rewrite Ep in Q. cbn [need bind] in Q.
      destruct (loc_values out1) as [xs|]; cbn [bind] in Q; [| discriminate].
      destruct (query_blocks nn P xs pr) as [[q pr2]|] eqn:Z; cbn [bind] in Q; [| discriminate].
      injection Q as <-. cbn in *. split; [discriminate |]. injection E1 as ->. exists pr1. split; auto. split; auto.
      unfold query_blocks in Z. destruct (kd pr) as [t|] eqn:K.
      + destruct (check_num P pr); cbn [bind] in Z; [| discriminate]. rewrite K in Z. cbn [need bind] in Z. destruct (forallb _ xs); [| discriminate].
        injection Z as _ ->. auto.
      + right. unfold set_kdtree in Z. destruct (glob pr Values); [discriminate | cbn in Z; discriminate]. }
  destruct (match io_loc v with None => set_io_ptr nn P false v | Some _ => Ok v end) as [v1|]; cbn [bind] in H; [| discriminate].
  destruct (Pre v1 eq_refl) as (I1 & I2 & Io & pr' & I3 & T & I4). clear Pre.
  rewrite I2 in H. destruct (d_in v) as [inp|] eqn:Ei; cbn [need bind] in H; [| discriminate].
  destruct (localized P inp) as [inp1|] eqn:Li; cbn [bind] in H; [| discriminate].
  destruct (io_loc v1) as [ptrs|] eqn:El; cbn [subscript bind] in H; [| discriminate].
  destruct (out_probs n pr) as [probs|] eqn:Eo; cbn [bind] in H; [| discriminate].
  match type of H with bind ?r _ = _ => destruct r as [vols|] eqn:Ev end; cbn [bind] in H; [| discriminate].
  destruct (prob probs ptrs vols) as [q|] eqn:Eq; cbn [bind] in H; [| discriminate].
  injection H as <-. cbn.
  exists n, pr, inp, inp1, ptrs, probs, vols, q, pr'. rewrite El.
  repeat match goal with |- _ /\ _ => split end; auto.
Qed.

Lemma scan_first n : forall ls k, scan_lengths ls (Some n) = Ok k -> k = Some n.
Proof.
  induction ls as [|[m|] ls IH]; intros k; cbn; [congruence | | auto]. destruct (n =? m); [auto | discriminate].
Qed.
Lemma check_num_values P (s : sset cell) x n : glob s Values = Some x -> check_num P s = Ok n -> n = length (rows x).
Proof.
  intros E. unfold check_num, all_attrs. cbn [map]. rewrite E.
  match goal with |- context [scan_lengths (?y :: ?l) None] =>
    change (scan_lengths (y :: l) None) with (scan_lengths l (Some (length (rows x)))); destruct (scan_lengths l (Some (length (rows x)))) as [k|] eqn:Q end; cbn [bind]; [| discriminate]. apply scan_first in Q. subst k.
  destruct (check_width s); cbn [bind]; congruence.
Qed.

(** In v the input set has the same local volumes as in w and local values. *)
Lemma prob_twice nn P g (v w u z : disc cell) s t : prob_disc nn P g v = Ok w -> d_in w = Some s ->
  u = with_in (Some t) w -> loc t Volumes = loc s Volumes -> loc t Values <> None -> prob_disc nn P g u = Ok z ->
  exists s3, d_in z = Some s3 /\ loc s3 Probabilities = loc s Probabilities /\ (g = true -> glob s3 Probabilities = glob s Probabilities).
Proof.
  intros H Es -> Ev Lv Hz.
  destruct (prob_result _ _ _ _ _ H) as (n & pr & inp & inp1 & ptrs & probs & vols & q & pr' & P1 & P2 & P3 & P4 & P5 & P6 & P7 & P8 & P9 & P10 & P11 & P12 & P13 & P14).
  destruct (prob_result _ _ _ _ _ Hz) as (n' & pr2 & inp2 & inp3 & ptrs' & probs' & vols' & q' & pr2' & Q1 & Q2 & Q3 & Q4 & Q5 & Q6 & Q7 & Q8 & Q9 & Q10 & Q11 & Q12 & Q13 & Q14).
  cbn in Q1, Q3, Q6. rewrite P11 in Q1. injection Q1 as <-. injection Q3 as <-.
  rewrite (localized_id P t Lv) in Q4. injection Q4 as <-.
  rewrite P5 in Q6. rewrite Q6 in Q5 by discriminate. injection Q5 as <-.
  assert (En : n' = n).
  { destruct P13 as [-> | P13]; [congruence |]. destruct (glob pr Values) as [x|] eqn:Gx; [| congruence].
    rewrite (check_num_values P pr x n Gx P2). apply (check_num_values P pr'); auto.
    destruct P12 as (_ & _ & _ & _ & _ & T). rewrite T by discriminate. exact Gx. }
  subst n'. rewrite (same_probs n pr pr' P12), P7 in Q7. injection Q7 as <-.
  rewrite P10 in Es. injection Es as <-.
  assert (Lvol : loc t Volumes = loc inp1 Volumes).
  { rewrite Ev. destruct g; cbn; unfold upd; cbn; reflexivity. }
  rewrite Lvol, P8 in Q8. injection Q8 as <-. rewrite P9 in Q9. injection Q9 as <-.
  eexists. split; [exact Q10 |]. destruct g; cbn; unfold upd; cbn; split; auto; discriminate.
Qed.

(** Solving the first problem again. *)
(** The sets that a call may change. *)
Lemma frame nn P o h d h1 d1 r : rstep nn P o h d = (h1, d1, r) -> forall b, ~ In b (refs d ++ names o) -> nth_error h1 b = nth_error h b.
Proof.
  intros E b Nb.
  pose proof (local_step nn P (fun a => In a (refs d ++ names o)) o) as L. specialize (L (fun a Ha => proj2 (in_app_iff _ _ _) (or_intror Ha))).
  specialize (L h h d (fun a Ha => proj2 (in_app_iff _ _ _) (or_introl Ha)) (fun _ _ => eq_refl)). rewrite E in L.
  destruct L as (_ & _ & _ & _ & U & _). apply U. exact Nb.
Qed.
Lemma step_length nn P o h d h1 d1 r : rstep nn P o h d = (h1, d1, r) -> length h1 = length h.
Proof.
  intros E. pose proof (local_step nn P (fun _ => True) o (fun _ _ => I) h h d (fun _ _ => I) (fun _ _ => eq_refl)) as L.
  rewrite E in L. apply L.
Qed.
Lemma frame_place nn P g h d h1 d1 r o (s : option (sset cell)) : rstep nn P (RSolve g) h d = (h1, d1, r) -> (forall b, o = Some b -> ~ In b (refs d)) ->
  sees_place h o s -> sees_place h1 o s.
Proof.
  intros E N. destruct o as [b|]; cbn; auto. intros [Eb n]. split; auto. rewrite <- Eb. eapply frame; eauto. cbn [names]. rewrite app_nil_r. auto.
Qed.
(** Another problem with the same input set is solved. *)
Lemma other_solved nn P g h d e h1 e1 (v w w' : disc cell) a : sees h d v -> separated d -> NoDup (refs e) -> r_in d = Some a -> r_in e = Some a ->
  (forall b, In b (refs d) -> In b (refs e) -> b = a) -> sees h e w -> prob_disc nn P g w = Ok w' ->
  rstep nn P (RSolve g) h e = (h1, e1, Ok tt) -> sees h1 d (with_in (d_in w') v).
Proof.
  intros V Sp N Ea Eb Dis W Q St.
  destruct (last_wins_lemma nn P g h d e w w' a N W Q Ea Eb) as (h1' & e1' & St' & Hi). rewrite St in St'. injection St' as <- <-.
  assert (Fr : forall f s, is_place f -> apart (r_in d) (f d) -> sees_place h (f d) s -> sees_place h1 (f d) s).
  { intros f s Pl Ap. apply (frame_place nn P g h e h1 e1 (Ok tt)); auto. intros b Eb' I. apply (Ap a Ea). rewrite Eb'. f_equal. apply Dis; auto. }
  destruct Sp as ((S1 & S2 & S3 & S4 & S5) & _).
  destruct V as (V1 & V2 & V3 & V4 & V5 & V6 & V7). unfold sees. cbn [d_in d_out d_prob d_ein d_eout d_obs with_in].
  split; [exact Hi |].
  split; [apply Fr; auto using place_out |]. split; [apply Fr; auto using place_prob |]. split; [apply Fr; auto using place_ein |].
  split; [apply Fr; auto using place_eout |]. split; [apply Fr; auto using place_obs |]. exact V7.
Qed.
Lemma same_refs_same d d1 : same_refs d d1 -> r_in d1 = r_in d /\ refs d1 = refs d.
Proof. intros S. split; [apply S | now apply same_refs_refs]. Qed.
Lemma solve_again_lemma : forall nn P g h d1 d2 a h1 e1 h2 e2 h3 f1 v1 v2,
  NoDup (refs d1) -> NoDup (refs d2) -> r_in d1 = Some a -> r_in d2 = Some a ->
  (forall b, In b (refs d1) -> In b (refs d2) -> b = a) -> sees h d1 v1 -> sees h d2 v2 -> has_samples (d_in v1) ->
  rstep nn P (RSolve g) h d1 = (h1, e1, Ok tt) -> rstep nn P (RSolve g) h1 d2 = (h2, e2, Ok tt) ->
  rstep nn P (RSolve g) h2 e1 = (h3, f1, Ok tt) ->
  exists s1 s3, nth_error h1 a = Some s1 /\ nth_error h3 a = Some s3 /\ loc s3 Probabilities = loc s1 Probabilities /\
    (g = true -> glob s3 Probabilities = glob s1 Probabilities).
Proof.
  intros nn P g h d1 d2 a h1 e1 h2 e2 h3 f1 v1 v2 N1 N2 E1 E2 Dis V1 V2 Has St1 St2 St3.
  pose proof (separated_of _ N1) as Sp1. pose proof (separated_of _ N2) as Sp2.
  pose proof (prob_refines nn P g h d1 v1 Sp1 V1) as R1. cbn [rstep] in St1, St2, St3.
  destruct (prob_disc nn P g v1) as [w1|x] eqn:Q1; [| destruct R1 as (? & ? & R1); congruence].
  destruct R1 as (h1' & e1' & R1 & W1 & S1). rewrite St1 in R1. injection R1 as <- <-.
  (* the second discretization after the first call *)
  assert (V2' : sees h1 d2 (with_in (d_in w1) v2)).
  { eapply (other_solved nn P g h d2 d1); eauto. }
  pose proof (prob_refines nn P g h1 d2 _ Sp2 V2') as R2.
  destruct (prob_disc nn P g (with_in (d_in w1) v2)) as [w2|x] eqn:Q2; [| destruct R2 as (? & ? & R2); congruence].
  destruct R2 as (h2' & e2' & R2 & W2 & S2). rewrite St2 in R2. injection R2 as <- <-.
  (* the first one after the second call *)
  assert (Ea1 : r_in e1 = Some a) by (rewrite (proj1 (same_refs_same _ _ S1)); exact E1).
  assert (W1' : sees h2 e1 (with_in (d_in w2) w1)).
  { eapply (other_solved nn P g h1 e1 d2 h2 e2 w1 (with_in (d_in w1) v2) w2 a); auto.
    - eapply same_refs_sep; eauto.
    - rewrite (proj2 (same_refs_same _ _ S1)). auto. }
  pose proof (prob_refines nn P g h2 e1 _ (same_refs_sep _ _ S1 Sp1) W1') as R3.
  destruct (prob_disc nn P g (with_in (d_in w2) w1)) as [w3|x] eqn:Q3; [| destruct R3 as (? & ? & R3); congruence].
  destruct R3 as (h3' & f1' & R3 & W3 & S3). rewrite St3 in R3. injection R3 as <- <-.
  destruct (prob_result _ _ _ _ _ Q1) as (n & pr & inp & inp1 & ptrs & probs & vols & q & pr' & A1 & A2 & A3 & A4 & A5 & A6 & A7 & A8 & A9 & A10 & _).
  destruct (prob_result _ _ _ _ _ Q2) as (n' & pr2 & inp2 & inp3 & ptrs' & probs' & vols' & q' & pr2' & B1 & B2 & B3 & B4 & B5 & B6 & B7 & B8 & B9 & B10 & _).
  cbn in B3. rewrite A10 in B3. injection B3 as <-.
  set (s1 := set_loc Probabilities (Some (map vec_arr q)) (if g then set_glob Probabilities (Some (vec_arr (concat q))) inp1 else inp1)) in *.
  set (s2 := set_loc Probabilities (Some (map vec_arr q')) (if g then set_glob Probabilities (Some (vec_arr (concat q'))) inp3 else inp3)) in *.
  assert (Lk : loc s1 Values = loc inp1 Values) by (unfold s1; destruct g; reflexivity).
  destruct (loc inp1 Values) as [bs|] eqn:Lb.
  - assert (Li : localized P s1 = Ok s1) by (apply localized_id; congruence). rewrite Li in B4. injection B4 as <-.
    rewrite B10 in Q3.
    destruct (prob_twice nn P g v1 w1 (with_in (Some s2) w1) w3 s1 s2 Q1 A10 eq_refl) as (s3 & Z1 & Z2 & Z3); auto.
    + unfold s2. destruct g; reflexivity.
    + unfold s2. destruct g; cbn; unfold upd; cbn; congruence.
    + exists s1, s3. split.
      { destruct W1 as (Wi & _). rewrite Ea1, A10 in Wi. exact (proj1 Wi). }
      split; [| auto]. destruct W3 as (Wi & _). rewrite (proj1 (same_refs_same _ _ S3)), Ea1, Z1 in Wi. exact (proj1 Wi).
  - exfalso. rewrite A3 in Has. unfold localized in A4. destruct (loc inp Values) eqn:E; [injection A4 as <-; congruence |].
    unfold global_to_local in A4. destruct (check_num P inp) eqn:C; cbn [bind] in A4; [| discriminate]. injection A4 as <-. cbn in Lb.
    destruct (glob inp Values) eqn:G; [discriminate |]. destruct Has as [Has | Has]; apply Has; auto.
Qed.
