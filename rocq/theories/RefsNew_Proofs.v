(** Calls that return new discretizations: clip, merge, copy. *)
From Coq Require Import List Arith Bool Lia QArith Qcanon.
From Verif Require Import Err Num NumPy SampleSet_Model Prob_Model Disc_Model Refs_Model Refs_Spec Refs_Proofs RefsView_Proofs RefsShare_Proofs.
Import ListNotations.
Local Open Scope nat_scope.

Lemma same_tree_refl {R} (s : sset R) : same_but_tree s s.
Proof. unfold same_but_tree; auto 10. Qed.
Lemma same_local_refl {R} (s : sset R) : same_but_local s s.
Proof. unfold same_but_local; auto 10. Qed.

(** ** Constructor *)
Lemma new_refines {R} P (h : list (sset R)) i o p ei eo ob vi vo vp vei veo vob :
  sees_place h i vi -> sees_place h o vo -> sees_place h p vp -> sees_place h ei vei -> sees_place h eo veo -> sees_place h ob vob ->
  match new_disc P vi vo vp vei veo vob with
  | Ok v => r_new P h i o p ei eo ob = (h, Ok (mk_rdisc i o p ei eo ob None None None None None None)) /\
            v = mk_disc vi vo vp vei veo vob None None None None None None
  | Raise e => r_new P h i o p ei eo ob = (h, Raise e)
  end.
Proof.
  intros Si So Sp Sei Seo Sob. unfold new_disc, r_new.
  assert (V : sees h (mk_rdisc i o p ei eo ob None None None None None None) (mk_disc vi vo vp vei veo vob None None None None None None)).
  { unfold sees. cbn -[sees_place]. auto 15. }
  pose proof (check_refines P h _ _ V) as C. destruct o as [a|].
  - apply sees_place_some in So. destruct So as (s & -> & Hs). rewrite C. cbv zeta.
    destruct (check_nums P _) as [n|e]; cbn [bind]; auto.
  - cbn in So. rewrite So. auto.
Qed.

(** ** clip *)
Lemma nth_app_old {A} (l m : list A) a x : nth_error l a = Some x -> nth_error (l ++ m) a = Some x.
Proof. intros E. rewrite nth_error_app1; auto. apply nth_error_Some. congruence. Qed.
Lemma sees_place_app {R} (h m : list (sset R)) o s : sees_place h o s -> sees_place (h ++ m) o s.
Proof. destruct o as [a|]; cbn; auto. intros [E n]. split; auto. destruct s; [| congruence]. now apply nth_app_old. Qed.
Lemma clip_lemma : forall R P c (h : list (sset R)) d v v', sees h d v -> clip_disc P c v = Ok v' ->
  exists ci co e, r_clip P c h d = (h ++ [ci; co], Ok e) /\ sees (h ++ [ci; co]) e v' /\
    r_in e = Some (length h) /\ r_out e = Some (S (length h)) /\ r_prob e = r_prob d /\ r_ein e = r_ein d /\ r_eout e = r_eout d /\ r_obs e = None.
Proof.
  intros R P c h d v v' V H. unfold clip_disc in H.
  pose proof V as (Si & So & Sp & Sei & Seo & _).
  destruct (d_in v) as [inp|]; cbn [need bind] in H; [| discriminate].
  destruct (clip P c inp) as [ci|] eqn:Ci; cbn [bind] in H; [| discriminate].
  destruct (d_out v) as [out|]; cbn [need bind] in H; [| discriminate].
  destruct (clip P c out) as [co|] eqn:Co; cbn [bind] in H; [| discriminate].
  exists ci, co. unfold r_clip.
  destruct (r_in d) as [a|]; [| discriminate]. destruct (r_out d) as [b|]; [| discriminate].
  cbn [need bind]. destruct Si as [Si _]. destruct So as [So _]. rewrite Si. cbn [need bind]. rewrite Ci. unfold alloc.
  rewrite (nth_app_old _ _ _ _ So). cbn [need bind]. rewrite Co.
  replace ((h ++ [ci]) ++ [co]) with (h ++ [ci; co]) by (rewrite <- app_assoc; reflexivity).
  rewrite app_length. cbn [length]. replace (length h + 1) with (S (length h)) by lia.
  pose proof (new_refines P (h ++ [ci; co]) (Some (length h)) (Some (S (length h))) (r_prob d) (r_ein d) (r_eout d) None
    (Some ci) (Some co) (d_prob v) (d_ein v) (d_eout v) None) as N.
  assert (E1 : nth_error (h ++ [ci; co]) (length h) = Some ci) by (rewrite nth_error_app2, Nat.sub_diag by lia; reflexivity).
  assert (E2 : nth_error (h ++ [ci; co]) (S (length h)) = Some co).
  { rewrite nth_error_app2 by lia. replace (S (length h) - length h) with 1 by lia. reflexivity. }
  assert (T1 : sees_place (h ++ [ci; co]) (Some (length h)) (Some ci)) by (split; [exact E1 | discriminate]).
  assert (T2 : sees_place (h ++ [ci; co]) (Some (S (length h))) (Some co)) by (split; [exact E2 | discriminate]).
  specialize (N T1 T2 (sees_place_app _ _ _ _ Sp) (sees_place_app _ _ _ _ Sei) (sees_place_app _ _ _ _ Seo) eq_refl).
  rewrite H in N. destruct N as [N ->]. rewrite N. eexists. split; [reflexivity |]. cbn -[sees_place app]. split; [| auto 10].
  unfold sees. cbn -[sees_place app]. pose proof (sees_place_app h [ci; co] _ _ Sp). pose proof (sees_place_app h [ci; co] _ _ Sei). pose proof (sees_place_app h [ci; co] _ _ Seo).
  repeat match goal with |- _ /\ _ => split end; auto. reflexivity.
Qed.

Lemma prob_keeps nn P g (v v' : disc cell) : prob_disc nn P g v = Ok v' -> d_ein v' = d_ein v /\ d_eout v' = d_eout v /\ d_obs v' = d_obs v.
Proof.
  unfold prob_disc. intros H.
  destruct (check_nums P v) as [k|]; cbn [bind] in H; [| discriminate].
  destruct (need (d_prob v)) as [pr|]; cbn [bind] in H; [| discriminate].
  destruct (check_num P pr) as [n|]; cbn [bind] in H; [| discriminate].
  assert (Pre : forall v1, (match io_loc v with None => set_io_ptr nn P false v | Some _ => Ok v end) = Ok v1 ->
     d_ein v1 = d_ein v /\ d_eout v1 = d_eout v /\ d_obs v1 = d_obs v).
  { intros v1. destruct (io_loc v); [intros [= <-]; auto |]. unfold set_io_ptr.
    destruct (need (d_out v)) as [out|]; cbn [bind]; [| discriminate].
    destruct (localized P out) as [out1|]; cbn [bind]; [| discriminate].
    destruct (need (d_prob v)) as [pr0|]; cbn [bind]; [| discriminate].
    destruct (loc_values out1) as [xs|]; cbn [bind]; [| discriminate].
    destruct (query_blocks nn P xs pr0) as [q|]; cbn [bind]; [| discriminate]. intros [= <-]. auto. }
  destruct (match io_loc v with None => set_io_ptr nn P false v | Some _ => Ok v end) as [v1|]; cbn [bind] in H; [| discriminate].
  destruct (Pre v1 eq_refl) as (<- & <- & <-). clear Pre.
  destruct (need (d_in v1)) as [inp|]; cbn [bind] in H; [| discriminate].
  destruct (localized P inp) as [inp1|]; cbn [bind] in H; [| discriminate].
  destruct (subscript (io_loc v1)) as [ptrs|]; cbn [bind] in H; [| discriminate].
  destruct (out_probs n pr) as [probs|]; cbn [bind] in H; [| discriminate].
  match type of H with bind ?r _ = _ => destruct r as [vols|] end; cbn [bind] in H; [| discriminate].
  destruct (prob probs ptrs vols) as [q|]; cbn [bind] in H; [| discriminate].
  injection H as <-. auto.
Qed.
(** Solving changes in the output probability set at most the tree, and nothing in
    the emulated and observed sets. *)
Lemma solve_footprint nn P g h d v h' d' : NoDup (refs d) -> sees h d v -> rstep nn P (RSolve g) h d = (h', d', Ok tt) ->
  forall a s, nth_error h a = Some s -> r_in d <> Some a -> r_out d <> Some a ->
  exists t, nth_error h' a = Some t /\ same_but_tree s t /\ (r_prob d <> Some a -> t = s).
Proof.
  intros N V St a s Ha Ni No. pose proof (prob_refines nn P g h d v (separated_of _ N) V) as H. cbn [rstep] in St.
  destruct (prob_disc nn P g v) as [w|] eqn:Q; [| destruct H as (? & ? & H); congruence].
  destruct H as (h1 & d1 & H & W & S). rewrite St in H. injection H as <- <-.
  destruct (prob_keeps nn P g v w Q) as (K1 & K2 & K3).
  destruct (prob_result nn P g v w Q) as (n & pr & inp & inp1 & ptrs & probs & vols & q & pr' & A1 & _ & _ & _ & _ & _ & _ & _ & _ & _ & A2 & A3 & _ & _).
  destruct S as (_ & _ & Ep & Eei & Eeo & Eob). destruct W as (_ & _ & Wp & Wei & Weo & Wob & _). destruct V as (_ & _ & Vp & Vei & Veo & Vob & _).
  destruct (in_dec Nat.eq_dec a (refs d)) as [I | I].
  - assert (C : r_prob d = Some a \/ r_ein d = Some a \/ r_eout d = Some a \/ r_obs d = Some a).
    { revert I. unfold refs. rewrite !in_app_iff. unfold ref_list. intros I.
      destruct (r_in d) as [x|], (r_out d) as [y|], (r_prob d) as [z|], (r_ein d) as [u|], (r_eout d) as [k|], (r_obs d) as [l|];
        cbn in I; intuition (subst; congruence || auto). }
    assert (Same : forall o x, sees_place h o x -> sees_place h' o x -> o = Some a -> nth_error h' a = Some s).
    { intros o x X Y ->. destruct X as [X _]. destruct Y as [Y _]. congruence. }
    destruct C as [C | [C | [C | C]]].
    + rewrite Ep, C, A2 in Wp. rewrite C, A1 in Vp. destruct Wp as [Wp _]. destruct Vp as [Vp _].
      exists pr'. rewrite Ha in Vp. injection Vp as ->. split; auto. split; auto. congruence.
    + exists s. split; [| split; [apply same_tree_refl | auto]]. rewrite Eei, K1 in Wei. exact (Same _ _ Vei Wei C).
    + exists s. split; [| split; [apply same_tree_refl | auto]]. rewrite Eeo, K2 in Weo. exact (Same _ _ Veo Weo C).
    + exists s. split; [| split; [apply same_tree_refl | auto]]. rewrite Eob, K3 in Wob. exact (Same _ _ Vob Wob C).
  - exists s. split; [| split; [apply same_tree_refl | auto]]. rewrite <- Ha. apply (frame nn P (RSolve g) h d h' d' (Ok tt)); auto. cbn [names]. rewrite app_nil_r. auto.
Qed.
Lemma sees_valid {R} (h : list (sset R)) d v a : sees h d v -> In a (refs d) -> a < length h.
Proof.
  unfold sees, refs. rewrite !in_app_iff. intros V I. decompose [and] V. clear V.
  assert (G : forall o s, sees_place h o s -> In a (ref_list o) -> a < length h).
  { intros [b|] s; cbn; [| tauto]. intros [E n] [<- | []]. apply nth_error_Some. congruence. }
  intuition eauto.
Qed.
Lemma clip_solve_lemma : forall nn P c g h d v v' h1 e h2 e2, NoDup (refs d) -> sees h d v -> r_clip P c h d = (h1, Ok e) ->
  clip_disc P c v = Ok v' -> rstep nn P (RSolve g) h1 e = (h2, e2, Ok tt) ->
  forall a s, nth_error h a = Some s -> exists t, nth_error h2 a = Some t /\ same_but_tree s t /\ (r_prob d <> Some a -> t = s).
Proof.
  intros nn P c g h d v v' h1 e h2 e2 N V Cl Q St a s Ha.
  destruct (clip_lemma _ P c h d v v' V Q) as (ci & co & e' & Cl' & V' & E1 & E2 & E3 & E4 & E5 & E6). rewrite Cl in Cl'. injection Cl' as -> <-.
  assert (Nd : NoDup (refs e)).
  { unfold refs. rewrite E1, E2, E3, E4, E5, E6. cbn [ref_list app]. rewrite app_nil_r.
    pose proof (separated_of d N) as Sp.
    assert (Nr : NoDup (ref_list (r_prob d) ++ ref_list (r_ein d) ++ ref_list (r_eout d))).
    { destruct Sp as (_ & _ & (S1 & S2 & _) & (S3 & _) & _). unfold apart in *.
      destruct (r_prob d) as [x|], (r_ein d) as [y|], (r_eout d) as [z|]; cbn; repeat (apply NoDup_cons; [cbn; intuition (subst; eauto) |]); apply NoDup_nil. }
    assert (Lt : forall b, In b (ref_list (r_prob d) ++ ref_list (r_ein d) ++ ref_list (r_eout d)) -> b < length h).
    { intros b I. apply (sees_valid h d v b V). unfold refs. rewrite !in_app_iff in *. tauto. }
    apply NoDup_cons; [| apply NoDup_cons; auto].
    - cbn. intros [I | I]; [lia | apply Lt in I; lia].
    - intros I. apply Lt in I. lia. }
  assert (La : a < length h) by (apply nth_error_Some; congruence).
  destruct (solve_footprint nn P g _ e v' h2 e2 Nd V' St a s (nth_app_old _ _ _ _ Ha)) as (t & T1 & T2 & T3).
  - rewrite E1. intros [= X]. lia.
  - rewrite E2. intros [= X]. lia.
  - exists t. rewrite E3 in T3. auto.
Qed.

(** ** copy *)
Section Copy.
Context {R : Type} (h0 : list (sset R)).
Definition look (memo : list (nat * nat)) (a : nat) : option nat := option_map snd (find (fun e => fst e =? a) memo).
Definition memo_ok (h : list (sset R)) (memo : list (nat * nat)) : Prop :=
  (exists ext, h = h0 ++ ext) /\
  (forall a b, look memo a = Some b -> length h0 <= b < length h /\ nth_error h b = nth_error h0 a) /\
  (forall a a' b, look memo a = Some b -> look memo a' = Some b -> a = a').
Lemma look_cons a b memo x : look ((a, b) :: memo) x = if a =? x then Some b else look memo x.
Proof. unfold look. cbn. destruct (a =? x); reflexivity. Qed.
Lemma copy_place_ok h memo o h1 memo1 o1 : memo_ok h memo -> (forall a, o = Some a -> a < length h0) ->
  copy_place memo h o = (h1, memo1, o1) ->
  memo_ok h1 memo1 /\ (forall a b, look memo a = Some b -> look memo1 a = Some b) /\
  o1 = match o with Some a => look memo1 a | None => None end /\ (forall a, o = Some a -> look memo1 a <> None).
Proof.
  intros I Va E. unfold copy_place in E. destruct o as [a|].
  2: { injection E as <- <- <-. split; auto. split; auto. split; auto. discriminate. }
  specialize (Va a eq_refl).
  assert (Lk : look memo a = option_map snd (find (fun e => fst e =? a) memo)) by reflexivity.
  destruct (find (fun e => fst e =? a) memo) as [e|] eqn:F.
  - injection E as <- <- <-. split; auto. split; auto. split; [now rewrite Lk |]. intros a' [= <-]. rewrite Lk. discriminate.
  - destruct I as ((ext & ->) & I2 & I3). destruct (nth_error (h0 ++ ext) a) as [s|] eqn:Es.
    2: { exfalso. apply nth_error_None in Es. rewrite app_length in Es. lia. }
    unfold alloc in E. injection E as <- <- <-.
    assert (E0 : nth_error h0 a = Some s) by (rewrite nth_error_app1 in Es; auto).
    split; [split; [| split] |].
    + exists (ext ++ [s]). now rewrite app_assoc.
    + intros x b. rewrite look_cons. destruct (a =? x) eqn:Ex.
      * apply Nat.eqb_eq in Ex. subst x. intros [= <-]. split; [rewrite !app_length; cbn; lia |].
        rewrite nth_error_app2, Nat.sub_diag by lia. cbn. congruence.
      * intros L. destruct (I2 x b L) as [B1 B2]. split; [rewrite app_length; lia |]. rewrite nth_error_app1 by lia. exact B2.
    + intros x y b. rewrite !look_cons. destruct (a =? x) eqn:Ex, (a =? y) eqn:Ey.
      * apply Nat.eqb_eq in Ex, Ey. congruence.
      * intros [= <-] L. apply I2 in L. lia.
      * intros L [= <-]. apply I2 in L. lia.
      * apply I3.
    + split.
      * intros x b L. rewrite look_cons. destruct (a =? x) eqn:Ex; auto. apply Nat.eqb_eq in Ex. subst x. rewrite L in Lk. discriminate.
      * rewrite look_cons, Nat.eqb_refl. split; auto. intros x [= <-]. rewrite look_cons, Nat.eqb_refl. discriminate.
Qed.
End Copy.

Lemma copy_from_lemma : forall R (h0 h : list (sset R)) memo d v h1 e, memo_ok h0 h memo -> sees h0 d v -> copy_from memo h d = (h1, e) ->
  exists memo1, memo_ok h0 h1 memo1 /\ (forall a b, look memo a = Some b -> look memo1 a = Some b) /\
    sees h1 e v /\ (forall a, In a (refs e) -> length h0 <= a < length h1) /\
    (forall f, In f [r_in; r_out; r_prob; r_ein; r_eout; r_obs] -> f e = match f d with Some a => look memo1 a | None => None end) /\
    (forall a, In a (refs d) -> look memo1 a <> None).
Proof.
  intros R h0 h memo d v h1 e I0 V H. unfold copy_from in H.
  assert (Va : forall f a, is_place f -> f d = Some a -> a < length h0) by (intros f a Pl E; apply (sees_valid h0 d v a V); now apply (Pl d)).
  destruct (copy_place memo h (r_in d)) as [[h2 m2] i] eqn:C1. destruct (copy_place m2 h2 (r_out d)) as [[h3 m3] o] eqn:C2.
  destruct (copy_place m3 h3 (r_ein d)) as [[h4 m4] ei] eqn:C3. destruct (copy_place m4 h4 (r_eout d)) as [[h5 m5] eo] eqn:C4.
  destruct (copy_place m5 h5 (r_prob d)) as [[h6 m6] p] eqn:C5. destruct (copy_place m6 h6 (r_obs d)) as [[h7 m7] ob] eqn:C6.
  injection H as <- <-.
  destruct (copy_place_ok h0 h memo (r_in d) h2 m2 i I0 (fun a => Va _ a place_in) C1) as (I1 & G1 & E1 & L1).
  destruct (copy_place_ok h0 h2 m2 (r_out d) h3 m3 o I1 (fun a => Va _ a place_out) C2) as (I2 & G2 & E2 & L2).
  destruct (copy_place_ok h0 h3 m3 (r_ein d) h4 m4 ei I2 (fun a => Va _ a place_ein) C3) as (I3 & G3 & E3 & L3).
  destruct (copy_place_ok h0 h4 m4 (r_eout d) h5 m5 eo I3 (fun a => Va _ a place_eout) C4) as (I4 & G4 & E4 & L4).
  destruct (copy_place_ok h0 h5 m5 (r_prob d) h6 m6 p I4 (fun a => Va _ a place_prob) C5) as (I5 & G5 & E5 & L5).
  destruct (copy_place_ok h0 h6 m6 (r_obs d) h7 m7 ob I5 (fun a => Va _ a place_obs) C6) as (I6 & G6 & E6 & L6).
  assert (Fin : forall x y mk, x = match y with Some a => look mk a | None => None end -> (forall a, y = Some a -> look mk a <> None) ->
     (forall a b, look mk a = Some b -> look m7 a = Some b) -> match y with Some a => exists b, look m7 a = Some b /\ x = Some b | None => x = None end).
  { intros x [a|] mk -> L G; auto. specialize (L a eq_refl). destruct (look mk a) as [b|] eqn:Lb; [| congruence]. exists b. auto. }
  pose proof (Fin _ _ _ E1 L1 ltac:(auto 10)) as F1. pose proof (Fin _ _ _ E2 L2 ltac:(auto 10)) as F2.
  pose proof (Fin _ _ _ E3 L3 ltac:(auto 10)) as F3. pose proof (Fin _ _ _ E4 L4 ltac:(auto 10)) as F4.
  pose proof (Fin _ _ _ E5 L5 ltac:(auto 10)) as F5. pose proof (Fin _ _ _ E6 L6 ltac:(auto 10)) as F6.
  exists m7. split; [exact I6 |]. split; [auto 15 |].
  clear Fin E1 E2 E3 E4 E5 E6 L1 L2 L3 L4 L5 L6 G1 G2 G3 G4 G5 G6 I0 I1 I2 I3 I4 I5 C1 C2 C3 C4 C5 C6.
  destruct I6 as (J1 & J2 & J3).
  assert (See : forall x y s, match y with Some a => exists b, look m7 a = Some b /\ x = Some b | None => x = None end -> sees_place h0 y s -> sees_place h7 x s).
  { intros x [a|] s; cbn; [| intros -> ->; reflexivity]. intros (b & Lb & ->) [Ea n]. cbn. split; auto. rewrite <- Ea. now apply J2. }
  split; [| split; [| split]].
  - destruct V as (V1 & V2 & V3 & V4 & V5 & V6 & V7). unfold sees. cbn -[sees_place].
    split; [eapply See; eauto |]. split; [eapply See; eauto |]. split; [eapply See; eauto |]. split; [eapply See; eauto |]. split; [eapply See; eauto |]. split; [eapply See; eauto |]. exact V7.
  - intros b. unfold refs. cbn -[ref_list]. rewrite !in_app_iff.
    assert (In_ : forall x y, match y with Some a => exists b, look m7 a = Some b /\ x = Some b | None => x = None end -> In b (ref_list x) -> length h0 <= b < length h7).
    { intros x [a|]; [| intros ->; cbn; tauto]. intros (c & Lc & ->) [<- | []]. apply (J2 _ _ Lc). }
    intros [I | [I | [I | [I | [I | I]]]]]; eauto.
  - assert (Mp : forall x y, match y with Some a => exists b, look m7 a = Some b /\ x = Some b | None => x = None end ->
        x = match y with Some a => look m7 a | None => None end).
    { intros x [a|]; [| intros ->; reflexivity]. intros (b & Lb & ->). now rewrite Lb. }
    intros f [<- | [<- | [<- | [<- | [<- | [<- | []]]]]]]; cbn; auto.
  - intros a. unfold refs. rewrite !in_app_iff.
    assert (D : forall x y, match y with Some a => exists b, look m7 a = Some b /\ x = Some b | None => x = None end -> In a (ref_list y) -> look m7 a <> None).
    { intros x [c|]; [| cbn; tauto]. intros (b & Lb & _) [<- | []]. congruence. }
    intros [I | [I | [I | [I | [I | I]]]]]; eauto.
Qed.
Lemma memo_ok_nil {R} (h : list (sset R)) : memo_ok h h [].
Proof. split; [exists []; now rewrite app_nil_r |]. split; intros; discriminate. Qed.
Lemma copy_lemma : forall R (h : list (sset R)) d v h1 e, sees h d v -> r_copy h d = (h1, e) ->
  sees h1 e v /\ (exists new, h1 = h ++ new) /\ (forall a, In a (refs e) -> length h <= a < length h1) /\
  (exists m, (forall f, In f [r_in; r_out; r_prob; r_ein; r_eout; r_obs] -> f e = option_map m (f d)) /\
     (forall a b, In a (refs d) -> In b (refs d) -> m a = m b -> a = b)).
Proof.
  intros R h d v h1 e V H. unfold r_copy in H.
  destruct (copy_from_lemma R h h [] d v h1 e (memo_ok_nil h) V H) as (m7 & (J1 & J2 & J3) & _ & V1 & Fr & Pl & Dom).
  split; [exact V1 |]. split; [exact J1 |]. split; [exact Fr |].
  exists (fun a => match look m7 a with Some b => b | None => 0 end). split.
  - intros f Hf. rewrite (Pl f Hf). destruct (f d) as [a|] eqn:E; [| reflexivity]. cbn.
    assert (Ia : In a (refs d)).
    { destruct Hf as [<- | [<- | [<- | [<- | [<- | [<- | []]]]]]]; [apply (place_in d) | apply (place_out d) | apply (place_prob d) | apply (place_ein d) | apply (place_eout d) | apply (place_obs d)]; auto. }
    specialize (Dom a Ia). destruct (look m7 a); congruence.
  - intros a b Ia Ib. pose proof (Dom a Ia). pose proof (Dom b Ib). destruct (look m7 a) as [x|] eqn:Ex; [| congruence].
    destruct (look m7 b) as [y|] eqn:Ey; [| congruence]. intros <-. eauto.
Qed.

Lemma copy_independent_lemma : forall nn P h d v h1 e ops, sees h d v -> r_copy h d = (h1, e) ->
  (forall o a, In (0, o) ops -> In a (names o) -> a < length h) -> (forall o a, In (1, o) ops -> In a (names o) -> length h <= a) ->
  (forall i o, In (i, o) ops -> i < 2) ->
  forall i, let '(w1, rs) := wrun nn P ops (h1, [d; e]) in let '(w2, rs2) := wrun nn P (on i ops) (h1, [d; e]) in
  nth_error (snd w1) i = nth_error (snd w2) i /\
  (forall a, (i = 0 /\ a < length h) \/ (i = 1 /\ length h <= a) -> nth_error (fst w1) a = nth_error (fst w2) a) /\ on i rs = rs2.
Proof.
  intros nn P h d v h1 e ops V C N0 N1 Two i.
  destruct (copy_lemma _ h d v h1 e V C) as (_ & _ & Fr & _).
  pose proof (independent_lemma nn P (fun a => if a <? length h then 0 else 1) ops (h1, [d; e]) i) as H.
  destruct (wrun nn P ops (h1, [d; e])) as [w1 rs]. destruct (wrun nn P (on i ops) (h1, [d; e])) as [w2 rs2].
  destruct H as (A & B & D).
  - split.
    + intros j x a. cbn [snd]. destruct j as [|[|j]]; cbn [nth_error]; [intros [= <-] | intros [= <-] | destruct j; discriminate].
      * intros I. apply (sees_valid h d v a V) in I. apply Nat.ltb_lt in I. cbn beta. now rewrite I.
      * intros I. apply Fr in I. destruct (a <? length h) eqn:L; [apply Nat.ltb_lt in L; lia | reflexivity].
    + intros j o a I Na. specialize (Two j o I). destruct j as [|[|j]]; [| | lia].
      * specialize (N0 o a I Na). apply Nat.ltb_lt in N0. now rewrite N0.
      * specialize (N1 o a I Na). destruct (a <? length h) eqn:L; [apply Nat.ltb_lt in L; lia | reflexivity].
  - split; auto. split; auto. intros a Ha. apply B. destruct Ha as [[-> Ha] | [-> Ha]].
    + apply Nat.ltb_lt in Ha. now rewrite Ha.
    + destruct (a <? length h) eqn:L; [apply Nat.ltb_lt in L; lia | reflexivity].
Qed.

(** ** merge *)
Section Merge.
Context {R : Type}.
Lemma localized_keeps P (s s1 : sset R) : localized P s = Ok s1 -> same_but_local s s1.
Proof.
  unfold localized. destruct (loc s Values) eqn:L; [intros [= <-]; apply same_local_refl |].
  unfold global_to_local. destruct (check_num P s); cbn [bind]; [| discriminate]. intros [= <-].
  unfold same_but_local. cbn. repeat split; auto. congruence.
Qed.
Lemma localized_again P (s s1 : sset R) bs : localized P s = Ok s1 -> loc_values s1 = Ok bs -> localized P s1 = Ok s1.
Proof. intros _. unfold loc_values, localized. destruct (loc s1 Values); [reflexivity | discriminate]. Qed.
Lemma merge_sets_ok P (h : list (sset R)) x y s t m : nth_error h x = Some s -> nth_error h y = Some t -> x <> y -> merge P s t = Ok m ->
  exists s1 t1, localized P s = Ok s1 /\ localized P t = Ok t1 /\
    r_merge_sets P (Some x) (Some y) h = (write (write h x s1) y t1 ++ [m], Ok (length h)).
Proof.
  intros Hx Hy n H. unfold r_merge_sets. rewrite Hx, Hy.
  pose proof H as H0. unfold merge in H.
  destruct (negb (dim s =? dim t)) eqn:Ed; [discriminate |].
  set (b := match domain s, domain t with Some d, Some e => allclose d e | _, _ => true end) in *.
  assert (Eb : b = true).
  { unfold b. destruct (domain s), (domain t); auto. destruct (allclose _ _); auto; discriminate. }
  assert (H1 : (match domain s, domain t with Some d, Some e => if allclose d e then Ok tt else Raise DomainNotMatching | _, _ => Ok tt end) = Ok tt).
  { unfold b in Eb. destruct (domain s), (domain t); auto. now rewrite Eb. }
  rewrite H1 in H. cbn [bind] in H. rewrite Eb. cbn [negb].
  destruct (localized P s) as [s1|] eqn:Ls; cbn [bind] in H; [| discriminate].
  destruct (localized P t) as [t1|] eqn:Lt; cbn [bind] in H; [| discriminate].
  destruct (loc_values s1) as [xs|] eqn:Vs; cbn [bind] in H; [| discriminate].
  destruct (loc_values t1) as [ys|] eqn:Vt; cbn [bind] in H; [| discriminate].
  exists s1, t1. split; auto. split; auto. rewrite write_other by auto. rewrite Hy. cbn [need bind]. rewrite Lt.
  assert (M : merge P s1 t1 = Ok m).
  { unfold merge. destruct (localized_keeps P s s1 Ls) as (D1 & D2 & _). destruct (localized_keeps P t t1 Lt) as (D3 & D4 & _).
    rewrite D1, D2, D3, D4, Ed, H1. cbn [bind].
    rewrite (localized_again P s s1 xs Ls Vs), (localized_again P t t1 ys Lt Vt). cbn [bind]. rewrite Vs, Vt. cbn [bind]. exact H. }
  rewrite M. unfold alloc. now rewrite !write_length.
Qed.
Definition merging (h : list (sset R)) (ms : list (sset R)) (used : list nat) (hk : list (sset R)) : Prop :=
  length hk = length h + length ms /\ (forall a, a < length h -> ~ In a used -> nth_error hk a = nth_error h a) /\
  (forall a s, nth_error h a = Some s -> exists t, nth_error hk a = Some t /\ same_but_local s t) /\
  (forall j m, nth_error ms j = Some m -> nth_error hk (length h + j) = Some m).
Lemma merge_round P h ms used hk x y s t m : merging h ms used hk -> nth_error h x = Some s -> nth_error h y = Some t -> x <> y ->
  ~ In x used -> ~ In y used -> merge P s t = Ok m ->
  exists h', r_merge_sets P (Some x) (Some y) hk = (h', Ok (length h + length ms)) /\ merging h (ms ++ [m]) (x :: y :: used) h'.
Proof.
  intros (I1 & I2 & I3 & I4) Hx Hy n Ux Uy Mg.
  assert (Lx : x < length h) by (apply nth_error_Some; congruence). assert (Ly : y < length h) by (apply nth_error_Some; congruence).
  destruct (merge_sets_ok P hk x y s t m) as (s1 & t1 & A1 & A2 & A3); auto; try (rewrite I2; auto).
  rewrite I1 in A3. eexists. split; [exact A3 |]. 
  assert (Lw : length (write (write hk x s1) y t1) = length h + length ms) by (rewrite !write_length; exact I1).
  split; [| split; [| split]].
  - rewrite !app_length, Lw. cbn. lia.
  - intros a La Na. rewrite nth_error_app1 by lia. cbn in Na. rewrite !write_other by tauto. apply I2; tauto.
  - intros a u Ha. assert (La : a < length h) by (apply nth_error_Some; congruence). rewrite nth_error_app1 by lia.
    destruct (Nat.eq_dec a y) as [-> | ny].
    + rewrite write_same by (rewrite write_length; lia). exists t1. split; auto. rewrite Hy in Ha. injection Ha as <-. eapply localized_keeps; eauto.
    + rewrite write_other by auto. destruct (Nat.eq_dec a x) as [-> | nx].
      * rewrite write_same by lia. exists s1. split; auto. rewrite Hx in Ha. injection Ha as <-. eapply localized_keeps; eauto.
      * rewrite write_other by auto. now apply I3.
  - intros j m' Hj. destruct (Nat.eq_dec j (length ms)) as [-> | nj].
    + rewrite nth_error_app2 in Hj by lia. rewrite Nat.sub_diag in Hj. cbn in Hj. injection Hj as <-.
      rewrite nth_error_app2 by lia. rewrite Lw, Nat.sub_diag. reflexivity.
    + assert (Lj : j < length ms).
      { assert (j < length (ms ++ [m])) by (apply nth_error_Some; congruence). rewrite app_length in *. cbn in *. lia. }
      rewrite nth_error_app1 in Hj by auto. rewrite nth_error_app1 by lia. rewrite !write_other by lia. now apply I4.
Qed.
End Merge.

Lemma need_ok {A} (o : option A) x : need o = Ok x -> o = Some x.
Proof. destruct o; cbn; congruence. Qed.
Lemma not_or_split (A B : Prop) : ~ (A \/ B) -> ~ A /\ ~ B.
Proof. tauto. Qed.
Ltac flat := repeat match goal with
  | H : _ /\ _ |- _ => destruct H
  | H : ~ (_ \/ _) |- _ => apply not_or_split in H
  | H : ~ False |- _ => clear H
  end.
Ltac apart := repeat match goal with
  | |- _ /\ _ => split
  | |- ~ _ => intro
  | H : _ \/ _ |- _ => destruct H
  | H : False |- _ => destruct H
  | H : ?a = ?b, N : ?a <> ?b |- _ => destruct (N H)
  | H : ?a = ?b, N : ?b <> ?a |- _ => destruct (N (eq_sym H))
  end.
Lemma eight_apart (i o ei eo i' o' ei' eo' : nat) : NoDup [i; o; ei; eo; i'; o'; ei'; eo'] ->
  i <> i' /\ o <> o' /\ ei <> ei' /\ eo <> eo' /\
  ~ In o [i; i'] /\ ~ In o' [i; i'] /\ ~ In ei [o; o'; i; i'] /\ ~ In ei' [o; o'; i; i'] /\
  ~ In eo [ei; ei'; o; o'; i; i'] /\ ~ In eo' [ei; ei'; o; o'; i; i'].
Proof.
  rewrite !NoDup_cons_iff. cbn [In]. intros N. flat. apart.
Qed.
Lemma merge_lemma : forall R P (h : list (sset R)) d e v w m, NoDup (refs d ++ refs e) -> sees h d v -> sees h e w -> merge_disc P v w = Ok m ->
  exists h1 r, r_merge P h d e = (h1, Ok r) /\ sees h1 r m /\ extends same_but_local h h1 /\
    r_prob r = r_prob d /\ r_obs r = None /\
    (forall f a, In f [r_in; r_out; r_ein; r_eout] -> f r = Some a -> length h <= a < length h1).
Proof.
  intros R P h d e v w m N V W H. unfold merge_disc, merge_opt in H.
  destruct (need (d_in v)) as [s1|] eqn:E1; cbn [bind] in H; [| discriminate]. destruct (need (d_in w)) as [t1|] eqn:F1; cbn [bind] in H; [| discriminate].
  destruct (merge P s1 t1) as [m1|] eqn:M1; cbn [bind] in H; [| discriminate].
  destruct (need (d_out v)) as [s2|] eqn:E2; cbn [bind] in H; [| discriminate]. destruct (need (d_out w)) as [t2|] eqn:F2; cbn [bind] in H; [| discriminate].
  destruct (merge P s2 t2) as [m2|] eqn:M2; cbn [bind] in H; [| discriminate].
  destruct (need (d_ein v)) as [s3|] eqn:E3; cbn [bind] in H; [| discriminate]. destruct (need (d_ein w)) as [t3|] eqn:F3; cbn [bind] in H; [| discriminate].
  destruct (merge P s3 t3) as [m3|] eqn:M3; cbn [bind] in H; [| discriminate].
  destruct (need (d_eout v)) as [s4|] eqn:E4; cbn [bind] in H; [| discriminate]. destruct (need (d_eout w)) as [t4|] eqn:F4; cbn [bind] in H; [| discriminate].
  destruct (merge P s4 t4) as [m4|] eqn:M4; cbn [bind] in H; [| discriminate].
  apply need_ok in E1, E2, E3, E4, F1, F2, F3, F4.
  pose proof V as (V1 & V2 & V3 & V4 & V5 & _). pose proof W as (W1 & W2 & _ & W4 & W5 & _).
  assert (Vp : forall a, r_prob d = Some a -> a < length h) by (intros a Ea; apply (sees_valid h d v a V); now apply (place_prob d)).
  rewrite E1 in V1. rewrite E2 in V2. rewrite E3 in V4. rewrite E4 in V5. rewrite F1 in W1. rewrite F2 in W2. rewrite F3 in W4. rewrite F4 in W5.
  unfold refs in N.
  destruct (r_in d) as [i|] eqn:Di; [| discriminate]. destruct (r_out d) as [o|] eqn:Do; [| discriminate]. destruct (r_ein d) as [ei|] eqn:Dei; [| discriminate]. destruct (r_eout d) as [eo|] eqn:Deo; [| discriminate].
  destruct (r_in e) as [i'|] eqn:Ri; [| discriminate]. destruct (r_out e) as [o'|] eqn:Ro; [| discriminate]. destruct (r_ein e) as [ei'|] eqn:Rei; [| discriminate]. destruct (r_eout e) as [eo'|] eqn:Reo; [| discriminate].
  destruct V1 as [V1 _], V2 as [V2 _], V4 as [V4 _], V5 as [V5 _], W1 as [W1 _], W2 as [W2 _], W4 as [W4 _], W5 as [W5 _].
  assert (Dis : NoDup [i; o; ei; eo; i'; o'; ei'; eo'] /\ forall a, r_prob d = Some a -> ~ In a [i; o; ei; eo; i'; o'; ei'; eo']).
  { clear - N. destruct (r_prob d) as [p|], (r_obs d) as [ob|], (r_prob e) as [p'|], (r_obs e) as [ob'|]; cbn [ref_list app] in N;
      rewrite !NoDup_cons_iff in N; cbn [In] in N; flat;
      (split; [rewrite !NoDup_cons_iff; cbn [In]; apart; try constructor |]);
      intros a [= <-]; cbn [In]; apart. }
  destruct Dis as [Dis Dp]. apply eight_apart in Dis. destruct Dis as (n1 & n2 & n3 & n4 & u2 & u2' & u3 & u3' & u4 & u4'). clear N.
  assert (G0 : merging h [] [] h).
  { split; [cbn; lia |]. split; [auto |]. split; [intros a s Ha; exists s; split; auto; apply same_local_refl |]. intros [|j]; discriminate. }
  destruct (merge_round P _ _ _ _ _ _ _ _ _ G0 V1 W1 n1 (@in_nil _ _) (@in_nil _ _) M1) as (h1 & R1 & G1).
  destruct (merge_round P _ _ _ _ _ _ _ _ _ G1 V2 W2 n2 u2 u2' M2) as (h2 & R2 & G2).
  destruct (merge_round P _ _ _ _ _ _ _ _ _ G2 V4 W4 n3 u3 u3' M3) as (h3 & R3 & G3).
  destruct (merge_round P _ _ _ _ _ _ _ _ _ G3 V5 W5 n4 u4 u4' M4) as (h4 & R4 & G4).
  cbn [app length] in R1, R2, R3, R4, G4. rewrite ?Nat.add_0_r in R1.
  unfold r_merge. rewrite Di, Do, Dei, Deo, Ri, Ro, Rei, Reo.
  destruct G4 as (L4 & K4 & S4 & A4).
  assert (T1 : sees_place h4 (Some (length h)) (Some m1)) by (split; [specialize (A4 0 m1 eq_refl); now rewrite Nat.add_0_r in A4 | discriminate]).
  assert (T2 : sees_place h4 (Some (length h + 1)) (Some m2)) by (split; [apply A4; reflexivity | discriminate]).
  assert (T3 : sees_place h4 (Some (length h + 2)) (Some m3)) by (split; [apply A4; reflexivity | discriminate]).
  assert (T4 : sees_place h4 (Some (length h + 3)) (Some m4)) by (split; [apply A4; reflexivity | discriminate]).
  assert (Tp : sees_place h4 (r_prob d) (d_prob v)).
  { destruct (r_prob d) as [p|]; [| exact V3]. destruct V3 as [V3 n]. split; auto. rewrite K4; auto.
    specialize (Dp p eq_refl). cbn [In] in Dp |- *. tauto. }
  pose proof (new_refines P h4 _ _ _ _ _ None _ _ _ _ _ None T1 T2 Tp T3 T4 eq_refl) as N.
  rewrite H in N. destruct N as [N ->].
  exists h4. eexists. split; [| split; [| split; [| split; [| split]]]].
  - rewrite R1, R2, R3, R4. exact N.
  - unfold sees. cbn -[sees_place]. repeat match goal with |- _ /\ _ => split end; auto; reflexivity.
  - split; [lia | exact S4].
  - reflexivity.
  - reflexivity.
  - intros f a [<- | [<- | [<- | [<- | []]]]]; cbn; intros [= <-]; cbn in L4; lia.
Qed.
