From Coq Require Import List Arith Bool QArith Qcanon Lia Permutation.
From Verif Require Import Err Num Lists NumPy SampleSet_Model SampleSet_Spec SampleSet_Proofs
  Volume_Model Volume_Spec Volume_Proofs Bounds_Model Bounds_Spec.
Import ListNotations.
Local Open Scope nat_scope.
Local Open Scope err_scope.

(** *** Pointwise bounds *)
Lemma glob_set_same (a : attr) x (s : pset) : glob (set_glob a x s) a = x.
Proof. simpl. apply upd_same. Qed.
Lemma glob_set_other (a b : attr) x (s : pset) : b <> a -> glob (set_glob a x s) b = glob s b.
Proof. intro. simpl. apply upd_other. assumption. Qed.

Lemma constant_rows_repeat n (v : pt) ts : constant_rows (Some (mk_arr (repeat v n) ts)) n v.
Proof. eexists. split; [reflexivity|]. simpl. split; [apply repeat_length|]. intros r H. eapply repeat_spec, H. Qed.

Lemma update_bounds_spec s n d : valid_set s n -> domain s = Some d ->
  exists s', update_bounds None s = Ok s' /\
    constant_rows (glob s' Left_) n (map fst d) /\ constant_rows (glob s' Right_) n (map snd d) /\
    constant_rows (glob s' Width_) n (map (fun p => (snd p - fst p)%Qc) d) /\
    (forall a, a <> Left_ -> a <> Right_ -> a <> Width_ -> glob s' a = glob s a) /\
    valid_set s' n.
Proof.
  intros (HA & x & GV & TV) D. unfold update_bounds. simpl. rewrite GV. simpl. rewrite D.
  pose proof (HA _ _ GV) as L. rewrite L. eexists. split; [reflexivity|].
  split. { rewrite glob_set_other, glob_set_other, glob_set_same by discriminate. apply constant_rows_repeat. }
  split. { rewrite glob_set_other, glob_set_same by discriminate. apply constant_rows_repeat. }
  split. { rewrite glob_set_same. apply constant_rows_repeat. }
  split. { intros a A1 A2 A3. rewrite !glob_set_other by assumption. reflexivity. }
  split.
  - intros a y G. destruct (attr_eq_dec a Width_) as [->|A3].
    { rewrite glob_set_same in G. injection G as <-. apply repeat_length. }
    rewrite glob_set_other in G by exact A3. destruct (attr_eq_dec a Right_) as [->|A2].
    { rewrite glob_set_same in G. injection G as <-. apply repeat_length. }
    rewrite glob_set_other in G by exact A2. destruct (attr_eq_dec a Left_) as [->|A1].
    { rewrite glob_set_same in G. injection G as <-. apply repeat_length. }
    rewrite glob_set_other in G by exact A1. eapply HA, G.
  - exists x. rewrite !glob_set_other by discriminate. split; [exact GV | exact TV].
Qed.

Lemma update_bounds_other_number s n d k : valid_set s n -> domain s = Some d -> k <> n ->
  exists s', update_bounds (Some k) s = Ok s' /\ forall P, check_num P s' = Raise LengthNotMatching.
Proof.
  intros (HA & x & GV & TV) D N. unfold update_bounds. simpl. rewrite D. eexists. split; [reflexivity|].
  intro P. apply check_num_length.
  - exists Values, x. rewrite !glob_set_other by discriminate. exact GV.
  - exists Values, Width_, x. eexists. rewrite glob_set_same, !glob_set_other by discriminate.
    split; [exact GV|]. split; [reflexivity|]. simpl. rewrite repeat_length, (HA _ _ GV). congruence.
Qed.

Lemma repeat_map_const {A B} (v : B) (l : list A) : repeat v (length l) = map (fun _ => v) l.
Proof. induction l; simpl; congruence. Qed.

Lemma split_constant {A} P (x : arr A) (v : pt) ts :
  split_arr P (mk_arr (repeat v (length (rows x))) ts) =
  map (fun b => mk_arr (repeat v (length (rows b))) ts) (split_arr P x).
Proof.
  unfold split_arr. simpl. rewrite repeat_map_const, array_split_map, !map_map. simpl.
  apply map_ext. intro b. rewrite repeat_map_const. reflexivity.
Qed.

Lemma bounds_commute P s s1 s2 t1 t2 : 0 < P -> glob s Values <> None ->
  global_to_local P s = Ok s1 -> update_bounds_local s1 = Ok s2 ->
  update_bounds None s = Ok t1 -> global_to_local P t1 = Ok t2 ->
  loc s2 Left_ = loc t2 Left_ /\ loc s2 Right_ = loc t2 Right_ /\ loc s2 Width_ = loc t2 Width_.
Proof.
  intros HP NV H1 H2 H3 H4.
  destruct (g2l_inv _ _ _ H1) as (n & _ & Eg & _ & _ & Ed & _ & _ & El).
  destruct (g2l_inv _ _ _ H4) as (m & _ & _ & _ & _ & _ & _ & _ & El').
  unfold update_bounds in H3. simpl in H3. unfold update_bounds_local in H2.
  destruct (glob s Values) as [x|] eqn:GV; [|congruence]. simpl in H3.
  rewrite El, GV in H2. rewrite Ed in H2.
  destruct (domain s) as [d|]; [|discriminate]. injection H2 as <-. injection H3 as <-.
  rewrite !El'. simpl. unfold upd. simpl. rewrite !split_constant. repeat split.
Qed.

Lemma bounds_commute_total P s n d : 0 < P -> valid_set s n -> domain s = Some d ->
  exists s1 s2 t1 t2, global_to_local P s = Ok s1 /\ update_bounds_local s1 = Ok s2 /\
    update_bounds None s = Ok t1 /\ global_to_local P t1 = Ok t2.
Proof.
  intros HP V D. destruct (update_bounds_spec s n d V D) as (t1 & T1 & _ & _ & _ & _ & V1).
  assert (G : forall t : pset, valid_set t n -> exists t', global_to_local P t = Ok t').
  { intros t (HA & x & GV & TV). unfold global_to_local.
    rewrite (proj2 (check_num_ok P t n (ex_intro _ Values (ex_intro _ x GV)))); [eexists; reflexivity|].
    split; [exact HA|]. intros y Gy. rewrite GV in Gy. injection Gy as <-. exists []. exact TV. }
  destruct (G s V) as [s1 S1]. destruct (G t1 V1) as [t2 T2]. exists s1.
  destruct (g2l_inv _ _ _ S1) as (k & _ & Eg & _ & _ & Ed & _ & _ & El).
  unfold update_bounds_local. destruct V as (_ & x & GV & _). rewrite El, GV, Ed, D.
  eexists. exists t1, t2. repeat split; auto.
Qed.

(** *** Relative coordinates *)
Lemma scale_place d u : scale_pt d u = place d u.
Proof.
  revert u; induction d as [|[l r] d IH]; intros [|t u]; try reflexivity.
  unfold scale_pt in *. simpl. rewrite IH. f_equal. ring.
Qed.
Lemma unit_relative d x : unit_pt d x = relative d x.
Proof. revert x; induction d as [|[l r] d IH]; intros [|v x]; try reflexivity. unfold unit_pt in *. simpl. rewrite IH. reflexivity. Qed.

Lemma qc_sub_pos l r : (l < r)%Qc -> (0 < r - l)%Qc.
Proof. intro. qc_lra. Qed.

Lemma relative_unit_cube d x : (forall p, In p d -> (fst p < snd p)%Qc) -> length x = length d ->
  (in_box (unit_cube (length d)) (relative d x) <-> in_box d x).
Proof.
  intros H. revert x; induction d as [|[l r] d IH]; intros [|v x] L; simpl in L; try discriminate.
  - simpl. split; constructor.
  - assert (W : (0 < r - l)%Qc) by (apply qc_sub_pos, (H (l, r)); left; reflexivity).
    assert (IH' := IH (fun p Hp => H p (or_intror Hp)) x ltac:(lia)). clear IH.
    unfold unit_cube, in_box in *. simpl. split; intro F; inversion_clear F as [|? ? ? ? [F1 F2] F']; constructor; simpl in *.
    + split.
      * assert (E : (v - l = (v - l) / (r - l) * (r - l))%Qc) by (symmetry; apply qc_div_mul, Qclt_neq0, W).
        assert ((0 <= (v - l) / (r - l) * (r - l))%Qc) by (apply qc_mul_nonneg; [exact F1 | apply Qclt_le_weak, W]).
        rewrite <- E in H0. qc_lra.
      * assert (E : (v - l = (v - l) / (r - l) * (r - l))%Qc) by (symmetry; apply qc_div_mul, Qclt_neq0, W).
        assert (K : ((r - l) * ((v - l) / (r - l)) <= (r - l) * 1)%Qc) by (apply qc_mul_le_l; [apply Qclt_le_weak, W | exact F2]).
        rewrite Qcmult_comm, <- E in K. qc_lra.
    + apply IH', F'.
    + split; [apply qc_le_div | apply qc_div_le]; try exact W; qc_lra.
    + apply IH', F'.
Qed.

Lemma place_in_box d u : (forall p, In p d -> (fst p < snd p)%Qc) -> in_box (unit_cube (length d)) u -> in_box d (place d u).
Proof.
  intros H. revert u; induction d as [|[l r] d IH]; intros u F; inversion F; subst; [constructor|].
  assert (W : (0 < r - l)%Qc) by (apply qc_sub_pos, (H (l, r)); left; reflexivity).
  simpl. constructor; [|apply IH; [intros p Hp; apply H; right; exact Hp | assumption]].
  simpl in *. destruct H2 as [A B].
  assert (0 <= y * (r - l))%Qc by (apply qc_mul_nonneg; [exact A | apply Qclt_le_weak, W]).
  assert ((r - l) * y <= (r - l) * 1)%Qc by (apply qc_mul_le_l; [apply Qclt_le_weak, W | exact B]).
  split; qc_lra.
Qed.

Lemma place_relative d x : (forall p, In p d -> (fst p < snd p)%Qc) -> length x = length d -> place d (relative d x) = x.
Proof.
  intros H. revert x; induction d as [|[l r] d IH]; intros [|v x] L; simpl in L; try discriminate; [reflexivity|].
  assert (W : (0 < r - l)%Qc) by (apply qc_sub_pos, (H (l, r)); left; reflexivity).
  simpl. rewrite IH by (try lia; intros p Hp; apply H; right; exact Hp). f_equal.
  rewrite qc_div_mul by (apply Qclt_neq0, W). ring.
Qed.

Lemma unit_cube_both d x : (forall p, In p d -> (fst p < snd p)%Qc) -> length x = length d ->
  (in_box (unit_cube (length d)) (unit_pt d x) <-> in_box d x) /\ scale_pt d (unit_pt d x) = x.
Proof. intros H L. rewrite scale_place, unit_relative. split; [apply relative_unit_cube | apply place_relative]; assumption. Qed.

(** *** Appending *)
Lemma append_rows x v (s : pset) : glob s Values = Some v -> tail_shape v = tail_shape x ->
  exists s', append_values Voronoi x s = Ok s' /\ glob s' Values = Some (mk_arr (rows v ++ rows x) (tail_shape v)) /\
    (forall a, a <> Values -> glob s' a = glob s a) /\ kd s' = kd s /\ loc s' = loc s /\ dim s' = dim s /\ domain s' = domain s.
Proof.
  intros G T. unfold append_values. rewrite G. unfold concat_arr. destruct (shape_eq_dec _ _); [|congruence]. simpl.
  eexists. split; [reflexivity|]. split; [apply glob_set_same|]. split; [intros a N; apply glob_set_other, N|]. repeat split.
Qed.

Lemma append_inv x (s s' : pset) : append_values Voronoi x s = Ok s' ->
  exists v, glob s Values = Some v /\ tail_shape v = tail_shape x /\ s' = set_glob Values (Some (mk_arr (rows v ++ rows x) (tail_shape v))) s.
Proof.
  unfold append_values. destruct (glob s Values) as [v|]; [|discriminate]. unfold concat_arr.
  destruct (shape_eq_dec _ _) as [E|]; [|discriminate]. simpl. intros [= <-]. eauto.
Qed.

Lemma append_check P x (s s' : pset) n : valid_set s n -> rows x <> [] -> append_values Voronoi x s = Ok s' ->
  (check_num P s' = Ok (n + length (rows x)) <-> forall a, a <> Values -> glob s a = None) /\
  (check_num P s' = Raise LengthNotMatching <-> exists a, a <> Values /\ glob s a <> None).
Proof.
  intros (HA & v0 & GV & TV) N H. destruct (append_inv _ _ _ H) as (v & G & T & ->).
  rewrite GV in G. injection G as <-. pose proof (HA _ _ GV) as L.
  set (s' := set_glob _ _ s). assert (GV' : glob s' Values = Some (mk_arr (rows v0 ++ rows x) (tail_shape v0))) by apply glob_set_same.
  assert (HG : has_global s') by (exists Values; eexists; exact GV').
  assert (NL : 0 < length (rows x)) by (destruct (rows x); [congruence | simpl; lia]).
  assert (A1 : (forall a, a <> Values -> glob s a = None) -> check_num P s' = Ok (n + length (rows x))).
  { intro K. apply check_num_ok; [exact HG|]. split.
    - intros a y Gy. destruct (attr_eq_dec a Values) as [->|Na].
      + rewrite GV' in Gy. injection Gy as <-. simpl. rewrite app_length, L. reflexivity.
      + unfold s' in Gy. rewrite glob_set_other, K in Gy by exact Na. discriminate.
    - intros y Gy. rewrite GV' in Gy. injection Gy as <-. exists []. exact TV. }
  assert (A2 : (exists a, a <> Values /\ glob s a <> None) -> check_num P s' = Raise LengthNotMatching).
  { intros (a & Na & Ga). destruct (glob s a) as [y|] eqn:Gy; [|congruence]. apply check_num_length; [exact HG|].
    exists Values, a. eexists. exists y. split; [exact GV'|]. split; [unfold s'; rewrite glob_set_other by exact Na; exact Gy|].
    simpl. rewrite app_length, L, (HA _ _ Gy). lia. }
  assert (D : (forall a, a <> Values -> glob s a = None) \/ (exists a, a <> Values /\ glob s a <> None)).
  { assert (Hd : forall l : list attr, (forall a, In a l -> a <> Values -> glob s a = None) \/ (exists a, a <> Values /\ glob s a <> None)).
    { induction l as [|a l [IH|IH]]; [left; intros a [] | | right; exact IH].
      destruct (attr_eq_dec a Values) as [->|Na].
      - left. intros b [<-|Hb] Nb; [congruence | auto].
      - destruct (glob s a) as [y|] eqn:Gy.
        + right. exists a. split; [exact Na | congruence].
        + left. intros b [<-|Hb] Nb; auto. }
    destruct (Hd all_attrs) as [K|K]; [left; intros a; apply K, all_attrs_complete | right; exact K]. }
  split; split; auto; intro C; destruct D as [D|D]; auto.
  - rewrite A2 in C by exact D. discriminate.
  - rewrite A1 in C by exact D. discriminate.
Qed.

Lemma append_after_query nn P p q x (s s1 s2 : pset) i : kd s = None ->
  query nn P p s = Ok (i, s1) -> rows x <> [] -> append_values Voronoi x s1 = Ok s2 ->
  query nn P q s2 = Raise LengthNotMatching.
Proof.
  intros K Q N A. unfold query in Q. rewrite K in Q. unfold set_kdtree in Q.
  destruct (glob s Values) as [v|] eqn:G; [|discriminate]. simpl in Q. injection Q as _ <-.
  destruct (append_inv _ _ _ A) as (w & Gw & _ & ->). simpl in Gw. rewrite upd_other, G in Gw by discriminate. injection Gw as <-.
  eapply stale_length_detected; [apply glob_set_same | rewrite glob_set_other by discriminate; simpl; apply upd_same | reflexivity |].
  simpl. rewrite app_length. destruct (rows x); [congruence | simpl; lia].
Qed.

Lemma append_then_tree dist nn P q x v (s s1 : pset) : nn_contract dist nn -> glob s Values = Some v -> tail_shape v = [dim s] ->
  (forall a, a <> Values -> a <> KdtreeValues -> glob s a = None) -> rows v ++ rows x <> [] ->
  append_values Voronoi x s = Ok s1 ->
  exists s2 i s3, set_kdtree s1 = Ok s2 /\ query nn P q s2 = Ok (i, s3) /\ nearest dist (rows v ++ rows x) q i.
Proof.
  intros C G T H N A. destruct (append_inv _ _ _ A) as (w & Gw & Tw & ->). rewrite G in Gw. injection Gw as <-.
  set (z := mk_arr (rows v ++ rows x) (tail_shape v)).
  unfold set_kdtree. rewrite glob_set_same. eexists. exists (nn (rows z) q). eexists. split; [reflexivity|].
  split.
  - unfold query. simpl kd. cbv iota.
    match goal with |- context [check_num P ?t] => assert (E : check_num P t = Ok (length (rows z))) end.
    { apply check_num_ok; [exists Values, z; simpl; unfold upd; simpl; reflexivity|]. split.
      - intros a y Gy. simpl in Gy. unfold upd in Gy. destruct (attr_eq_dec a KdtreeValues); [congruence|].
        destruct (attr_eq_dec a Values); [congruence|]. rewrite H in Gy by assumption. discriminate.
      - intros y Gy. simpl in Gy. unfold upd in Gy. simpl in Gy. injection Gy as <-. exists []. exact T. }
    rewrite E. reflexivity.
  - apply C. exact N.
Qed.

(** *** The bounding box *)
Section MinMax.
Lemma col_min_spec l : forall r, Forall (fun x => length x = length r) l ->
  length (col_min r l) = length r /\
  (forall x, In x (r :: l) -> Forall2 (fun a b => (a <= b)%Qc) (col_min r l) x) /\
  (forall c, (forall x, In x (r :: l) -> Forall2 (fun a b => (a <= b)%Qc) c x) -> Forall2 (fun a b => (a <= b)%Qc) c (col_min r l)).
Proof.
  induction l as [|r' l IH]; intros r F; simpl.
  - split; [reflexivity|]. split.
    + intros x [<-|[]]. clear F. induction r; constructor; auto. apply Qcle_refl.
    + intros c H. apply H. left. reflexivity.
  - inversion_clear F as [|? ? L F']. set (m := map (fun p => qmin (fst p) (snd p)) (combine r r')).
    assert (Lm : length m = length r) by (unfold m; rewrite map_length, combine_length, L; apply Nat.min_id).
    destruct (IH m) as (I1 & I2 & I3). { eapply Forall_impl; [|exact F']. simpl. intros; congruence. }
    assert (Mr : Forall2 (fun a b => (a <= b)%Qc) m r /\ Forall2 (fun a b => (a <= b)%Qc) m r').
    { unfold m. clear -L. revert r' L; induction r as [|a r IH]; intros [|b r'] L; simpl in L; try discriminate; simpl; [split; constructor|].
      destruct (IH r') as [A B]; [lia|]. split; constructor; auto; simpl; [apply qmin_le_l | apply qmin_le_r]. }
    assert (Tr : forall a b c, Forall2 (fun a b => (a <= b)%Qc) a b -> Forall2 (fun a b => (a <= b)%Qc) b c -> Forall2 (fun a b => (a <= b)%Qc) a c).
    { clear. intros a b c H. revert c; induction H; intros c K; inversion_clear K; constructor; [eapply Qcle_trans; eassumption | auto]. }
    split; [congruence|]. split.
    + intros x [<-|[<-|Hx]].
      * eapply Tr; [apply I2; left; reflexivity | apply Mr].
      * eapply Tr; [apply I2; left; reflexivity | apply Mr].
      * apply I2. right. exact Hx.
    + intros c H. apply I3. intros x [<-|Hx]; [|apply H; right; right; exact Hx].
      assert (H1 := H r (or_introl eq_refl)). assert (H2 := H r' (or_intror (or_introl eq_refl))). unfold m.
      clear -H1 H2. revert r' H2; induction H1; intros r' H2; inversion_clear H2; simpl; constructor; auto. simpl.
      destruct (qmin_cases y y0) as [->| ->]; assumption.
Qed.
Lemma col_max_spec l : forall r, Forall (fun x => length x = length r) l ->
  length (col_max r l) = length r /\
  (forall x, In x (r :: l) -> Forall2 (fun a b => (b <= a)%Qc) (col_max r l) x) /\
  (forall c, (forall x, In x (r :: l) -> Forall2 (fun a b => (b <= a)%Qc) c x) -> Forall2 (fun a b => (b <= a)%Qc) c (col_max r l)).
Proof.
  induction l as [|r' l IH]; intros r F; simpl.
  - split; [reflexivity|]. split.
    + intros x [<-|[]]. clear F. induction r; constructor; auto. apply Qcle_refl.
    + intros c H. apply H. left. reflexivity.
  - inversion_clear F as [|? ? L F']. set (m := map (fun p => qmax (fst p) (snd p)) (combine r r')).
    assert (Lm : length m = length r) by (unfold m; rewrite map_length, combine_length, L; apply Nat.min_id).
    destruct (IH m) as (I1 & I2 & I3). { eapply Forall_impl; [|exact F']. simpl. intros; congruence. }
    assert (Mr : Forall2 (fun a b => (b <= a)%Qc) m r /\ Forall2 (fun a b => (b <= a)%Qc) m r').
    { unfold m. clear -L. revert r' L; induction r as [|a r IH]; intros [|b r'] L; simpl in L; try discriminate; simpl; [split; constructor|].
      destruct (IH r') as [A B]; [lia|]. split; constructor; auto; simpl; [apply qmax_ge_l | apply qmax_ge_r]. }
    assert (Tr : forall a b c, Forall2 (fun a b => (b <= a)%Qc) a b -> Forall2 (fun a b => (b <= a)%Qc) b c -> Forall2 (fun a b => (b <= a)%Qc) a c).
    { clear. intros a b c H. revert c; induction H; intros c K; inversion_clear K; constructor; [eapply Qcle_trans; eassumption | auto]. }
    split; [congruence|]. split.
    + intros x [<-|[<-|Hx]].
      * eapply Tr; [apply I2; left; reflexivity | apply Mr].
      * eapply Tr; [apply I2; left; reflexivity | apply Mr].
      * apply I2. right. exact Hx.
    + intros c H. apply I3. intros x [<-|Hx]; [|apply H; right; right; exact Hx].
      assert (H1 := H r (or_introl eq_refl)). assert (H2 := H r' (or_intror (or_introl eq_refl))). unfold m.
      clear -H1 H2. revert r' H2; induction H1; intros r' H2; inversion_clear H2; simpl; constructor; auto. simpl.
      destruct (qmax_cases y y0) as [->| ->]; assumption.
Qed.
End MinMax.

Lemma in_box_split (lo hi x : pt) : length lo = length hi ->
  (in_box (combine lo hi) x <-> Forall2 (fun a b => (a <= b)%Qc) lo x /\ Forall2 (fun a b => (b <= a)%Qc) hi x).
Proof.
  revert hi x; induction lo as [|a lo IH]; intros [|b hi] x L; simpl in L; try discriminate; unfold in_box; simpl.
  - split; [intro F; inversion F; split; constructor | intros [F _]; inversion F; constructor].
  - split.
    + intro F. inversion_clear F as [|? ? ? ? [A B] F']. apply (IH hi) in F'; [|lia]. destruct F'. split; constructor; auto.
    + intros [F G]. inversion F; subst. inversion G; subst. constructor; [split; auto|]. apply (IH hi); [lia | split; auto].
Qed.

Lemma computed_box r l : Forall (fun x => length x = length r) l -> smallest_box (combine (col_min r l) (col_max r l)) (r :: l).
Proof.
  intro F. destruct (col_min_spec l r F) as (L1 & M1 & M2). destruct (col_max_spec l r F) as (L2 & N1 & N2).
  assert (L : length (col_min r l) = length (col_max r l)) by congruence. split.
  - intros x Hx. apply in_box_split; [exact L|]. split; auto.
  - intros c H. rewrite <- (map_id c) in H.
    assert (Hc : forall x, In x (r :: l) -> Forall2 (fun a b => (a <= b)%Qc) (map fst c) x /\ Forall2 (fun a b => (b <= a)%Qc) (map snd c) x).
    { intros x Hx. apply in_box_split; [rewrite !map_length; reflexivity|].
      specialize (H x Hx). rewrite map_id in H. clear -H. revert x H; induction c as [|[a b] c IH]; intros x H; inversion_clear H; simpl; constructor; auto. apply IH; assumption. }
    assert (A := M2 (map fst c) (fun x Hx => proj1 (Hc x Hx))). assert (B := N2 (map snd c) (fun x Hx => proj2 (Hc x Hx))).
    clear -A B L. revert c A B; generalize dependent (col_max r l). generalize (col_min r l) as lo.
    induction lo as [|a lo IH]; intros [|b hi] L [|[p q] c] A B; simpl in L, A, B; try discriminate;
      try (inversion A; fail); try (inversion B; fail); [constructor|].
    inversion_clear A. inversion_clear B. constructor; [split; assumption|]. apply (IH hi); try assumption. lia.
Qed.

Lemma set_box_spec b b' : set_bounding_box b = Ok b' ->
  exists v c, glob (bset b) Values = Some v /\ rows v <> [] /\ bset b' = bset b /\ box b' = Some c /\
    ((forall r, In r (rows v) -> length r = dim (bset b)) -> smallest_box c (rows v)).
Proof.
  unfold set_bounding_box. destruct (glob (bset b) Values) as [v|] eqn:G; [|discriminate].
  destruct (rows v) as [|r l] eqn:E; [discriminate|]. intros [= <-]. exists v. eexists.
  split; [reflexivity|]. split; [rewrite E; discriminate|]. split; [reflexivity|]. split; [reflexivity|]. rewrite E. intro H.
  apply computed_box. apply Forall_forall. intros x Hx. rewrite (H x) by (right; exact Hx). symmetry. apply H. left. reflexivity.
Qed.

Lemma get_box_spec b c b' : get_bounding_box b = Ok (c, b') ->
  bset b' = bset b /\ box b' = Some c /\
  (box b = Some c \/ (box b = None /\ exists v, glob (bset b) Values = Some v /\ rows v <> [] /\
     ((forall r, In r (rows v) -> length r = dim (bset b)) -> smallest_box c (rows v)))).
Proof.
  unfold get_bounding_box. destruct (box b) as [x|] eqn:B.
  - intros [= <- <-]. auto.
  - destruct (set_bounding_box b) as [b1|] eqn:S; [|discriminate]. simpl.
    destruct (set_box_spec _ _ S) as (v & c' & G & N & Es & Eb & Sm). rewrite Eb. intros [= <- <-].
    split; [exact Es|]. split; [exact Eb|]. right. split; [reflexivity|]. eauto.
Qed.

Lemma brun_raise ops e : fold_left (fun r o => bind r (bstep o)) ops (Raise e) = Raise e.
Proof. induction ops; simpl; auto. Qed.
Lemma brun_cons o ops b : brun (o :: ops) b = bind (bstep o b) (brun ops).
Proof. unfold brun. simpl. destruct (bstep o b); simpl; [reflexivity | apply brun_raise]. Qed.

Definition box_current (b : boxed) : Prop :=
  exists v c, glob (bset b) Values = Some v /\ box b = Some c /\
    ((forall r, In r (rows v) -> length r = dim (bset b)) -> smallest_box c (rows v)).
Definition box_state (built stale : bool) (b : boxed) : Prop :=
  if built then box b <> None /\ (stale = false -> box_current b) else box b = None.

Lemma refreshed_run ops : forall (built stale : bool) b b', (built = false -> stale = false) -> box_refreshed built stale ops = true ->
  box_state built stale b -> brun ops b = Ok b' -> box b' = None \/ box_current b'.
Proof.
  induction ops as [|o ops IH]; intros built stale b b' K R S H.
  - injection H as <-. simpl in R. destruct stale; [discriminate|]. unfold box_state in S. destruct built; [right; apply S; reflexivity | left; exact S].
  - rewrite brun_cons in H. destruct (bstep o b) as [b1|] eqn:E; [|discriminate]. simpl in H.
    assert (Ch : forall s', b1 = mk_boxed s' (box b) -> box_state built built b1).
    { intros s' ->. unfold box_state in *. destruct built; simpl; [split; [apply S | discriminate] | exact S]. }
    assert (Bx : (exists c, box b1 = Some c) -> box_current b1 -> box_state true false b1).
    { intros [c Bc] C. simpl. split; [congruence | intros _; exact C]. }
    destruct o as [x|x| |]; simpl in R, E.
    + unfold boxed_set_values in E. destruct (set_values x (bset b)) as [s'|]; [|discriminate]. simpl in E. injection E as <-.
      eapply (IH built built); eauto. 
    + unfold boxed_append in E. destruct (append_values Voronoi x (bset b)) as [s'|]; [|discriminate]. simpl in E. injection E as <-.
      eapply (IH built built); eauto.
    + destruct (set_box_spec _ _ E) as (v & c & G & N & Es & Eb & Sm).
      eapply (IH true false); eauto; try discriminate. apply Bx; [eauto|]. exists v, c. rewrite Es. auto.
    + apply andb_true_iff in R. destruct R as [R1 R2]. destruct stale; [discriminate|].
      destruct (get_bounding_box b) as [[c b2]|] eqn:Gb; [|discriminate]. simpl in E. injection E as <-.
      destruct (get_box_spec _ _ _ Gb) as (Es & Eb & D).
      eapply (IH true false); eauto; try discriminate. apply Bx; [eauto|].
      destruct D as [D|(D & v & G & N & Sm)].
      * unfold box_state in S. destruct built; [|congruence]. destruct (proj2 S eq_refl) as (v & c' & G & Bc & Sm).
        exists v, c'. rewrite Es. split; [exact G|]. split; [congruence | exact Sm].
      * exists v, c. rewrite Es. auto.
Qed.

Lemma refreshed_box d ops b c b' v : box_refreshed false false ops = true -> brun ops (new_boxed d) = Ok b ->
  get_bounding_box b = Ok (c, b') -> glob (bset b) Values = Some v -> (forall r, In r (rows v) -> length r = dim (bset b)) ->
  smallest_box c (rows v).
Proof.
  intros R H G V W. destruct (refreshed_run ops false false (new_boxed d) b (fun _ => eq_refl) R eq_refl H) as [N|(w & c' & Gw & Bc & Sm)];
  destruct (get_box_spec _ _ _ G) as (_ & _ & [D|(D & w' & Gw' & _ & Sm')]); try congruence.
  - rewrite V in Gw'. injection Gw' as <-. auto.
  - rewrite V in Gw. injection Gw as <-. rewrite Bc in D. injection D as <-. auto.
Qed.

(** The general form of the failure: after a question, the answer never follows
    the values. *)
Lemma box_stale b c b1 x b2 : get_bounding_box b = Ok (c, b1) -> boxed_set_values x b1 = Ok b2 ->
  get_bounding_box b2 = Ok (c, b2).
Proof.
  intros G S. destruct (get_box_spec _ _ _ G) as (_ & Eb & _). unfold boxed_set_values in S.
  destruct (set_values x (bset b1)); [|discriminate]. simpl in S. injection S as <-. unfold get_bounding_box. simpl. rewrite Eb. reflexivity.
Qed.

(** *** Radii *)
Lemma fold_qmax_spec l x : greatest (fold_left qmax l x) (x :: l).
Proof.
  revert x; induction l as [|y l IH]; intro x; simpl.
  - split; [left; reflexivity|]. intros z [<-|[]]. apply Qcle_refl.
  - destruct (IH (qmax x y)) as [I1 I2]. split.
    + destruct I1 as [I1|I1]; [|right; right; exact I1]. rewrite <- I1. destruct (qmax_cases x y) as [->| ->]; [left | right; left]; reflexivity.
    + intros z [<-|[<-|Hz]].
      * eapply Qcle_trans; [apply qmax_ge_l | apply I2; left; reflexivity].
      * eapply Qcle_trans; [apply qmax_ge_r | apply I2; left; reflexivity].
      * apply I2. right. exact Hz.
Qed.
Lemma np_max_spec l : match np_max l with Ok q => greatest q l | Raise e => l = [] /\ e = PyValueError end.
Proof. destruct l as [|x l]; simpl; [auto | apply fold_qmax_spec]. Qed.

Lemma map_res_ok {A B} (f : A -> result B) l bs : map_res f l = Ok bs <-> Forall2 (fun a b => f a = Ok b) l bs.
Proof.
  revert bs; induction l as [|a l IH]; intro bs; simpl.
  - split; [intros [= <-]; constructor | intro F; inversion F; reflexivity].
  - split.
    + destruct (f a) as [b|] eqn:E; [|discriminate]. simpl. destruct (map_res f l) as [r|]; [|discriminate]. simpl.
      intros [= <-]. constructor; [exact E | apply IH; reflexivity].
    + intro F. inversion F; subst. rewrite H1. simpl. apply IH in H3. rewrite H3. reflexivity.
Qed.
Lemma map_res_raise {A B} (f : A -> result B) l e : (forall a, In a l -> (exists b, f a = Ok b) \/ f a = Raise e) ->
  (exists a, In a l /\ f a = Raise e) -> map_res f l = Raise e.
Proof.
  induction l as [|a l IH]; intros H (x & Hx & Ex); [destruct Hx|]. simpl.
  destruct (H a (or_introl eq_refl)) as [[b Eb]|Eb]; rewrite Eb; simpl; [|reflexivity].
  rewrite IH; [reflexivity | intros c Hc; apply H; right; exact Hc |].
  destruct Hx as [<-|Hx]; [congruence | eauto].
Qed.

Lemma Forall2_impl_strong {A B} (R S : A -> B -> Prop) l m : (forall a b, R a b -> S a b) -> Forall2 R l m -> Forall2 S l m.
Proof. intros H F. induction F; constructor; auto. Qed.
Lemma Forall2_nth_error {A B} (R : A -> B -> Prop) l m i a b : Forall2 R l m -> nth_error l i = Some a -> nth_error m i = Some b -> R a b.
Proof. intro F. revert i; induction F; intros [|i] H1 H2; simpl in *; try discriminate; [congruence | eauto]. Qed.

Lemma filter_combine_map {A} (f : A -> nat) (i : nat) l :
  filter (fun q => snd q =? i) (combine l (map f l)) = map (fun x => (x, f x)) (filter (fun x => f x =? i) l).
Proof. induction l as [|x l IH]; simpl; [reflexivity|]. destruct (f x =? i); simpl; congruence. Qed.

Lemma greatest_merge q r l m : greatest q l -> greatest r m -> greatest (qmax q r) (l ++ m).
Proof.
  intros [A1 A2] [B1 B2]. split.
  - apply in_app_iff. destruct (qmax_cases q r) as [->| ->]; auto.
  - intros y Hy. apply in_app_iff in Hy. destruct Hy as [Hy|Hy].
    + eapply Qcle_trans; [apply A2, Hy | apply qmax_ge_l].
    + eapply Qcle_trans; [apply B2, Hy | apply qmax_ge_r].
Qed.
Lemma greatest_unique q r l : greatest q l -> greatest r l -> q = r.
Proof. intros [A1 A2] [B1 B2]. apply Qcle_antisym; auto. Qed.
Lemma greatest_perm q l m : Permutation l m -> greatest q l -> greatest q m.
Proof. intros P [A B]. split; [eapply Permutation_in; eauto|]. intros y Hy. apply B. eapply Permutation_in; [apply Permutation_sym; exact P | exact Hy]. Qed.

Section Rad.
Variables (dist : pt -> pt -> Qc) (nn : list pt -> pt -> nat) (normalize : bool) (d : list (Qc * Qc)).
Let f : pt -> pt := coords normalize d.

(** One rank. *)
Lemma rank_radii_ok (vals pts : list pt) rad :
  rank_radii dist (length vals) (map f vals) (map f pts) (map (nn vals) pts) = Ok rad <->
  length rad = length vals /\
  forall i v, nth_error vals i = Some v -> exists q, nth_error rad i = Some q /\
    greatest q (distances_in_cell dist nn normalize d vals pts i v).
Proof.
  set (F := fun i => match nth_error (map f vals) i with
    | None => Raise PyIndexError
    | Some v => np_max (map (fun q => dist (fst q) v) (filter (fun q => snd q =? i) (combine (map f pts) (map (nn vals) pts)))) end).
  assert (FE : forall i v, nth_error vals i = Some v -> F i = np_max (distances_in_cell dist nn normalize d vals pts i v)).
  { intros i v Hv. unfold F. rewrite nth_error_map. change (list Qc) with pt in *. rewrite Hv. simpl. f_equal. unfold distances_in_cell.
    rewrite combine_map_l, filter_map_comm, map_map. simpl. rewrite filter_combine_map, map_map. reflexivity. }
  unfold rank_radii. fold F. rewrite map_res_ok. split.
  - intro H. assert (L : length rad = length vals) by (apply Forall2_length in H; rewrite seq_length in H; congruence).
    split; [exact L|]. intros i v Hv.
    assert (Hi : i < length vals) by (apply nth_error_Some; congruence).
    destruct (nth_error rad i) as [q|] eqn:Hq; [|apply nth_error_None in Hq; lia].
    exists q. split; [reflexivity|].
    assert (E : F i = Ok q).
    { assert (Hs : nth_error (seq 0 (length vals)) i = Some i) by (rewrite nth_error_seq; destruct (Nat.ltb_spec i (length vals)); [reflexivity | lia]).
      exact (Forall2_nth_error _ _ _ _ _ _ H Hs Hq). }
    rewrite (FE i v Hv) in E. pose proof (np_max_spec (distances_in_cell dist nn normalize d vals pts i v)) as M. rewrite E in M. exact M.
  - intros [L H]. assert (G : forall k l, k + length l = length vals -> (forall j q, nth_error l j = Some q -> nth_error rad (k + j) = Some q) ->
      length l + k = length rad -> Forall2 (fun a b => F a = Ok b) (seq k (length l)) l).
    { clear L. intros k l. revert k; induction l as [|q l IH]; intros k Lk Hl Lr; simpl; constructor.
      - destruct (nth_error vals k) as [v|] eqn:Hv; [|apply nth_error_None in Hv; simpl in Lk; lia].
        destruct (H k v Hv) as (q' & Hq' & Gq). assert (q' = q). { specialize (Hl 0 q eq_refl). rewrite Nat.add_0_r in Hl. congruence. } subst q'.
        rewrite (FE k v Hv). pose proof (np_max_spec (distances_in_cell dist nn normalize d vals pts k v)) as M.
        destruct (np_max _) as [q'|e]; [f_equal; eapply greatest_unique; eauto|]. destruct M as [M _]. destruct Gq as [Gq _]. rewrite M in Gq. destruct Gq.
      - apply IH; cbn [length] in *; [lia | | lia]. intros j q1 Hj. replace (S k + j) with (k + S j) by lia. exact (Hl (S j) q1 Hj). }
    rewrite <- L. apply G; simpl; auto.
Qed.

Lemma rank_radii_raise (vals pts : list pt) :
  (exists i, i < length vals /\ forall x, In x pts -> nn vals x <> i) ->
  rank_radii dist (length vals) (map f vals) (map f pts) (map (nn vals) pts) = Raise PyValueError.
Proof.
  intros (i & Hi & N). unfold rank_radii. apply map_res_raise.
  - intros k Hk. apply in_seq in Hk. rewrite nth_error_map. destruct (nth_error vals k) as [v|] eqn:Hv; [|apply nth_error_None in Hv; lia]. cbn [option_map].
    match goal with |- context [np_max ?l] => pose proof (np_max_spec l) as M; destruct (np_max l) as [q|e] end; [left; eauto | right; destruct M; congruence].
  - exists i. split; [apply in_seq; lia|]. rewrite nth_error_map. destruct (nth_error vals i) as [v|] eqn:Hv; [|apply nth_error_None in Hv; lia]. cbn [option_map].
    rewrite combine_map_l, filter_map_comm, map_map. cbn [fst snd]. rewrite filter_combine_map, map_map.
    replace (filter (fun x => nn vals x =? i) pts) with (@nil pt); [reflexivity|].
    symmetry. clear -N. induction pts as [|x pts IH]; simpl; [reflexivity|].
    destruct (Nat.eqb_spec (nn vals x) i) as [E|E]; [exfalso; eapply N; [left; reflexivity | exact E]|]. apply IH. intros y Hy. apply N. right. exact Hy.
Qed.

Lemma distances_app vals p q i v :
  distances_in_cell dist nn normalize d vals (p ++ q) i v =
  distances_in_cell dist nn normalize d vals p i v ++ distances_in_cell dist nn normalize d vals q i v.
Proof. unfold distances_in_cell. rewrite filter_app, map_app. reflexivity. Qed.

Lemma vmax_nth a b i x y : nth_error a i = Some x -> nth_error b i = Some y -> nth_error (vmax a b) i = Some (qmax x y).
Proof.
  revert b i; induction a as [|p a IH]; intros [|q b] [|i] H K; simpl in *; try discriminate.
  - injection H as ->. injection K as ->. reflexivity.
  - apply (IH b i); assumption.
Qed.
Lemma vmax_length a b : length a = length b -> length (vmax a b) = length a.
Proof. intro L. unfold vmax. rewrite map_length, combine_length, L. apply Nat.min_id. Qed.

Definition rank_ok (vals pts : list pt) (rad : list Qc) : Prop :=
  length rad = length vals /\
  forall i v, nth_error vals i = Some v -> exists q, nth_error rad i = Some q /\
    greatest q (distances_in_cell dist nn normalize d vals pts i v).

Lemma rank_ok_merge vals p q a b : rank_ok vals p a -> rank_ok vals q b -> rank_ok vals (p ++ q) (vmax a b).
Proof.
  intros [L1 H1] [L2 H2]. split; [rewrite vmax_length by congruence; exact L1|].
  intros i v Hv. destruct (H1 i v Hv) as (x & Hx & Gx). destruct (H2 i v Hv) as (y & Hy & Gy).
  exists (qmax x y). split; [apply vmax_nth; assumption|]. rewrite distances_app. apply greatest_merge; assumption.
Qed.

Lemma allreduce_rank_ok vals blocks rads : blocks <> [] -> Forall2 (rank_ok vals) blocks rads ->
  rank_ok vals (concat blocks) (allreduce_max rads).
Proof.
  intros N F. destruct F as [|p a blocks rads Hp F]; [congruence|]. simpl. clear N.
  revert p a Hp; induction F as [|q b blocks rads Hq F IH]; intros p a Hp; simpl.
  - rewrite app_nil_r. exact Hp.
  - rewrite app_assoc. apply IH. apply rank_ok_merge; assumption.
Qed.

Lemma rank_ok_unique vals p q a b : Permutation p q -> rank_ok vals p a -> rank_ok vals q b -> a = b.
Proof.
  intros Pm [L1 H1] [L2 H2]. apply nth_error_ext. intro i. destruct (nth_error vals i) as [v|] eqn:Hv.
  - destruct (H1 i v Hv) as (x & Hx & Gx). destruct (H2 i v Hv) as (y & Hy & Gy). rewrite Hx, Hy. f_equal.
    eapply greatest_unique; [|exact Gy]. eapply greatest_perm; [|exact Gx]. unfold distances_in_cell. apply Permutation_map.
    clear -Pm. induction Pm; simpl; auto.
    + destruct (nn vals x =? i); auto.
    + destruct (nn vals x =? i), (nn vals y =? i); auto. constructor.
    + etransitivity; eassumption.
  - apply nth_error_None in Hv. rewrite (proj2 (nth_error_None a i)), (proj2 (nth_error_None b i)); [reflexivity | lia | lia].
Qed.

End Rad.

(** The whole computation. *)
Lemma no_zero_width_ok d : (forall p, In p d -> (fst p < snd p)%Qc) -> no_zero_width d = true.
Proof.
  intro H. unfold no_zero_width. apply forallb_forall. intros p Hp. apply negb_true_iff, qeqb_false.
  intro E. specialize (H p Hp). rewrite E in H. apply (Qclt_not_eq _ _ H). reflexivity.
Qed.

Lemma valid_check P (s : pset) n : valid_set s n -> check_num P s = Ok n.
Proof.
  intros (HA & x & GV & TV). apply check_num_ok; [exists Values, x; exact GV|]. split; [exact HA|].
  intros y Gy. rewrite GV in Gy. injection Gy as <-. exists []. exact TV.
Qed.

Lemma valid_set_glob (s : pset) n a (y : arr pt) : valid_set s n -> a <> Values -> length (rows y) = n -> valid_set (set_glob a (Some y) s) n.
Proof.
  intros (HA & x & GV & TV) N L. split.
  - intros b z G. destruct (attr_eq_dec b a) as [->|Nb].
    + rewrite glob_set_same in G. injection G as <-. exact L.
    + rewrite glob_set_other in G by exact Nb. eapply HA, G.
  - exists x. rewrite glob_set_other by congruence. split; [exact GV | exact TV].
Qed.

Definition touched (a : attr) : bool :=
  match a with Left_ | Right_ | Width_ | KdtreeValues => true | _ => false end.

(** The state after the bounds were used and the tree was asked. *)
Lemma radii_state nn P (normalize : bool) s n x d pts : radii_ready s n x d ->
  exists s1, (if normalize then do t <- update_bounds None s ; Ok (drop_bounds t) else Ok s) = Ok s1 /\
    domain s1 = Some d /\ dim s1 = dim s /\
    exists s2, query_blocks nn P pts s1 = Ok (map (map (nn (rows x))) pts, s2) /\ valid_set s2 n /\ glob s2 Values = Some x /\
      (forall a, touched a = false -> glob s2 a = glob s a) /\ loc s2 = loc s /\ dim s2 = dim s.
Proof.
  intros (V & GV & K & D & Ld & W).
  assert (E : exists s1, (if normalize then do t <- update_bounds None s ; Ok (drop_bounds t) else Ok s) = Ok s1 /\
    domain s1 = Some d /\ dim s1 = dim s /\ kd s1 = kd s /\ valid_set s1 n /\ loc s1 = loc s /\
    (forall a, touched a = false -> glob s1 a = glob s a)).
  { destruct normalize.
    - destruct (update_bounds_spec s n d V D) as (t & Et & _ & _ & _ & Ot & Vt). rewrite Et. simpl.
      unfold update_bounds in Et. simpl in Et. rewrite GV in Et. simpl in Et. rewrite D in Et.
      eexists. split; [reflexivity|]. injection Et as <-. simpl. split; [exact D|]. split; [reflexivity|]. split; [reflexivity|]. split.
      + destruct V as (HA & y & GVy & TV). split.
        * intros a z G. simpl in G. unfold upd in G.
          destruct (attr_eq_dec a Width_); [discriminate|]. destruct (attr_eq_dec a Right_); [discriminate|].
          destruct (attr_eq_dec a Left_); [discriminate|]. eapply HA, G.
        * exists y. simpl. unfold upd. simpl. split; assumption.
      + split; [reflexivity|]. intros a T. unfold upd. destruct a; try discriminate T; reflexivity.
    - exists s. repeat split; auto; apply V. }
  destruct E as (s1 & E1 & D1 & Dm & K1 & V1 & L1 & O1). exists s1. split; [exact E1|]. split; [exact D1|]. split; [exact Dm|].
  assert (GV1 : glob s1 Values = Some x) by (rewrite O1 by reflexivity; exact GV).
  unfold query_blocks. rewrite K1. destruct K as [K|K]; rewrite K.
  - unfold set_kdtree. rewrite GV1. simpl. eexists. split; [reflexivity|].
    pose proof V1 as (HA & y & GVy & TV). split.
    + split.
      * intros a z G. simpl in G. unfold upd in G. destruct (attr_eq_dec a KdtreeValues).
        { injection G as <-. eapply HA, GV1. } eapply HA, G.
      * exists y. simpl. unfold upd. simpl. split; assumption.
    + simpl. split; [exact GV1|]. split; [|split; [exact L1 | exact Dm]]. intros a T. unfold upd. destruct a; try discriminate T; simpl; apply O1; reflexivity.
  - rewrite (valid_check P s1 n V1). simpl. exists s1. split; [reflexivity|]. split; [exact V1|]. split; [exact GV1|]. auto.
Qed.

Lemma map_coords (normalize : bool) d (l : list pt) : (if normalize then map (unit_pt d) else (fun l => l)) l = map (coords normalize d) l.
Proof. destruct normalize; unfold coords; [apply map_ext; intro; apply unit_relative | rewrite map_id; reflexivity]. Qed.

Lemma map_place d us : map (map (scale_pt d)) us = map (map (place d)) us.
Proof. apply map_ext. intro. apply map_ext. intro. apply scale_place. Qed.

Lemma combine_self_map {A B} (g : A -> B) (l : list A) : combine l (map g l) = map (fun x => (x, g x)) l.
Proof. induction l; simpl; congruence. Qed.

Lemma radii_core_eq dist nn P normalize us s n x d : radii_ready s n x d ->
  exists s2, valid_set s2 n /\ (forall a, touched a = false -> glob s2 a = glob s a) /\ loc s2 = loc s /\ dim s2 = dim s /\
  radii_core dist nn P normalize us s =
    do per_rank <- map_res (fun pts => rank_radii dist (length (rows x)) (map (coords normalize d) (rows x))
                                 (map (coords normalize d) pts) (map (nn (rows x)) pts)) (map (map (place d)) us) ;
    Ok (n, allreduce_max per_rank, map (map (nn (rows x))) (map (map (place d)) us), s2).
Proof.
  intro Rd. pose proof Rd as (V & GV & K & D & Ld & W).
  destruct (radii_state nn P normalize s n x d (map (map (place d)) us) Rd) as (s1 & E1 & D1 & Dm1 & s2 & Q & V2 & GV2 & O2 & L2 & Dm2).
  exists s2. split; [exact V2|]. split; [exact O2|]. split; [exact L2|]. split; [exact Dm2|].
  unfold radii_core. rewrite (valid_check P s n V).
  change (bind (Ok n) ?k) with (k n). cbv beta. rewrite E1.
  change (bind (Ok s1) ?k) with (k s1). cbv beta. rewrite D1, Dm1.
  rewrite (proj2 (Nat.eqb_eq _ _) Ld), (no_zero_width_ok d W). simpl negb. simpl orb. cbv iota. cbv zeta. rewrite map_place, Q.
  change (bind (Ok ?z) ?k) with (k z). cbv beta iota. rewrite GV2.
  assert (Ln : length (rows x) = n) by (apply (proj1 V _ _ GV)). rewrite Ln.
  rewrite combine_self_map.
  assert (MR : forall (l : list (list pt)),
    map_res (fun b : list pt * list nat => rank_radii dist n ((if normalize then map (unit_pt d) else (fun l => l)) (rows x))
        ((if normalize then map (unit_pt d) else (fun l => l)) (fst b)) (snd b)) (map (fun p => (p, map (nn (rows x)) p)) l) =
    map_res (fun pts => rank_radii dist n (map (coords normalize d) (rows x)) (map (coords normalize d) pts) (map (nn (rows x)) pts)) l).
  { induction l as [|p l IH]; [reflexivity|]. cbn [map map_res fst snd]. rewrite !map_coords. rewrite map_coords in IH. rewrite IH. reflexivity. }
  rewrite MR. reflexivity.
Qed.

Lemma Forall2_map_l {A B C} (R : B -> C -> Prop) (g : A -> B) l m : Forall2 R (map g l) m <-> Forall2 (fun a c => R (g a) c) l m.
Proof.
  revert m; induction l as [|a l IH]; intros m; simpl; split; intro F; inversion F; subst; constructor; auto; apply IH; assumption.
Qed.

Lemma radii_core_ok dist nn P normalize us s n x d num rad ptrs s2 : us <> [] -> radii_ready s n x d ->
  radii_core dist nn P normalize us s = Ok (num, rad, ptrs, s2) ->
  num = n /\ rank_ok dist nn normalize d (rows x) (map (place d) (concat us)) rad /\
  ptrs = map (map (nn (rows x))) (map (map (place d)) us) /\ valid_set s2 n /\
  (forall a, touched a = false -> glob s2 a = glob s a).
Proof.
  intros N Rd H. destruct (radii_core_eq dist nn P normalize us s n x d Rd) as (t & Vt & Ot & _ & _ & E). rewrite E in H. clear E.
  destruct (map_res _ _) as [pr|] eqn:M; [|discriminate]. simpl in H. injection H as <- <- <- <-.
  split; [reflexivity|]. split; [|auto]. apply map_res_ok in M.
  rewrite concat_map. apply allreduce_rank_ok; [destruct us; [congruence | discriminate]|].
  eapply Forall2_impl_strong; [|exact M]. intros p r Hp. apply rank_radii_ok. exact Hp.
Qed.

Lemma radii_core_total dist nn P normalize us s n x d : us <> [] -> radii_ready s n x d ->
  ((exists r, radii_core dist nn P normalize us s = Ok r) <-> all_cells_hit nn d (rows x) us) /\
  (~ all_cells_hit nn d (rows x) us -> radii_core dist nn P normalize us s = Raise PyValueError).
Proof.
  intros N Rd. destruct (radii_core_eq dist nn P normalize us s n x d Rd) as (t & _ & _ & _ & _ & E). rewrite E. clear E.
  set (F := fun pts => rank_radii dist (length (rows x)) (map (coords normalize d) (rows x)) (map (coords normalize d) pts) (map (nn (rows x)) pts)).
  assert (Dec : forall b, (forall i, i < length (rows x) -> exists u, In u b /\ nn (rows x) (place d u) = i) \/
                          (exists i, i < length (rows x) /\ forall y, In y (map (place d) b) -> nn (rows x) y <> i)).
  { intro b. assert (G : forall k, (forall i, i < k -> exists u, In u b /\ nn (rows x) (place d u) = i) \/
        (exists i, i < k /\ forall y, In y (map (place d) b) -> nn (rows x) y <> i)).
    { induction k as [|k [IH|(i & Hi & IH)]].
      - left. intros i Hi. lia.
      - assert (Dk : (exists u, In u b /\ nn (rows x) (place d u) = k) \/ (forall y, In y (map (place d) b) -> nn (rows x) y <> k)).
        { clear. induction b as [|u b [(w & Hw & Ew)|IH]].
          - right. intros y [].
          - left. exists w. split; [right; exact Hw | exact Ew].
          - destruct (Nat.eq_dec (nn (rows x) (place d u)) k) as [Ek|Ek]; [left; exists u; split; [left; reflexivity | exact Ek]|].
            right. intros y [<-|Hy]; [exact Ek | apply IH, Hy]. }
        destruct Dk as [Dk|Dk]; [left | right; exists k; split; [lia | exact Dk]].
        intros i Hi. destruct (Nat.eq_dec i k) as [->|]; [exact Dk | apply IH; lia].
      - right. exists i. split; [lia | exact IH]. }
    apply G. }
  assert (Ok1 : forall b, (forall i, i < length (rows x) -> exists u, In u b /\ nn (rows x) (place d u) = i) -> exists r, F (map (place d) b) = Ok r).
  { intros b Hb. destruct (map_res (fun i => np_max (distances_in_cell dist nn normalize d (rows x) (map (place d) b) i (nth i (rows x) [])))
       (seq 0 (length (rows x)))) as [r|e] eqn:Mr.
    - exists r. unfold F. apply rank_radii_ok. apply map_res_ok in Mr. pose proof (Forall2_length _ _ _ Mr) as L. rewrite seq_length in L.
      split; [congruence|]. intros i v Hv. assert (Hi : i < length (rows x)) by (apply nth_error_Some; congruence).
      destruct (nth_error r i) as [q|] eqn:Hq; [|apply nth_error_None in Hq; lia]. exists q. split; [reflexivity|].
      assert (Hs : nth_error (seq 0 (length (rows x))) i = Some i) by (rewrite nth_error_seq; destruct (Nat.ltb_spec i (length (rows x))); [reflexivity | lia]).
      pose proof (Forall2_nth_error _ _ _ _ _ _ Mr Hs Hq) as G. cbv beta in G.
      pose proof (np_max_spec (distances_in_cell dist nn normalize d (rows x) (map (place d) b) i (nth i (rows x) []))) as M.
      rewrite G in M. rewrite (nth_error_nth _ _ _ Hv) in M. exact M.
    - exfalso. assert (A : forall l, (forall i, In i l -> i < length (rows x)) ->
        exists r, map_res (fun i => np_max (distances_in_cell dist nn normalize d (rows x) (map (place d) b) i (nth i (rows x) []))) l = Ok r).
      { induction l as [|i l IH]; intro Hl; [eexists; reflexivity|]. destruct IH as [r Er]; [intros j Hj; apply Hl; right; exact Hj|].
        simpl. pose proof (np_max_spec (distances_in_cell dist nn normalize d (rows x) (map (place d) b) i (nth i (rows x) []))) as M.
        destruct (np_max _) as [q|e']; [simpl; rewrite Er; eexists; reflexivity|]. destruct M as [M _]. exfalso.
        destruct (Hb i (Hl i (or_introl eq_refl))) as (u & Hu & Eu).
        unfold distances_in_cell in M. apply map_eq_nil in M.
        assert (In (place d u) (filter (fun y => nn (rows x) y =? i) (map (place d) b))) by (apply filter_In; split; [apply in_map, Hu | apply Nat.eqb_eq, Eu]).
        unfold pt in *. rewrite M in H. destruct H. }
      destruct (A (seq 0 (length (rows x)))) as [r Er]; [intros i Hi; apply in_seq in Hi; lia|]. congruence. }
  assert (Ra : forall b, (exists i, i < length (rows x) /\ forall y, In y (map (place d) b) -> nn (rows x) y <> i) -> F (map (place d) b) = Raise PyValueError).
  { intros b Hb. apply rank_radii_raise. exact Hb. }
  assert (All : all_cells_hit nn d (rows x) us -> exists pr, map_res F (map (map (place d)) us) = Ok pr).
  { intro H. clear N. induction us as [|b us' IH]; [eexists; reflexivity|]. cbn [map map_res].
    destruct (Ok1 b (fun i Hi => H b i (or_introl eq_refl) Hi)) as [r Er]. rewrite Er. simpl.
    destruct IH as [pr Ep]; [intros c i Hc; apply H; right; exact Hc|]. rewrite Ep. eexists; reflexivity. }
  assert (Not : (exists b, In b us /\ exists i, i < length (rows x) /\ forall y, In y (map (place d) b) -> nn (rows x) y <> i) -> map_res F (map (map (place d)) us) = Raise PyValueError).
  { intros (b & Hb & Bb). apply map_res_raise.
    - intros p Hp. apply in_map_iff in Hp. destruct Hp as (c & <- & Hc). destruct (Dec c) as [Dc|Dc]; [left; apply Ok1, Dc | right; apply Ra, Dc].
    - exists (map (place d) b). split; [apply in_map, Hb | apply Ra, Bb]. }
  assert (DecAll : all_cells_hit nn d (rows x) us \/ (exists b, In b us /\ exists i, i < length (rows x) /\ forall y, In y (map (place d) b) -> nn (rows x) y <> i)).
  { clear N Not All. induction us as [|b us' [IH|(c & Hc & IH)]].
    - left. intros b i [].
    - destruct (Dec b) as [Db|Db]; [left; intros c i [<-|Hc] Hi; [apply Db, Hi | apply (IH c i Hc Hi)] | right; exists b; split; [left; reflexivity | exact Db]].
    - right. exists c. split; [right; exact Hc | exact IH]. }
  split.
  - split.
    + intros [r Hr]. destruct DecAll as [A|B]; [exact A|]. rewrite (Not B) in Hr. discriminate.
    + intro H. destruct (All H) as [pr Ep]. rewrite Ep. eexists; reflexivity.
  - intro NH. destruct DecAll as [A|B]; [contradiction|]. rewrite (Not B). reflexivity.
Qed.

Lemma g2l_valid P (s : pset) n : 0 < P -> valid_set s n -> exists s', global_to_local P s = Ok s' /\ glob s' = glob s.
Proof.
  intros HP V. unfold global_to_local. rewrite (valid_check P s n V). simpl. eexists. split; reflexivity.
Qed.

Lemma radii_attr_touched normalize : touched (radii_attr normalize) = false.
Proof. destruct normalize; reflexivity. Qed.
Lemma radii_attr_values normalize : radii_attr normalize <> Values /\ radii_attr normalize <> Volumes.
Proof. destruct normalize; split; discriminate. Qed.

Lemma column_length l : length (rows (column l)) = length l.
Proof. apply map_length. Qed.

Lemma radii_rows s n x d : radii_ready s n x d -> length (rows x) = n.
Proof. intros (V & GV & _). exact (proj1 V _ _ GV). Qed.

Lemma estimate_radii_spec dist nn P normalize us s n x d s' : 0 < P -> us <> [] -> radii_ready s n x d ->
  estimate_radii dist nn P normalize us s = Ok s' ->
  (exists rad, glob s' (radii_attr normalize) = Some (mk_arr (map (fun q => [q]) rad) []) /\ length rad = n /\
     forall i v, nth_error (rows x) i = Some v -> exists q, nth_error rad i = Some q /\
       greatest q (distances_in_cell dist nn normalize d (rows x) (map (place d) (concat us)) i v)) /\
  (forall a, a <> radii_attr normalize -> a <> Left_ -> a <> Right_ -> a <> Width_ -> a <> KdtreeValues -> glob s' a = glob s a) /\
  (forall a, local_is_split P s' a).
Proof.
  intros HP N Rd H. unfold estimate_radii in H. destruct (radii_core dist nn P normalize us s) as [[[[num rad] ptrs] s2]|] eqn:C; [|discriminate].
  simpl in H. destruct (radii_core_ok _ _ _ _ _ _ _ _ _ _ _ _ _ N Rd C) as (-> & (L & Hr) & _ & V2 & O2).
  assert (Ln : length (rows x) = n) by (exact (radii_rows _ _ _ _ Rd)).
  destruct (g2l_inv _ _ _ H) as (m & _ & Eg & _). rewrite Eg. split; [|split].
  - exists rad. rewrite glob_set_same. split; [reflexivity|]. split; [congruence | exact Hr].
  - intros a A1 A2 A3 A4 A5. rewrite glob_set_other by exact A1. apply O2. destruct a; try reflexivity; congruence.
  - eapply global_to_local_local_is_split; eauto.
Qed.

Lemma estimate_radii_iff dist nn P normalize us s n x d : 0 < P -> us <> [] -> radii_ready s n x d ->
  ((exists s', estimate_radii dist nn P normalize us s = Ok s') <-> all_cells_hit nn d (rows x) us) /\
  (~ all_cells_hit nn d (rows x) us -> estimate_radii dist nn P normalize us s = Raise PyValueError).
Proof.
  intros HP N Rd. destruct (radii_core_total dist nn P normalize us s n x d N Rd) as [[T1 T2] T3]. split; [split|].
  - intros [s' H]. apply T1. unfold estimate_radii in H. destruct (radii_core _ _ _ _ _ _); [eauto | discriminate].
  - intro H. destruct (T2 H) as [[[[num rad] ptrs] s2] C]. unfold estimate_radii. rewrite C. simpl.
    destruct (radii_core_ok _ _ _ _ _ _ _ _ _ _ _ _ _ N Rd C) as (-> & (L & _) & _ & V2 & _).
    assert (Ln : length (rows x) = n) by (exact (radii_rows _ _ _ _ Rd)).
    destruct (g2l_valid P (set_glob (radii_attr normalize) (Some (column rad)) s2) n HP) as (s' & E & _).
    { apply valid_set_glob; [exact V2 | apply radii_attr_values | rewrite column_length; congruence]. }
    exists s'. exact E.
  - intro H. unfold estimate_radii. rewrite (T3 H). reflexivity.
Qed.

Lemma radii_layout dist nn P P' normalize us us' s n x d s1 s2 : 0 < P -> 0 < P' -> us <> [] -> us' <> [] -> radii_ready s n x d ->
  Permutation (concat us) (concat us') ->
  estimate_radii dist nn P normalize us s = Ok s1 -> estimate_radii dist nn P' normalize us' s = Ok s2 ->
  glob s1 (radii_attr normalize) = glob s2 (radii_attr normalize).
Proof.
  intros HP HP' N N' Rd Pm H1 H2.
  destruct (estimate_radii_spec _ _ _ _ _ _ _ _ _ _ HP N Rd H1) as ((r1 & G1 & L1 & R1) & _).
  destruct (estimate_radii_spec _ _ _ _ _ _ _ _ _ _ HP' N' Rd H2) as ((r2 & G2 & L2 & R2) & _).
  assert (Ln : length (rows x) = n) by (exact (radii_rows _ _ _ _ Rd)).
  rewrite G1, G2. do 3 f_equal.
  eapply (rank_ok_unique dist nn normalize d (rows x) (map (place d) (concat us)) (map (place d) (concat us'))).
  - apply Permutation_map, Pm.
  - split; [congruence | exact R1].
  - split; [congruence | exact R2].
Qed.

(** The estimate is a lower bound of the radius. *)
Lemma radii_below dist pd nn P normalize us s n x d s' rad : 0 < P -> us <> [] -> radii_ready s n x d ->
  nn_contract pd nn -> (forall b u, In b us -> In u b -> in_box (unit_cube (length d)) u) ->
  estimate_radii dist nn P normalize us s = Ok s' ->
  glob s' (radii_attr normalize) = Some (mk_arr (map (fun q => [q]) rad) []) ->
  forall i v q rho, nth_error (rows x) i = Some v -> nth_error rad i = Some q ->
    (forall y, in_box d y -> nearest pd (rows x) y i -> (dist (coords normalize d y) (coords normalize d v) <= rho)%Qc) ->
    (q <= rho)%Qc.
Proof.
  intros HP N Rd C U H G i v q rho Hv Hq B.
  destruct (estimate_radii_spec _ _ _ _ _ _ _ _ _ _ HP N Rd H) as ((r1 & G1 & L1 & R1) & _).
  rewrite G in G1. injection G1 as G1.
  assert (E : rad = r1). { clear -G1. revert r1 G1; induction rad as [|a l IH]; intros [|b m] E; simpl in E; try discriminate; [reflexivity|]. injection E as -> E. f_equal. auto. }
  subst r1. destruct (R1 i v Hv) as (q' & Hq' & [I _]). rewrite Hq in Hq'. injection Hq' as <-.
  unfold distances_in_cell in I. apply in_map_iff in I. destruct I as (y & <- & Iy). apply filter_In in Iy. destruct Iy as [Iy Ey].
  apply in_map_iff in Iy. destruct Iy as (u & <- & Iu). apply in_concat in Iu. destruct Iu as (b & Ib & Iu).
  apply B.
  - apply place_in_box; [apply Rd | eapply U; eauto].
  - apply Nat.eqb_eq in Ey. rewrite <- Ey. apply C. intro Z. rewrite Z in Hv. destruct i; discriminate.
Qed.

(** Radii and volumes together. *)
Lemma radii_volume_spec dist pd nn P normalize n_mc us s n x d s' : 0 < P -> us <> [] -> radii_ready s n x d -> 0 < n ->
  nn_contract pd nn -> length (concat us) = n_mc ->
  estimate_radii_and_volume dist nn P normalize n_mc us s = Ok s' ->
  (exists s'' : pset, estimate_radii dist nn P normalize us s = Ok s'' /\ glob s' (radii_attr normalize) = glob s'' (radii_attr normalize)) /\
  (exists vol, glob s' Volumes = Some (mk_arr (map (fun q => [q]) vol) []) /\ length vol = n /\
    (forall i, i < n -> nth_error vol i = Some (fraction (nn (rows x)) (map (place d) (concat us)) i)) /\
    qsum vol = 1%Qc /\ (forall w, In w vol -> (0 <= w)%Qc)) /\
  (forall a, local_is_split P s' a).
Proof.
  intros HP N Rd Hn C Ln H. unfold estimate_radii_and_volume in H.
  destruct (radii_core dist nn P normalize us s) as [[[[num rad] ptrs] s2]|] eqn:K; [|discriminate]. simpl in H.
  destruct (radii_core_ok _ _ _ _ _ _ _ _ _ _ _ _ _ N Rd K) as (-> & (L & Hr) & -> & V2 & O2).
  assert (Lx : length (rows x) = n) by (exact (radii_rows _ _ _ _ Rd)).
  destruct (g2l_inv _ _ _ H) as (m & _ & Eg & _). rewrite Eg. split; [|split].
  - destruct (proj2 (proj1 (estimate_radii_iff dist nn P normalize us s n x d HP N Rd))) as [s'' E''].
    { apply (radii_core_total dist nn P normalize us s n x d N Rd). eauto. }
    exists s''. split; [exact E''|]. unfold estimate_radii in E''. rewrite K in E''. simpl in E''.
    destruct (g2l_inv _ _ _ E'') as (m' & _ & Eg'' & _). rewrite Eg'', glob_set_same, glob_set_other, glob_set_same by apply radii_attr_values. reflexivity.
  - rewrite glob_set_same.
    set (pts := map (place d) (concat us)).
    assert (Ne : pts <> []). { unfold pts. intro Z. apply map_eq_nil in Z.
      destruct (rows x) as [|v r] eqn:Rx; [simpl in Lx; lia|]. destruct (Hr 0 v eq_refl) as (q & _ & [I _]).
      rewrite Z in I. destruct I. }
    assert (Ev : map (fun v => (v / qn n_mc)%Qc) (allreduce_sum (zeros n) (map (cell_counts n) (map (map (nn (rows x))) (map (map (place d)) us)))) =
                 map (fraction (nn (rows x)) pts) (seq 0 n)).
    { rewrite map_map. rewrite (allreduce_counts n (nn (rows x))). rewrite <- concat_map. fold pts. unfold cell_counts. rewrite map_map.
      apply map_ext. intro i. unfold fraction. rewrite counts_map. f_equal. f_equal. unfold pts. rewrite map_length. symmetry; exact Ln. }
    exists (map (fraction (nn (rows x)) pts) (seq 0 n)). rewrite Ev. split; [reflexivity|].
    split; [rewrite map_length, seq_length; reflexivity|].
    assert (Rg : forall y, In y pts -> nn (rows x) y < n).
    { intros y _. assert (Nx : rows x <> []) by (intro Z; rewrite Z in Lx; simpl in Lx; lia).
      destruct (C (rows x) y Nx) as (w & Hw & _). rewrite <- Lx. apply nth_error_Some. congruence. }
    destruct (fraction_total n (nn (rows x)) pts Ne Rg) as [F1 F2]. split.
    + intros i Hi. rewrite nth_error_map, nth_error_seq. destruct (Nat.ltb_spec i n); [reflexivity | lia].
    + split; [exact F1|]. intros w Hw. apply in_map_iff in Hw. destruct Hw as (i & <- & _). apply F2.
  - eapply global_to_local_local_is_split; eauto.
Qed.

Lemma radii_volume_iff dist nn P normalize n_mc us s n x d : 0 < P -> us <> [] -> radii_ready s n x d ->
  ((exists s', estimate_radii_and_volume dist nn P normalize n_mc us s = Ok s') <-> all_cells_hit nn d (rows x) us).
Proof.
  intros HP N Rd. destruct (radii_core_total dist nn P normalize us s n x d N Rd) as [[T1 T2] T3]. split.
  - intros [s' H]. apply T1. unfold estimate_radii_and_volume in H. destruct (radii_core _ _ _ _ _ _); [eauto | discriminate].
  - intro H. destruct (T2 H) as [[[[num rad] ptrs] s2] C]. unfold estimate_radii_and_volume. rewrite C. simpl.
    destruct (radii_core_ok _ _ _ _ _ _ _ _ _ _ _ _ _ N Rd C) as (-> & (L & _) & -> & V2 & _).
    assert (Ln : length (rows x) = n) by (exact (radii_rows _ _ _ _ Rd)).
    match goal with |- exists _, global_to_local P ?t = _ => destruct (g2l_valid P t n HP) as (s' & E & _) end.
    { apply valid_set_glob; [apply valid_set_glob; [exact V2 | apply radii_attr_values | rewrite column_length; congruence] | discriminate |].
      rewrite column_length, map_length. rewrite map_map. rewrite (allreduce_counts n (nn (rows x))).
      unfold cell_counts. rewrite map_length, seq_length. reflexivity. }
    exists s'. exact E.
Qed.

Lemma mc_shares_total n P : 0 < P -> list_sum (map (mc_share n P) (seq 0 P)) = n.
Proof.
  intro HP. rewrite <- (split_sizes_sum n P HP) at 2. f_equal. apply nth_error_ext. intro r.
  rewrite nth_error_map, nth_error_seq. destruct (Nat.ltb_spec r P) as [Hr|Hr]; simpl.
  - symmetry. rewrite (nth_error_nth' _ 0) by (rewrite split_sizes_length; assumption). rewrite split_sizes_nth by exact Hr. reflexivity.
  - symmetry. apply nth_error_None. rewrite split_sizes_length; assumption.
Qed.
