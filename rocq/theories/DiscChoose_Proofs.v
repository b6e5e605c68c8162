From Coq Require Import List Arith Bool QArith Qcanon Permutation Lia.
From Verif Require Import Err Num NumPy Lists SampleSet_Model SampleSet_Spec SampleSet_Proofs Inverse_Proofs Disc_Model Disc_Spec Disc_Proofs.
Import ListNotations.
Local Open Scope nat_scope.
Local Open Scope err_scope.

Lemma bind_Ok {A B} (a : A) (f : A -> result B) : bind (Ok a) f = f a.
Proof. reflexivity. Qed.

Lemma has_shape_vec n t c : has_shape (n :: t) c -> exists l, c = Vec l /\ length l = n /\ Forall (has_shape t) l.
Proof.
  destruct c as [q|l]; simpl; [tauto|]. intros [H1 H2]. exists l. split; [reflexivity|]. split; [exact H1|].
  clear H1. induction l as [|x l IH]; [constructor|]. destruct H2. constructor; auto.
Qed.

Lemma each_cell_ok (f : cell -> result cell) l : (forall c, In c l -> exists x, f c = Ok x) ->
  exists r, each_cell f l = Ok r /\ Forall2 (fun c x => f c = Ok x) l r.
Proof.
  induction l as [|c l IH]; intro H; simpl; [eauto|].
  destruct (H c (or_introl eq_refl)) as [x E]. rewrite E. simpl.
  destruct IH as (r & -> & F); [intros; apply H; right; assumption|]. simpl. eauto.
Qed.

Lemma pick_cell_ok idx w c : in_range idx w -> (exists l, c = Vec l /\ length l = w) -> exists x, pick_cell idx c = Ok x.
Proof.
  intros H (l & -> & L). simpl. destruct (take_idx_some l idx) as [v ->]; [|eauto]. intros i Hi. rewrite L. auto.
Qed.
Lemma pick_cell_entry idx c x j k p : pick_cell idx c = Ok x -> nth_error idx j = Some k ->
  entry (j :: p) x = entry (k :: p) c.
Proof.
  destruct c as [q|l]; simpl; [discriminate|]. destruct (take_idx l idx) as [v|] eqn:E; [|discriminate].
  intros H Hj. injection H as <-. simpl. destruct (take_idx_nth _ _ _ E) as [_ T]. rewrite (T _ _ Hj). reflexivity.
Qed.
Lemma pick_cell_vec idx l x : pick_cell idx (Vec l) = Ok x -> exists v, x = Vec v /\ length v = length idx /\ incl v l.
Proof.
  simpl. destruct (take_idx l idx) as [v|] eqn:E; [|discriminate]. intro H. injection H as <-. exists v.
  destruct (take_idx_nth _ _ _ E) as [L T]. split; [reflexivity|]. split; [exact L|].
  intros y Hy. apply In_nth_error in Hy. destruct Hy as [j Hj]. destruct (nth_error idx j) as [k|] eqn:K.
  - rewrite (T _ _ K) in Hj. eapply nth_error_In; eauto.
  - apply nth_error_None in K. assert (j < length v) by (apply nth_error_Some; congruence). lia.
Qed.

Lemma forallb_range idx w : in_range idx w -> forallb (fun i => i <? w) idx = true.
Proof. intro H. apply forallb_forall. intros i Hi. apply Nat.ltb_lt, H, Hi. Qed.

Lemma pick_columns_ok idx x w t : proper x -> tail_shape x = w :: t -> in_range idx w ->
  exists y, pick_columns idx x = Ok y /\ columns_of idx x y /\ tail_shape y = length idx :: t /\ proper y /\
    forall r cx cy, nth_error (rows x) r = Some cx -> nth_error (rows y) r = Some cy -> pick_cell idx cx = Ok cy.
Proof.
  intros Pr T H. unfold pick_columns. rewrite T, (forallb_range _ _ H). unfold proper in Pr. rewrite T in Pr. rewrite Forall_forall in Pr.
  destruct (each_cell_ok (pick_cell idx) (rows x)) as (r & E & F).
  { intros c Hc. destruct (has_shape_vec _ _ _ (Pr c Hc)) as (l & -> & L & _). apply (pick_cell_ok idx w); eauto. }
  rewrite E. simpl. eexists. split; [reflexivity|].
  assert (PC : forall i cx cy, nth_error (rows x) i = Some cx -> nth_error r i = Some cy -> pick_cell idx cx = Ok cy).
  { clear - F. induction F as [|c y l r E F IH]; intros [|i] cx cy; simpl; try discriminate; [congruence | apply IH]. }
  split; [|split; [reflexivity|]; split].
  - split; [simpl; symmetry; eapply Forall2_length; eauto|]. split; [exists w, t; auto|].
    intros i cx cy j k Hx Hy Hj. simpl in Hy. specialize (PC _ _ _ Hx Hy).
    split; [apply (pick_cell_entry idx); assumption|].
    destruct (has_shape_vec _ _ _ (Pr cx (nth_error_In _ _ Hx))) as (l & -> & L & _). simpl.
    destruct (nth_error l k) eqn:K; [discriminate|]. apply nth_error_None in K. pose proof (H k (nth_error_In _ _ Hj)). lia.
  - unfold proper. simpl. apply Forall_forall. intros cy Hy. apply In_nth_error in Hy. destruct Hy as [i Hy].
    assert (Lr : length (rows x) = length r) by (eapply Forall2_length; eauto).
    destruct (nth_error (rows x) i) as [cx|] eqn:Hx.
    2:{ apply nth_error_None in Hx. assert (i < length r) by (apply nth_error_Some; congruence). lia. }
    specialize (PC _ _ _ Hx Hy). destruct (has_shape_vec _ _ _ (Pr cx (nth_error_In _ _ Hx))) as (l & -> & L & Fl).
    destruct (pick_cell_vec _ _ _ PC) as (v & -> & Lv & In'). simpl. split; [exact Lv|].
    rewrite Forall_forall in Fl. clear - In' Fl. induction v as [|y v IH]; [exact I|]. split; [apply Fl, In'; left; reflexivity|].
    apply IH. intros z Hz. apply In'. right. exact Hz.
  - exact PC.
Qed.

Lemma pick_inner_entry idx c x i j k p : pick_inner idx c = Ok x -> nth_error idx j = Some k ->
  entry [i] c <> None -> entry (i :: j :: p) x = entry (i :: k :: p) c.
Proof.
  destruct c as [q|l]; [discriminate|]. unfold pick_inner. intros H Hj.
  destruct (each_cell (pick_cell idx) l) as [r|] eqn:E; [|discriminate]. simpl in H. injection H as <-.
  revert i r E. induction l as [|c l IH]; intros i r E N; [destruct i; simpl in N; congruence|].
  simpl in E. destruct (pick_cell idx c) as [y|] eqn:Ey; simpl in E; [|discriminate].
  destruct (each_cell (pick_cell idx) l) as [ys|]; simpl in E; [|discriminate]. injection E as <-.
  destruct i as [|i].
  - change (entry (j :: p) y = entry (k :: p) c). apply (pick_cell_entry idx); assumption.
  - apply (IH i ys eq_refl). exact N.
Qed.

Lemma pick_jacobian_ok ins outs x o w : ins <> [] -> outs <> [] -> proper x -> tail_shape x = [o; w] ->
  in_range ins w -> in_range outs o -> exists y, pick_jacobian ins outs x = Ok y /\ jacobian_of ins outs x y.
Proof.
  intros N1 N2 Pr T Hi Ho. unfold pick_jacobian. destruct outs as [|o1 outs0]; [congruence|]. destruct ins as [|i1 ins0]; [congruence|].
  set (outs := o1 :: outs0) in *. set (ins := i1 :: ins0) in *.
  destruct (pick_columns_ok outs x o [w] Pr T Ho) as (y & -> & (C1 & _ & C2) & Ty & Py & PC). rewrite bind_Ok, Ty, (forallb_range _ _ Hi).
  unfold proper in Py. rewrite Ty in Py. rewrite Forall_forall in Py.
  destruct (each_cell_ok (pick_inner ins) (rows y)) as (r & E & F).
  { intros c Hc. destruct (has_shape_vec _ _ _ (Py c Hc)) as (l & -> & L & Fl). unfold pick_inner.
    destruct (each_cell_ok (pick_cell ins) l) as (r' & E' & _); [|rewrite E'; simpl; eauto].
    intros c' Hc'. rewrite Forall_forall in Fl. destruct (has_shape_vec _ _ _ (Fl c' Hc')) as (l' & -> & L' & _).
    apply (pick_cell_ok ins w); eauto. }
  rewrite E, bind_Ok. eexists. split; [reflexivity|].
  assert (PI : forall i cx cy, nth_error (rows y) i = Some cx -> nth_error r i = Some cy -> pick_inner ins cx = Ok cy).
  { clear - F. induction F as [|c y' l r E F IH]; intros [|i] cx cy; simpl; try discriminate; [congruence | apply IH]. }
  assert (Lr : length (rows y) = length r) by (eapply Forall2_length; eauto).
  split; [simpl; congruence|]. split; [exists o, w, []; auto|].
  intros i cx cy j k j' k' Hx Hy Hj Hj'. simpl in Hy.
  destruct (nth_error (rows y) i) as [cm|] eqn:Hm.
  2:{ apply nth_error_None in Hm. assert (i < length r) by (apply nth_error_Some; congruence). lia. }
  specialize (PI _ _ _ Hm Hy). specialize (PC _ _ _ Hx Hm).
  assert (NE : entry [j] cm <> None).
  { destruct (C2 i cx cm j k Hx Hm Hj) as [-> A]. exact A. }
  rewrite (pick_inner_entry ins cm cy j j' k' [] PI Hj' NE), (pick_cell_entry outs cx cm j k [k'] PC Hj).
  split; [reflexivity|].
  unfold proper in Pr. rewrite T in Pr. rewrite Forall_forall in Pr.
  destruct (has_shape_vec _ _ _ (Pr cx (nth_error_In _ _ Hx))) as (l & -> & L & Fl). simpl.
  destruct (nth_error l k) as [c|] eqn:K.
  2:{ apply nth_error_None in K. pose proof (Ho k (nth_error_In _ _ Hj)). lia. }
  rewrite Forall_forall in Fl. destruct (has_shape_vec _ _ _ (Fl c (nth_error_In _ _ K))) as (l' & -> & L' & _). simpl.
  destruct (nth_error l' k') eqn:K'; [discriminate|]. apply nth_error_None in K'. pose proof (Hi k' (nth_error_In _ _ Hj')). lia.
Qed.

Lemma opt_ok {A B} (f : A -> result B) (rel : A -> B -> Prop) o :
  (forall x, o = Some x -> exists y, f x = Ok y /\ rel x y) -> exists y, opt f o = Ok y /\ both rel o y.
Proof.
  destruct o as [x|]; intro H; simpl; [|exists None; simpl; auto].
  destruct (H x eq_refl) as (y & -> & Q). simpl. exists (Some y). simpl. auto.
Qed.
Lemma pick_blocks_ok f (rel : arr cell -> arr cell -> Prop) bs : (forall b, In b bs -> exists y, f b = Ok y /\ rel b y) ->
  exists ys, pick_blocks f bs = Ok ys /\ Forall2 rel bs ys.
Proof.
  induction bs as [|b bs IH]; intro H; simpl; [eauto|].
  destruct (H b (or_introl eq_refl)) as (y & -> & Q). simpl. destruct IH as (ys & -> & F); [intros; apply H; right; assumption|].
  simpl. eauto.
Qed.

Section Choose.
Context {N : Type}.

Lemma pick_side_ok idx jac (rel : arr cell -> arr cell -> Prop) outs (s : rset N) :
  well_shaped outs (base s) -> in_range idx (dim (base s)) -> (forall v, reference s = Some v -> length v = dim (base s)) ->
  (forall f, jac = Some f -> forall x, proper x -> tail_shape x = [outs; dim (base s)] -> exists y, f x = Ok y /\ rel x y) ->
  exists s', pick_side idx jac s = Ok s' /\ dim (base s') = length idx /\
    both (columns_of idx) (glob (base s) Values) (glob (base s') Values) /\
    both (Forall2 (columns_of idx)) (loc (base s) Values) (loc (base s') Values) /\
    both (columns_of idx) (glob (base s) ErrorEstimates) (glob (base s') ErrorEstimates) /\
    both (Forall2 (columns_of idx)) (loc (base s) ErrorEstimates) (loc (base s') ErrorEstimates) /\
    both (selected idx) (domain (base s)) (domain (base s')) /\
    both (selected idx) (reference s) (reference s') /\
    p_norm s' = p_norm s /\
    (jac <> None -> both rel (glob (base s) Jacobians) (glob (base s') Jacobians) /\
                    both (Forall2 rel) (loc (base s) Jacobians) (loc (base s') Jacobians)) /\
    (jac = None -> glob (base s') Jacobians = None) /\
    (forall a, a <> Values -> a <> ErrorEstimates -> a <> Jacobians -> glob (base s') a = None).
Proof.
  intros (W1 & W2 & W3 & W4 & W5 & W6 & W7) R Rf J. unfold pick_side.
  assert (PL : forall A (l : list A), length l = dim (base s) -> exists m, pick_list idx l = Ok m /\ selected idx l m).
  { intros A l L. unfold pick_list. destruct (take_idx_some l idx) as [v E]; [intros i Hi; rewrite L; auto|]. rewrite E.
    exists v. split; [reflexivity|]. exact (take_idx_nth _ _ _ E). }
  assert (PK : forall x, proper x /\ tail_shape x = [dim (base s)] -> exists y, pick_columns idx x = Ok y /\ columns_of idx x y).
  { intros x [A B]. destruct (pick_columns_ok idx x _ _ A B R) as (y & E & C & _). eauto. }
  destruct (opt_ok (pick_list idx) (selected idx) (domain (base s))) as (dom & -> & D1); [intros; apply PL; auto|]. simpl bind.
  destruct (opt_ok (pick_list idx) (selected idx) (reference s)) as (rf & -> & D2); [intros; apply PL; auto|]. simpl bind.
  destruct (opt_ok (pick_columns idx) (columns_of idx) (glob (base s) Values)) as (v & -> & D3); [auto|]. simpl bind.
  destruct (opt_ok (pick_blocks (pick_columns idx)) (Forall2 (columns_of idx)) (loc (base s) Values)) as (vl & -> & D4).
  { intros bs L. apply pick_blocks_ok. intros b Hb. apply PK. eapply W2; eauto. } simpl bind.
  destruct (opt_ok (pick_columns idx) (columns_of idx) (glob (base s) ErrorEstimates)) as (er & -> & D5); [auto|]. simpl bind.
  destruct (opt_ok (pick_blocks (pick_columns idx)) (Forall2 (columns_of idx)) (loc (base s) ErrorEstimates)) as (erl & -> & D6).
  { intros bs L. apply pick_blocks_ok. intros b Hb. apply PK. eapply W4; eauto. } simpl bind.
  assert (JJ : exists j jl, match jac with Some f => opt f (glob (base s) Jacobians) | None => Ok None end = Ok j /\
    match jac with Some f => opt (pick_blocks f) (loc (base s) Jacobians) | None => Ok None end = Ok jl /\
    (jac <> None -> both rel (glob (base s) Jacobians) j /\ both (Forall2 rel) (loc (base s) Jacobians) jl) /\ (jac = None -> j = None)).
  { destruct jac as [f|].
    - destruct (opt_ok f rel (glob (base s) Jacobians)) as (j & E & B1); [intros x Gx; destruct (W5 x Gx); eauto|].
      destruct (opt_ok (pick_blocks f) (Forall2 rel) (loc (base s) Jacobians)) as (jl & E' & B2).
      { intros bs L. apply pick_blocks_ok. intros b Hb. destruct (W6 bs b L Hb). eauto. }
      exists j, jl. repeat split; auto. congruence.
    - exists None, None. repeat split; auto; congruence. }
  destruct JJ as (j & jl & -> & -> & D7 & D8). simpl bind. eexists. split; [reflexivity|]. simpl.
  repeat (split; [solve [auto]|]). intros a A1 A2 A3. rewrite !upd_other by assumption. reflexivity.
Qed.

Lemma choose_ok_lemma P ins outs (inp out : rset N) n :
  well_shaped (dim (base out)) (base inp) -> well_shaped 0 (base out) ->
  valid_set (base inp) n -> valid_set (base out) n ->
  (forall v, reference inp = Some v -> length v = dim (base inp)) ->
  (forall v, reference out = Some v -> length v = dim (base out)) ->
  ins <> [] -> outs <> [] -> in_range ins (dim (base inp)) -> in_range outs (dim (base out)) ->
  exists i o, choose_inputs_outputs P (Some ins) (Some outs) inp out = Ok (i, o) /\
    sliced ins inp i /\ sliced outs out o /\
    both (jacobian_of ins outs) (glob (base inp) Jacobians) (glob (base i) Jacobians) /\
    both (Forall2 (jacobian_of ins outs)) (loc (base inp) Jacobians) (loc (base i) Jacobians).
Proof.
  intros W1 W2 V1 V2 R1 R2 N1 N2 H1 H2. unfold choose_inputs_outputs. cbn [subscript]. rewrite !bind_Ok; cbv beta.
  destruct (pick_side_ok ins (Some (pick_jacobian ins outs)) (jacobian_of ins outs) _ inp W1 H1 R1) as
    (i & -> & A1 & A2 & A3 & A4 & A5 & A6 & A7 & A8 & A9 & _ & A11).
  { intros f Hf x Px Tx. injection Hf as <-. apply (pick_jacobian_ok ins outs x _ _ N1 N2 Px Tx H1 H2). }
  rewrite bind_Ok; cbv beta.
  destruct (pick_side_ok outs None (fun _ _ => True) _ out W2 H2 R2) as
    (o & -> & B1 & B2 & B3 & B4 & B5 & B6 & B7 & B8 & B9 & B10 & B11).
  { discriminate. }
  rewrite bind_Ok; cbv beta.
  destruct (A9 ltac:(discriminate)) as [J1 J2].
  assert (Vi : valid_set (base i) n).
  { destruct V1 as [HA (x & Gx & Tx)]. split.
    - intros a y Gy. destruct (attr_eq_dec a Values) as [->|Na]; [|destruct (attr_eq_dec a ErrorEstimates) as [->|Nb];
        [|destruct (attr_eq_dec a Jacobians) as [->|Nc]; [|rewrite A11 in Gy by assumption; discriminate]]].
      + rewrite Gy in A2. destruct (glob (base inp) Values) as [z|] eqn:Gz; simpl in A2; [|contradiction].
        destruct A2 as [-> _]. exact (HA _ _ Gz).
      + rewrite Gy in A4. destruct (glob (base inp) ErrorEstimates) as [z|] eqn:Gz; simpl in A4; [|contradiction].
        destruct A4 as [-> _]. exact (HA _ _ Gz).
      + rewrite Gy in J1. destruct (glob (base inp) Jacobians) as [z|] eqn:Gz; simpl in J1; [|contradiction].
        destruct J1 as [-> _]. exact (HA _ _ Gz).
    - rewrite Gx in A2. destruct (glob (base i) Values) as [y|]; simpl in A2; [|contradiction].
      exists y. split; [reflexivity|]. destruct A2 as (_ & (w & t & T1 & T2) & _). rewrite Tx in T1. injection T1 as <- <-. rewrite T2, A1. reflexivity. }
  assert (Vo : valid_set (base o) n).
  { destruct V2 as [HA (x & Gx & Tx)]. split.
    - intros a y Gy. destruct (attr_eq_dec a Values) as [->|Na]; [|destruct (attr_eq_dec a ErrorEstimates) as [->|Nb];
        [|destruct (attr_eq_dec a Jacobians) as [->|Nc]; [|rewrite B11 in Gy by assumption; discriminate]]].
      + rewrite Gy in B2. destruct (glob (base out) Values) as [z|] eqn:Gz; simpl in B2; [|contradiction].
        destruct B2 as [-> _]. exact (HA _ _ Gz).
      + rewrite Gy in B4. destruct (glob (base out) ErrorEstimates) as [z|] eqn:Gz; simpl in B4; [|contradiction].
        destruct B4 as [-> _]. exact (HA _ _ Gz).
      + rewrite B10 in Gy by reflexivity. discriminate.
    - rewrite Gx in B2. destruct (glob (base o) Values) as [y|]; simpl in B2; [|contradiction].
      exists y. split; [reflexivity|]. destruct B2 as (_ & (w & t & T1 & T2) & _). rewrite Tx in T1. injection T1 as <- <-. rewrite T2, B1. reflexivity. }
  rewrite (new_disc_spec P (base i) (base o) None None None None n n), Nat.eqb_refl.
  2,3: apply valid_count; assumption.
  2:{ destruct Vi as (_ & x & -> & _). discriminate. } 2:{ destruct Vo as (_ & x & -> & _). discriminate. }
  rewrite bind_Ok; cbv beta. exists i, o. split; [reflexivity|]. repeat (split; [repeat (split; [assumption|]); assumption|]). assumption.
Qed.

(** Error estimates with one number per sample. *)
Lemma choose_errors_lemma P ins outs (inp out : rset N) x :
  glob (base inp) ErrorEstimates = Some x -> tail_shape x = [] ->
  forall r, choose_inputs_outputs P ins outs inp out <> Ok r.
Proof.
  intros G T r H. unfold choose_inputs_outputs in H. repeat inv_bind H. unfold pick_side in E1. repeat inv_bind E1.
  rewrite G in E8. simpl in E8. unfold pick_columns in E8. rewrite T in E8. discriminate.
Qed.
Lemma choose_default_lemma P ins outs (inp out : rset N) : ins = None \/ outs = None ->
  choose_inputs_outputs P ins outs inp out = Raise PyTypeError.
Proof. unfold choose_inputs_outputs. intros [-> | ->]; [reflexivity|]. destruct ins; reflexivity. Qed.
Lemma choose_empty_lemma P ins outs (inp out : rset N) x : glob (base inp) Jacobians = Some x -> ins = [] \/ outs = [] ->
  forall r, choose_inputs_outputs P (Some ins) (Some outs) inp out <> Ok r.
Proof.
  intros G Q r H. unfold choose_inputs_outputs in H. simpl bind in H. inv_bind H. unfold pick_side in E. repeat inv_bind E.
  rewrite G in E6. simpl in E6. unfold pick_jacobian in E6. destruct Q as [-> | ->]; [|discriminate]. destruct outs; discriminate.
Qed.
End Choose.
