From Coq Require Import List Arith Bool QArith Qcanon Lia Permutation.
From Verif Require Import Err Num Lists NumPy SampleSet_Model SampleSet_Spec.
Import ListNotations.
Local Open Scope nat_scope.

Section Proofs.
Context {R : Type}.
Implicit Types s t : sset R.

Lemma all_attrs_complete a : In a all_attrs.
Proof. destruct a; simpl; tauto. Qed.

Lemma all_attrs_NoDup : NoDup all_attrs.
Proof. repeat constructor; simpl; intuition discriminate. Qed.

(** *** scan_lengths *)
Lemma scan_some ls m :
  (Forall (fun o => forall n, o = Some n -> n = m) ls -> scan_lengths ls (Some m) = Ok (Some m)) /\
  (~ Forall (fun o => forall n, o = Some n -> n = m) ls -> scan_lengths ls (Some m) = Raise LengthNotMatching).
Proof.
  induction ls as [|[n|] ls [IH1 IH2]]; simpl.
  - split; [reflexivity | intro H; exfalso; apply H; constructor].
  - destruct (Nat.eqb_spec m n) as [->|Hn].
    + split; intro H.
      * apply IH1. inversion H; assumption.
      * apply IH2. intro F. apply H. constructor; [congruence | exact F].
    + split; intro H; [|reflexivity]. inversion H as [|? ? Hh]; subst. specialize (Hh n eq_refl). congruence.
  - split; intro H.
    + apply IH1. inversion H; assumption.
    + apply IH2. intro F. apply H. constructor; [discriminate | exact F].
Qed.

Lemma scan_dec ls m : {Forall (fun o => forall n, o = Some n -> n = m) ls} + {~ Forall (fun o : option nat => forall n, o = Some n -> n = m) ls}.
Proof.
  apply Forall_dec. intros [n|].
  - destruct (Nat.eq_dec n m) as [|Hk]; [left; congruence | right; intro X; apply Hk, X; reflexivity].
  - left; discriminate.
Qed.

Lemma scan_none ls :
  (Forall (eq None) ls /\ scan_lengths ls None = Ok None) \/
  (exists n, In (Some n) ls /\ (forall m, In (Some m) ls -> m = n) /\ scan_lengths ls None = Ok (Some n)) \/
  (exists n m, In (Some n) ls /\ In (Some m) ls /\ n <> m /\ scan_lengths ls None = Raise LengthNotMatching).
Proof.
  induction ls as [|[n|] ls IH]; simpl.
  - left. split; [constructor | reflexivity].
  - right. destruct (scan_dec ls n) as [F|F].
    + left. exists n. split; [left; reflexivity|]. split; [|apply (scan_some ls n), F].
      intros m [E|Hm]; [congruence|]. rewrite Forall_forall in F. apply (F _ Hm). reflexivity.
    + right. assert (exists m, In (Some m) ls /\ m <> n) as (m & Hm & Hmn).
      { apply neg_Forall_Exists_neg in F.
        - apply Exists_exists in F. destruct F as ([m|] & Hin & Hne).
          + exists m. split; [exact Hin|]. intro E. apply Hne. congruence.
          + exfalso. apply Hne. discriminate.
        - intros [k|]; [destruct (Nat.eq_dec k n) as [|Hk]; [left; congruence | right; intro X; apply Hk, X; reflexivity] | left; discriminate]. }
      exists n, m. split; [left; reflexivity|]. split; [right; exact Hm|].
      split; [congruence|]. apply (scan_some ls n), F.
  - destruct IH as [[F E] | [(n & H1 & H2 & E) | (n & m & H1 & H2 & H3 & E)]].
    + left. split; [constructor; auto | exact E].
    + right; left. exists n. split; [right; exact H1|]. split; [|exact E].
      intros m [H|H]; [discriminate | apply H2, H].
    + right; right. exists n, m. repeat split; auto.
Qed.

Definition glens s := map (fun a => option_map (fun x => length (rows x)) (glob s a)) all_attrs.

Lemma glens_In s n : In (Some n) (glens s) <-> exists a x, glob s a = Some x /\ length (rows x) = n.
Proof.
  unfold glens. rewrite in_map_iff. split.
  - intros (a & E & _). destruct (glob s a) as [x|] eqn:G; [|discriminate].
    injection E as <-. exists a, x. auto.
  - intros (a & x & G & L). exists a. rewrite G. simpl. split; [congruence | apply all_attrs_complete].
Qed.

Lemma check_num_global P s : has_global s ->
  (exists n, all_have_rows s n /\ check_num P s = bind (check_width s) (fun _ => Ok n)) \/
  ((exists a b x y, glob s a = Some x /\ glob s b = Some y /\ length (rows x) <> length (rows y)) /\
   check_num P s = Raise LengthNotMatching).
Proof.
  intros (a0 & x0 & G0). unfold check_num. fold (glens s).
  destruct (scan_none (glens s)) as [[F E] | [(n & H1 & H2 & E) | (n & m & H1 & H2 & H3 & E)]].
  - exfalso. rewrite Forall_forall in F.
    assert (In (Some (length (rows x0))) (glens s)) as H by (apply glens_In; eauto).
    specialize (F _ H). discriminate.
  - left. exists n. split.
    + intros a x G. apply H2. apply glens_In. eauto.
    + rewrite E. simpl. destruct (check_width s); reflexivity.
  - right. split; [|rewrite E; reflexivity].
    apply glens_In in H1. apply glens_In in H2. destruct H1 as (a & x & G1 & L1), H2 as (b & y & G2 & L2).
    exists a, b, x, y. repeat split; auto. congruence.
Qed.

Lemma check_width_ok s : check_width s = Ok tt <-> width_is_dim s.
Proof.
  unfold check_width, width_is_dim. destruct (glob s Values) as [x|]; split.
  - destruct (tail_shape x) as [|w t] eqn:T; [discriminate|].
    destruct (Nat.eqb_spec w (dim s)); [|discriminate]. intros _ y [= <-]. exists t. congruence.
  - intro H. destruct (H x eq_refl) as [t ->]. rewrite Nat.eqb_refl. reflexivity.
  - intros _ y; discriminate.
  - reflexivity.
Qed.

Lemma check_num_ok P s n : has_global s ->
  (check_num P s = Ok n <-> all_have_rows s n /\ width_is_dim s).
Proof.
  intro HG. destruct (check_num_global P s HG) as [(m & Hm & E) | [(a & b & x & y & G1 & G2 & N) E]].
  - rewrite E. split.
    + intro H. destruct (check_width s) as [[]|] eqn:W; simpl in H; [|discriminate].
      injection H as <-. split; [exact Hm | apply check_width_ok, W].
    + intros [H W]. apply check_width_ok in W. rewrite W. simpl. f_equal.
      destruct HG as (a & x & G). rewrite <- (Hm a x G), <- (H a x G). reflexivity.
  - rewrite E. split; [discriminate|]. intros [H _]. rewrite (H a x G1), (H b y G2) in N. congruence.
Qed.

Lemma check_num_length P s : has_global s ->
  (check_num P s = Raise LengthNotMatching <->
   exists a b x y, glob s a = Some x /\ glob s b = Some y /\ length (rows x) <> length (rows y)).
Proof.
  intro HG. destruct (check_num_global P s HG) as [(m & Hm & E) | [W E]].
  - rewrite E. split.
    + intro H. exfalso. unfold check_width in H. destruct (glob s Values) as [x|]; [|discriminate].
      destruct (tail_shape x); [discriminate|]. destruct (_ =? _); discriminate.
    + intros (a & b & x & y & G1 & G2 & N). exfalso. rewrite (Hm a x G1), (Hm b y G2) in N. congruence.
  - rewrite E. split; auto.
Qed.

Lemma check_num_dim P s n : has_global s -> all_have_rows s n -> values_2d s ->
  (check_num P s = Raise DimNotMatching <-> ~ width_is_dim s).
Proof.
  intros HG HA H2. destruct (check_num_global P s HG) as [(m & Hm & E) | [(a & b & x & y & G1 & G2 & N) E]].
  - rewrite E. unfold check_width, width_is_dim, values_2d in *. destruct (glob s Values) as [x|].
    + destruct (tail_shape x) as [|w t] eqn:T; [exfalso; apply (H2 x eq_refl T)|].
      destruct (Nat.eqb_spec w (dim s)) as [->|Hw]; simpl; split.
      * discriminate.
      * intro H. exfalso. apply H. intros y [= <-]. eauto.
      * intros _ H. destruct (H x eq_refl) as [t' Ht]. congruence.
      * reflexivity.
    + simpl. split; [discriminate|]. intro H. exfalso. apply H. intros y; discriminate.
  - exfalso. rewrite (HA a x G1), (HA b y G2) in N. congruence.
Qed.

(** locals only *)
Lemma llens_In s r n : In (Some n) (map (local_length s r) all_attrs) <->
  exists a bs b, loc s a = Some bs /\ nth_error bs r = Some b /\ length (rows b) = n.
Proof.
  rewrite in_map_iff. unfold local_length. split.
  - intros (a & E & _). destruct (loc s a) as [bs|] eqn:L; [|discriminate].
    destruct (nth_error bs r) as [b|] eqn:B; [|discriminate]. injection E as <-. eauto 6.
  - intros (a & bs & b & L & B & <-). exists a. rewrite L, B. split; [reflexivity | apply all_attrs_complete].
Qed.

Lemma check_num_local_ok s r n : glob s Values = None -> local_rows s r n -> check_num_local s r = Ok (Some n).
Proof.
  intros G [(a & bs & b & L & B) H]. unfold check_num_local.
  destruct (scan_none (map (local_length s r) all_attrs)) as [[F E] | [(m & H1 & H2 & E) | (k & m & H1 & H2 & H3 & E)]]; rewrite E; simpl.
  - exfalso. rewrite Forall_forall in F.
    assert (In (Some (length (rows b))) (map (local_length s r) all_attrs)) as X by (apply llens_In; eauto 6).
    specialize (F _ X). discriminate.
  - unfold check_width. rewrite G. simpl. f_equal. f_equal.
    apply llens_In in H1. destruct H1 as (a' & bs' & b' & L' & B' & <-). apply (H a' bs' b'); assumption.
  - exfalso. apply llens_In in H1. apply llens_In in H2.
    destruct H1 as (a1 & bs1 & b1 & L1 & B1 & <-), H2 as (a2 & bs2 & b2 & L2 & B2 & <-).
    apply H3. rewrite (H a1 bs1 b1 L1 B1), (H a2 bs2 b2 L2 B2). reflexivity.
Qed.

Lemma sum_local_ok s rs (n : nat -> nat) : glob s Values = None ->
  (forall r, In r rs -> local_rows s r (n r)) -> sum_local s rs = Ok (list_sum (map n rs)).
Proof.
  intros G H. induction rs as [|r rs IH]; simpl; [reflexivity|].
  rewrite (check_num_local_ok s r (n r) G) by (apply H; left; reflexivity). simpl.
  rewrite IH by (intros q Hq; apply H; right; exact Hq). reflexivity.
Qed.

Lemma check_num_locals_only P s n : (forall a, glob s a = None) ->
  (forall r, r < P -> local_rows s r (n r)) ->
  check_num P s = Ok (list_sum (map n (seq 0 P))).
Proof.
  intros G H. unfold check_num.
  assert (E : scan_lengths (map (fun a => option_map (fun x => length (rows x)) (glob s a)) all_attrs) None = Ok None).
  { rewrite (map_ext _ (fun _ => None)) by (intro a; rewrite G; reflexivity). reflexivity. }
  rewrite E. simpl. unfold check_width. rewrite G. simpl. apply sum_local_ok; [apply G|].
  intros r Hr. apply in_seq in Hr. apply H. lia.
Qed.

Lemma check_num_empty P s : (forall a, glob s a = None) -> (forall a, loc s a = None) -> check_num P s = Ok 0.
Proof.
  intros G L. unfold check_num.
  assert (E : scan_lengths (map (fun a => option_map (fun x => length (rows x)) (glob s a)) all_attrs) None = Ok None).
  { rewrite (map_ext _ (fun _ => None)) by (intro a; rewrite G; reflexivity). reflexivity. }
  rewrite E. simpl. unfold check_width. rewrite G. simpl.
  generalize (seq 0 P) as rs. induction rs as [|r rs IH]; simpl; [reflexivity|].
  unfold check_num_local, local_length.
  rewrite (map_ext _ (fun _ => None)) by (intro a; rewrite L; reflexivity). simpl.
  unfold check_width. rewrite G. simpl. rewrite IH. reflexivity.
Qed.

(** *** split and gather *)
Lemma split_arr_rows P (x : arr R) : map rows (split_arr P x) = array_split (rows x) P.
Proof. unfold split_arr. rewrite map_map. simpl. apply map_id. Qed.

Lemma split_arr_length P (x : arr R) : 0 < P -> length (split_arr P x) = P.
Proof. intro H. unfold split_arr. rewrite map_length. apply array_split_length, H. Qed.

Lemma split_arr_tail P (x : arr R) b : In b (split_arr P x) -> tail_shape b = tail_shape x.
Proof. unfold split_arr. rewrite in_map_iff. intros (l & <- & _). reflexivity. Qed.

Lemma array_split_is_block_split {A} P (l : list A) : 0 < P -> is_block_split P l (array_split l P).
Proof.
  intro HP. repeat split.
  - apply array_split_length, HP.
  - apply array_split_concat, HP.
  - intros b c Hb Hc.
    apply (In_nth _ _ []) in Hb. apply (In_nth _ _ []) in Hc.
    destruct Hb as (i & Hi & <-), Hc as (j & Hj & <-).
    rewrite array_split_length in Hi, Hj by exact HP.
    rewrite !array_split_nth_length by assumption.
    destruct (i <? _), (j <? _); lia.
Qed.

Lemma gather_same (bs : list (arr R)) ts : bs <> [] -> (forall b, In b bs -> tail_shape b = ts) ->
  get_global_values bs = Ok (mk_arr (concat (map rows bs)) ts).
Proof.
  intros N H. destruct bs as [|b bs]; [congruence|]. unfold get_global_values.
  rewrite (proj2 (forallb_forall _ _)).
  - rewrite (H b (or_introl eq_refl)). reflexivity.
  - intros c Hc. rewrite (H c Hc), (H b (or_introl eq_refl)). destruct (shape_eq_dec ts ts); congruence.
Qed.

Lemma gather_split P (x : arr R) : 0 < P -> get_global_values (split_arr P x) = Ok x.
Proof.
  intro HP. rewrite (gather_same _ (tail_shape x)).
  - rewrite split_arr_rows, array_split_concat by exact HP. destruct x; reflexivity.
  - intro E. pose proof (split_arr_length P x HP) as L. rewrite E in L. simpl in L. lia.
  - intros b Hb. eapply split_arr_tail; eauto.
Qed.

Lemma upd_same {V} (f : attr -> V) a v : upd f a v a = v.
Proof. unfold upd. destruct (attr_eq_dec a a); congruence. Qed.
Lemma upd_other {V} (f : attr -> V) a b v : b <> a -> upd f a v b = f b.
Proof. unfold upd. destruct (attr_eq_dec b a); congruence. Qed.

(** state after local_to_global *)
Lemma gather_attrs_spec l s s' : NoDup l -> gather_attrs l s = Ok s' ->
  dim s' = dim s /\ loc s' = loc s /\ local_index s' = local_index s /\ kd s' = kd s /\
  domain s' = domain s /\ weights s' = weights s /\
  (forall a, ~ In a l -> glob s' a = glob s a) /\
  (forall a, In a l -> match loc s a with
     | None => glob s' a = glob s a
     | Some bs => exists g, get_global_values bs = Ok g /\ glob s' a = Some g
     end).
Proof.
  revert s; induction l as [|a l IH]; intros s N H; simpl in H.
  - injection H as <-. repeat split; auto. intros a [].
  - inversion N as [|? ? Na Nl]; subst. destruct (loc s a) as [bs|] eqn:L.
    + destruct (get_global_values bs) as [g|] eqn:G; [|discriminate]. simpl in H.
      destruct (IH _ Nl H) as (D1 & D2 & D3 & D4 & D5 & D6 & O & I). simpl in *.
      repeat split; auto.
      * intros b Hb. rewrite O by (intro X; apply Hb; right; exact X). apply upd_other. intro X; subst; apply Hb; left; reflexivity.
      * intros b [<-|Hb].
        -- rewrite L. exists g. split; [exact G|]. rewrite O by exact Na. apply upd_same.
        -- specialize (I b Hb). destruct (loc s b) eqn:Lb; [exact I|].
           rewrite I. apply upd_other. intro X; subst; contradiction.
    + destruct (IH _ Nl H) as (D1 & D2 & D3 & D4 & D5 & D6 & O & I).
      repeat split; auto.
      * intros b Hb. apply O. intro X; apply Hb; right; exact X.
      * intros b [<-|Hb]; [rewrite L; apply O, Na | apply I, Hb].
Qed.

Lemma local_to_global_spec s s' : local_to_global s = Ok s' ->
  dim s' = dim s /\ loc s' = loc s /\ local_index s' = local_index s /\ kd s' = kd s /\
  domain s' = domain s /\ weights s' = weights s /\
  (forall a, match loc s a with
     | None => glob s' a = glob s a
     | Some bs => exists g, get_global_values bs = Ok g /\ glob s' a = Some g
     end).
Proof.
  intro H. destruct (gather_attrs_spec _ _ _ all_attrs_NoDup H) as (D1 & D2 & D3 & D4 & D5 & D6 & _ & I).
  repeat split; auto. intro a. apply I, all_attrs_complete.
Qed.

Lemma gather_attrs_total l s : (forall a bs, In a l -> loc s a = Some bs -> exists g, get_global_values bs = Ok g) ->
  exists s', gather_attrs l s = Ok s'.
Proof.
  revert s; induction l as [|a l IH]; intros s H; simpl; [eauto|].
  destruct (loc s a) as [bs|] eqn:L.
  - destruct (H a bs (or_introl eq_refl) L) as [g ->]. simpl. apply IH. simpl.
    intros b cs Hb Lb. apply (H b cs); [right; exact Hb | exact Lb].
  - apply IH. intros b cs Hb Lb. apply (H b cs); [right; exact Hb | exact Lb].
Qed.

(** *** C01 *)
Lemma g2l_inv P s s1 : global_to_local P s = Ok s1 ->
  exists n, check_num P s = Ok n /\ glob s1 = glob s /\ dim s1 = dim s /\ kd s1 = kd s /\
    domain s1 = domain s /\ weights s1 = weights s /\
    local_index s1 = Some (array_split (seq 0 n) P) /\
    (forall a, loc s1 a = match glob s a with Some x => Some (split_arr P x) | None => loc s a end).
Proof.
  unfold global_to_local. destruct (check_num P s) as [n|]; simpl; [|discriminate].
  intros [= <-]. exists n. repeat split; reflexivity.
Qed.

Lemma global_to_local_local_is_split P s s1 : 0 < P -> global_to_local P s = Ok s1 ->
  forall a, local_is_split P s1 a.
Proof.
  intros HP H a x G. destruct (g2l_inv _ _ _ H) as (n & C & Eg & _ & _ & _ & _ & _ & El).
  rewrite Eg in G. exists (split_arr P x). repeat split.
  - rewrite El, G. reflexivity.
  - rewrite split_arr_rows. apply array_split_length, HP.
  - rewrite split_arr_rows. apply array_split_concat, HP.
  - rewrite split_arr_rows. apply (array_split_is_block_split P (rows x) HP).
  - intros b Hb. eapply split_arr_tail; eauto.
Qed.

Lemma round_trip P s s1 s2 : 0 < P -> global_to_local P s = Ok s1 -> local_to_global s1 = Ok s2 ->
  forall a x, glob s a = Some x -> glob s2 a = Some x.
Proof.
  intros HP H1 H2 a x G. destruct (g2l_inv _ _ _ H1) as (n & C & Eg & _ & _ & _ & _ & _ & El).
  destruct (local_to_global_spec _ _ H2) as (_ & _ & _ & _ & _ & _ & I). specialize (I a).
  rewrite El, G in I. destruct I as (g & Hg & Es). rewrite gather_split in Hg by exact HP. congruence.
Qed.

Lemma round_trip_total P s : 0 < P -> has_global s ->
  (exists n, all_have_rows s n) -> width_is_dim s ->
  (forall a, glob s a = None -> loc s a = None) ->
  exists s1 s2, global_to_local P s = Ok s1 /\ local_to_global s1 = Ok s2 /\ (forall a, glob s2 a = glob s a).
Proof.
  intros HP HG (n & HA) HW HL.
  assert (C : check_num P s = Ok n) by (apply check_num_ok; auto).
  destruct (global_to_local P s) as [s1|e] eqn:H1; [|unfold global_to_local in H1; rewrite C in H1; discriminate].
  destruct (g2l_inv _ _ _ H1) as (m & _ & Eg & _ & _ & _ & _ & _ & El).
  assert (exists s2, local_to_global s1 = Ok s2) as [s2 H2].
  { apply gather_attrs_total. intros a bs _ L. rewrite El in L. destruct (glob s a) as [x|] eqn:G.
    - injection L as <-. exists x. apply gather_split, HP.
    - rewrite HL in L by exact G. discriminate. }
  exists s1, s2. repeat split; auto. intro a.
  destruct (glob s a) as [x|] eqn:G.
  - eapply round_trip; eauto.
  - destruct (local_to_global_spec _ _ H2) as (_ & _ & _ & _ & _ & _ & I). specialize (I a).
    rewrite El, G, HL in I by exact G. rewrite Eg, G in I. exact I.
Qed.

Lemma nth_error_firstn {A} (l : list A) k i : nth_error (firstn k l) i = if i <? k then nth_error l i else None.
Proof.
  revert l i; induction k as [|k IH]; intros l i.
  - simpl. destruct i; reflexivity.
  - destruct l as [|x l]; simpl.
    + destruct (i <? S k); destruct i; reflexivity.
    + destruct i as [|i]; simpl; [reflexivity|]. rewrite IH. reflexivity.
Qed.
Lemma nth_error_skipn {A} (l : list A) k i : nth_error (skipn k l) i = nth_error l (k + i).
Proof. revert l; induction k as [|k IH]; intros [|x l]; simpl; try reflexivity; [destruct i; reflexivity | apply IH]. Qed.

Lemma local_index_rows P s s1 : 0 < P -> global_to_local P s = Ok s1 -> has_global s ->
  exists idx, local_index s1 = Some idx /\ length idx = P /\
  forall a x bs r b is k i, glob s1 a = Some x -> loc s1 a = Some bs ->
    nth_error bs r = Some b -> nth_error idx r = Some is -> nth_error is k = Some i ->
    nth_error (rows b) k = nth_error (rows x) i /\ i < length (rows x).
Proof.
  intros HP H HG. destruct (g2l_inv _ _ _ H) as (n & C & Eg & _ & _ & _ & _ & Ei & El).
  apply check_num_ok in C; [|exact HG]. destruct C as [HA _].
  exists (array_split (seq 0 n) P). split; [exact Ei|]. split; [apply array_split_length, HP|].
  intros a x bs r b is k i G L B I K. rewrite Eg in G. rewrite El, G in L. injection L as <-.
  pose proof (HA a x G) as Ln.
  assert (Hr : r < P). { rewrite <- (split_arr_length P x HP). apply nth_error_Some. congruence. }
  assert (Eb : rows b = nth r (array_split (rows x) P) []).
  { rewrite <- split_arr_rows. apply (map_nth_error rows) in B. symmetry. apply nth_error_nth. exact B. }
  assert (Es : is = nth r (array_split (seq 0 n) P) []) by (symmetry; apply nth_error_nth, I).
  subst is. rewrite Eb. rewrite array_split_nth by exact Hr. rewrite array_split_nth in K by exact Hr.
  rewrite seq_length in K. rewrite Ln.
  rewrite nth_error_firstn, nth_error_skipn. rewrite nth_error_firstn, nth_error_skipn, nth_error_seq in K.
  destruct (k <? _); [|discriminate]. destruct (Nat.ltb_spec (r * (n / P) + Nat.min r (n mod P) + k) n) as [Hlt|]; [|discriminate].
  injection K as <-. simpl. split; [reflexivity | lia].
Qed.

(** *** C05 *)
Lemma clip_arr_length c (x : arr R) : length (rows (clip_arr c x)) = Nat.min c (length (rows x)).
Proof. simpl. apply firstn_length. Qed.

Lemma clip_spec P c s n : 0 < P -> valid_set s n ->
  exists s', clip P c s = Ok s' /\ dim s' = dim s /\
  (forall a, a <> KdtreeValues -> glob s' a = option_map (fun x => mk_arr (firstn c (rows x)) (tail_shape x)) (glob s a)) /\
  (glob s' KdtreeValues = glob s' Values /\ kd s' = glob s' Values) /\
  valid_set s' (Nat.min c n) /\
  (loc s Values <> None -> forall a, glob s a <> None -> a <> KdtreeValues -> local_is_split P s' a) /\
  (loc s Values = None -> loc s' = loc s).
Proof.
  intros HP (HA & v & GV & TV).
  assert (HG : has_global s) by (exists Values, v; exact GV).
  assert (HW : width_is_dim s). { intros x Gx. rewrite GV in Gx. injection Gx as <-. exists []. exact TV. }
  assert (C : check_num P s = Ok n) by (apply check_num_ok; auto).
  unfold clip. rewrite C. simpl. rewrite GV. simpl.
  set (s2 := clip_globals c s).
  assert (HA2 : all_have_rows s2 (Nat.min c n)).
  { intros a x G. simpl in G. destruct (glob s a) as [y|] eqn:Gy; [|discriminate]. injection G as <-.
    rewrite clip_arr_length, (HA a y Gy). reflexivity. }
  assert (GV2 : glob s2 Values = Some (clip_arr c v)) by (simpl; rewrite GV; reflexivity).
  assert (C2 : check_num P s2 = Ok (Nat.min c n)).
  { apply check_num_ok; [exists Values, (clip_arr c v); exact GV2|]. split; [exact HA2|].
    intros x Gx. rewrite GV2 in Gx. injection Gx as <-. exists []. exact TV. }
  assert (E3 : exists s3, match loc s Values with None => Ok s2 | Some _ => global_to_local P s2 end = Ok s3 /\
     glob s3 = glob s2 /\ dim s3 = dim s /\
     (loc s Values <> None -> forall a, local_is_split P s3 a) /\ (loc s Values = None -> loc s3 = loc s)).
  { destruct (loc s Values) as [bs|].
    - destruct (global_to_local P s2) as [s3|e] eqn:H3.
      + exists s3. split; [reflexivity|]. destruct (g2l_inv _ _ _ H3) as (m & _ & Eg & Ed & _).
        repeat split; auto; try congruence.
        intros _ a. eapply global_to_local_local_is_split; eauto.
      + unfold global_to_local in H3. rewrite C2 in H3. discriminate.
    - exists s2. repeat split; auto; congruence. }
  destruct E3 as (s3 & E3 & G3 & D3 & L3 & L3'). rewrite E3. simpl.
  unfold set_kdtree. rewrite G3, GV2.
  eexists. split; [reflexivity|]. simpl.
  split; [exact D3|]. split.
  { intros a Ha. rewrite upd_other by exact Ha. reflexivity. }
  split. { rewrite upd_same, upd_other by discriminate. rewrite <- GV2. split; reflexivity. }
  split.
  { split.
    - intros a x Gx. simpl in Gx. destruct (attr_eq_dec a KdtreeValues) as [->|Ha].
      + rewrite upd_same in Gx. injection Gx as <-. rewrite clip_arr_length, (HA Values v GV). reflexivity.
      + rewrite upd_other in Gx by exact Ha. apply (HA2 a x). exact Gx.
    - exists (clip_arr c v). simpl. rewrite upd_other by discriminate. split; [exact GV2 | rewrite D3; exact TV]. }
  split; [|exact L3'].
  intros HL a Ga Ha x Gx. simpl in Gx. rewrite upd_other in Gx by exact Ha.
  specialize (L3 HL a x). rewrite G3 in L3. apply L3. exact Gx.
Qed.

(** *** C06 *)
Lemma concat_blocks_ok (xs ys : list (arr R)) ts : length xs = length ys ->
  (forall b, In b (xs ++ ys) -> tail_shape b = ts) ->
  exists zs, concat_blocks xs ys = Ok zs /\ length zs = length xs /\
    map rows zs = map (fun p => fst p ++ snd p) (combine (map rows xs) (map rows ys)) /\
    (forall b, In b zs -> tail_shape b = ts).
Proof.
  revert ys; induction xs as [|x xs IH]; intros [|y ys] L H; simpl in L; try discriminate.
  - exists []. repeat split; auto.
  - destruct (IH ys) as (zs & E & Lz & M & T); [lia| |].
    { intros b Hb. apply H. simpl. apply in_app_iff in Hb. right. apply in_app_iff. simpl. tauto. }
    simpl. unfold concat_arr.
    assert (Tx : tail_shape x = ts) by (apply H; left; reflexivity).
    assert (Ty : tail_shape y = ts) by (apply H; right; apply in_app_iff; right; left; reflexivity).
    rewrite Tx, Ty. destruct (shape_eq_dec ts ts) as [_|]; [|congruence]. simpl. rewrite E. simpl.
    eexists. split; [reflexivity|]. simpl. repeat split; [lia | rewrite M; reflexivity |].
    intros b [<-|Hb]; [reflexivity | apply T, Hb].
Qed.

Lemma perm_concat_blocks {A} (xs ys : list (list A)) : length xs = length ys ->
  Permutation (concat (map (fun p => fst p ++ snd p) (combine xs ys))) (concat xs ++ concat ys).
Proof.
  revert ys; induction xs as [|x xs IH]; intros [|y ys] L; simpl in *; try discriminate; [constructor|].
  rewrite (IH ys) by lia. rewrite <- !app_assoc. apply Permutation_app_head.
  rewrite !app_assoc. apply Permutation_app_tail. apply Permutation_app_comm.
Qed.

Lemma localized_ok P s n : 0 < P -> ready P s n ->
  exists s1 bs, localized P s = Ok s1 /\ loc s1 Values = Some bs /\ length bs = P /\
   (exists x, glob s Values = Some x /\ concat (map rows bs) = rows x) /\
   (forall b, In b bs -> tail_shape b = [dim s]).
Proof.
  intros HP [(HA & v & GV & TV) HL]. unfold localized. destruct (loc s Values) as [bs|] eqn:L.
  - destruct (HL ltac:(congruence) v GV) as (bs' & L' & (B1 & B2 & B3) & T).
    rewrite L in L'. injection L' as <-. exists s, bs.
    rewrite map_length in B1. repeat split; auto.
    + exists v. auto.
    + intros b Hb. rewrite (T b Hb). exact TV.
  - assert (C : check_num P s = Ok n).
    { apply check_num_ok; [exists Values, v; exact GV|]. split; [exact HA|].
      intros x Gx. rewrite GV in Gx. injection Gx as <-. exists []. exact TV. }
    destruct (global_to_local P s) as [s1|e] eqn:H1; [|unfold global_to_local in H1; rewrite C in H1; discriminate].
    destruct (g2l_inv _ _ _ H1) as (m & _ & Eg & Ed & _ & _ & _ & _ & El).
    exists s1, (split_arr P v). repeat split.
    + rewrite El, GV. reflexivity.
    + apply split_arr_length, HP.
    + exists v. split; [exact GV|]. rewrite split_arr_rows. apply array_split_concat, HP.
    + intros b Hb. rewrite (split_arr_tail _ _ _ Hb). exact TV.
Qed.

Lemma isclose_spec a b : isclose a b = true <-> close_numbers a b.
Proof. unfold isclose, close_numbers. apply qleb_true. Qed.

Lemma allclose_spec d e : length d = length e -> (allclose d e = true <-> close_domains d e).
Proof.
  unfold allclose, close_domains. revert e; induction d as [|p d IH]; intros [|q e] L; simpl in L; try discriminate.
  - simpl. split; [constructor | reflexivity].
  - simpl. rewrite !andb_true_iff, !isclose_spec, IH by lia. split.
    + intros [[H1 H2] H3]. constructor; auto.
    + intro H. inversion H; subst. tauto.
Qed.

Lemma merge_spec P s t n m x y : 0 < P -> ready P s n -> ready P t m ->
  dim s = dim t -> compatible_domains s t -> glob s Values = Some x -> glob t Values = Some y ->
  exists u z, merge P s t = Ok u /\ glob u Values = Some z /\ dim u = dim s /\
    tail_shape z = [dim u] /\
    Permutation (rows z) (rows x ++ rows y) /\
    (P = 1 -> rows z = rows x ++ rows y) /\
    domain u = (match domain s with Some d => Some d | None => domain t end) /\
    (forall a, a <> Values -> glob u a = None) /\
    (exists bs, loc u Values = Some bs /\ length bs = P /\ concat (map rows bs) = rows z).
Proof.
  intros HP Hs Ht Hd Hdom Gx Gy.
  destruct (localized_ok P s n HP Hs) as (s1 & xs & Es & Ls & Lxs & (x' & Gx' & Cx) & Tx).
  destruct (localized_ok P t m HP Ht) as (t1 & ys & Et & Lt & Lys & (y' & Gy' & Cy) & Ty).
  rewrite Gx in Gx'. injection Gx' as <-. rewrite Gy in Gy'. injection Gy' as <-.
  destruct (concat_blocks_ok xs ys [dim s]) as (zs & Ez & Lz & Mz & Tz); [congruence| |].
  { intros b Hb. apply in_app_iff in Hb. destruct Hb; [apply Tx; assumption | rewrite Hd; apply Ty; assumption]. }
  unfold merge. rewrite Hd, Nat.eqb_refl. simpl. rewrite <- Hd.
  assert (Edom : match domain s, domain t with Some d, Some e => if allclose d e then Ok tt else Raise DomainNotMatching | _, _ => Ok tt end = Ok tt).
  { destruct (domain s) as [d|] eqn:D1; [|reflexivity]. destruct (domain t) as [e|] eqn:D2; [|reflexivity].
    rewrite (proj2 (allclose_spec d e (proj1 (Hdom d e D1 D2)))) by (apply Hdom; assumption). reflexivity. }
  rewrite Edom, Es, Et. simpl. unfold loc_values. rewrite Ls, Lt. simpl. rewrite Ez. simpl.
  unfold set_values_local. simpl.
  rewrite (proj2 (forallb_forall _ _)); [|intros b Hb; rewrite (Tz b Hb); destruct (shape_eq_dec [dim s] [dim s]); congruence].
  simpl. set (m0 := set_loc Values (Some zs) _).
  assert (HLm : forall a, loc m0 a = if attr_eq_dec a Values then Some zs else None) by reflexivity.
  assert (Hz : get_global_values zs = Ok (mk_arr (concat (map rows zs)) [dim s])).
  { apply gather_same; [|exact Tz]. intro E. rewrite E in Lz. simpl in Lz. lia. }
  assert (exists u, local_to_global m0 = Ok u) as [u Hu].
  { apply gather_attrs_total. intros a bs _ L. rewrite HLm in L. destruct (attr_eq_dec a Values); [|discriminate].
    injection L as <-. eauto. }
  destruct (local_to_global_spec _ _ Hu) as (U1 & U2 & U3 & U4 & U5 & U6 & U7).
  exists u, (mk_arr (concat (map rows zs)) [dim s]). split; [exact Hu|].
  pose proof (U7 Values) as UV. rewrite HLm in UV. simpl in UV. destruct UV as (g & Hg & UV).
  rewrite Hz in Hg. injection Hg as <-.
  repeat split; auto.
  - simpl. rewrite U1. reflexivity.
  - simpl. rewrite Mz, perm_concat_blocks by (rewrite !map_length; congruence). rewrite Cx, Cy. reflexivity.
  - intro HP1. simpl. rewrite Mz. subst P.
    destruct xs as [|x1 [|]]; try discriminate. destruct ys as [|y1 [|]]; try discriminate.
    simpl in *. rewrite !app_nil_r in *. congruence.
  - intros a Ha. specialize (U7 a). rewrite HLm in U7. destruct (attr_eq_dec a Values); [congruence|]. exact U7.
  - exists zs. repeat split; [rewrite U2; apply upd_same | congruence].
Qed.

Lemma merge_rejects_dim P s t : dim s <> dim t -> merge P s t = Raise DimNotMatching.
Proof. intro H. unfold merge. destruct (Nat.eqb_spec (dim s) (dim t)); [congruence | reflexivity]. Qed.

Lemma merge_rejects_domain P s t d e : dim s = dim t -> domain s = Some d -> domain t = Some e ->
  length d = length e -> ~ close_domains d e -> merge P s t = Raise DomainNotMatching.
Proof.
  intros H D E L A. unfold merge. rewrite H, Nat.eqb_refl, D, E. simpl.
  destruct (allclose d e) eqn:C; [|reflexivity]. exfalso. apply A. apply allclose_spec; assumption.
Qed.

(** *** C07 *)
Lemma vrun_app nn P ops o s : vrun nn P (ops ++ [o]) s = bind (vrun nn P ops s) (vstep nn P o).
Proof. unfold vrun. rewrite fold_left_app. reflexivity. Qed.

Lemma vrun_raise nn P (ops : list (vop R)) e : fold_left (fun r o => bind r (vstep nn P o)) ops (Raise e) = Raise e.
Proof. induction ops as [|o ops IH]; simpl; [reflexivity | exact IH]. Qed.

Lemma vrun_cons nn P o (ops : list (vop R)) s : vrun nn P (o :: ops) s = bind (vstep nn P o s) (vrun nn P ops).
Proof. unfold vrun. simpl. destruct (vstep nn P o s); simpl; [reflexivity | apply vrun_raise]. Qed.

Definition tree_fresh s := kd s = None \/ kd s = glob s Values.

Lemma set_kdtree_fresh s s' : set_kdtree s = Ok s' -> kd s' = glob s' Values /\ glob s' Values = glob s Values /\ kd s' <> None.
Proof.
  unfold set_kdtree. destruct (glob s Values) as [x|] eqn:G; [|discriminate]. intros [= <-]. simpl.
  rewrite upd_other by discriminate. rewrite G. repeat split. discriminate.
Qed.

Lemma query_fresh nn P x s i s' : tree_fresh s -> query nn P x s = Ok (i, s') ->
  kd s' = glob s' Values /\ kd s' <> None /\ glob s' Values = glob s Values /\
  exists v, glob s Values = Some v /\ i = nn (rows v) x.
Proof.
  intros F H. unfold query in H. destruct (kd s) as [t|] eqn:K.
  - destruct (check_num P s); [|discriminate]. simpl in H. injection H as <- <-.
    destruct F as [F|F]; [congruence|]. rewrite K in F. repeat split; try congruence.
    exists t. split; [congruence | reflexivity].
  - destruct (set_kdtree s) as [s1|] eqn:E; [|discriminate]. simpl in H.
    destruct (set_kdtree_fresh _ _ E) as (F1 & F2 & F3).
    destruct (kd s1) as [t|] eqn:K1; [|congruence]. injection H as <- <-.
    repeat split; try congruence. exists t. split; [congruence | reflexivity].
Qed.

Lemma refreshing_run nn P ops : forall (built : bool) s s',
  refreshes built ops = true -> (if built then kd s = glob s Values else kd s = None) ->
  vrun nn P ops s = Ok s' -> tree_fresh s'.
Proof.
  enough (G : forall n ops, length ops <= n -> forall (built : bool) s s',
    refreshes built ops = true -> (if built then kd s = glob s Values else kd s = None) ->
    vrun nn P ops s = Ok s' -> tree_fresh s') by (intros; eapply (G (length ops)); eauto).
  clear ops. induction n as [|n IH]; intros [|o ops] L built s s' Hr Hk H; simpl in L; try lia.
  - injection H as <-. destruct built; [right | left]; exact Hk.
  - injection H as <-. destruct built; [right | left]; exact Hk.
  - rewrite vrun_cons in H. destruct (vstep nn P o s) as [s1|] eqn:E; [|discriminate]. simpl in H.
    destruct o as [x| |x]; simpl in Hr, E.
    + destruct built.
      * destruct ops as [|[y| |y] ops]; try discriminate. rewrite vrun_cons in H. simpl in H.
        destruct (set_kdtree s1) as [s2|] eqn:E2; [|discriminate]. simpl in H.
        destruct (set_kdtree_fresh _ _ E2) as (F1 & _).
        eapply (IH ops) with (built := true) (s := s2); eauto. simpl in L. lia.
      * eapply (IH ops) with (built := false) (s := s1); eauto; [lia|].
        unfold set_values in E. destruct (shape_eq_dec _ _); [|discriminate]. injection E as <-. exact Hk.
    + destruct (set_kdtree_fresh _ _ E) as (F1 & _).
      eapply (IH ops) with (built := true) (s := s1); eauto. lia.
    + destruct (query nn P x s) as [[i s2]|] eqn:Q; [|discriminate]. simpl in E. injection E as <-.
      destruct (query_fresh nn P x s i s2) as (F1 & _); [|exact Q|].
      { destruct built; [right | left]; exact Hk. }
      eapply (IH ops) with (built := true) (s := s2); eauto. lia.
Qed.

Lemma refreshed_query_nearest dist nn P d ops s s' x i v : nn_contract dist nn ->
  refreshes false ops = true -> vrun nn P ops (new_sset d) = Ok s ->
  query nn P x s = Ok (i, s') -> glob s' Values = Some v -> rows v <> [] -> nearest dist (rows v) x i.
Proof.
  intros C Hr H Q G N.
  assert (F : tree_fresh s) by (eapply refreshing_run with (built := false); eauto; reflexivity).
  destruct (query_fresh _ _ _ _ _ _ F Q) as (_ & _ & E & w & Gw & ->).
  rewrite E, Gw in G. injection G as ->. apply C, N.
Qed.

(** A tree kept over a change of the number of samples is detected. *)
Lemma stale_length_detected nn P x s v k : glob s Values = Some v -> glob s KdtreeValues = Some k -> kd s = Some k ->
  length (rows v) <> length (rows k) -> query nn P x s = Raise LengthNotMatching.
Proof.
  intros Gv Gk K N. unfold query. rewrite K.
  rewrite (proj2 (check_num_length P s (ex_intro _ Values (ex_intro _ v Gv)))); [reflexivity|].
  exists Values, KdtreeValues, v, k. auto.
Qed.

(** The first index of a smallest distance is an instance of the contract. *)
Lemma argmin_contract (dist : R -> R -> Qc) : nn_contract dist (fun l x => argmin (map (dist x) l)).
Proof.
  intros l x N. destruct (argmin_spec (map (dist x) l)) as [d [Hd Hm]].
  - destruct l; [congruence | discriminate].
  - rewrite nth_error_map in Hd.
    destruct (nth_error l (argmin (map (dist x) l))) as [v|] eqn:E; [|discriminate].
    injection Hd as <-. exists v. split; [exact E|].
    intros w Hw. apply Hm, in_map, Hw.
Qed.

(** *** C10 *)
Lemma stale_local_wins P s s1 s2 a (p : arr R) q : 0 < P -> glob s a = Some p ->
  global_to_local P s = Ok s1 -> local_to_global (set_glob a (Some q) s1) = Ok s2 -> glob s2 a = Some p.
Proof.
  intros HP G H1 H2. destruct (g2l_inv _ _ _ H1) as (n & C & Eg & _ & _ & _ & _ & _ & El).
  destruct (local_to_global_spec _ _ H2) as (_ & _ & _ & _ & _ & _ & I). specialize (I a).
  simpl in I. rewrite El, G in I. destruct I as (g & Hg & Es). rewrite gather_split in Hg by exact HP. congruence.
Qed.

Lemma no_local_keeps s s' a : loc s a = None -> local_to_global s = Ok s' -> glob s' a = glob s a.
Proof.
  intros L H. destruct (local_to_global_spec _ _ H) as (_ & _ & _ & _ & _ & _ & I).
  specialize (I a). rewrite L in I. exact I.
Qed.
End Proofs.
