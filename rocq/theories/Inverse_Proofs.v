From Coq Require Import ZArith List Arith Lia Bool Sorting.Sorted QArith Qcanon Qround Permutation.
From Verif Require Import Err Num Ext NumPy Lists Query_Proofs Layout_Proofs Volume_Proofs Error_Proofs Inverse_Model Inverse_Spec.
Import ListNotations.
Local Open Scope nat_scope.

(** ** Pointers *)
Lemma filter_sorted {A} (f : A -> nat) (p : A -> bool) l : StronglySorted lt (map f l) -> StronglySorted lt (map f (filter p l)).
Proof.
  induction l as [|x l IH]; simpl; intro H; [constructor|]. inversion_clear H as [|? ? H1 H2].
  destruct (p x); [|auto]. simpl. constructor; [auto|].
  rewrite Forall_forall in *. intros y Hy. apply H2. apply in_map_iff in Hy. destruct Hy as (z & <- & Hz).
  apply in_map, (proj1 (filter_In _ _ _) Hz).
Qed.
Lemma seq_sorted a n : StronglySorted lt (seq a n).
Proof.
  revert a; induction n as [|n IH]; intro a; simpl; constructor; [apply IH|].
  apply Forall_forall. intros y Hy. apply in_seq in Hy. lia.
Qed.
Lemma map_fst_combine {A B} (l : list A) (m : list B) : length l = length m -> map fst (combine l m) = l.
Proof. revert m; induction l as [|x l IH]; intros [|y m] E; simpl in *; try discriminate; [reflexivity|]. f_equal. apply IH. lia. Qed.
Lemma sorted_NoDup l : StronglySorted lt l -> NoDup l.
Proof.
  induction l as [|x l IH]; intro H; constructor; inversion_clear H as [|? ? H1 H2]; [|auto].
  intro Hin. rewrite Forall_forall in H2. specialize (H2 _ Hin). lia.
Qed.
Lemma pointer_positions regions i : positions regions i (pointer regions i).
Proof.
  unfold positions, pointer. split.
  - apply filter_sorted. rewrite map_fst_combine by apply seq_length. apply seq_sorted.
  - intro k. rewrite in_map_iff. split.
    + intros ((k' & l) & E & H). simpl in E. subst k'. apply filter_In in H. destruct H as [H1 H2].
      apply in_enum in H1. simpl in H2. apply Z.eqb_eq in H2. subst. exact H1.
    + intro H. exists (k, Z.of_nat i). split; [reflexivity|]. apply filter_In. split; [apply in_enum, H|]. apply Z.eqb_refl.
Qed.
Lemma pointer_length regions i : length (pointer regions i) = count_label regions i.
Proof.
  unfold pointer, count_label. rewrite map_length.
  assert (G : forall a, length (filter (fun e : nat * Z => Z.eqb (snd e) (Z.of_nat i)) (combine (seq a (length regions)) regions)) = length (filter (Z.eqb (Z.of_nat i)) regions)).
  { induction regions as [|x l IH]; intro a; simpl; [reflexivity|]. rewrite (Z.eqb_sym (Z.of_nat i) x).
    destruct (x =? Z.of_nat i)%Z; simpl; rewrite IH; reflexivity. }
  apply G.
Qed.
Lemma positions_unique regions i p q : positions regions i p -> positions regions i q -> p = q.
Proof.
  intros [S1 H1] [S2 H2]. assert (E : forall k, In k p <-> In k q) by (intro; rewrite H1, H2; reflexivity).
  clear H1 H2. revert q S2 E; induction p as [|x p IH]; intros [|y q] S2 E.
  - reflexivity.
  - exfalso. apply (proj2 (E y)); left; reflexivity.
  - exfalso. apply (proj1 (E x)); left; reflexivity.
  - inversion_clear S1 as [|? ? A1 A2]. inversion_clear S2 as [|? ? B1 B2]. rewrite Forall_forall in A2, B2.
    assert (x = y). { destruct (proj1 (E x) (or_introl eq_refl)) as [|Hx]; [auto|]. destruct (proj2 (E y) (or_introl eq_refl)) as [|Hy]; [auto|].
      specialize (A2 _ Hy). specialize (B2 _ Hx). lia. }
    subst y. f_equal. apply IH; [assumption..|]. intro k. split; intro Hk.
    + destruct (proj1 (E k) (or_intror Hk)) as [<-|]; [|assumption]. specialize (A2 _ Hk). lia.
    + destruct (proj2 (E k) (or_intror Hk)) as [<-|]; [|assumption]. specialize (B2 _ Hk). lia.
Qed.

Lemma fold_max_spec r x : In (fold_left Z.max r x) (x :: r) /\ forall y, In y (x :: r) -> (y <= fold_left Z.max r x)%Z.
Proof.
  revert x; induction r as [|a r IH]; intro x; cbn [fold_left].
  - split; [left; reflexivity|]. intros y [<-|[]]. lia.
  - destruct (IH (Z.max x a)) as [H1 H2]. split.
    + destruct H1 as [H1|H1]; [|right; right; exact H1]. rewrite <- H1. destruct (Z.max_spec x a) as [[_ ->]|[_ ->]]; simpl; auto.
    + intros y [<-|[<-|Hy]].
      * eapply Z.le_trans; [|apply H2; left; reflexivity]. lia.
      * eapply Z.le_trans; [|apply H2; left; reflexivity]. lia.
      * apply H2. right. exact Hy.
Qed.
Lemma num_clusters_spec {V} regions : regions <> [] -> exists c, @num_clusters V None regions = Ok c /\ clusters regions c.
Proof.
  intro N. unfold num_clusters, np_max. destruct regions as [|x r]; [congruence|]. simpl.
  destruct (fold_max_spec r x) as [H1 H2]. eexists. split; [reflexivity|]. split.
  - intros l Hl. specialize (H2 _ Hl). lia.
  - destruct (Z.to_nat (fold_left Z.max r x + 1)) eqn:E; [left; reflexivity|]. right.
    replace (Z.of_nat (S n) - 1)%Z with (fold_left Z.max r x) by lia. exact H1.
Qed.
Lemma clusters_unique regions c d : regions <> [] -> clusters regions c -> clusters regions d -> c = d.
Proof.
  intros N [H1 H2] [G1 G2]. destruct H2 as [->|H2], G2 as [->|G2]; [reflexivity|..].
  - specialize (H1 _ G2). specialize (G1 _ G2). lia.
  - specialize (G1 _ H2). specialize (H1 _ H2). lia.
  - specialize (G1 _ H2). specialize (H1 _ G2). lia.
Qed.

(** ** invert *)
Lemma fold_result_app {S X} (f : S -> X -> result S) l x s :
  fold_result f (l ++ [x]) s = bind (fold_result f l s) (fun s' => f s' x).
Proof.
  revert s; induction l as [|y l IH]; intro s; simpl.
  - destruct (f s x); reflexivity.
  - destruct (f s y); simpl; [apply IH | reflexivity].
Qed.

Section Invert.
Context {V R : Type} (zero : R) (maps omaps : option (list (list V))) (values : list V) (regions oregions : list Z) (ratio : nat -> V -> R).

Definition points_of (i : nat) : option (list V) :=
  match maps with None => take_idx values (pointer regions i) | Some m => nth_error m i end.

Record inv_state (m : nat) (st : list R * list (option (list R)) * list (list nat)) : Prop := {
  is_len : length (fst (fst st)) = length values;
  is_ptrs : snd st = map (pointer regions) (seq 0 m);
  is_rs : length (snd (fst st)) = m;
  is_pts : forall i, i < m -> exists vs, points_of i = Some vs /\
     nth_error (snd (fst st)) i = Some (if length (pointer regions i) =? 0 then None else Some (map (ratio i) vs)) /\
     (length (pointer regions i) = 0 \/ length vs = length (pointer regions i) /\ has_kde omaps oregions i = true /\ has_kde maps regions i = true) /\
     forall p k, nth_error (pointer regions i) p = Some k -> nth_error (fst (fst st)) k = option_map (ratio i) (nth_error vs p);
  is_zero : forall k l, k < length values -> nth_error regions k = Some l -> (l < 0 \/ Z.of_nat m <= l)%Z -> nth_error (fst (fst st)) k = Some zero
}.

Lemma nth_error_repeat' {A} (x : A) n k : k < n -> nth_error (repeat x n) k = Some x.
Proof. revert k; induction n as [|n IH]; intros [|k] H; simpl; try lia; [reflexivity|]. apply IH. lia. Qed.
Lemma scatter_len {A} idx (vs l l' : list A) : scatter l idx vs = Some l' -> length vs = length idx.
Proof.
  revert vs l; induction idx as [|i is IH]; intros [|v vs] l E; simpl in *; try discriminate; [reflexivity|].
  destruct (set_nth i v l); [|discriminate]. f_equal. eapply IH, E.
Qed.

Lemma invert_fold m st : fold_result (invert_step maps omaps values regions oregions ratio) (seq 0 m) (repeat zero (length values), [], []) = Ok st ->
  inv_state m st.
Proof.
  revert st; induction m as [|m IH]; intros st H.
  - simpl in H. injection H as <-. constructor; simpl.
    + apply repeat_length.
    + reflexivity.
    + reflexivity.
    + intros; lia.
    + intros k l Hk Hl _. apply nth_error_repeat', Hk.
  - rewrite seq_S, fold_result_app in H. simpl plus in H.
    destruct (fold_result _ (seq 0 m) _) as [s|e] eqn:E; [|discriminate]. simpl in H. specialize (IH _ eq_refl).
    destruct s as ((w, rs), ptrs). destruct IH as [I1 I2 I3 I4 I5]. simpl in I1, I2, I3, I4, I5.
    unfold invert_step in H.
    assert (PV : exists vs, points_of m = Some vs /\
      (if 0 <? length (pointer regions m) then
         if has_kde omaps oregions m && has_kde maps regions m then
           match scatter w (pointer regions m) (map (ratio m) vs) with
           | Some w' => Ok (w', rs ++ [Some (map (ratio m) vs)], ptrs ++ [pointer regions m]) | None => Raise PyValueError end
         else Raise PyTypeError
       else Ok (w, rs ++ [None], ptrs ++ [pointer regions m])) = Ok st).
    { unfold points_of. destruct maps as [mm|].
      - destruct (nth_error mm m) as [vs|]; [|discriminate]. exists vs. split; [reflexivity | exact H].
      - destruct (take_idx values (pointer regions m)) as [vs|]; [|discriminate]. exists vs. split; [reflexivity | exact H]. }
    destruct PV as (vs & Hvs & PV). clear H.
    destruct (pointer_positions regions m) as [PS PI].
    assert (I2' : ptrs ++ [pointer regions m] = map (pointer regions) (seq 0 (S m))) by (rewrite seq_S, map_app, <- I2; reflexivity).
    destruct (Nat.ltb_spec 0 (length (pointer regions m))) as [Hp|Hp].
    + destruct (has_kde omaps oregions m) eqn:K1; [|discriminate]. destruct (has_kde maps regions m) eqn:K2; [|discriminate]. simpl in PV.
      destruct (scatter w (pointer regions m) (map (ratio m) vs)) as [w'|] eqn:Sc; [|discriminate]. injection PV as <-.
      pose proof (scatter_len _ _ _ _ Sc) as SL. rewrite map_length in SL.
      destruct (scatter_spec _ _ _ _ (sorted_NoDup _ PS) Sc) as (L1 & L2 & L3).
      constructor; simpl.
      * congruence.
      * exact I2'.
      * rewrite app_length, I3. simpl. lia.
      * intros i Hi. destruct (Nat.eq_dec i m) as [->|Hne].
        -- exists vs. split; [exact Hvs|]. split.
           { rewrite nth_error_app2, I3, Nat.sub_diag by lia. simpl. destruct (Nat.eqb_spec (length (pointer regions m)) 0); [lia | reflexivity]. }
           split; [right; auto|]. intros p k Hk. rewrite (L3 _ _ Hk). apply nth_error_map.
        -- destruct (I4 i ltac:(lia)) as (vi & A1 & A2 & A3 & A4). exists vi. split; [exact A1|]. split.
           { rewrite nth_error_app1 by lia. exact A2. }
           split; [exact A3|]. intros p k Hk. rewrite L2; [apply A4, Hk|].
           rewrite PI. apply nth_error_In in Hk. apply (pointer_positions regions i) in Hk. rewrite Hk. intro Q. injection Q. lia.
      * intros k l Hk Hl B. rewrite L2; [apply (I5 k l); [exact Hk | exact Hl | lia]|]. rewrite PI, Hl. intro Q. injection Q. lia.
    + injection PV as <-. constructor; simpl.
      * exact I1.
      * exact I2'.
      * rewrite app_length, I3. simpl. lia.
      * intros i Hi. destruct (Nat.eq_dec i m) as [->|Hne].
        -- exists vs. split; [exact Hvs|]. split.
           { rewrite nth_error_app2, I3, Nat.sub_diag by lia. simpl. destruct (Nat.eqb_spec (length (pointer regions m)) 0); [reflexivity | lia]. }
           split; [left; lia|]. intros p k Hk. destruct (pointer regions m); [destruct p; discriminate | simpl in Hp; lia].
        -- destruct (I4 i ltac:(lia)) as (vi & A1 & A2 & A3 & A4). exists vi. split; [exact A1|]. split; [|auto].
           rewrite nth_error_app1 by lia. exact A2.
      * intros k l Hk Hl B. apply (I5 k l); [exact Hk | exact Hl | lia].
Qed.
End Invert.

Lemma nth_error_map_seq {A} (f : nat -> A) n i x : nth_error (map f (seq 0 n)) i = Some x -> i < n /\ x = f i.
Proof.
  rewrite nth_error_map, nth_error_seq. destruct (Nat.ltb_spec i n); simpl; [|discriminate]. intro H'. injection H' as <-. auto.
Qed.
Lemma take_idx_nth {A} (l : list A) idx vs : take_idx l idx = Some vs -> length vs = length idx /\
  forall p k, nth_error idx p = Some k -> nth_error vs p = nth_error l k.
Proof.
  revert vs; induction idx as [|i is IH]; intros vs H; simpl in H.
  - injection H as <-. split; [reflexivity|]. intros [|p] k Q; discriminate.
  - destruct (nth_error l i) as [x|] eqn:E; [|discriminate]. destruct (take_idx l is) as [r|]; [|discriminate]. injection H as <-.
    destruct (IH _ eq_refl) as [L H]. split; [simpl; congruence|]. intros [|p] k Q; simpl in *; [congruence|auto].
Qed.

(** Prepared for both cases: weights with and without cluster maps. *)
Lemma invert_weights_lemma : forall (V R : Type) (zero : R) omaps (values : list V) regions oregions (ratio : nat -> V -> R) w rs ptrs,
  length regions = length values ->
  invert zero None omaps values regions oregions ratio = Ok (w, rs, ptrs) ->
  clusters regions (length ptrs) /\ length w = length values /\ length rs = length ptrs /\
  (forall k v l, nth_error values k = Some v -> nth_error regions k = Some l ->
     nth_error w k = Some (if (0 <=? l)%Z then ratio (Z.to_nat l) v else zero)) /\
  (forall i ptr, nth_error ptrs i = Some ptr -> positions regions i ptr) /\
  (forall i ptr, nth_error ptrs i = Some ptr -> exists r, nth_error rs i = Some r /\
     (ptr = [] -> r = None) /\
     (ptr <> [] -> exists r', r = Some r' /\ length r' = length ptr /\ forall p k, nth_error ptr p = Some k ->
        nth_error r' p = option_map (ratio i) (nth_error values k))).
Proof.
  intros V R zero omaps values regions oregions ratio w rs ptrs L H. unfold invert in H.
  destruct regions as [|z0 zr] eqn:ER; [discriminate|]. rewrite <- ER in *. assert (N : regions <> []) by (subst; discriminate). clear ER z0 zr.
  destruct (num_clusters_spec (V := V) regions N) as (c & Ec & Cc). rewrite Ec in H. simpl in H.
  apply invert_fold in H. destruct H as [I1 I2 I3 I4 I5]. simpl in I1, I2, I3, I4, I5. subst ptrs. rewrite map_length, seq_length.
  split; [exact Cc|]. split; [exact I1|]. split; [exact I3|]. split; [|split].
  - intros k v l Hv Hl. assert (Hk : k < length values) by (apply nth_error_Some; rewrite Hv; discriminate).
    destruct (Z.leb_spec 0 l) as [Hl0|Hl0].
    + assert (l < Z.of_nat c)%Z by (apply (proj1 Cc), (nth_error_In _ _ Hl)).
      destruct (I4 (Z.to_nat l) ltac:(lia)) as (vs & A1 & _ & _ & A4).
      assert (Hin : In k (pointer regions (Z.to_nat l))). { apply (pointer_positions regions (Z.to_nat l)). rewrite Hl. f_equal. lia. }
      apply In_nth_error in Hin. destruct Hin as [p Hp]. rewrite (A4 _ _ Hp).
      unfold points_of in A1. destruct (take_idx_nth _ _ _ A1) as [_ T]. rewrite (T _ _ Hp), Hv. reflexivity.
    + apply (I5 k l); [exact Hk | exact Hl | lia].
  - intros i ptr Hp. apply nth_error_map_seq in Hp. destruct Hp as [_ ->]. apply pointer_positions.
  - intros i ptr Hp. apply nth_error_map_seq in Hp. destruct Hp as [Hi ->].
    destruct (I4 i Hi) as (vs & A1 & A2 & A3 & A4). eexists. split; [exact A2|].
    unfold points_of in A1. destruct (take_idx_nth _ _ _ A1) as [TL T].
    split.
    + intro E. rewrite E. reflexivity.
    + intro E. destruct (Nat.eqb_spec (length (pointer regions i)) 0) as [Q|Q]; [apply length_zero_iff_nil in Q; congruence|].
      eexists. split; [reflexivity|]. split; [rewrite map_length; exact TL|]. intros p k Hp. rewrite nth_error_map, (T _ _ Hp). reflexivity.
Qed.

Lemma invert_maps_lemma : forall (V R : Type) (zero : R) maps omaps (values : list V) regions oregions (ratio : nat -> V -> R) w rs ptrs,
  length regions = length values ->
  invert zero (Some maps) omaps values regions oregions ratio = Ok (w, rs, ptrs) ->
  length ptrs = length maps /\ length w = length values /\
  (forall i m ptr p k, nth_error maps i = Some m -> positions regions i ptr -> nth_error ptr p = Some k ->
     nth_error w k = option_map (ratio i) (nth_error m p) /\ length m = length ptr) /\
  (forall k l, nth_error regions k = Some l -> (l < 0 \/ Z.of_nat (length maps) <= l)%Z -> nth_error w k = Some zero) /\
  (forall i ptr, nth_error ptrs i = Some ptr -> positions regions i ptr).
Proof.
  intros V R zero maps omaps values regions oregions ratio w rs ptrs L H. unfold invert in H. simpl in H.
  apply invert_fold in H. destruct H as [I1 I2 I3 I4 I5]. simpl in I1, I2, I3, I4, I5. subst ptrs. rewrite map_length, seq_length.
  split; [reflexivity|]. split; [exact I1|]. split; [|split].
  - intros i m ptr p k Hm Hpos Hp. assert (Hi : i < length maps) by (apply nth_error_Some; rewrite Hm; discriminate).
    destruct (I4 i Hi) as (vs & A1 & _ & A3 & A4). unfold points_of in A1. rewrite Hm in A1. injection A1 as <-.
    rewrite (positions_unique _ _ _ _ Hpos (pointer_positions regions i)) in *. split; [apply A4, Hp|].
    destruct A3 as [A3|A3]; [|tauto]. destruct (pointer regions i); [destruct p; discriminate | discriminate].
  - intros k l Hl B. apply (I5 k l); [|exact Hl|exact B]. rewrite <- L. apply nth_error_Some. rewrite Hl. discriminate.
  - intros i ptr Hp. apply nth_error_map_seq in Hp. destruct Hp as [_ ->]. apply pointer_positions.
Qed.

(** When the inversion succeeds. *)
Lemma take_idx_some {A} (l : list A) idx : (forall i, In i idx -> i < length l) -> exists vs, take_idx l idx = Some vs.
Proof.
  induction idx as [|i is IH]; intro H; simpl; [eauto|].
  destruct (nth_error l i) as [x|] eqn:E; [|apply nth_error_None in E; specialize (H i (or_introl eq_refl)); lia].
  destruct IH as [vs ->]; [intros; apply H; right; assumption|]. eauto.
Qed.
Lemma pointer_lt regions i k : In k (pointer regions i) -> k < length regions.
Proof. intro H. apply (pointer_positions regions i) in H. apply nth_error_Some. rewrite H. discriminate. Qed.

Lemma invert_fold_ok {V R} (zero : R) omaps (values : list V) regions oregions ratio m : length regions = length values ->
  (forall i, i < m -> length (pointer regions i) = 0 \/ has_kde omaps oregions i = true /\ @has_kde V None regions i = true) ->
  exists st, fold_result (invert_step None omaps values regions oregions ratio) (seq 0 m) (repeat zero (length values), [], []) = Ok st.
Proof.
  intros L; induction m as [|m IH]; intro H; [simpl; eauto|].
  rewrite seq_S, fold_result_app. destruct IH as [st Est]; [intros; apply H; lia|]. rewrite Est. simpl plus. cbn [bind].
  pose proof (invert_fold _ _ _ _ _ _ _ _ _ Est) as [I1 _ _ _ _]. destruct st as ((w, rs), ptrs). simpl in I1. unfold invert_step.
  destruct (take_idx_some values (pointer regions m)) as [vs Evs]; [intros k Hk; rewrite <- L; eapply pointer_lt, Hk|]. rewrite Evs. cbn [bind].
  destruct (Nat.ltb_spec 0 (length (pointer regions m))) as [Hp|Hp]; [|eauto].
  destruct (H m ltac:(lia)) as [Q|[Q1 Q2]]; [lia|]. rewrite Q1, Q2. cbn [andb].
  destruct (scatter_some (pointer regions m) (map (ratio m) vs) w) as [w' ->]; [|  |eauto].
  - rewrite map_length. apply (take_idx_nth _ _ _ Evs).
  - intros k Hk. rewrite I1, <- L. eapply pointer_lt, Hk.
Qed.

Lemma invert_succeeds_lemma : forall (V R : Type) (zero : R) (values : list V) regions oregions (ratio : nat -> V -> R),
  length regions = length values ->
  ((exists out, invert zero None None values regions oregions ratio = Ok out) <->
   regions <> [] /\ forall i, count_label regions i = 0 \/ (2 <= count_label regions i /\ 2 <= count_label oregions i)).
Proof.
  intros V R zero values regions oregions ratio L. split.
  - intros [((w, rs), ptrs) H]. assert (N : regions <> []) by (intros ->; discriminate H). split; [exact N|].
    unfold invert in H. destruct (num_clusters_spec (V := V) regions N) as (c & Ec & Cc). rewrite Ec in H. simpl in H.
    apply invert_fold in H. destruct H as [I1 I2 I3 I4 I5]. intro i.
    destruct (le_lt_dec c i) as [Hi|Hi].
    + left. rewrite <- pointer_length. destruct (pointer regions i) as [|k q] eqn:E; [reflexivity|]. exfalso.
      assert (Hin : In k (pointer regions i)) by (rewrite E; left; reflexivity).
      apply (pointer_positions regions i) in Hin. apply nth_error_In in Hin. apply (proj1 Cc) in Hin. lia.
    + destruct (I4 i Hi) as (vs & _ & _ & [A|(_ & A & B)] & _); [left; rewrite <- pointer_length; exact A|]. right.
      unfold has_kde in A, B. apply Nat.ltb_lt in A, B. rewrite pointer_length in A, B. lia.
  - intros [N H]. unfold invert. destruct (num_clusters_spec (V := V) regions N) as (c & Ec & Cc). rewrite Ec. cbn [bind].
    apply invert_fold_ok; [exact L|]. intros i _. rewrite !pointer_length. unfold has_kde. rewrite !pointer_length.
    destruct (H i) as [->|[A B]]; [left; reflexivity|right]. split; apply Nat.ltb_lt; lia.
Qed.

(** One cluster map never works. *)
Lemma one_map_lemma : forall (V R : Type) (zero : R) m omaps (values : list V) regions oregions (ratio : nat -> V -> R),
  In 0%Z regions -> invert zero (Some [m]) omaps values regions oregions ratio = Raise PyTypeError.
Proof.
  intros V R zero m omaps values regions oregions ratio H. unfold invert. cbn [num_clusters bind length seq fold_result]. unfold invert_step. cbn [nth_error bind].
  apply In_nth_error in H. destruct H as [k Hk]. apply (pointer_positions regions 0) in Hk.
  destruct (Nat.ltb_spec 0 (length (pointer regions 0))) as [Hp|Hp].
  - unfold has_kde at 2. simpl. rewrite andb_false_r. reflexivity.
  - destruct (pointer regions 0); [destruct Hk | simpl in Hp; lia].
Qed.
