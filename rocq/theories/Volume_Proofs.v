From Coq Require Import List Arith Bool ZArith QArith Qcanon Lia Permutation.
From Verif Require Import Err Num Ext Lists NumPy Layout_Proofs Query_Model Query_Spec Query_Proofs Volume_Model Volume_Spec.
Import ListNotations.
Local Open Scope nat_scope.

(** ** Emulated volumes *)
Lemma cell_counts_app num a b : cell_counts num (a ++ b) = vadd (cell_counts num a) (cell_counts num b).
Proof.
  unfold cell_counts, vadd. generalize (seq 0 num) as l. induction l as [|i l IH]; simpl; [reflexivity|].
  rewrite IH, filter_app, app_length, qn_add. reflexivity.
Qed.
Lemma cell_counts_nil num : cell_counts num [] = zeros num.
Proof.
  unfold cell_counts, zeros. simpl. rewrite qn_0.
  generalize 0 at 1 as a. induction num as [|n IH]; intro a; simpl; [reflexivity | rewrite IH; reflexivity].
Qed.
Lemma allreduce_counts {X} num (ptr : X -> nat) blocks :
  allreduce_sum (zeros num) (map (fun b => cell_counts num (map ptr b)) blocks) = cell_counts num (map ptr (concat blocks)).
Proof.
  unfold allreduce_sum. induction blocks as [|b bs IH]; cbn [map concat fold_right].
  - symmetry. apply cell_counts_nil.
  - rewrite IH, map_app, cell_counts_app. reflexivity.
Qed.

Lemma counts_map {X} (ptr : X -> nat) i pts :
  length (filter (fun p => p =? i) (map ptr pts)) = length (filter (fun x => ptr x =? i) pts).
Proof. rewrite filter_map_comm, map_length. reflexivity. Qed.

Lemma volumes_eq {X} num (ptr : X -> nat) blocks n : 0 < n ->
  map (fun v => xdivq v (qn n)) (allreduce_sum (zeros num) (map (fun b => cell_counts num (map ptr b)) blocks)) =
  map (fun i => Fin (qn (length (filter (fun x => ptr x =? i) (concat blocks))) / qn n)%Qc) (seq 0 num).
Proof.
  intro N. rewrite allreduce_counts. unfold cell_counts. rewrite map_map. apply map_ext. intro i.
  rewrite xdivq_fin by (apply qn_neq0, N). rewrite counts_map. reflexivity.
Qed.

Lemma emulated_eq {X} num (ptr : X -> nat) blocks : concat blocks <> [] ->
  estimate_volume_emulated num ptr blocks = map (fun i => Fin (fraction ptr (concat blocks) i)) (seq 0 num).
Proof.
  intro N. unfold estimate_volume_emulated, fraction. rewrite <- concat_length. apply volumes_eq.
  destruct (concat blocks); [congruence | simpl; lia].
Qed.
Lemma mc_eq {X} num n (ptr : X -> nat) blocks : 0 < n -> length (concat blocks) = n ->
  estimate_volume num n ptr blocks = map (fun i => Fin (fraction ptr (concat blocks) i)) (seq 0 num).
Proof.
  intros N L. unfold estimate_volume, fraction. rewrite L. apply volumes_eq, N.
Qed.

Lemma counts_total {X} num (ptr : X -> nat) pts : (forall x, In x pts -> ptr x < num) ->
  qsum (map (fun i => qn (length (filter (fun x => ptr x =? i) pts))) (seq 0 num)) = qn (length pts).
Proof.
  induction pts as [|x pts IH]; intro H.
  - simpl. rewrite qn_0. apply qsum_map_zero. reflexivity.
  - cbn [length filter]. rewrite qn_S, <- IH by (intros; apply H; right; assumption).
    rewrite <- (qsum_ind_seq num (ptr x) 1%Qc) by (apply H; left; reflexivity).
    rewrite <- qsum_map_add. apply qsum_map_ext. intros i _. destruct (ptr x =? i); cbn [length ind]; [rewrite qn_S|]; ring.
Qed.
Lemma fraction_total {X} num (ptr : X -> nat) pts : pts <> [] -> (forall x, In x pts -> ptr x < num) ->
  qsum (map (fraction ptr pts) (seq 0 num)) = 1%Qc /\ forall i, (0 <= fraction ptr pts i)%Qc.
Proof.
  intros N H. assert (L : 0 < length pts) by (destruct pts; [congruence | simpl; lia]). unfold fraction. split.
  - rewrite qsum_map_div, counts_total by exact H. field. apply qn_neq0, L.
  - intro i. apply qc_div_nonneg; [apply qn_nonneg | apply qn_pos, L].
Qed.
Lemma filter_perm_length {X} (p : X -> bool) l m : Permutation l m -> length (filter p l) = length (filter p m).
Proof.
  induction 1; simpl; try congruence.
  - destruct (p x); simpl; congruence.
  - destruct (p x), (p y); reflexivity.
Qed.
Lemma fraction_perm {X} (ptr : X -> nat) l m i : Permutation l m -> fraction ptr l i = fraction ptr m i.
Proof. intro P. unfold fraction. rewrite (filter_perm_length _ _ _ P), (Permutation_length P). reflexivity. Qed.

Lemma emulated_independent {X} num (ptr : X -> nat) b b' : Permutation (concat b) (concat b') ->
  estimate_volume_emulated num ptr b = estimate_volume_emulated num ptr b'.
Proof.
  intro P. destruct (concat b) as [|x r] eqn:E.
  - apply Permutation_nil in P. unfold estimate_volume_emulated. rewrite !allreduce_counts, <- !concat_length, E, P. reflexivity.
  - rewrite <- E in P. rewrite !emulated_eq.
    + apply map_ext. intro i. f_equal. apply fraction_perm, P.
    + intro H. rewrite H in P. apply Permutation_sym, Permutation_nil in P. congruence.
    + congruence.
Qed.
Lemma emulated_sum {X} num (ptr : X -> nat) blocks : concat blocks <> [] -> (forall x, In x (concat blocks) -> ptr x < num) ->
  exists v, estimate_volume_emulated num ptr blocks = map Fin v /\ length v = num /\ qsum v = 1%Qc /\ forall w, In w v -> (0 <= w)%Qc.
Proof.
  intros N H. exists (map (fraction ptr (concat blocks)) (seq 0 num)).
  rewrite emulated_eq, map_map, map_length, seq_length by exact N.
  destruct (fraction_total num ptr (concat blocks) N H) as [S P]. repeat split; [exact S|].
  intros w Hw. apply in_map_iff in Hw. destruct Hw as (i & <- & _). apply P.
Qed.
Lemma mc_assumption num : 0 < num -> exists v, estimate_volume_mc num = map Fin v /\ length v = num /\
  qsum v = 1%Qc /\ forall w, In w v -> w = (1 / qn num)%Qc.
Proof.
  intro N. exists (repeat (1 / qn num)%Qc num). unfold estimate_volume_mc. rewrite xdivq_fin by (apply qn_neq0, N).
  repeat split.
  - induction num as [|n IH] at 2 4; simpl; [reflexivity|]. rewrite IH. reflexivity.
  - apply repeat_length.
  - assert (E : forall c k, qsum (repeat c k) = (qn k * c)%Qc).
    { intros c k. induction k as [|k IH]; cbn [repeat qsum]; [rewrite qn_0; ring | rewrite IH, qn_S; ring]. }
    rewrite E. field. apply qn_neq0, N.
  - intros w Hw. apply repeat_spec in Hw. exact Hw.
Qed.

(** ** One dimension *)
Definition midp (x y : Qc) : Qc := ((x + y) * half)%Qc.
Fixpoint vols (e hi : Qc) (s : list Qc) : list Qc :=
  match s with
  | [] => []
  | x :: r => match r with [] => [(hi - e)%Qc] | y :: _ => (midp x y - e)%Qc :: vols (midp x y) hi r end
  end.
Lemma mid_points_cons x y r : mid_points (x :: y :: r) = midp x y :: mid_points (y :: r).
Proof. reflexivity. Qed.
Lemma differences_cons a b r : differences (a :: b :: r) = (b - a)%Qc :: differences (b :: r).
Proof. reflexivity. Qed.
Lemma differences_vols lo hi s : s <> [] -> differences (edges lo hi s) = vols lo hi s.
Proof.
  unfold edges. revert lo. induction s as [|x [|y r] IH]; intros lo N; [congruence | reflexivity |].
  rewrite mid_points_cons. cbn [app]. rewrite differences_cons. rewrite IH by discriminate. reflexivity.
Qed.
Lemma vols_length e hi s : length (vols e hi s) = length s.
Proof. revert e; induction s as [|x [|y r] IH]; intro e; [reflexivity | reflexivity |].
  change (vols e hi (x :: y :: r)) with ((midp x y - e)%Qc :: vols (midp x y) hi (y :: r)).
  cbn [length] in *. rewrite IH. reflexivity.
Qed.
Lemma vols_sum e hi s : s <> [] -> qsum (vols e hi s) = (hi - e)%Qc.
Proof.
  revert e; induction s as [|x [|y r] IH]; intros e N; [congruence | simpl; ring |].
  change (vols e hi (x :: y :: r)) with ((midp x y - e)%Qc :: vols (midp x y) hi (y :: r)).
  cbn [qsum]. rewrite IH by discriminate. ring.
Qed.

Fixpoint nondecreasing (l : list Qc) : Prop :=
  match l with
  | a :: (b :: _) as r => (a <= b)%Qc /\ nondecreasing r
  | _ => True
  end.
Lemma nondecreasing_head x l w : nondecreasing (x :: l) -> In w l -> (x <= w)%Qc.
Proof.
  revert x; induction l as [|y l IH]; intros x H Hw; [destruct Hw|]. destruct H as [H1 H2].
  destruct Hw as [<-|Hw]; [exact H1|]. eapply Qcle_trans; [exact H1 | apply IH; assumption].
Qed.
Lemma midp_bounds x y : (x <= y)%Qc -> (x <= midp x y)%Qc /\ (midp x y <= y)%Qc.
Proof. intro H. unfold midp, half. split; qc_lra. Qed.

Lemma qc_sub_nonneg a b : (a <= b)%Qc -> (0 <= b - a)%Qc.
Proof. intro H. qc_lra. Qed.

Lemma vols_nonneg e hi s : nondecreasing s -> (forall w, In w s -> (w <= hi)%Qc) -> (e <= hd hi s)%Qc ->
  forall w, In w (vols e hi s) -> (0 <= w)%Qc.
Proof.
  revert e; induction s as [|x [|y r] IH]; intros e S H E w Hw; simpl in E.
  - destruct Hw.
  - destruct Hw as [<-|[]]. assert (x <= hi)%Qc by (apply H; left; reflexivity). qc_lra.
  - change (vols e hi (x :: y :: r)) with ((midp x y - e)%Qc :: vols (midp x y) hi (y :: r)) in Hw.
    destruct S as [S1 S2]. destruct (midp_bounds x y S1) as [M1 M2].
    destruct Hw as [<-|Hw]; [apply qc_sub_nonneg; eapply Qcle_trans; eassumption|]. eapply IH; [exact S2 | intros; apply H; right; assumption | exact M2 | exact Hw].
Qed.

Definition weight_at (v : Qc) (s ws : list Qc) : Qc := qsum (values_at s v ws).
Lemma weight_at_cons v x s w ws : weight_at v (x :: s) (w :: ws) = (ind (qeqb x v) w + weight_at v s ws)%Qc.
Proof. unfold weight_at, values_at. simpl. destruct (qeqb x v); simpl; ring. Qed.
Lemma weight_at_absent v s ws : ~ In v s -> weight_at v s ws = 0%Qc.
Proof.
  revert ws; induction s as [|x s IH]; intros ws N; [reflexivity|]. destruct ws as [|w ws]; [reflexivity|].
  rewrite weight_at_cons, IH by (intro; apply N; right; assumption).
  destruct (qeqb x v) eqn:E; [apply qeqb_true in E; exfalso; apply N; left; exact E | simpl; ring].
Qed.

(** The interval that the sorted pass gives to a value v. *)
Lemma vols_interval hi : forall s e v, nondecreasing s -> In v s ->
  exists a b, weight_at v s (vols e hi s) = (b - a)%Qc /\
    ((hd v s = v /\ a = e) \/ (exists p, In p s /\ (p < v)%Qc /\ a = midp p v /\ forall w, In w s -> (w <= p)%Qc \/ (v <= w)%Qc)) /\
    ((b = hi /\ forall w, In w s -> (w <= v)%Qc) \/ (exists q, In q s /\ (v < q)%Qc /\ b = midp v q /\ forall w, In w s -> (w <= v)%Qc \/ (q <= w)%Qc)).
Proof.
  induction s as [|x [|y r] IH]; intros e v S Hv; [destruct Hv | |].
  - destruct Hv as [->|[]]. exists e, hi. split; [|split; left; split; try reflexivity].
    + cbn [vols]. rewrite weight_at_cons. rewrite (proj2 (qeqb_true v v) eq_refl). unfold weight_at, values_at. simpl. ring.
    + intros w [<-|[]]. apply Qcle_refl.
  - destruct S as [S1 S2].
    change (vols e hi (x :: y :: r)) with ((midp x y - e)%Qc :: vols (midp x y) hi (y :: r)).
    assert (Hx : forall w, In w (y :: r) -> (x <= w)%Qc).
    { intros w [<-|Hw]; [exact S1|]. eapply Qcle_trans; [exact S1 | eapply nondecreasing_head; eassumption]. }
    destruct (qeqb_spec x v) as [<-|N].
    + rewrite weight_at_cons, (proj2 (qeqb_true x x) eq_refl). cbn [ind].
      destruct (qeqb_spec x y) as [<-|Nxy].
      * destruct (IH (midp x x) x S2 (or_introl eq_refl)) as (a & b & W & Ha & Hb).
        exists e, b. split; [|split].
        -- rewrite W. destruct Ha as [[_ ->]|(p & Hp & Hlt & _)]; [ring|].
           exfalso. apply (Qcle_not_lt x p); [apply Hx, Hp | exact Hlt].
        -- left. auto.
        -- destruct Hb as [[-> Hb]|(q & Hq & Hlt & -> & Hb)].
           ++ left. split; [reflexivity|]. intros w [<-|Hw]; [apply Qcle_refl | apply Hb, Hw].
           ++ right. exists q. repeat split; auto; [right; exact Hq|]. intros w [<-|Hw]; [left; apply Qcle_refl | apply Hb, Hw].
      * assert (L : (x < y)%Qc) by (destruct (Qcle_lt_or_eq _ _ S1); [assumption | contradiction]).
        exists e, (midp x y). split; [|split].
        -- rewrite weight_at_absent; [ring|]. intros [E|Hw]; [congruence|].
           apply (Qclt_not_le x y L). eapply nondecreasing_head; eassumption.
        -- left. auto.
        -- right. exists y. repeat split; auto; [right; left; reflexivity|].
           intros w [<-|[<-|Hw]]; [left; apply Qcle_refl | right; apply Qcle_refl | right; eapply nondecreasing_head; eassumption].
    + destruct Hv as [E|Hv]; [contradiction|].
      assert (L : (x < v)%Qc) by (destruct (Qcle_lt_or_eq _ _ (Hx v Hv)); [assumption | contradiction]).
      destruct (IH (midp x y) v S2 Hv) as (a & b & W & Ha & Hb).
      exists a, b. split; [|split].
      * rewrite weight_at_cons, W, (proj2 (qeqb_false x v) N). simpl. ring.
      * right. destruct Ha as [[E ->]|(p & Hp & Hlt & -> & Ha)].
        -- simpl in E. subst y. exists x. repeat split; auto; [left; reflexivity|].
           intros w [<-|[<-|Hw]]; [left; apply Qcle_refl | right; apply Qcle_refl | right; eapply nondecreasing_head; eassumption].
        -- exists p. repeat split; auto; [right; exact Hp|]. intros w [<-|Hw]; [left; apply Hx, Hp | apply Ha, Hw].
      * destruct Hb as [[-> Hb]|(q & Hq & Hlt & -> & Hb)].
        -- left. split; [reflexivity|]. intros w [<-|Hw]; [apply Qclt_le_weak, L | apply Hb, Hw].
        -- right. exists q. repeat split; auto; [right; exact Hq|]. intros w [<-|Hw]; [left; apply Qclt_le_weak, L | apply Hb, Hw].
Qed.

Lemma closer_right p v x : (p < v)%Qc -> (qabs (x - v) <= qabs (x - p))%Qc <-> (midp p v <= x)%Qc.
Proof.
  intro H. unfold qabs, midp, half.
  destruct (qleb_spec 0 (x - v)) as [A|A], (qleb_spec 0 (x - p)) as [B|B];
    try (apply Qcnot_le_lt in A); try (apply Qcnot_le_lt in B); split; intro; qc_lra.
Qed.
Lemma closer_left v q x : (v < q)%Qc -> (qabs (x - v) <= qabs (x - q))%Qc <-> (x <= midp v q)%Qc.
Proof.
  intro H. unfold qabs, midp, half.
  destruct (qleb_spec 0 (x - v)) as [A|A], (qleb_spec 0 (x - q)) as [B|B];
    try (apply Qcnot_le_lt in A); try (apply Qcnot_le_lt in B); split; intro; qc_lra.
Qed.
Lemma midp_le p p' v v' : (p <= p')%Qc -> (v <= v')%Qc -> (midp p v <= midp p' v')%Qc.
Proof. intros. unfold midp, half. qc_lra. Qed.

Lemma interval_is_cell lo hi s v a b : (forall w, In w s -> (lo <= w)%Qc /\ (w <= hi)%Qc) -> In v s ->
  ((forall w, In w s -> (v <= w)%Qc) /\ a = lo \/ (exists p, In p s /\ (p < v)%Qc /\ a = midp p v /\ forall w, In w s -> (w <= p)%Qc \/ (v <= w)%Qc)) ->
  ((b = hi /\ forall w, In w s -> (w <= v)%Qc) \/ (exists q, In q s /\ (v < q)%Qc /\ b = midp v q /\ forall w, In w s -> (w <= v)%Qc \/ (q <= w)%Qc)) ->
  (a <= b)%Qc /\ forall x, voronoi_interval lo hi s v x <-> (a <= x)%Qc /\ (x <= b)%Qc.
Proof.
  intros D Hv Ha Hb.
  assert (A1 : (lo <= a)%Qc /\ (a <= v)%Qc).
  { destruct Ha as [[_ ->]|(p & Hp & L & -> & _)]; [split; [apply Qcle_refl | apply D, Hv]|].
    destruct (midp_bounds p v (Qclt_le_weak _ _ L)) as [M1 M2]. split; [|exact M2].
    eapply Qcle_trans; [exact (proj1 (D p Hp)) | exact M1]. }
  assert (B1 : (b <= hi)%Qc /\ (v <= b)%Qc).
  { destruct Hb as [[-> _]|(q & Hq & L & -> & _)]; [split; [apply Qcle_refl | apply D, Hv]|].
    destruct (midp_bounds v q (Qclt_le_weak _ _ L)) as [M1 M2]. split; [|exact M1].
    eapply Qcle_trans; [exact M2 | exact (proj2 (D q Hq))]. }
  split; [eapply Qcle_trans; [apply A1 | apply B1]|].
  intro x. split.
  - intros (X1 & X2 & X). split.
    + destruct Ha as [[_ ->]|(p & Hp & L & -> & _)]; [exact X1|]. apply closer_right; [exact L | apply X, Hp].
    + destruct Hb as [[-> _]|(q & Hq & L & -> & _)]; [exact X2|]. apply closer_left; [exact L | apply X, Hq].
  - intros [X1 X2]. split; [eapply Qcle_trans; [apply A1 | exact X1]|]. split; [eapply Qcle_trans; [exact X2 | apply B1]|].
    intros w Hw. destruct (Qc_dec w v) as [[L|L]|E].
    + destruct Ha as [[Ha _]|(p & Hp & Lp & -> & Ha)]; [exfalso; apply (Qclt_not_le _ _ L), Ha, Hw|].
      destruct (Ha w Hw) as [G|G]; [|exfalso; apply (Qclt_not_le _ _ L), G].
      apply closer_right; [exact L|]. eapply Qcle_trans; [|exact X1]. apply midp_le; [exact G | apply Qcle_refl].
    + destruct Hb as [[_ Hb]|(q & Hq & Lq & -> & Hb)]; [exfalso; apply (Qclt_not_le _ _ L), Hb, Hw|].
      destruct (Hb w Hw) as [G|G]; [exfalso; apply (Qclt_not_le _ _ L), G|].
      apply closer_left; [exact L|]. eapply Qcle_trans; [exact X2|]. apply midp_le; [apply Qcle_refl | exact G].
    + subst w. apply Qcle_refl.
Qed.

(** Un-sorting *)
Lemma take_idx_spec {A} (l : list A) idx : (forall i, In i idx -> i < length l) -> forall d,
  take_idx l idx = Some (map (fun i => nth i l d) idx).
Proof.
  induction idx as [|i idx IH]; intros H d; simpl; [reflexivity|].
  rewrite (nth_error_nth' l d) by (apply H; left; reflexivity).
  rewrite (IH (fun j Hj => H j (or_intror Hj)) d). reflexivity.
Qed.

Lemma nondecreasing_nth l : (forall i j a b, i < j -> nth_error l i = Some a -> nth_error l j = Some b -> (a <= b)%Qc) -> nondecreasing l.
Proof.
  induction l as [|x [|y l] IH]; intro H; [exact I | exact I |]. split.
  - apply (H 0 1); [lia | reflexivity | reflexivity].
  - apply IH. intros i j a b Hij Ha Hb. apply (H (S i) (S j)); [lia | exact Ha | exact Hb].
Qed.

Lemma argsort_sorted l p : is_argsort l p -> nondecreasing (map (fun i => nth i l 0%Qc) p) /\
  Permutation (map (fun i => nth i l 0%Qc) p) l /\ (forall i, In i p -> i < length l) /\ NoDup p /\ length p = length l.
Proof.
  intros [P S]. split; [|split; [|split; [|split]]].
  - apply nondecreasing_nth. intros i j a b Hij Ha Hb. rewrite nth_error_map_eq in Ha, Hb.
    destruct (nth_error p i) as [c|] eqn:Ec; [|discriminate]. destruct (nth_error p j) as [c'|] eqn:Ec'; [|discriminate].
    simpl in Ha, Hb. injection Ha as <-. injection Hb as <-. eapply S; eassumption.
  - eapply Permutation_trans; [apply Permutation_map, P|]. rewrite map_nth_seq. apply Permutation_refl.
  - intros i Hi. apply (Permutation_in _ P) in Hi. apply in_seq in Hi. lia.
  - apply Permutation_sym in P. eapply Permutation_NoDup; [exact P | apply seq_NoDup].
  - apply Permutation_length in P. rewrite seq_length in P. exact P.
Qed.

Lemma map_ext_nth {A B C} (f : A -> C) (g : B -> C) l m : length l = length m ->
  (forall i a b, nth_error l i = Some a -> nth_error m i = Some b -> f a = g b) -> map f l = map g m.
Proof.
  revert m; induction l as [|a l IH]; intros [|b m] L H; simpl in *; try discriminate; [reflexivity|]. f_equal.
  - apply (H 0); reflexivity.
  - apply IH; [lia|]. intros i x y Hx Hy. apply (H (S i)); assumption.
Qed.

(** Scattering along a permutation pairs each sample with its number. *)
Lemma scatter_pairs l p d lam : is_argsort l p -> length d = length l ->
  scatter (zeros (length p)) p d = Some lam ->
  length lam = length l /\ Permutation (combine (map (fun i => nth i l 0%Qc) p) d) (combine l lam).
Proof.
  intros HA Ld HS. destruct (argsort_sorted l p HA) as (_ & _ & Hlt & ND & Lp).
  destruct (scatter_spec p d (zeros (length p)) lam ND HS) as [L1 H2].
  unfold zeros in L1. rewrite repeat_length in L1. split; [congruence|].
  assert (Hn : forall k i v, nth_error p k = Some i -> nth_error d k = Some v -> nth i lam 0%Qc = v).
  { intros k i v Hk Hv. apply nth_error_nth. rewrite (proj2 H2 k i Hk). exact Hv. }
  assert (E1 : combine (map (fun i => nth i l 0%Qc) p) d = map (fun i => (nth i l 0%Qc, nth i lam 0%Qc)) p).
  { rewrite combine_map_l. transitivity (map (fun q : nat * Qc => (nth (fst q) l 0%Qc, nth (fst q) lam 0%Qc)) (combine p d)).
    - apply map_ext_in. intros [i v] Hin. simpl. f_equal. apply In_nth_error in Hin. destruct Hin as (k & Hk).
      rewrite nth_error_combine in Hk. destruct (nth_error p k) as [i'|] eqn:Ei; [|discriminate].
      destruct (nth_error d k) as [v'|] eqn:Ev; [|discriminate]. injection Hk as -> ->. symmetry. eapply Hn; eassumption.
    - clear -Ld Lp. rewrite <- Lp in Ld. clear Lp. revert d Ld. induction p as [|i p IH]; intros [|v d] Ld; simpl in *; try discriminate; [reflexivity|].
      rewrite IH by lia. reflexivity. }
  assert (E2 : combine l lam = map (fun i => (nth i l 0%Qc, nth i lam 0%Qc)) (seq 0 (length l))).
  { apply nth_error_ext. intro i. rewrite nth_error_combine, nth_error_map_eq, nth_error_seq.
    destruct (Nat.ltb_spec i (length l)) as [Hi|Hi].
    - rewrite (nth_error_nth' l 0%Qc Hi). rewrite (nth_error_nth' lam 0%Qc) by lia. reflexivity.
    - rewrite (proj2 (nth_error_None l i) Hi). reflexivity. }
  rewrite E1, E2. apply Permutation_map, HA.
Qed.

Lemma weight_at_perm v s ws s' ws' : Permutation (combine s ws) (combine s' ws') -> weight_at v s ws = weight_at v s' ws'.
Proof.
  intro P. unfold weight_at, values_at. rewrite !qsum_filter. apply qsum_perm. apply Permutation_map, P.
Qed.

Lemma combine_snd {A B} (l : list A) (m : list B) : length l = length m -> map snd (combine l m) = m.
Proof. revert m; induction l as [|a l IH]; intros [|b m] L; simpl in *; try discriminate; [reflexivity|]. rewrite IH by lia. reflexivity. Qed.

Lemma qc_sub_pos a b : (a < b)%Qc -> (0 < b - a)%Qc.
Proof. intro H. qc_lra. Qed.

Lemma exact_1D (argsort : list Qc -> list nat) lo hi samples : is_argsort samples (argsort samples) ->
  2 <= length samples -> (lo < hi)%Qc -> (forall w, In w samples -> (lo <= w)%Qc /\ (w <= hi)%Qc) ->
  exists vs, exact_volume_1D argsort lo hi samples = Ok (map Fin vs) /\ length vs = length samples /\
    (forall w, In w vs -> (0 <= w)%Qc) /\ qsum vs = 1%Qc /\
    forall v, In v samples -> exists a b, (a <= b)%Qc /\
      (forall x, voronoi_interval lo hi samples v x <-> (a <= x)%Qc /\ (x <= b)%Qc) /\
      qsum (values_at samples v vs) = ((b - a) / (hi - lo))%Qc.
Proof.
  intros HA L W D. destruct (argsort_sorted _ _ HA) as (S & P & Hlt & ND & Lp).
  set (p := argsort samples) in *. set (sorted := map (fun i => nth i samples 0%Qc) p) in *.
  pose proof (qc_sub_pos _ _ W) as Wp. assert (Wn : (hi - lo)%Qc <> 0%Qc) by (apply Qclt_neq0, Wp).
  assert (Ls : length sorted = length samples) by (unfold sorted; rewrite map_length; exact Lp).
  assert (NE : sorted <> []) by (intro E; rewrite E in Ls; simpl in Ls; lia).
  unfold exact_volume_1D. destruct (Nat.leb_spec (length samples) 1); [lia|].
  fold p. rewrite (take_idx_spec samples p Hlt 0%Qc). fold sorted.
  assert (Ld : length (differences (edges lo hi sorted)) = length samples).
  { rewrite differences_vols, vols_length by exact NE. exact Ls. }
  destruct (scatter_some p (differences (edges lo hi sorted)) (zeros (length p))) as (lam & HS).
  { congruence. } { intros i Hi. unfold zeros. rewrite repeat_length, Lp. apply Hlt, Hi. }
  rewrite HS. destruct (scatter_pairs samples p _ lam HA Ld HS) as [Ll PP]. fold sorted in PP.
  rewrite differences_vols in PP by exact NE.
  assert (PV : Permutation (vols lo hi sorted) lam).
  { apply (Permutation_map snd) in PP. rewrite !combine_snd in PP; [exact PP | congruence | rewrite vols_length; reflexivity]. }
  assert (Dsorted : forall w, In w sorted -> (lo <= w)%Qc /\ (w <= hi)%Qc) by (intros w Hw; apply D; eapply Permutation_in; eassumption).
  assert (NN : forall w, In w lam -> (0 <= w)%Qc).
  { intros w Hw. apply (vols_nonneg lo hi sorted S); [intros; apply Dsorted; assumption | | eapply Permutation_in; [apply Permutation_sym, PV | exact Hw]].
    destruct sorted as [|x r] eqn:Ex; [congruence|]. simpl. apply Dsorted. left. reflexivity. }
  exists (map (fun v => v / (hi - lo))%Qc lam). repeat split.
  - f_equal. rewrite map_map. apply map_ext. intro v. apply xdivq_fin, Wn.
  - rewrite map_length. exact Ll.
  - intros w Hw. apply in_map_iff in Hw. destruct Hw as (u & <- & Hu). apply qc_div_nonneg; [apply NN, Hu | exact Wp].
  - rewrite (qsum_map_div (hi - lo)%Qc (fun v => v)), map_id, <- (qsum_perm _ _ PV), vols_sum by exact NE. field. exact Wn.
  - intros v Hv. assert (Hv' : In v sorted) by (eapply Permutation_in; [apply Permutation_sym, P | exact Hv]).
    destruct (vols_interval hi sorted lo v S Hv') as (a & b & Wt & Ha & Hb).
    exists a, b.
    assert (C : (a <= b)%Qc /\ forall x, voronoi_interval lo hi sorted v x <-> (a <= x)%Qc /\ (x <= b)%Qc).
    { apply interval_is_cell; [exact Dsorted | exact Hv' | | exact Hb].
      destruct Ha as [[E ->]|Ha]; [left; split; [|reflexivity] | right; exact Ha].
      destruct sorted as [|x r] eqn:Ex; [congruence|]. simpl in E. subst x.
      intros w [<-|Hw]; [apply Qcle_refl | eapply nondecreasing_head; eassumption]. }
    destruct C as [C1 C2]. split; [exact C1|]. split.
    + intro x. rewrite <- C2. unfold voronoi_interval. split; intros (X1 & X2 & X3); repeat split; try assumption;
        intros w Hw; apply X3; eapply Permutation_in; try exact Hw; [exact P | apply Permutation_sym, P].
    + assert (E : values_at samples v (map (fun u => u / (hi - lo))%Qc lam) = map (fun u => u / (hi - lo))%Qc (values_at samples v lam)).
      { unfold values_at. clear. revert lam. induction samples as [|x s IH]; intros [|u lam]; simpl; try reflexivity.
        destruct (qeqb x v); simpl; rewrite IH; reflexivity. }
      rewrite E, (qsum_map_div (hi - lo)%Qc (fun v => v)), map_id.
      change (qsum (values_at samples v lam)) with (weight_at v samples lam).
      rewrite <- (weight_at_perm v _ _ _ _ PP), Wt. reflexivity.
Qed.

(** A value that occurs once *)
Lemma values_at_nodup samples vs i v : NoDup samples -> length vs = length samples -> nth_error samples i = Some v ->
  exists w, nth_error vs i = Some w /\ values_at samples v vs = [w].
Proof.
  revert vs i; induction samples as [|x s IH]; intros vs i N L Hi; [destruct i; discriminate|].
  destruct vs as [|w vs]; [discriminate|]. inversion N as [|? ? Nx Ns]; subst. unfold values_at. simpl.
  destruct i as [|i].
  - injection Hi as ->. exists w. rewrite (proj2 (qeqb_true v v) eq_refl). split; [reflexivity|]. simpl. f_equal.
    clear -Nx. revert vs. induction s as [|y s IH]; intros [|u vs]; simpl; try reflexivity.
    destruct (qeqb y v) eqn:E; [apply qeqb_true in E; exfalso; apply Nx; left; exact E|]. apply IH. intro; apply Nx; right; assumption.
  - simpl in Hi, L. destruct (IH vs i Ns ltac:(lia) Hi) as (u & Hu & E). exists u. split; [exact Hu|].
    destruct (qeqb x v) eqn:Ex; [|exact E]. apply qeqb_true in Ex. subst. exfalso. apply Nx. eapply nth_error_In; eassumption.
Qed.

Lemma interval_unique (C : Qc -> Prop) a b a' b' : (a <= b)%Qc -> (a' <= b')%Qc ->
  (forall x, C x <-> (a <= x)%Qc /\ (x <= b)%Qc) -> (forall x, C x <-> (a' <= x)%Qc /\ (x <= b')%Qc) -> a = a' /\ b = b'.
Proof.
  intros H H' E E'.
  assert (A : (a' <= a)%Qc /\ (a <= b')%Qc) by (apply E', E; split; [apply Qcle_refl | exact H]).
  assert (B : (a' <= b)%Qc /\ (b <= b')%Qc) by (apply E', E; split; [exact H | apply Qcle_refl]).
  assert (A' : (a <= a')%Qc /\ (a' <= b)%Qc) by (apply E, E'; split; [apply Qcle_refl | exact H']).
  assert (B' : (a <= b')%Qc /\ (b' <= b)%Qc) by (apply E, E'; split; [exact H' | apply Qcle_refl]).
  split; apply Qcle_antisym; tauto.
Qed.

(** Each distinct sample gets its own interval. *)
Lemma exact_1D_distinct (argsort : list Qc -> list nat) lo hi samples : is_argsort samples (argsort samples) ->
  NoDup samples -> 2 <= length samples -> (lo < hi)%Qc -> (forall w, In w samples -> (lo <= w)%Qc /\ (w <= hi)%Qc) ->
  exists vs, exact_volume_1D argsort lo hi samples = Ok (map Fin vs) /\ length vs = length samples /\
    forall i v, nth_error samples i = Some v -> exists a b, (a <= b)%Qc /\
      (forall x, voronoi_interval lo hi samples v x <-> (a <= x)%Qc /\ (x <= b)%Qc) /\
      nth_error vs i = Some ((b - a) / (hi - lo))%Qc.
Proof.
  intros HA N L W D. destruct (exact_1D argsort lo hi samples HA L W D) as (vs & E & Lv & _ & _ & H).
  exists vs. split; [exact E|]. split; [exact Lv|]. intros i v Hi.
  destruct (H v (nth_error_In _ _ Hi)) as (a & b & H1 & H2 & H3). exists a, b. split; [exact H1|]. split; [exact H2|].
  destruct (values_at_nodup samples vs i v N Lv Hi) as (w & Hw & Ew). rewrite Ew in H3. simpl in H3.
  rewrite Hw. f_equal. rewrite <- H3. ring.
Qed.

Lemma exact_1D_reorder (argsort : list Qc -> list nat) lo hi samples samples' :
  is_argsort samples (argsort samples) -> is_argsort samples' (argsort samples') ->
  Permutation samples samples' -> NoDup samples ->
  2 <= length samples -> (lo < hi)%Qc -> (forall w, In w samples -> (lo <= w)%Qc /\ (w <= hi)%Qc) ->
  exists vol : Qc -> Qc, exact_volume_1D argsort lo hi samples = Ok (map (fun v => Fin (vol v)) samples) /\
    exact_volume_1D argsort lo hi samples' = Ok (map (fun v => Fin (vol v)) samples').
Proof.
  intros HA HA' P N L W D.
  assert (N' : NoDup samples') by (eapply Permutation_NoDup; eassumption).
  assert (L' : 2 <= length samples') by (rewrite <- (Permutation_length P); exact L).
  assert (D' : forall w, In w samples' -> (lo <= w)%Qc /\ (w <= hi)%Qc) by (intros w Hw; apply D; eapply Permutation_in; [apply Permutation_sym, P | exact Hw]).
  destruct (exact_1D argsort lo hi samples HA L W D) as (vs & E & Lv & _ & _ & H).
  destruct (exact_1D argsort lo hi samples' HA' L' W D') as (vs' & E' & Lv' & _ & _ & H').
  exists (fun v => qsum (values_at samples v vs)).
  assert (G : forall v, In v samples -> qsum (values_at samples v vs) = qsum (values_at samples' v vs')).
  { intros v Hv. destruct (H v Hv) as (a & b & H1 & H2 & ->).
    destruct (H' v (Permutation_in _ P Hv)) as (a' & b' & H1' & H2' & ->).
    destruct (interval_unique (voronoi_interval lo hi samples v) a b a' b' H1 H1' H2) as [-> ->]; [|reflexivity].
    intro x. rewrite <- H2'. unfold voronoi_interval. split; intros (X1 & X2 & X3); repeat split; try assumption;
      intros w Hw; apply X3; eapply Permutation_in; try exact Hw; [apply Permutation_sym, P | exact P]. }
  assert (Q : forall s ws, NoDup s -> length ws = length s -> map (fun v => Fin (qsum (values_at s v ws))) s = map Fin ws).
  { intros s ws Ns Ls. apply map_ext_nth; [congruence|]. intros i v w Hv Hw.
    destruct (values_at_nodup s ws i v Ns Ls Hv) as (u & Hu & Eu). rewrite Eu. simpl. f_equal. rewrite Hu in Hw.
    injection Hw as ->. ring. }
  split.
  - rewrite E. f_equal. symmetry. apply Q; assumption.
  - rewrite E'. f_equal. rewrite <- (Q samples' vs' N' Lv'). apply map_ext_in. intros v Hv. f_equal.
    symmetry. apply G. eapply Permutation_in; [apply Permutation_sym, P | exact Hv].
Qed.

Lemma exact_1D_single argsort lo hi v : exact_volume_1D argsort lo hi [v] = Raise PyIndexError.
Proof. reflexivity. Qed.
