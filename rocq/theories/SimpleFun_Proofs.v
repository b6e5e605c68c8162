From Coq Require Import List Arith Bool ZArith QArith Qcanon Lia.
From Verif Require Import Err Num Ext Lists NumPy Layout_Model Layout_Proofs Query_Model Query_Spec Query_Proofs
  Show Volume_Model Volume_Spec Volume_Proofs BoxVolume_Proofs SimpleFun_Model SimpleFun_Spec.
Import ListNotations.
Local Open Scope nat_scope.

Lemma binned_eq {X} M n (ptr : X -> nat) blocks : 0 < n -> length (concat blocks) = n ->
  binned M n ptr blocks = map (fun i => Fin (fraction ptr (concat blocks) i)) (seq 0 M).
Proof. exact (mc_eq M n ptr blocks). Qed.

Lemma emulate_blocks_length {X} (draw : nat -> nat -> list X) n P : 0 < P -> (forall r k, length (draw r k) = k) ->
  length (concat (emulate_blocks draw n P)) = n.
Proof. intros HP Hd. exact (random_rows_length draw n P HP Hd). Qed.

Lemma fractions_prob {X} M (ptr : X -> nat) pts : pts <> [] -> (forall x, In x pts -> ptr x < M) ->
  probability_vector (map (fun i => Fin (fraction ptr pts i)) (seq 0 M)).
Proof.
  intros Hn Hb. exists (map (fraction ptr pts) (seq 0 M)). split; [rewrite map_map; reflexivity|]. split.
  - intros x Hx. apply in_map_iff in Hx. destruct Hx as (i & <- & _). unfold fraction. apply qc_div_nonneg; [apply qn_nonneg|].
    apply qn_pos. destruct pts; [congruence|simpl; lia].
  - apply fraction_total; assumption.
Qed.

Lemma binned_prob {X} M n P (ptr : X -> nat) draw : 0 < n -> 0 < P -> (forall r k, length (draw r k) = k) ->
  (forall x, ptr x < M) ->
  let blocks := emulate_blocks draw n P in
  binned M n ptr blocks = map (fun i => Fin (fraction ptr (concat blocks) i)) (seq 0 M) /\
  probability_vector (binned M n ptr blocks).
Proof.
  intros Hn HP Hd Hb blocks. pose proof (emulate_blocks_length draw n P HP Hd) as Hl. fold blocks in Hl.
  split; [apply binned_eq; assumption|]. rewrite binned_eq by assumption. apply fractions_prob.
  - destruct (concat blocks); [simpl in Hl; lia|discriminate].
  - intros. apply Hb.
Qed.

(** user partition *)
Lemma filter_repeat_length {X} (p : X -> bool) (l : list X) P : length (filter p (concat (repeat l P))) = P * length (filter p l).
Proof. induction P as [|P IH]; simpl; [reflexivity|]. rewrite filter_app, app_length, IH. reflexivity. Qed.
Lemma fraction_repeat {X} (ptr : X -> nat) pts P i : 0 < P -> pts <> [] ->
  fraction ptr (concat (repeat pts P)) i = fraction ptr pts i.
Proof.
  intros HP Hn. unfold fraction. rewrite filter_repeat_length.
  assert (length (concat (repeat pts P)) = P * length pts) as ->.
  { clear. induction P as [|P IH]; simpl; [reflexivity|]. rewrite app_length, IH. reflexivity. }
  rewrite !qn_mul. field. split; apply qn_neq0; [destruct pts; [congruence|simpl; lia]|exact HP].
Qed.
Lemma user_partition_eq {X} M (ptr : X -> nat) pts P : 0 < P -> pts <> [] ->
  user_partition M ptr pts P = map (fun i => Fin (fraction ptr pts i)) (seq 0 M).
Proof.
  intros HP Hn. unfold user_partition.
  assert (Hl : length (concat (repeat pts P)) = length pts * P).
  { clear. induction P as [|P IH]; simpl; [lia|]. rewrite app_length, IH. lia. }
  assert (0 < length pts * P) by (destruct pts; [congruence|simpl; lia]).
  etransitivity; [exact (mc_eq M (length pts * P) ptr (repeat pts P) H Hl)|].
  apply map_ext. intros i. f_equal. apply fraction_repeat; assumption.
Qed.
Lemma user_partition_prob {X} M (ptr : X -> nat) pts P : 0 < P -> pts <> [] -> (forall x, In x pts -> ptr x < M) ->
  user_partition M ptr pts P = map (fun i => Fin (fraction ptr pts i)) (seq 0 M) /\
  probability_vector (user_partition M ptr pts P).
Proof. intros HP Hn Hb. rewrite user_partition_eq by assumption. split; [reflexivity|]. apply fractions_prob; assumption. Qed.

Lemma data_samples_prob num : 0 < num -> length (data_samples num) = num /\ probability_vector (data_samples num) /\
  forall x, In x (data_samples num) -> x = Fin (1 / qn num)%Qc.
Proof.
  intros H. assert (E : xdivq 1%Qc (qn num) = Fin (1 / qn num)%Qc) by (apply xdivq_fin, qn_neq0; exact H).
  unfold data_samples. rewrite E. split; [apply repeat_length|]. split.
  - destruct (mc_assumption num H) as (v & Hv & _ & Hs & Hw). exists v. split; [|split].
    + rewrite <- Hv. unfold estimate_volume_mc. rewrite E. reflexivity.
    + intros x Hx. rewrite (Hw x Hx). apply qc_div_nonneg; [qc_lra|apply qn_pos; exact H].
    + exact Hs.
  - intros x Hx. apply repeat_spec in Hx. exact Hx.
Qed.

(** normal partition *)
Lemma weight_sums_app {X} M (ptr : X -> nat) w a b : weight_sums M ptr w (a ++ b) = vadd (weight_sums M ptr w a) (weight_sums M ptr w b).
Proof.
  unfold weight_sums, vadd. induction (seq 0 M) as [|i l IH]; simpl; [reflexivity|]. f_equal; [|exact IH].
  rewrite filter_app, map_app, qsum_app. reflexivity.
Qed.
Lemma weight_sums_nil {X} M (ptr : X -> nat) w : weight_sums M ptr w [] = zeros M.
Proof. unfold weight_sums, zeros. simpl. generalize 0. induction M as [|M IH]; intros a; simpl; [reflexivity|]. f_equal. apply IH. Qed.
Lemma allreduce_weights {X} M (ptr : X -> nat) w blocks :
  allreduce_sum (zeros M) (map (weight_sums M ptr w) blocks) = weight_sums M ptr w (concat blocks).
Proof.
  unfold allreduce_sum. induction blocks as [|b bs IH]; simpl; [symmetry; apply weight_sums_nil|].
  rewrite IH, weight_sums_app. reflexivity.
Qed.

Definition nweight {X} (ptr : X -> nat) (w : X -> Qc) (pts : list X) (i : nat) : Qc :=
  (qn (length (filter (fun x => ptr x =? i) pts)) * qsum (map w (filter (fun x => ptr x =? i) pts)))%Qc.
Lemma normal_partition_eq {X} M (ptr : X -> nat) w blocks :
  normal_partition M ptr w blocks =
  map (fun i => xdivq (nweight ptr w (concat blocks) i) (qsum (map (nweight ptr w (concat blocks)) (seq 0 M)))) (seq 0 M).
Proof.
  unfold normal_partition. rewrite allreduce_weights, allreduce_counts.
  assert (vmul (cell_counts M (map ptr (concat blocks))) (weight_sums M ptr w (concat blocks)) = map (nweight ptr w (concat blocks)) (seq 0 M)) as ->.
  { unfold vmul, cell_counts, weight_sums, nweight. induction (seq 0 M) as [|i l IH]; simpl; [reflexivity|]. f_equal; [|exact IH].
    rewrite counts_map. reflexivity. }
  rewrite map_map. reflexivity.
Qed.
Lemma nweight_nonneg {X} (ptr : X -> nat) w pts i : (forall x, (0 < w x)%Qc) -> (0 <= nweight ptr w pts i)%Qc.
Proof.
  intros H. apply qc_mul_nonneg; [apply qn_nonneg|]. apply qsum_nonneg. intros y Hy. apply in_map_iff in Hy.
  destruct Hy as (x & <- & _). specialize (H x). qc_lra.
Qed.
Lemma normal_partition_prob {X} M n P (ptr : X -> nat) w draw : 0 < n -> 0 < P -> (forall r k, length (draw r k) = k) ->
  (forall x, ptr x < M) -> (forall x, (0 < w x)%Qc) -> probability_vector (normal_partition M ptr w (emulate_blocks draw n P)).
Proof.
  intros Hn HP Hd Hb Hw. pose proof (emulate_blocks_length draw n P HP Hd) as Hl.
  set (pts := concat (emulate_blocks draw n P)) in *. rewrite normal_partition_eq. fold pts.
  set (tot := qsum _).
  assert (Ht : (0 < tot)%Qc).
  { assert (Hx : exists x, In x pts) by (destruct pts as [|x r]; [simpl in Hl; lia|exists x; left; reflexivity]).
    destruct Hx as [x Hx].
    apply Qclt_le_trans with (nweight ptr w pts (ptr x)).
    - unfold nweight. assert (Hin : In x (filter (fun y => ptr y =? ptr x) pts)).
      { apply filter_In. split; [exact Hx|apply Nat.eqb_refl]. }
      apply qc_mul_pos.
      + apply qn_pos. destruct (filter _ _); [contradiction|simpl; lia].
      + apply Qclt_le_trans with (w x); [apply Hw|]. apply qsum_ge_elem.
        * intros y Hy. apply in_map_iff in Hy. destruct Hy as (z & <- & _). specialize (Hw z). qc_lra.
        * apply in_map_iff. eauto.
    - unfold tot. apply qsum_ge_elem.
      + intros y Hy. apply in_map_iff in Hy. destruct Hy as (i & <- & _). apply nweight_nonneg. exact Hw.
      + apply in_map_iff. exists (ptr x). split; [reflexivity|]. apply in_seq. specialize (Hb x). lia. }
  exists (map (fun i => nweight ptr w pts i / tot)%Qc (seq 0 M)). split; [|split].
  - rewrite map_map. apply map_ext. intros i. apply xdivq_fin, Qclt_neq0, Ht.
  - intros y Hy. apply in_map_iff in Hy. destruct Hy as (i & <- & _). apply qc_div_nonneg; [apply nweight_nonneg; exact Hw|exact Ht].
  - rewrite qsum_map_div. unfold tot at 1. unfold Qcdiv. apply Qcmult_inv_r, Qclt_neq0, Ht.
Qed.
Lemma normal_partition_independent {X} M (ptr : X -> nat) w b b' : concat b = concat b' ->
  normal_partition M ptr w b = normal_partition M ptr w b'.
Proof. intros H. rewrite !normal_partition_eq, H. reflexivity. Qed.

(** regular partition *)
Lemma linspace_length lo hi n : length (linspace lo hi n) = S n.
Proof. destruct n; [reflexivity|]. unfold linspace. rewrite map_length, seq_length. reflexivity. Qed.
Lemma linspace_nth lo hi n i : 0 < n -> i <= n -> nth_error (linspace lo hi n) i = Some (lo + qn i * ((hi - lo) / qn n))%Qc.
Proof.
  intros Hn Hi. destruct n as [|n]; [lia|]. cbn [linspace].
  rewrite nth_error_map_eq, nth_error_seq. destruct (Nat.ltb_spec i (S (S n))); [|lia]. reflexivity.
Qed.
Lemma linspace_hd lo hi n : hd 0%Qc (linspace lo hi n) = lo.
Proof. destruct n; [reflexivity|]. cbn [linspace seq map hd]. rewrite qn_0. ring. Qed.
Lemma linspace_last lo hi n : 0 < n -> last (linspace lo hi n) 0%Qc = hi.
Proof.
  intros Hn. pose proof (linspace_nth lo hi n n Hn (le_n n)) as H.
  pose proof (linspace_length lo hi n) as Hl.
  assert (G : forall (l : list Qc) m x, length l = S m -> nth_error l m = Some x -> last l 0%Qc = x).
  { induction l as [|a l IH]; intros m x L Hx; [discriminate|]. destruct l as [|b l].
    - destruct m; [|simpl in L; lia]. injection Hx as ->. reflexivity.
    - destruct m as [|m]; [simpl in L; lia|]. change (last (a :: b :: l) 0%Qc) with (last (b :: l) 0%Qc).
      apply (IH m x); [simpl in L |- *; lia|exact Hx]. }
  rewrite (G _ _ _ Hl H). field. apply qn_neq0. exact Hn.
Qed.
Lemma increasing_nth l : (forall i a b, nth_error l i = Some a -> nth_error l (S i) = Some b -> (a < b)%Qc) -> increasing l.
Proof.
  induction l as [|a [|b l] IH]; intros H; simpl; auto. split; [apply (H 0); reflexivity|].
  apply IH. intros i x y Hx Hy. apply (H (S i)); assumption.
Qed.
Lemma linspace_step lo hi n i a b : 0 < n -> nth_error (linspace lo hi n) i = Some a -> nth_error (linspace lo hi n) (S i) = Some b ->
  (b - a = (hi - lo) / qn n)%Qc.
Proof.
  intros Hn Ha Hb. pose proof (nth_error_lt _ _ _ Hb) as Hl. rewrite linspace_length in Hl.
  rewrite linspace_nth in Ha, Hb by lia. injection Ha as <-. injection Hb as <-. rewrite qn_S. ring.
Qed.
Lemma linspace_breakpoints lo hi n : 0 < n -> (lo < hi)%Qc -> breakpoints (linspace lo hi n).
Proof.
  intros Hn Hlt. split; [rewrite linspace_length; lia|]. apply increasing_nth. intros i a b Ha Hb.
  pose proof (linspace_step lo hi n i a b Hn Ha Hb) as E.
  assert (0 < (hi - lo) / qn n)%Qc by (apply qc_div_pos; [qc_lra|apply qn_pos; exact Hn]).
  rewrite <- E in H. qc_lra.
Qed.

Lemma combine3_nth (Q S : list Qc) (cells : list nat) j t : nth_error (combine (combine Q S) cells) j = Some t ->
  nth_error Q j = Some (fst (fst t)) /\ nth_error S j = Some (snd (fst t)) /\ nth_error cells j = Some (snd t).
Proof.
  rewrite !nth_error_combine. destruct (nth_error Q j), (nth_error S j), (nth_error cells j); try discriminate.
  intros [= <-]. auto.
Qed.

Lemma half_twice s : (half * s + half * s = s)%Qc.
Proof. unfold half. assert (Q2Qc (1 # 2) + Q2Qc (1 # 2) = 1)%Qc as H by (apply Qc_is_canon; reflexivity).
  replace (Q2Qc (1 # 2) * s + Q2Qc (1 # 2) * s)%Qc with ((Q2Qc (1 # 2) + Q2Qc (1 # 2)) * s)%Qc by ring. rewrite H. ring. Qed.

Section Regular.
Context (dim : nat) (Q size : list Qc) (cells : list nat).
Context (LQ : length Q = dim) (LS : length size = dim) (LC : length cells = dim) (Hd : 1 <= dim).
Context (Pos : forall s, In s size -> (0 < s)%Qc) (Cpos : forall n, In n cells -> 0 < n).

Lemma edges_length : length (edges_of Q size cells) = dim.
Proof. unfold edges_of. rewrite map_length, !combine_length. lia. Qed.
Lemma edges_nth j l : nth_error (edges_of Q size cells) j = Some l -> exists c s n,
  nth_error Q j = Some c /\ nth_error size j = Some s /\ nth_error cells j = Some n /\ 0 < n /\ (0 < s)%Qc /\
  l = linspace (vhalf_sub c s) (vhalf_add c s) n.
Proof.
  unfold edges_of. rewrite nth_error_map_eq. destruct (nth_error (combine (combine Q size) cells) j) as [t|] eqn:E; [|discriminate].
  simpl. intros [= <-]. destruct (combine3_nth _ _ _ _ _ E) as (H1 & H2 & H3).
  exists (fst (fst t)), (snd (fst t)), (snd t). repeat split; auto; [apply Cpos|apply Pos]; eapply nth_error_In; eassumption.
Qed.
Lemma side_pos c s : (0 < s)%Qc -> (vhalf_sub c s < vhalf_add c s)%Qc.
Proof. intros H. unfold vhalf_sub, vhalf_add. pose proof (half_twice s). qc_lra. Qed.
Lemma edges_breakpoints l : In l (edges_of Q size cells) -> breakpoints l.
Proof.
  intros H. apply In_nth_error in H. destruct H as (j & Hj). destruct (edges_nth j l Hj) as (c & s & n & _ & _ & _ & Hn & Hs & ->).
  apply linspace_breakpoints; [exact Hn|]. apply side_pos. exact Hs.
Qed.
Lemma edges_dom : map (fun l => (hd 0%Qc l, last l 0%Qc)) (edges_of Q size cells) = box_of Q size.
Proof.
  apply nth_error_ext. intros j. rewrite nth_error_map_eq. unfold box_of at 1. rewrite nth_error_map_eq, nth_error_combine.
  destruct (nth_error (edges_of Q size cells) j) as [l|] eqn:E.
  - destruct (edges_nth j l E) as (c & s & n & H1 & H2 & _ & Hn & _ & ->). rewrite H1, H2. simpl. 
    rewrite linspace_hd, linspace_last by exact Hn. reflexivity.
  - apply nth_error_None in E. rewrite edges_length in E.
    assert (nth_error Q j = None) as -> by (apply nth_error_None; lia). reflexivity.
Qed.
Definition ncells : nat := nat_prod cells.
Lemma cell_width c : In c (mesh_rows (map ivs (edges_of Q size cells))) -> length c = dim /\
  forall j p s n, nth_error c j = Some p -> nth_error size j = Some s -> nth_error cells j = Some n -> (snd p - fst p = s / qn n)%Qc.
Proof.
  intros Hc. assert (map ivs (edges_of Q size cells) <> []).
  { intros E. apply (f_equal (@length _)) in E. rewrite map_length, edges_length in E. simpl in E. lia. }
  apply mesh_rows_In in Hc; [|assumption]. apply Forall2_nth in Hc. rewrite map_length, edges_length in Hc.
  destruct Hc as [Lc Hc]. split; [exact Lc|]. intros j p s n Hp Hs Hn.
  destruct (nth_error (edges_of Q size cells) j) as [l|] eqn:El.
  2:{ apply nth_error_None in El. rewrite edges_length in El. apply nth_error_lt in Hp. lia. }
  assert (Hpl : In p (ivs l)) by (apply (Hc j); [exact Hp|rewrite nth_error_map_eq, El; reflexivity]).
  destruct (edges_nth j l El) as (c0 & s' & n' & _ & H2 & H3 & Hn' & _ & ->).
  assert (s' = s) by congruence. assert (n' = n) by congruence. subst s' n'.
  destruct p as [a b]. apply (proj1 (ivs_consecutive _ a b)) in Hpl. destruct Hpl as (m & Hm & Hm').
  cbn [fst snd]. rewrite (linspace_step _ _ _ _ _ _ Hn' Hm Hm'). f_equal. unfold vhalf_add, vhalf_sub. pose proof (half_twice s). qc_lra.
Qed.

Lemma pvol_widths : forall (c : list (Qc * Qc)) (sz : list Qc) (cl : list nat), length c = length sz -> length cl = length sz ->
  (forall j p s n, nth_error c j = Some p -> nth_error sz j = Some s -> nth_error cl j = Some n -> (snd p - fst p = s / qn n)%Qc) ->
  (forall n, In n cl -> 0 < n) -> (pvol c * qn (nat_prod cl) = qprod sz)%Qc.
Proof.
  induction c as [|p c IH]; intros [|s sz] [|n cl] L1 L2 H Hn; try discriminate.
  - unfold pvol, nat_prod. simpl. rewrite qn_1. ring.
  - assert (E : (snd p - fst p = s / qn n)%Qc) by (apply (H 0); reflexivity).
    change (pvol (p :: c)) with ((snd p - fst p) * pvol c)%Qc. change (nat_prod (n :: cl)) with (n * nat_prod cl).
    rewrite qn_mul, E. cbn [qprod]. rewrite <- (IH sz cl).
    + field. apply qn_neq0, Hn. left. reflexivity.
    + simpl in L1; lia. + simpl in L2; lia.
    + intros j q s' n' Hq Hs' Hn'. apply (H (Datatypes.S j)); assumption.
    + intros n' Hn'. apply Hn. right. exact Hn'.
Qed.
Lemma nat_prod_pos l : (forall n, In n l -> 0 < n) -> 0 < nat_prod l.
Proof. induction l as [|n l IH]; intros H; cbn; [lia|]. apply Nat.mul_pos_pos; [apply H; left; reflexivity|apply IH; intros; apply H; right; assumption]. Qed.
Lemma box_volume : pvol (box_of Q size) = qprod size.
Proof.
  unfold box_of. clear -LQ LS. revert Q size LQ LS. induction dim as [|d IH]; intros [|c Q] [|s size] L1 L2; try discriminate; [reflexivity|].
  cbn [combine map qprod]. unfold pvol in *. cbn [map qprod fst snd]. rewrite <- (IH Q size) by (simpl in *; lia).
  f_equal. unfold vhalf_add, vhalf_sub. pose proof (half_twice s). qc_lra.
Qed.

Lemma regular_ok : exists st, regular_partition dim Q size cells =
    Ok (st, map Fin (repeat (1 / qn (nat_prod cells))%Qc (nat_prod cells) ++ [0%Qc])) /\
  cart_setup dim (edges_of Q size cells) = Ok st /\
  length (lefts st) = nat_prod cells /\
  (forall i l r, nth_error (lefts st) i = Some l -> nth_error (rights st) i = Some r -> cell_sides size cells l r).
Proof.
  destruct (cart_volumes_map dim (edges_of Q size cells) edges_length Hd edges_breakpoints) as (st & HS & EL & ER & PD & HV & HP).
  rewrite edges_dom in HV, HP. set (M := mesh_rows (map ivs (edges_of Q size cells))) in *.
  assert (LM : length M = nat_prod cells).
  { unfold M. rewrite mesh_rows_length.
    - f_equal. rewrite map_map. apply nth_error_ext. intros j. rewrite nth_error_map_eq.
      destruct (nth_error (edges_of Q size cells) j) as [l|] eqn:El.
      + destruct (edges_nth j l El) as (c & s & n & _ & _ & H3 & _ & _ & ->). rewrite H3. simpl. rewrite ivs_length, linspace_length.
        f_equal. lia.
      + apply nth_error_None in El. rewrite edges_length in El. symmetry. apply nth_error_None. lia.
    - intros E. apply (f_equal (@length _)) in E. rewrite map_length, edges_length in E. simpl in E. lia. }
  assert (Np := nat_prod_pos cells Cpos).
  assert (EV : map (fun c => pvol c / pvol (box_of Q size))%Qc M = repeat (1 / qn (nat_prod cells))%Qc (nat_prod cells)).
  { rewrite <- LM at 2. assert (G : forall c, In c M -> (pvol c / pvol (box_of Q size) = 1 / qn (nat_prod cells))%Qc).
    { intros c Hc. destruct (cell_width c Hc) as [Lc Hw].
      pose proof (pvol_widths c size cells ltac:(lia) ltac:(lia) Hw Cpos) as E. rewrite <- box_volume in E.
      assert (pvol (box_of Q size) <> 0%Qc).
      { apply Qclt_neq0. rewrite box_volume. apply qprod_pos. exact Pos. }
      rewrite <- E. assert (pvol c <> 0%Qc) by (intros Z; rewrite Z in E; apply H; rewrite <- E; ring).
      field. split; [apply qn_neq0; exact Np|assumption]. }
    clear -G. induction M as [|c M IH]; cbn [map length repeat]; [reflexivity|]. f_equal; [apply G; left; reflexivity|].
    apply IH. intros. apply G. right. assumption. }
  exists st. split; [|split; [exact HS|split]].
  - unfold regular_partition.
    assert (existsb (fun s => qleb s 0) size = false) as ->.
    { destruct (existsb _ size) eqn:E; [|reflexivity]. apply existsb_exists in E. destruct E as (s & Hs & Hs').
      apply qleb_true in Hs'. specialize (Pos s Hs). qc_lra. }
    rewrite LQ, LS, LC, Nat.eqb_refl, Nat.ltb_irrefl. cbn [andb negb]. rewrite HS. cbn [bind]. rewrite HV, EV. f_equal. f_equal.
    unfold uniform_probs. rewrite removelast_app by discriminate. cbn [removelast]. rewrite app_nil_r, map_app. f_equal.
    set (m := nat_prod cells) in *.
    assert (qsum (repeat (1 / qn m)%Qc m) = 1%Qc) as ->.
    { replace (repeat (1 / qn m)%Qc m) with (map (fun _ => 1 / qn m)%Qc (seq 0 m)).
      - rewrite qsum_map_const, seq_length. field. apply qn_neq0. exact Np.
      - generalize 0. generalize (1 / qn m)%Qc. clear. induction m as [|m IH]; intros x a; simpl; [reflexivity|]. f_equal. apply IH. }
    clear. generalize (1 / qn m)%Qc. intros x. induction m as [|m IH]; cbn [repeat map]; [reflexivity|]. f_equal; [|exact IH].
    rewrite xdivq_fin by (intros E; discriminate (f_equal this E)). f_equal. field. intros E; discriminate (f_equal this E).
  - rewrite EL, map_length. exact LM.
  - intros i l r Hl Hr. rewrite EL, nth_error_map_eq in Hl. rewrite ER, nth_error_map_eq in Hr.
    destruct (nth_error M i) as [c|] eqn:Ec; [|discriminate]. simpl in Hl, Hr. injection Hl as <-. injection Hr as <-.
    destruct (cell_width c (nth_error_In _ _ Ec)) as [Lc Hw]. split; [rewrite map_length; lia|]. split; [rewrite map_length; lia|].
    intros j s n a b Hs Hn Ha Hb. rewrite nth_error_map_eq in Ha, Hb. destruct (nth_error c j) as [p|] eqn:Ep; [|discriminate].
    simpl in Ha, Hb. injection Ha as <-. injection Hb as <-. eapply Hw; eassumption.
Qed.
End Regular.

Lemma regular_rejects dim Q size cells s : In s size -> (s <= 0)%Qc -> regular_partition dim Q size cells = Raise WrongArgumentType.
Proof.
  intros Hs H. unfold regular_partition. assert (existsb (fun s => qleb s 0) size = true) as ->; [|reflexivity].
  apply existsb_exists. exists s. split; [exact Hs|]. apply qleb_true. exact H.
Qed.

Lemma half_div2 a : (a / qn 2 = half * a)%Qc.
Proof. unfold half, Qcdiv. rewrite Qcmult_comm. f_equal. Qed.

Lemma domain_box a b : length a = length b ->
  box_of (domain_center a b) (domain_lengths a b) =
  map (fun p => (qmin (fst p) (snd p), qmax (fst p) (snd p))) (combine a b).
Proof.
  intros L. unfold box_of, domain_center, domain_lengths.
  revert b L. induction a as [|x a IH]; intros [|y b] L; try discriminate; [reflexivity|].
  cbn [combine map fst snd]. f_equal; [|apply IH; simpl in L; lia]. 
  unfold vhalf_sub, vhalf_add. rewrite half_div2. pose proof (half_twice x) as Hx. pose proof (half_twice y) as Hy.
  unfold qmin, qmax. destruct (qleb x y); f_equal; try qc_lra.
Qed.

Lemma normal_partition_witness : exists M (ptr : nat -> nat) (w : nat -> Qc) blocks,
  (forall x, In x (concat blocks) -> ptr x < M) /\ (forall x, (0 < w x)%Qc) /\
  normal_partition M ptr w blocks <> map (fun i => Fin (fraction ptr (concat blocks) i)) (seq 0 M).
Proof.
  exists 2, (fun x => x), (fun _ => 1%Qc), [[0; 1; 1]]. split; [simpl; lia|]. split; [intros; now apply qltb_true|].
  assert (normal_partition 2 (fun x => x) (fun _ => 1%Qc) [[0; 1; 1]] = map Fin [Q2Qc (1 # 5); Q2Qc (4 # 5)]) as -> by qc_compute.
  intros E. apply (f_equal (fun l => match l with Fin a :: _ => this a | _ => 0%Q end)) in E. vm_compute in E. discriminate.
Qed.
Lemma regular_edges dim Q size cells : length Q = dim -> length size = dim -> length cells = dim -> 1 <= dim ->
  (forall s, In s size -> (0 < s)%Qc) -> (forall n, In n cells -> 0 < n) ->
  map (fun l => (hd 0%Qc l, last l 0%Qc)) (edges_of Q size cells) = box_of Q size /\
  forall l, In l (edges_of Q size cells) -> breakpoints l.
Proof.
  intros LQ LS LC Hd Pos Cpos. split.
  - eapply edges_dom; eassumption.
  - intros l Hl. eapply edges_breakpoints; eassumption.
Qed.
