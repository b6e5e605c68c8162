From Coq Require Import List Arith Bool Lia Permutation QArith Qcanon Reals Qreals Lra.
From Verif Require Import Err Num Ext NumPy Lists Gradient_Model Gradient_Spec Gradient_Proofs Sampling_Model Post_Model Post_Proofs
  ChooseQoIs_Model ChooseQoIs_Spec ChooseQoIs_Proofs ChooseAvg_Proofs UniqueVecs_Model UniqueVecs_Spec UniqueVecs_Proofs Sensitivity_Model Sensitivity_Spec.
Import ListNotations.
Local Open Scope nat_scope.
Local Open Scope err_scope.

(** ** The Jacobian of an affine model *)
Lemma map_repeat {A B} (f : A -> B) x n : map f (repeat x n) = repeat (f x) n.
Proof. induction n as [|n IH]; [reflexivity|]. cbn [repeat map]. rewrite IH. reflexivity. Qed.
Lemma rows_exist o (f : nat -> list xnum) (Q : nat -> list Qc -> Prop) : (forall a, exists w, f a = map Fin w /\ Q a w) ->
  exists M, map f (seq 0 o) = map (map Fin) M /\ length M = o /\ forall a w, nth_error M a = Some w -> Q a w.
Proof.
  intro H. induction o as [|o (M & E & L & N)].
  - exists []. do 2 (split; [reflexivity|]). intros [|a] w D; discriminate D.
  - destruct (H o) as (w & Ew & Hw). exists (M ++ [w]). rewrite seq_S, !map_app, E. cbn [map plus]. rewrite Ew.
    split; [reflexivity|]. split; [rewrite app_length, L; simpl; lia|]. intros a v Hv.
    destruct (Nat.lt_ge_cases a (length M)) as [C|C].
    + rewrite nth_error_app1 in Hv by exact C. apply N, Hv.
    + rewrite nth_error_app2 in Hv by exact C. destruct (a - length M) as [|k] eqn:Ek; [|destruct k; discriminate Hv].
      injection Hv as <-. replace a with o by lia. exact Hw.
Qed.
Lemma map_const {A B} (f : A -> B) y l : (forall x, In x l -> f x = y) -> map f l = repeat y (length l).
Proof. induction l as [|x l IH]; intro H; [reflexivity|]. cbn [map length repeat]. rewrite (H x (or_introl eq_refl)), IH by (intros; apply H; right; assumption). reflexivity. Qed.

Lemma tensor_const o d V A cs nrm : (forall x a b, In x cs -> b < d -> V x a b = A a b) ->
  exists M, coefficients A o d nrm M /\
    (if nrm then normalize_tensor else (fun t => t)) (tensor_of o d V cs) = repeat (map (map Fin) M) (length cs).
Proof.
  intro H.
  assert (T : tensor_of o d V cs = map (fun _ => map (fun a => map Fin (map (A a) (seq 0 d))) (seq 0 o)) cs).
  { unfold tensor_of. apply map_ext_in. intros x Ix. apply map_ext. intro a. rewrite map_map. apply map_ext_in. intros b Ib. apply in_seq in Ib. rewrite H by (try exact Ix; lia). reflexivity. }
  destruct nrm.
  - destruct (rows_exist o (fun a => normalize_row (map Fin (map (A a) (seq 0 d)))) (fun a w => normalized_of (map (A a) (seq 0 d)) w)) as (M & E & L & N).
    { intro a. apply normalize_fin. }
    exists M. split; [split; [exact L | exact N]|]. rewrite T. unfold normalize_tensor. rewrite map_map, map_map. rewrite E. apply map_const. reflexivity.
  - destruct (rows_exist o (fun a => map Fin (map (A a) (seq 0 d))) (fun a w => w = map (A a) (seq 0 d))) as (M & E & L & N).
    { intro a. exists (map (A a) (seq 0 d)). split; reflexivity. }
    exists M. split; [split; [exact L | exact N]|]. rewrite T, E. apply map_const. reflexivity.
Qed.
Lemma coefficients_unique A o d nrm M M' : coefficients A o d nrm M -> coefficients A o d nrm M' -> M = M'.
Proof.
  intros [L H] [L' H']. apply nth_error_ext. intro a. destruct (nth_error M a) as [w|] eqn:E.
  - assert (C : a < length M') by (rewrite L', <- L; apply nth_error_Some; congruence). destruct (nth_error M' a) as [w'|] eqn:E'; [|apply nth_error_None in E'; lia].
    f_equal. specialize (H a w E). specialize (H' a w' E'). destruct nrm; [|congruence].
    destruct H as (_ & [[Z ->]|(NZ & _ & H)]), H' as (_ & [[Z' ->]|(NZ' & _ & H')]); try contradiction; [reflexivity|].
    pose proof (eq_trans (eq_sym H) H') as HH. clear H H' E E'. revert NZ HH. generalize (norm1 (map (A a) (seq 0 d))). intros n NZ H. revert w' H.
    induction w as [|x w IH]; intros [|y w'] H; try discriminate; [reflexivity|]. pose proof (f_equal (hd 0%Qc) H) as H1. pose proof (f_equal (@tl Qc) H) as H2. cbn [hd tl map] in H1, H2. f_equal; [|apply IH, H2].
    replace x with (n * x / n)%Qc by (field; assumption). rewrite H1. field. assumption.
  - symmetry. apply nth_error_None. rewrite L', <- L. apply nth_error_None, E.
Qed.

Lemma run_jacobian s mf d o c0 A cs r nrm : points d cs -> good_radii d r -> 0 < d -> cs <> [] ->
  exists M pts g, coefficients A o d nrm M /\ pick_points s d (Some cs) r = Ok pts /\
    calculate_gradients s mf d o (Some pts) (Some (map (outputs o (affine d c0 A)) pts)) nrm = Ok g /\
    g_jac g = repeat (map (map Fin) M) (length cs).
Proof.
  intros P R D N. destruct s; cbn [pick_points calculate_gradients].
  - destruct (ffd_run mf d o (affine d c0 A) cs r nrm P R D N) as (pts & E1 & E2).
    destruct (tensor_const o d (ffd_value (affine d c0 A) r) A cs nrm) as (M & C & T).
    { intros x a b Ix Hb. unfold ffd_value. rewrite affine_moved by (try exact Hb; apply P, Ix). pose proof (good_radius d r b R Hb). field. assumption. }
    exists M, pts, (mk_grad cs ((if nrm then normalize_tensor else (fun t => t)) (tensor_of o d (ffd_value (affine d c0 A) r) cs)) (map (outputs o (affine d c0 A)) cs) (map (outputs o (affine d c0 A)) pts)).
    do 3 (split; [assumption|]). exact T.
  - destruct (cfd_run mf d o (affine d c0 A) cs r nrm P R D N) as (pts & E1 & E2).
    destruct (tensor_const o d (cfd_value (affine d c0 A) r) A cs nrm) as (M & C & T).
    { intros x a b Ix Hb. unfold cfd_value. rewrite !affine_moved by (try exact Hb; apply P, Ix). pose proof (good_radius d r b R Hb).
      replace (qn 2) with (1 + 1)%Qc by (apply Qc_is_canon; vm_compute; reflexivity). field. split; [assumption | discriminate]. }
    eexists M, pts, _. do 3 (split; [eassumption|]). exact T.
Qed.

Lemma all_some_map {A} (l : list A) : all_some (map Some l) = Some l.
Proof. induction l as [|x l IH]; cbn [map all_some]; [reflexivity|]. rewrite IH. reflexivity. Qed.
Lemma finite_repeat M n : finite_jac (repeat (map (map Fin) M) n) = Some (repeat M n).
Proof.
  unfold finite_jac.
  assert (E : all_some (map (fun v => all_some (map fin_of v)) (map (map Fin) M)) = Some M).
  { rewrite map_map. rewrite (map_ext _ Some); [apply all_some_map|]. intro v. rewrite map_map. exact (all_some_map v). }
  induction n as [|n IH]; [reflexivity|]. cbn [repeat map]. rewrite E. cbn [all_some]. rewrite IH. reflexivity.
Qed.

(** ** find_unique_vecs on a constant Jacobian *)
Lemma total_const x n : total (repeat x n) = (INR n * x)%R.
Proof. induction n as [|n IH]; [simpl; ring|]. rewrite S_INR. cbn [repeat total]. rewrite IH. ring. Qed.
Lemma average_cosine_repeat m n i j : 0 < n -> average_cosine (repeat m n) i j = average_cosine [m] i j.
Proof.
  intro H. unfold average_cosine. rewrite map_repeat, total_const, repeat_length. cbn [map total length INR].
  field. apply not_0_INR. lia.
Qed.
Lemma vanishes_repeat m n i : 0 < n -> (vanishes (repeat m n) i <-> vanishes [m] i).
Proof.
  intro H. split; intros (x & I & Z); exists x; (split; [|exact Z]).
  - left. symmetry. exact (repeat_spec _ _ _ I).
  - destruct I as [<-|[]]. destruct n; [lia | left; reflexivity].
Qed.
Lemma maximal_repeat m n tol rz qois kept : 0 < n -> maximal_dissimilar (repeat m n) tol rz qois kept -> maximal_dissimilar [m] tol rz qois kept.
Proof.
  intros H (K1 & K2 & K3 & K4 & K5). do 2 (split; [assumption|]). split; [|split].
  - intros E i I V. apply (K3 E i I). apply vanishes_repeat; assumption.
  - intros i j Ii Ij N Sm. apply (K4 i j Ii Ij N). unfold similar in *. rewrite average_cosine_repeat by exact H. exact Sm.
  - intros j Ij Nj. destruct (K5 j Ij Nj) as [[E V]|(i & Ii & Sm)].
    + left. split; [exact E|]. apply (vanishes_repeat _ n _ H), V.
    + right. exists i. split; [exact Ii|]. unfold similar in *. rewrite average_cosine_repeat in Sm by exact H. exact Sm.
Qed.
Lemma bool_iff (b c : bool) : (b = true <-> c = true) -> b = c.
Proof. destruct b, c; intuition congruence. Qed.
Lemma too_similar_repeat m n o tol i j : 0 < n -> too_similar (repeat m n) o tol i j = too_similar [m] o tol i j.
Proof.
  intro H. destruct (Nat.lt_ge_cases i o) as [Hi|Hi], (Nat.lt_ge_cases j o) as [Hj|Hj];
    [|unfold too_similar; repeat match goal with |- context [?a <=? ?b] => destruct (Nat.leb_spec a b); try lia; cbn [orb] end; reflexivity ..].
  destruct (too_similar_spec (repeat m n) o tol i j Hi Hj) as (b & -> & Hb). destruct (too_similar_spec [m] o tol i j Hi Hj) as (b' & -> & Hb').
  f_equal. apply bool_iff. rewrite Hb, Hb'. unfold similar. rewrite average_cosine_repeat by exact H. reflexivity.
Qed.
Lemma pair_loop_ext test test' ps : (forall i j, test i j = test' i j) -> forall reps, pair_loop test ps reps = pair_loop test' ps reps.
Proof.
  intro H. induction ps as [|[i j] ps IH]; intro reps; [reflexivity|]. cbn [pair_loop].
  destruct (existsb (Nat.eqb i) reps || existsb (Nat.eqb j) reps); [apply IH|]. rewrite H. destruct (test' i j); cbn [bind]; [apply IH | reflexivity].
Qed.
Lemma find_unique_repeat ord m n o tol qois rz : 0 < n -> find_unique_vecs ord (Some (repeat m n)) o tol qois rz = find_unique_vecs ord (Some [m]) o tol qois rz.
Proof.
  intro H. unfold find_unique_vecs.
  replace (filter (zero_somewhere (repeat m n)) (seq 0 o)) with (filter (zero_somewhere [m]) (seq 0 o)).
  - rewrite (pair_loop_ext _ (too_similar [m] o tol)) by (intros; apply too_similar_repeat, H). reflexivity.
  - apply filter_ext. intro i. apply bool_iff. rewrite !zero_somewhere_spec. symmetry. apply vanishes_repeat, H.
Qed.

(** ** One set of QoIs *)
Lemma take_idx_rows (M : mat) c : (forall i, In i c -> i < length M) -> take_idx M c = Some (rows_of M c).
Proof.
  induction c as [|i c IH]; intro H; [reflexivity|]. cbn [take_idx rows_of map].
  rewrite (nth_error_nth' M [] (H i (or_introl eq_refl))). rewrite IH by (intros; apply H; right; assumption). reflexivity.
Qed.
Lemma select_repeat M n c : (forall i, In i c -> i < length M) -> select_rows (repeat M n) c = Ok (repeat (rows_of M c) n).
Proof.
  intro H. unfold select_rows. induction n as [|n IH]; [reflexivity|]. cbn [repeat mapM]. unfold fancy at 1. rewrite take_idx_rows by exact H. cbn [bind]. rewrite IH. reflexivity.
Qed.
Lemma qsum_const x n : qsum (repeat x n) = (qn n * x)%Qc.
Proof. replace (repeat x n) with (map (fun _ : nat => x) (seq 0 n)) by (rewrite (map_const _ x) by reflexivity; rewrite seq_length; reflexivity). rewrite qsum_map_const, seq_length. reflexivity. Qed.
Lemma qmean_repeat x n : 0 < n -> qmean (repeat x n) = x.
Proof. intro H. unfold qmean. rewrite qsum_const, repeat_length. field. apply qn_neq0, H. Qed.
Lemma hmean_repeat x n : 0 < n -> pos_or_inf x -> hmean (repeat x n) = Ok x.
Proof.
  intros H Hx. destruct (hmean_lemma (repeat x n)) as (h & E & H1 & H2).
  { destruct n; [lia | discriminate]. }
  { intros y Iy. apply repeat_spec in Iy. subst. exact Hx. }
  rewrite E. f_equal. destruct Hx as [->|(q & -> & Pq)].
  - apply H1. intros y Iy. apply repeat_spec in Iy. exact Iy.
  - destruct H2 as (v & -> & Hv). { exists (Fin q). split; [destruct n; [lia | left; reflexivity] | discriminate]. }
    f_equal. rewrite map_repeat, repeat_length in Hv. change (fold_right Qcplus 0%Qc (repeat (recip_of (Fin q)) n)) with (qsum (repeat (/ q)%Qc n)) in Hv.
    rewrite qsum_const in Hv. assert (Nq : q <> 0%Qc) by (apply Qclt_neq0, Pq). assert (Nn : qn n <> 0%Qc) by (apply qn_neq0, H).
    replace v with (v * (qn n * / q) * (q / qn n))%Qc by (field; split; assumption). rewrite Hv. field. assumption.
Qed.
Lemma concat_repeat_len {A} (l : list A) n : length (concat (repeat l n)) = n * length l.
Proof. induction n as [|n IH]; [reflexivity|]. cbn [repeat concat]. rewrite app_length, IH. lia. Qed.
Lemma q_prod_product l : q_prod l = product l.
Proof. reflexivity. Qed.

Section One.
Context (svals : mat -> list Qc) (norm2 : list Qc -> Qc) (d : nat) (SV : singular_values d svals).
Context (M : mat).
Definition mu_measure (c : list nat) : xnum :=
  if length c <=? d then (if qeqb (product (svals (rows_of M c))) 0 then PInf else Fin (/ product (svals (rows_of M c)))%Qc) else PInf.
Lemma rows_length c : length (rows_of M c) = length c.
Proof. apply map_length. Qed.
Lemma rows_perm c c' : Permutation c c' -> Permutation (rows_of M c) (rows_of M c').
Proof. apply Permutation_map. Qed.
Lemma mu_measure_criterion : set_criterion mu_measure.
Proof.
  split.
  - intros c c' P. unfold mu_measure. rewrite <- (Permutation_length P). destruct (Nat.leb_spec (length c) d) as [L|L]; [|reflexivity].
    destruct (SV (rows_of M c)) as (_ & _ & I); [rewrite rows_length; exact L|]. rewrite (I _ (rows_perm _ _ P)). reflexivity.
  - intro c. unfold mu_measure. destruct (length c <=? d); [|discriminate]. destruct (qeqb _ 0); discriminate.
Qed.
Lemma mu_measure_value c : length c <= d -> is_inverse_volume (product (svals (rows_of M c))) (mu_measure c).
Proof.
  intro L. unfold mu_measure. destruct (Nat.leb_spec (length c) d); [|lia]. split; intro H0.
  - rewrite H0. reflexivity.
  - destruct (qeqb_spec (product (svals (rows_of M c))) 0%Qc); [contradiction | reflexivity].
Qed.
Lemma eval_measure_repeat n c : 0 < n -> length c <= d -> (forall i, In i c -> i < length M) ->
  exists sv, eval_measure svals d (repeat M n) c = Ok (mu_measure c, sv) /\ length sv = n * length c.
Proof.
  intros Hn L I. unfold eval_measure. rewrite select_repeat by exact I. cbn [bind]. unfold calculate_avg_measure.
  destruct (Nat.ltb_spec d (length c)); [lia|]. rewrite !map_repeat. rewrite qmean_repeat by exact Hn. cbn [bind fst snd].
  exists (map Fin (concat (repeat (svals (rows_of M c)) n))). split.
  - f_equal. f_equal. unfold mu_measure. destruct (Nat.leb_spec (length c) d); [|lia]. rewrite q_prod_product. destruct (qeqb _ 0); [reflexivity|]. f_equal. unfold Qcdiv. ring.
  - rewrite map_length, concat_repeat_len. destruct (SV (rows_of M c)) as (E & _); [rewrite rows_length; exact L|]. rewrite E, rows_length. reflexivity.
Qed.

(** Skewness *)
Lemma with_rest_positions {A} (x0 : A) l : with_rest l = map (fun i => (nth i l x0, firstn i l ++ skipn (S i) l)) (seq 0 (length l)).
Proof.
  induction l as [|x l IH]; [reflexivity|]. cbn [with_rest length seq map]. f_equal. rewrite IH, map_map, <- seq_shift, map_map. reflexivity.
Qed.
Lemma skew_data_volumes m : skew_data svals norm2 m = volumes svals norm2 m.
Proof. unfold skew_data, volumes. rewrite (with_rest_positions [] m), map_map. reflexivity. Qed.
Lemma with_rest_split {A} (l : list A) p : In p (with_rest l) -> exists l1 l2, l = l1 ++ fst p :: l2 /\ snd p = l1 ++ l2.
Proof.
  revert p. induction l as [|x l IH]; intros p; cbn [with_rest]; [intros []|]. intros [<-|I]; [exists [], l; split; reflexivity|].
  apply in_map_iff in I. destruct I as (q & <- & Iq). destruct (IH q Iq) as (l1 & l2 & E1 & E2). exists (x :: l1), l2. cbn [fst snd app]. split; [rewrite E1 at 1; reflexivity | rewrite E2; reflexivity].
Qed.
Lemma with_rest_perm {A B} (l l' : list A) : Permutation l l' -> forall g : A * list A -> B,
  (forall x r r', Permutation r r' -> Permutation (x :: r) l -> g (x, r) = g (x, r')) -> Permutation (map g (with_rest l)) (map g (with_rest l')).
Proof.
  assert (Gen : forall l l' : list A, Permutation l l' -> forall (h : list A -> list A) (g : A * list A -> B),
    (forall x r r', Permutation r r' -> Permutation (x :: r) l -> g (x, h r) = g (x, h r')) ->
    Permutation (map (fun p => g (fst p, h (snd p))) (with_rest l)) (map (fun p => g (fst p, h (snd p))) (with_rest l'))).
  { clear. intros l l' P. induction P as [|x l l' P IH|x y l|l l1 l2 P1 IH1 P2 IH2]; intros h g Hg.
    - constructor.
    - cbn [with_rest map fst snd]. rewrite !map_map. cbn [fst snd]. rewrite (Hg x l l' P (Permutation_refl _)). apply perm_skip.
      apply (IH (fun r => h (x :: r)) g). intros z r r' Pr Pz. apply Hg; [apply perm_skip, Pr|]. eapply Permutation_trans; [apply perm_swap|]. apply perm_skip, Pz.
    - cbn [with_rest map fst snd]. rewrite !map_map. cbn [fst snd].
      eapply Permutation_trans; [apply perm_swap|]. do 2 apply perm_skip.
      assert (E : map (fun p => g (fst p, h (y :: x :: snd p))) (with_rest l) = map (fun p => g (fst p, h (x :: y :: snd p))) (with_rest l)).
      { apply map_ext_in. intros p Ip. destruct (with_rest_split l p Ip) as (l1 & l2 & E1 & E2). apply Hg; [apply perm_swap|].
        rewrite E2. rewrite E1. eapply Permutation_trans; [apply (Permutation_cons_append (y :: x :: l1 ++ l2))|]. cbn [app]. do 2 apply perm_skip.
        apply Permutation_sym. rewrite <- app_assoc. apply Permutation_app_head. apply Permutation_cons_append. }
      rewrite E. apply Permutation_refl.
    - eapply Permutation_trans; [apply IH1, Hg|]. apply IH2. intros x r r' Pr Px. apply Hg; [exact Pr|]. eapply Permutation_trans; [exact Px | apply Permutation_sym, P1]. }
  intros P g Hg. pose proof (Gen l l' P (fun r => r) g Hg) as G.
  rewrite !(map_ext (fun p => g (fst p, snd p)) g) in G by (intros [? ?]; reflexivity). exact G.
Qed.

Lemma xmax_comm a b : xmax a b = xmax b a.
Proof.
  unfold xmax. destruct a as [p| | |], b as [q| | |]; try reflexivity. cbn [is_nan xleb].
  destruct (qleb p q) eqn:E1, (qleb q p) eqn:E2; try reflexivity.
  - f_equal. apply qleb_true in E1, E2. apply Qcle_antisym; assumption.
  - apply qleb_false in E1, E2. exfalso. apply (Qclt_not_le _ _ E1), Qclt_le_weak, E2.
Qed.
Lemma xmax_assoc a b c : xmax (xmax a b) c = xmax a (xmax b c).
Proof.
  destruct a as [p| | |], b as [q| | |], c as [r| | |]; cbn; try reflexivity;
    repeat (match goal with |- context [qleb ?x ?y] => destruct (qleb x y) eqn:?; cbn end); try reflexivity; try congruence;
    rewrite ?qleb_true, ?qleb_false in *; f_equal; exfalso; qc_lra.
Qed.
Lemma fold_xmax_perm l l' : Permutation l l' -> forall a, fold_left xmax l a = fold_left xmax l' a.
Proof.
  induction 1 as [|x l l' P IH|x y l|l l1 l2 P1 IH1 P2 IH2]; intro a; cbn [fold_left]; [reflexivity | apply IH | | rewrite IH1; apply IH2].
  f_equal. rewrite !xmax_assoc. f_equal. apply xmax_comm.
Qed.
Lemma fold_xmax_comm l a b : fold_left xmax l (xmax a b) = xmax a (fold_left xmax l b).
Proof. revert b. induction l as [|x l IH]; intro b; cbn [fold_left]; [reflexivity|]. rewrite xmax_assoc. apply IH. Qed.
Lemma xlist_max_perm l l' : Permutation l l' -> xlist_max l = xlist_max l'.
Proof.
  induction 1 as [|x l l' P IH|x y l|l l1 l2 P1 IH1 P2 IH2]; cbn [xlist_max]; [reflexivity | apply fold_xmax_perm, P | | congruence].
  cbn [fold_left]. rewrite xmax_comm. reflexivity.
Qed.

Definition mu_skewness (c : list nat) : xnum :=
  if length c <=? d then skew_center (volumes svals norm2 (rows_of M c)) else PInf.
Lemma mu_skewness_criterion : set_criterion mu_skewness.
Proof.
  split.
  - intros c c' P. unfold mu_skewness. rewrite <- (Permutation_length P). destruct (Nat.leb_spec (length c) d) as [L|L]; [|reflexivity].
    pose proof (rows_perm _ _ P) as PR. unfold skew_center, volumes. cbn [fst snd].
    destruct (SV (rows_of M c)) as (_ & _ & I); [rewrite rows_length; exact L|]. rewrite (I _ PR).
    match goal with |- (if is_nan ?u then _ else _) = (if is_nan ?v then _ else _) => assert (E : u = v) end; [|rewrite E; reflexivity].
    apply xlist_max_perm. apply Permutation_map. apply (with_rest_perm _ _ PR). intros x r r' Pr Px. cbn [fst snd]. f_equal.
    assert (Lr : length r <= d) by (apply Permutation_length in Px; cbn [length] in Px; rewrite rows_length in Px; lia).
    destruct (SV r Lr) as (_ & _ & J). symmetry. apply J, Pr.
  - intro c. unfold mu_skewness. destruct (length c <=? d); [|discriminate]. unfold skew_center. destruct (is_nan _) eqn:E; [discriminate|]. intro Z. rewrite Z in E. discriminate E.
Qed.
Hypothesis RL : row_lengths d svals norm2.
Lemma volumes_geometric c : 0 < length c -> length c <= d -> geometric (volumes svals norm2 (rows_of M c)).
Proof.
  intros Hc L. assert (Lr : length (rows_of M c) <= d) by (rewrite rows_length; exact L).
  assert (NN : forall r, length r <= d -> (0 <= product (svals r))%Qc) by (intros r Hr; apply product_nonneg, (SV r Hr)).
  split; [|split].
  - unfold volumes. cbn [snd]. destruct c as [|i c]; [simpl in Hc; lia|]. discriminate.
  - apply NN, Lr.
  - intros e Ie. apply in_map_iff in Ie. destruct Ie as (p & <- & Ip). destruct (with_rest_split _ _ Ip) as (l1 & l2 & E1 & E2). cbn [fst snd].
    assert (Ls : length (l1 ++ l2) <= d) by (rewrite E1, app_length in Lr; cbn [length] in Lr; rewrite app_length; lia).
    assert (H : (product (svals (rows_of M c)) <= norm2 (fst p) * product (svals (snd p)))%Qc).
    { rewrite E1, E2. apply RL. rewrite <- E1. exact Lr. }
    split; [rewrite E2; apply NN, Ls|]. split; [|exact H].
    intro Z. rewrite Z, Qcmult_0_r in H. apply Qcle_antisym; [exact H | apply NN, Lr].
Qed.
Lemma mu_skewness_value c : 0 < length c -> length c <= d -> is_skewness (volumes svals norm2 (rows_of M c)) (mu_skewness c).
Proof. intros Hc L. unfold mu_skewness. destruct (Nat.leb_spec (length c) d); [|lia]. apply skew_center_lemma, volumes_geometric; assumption. Qed.
Lemma eval_skewness_repeat n c : 0 < n -> 0 < length c -> length c <= d -> (forall i, In i c -> i < length M) ->
  exists sv, eval_skewness svals norm2 d (repeat M n) c = Ok (mu_skewness c, sv) /\ length sv = n * length c.
Proof.
  intros Hn Hc L I. unfold eval_skewness. rewrite select_repeat by exact I. cbn [bind]. unfold calculate_avg_skewness.
  destruct (Nat.ltb_spec d (length c)); [lia|]. rewrite !map_repeat, skew_data_volumes.
  pose proof (volumes_geometric c Hc L) as G. pose proof (skew_center_lemma _ G) as SC.
  rewrite hmean_repeat; [|exact Hn|].
  - cbn [bind]. exists (concat (repeat (map (fun e => skew_entry (fst (volumes svals norm2 (rows_of M c))) (fst e) (snd e)) (snd (volumes svals norm2 (rows_of M c)))) n)).
    split; [unfold mu_skewness; destruct (Nat.leb_spec (length c) d); [reflexivity | lia]|].
    rewrite concat_repeat_len, map_length. unfold volumes. cbn [snd]. rewrite map_length, (with_rest_positions []), map_length, seq_length, rows_length. reflexivity.
  - destruct (skewness_ge_one _ _ G SC) as [->|(q & -> & Hq)]; [left; reflexivity|]. right. exists q. split; [reflexivity|]. qc_lra.
Qed.
End One.

(** ** The search sees only the first component of the evaluation *)
Section Same.
Context {V W : Type} (v0 : V) (w0 : W) (ev : list nat -> result (xnum * list V)) (ew : list nat -> result (xnum * list W)) (srt : list xnum -> list nat).
Lemma take_idx_map {A B} (f : A -> B) l idx : take_idx (map f l) idx = option_map (map f) (take_idx l idx).
Proof.
  induction idx as [|i idx IH]; [reflexivity|]. cbn [take_idx]. rewrite nth_error_map, IH. destruct (nth_error l i); [|reflexivity]. destruct (take_idx l idx); reflexivity.
Qed.
Lemma keys_pair {U} (t : list (@row U)) : map r_m t = map fst (map pair_row t).
Proof. rewrite map_map. reflexivity. Qed.
Lemma removelast_map {A B} (f : A -> B) l : map f (removelast l) = removelast (map f l).
Proof. induction l as [|x [|y l] IH]; [reflexivity | reflexivity|]. change (removelast (x :: y :: l)) with (x :: removelast (y :: l)). cbn [map]. rewrite IH. reflexivity. Qed.
Lemma insert_same (t : list (@row V)) (u : list (@row W)) c m s s' t' u' : map pair_row t = map pair_row u ->
  insert srt t c (m, s) = Ok t' -> insert srt u c (m, s') = Ok u' -> map pair_row t' = map pair_row u'.
Proof.
  intros E. unfold insert. cbn [fst snd].
  assert (ER : map pair_row (rev t) = map pair_row (rev u)) by (rewrite !map_rev, E; reflexivity).
  destruct (rev t) as [|l rt], (rev u) as [|l' ru]; try discriminate. pose proof (f_equal (fun x => fst (hd (Fin 0%Qc, []) x)) ER) as Em. cbn in Em.
  rewrite Em. destruct (xltb m (r_m l')); [|congruence].
  unfold reorder, fancy. rewrite !keys_pair.
  assert (EP : map pair_row (removelast t ++ [mk_row m c s]) = map pair_row (removelast u ++ [mk_row m c s'])) by (rewrite !map_app, !removelast_map, E; reflexivity).
  rewrite EP. set (idx := srt _). pose proof (take_idx_map pair_row (removelast t ++ [mk_row m c s]) idx) as T1. pose proof (take_idx_map pair_row (removelast u ++ [mk_row m c s']) idx) as T2.
  rewrite EP, T2 in T1. destruct (take_idx (removelast t ++ _) idx), (take_idx (removelast u ++ _) idx); cbn [option_map] in T1; try discriminate. intros X Y. congruence.
Qed.
Lemma scan_same items : (forall c, In c items -> exists m s s', ev c = Ok (m, s) /\ ew c = Ok (m, s')) ->
  forall t u t' u', map pair_row t = map pair_row u -> scan ev srt items t = Ok t' -> scan ew srt items u = Ok u' -> map pair_row t' = map pair_row u'.
Proof.
  induction items as [|c items IH]; intros H t u t' u' E; cbn [scan]; [congruence|].
  destruct (H c (or_introl eq_refl)) as (m & s & s' & -> & ->). cbn [bind].
  destruct (insert srt t c (m, s)) as [t1|] eqn:E1; cbn [bind]; [|discriminate]. destruct (insert srt u c (m, s')) as [u1|] eqn:E2; cbn [bind]; [|discriminate].
  apply IH; [intros; apply H; right; assumption|]. exact (insert_same t u c m s s' t1 u1 E E1 E2).
Qed.
Lemma tables_same k nq ms ms' blocks ts us : (forall c, In c (concat blocks) -> exists m s s', ev c = Ok (m, s) /\ ew c = Ok (m, s')) ->
  mapM (fun b => scan ev srt b (init_table v0 k nq ms)) blocks = Ok ts -> mapM (fun b => scan ew srt b (init_table w0 k nq ms')) blocks = Ok us ->
  map (map pair_row) ts = map (map pair_row) us.
Proof.
  revert ts us. induction blocks as [|b blocks IH]; intros ts us H; cbn [mapM]; [intros X Y; injection X as <-; injection Y as <-; reflexivity|].
  destruct (scan ev srt b _) as [t|] eqn:E1; cbn [bind]; [|discriminate]. destruct (mapM (fun b0 => scan ev srt b0 _) blocks) as [ts'|]; cbn [bind]; [|discriminate]. intro X. injection X as <-.
  destruct (scan ew srt b _) as [u|] eqn:E2; cbn [bind]; [|discriminate]. destruct (mapM (fun b0 => scan ew srt b0 _) blocks) as [us'|]; cbn [bind]; [|discriminate]. intro X. injection X as <-.
  cbn [map]. rewrite (IH ts' us') by (try reflexivity; intros; apply H; cbn [concat]; apply in_or_app; right; assumption). f_equal.
  refine (scan_same b _ _ _ t u _ E1 E2); [intros; apply H; cbn [concat]; apply in_or_app; left; assumption|].
  unfold init_table. rewrite !map_repeat. reflexivity.
Qed.
Lemma choose_same P k nq ms ms' qois r r' : (forall c, In c (concat (array_split (combs nq qois) P)) -> exists m s s', ev c = Ok (m, s) /\ ew c = Ok (m, s')) ->
  chooseOptQoIs v0 ev srt P k nq ms qois = Ok r -> chooseOptQoIs w0 ew srt P k nq ms' qois = Ok r' -> r = r'.
Proof.
  intro H. unfold chooseOptQoIs, chooseOptQoIs_verbose.
  destruct (mapM (fun b => scan ev srt b _) _) as [ts|] eqn:E1; cbn [bind]. 2: intro D; discriminate D. destruct (mapM (fun b => scan ew srt b _) _) as [us|] eqn:E2; cbn [bind]; [|discriminate].
  pose proof (tables_same k nq ms ms' _ ts us H E1 E2) as T.
  change (fun r : @row V => (r_m r, r_set r)) with (@pair_row V). change (fun r : @row W => (r_m r, r_set r)) with (@pair_row W).
  cbv zeta. rewrite !concat_map, T. set (rows := concat (map (map pair_row) us)).
  destruct (fancy rows (srt _)) as [rs|]; cbn [bind]; [|discriminate].
  destruct (fancy (regather v0 _ _ _ _) _) as [x|]; cbn [bind]; [|discriminate]. destruct (fancy (regather w0 _ _ _ _) _) as [y|]; cbn [bind]; [|discriminate].
  cbn [fst]. congruence.
Qed.
End Same.

Lemma Permutation_exists (c' c : list nat) : NoDup c' -> incl c' c -> exists r, Permutation c (r ++ c').
Proof.
  revert c. induction c' as [|x c' IH]; intros c N I; [exists c; rewrite app_nil_r; apply Permutation_refl|].
  inversion N as [|? ? Hx N']; subst. destruct (in_split x c (I x (or_introl eq_refl))) as (l1 & l2 & ->).
  destruct (IH (l1 ++ l2) N') as (r & P).
  { intros y Iy. assert (Y : In y (l1 ++ x :: l2)) by (apply I; right; exact Iy). apply in_app_or in Y. apply in_or_app. destruct Y as [Y|[<-|Y]]; [left; exact Y | contradiction | right; exact Y]. }
  exists r. eapply Permutation_trans; [apply Permutation_sym, Permutation_middle|]. eapply Permutation_trans; [apply perm_skip, P|]. apply Permutation_middle.
Qed.

(** ** The whole run *)
Section Run.
Context (svals : mat -> list Qc) (norm2 : list Qc -> Qc) (srt : list xnum -> list nat) (ord : list nat -> list nat) (d : nat).
Hypothesis SV : singular_values d svals.
Hypothesis GS : good_sort srt.
Hypothesis SO : set_order ord.

Lemma run_reduces s mf o c0 A cs r nrm P qois nq k tol meas rz : points d cs -> good_radii d r -> 0 < d -> cs <> [] ->
  exists M, coefficients A o d nrm M /\
  run_sensitivity svals norm2 srt ord s mf d o (Some cs) r nrm (outputs o (affine d c0 A)) P qois nq k tol meas rz =
  bind (find_unique_vecs ord (Some [to_R M]) o tol qois rz) (fun qs =>
    chooseOptQoIs (Fin 0%Qc) (if meas then eval_measure svals d (repeat M (length cs)) else eval_skewness svals norm2 d (repeat M (length cs))) srt P
      (given k 10) (given nq d) (length cs * given nq d) qs).
Proof.
  intros Pc R D N. destruct (run_jacobian s mf d o c0 A cs r nrm Pc R D N) as (M & pts & g & C & E1 & E2 & E3).
  exists M. split; [exact C|]. unfold run_sensitivity. rewrite E1. cbn [bind]. rewrite E2. cbn [bind]. unfold choose_qois. rewrite E3, finite_repeat, map_repeat, repeat_length.
  rewrite find_unique_repeat; [reflexivity|]. destruct cs; [congruence | simpl; lia].
Qed.
Lemma kept_range o tol qois rz M kept : (forall i, In i (given qois (seq 0 o)) -> i < o) ->
  maximal_dissimilar [to_R M] tol rz (given qois (seq 0 o)) kept -> forall i, In i kept -> i < o.
Proof. intros B (_ & I & _) i Ii. apply B, I, Ii. Qed.

Lemma measure_lemma s mf o c0 A cs r nrm P qois nq k tol rz : points d cs -> good_radii d r -> 0 < d -> cs <> [] ->
  0 < P -> 0 < given k 10 -> given nq d <= d -> (forall i, In i (given qois (seq 0 o)) -> i < o) ->
  exists M kept rows mu, coefficients A o d nrm M /\
    run_sensitivity svals norm2 srt ord s mf d o (Some cs) r nrm (outputs o (affine d c0 A)) P qois nq k tol true rz = Ok rows /\
    maximal_dissimilar [real_matrix M] tol rz (given qois (seq 0 o)) kept /\
    (forall c, set_of (given nq d) kept c -> is_inverse_volume (product (svals (rows_of M c))) (mu c)) /\
    best_table (given k 10) (given nq d) kept mu rows.
Proof.
  intros Pc R D N HP Hk Hq B. destruct (run_reduces s mf o c0 A cs r nrm P qois nq k tol true rz Pc R D N) as (M & C & E).
  assert (Hn : 0 < length cs) by (destruct cs; [congruence | simpl; lia]).
  destruct (unique_lemma ord [to_R M] o tol qois rz SO B) as (kept & EK & K).
  pose proof (kept_range o tol qois rz M kept B K) as KR. destruct C as [LM CM].
  assert (EV : forall c, set_of (given nq d) kept c -> exists sv, eval_measure svals d (repeat M (length cs)) c = Ok (mu_measure svals d M c, sv) /\ length sv = length cs * given nq d).
  { intros c (L & _ & I). destruct (eval_measure_repeat svals d SV M (length cs) c Hn) as (sv & E1 & E2); [lia | intros i Ii; rewrite LM; apply KR, I, Ii|].
    exists sv. rewrite E2, L. split; [exact E1 | reflexivity]. }
  set (svf := fun c => match eval_measure svals d (repeat M (length cs)) c with Ok x => snd x | Raise _ => [] end).
  destruct (choose_lemma xnum (Fin 0%Qc) (eval_measure svals d (repeat M (length cs))) srt (mu_measure svals d M) svf P (given k 10) (given nq d) (length cs * given nq d) kept HP Hk (proj1 K) GS (mu_measure_criterion svals d SV M)) as (rows & ER & BT).
  { intros c Hc. destruct (EV c Hc) as (sv & E1 & E2). unfold svf. rewrite E1. split; [reflexivity | exact E2]. }
  exists M, kept, rows, (mu_measure svals d M). split; [split; assumption|]. split; [rewrite E, EK; cbn [bind]; exact ER|]. split; [exact K|]. split; [|exact BT].
  intros c (L & _). apply mu_measure_value. lia.
Qed.
Hypothesis RL : row_lengths d svals norm2.
Lemma skewness_lemma s mf o c0 A cs r nrm P qois nq k tol rz : points d cs -> good_radii d r -> 0 < d -> cs <> [] ->
  0 < P -> 0 < given k 10 -> 0 < given nq d <= d -> (forall i, In i (given qois (seq 0 o)) -> i < o) ->
  exists M kept rows mu, coefficients A o d nrm M /\
    run_sensitivity svals norm2 srt ord s mf d o (Some cs) r nrm (outputs o (affine d c0 A)) P qois nq k tol false rz = Ok rows /\
    maximal_dissimilar [real_matrix M] tol rz (given qois (seq 0 o)) kept /\
    (forall c, set_of (given nq d) kept c -> is_skewness (volumes svals norm2 (rows_of M c)) (mu c)) /\
    best_table (given k 10) (given nq d) kept mu rows.
Proof.
  intros Pc R D N HP Hk Hq B. destruct (run_reduces s mf o c0 A cs r nrm P qois nq k tol false rz Pc R D N) as (M & C & E).
  assert (Hn : 0 < length cs) by (destruct cs; [congruence | simpl; lia]).
  destruct (unique_lemma ord [to_R M] o tol qois rz SO B) as (kept & EK & K).
  pose proof (kept_range o tol qois rz M kept B K) as KR. destruct C as [LM CM].
  assert (EV : forall c, set_of (given nq d) kept c -> exists sv, eval_skewness svals norm2 d (repeat M (length cs)) c = Ok (mu_skewness svals norm2 d M c, sv) /\ length sv = length cs * given nq d).
  { intros c (L & _ & I). destruct (eval_skewness_repeat svals norm2 d SV M RL (length cs) c Hn) as (sv & E1 & E2); [lia | lia | intros i Ii; rewrite LM; apply KR, I, Ii|].
    exists sv. rewrite E2, L. split; [exact E1 | reflexivity]. }
  set (svf := fun c => match eval_skewness svals norm2 d (repeat M (length cs)) c with Ok x => snd x | Raise _ => [] end).
  destruct (choose_lemma xnum (Fin 0%Qc) (eval_skewness svals norm2 d (repeat M (length cs))) srt (mu_skewness svals norm2 d M) svf P (given k 10) (given nq d) (length cs * given nq d) kept HP Hk (proj1 K) GS (mu_skewness_criterion svals norm2 d SV M)) as (rows & ER & BT).
  { intros c Hc. destruct (EV c Hc) as (sv & E1 & E2). unfold svf. rewrite E1. split; [reflexivity | exact E2]. }
  exists M, kept, rows, (mu_skewness svals norm2 d M). split; [split; assumption|]. split; [rewrite E, EK; cbn [bind]; exact ER|]. split; [exact K|]. split; [|exact BT].
  intros c (L & _). apply mu_skewness_value; [exact SV | exact RL | lia | lia].
Qed.

(** The answer does not depend on the stencils. *)
Lemma same_lemma s s' mf mf' o c0 c0' A cs cs' r r' nrm P qois nq k tol meas rz : points d cs -> points d cs' -> good_radii d r -> good_radii d r' -> 0 < d -> cs <> [] -> cs' <> [] ->
  0 < P -> 0 < given k 10 -> 0 < given nq d <= d -> (forall i, In i (given qois (seq 0 o)) -> i < o) ->
  run_sensitivity svals norm2 srt ord s mf d o (Some cs) r nrm (outputs o (affine d c0 A)) P qois nq k tol meas rz =
  run_sensitivity svals norm2 srt ord s' mf' d o (Some cs') r' nrm (outputs o (affine d c0' A)) P qois nq k tol meas rz.
Proof.
  intros Pc Pc' R R' D N N' HP Hk Hq B.
  assert (Hn : 0 < length cs) by (destruct cs; [congruence | simpl; lia]). assert (Hn' : 0 < length cs') by (destruct cs'; [congruence | simpl; lia]).
  assert (OK : exists rows rows', run_sensitivity svals norm2 srt ord s mf d o (Some cs) r nrm (outputs o (affine d c0 A)) P qois nq k tol meas rz = Ok rows /\
    run_sensitivity svals norm2 srt ord s' mf' d o (Some cs') r' nrm (outputs o (affine d c0' A)) P qois nq k tol meas rz = Ok rows').
  { destruct meas.
    - destruct (measure_lemma s mf o c0 A cs r nrm P qois nq k tol rz Pc R D N HP Hk (proj2 Hq) B) as (_ & _ & rows & _ & _ & E & _).
      destruct (measure_lemma s' mf' o c0' A cs' r' nrm P qois nq k tol rz Pc' R' D N' HP Hk (proj2 Hq) B) as (_ & _ & rows' & _ & _ & E' & _). exists rows, rows'. split; assumption.
    - destruct (skewness_lemma s mf o c0 A cs r nrm P qois nq k tol rz Pc R D N HP Hk Hq B) as (_ & _ & rows & _ & _ & E & _).
      destruct (skewness_lemma s' mf' o c0' A cs' r' nrm P qois nq k tol rz Pc' R' D N' HP Hk Hq B) as (_ & _ & rows' & _ & _ & E' & _). exists rows, rows'. split; assumption. }
  destruct OK as (rows & rows' & OK1 & OK2). rewrite OK1, OK2. f_equal. revert OK1 OK2.
  destruct (run_reduces s mf o c0 A cs r nrm P qois nq k tol meas rz Pc R D N) as (M & C & ->).
  destruct (run_reduces s' mf' o c0' A cs' r' nrm P qois nq k tol meas rz Pc' R' D N') as (M' & C' & ->).
  rewrite (coefficients_unique _ _ _ _ _ _ C' C). clear M' C'.
  destruct (unique_lemma ord [to_R M] o tol qois rz SO B) as (kept & EK & K). rewrite EK. cbn [bind].
  pose proof (kept_range o tol qois rz M kept B K) as KR. destruct C as [LM CM].
  apply choose_same. intros c Ic. rewrite array_split_concat in Ic by exact HP.
  destruct (listed_choice (given nq d) kept c (proj1 K) Ic) as (L & _ & I).
  assert (IR : forall i, In i c -> i < length M) by (intros i Ii; rewrite LM; apply KR, I, Ii).
  destruct meas.
  - destruct (eval_measure_repeat svals d SV M (length cs) c Hn ltac:(lia) IR) as (sv & Ea & _). destruct (eval_measure_repeat svals d SV M (length cs') c Hn' ltac:(lia) IR) as (sv' & Eb & _).
    exists (mu_measure svals d M c), sv, sv'. split; [exact Ea | exact Eb].
  - destruct (eval_skewness_repeat svals norm2 d SV M RL (length cs) c Hn ltac:(lia) ltac:(lia) IR) as (sv & Ea & _). destruct (eval_skewness_repeat svals norm2 d SV M RL (length cs') c Hn' ltac:(lia) ltac:(lia) IR) as (sv' & Eb & _).
    exists (mu_skewness svals norm2 d M c), sv, sv'. split; [exact Ea | exact Eb].
Qed.

(** ** Large sets of QoIs *)
Lemma drop_rows_volume : forall n M1 M2, n = length M1 -> length (M1 ++ M2) <= d -> product (svals (M1 ++ M2)) <> 0%Qc -> product (svals M2) <> 0%Qc.
Proof.
  induction n as [|n IH]; intros M1 M2 E L H; destruct M1 as [|v M1]; try discriminate; [exact H|].
  injection E as E. apply (IH M1 M2 E); [cbn [app length] in L; lia|]. intro Z. apply H.
  pose proof (RL [] v (M1 ++ M2) L) as Hd. cbn [app] in Hd. rewrite Z, Qcmult_0_r in Hd.
  apply Qcle_antisym; [exact Hd|]. apply product_nonneg. apply (SV ((v :: M1) ++ M2) L).
Qed.
Lemma sub_volume M c c' : NoDup c' -> incl c' c -> NoDup c -> length c <= d -> product (svals (rows_of M c)) <> 0%Qc -> product (svals (rows_of M c')) <> 0%Qc.
Proof.
  intros N' I N L H. destruct (Permutation_exists c' c N' I) as (r & P).
  destruct (SV (rows_of M c)) as (_ & _ & J); [rewrite rows_length; exact L|].
  pose proof (rows_perm M _ _ P) as PR. unfold rows_of in PR at 2. rewrite map_app in PR. fold (rows_of M r) (rows_of M c') in PR.
  apply (drop_rows_volume (length (rows_of M r)) (rows_of M r) (rows_of M c') eq_refl).
  - rewrite <- (Permutation_length PR), rows_length. exact L.
  - rewrite (J _ PR). exact H.
Qed.
Lemma mu_measure_inf M c : length c <= d -> (mu_measure svals d M c <> PInf <-> product (svals (rows_of M c)) <> 0%Qc).
Proof.
  intro L. destruct (mu_measure_value svals d M c L) as [H1 H2]. split; intros H Z.
  - apply H, H1, Z.
  - rewrite (H2 H) in Z. discriminate.
Qed.
Lemma mu_skewness_inf M c : 0 < length c -> length c <= d -> (mu_skewness svals norm2 d M c <> PInf <-> product (svals (rows_of M c)) <> 0%Qc).
Proof.
  intros Hc L. destruct (mu_skewness_value svals norm2 d SV M RL c Hc L) as [H1 H2]. cbn [fst volumes] in *. split; intros H Z.
  - apply H, H1, Z.
  - destruct (H2 H) as (q & E & _). rewrite E in Z. discriminate.
Qed.
Lemma mu_measure_hereditary M : hereditary (mu_measure svals d M).
Proof.
  intros c c' N N' I L H. destruct (Nat.le_gt_cases (length c) d) as [Lc|Lc].
  - apply mu_measure_inf; [pose proof (NoDup_incl_length N' I); lia|]. apply (sub_volume M c c' N' I N Lc). apply mu_measure_inf; assumption.
  - exfalso. apply H. unfold mu_measure. destruct (Nat.leb_spec (length c) d); [lia | reflexivity].
Qed.
Lemma mu_skewness_hereditary M : hereditary (mu_skewness svals norm2 d M).
Proof.
  intros c c' N N' I L H. pose proof (NoDup_incl_length N' I). destruct (Nat.le_gt_cases (length c) d) as [Lc|Lc].
  - apply mu_skewness_inf; [lia | lia|]. apply (sub_volume M c c' N' I N Lc). apply mu_skewness_inf; [lia | assumption | assumption].
  - exfalso. apply H. unfold mu_skewness. destruct (Nat.leb_spec (length c) d); [lia | reflexivity].
Qed.
Lemma large_run_lemma s mf o c0 A cs r nrm P qois maxq k tol meas rz : points d cs -> good_radii d r -> 0 < d -> cs <> [] ->
  0 < P -> 0 < given k 10 -> given maxq d <= d -> (forall i, In i (given qois (seq 0 o)) -> i < o) ->
  exists M kept out mu, coefficients A o d nrm M /\
    run_sensitivity_large svals norm2 srt ord s mf d o (Some cs) r nrm (outputs o (affine d c0 A)) P qois maxq k tol None meas rz = Ok out /\
    maximal_dissimilar [real_matrix M] (given tol 1%R) rz (given qois (seq 0 o)) kept /\
    (forall c, NoDup c -> incl c kept -> 2 <= length c <= given maxq d ->
       if meas then is_inverse_volume (product (svals (rows_of M c))) (mu c) else is_skewness (volumes svals norm2 (rows_of M c)) (mu c)) /\
    length out = given maxq d - 1 /\
    forall i rows, nth_error out i = Some rows -> optimal_first (i + 2) kept mu rows.
Proof.
  intros Pc R D N HP Hk Hq B. destruct (run_jacobian s mf d o c0 A cs r nrm Pc R D N) as (M & pts & g & C & E1 & E2 & E3).
  assert (Hn : 0 < length cs) by (destruct cs; [congruence | simpl; lia]).
  destruct (unique_lemma ord [to_R M] o (given tol 1%R) qois rz SO B) as (kept & EK & K).
  pose proof (kept_range o (given tol 1%R) qois rz M kept B K) as KR. destruct C as [LM CM].
  set (ev := if meas then eval_measure svals d (repeat M (length cs)) else eval_skewness svals norm2 d (repeat M (length cs))).
  set (mu := if meas then mu_measure svals d M else mu_skewness svals norm2 d M).
  assert (EV : forall c, NoDup c -> incl c kept -> 2 <= length c <= given maxq d -> exists sv, ev c = Ok (mu c, sv)).
  { intros c _ I L. assert (IR : forall i, In i c -> i < length M) by (intros i Ii; rewrite LM; apply KR, I, Ii). unfold ev, mu. destruct meas.
    - destruct (eval_measure_repeat svals d SV M (length cs) c Hn ltac:(lia) IR) as (sv & Ea & _). exists sv. exact Ea.
    - destruct (eval_skewness_repeat svals norm2 d SV M RL (length cs) c Hn ltac:(lia) ltac:(lia) IR) as (sv & Ea & _). exists sv. exact Ea. }
  set (svf := fun c => match ev c with Ok x => snd x | Raise _ => [] end).
  destruct (large_lemma xnum (Fin 0%Qc) ev srt ord mu svf P (given k 10) (length cs) (given maxq d) kept HP Hk GS SO) as (out & EO & LO & HO).
  { unfold mu. destruct meas; [apply (mu_measure_criterion svals d SV M) | apply (mu_skewness_criterion svals norm2 d SV M)]. }
  { unfold mu. destruct meas; [apply mu_measure_hereditary | apply mu_skewness_hereditary]. }
  { intros c H1 H2 H3. destruct (EV c H1 H2 H3) as (sv & Ea). unfold svf. rewrite Ea. reflexivity. }
  exists M, kept, out, mu. split; [split; assumption|]. split.
  { unfold run_sensitivity_large. rewrite E1. cbn [bind]. rewrite E2. cbn [bind]. unfold choose_qois_large. rewrite E3, finite_repeat, map_repeat, repeat_length.
    rewrite find_unique_repeat by exact Hn. change (match tol with Some t => t | None => 1%R end) with (given tol 1%R). rewrite EK. cbn [bind]. exact EO. }
  split; [exact K|]. split; [|split; [exact LO | exact HO]].
  intros c _ I L. unfold mu. destruct meas; [apply mu_measure_value; lia | apply (mu_skewness_value svals norm2 d SV M RL); lia].
Qed.
End Run.
