(** Cases on the line for the error estimates. *)
From Coq Require Import List Arith Bool QArith Qcanon Lia Permutation.
From Verif Require Import Err Num Ext NumPy Lists SampleSet_Model SampleSet_Spec Prob_Spec Disc_Model Disc_Spec Disc_Examples Workflow_Model Workflow_Spec Workflow_Proofs Error_Spec
  ErrorDisc_Model ErrorDisc_Spec ErrorDisc_Proofs ErrorDisc4_Proofs ErrorDisc_Examples SampErr_Model SampErr_Spec SampErr_Proofs SampErr2_Proofs SampErr_Examples ErrTrue_Spec ErrTrue2_Proofs.
Import ListNotations.
Local Open Scope nat_scope.
Local Open Scope err_scope.

(** The problem of ErrorDisc_Examples: outputs 0, 3/4, 2 and corrected outputs
    0, 5/4, 2. *)
Definition fixed_ : list Qc := [0; q_ 5 4; q_ 2 1]%Qc.
Definition d_fixed (em : option (list Qc)) : disc cell :=
  mk_disc (Some (eset xs_ none_)) (Some (eset fixed_ none_)) (Some (prob_ ys_ ps_)) (option_map (fun l => eset l none_) em) None None None None None None None None.
Lemma given_holds P em : holds_survey near P (as_given (b_ em)) (w_ None em) (d_ None em).
Proof. exact (w_holds P None em I). Qed.
Lemma fixed_outputs em : g_outputs (corrected (b_ em)) = map pt fixed_.
Proof. assert (E : (q_ 3 4 + half)%Qc = q_ 5 4) by (apply Qc_is_canon; vm_compute; reflexivity). assert (E2 : (q_ 2 1 + 0)%Qc = q_ 2 1) by ring. assert (E3 : (0 + 0)%Qc = 0%Qc) by ring. change (g_outputs (corrected (b_ em))) with [row [(0 + 0)%Qc]; row [(q_ 3 4 + half)%Qc]; row [(q_ 2 1 + 0)%Qc]]. rewrite E, E2, E3. reflexivity. Qed.
Lemma fixed_holds P em : holds_survey near P (corrected (b_ em)) (w_ None em) (d_fixed em).
Proof.
  split; [|split; [|split; [|split]]].
  - eexists. split; [reflexivity|]. split; [|reflexivity]. apply eset_points; [reflexivity|discriminate].
  - eexists. split; [reflexivity|]. rewrite fixed_outputs. apply eset_points; [reflexivity|discriminate].
  - eexists. split; [reflexivity|]. split; [|reflexivity]. apply eset_points; [reflexivity|]. apply only_length. reflexivity.
  - destruct em as [l|]; [|exact I]. cbn. apply eset_points; [reflexivity|discriminate].
  - split; discriminate.
Qed.
Lemma w_nonneg : nonneg ps_.
Proof. intros x Hx. destruct Hx as [<-|[<-|[]]]; discriminate. Qed.
Lemma both_hit es : In 0 es -> In 1 es -> every_event_hit ps_ es.
Proof. intros H0 H1 i p Hi _. destruct i as [|[|i]]; [exact H0|exact H1|destruct i; discriminate]. Qed.
(** Its outputs and errors as functions of the sample. *)
Definition z_ (x : cell) : list Qc := [nth (near (map pt xs_) x) zs_ 0%Qc].
Definition e_ (x : cell) : list Qc := [nth (near (map pt xs_) x) es_ 0%Qc].
Lemma near_xs : map (near (map pt xs_)) (map pt xs_) = [0; 1; 2].
Proof. vm_compute. reflexivity. Qed.
Lemma model_b em : model_problem 1 1 (map pt xs_) z_ e_ (map pt ys_) ps_ (option_map (map pt) em) = b_ em.
Proof.
  unfold model_problem, b_. assert (E : forall l, length l = 3 -> map (fun x => [nth (near (map pt xs_) x) l 0%Qc]) (map pt xs_) = map (fun q => [q]) l).
  { intros l L. rewrite <- (map_map (near (map pt xs_)) (fun k => [nth k l 0%Qc])), near_xs. destruct l as [|a [|b [|c [|]]]]; try discriminate. reflexivity. }
  unfold z_, e_. rewrite !E by reflexivity. reflexivity.
Qed.
Definition by_rows (f : cell -> cell) (a : arr cell) : arr cell := mk_arr (map f (rows a)) [1].
Lemma by_rows_model f : row_model 1 1 f (by_rows f).
Proof. intros xs. reflexivity. Qed.

(** Event 0 keeps its volume of 1/3: the estimate is 0.  But the corrected
    solution gives the samples of event 0 the probability 7/8 instead of 3/4. *)
Lemma contour_refuted_lemma : exists nn P di o xs z e ys ps d i p l a model model' q q',
  let b := model_problem di o xs z e ys ps None in let v := input_volumes nn b None in
  (forall l x, l <> [] -> nn l x < length l) /\ 0 < P /\ well_posed b /\ nonneg ps /\ holds_problem nn P b d /\ stored_volumes d None /\
  row_model di o (fun x => row (z x)) model /\ row_model di o (fun x => row (plus (z x) (e x))) model' /\
  rmap fst (do m <- new_model_error nn P d ; pose_all nn P [Contours] m) = Ok [l] /\ nth_error ps i = Some p /\ (0 < p)%Qc /\ nth_error l i = Some (Fin a) /\
  global_probabilities (solve nn P model (Given v) true false (values_set di None xs) (probability_set o None ys ps)) = Some (map Num q) /\
  global_probabilities (solve nn P model' (Given v) true false (values_set di None xs) (probability_set o None ys ps)) = Some (map Num q') /\
  let event x := nn ys (row (z x)) =? i in (mass event xs q = p /\ a < mass event xs q' - mass event xs q)%Qc.
Proof.
  pose (v := input_volumes near (b_ None) None). pose (xv := combine (map pt xs_) v).
  exists near, 2, 1, 1, (map pt xs_), z_, e_, (map pt ys_), ps_, (d_ None None), 0, (q_ 3 4), (contour_answer near (b_ None) v), 0%Qc, (by_rows (fun x => row (z_ x))), (by_rows (fun x => row (plus (z_ x) (e_ x)))),
    (solution (fun x => near (map pt ys_) (row (z_ x))) ps_ xv), (solution (fun x => near (map pt ys_) (row (plus (z_ x) (e_ x)))) ps_ xv).
  cbv zeta. change (@None (list cell)) with (option_map (map pt) None). rewrite !model_b. fold v.
  assert (V : forall x, In x v -> (0 <= x)%Qc) by (intros x H; repeat (destruct H as [<-|H]; [unfold Qcle; vm_compute; discriminate|]); contradiction).
  assert (GV : forall v', Given v = Given v' -> length v' = length (map pt xs_) /\ nonneg v') by (intros v' [= <-]; split; [reflexivity|exact V]).
  split; [exact near_bound|]. split; [lia|]. split; [apply b_posed; discriminate|]. split; [exact w_nonneg|]. split; [apply d_holds; exact I|]. split; [eexists; split; reflexivity|]. do 2 (split; [apply by_rows_model|]).
  split. { rewrite (answers_lemma near 2 ltac:(lia) near_bound (b_ None) (b_posed None ltac:(discriminate)) (d_ None None) None [Contours]); [reflexivity|apply d_holds; exact I|eexists; split; reflexivity|exact V|constructor; [exact I|constructor]]. }
  split; [reflexivity|]. split; [vm_compute; reflexivity|]. split. { cbn [nth_error]. unfold contour_answer. cbn [probs b_ ps_ length seq combine map nth_error fst snd]. f_equal.
    assert (E : show_x (event_error (moved_volumes near (b_ None) v) 0 (q_ 3 4)) = Some 0%Q) by (vm_compute; reflexivity). destruct (event_error _ 0 (q_ 3 4)) as [y| | |]; try discriminate. cbn in E. injection E as E. f_equal. apply Qc_is_canon. rewrite E. reflexivity. }
  split. { apply (solve_lemma near 2 1 1 _ _ (Given v) true false None None (map pt xs_) (map pt ys_) ps_ ltac:(lia) (by_rows_model _) ltac:(discriminate) ltac:(discriminate) eq_refl w_nonneg GV ltac:(discriminate)). }
  split. { apply (solve_lemma near 2 1 1 _ _ (Given v) true false None None (map pt xs_) (map pt ys_) ps_ ltac:(lia) (by_rows_model _) ltac:(discriminate) ltac:(discriminate) eq_refl w_nonneg GV ltac:(discriminate)). }
  split; [apply Qc_is_canon; vm_compute; reflexivity|vm_compute; reflexivity].
Qed.

(** Four samples 0, 1, 2, 3 with events 0, 0, 1, 1 of probabilities 1/10 and
    9/10; one emulated point at each. *)
Definition xs4 : list Qc := [0; 1; q_ 2 1; q_ 3 1]%Qc.
Definition ps4 : list Qc := [q_ 1 10; q_ 9 10].
Definition g4 : survey := mk_survey 1 1 (map pt xs4) (map pt [0; 0; q_ 2 1; q_ 2 1]%Qc) (map pt ys_).
Definition w4 : view := mk_view ps4 (Some (map pt xs4)) None [].
Definition d4 : disc cell := mk_disc (Some (eset xs4 none_)) (Some (eset [0; 0; q_ 2 1; q_ 2 1]%Qc none_)) (Some (prob_ ys_ ps4)) (Some (eset xs4 none_)) None None None None None None None None.
Definition nb4 (p q : nat) : bool := ((p =? S q) || (q =? S p)) && (p <? 4) && (q <? 4).
Lemma g4_proper : proper_survey g4.
Proof. split; [discriminate|]. split; [discriminate|reflexivity]. Qed.
Lemma w4_proper : proper_view g4 w4.
Proof. split; [reflexivity|]. split; [discriminate|]. discriminate. Qed.
Lemma w4_nonneg : nonneg ps4.
Proof. intros x Hx. destruct Hx as [<-|[<-|[]]]; discriminate. Qed.
Lemma d4_holds P : holds_survey near P g4 w4 d4.
Proof.
  split; [|split; [|split; [|split]]].
  - eexists. split; [reflexivity|]. split; [|reflexivity]. apply eset_points; [reflexivity|discriminate].
  - eexists. split; [reflexivity|]. apply eset_points; [reflexivity|discriminate].
  - eexists. split; [reflexivity|]. split; [|reflexivity]. apply eset_points; [reflexivity|]. apply only_length. reflexivity.
  - cbn. apply eset_points; [reflexivity|discriminate].
  - split; discriminate.
Qed.
Lemma d4_new : no_pointers d4.
Proof. intros []; split; reflexivity. Qed.
Lemma xs4_lt a b : a < 4 -> b < 4 -> (nth a xs4 0 < nth b xs4 0)%Qc <-> a < b.
Proof.
  intros La Lb. destruct a as [|[|[|[|a]]]], b as [|[|[|[|b]]]]; try lia; cbn [nth xs4]; split; intros H; try (vm_compute in H; discriminate); try lia; vm_compute; reflexivity.
Qed.
Lemma nb4_adjacent p q : nb4 p q = true <-> adjacent xs4 p q.
Proof.
  unfold nb4. rewrite !andb_true_iff, orb_true_iff, !Nat.eqb_eq, !Nat.ltb_lt. split.
  - intros [[H Lp] Lq]. split; [lia|]. exists (nth p xs4 0%Qc), (nth q xs4 0%Qc). split; [apply nth_error_nth'; exact Lp|]. split; [apply nth_error_nth'; exact Lq|].
    intros c Hc. destruct (In_nth xs4 c 0%Qc Hc) as (k & Lk & <-). change (length xs4) with 4 in Lk. rewrite !xs4_lt by assumption. lia.
  - intros (N & a & b & Ha & Hb & H). assert (Lp : p < 4) by (change 4 with (length xs4); apply nth_error_Some; congruence). assert (Lq : q < 4) by (change 4 with (length xs4); apply nth_error_Some; congruence).
    split; [split|]; [|exact Lp|exact Lq]. apply (nth_error_nth _ _ 0%Qc) in Ha, Hb. subst a b.
    destruct (H (nth 1 xs4 0%Qc)) as [H1 H2]; [right; left; reflexivity|]. destruct (H (nth 2 xs4 0%Qc)) as [H3 H4]; [right; right; left; reflexivity|]. rewrite !xs4_lt in H1, H2, H3, H4 by lia. lia.
Qed.
Lemma nb4_neighbours : neighbours_are sorting no_simplices g4 nb4.
Proof.
  left. split; [reflexivity|]. exists xs4. split; [reflexivity|]. split; [|split; [apply sorting_ok|split]].
  - unfold xs4. repeat constructor; simpl; intro H; repeat destruct H as [H|H]; try easy; apply (f_equal this) in H; vm_compute in H; discriminate.
  - assert (E : sorting xs4 = [0; 1; 2; 3]) by (vm_compute; reflexivity). rewrite E. intros [|[|[|[|i]]]] j H; cbn in H; try (injection H as <-; reflexivity); destruct i; discriminate.
  - exact nb4_adjacent.
Qed.
Lemma ev4 : sample_events near g4 = [0; 0; 1; 1].
Proof. vm_compute. reflexivity. Qed.
Lemma ks4 : map (near (g_samples g4)) (map pt xs4) = [0; 1; 2; 3].
Proof. vm_compute. reflexivity. Qed.
(** The point at 1 belongs to event 1 in truth. *)
Definition t4 : list nat := [0; 1; 1; 1].
Lemma t4_between : between (sample_events near g4) nb4 (map (near (g_samples g4)) (map pt xs4)) t4.
Proof.
  rewrite ev4, ks4. split; [reflexivity|]. intros j k i Hk Hi.
  assert (G : forall i' k0, inside [0; 0; 1; 1] nb4 i' k0 = true -> i' = nth k0 [0; 0; 1; 1] 0 /\ inside [0; 0; 1; 1] nb4 (nth k0 [0; 0; 1; 1] 0) k0 = true).
  { intros i' k0 H. assert (E : i' = nth k0 [0; 0; 1; 1] 0); [|rewrite <- E; auto]. unfold inside in H. apply andb_true_iff in H. destruct H as [H _]. apply andb_true_iff in H. destruct H as [H _]. apply Nat.eqb_eq in H. symmetry. exact H. }
  destruct j as [|[|[|[|j]]]]; cbn in Hk, Hi; try (injection Hk as <-; injection Hi as <-); try (destruct j; discriminate); (split; [reflexivity|intros i' H; destruct (G _ _ H) as [-> H2]; vm_compute in H2; first [reflexivity|discriminate]]).
Qed.
Lemma upper_refuted_lemma : exists nn argsort delaunay P g nb w d i p us ls u ps t,
  (forall l x, l <> [] -> nn l x < length l) /\ 0 < P /\ proper_survey g /\ neighbours_are argsort delaunay g nb /\ proper_view g w /\ w_seen w = [] /\ holds_survey nn P g w d /\ nonneg (w_probs w) /\
  w_vols w = None /\ w_emulated w = Some ps /\
  rmap fst (do m <- new_sampling_error nn argsort delaunay P euclidean d ; srun nn P [SAsk Contours] m) = Ok [(us, ls)] /\
  nth_error (w_probs w) i = Some p /\ nth_error us i = Some (Fin u) /\ between (sample_events nn g) nb (map (nn (g_samples g)) ps) t /\
  (u < region_probability (w_probs w) (combine (map (fun x => event_of nn g x =? i) ps) t) - p)%Qc.
Proof.
  pose (bs := map (fun ip => event_bounds (sample_events near g4) nb4 (volumes_now near g4 w4) [] (fst ip) (snd ip)) (combine (seq 0 2) ps4)).
  exists near, sorting, no_simplices, 2, g4, nb4, w4, d4, 0, (q_ 1 10), (map fst bs), (map snd bs), (q_ 1 10), (map pt xs4), t4.
  split; [exact near_bound|]. split; [lia|]. split; [exact g4_proper|]. split; [exact nb4_neighbours|]. split; [exact w4_proper|]. split; [reflexivity|]. split; [apply d4_holds|]. split; [exact w4_nonneg|]. do 2 (split; [reflexivity|]).
  split. { rewrite (replies_lemma near sorting no_simplices 2 ltac:(lia) near_bound g4 g4_proper nb4 nb4_neighbours euclidean d4 w4 (prob_ ys_ ps4) [SAsk Contours] eq_refl w4_proper eq_refl (d4_holds 2)).
    - reflexivity.
    - constructor; [exact I|constructor].
    - reflexivity.
    - intros (p & [H|[]]). discriminate H.
    - right. intros e ps [H|[]]. discriminate H. }
  split; [reflexivity|]. split; [|split; [exact t4_between|vm_compute; reflexivity]].
  unfold bs. cbn [combine seq ps4 map nth_error fst snd]. f_equal. 
Qed.
