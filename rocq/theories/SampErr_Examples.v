(** Cases on the line and in the plane, and changes a user makes. *)
From Coq Require Import List Arith Bool QArith Qcanon Lia Permutation.
From Verif Require Import Err Num Ext NumPy Lists SampleSet_Model SampleSet_Spec Volume_Spec Disc_Model Disc_Spec Disc_Examples Workflow_Model Error_Model Error_Spec
  ChooseQoIs_Spec ChooseQoIs_Examples ErrorDisc_Model ErrorDisc_Spec ErrorDisc_Proofs ErrorDisc_Examples SampErr_Model SampErr_Spec SampErr_Proofs SampErr2_Proofs.
Import ListNotations.
Local Open Scope nat_scope.
Local Open Scope err_scope.

(** A stable argsort. *)
Definition sorting (l : list Qc) : list nat := isort (map Fin l).
Lemma sorting_ok l : is_argsort l (sorting l).
Proof.
  destruct (isort_good (map Fin l)) as [A B]. rewrite map_length in A. split; [exact A|]. intros i j a b L Ha Hb.
  assert (La : a < length l) by (apply nth_error_In in Ha; apply (Permutation_in _ A), in_seq in Ha; lia).
  assert (Lb : b < length l) by (apply nth_error_In in Hb; apply (Permutation_in _ A), in_seq in Hb; lia).
  specialize (B i j a b (Fin (nth a l 0%Qc)) (Fin (nth b l 0%Qc)) L Ha Hb).
  rewrite !nth_error_map, (nth_error_nth' l 0%Qc La), (nth_error_nth' l 0%Qc Lb) in B. specialize (B eq_refl eq_refl). cbn in B. apply qleb_true. exact B.
Qed.
Definition no_simplices (l : list cell) : result (list (list nat)) := Raise PyValueError.

(** The samples 0, 1, 2 of ErrorDisc_Examples: events 0, 0, 1. *)
Definition g_ : survey := mk_survey 1 1 (map pt xs_) (map pt zs_) (map pt ys_).
Definition w_ (v em : option (list Qc)) : view := mk_view ps_ (option_map (map pt) em) v [].
Definition nb_ (p q : nat) : bool := ((p =? S q) || (q =? S p)) && (p <? 3) && (q <? 3).
Lemma g_proper : proper_survey g_.
Proof. split; [discriminate|]. split; [discriminate|reflexivity]. Qed.
Lemma nonneg_list (l : list Qc) : forallb (qleb 0) l = true -> forall x, In x l -> (0 <= x)%Qc.
Proof. intros H x Hx. apply qleb_true. eapply forallb_forall; eassumption. Qed.
Lemma w_proper v em : match v with Some v => forallb (qleb 0) v = true | None => True end -> em <> Some [] -> proper_view g_ (w_ v em).
Proof.
  intros H N. split; [reflexivity|]. split; [destruct em as [[|a l]|]; cbn; congruence|]. cbn. intros u x E. destruct v as [v|]; [|discriminate]. injection E as <-. apply nonneg_list. exact H.
Qed.
Lemma w_holds P v em : match v with Some v => length v = 3 | None => True end -> holds_survey near P g_ (w_ v em) (d_ v em).
Proof.
  intros Lv. split; [|split; [|split; [|split]]].
  - eexists. split; [reflexivity|]. split; [|destruct v; reflexivity]. apply eset_points; destruct v; try reflexivity; [apply only_length; cbn; rewrite map_length; exact Lv|discriminate].
  - eexists. split; [reflexivity|]. apply eset_points; [reflexivity|]. apply only_length. reflexivity.
  - eexists. split; [reflexivity|]. split; [|reflexivity]. apply eset_points; [reflexivity|]. apply only_length. reflexivity.
  - destruct em as [l|]; [|exact I]. cbn. apply eset_points; [reflexivity|discriminate].
  - split; discriminate.
Qed.
Lemma xs_lt a b : a < 3 -> b < 3 -> (nth a xs_ 0 < nth b xs_ 0)%Qc <-> a < b.
Proof.
  intros La Lb. destruct a as [|[|[|a]]], b as [|[|[|b]]]; try lia; cbn [nth xs_]; split; intros H; try (vm_compute in H; discriminate); try lia; vm_compute; reflexivity.
Qed.
Lemma nb_adjacent p q : nb_ p q = true <-> adjacent xs_ p q.
Proof.
  unfold nb_. rewrite !andb_true_iff, orb_true_iff, !Nat.eqb_eq, !Nat.ltb_lt. split.
  - intros [[H Lp] Lq]. split; [lia|]. exists (nth p xs_ 0%Qc), (nth q xs_ 0%Qc). split; [apply nth_error_nth'; exact Lp|]. split; [apply nth_error_nth'; exact Lq|].
    intros c Hc. destruct (In_nth xs_ c 0%Qc Hc) as (k & Lk & <-). change (length xs_) with 3 in Lk. rewrite !xs_lt by assumption. lia.
  - intros (N & a & b & Ha & Hb & H). assert (Lp : p < 3) by (change 3 with (length xs_); apply nth_error_Some; congruence). assert (Lq : q < 3) by (change 3 with (length xs_); apply nth_error_Some; congruence).
    split; [split|]; [|exact Lp|exact Lq]. apply (nth_error_nth _ _ 0%Qc) in Ha, Hb. subst a b. destruct (H (nth 1 xs_ 0%Qc)) as [H1 H2]; [right; left; reflexivity|]. rewrite !xs_lt in H1, H2 by lia. lia.
Qed.
Lemma nb_neighbours : neighbours_are sorting no_simplices g_ nb_.
Proof.
  left. split; [reflexivity|]. exists xs_. split; [reflexivity|]. split; [|split; [apply sorting_ok|split]].
  - unfold xs_. repeat constructor; simpl; intro H; repeat destruct H as [H|H]; try easy; apply (f_equal this) in H; vm_compute in H; discriminate.
  - assert (E : sorting xs_ = [0; 1; 2]) by (vm_compute; reflexivity). rewrite E. intros [|[|[|i]]] j H; cbn in H; try (injection H as <-; reflexivity); destruct i; discriminate.
  - exact nb_adjacent.
Qed.
Lemma about_fits P em : proper_sevent P g_ (SAsk (about em)).
Proof. exact (about_proper P em None). Qed.

(** Four samples in the plane, two triangles, events 0, 0, 1, 1. *)
Definition square : list cell := [row [0; 0]; row [1; 0]; row [0; 1]; row [1; 1]]%Qc.
Definition g_square : survey := mk_survey 2 1 square (map pt [0; 0; 1; 1]%Qc) (map pt ys_).
Definition two_triangles (l : list cell) : result (list (list nat)) := Ok [[0; 1; 2]; [1; 2; 3]].
Definition nb_square (p q : nat) : bool := (p <? 4) && (q <? 4) && negb (p =? q) && negb ((p + q) =? 3) || ((p =? 1) && (q =? 2)) || ((p =? 2) && (q =? 1)).
Lemma square_neighbours : neighbours_are sorting two_triangles g_square nb_square.
Proof.
  right. split; [discriminate|]. eexists. split; [reflexivity|]. split.
  - intros s [<-|[<-|[]]]; (split; [repeat constructor; cbn; lia|]); intros k Hk; cbn in *; lia.
  - intros p q. split.
    + intros H. destruct p as [|[|[|[|p]]]], q as [|[|[|[|q]]]]; try discriminate H;
        first [exists [0; 1; 2]; cbn; split; [tauto|]; split; [tauto|]; split; [tauto|lia]|exists [1; 2; 3]; cbn; split; [tauto|]; split; [tauto|]; split; [tauto|lia]].
    + intros (s & Hs & Hp & Hq & N). destruct Hs as [<-|[<-|[]]]; cbn in Hp, Hq;
        repeat (destruct Hp as [<-|Hp]; [repeat (destruct Hq as [<-|Hq]; [first [reflexivity|contradiction]|]); contradiction|]); contradiction.
Qed.

Definition show_b (r : result (list (list xnum * list xnum))) : option (list (list (option Q) * list (option Q))) :=
  match r with Ok l => Some (map (fun ul => (map show_x (fst ul), map show_x (snd ul))) l) | Raise _ => None end.
Lemma shown_b r r' : show_b r <> show_b r' -> r <> r'.
Proof. intros N ->. apply N. reflexivity. Qed.

(** *** The samples in another order *)
Definition xs_other : list Qc := [1; q_ 2 1; 0]%Qc.
Definition zs_other : list Qc := [q_ 3 4; q_ 2 1; 0]%Qc.
Definition vs_other : list Qc := [quarter; quarter; half].
Definition d_other : disc cell :=
  mk_disc (Some (eset xs_other (only Volumes (vec_arr vs_other)))) (Some (eset zs_other none_)) (Some (prob_ ys_ ps_)) None None None None None None None None None.
Definition g_other : survey := mk_survey 1 1 (map pt xs_other) (map pt zs_other) (map pt ys_).
Lemma other_holds P : holds_survey near P g_other (w_ (Some vs_other) None) d_other.
Proof.
  split; [|split; [|split; [|split]]].
  - eexists. split; [reflexivity|]. split; [|reflexivity]. apply eset_points; [reflexivity|]. apply only_length. reflexivity.
  - eexists. split; [reflexivity|]. apply eset_points; [reflexivity|discriminate].
  - eexists. split; [reflexivity|]. split; [|reflexivity]. apply eset_points; [reflexivity|]. apply only_length. reflexivity.
  - exact I.
  - split; discriminate.
Qed.
Lemma order_refuted_lemma : exists nn argsort delaunay P g w d g' w' d',
  (forall l x, l <> [] -> nn l x < length l) /\ (forall l, is_argsort l (argsort l)) /\
  holds_survey nn P g w d /\ holds_survey nn P g' w' d' /\ g_cells g = g_cells g' /\ w_probs w = w_probs w' /\
  (exists v v', w_vols w = Some v /\ w_vols w' = Some v' /\
     Permutation (combine (combine (g_samples g) (g_outputs g)) v) (combine (combine (g_samples g') (g_outputs g')) v')) /\
  rmap fst (do m <- new_sampling_error nn argsort delaunay P euclidean d ; srun nn P [SAsk Contours] m) <>
  rmap fst (do m <- new_sampling_error nn argsort delaunay P euclidean d' ; srun nn P [SAsk Contours] m).
Proof.
  exists near, sorting, no_simplices, 2, g_, (w_ (Some vs_) None), (d_ (Some vs_) None), g_other, (w_ (Some vs_other) None), d_other.
  split; [exact near_bound|]. split; [exact sorting_ok|]. split; [apply w_holds; reflexivity|]. split; [apply other_holds|]. do 2 (split; [reflexivity|]).
  split; [|apply shown_b; vm_compute; discriminate]. exists vs_, vs_other. do 2 (split; [reflexivity|]). cbn [g_samples g_outputs g_ g_other xs_ zs_ xs_other zs_other vs_ vs_other map combine].
  eapply Permutation_trans; [apply perm_swap|]. apply perm_skip. apply perm_swap.
Qed.

(** *** Stale data *)
Definition s0_ : samp_err := mk_serr (d_ None None) 0 (empty_dict, empty_dict).
Definition sbuilt (d : disc cell) : samp_err := get s0_ (new_sampling_error near sorting no_simplices 2 euclidean d).
Definition sm1_ : samp_err := get s0_ (do m <- new_sampling_error near sorting no_simplices 2 euclidean (d_ (Some vs_) None) ; rmap snd (srun near 2 [SAsk (about None)] m)).
Definition smoved_ : list (list xnum * list xnum) * samp_err := get ([], s0_) (srun near 2 [SAsk (about None)] (on_disc (set_vols vs2_) sm1_)).
Lemma skeeps_refuted_lemma : exists nn argsort delaunay P d v q m1 m2 a,
  (do m <- new_sampling_error nn argsort delaunay P euclidean d ; rmap snd (srun nn P [SAsk q] m)) = Ok m1 /\
  srun nn P [SAsk q] (on_disc (set_vols v) m1) = Ok (a, m2) /\
  vols_of (set_vols v (se_disc m1)) = Some v /\ vols_of (se_disc m2) <> Some v.
Proof.
  exists near, sorting, no_simplices, 2, (d_ (Some vs_) None), vs2_, (about None), sm1_, (snd smoved_), (fst smoved_). split; [apply get_ok; vm_compute; reflexivity|].
  split; [rewrite <- surjective_pairing; apply get_ok; vm_compute; reflexivity|]. split; [vm_compute; reflexivity|].
  intros E. apply (f_equal (option_map (map this))) in E. vm_compute in E. discriminate.
Qed.
(** A new output probability set. *)
Lemma new_cells nn P g w d pr ys p : 0 < P -> d_eout d = None -> holds_survey nn P g w d -> points_are P (g_out g) pr ys -> glob pr Probabilities = Some (vec_arr p) ->
  exists d1, done (set_probability nn P pr d) = Ok d1 /\ io d1 = io d /\
  holds_survey nn P (mk_survey (g_in g) (g_out g) (g_samples g) (g_outputs g) ys) (mk_view p (w_emulated w) (w_vols w) (w_seen w)) (with_io None None d1).
Proof.
  intros HP Ee (H1 & (out & Eo & Ho) & _ & H4 & _ & H6) Hp Gp. unfold set_probability, same_dim. rewrite Eo, Ee. rewrite (proj1 (proj2 Ho)), (proj1 (proj2 Hp)), Nat.eqb_refl. cbn [andb]. cbv zeta.
  assert (X : holds_survey nn P (mk_survey (g_in g) (g_out g) (g_samples g) (g_outputs g) ys) (mk_view p (w_emulated w) (w_vols w) (w_seen w)) (with_io None None (with_prob (Some pr) d))).
  { split; [exact H1|]. split; [exists out; auto|]. split; [exists pr; auto|]. split; [exact H4|]. split; [discriminate|exact H6]. }
  destruct (loc out Values) as [bs|] eqn:L; [|exists (with_prob (Some pr) d); split; [reflexivity|split; [reflexivity|exact X]]].
  rewrite (proj2 (proj2 Hp)).
  destruct (io_points P HP nn false (g_out g) out (g_outputs g) pr ys (with_prob (Some pr) d) Eo Ho eq_refl Hp) as (out1 & pr1 & E & Ho1 & _ & Hp1 & Sp & _). cbv iota in E. rewrite E. eexists. split; [reflexivity|]. split; [reflexivity|].
  split; [exact H1|]. split; [exists out1; auto|]. split; [exists pr1; split; [reflexivity|]; split; [exact Hp1|]; rewrite (proj2 Sp) by discriminate; exact Gp|]. split; [exact H4|]. split; [discriminate|exact H6].
Qed.
(** the cells in the other order *)
Definition g_back : survey := mk_survey 1 1 (map pt xs_) (map pt zs_) (map pt (rev ys_)).
Definition w_back : view := mk_view (rev ps_) None (Some vs_) [].
Definition d_sback : disc cell := fst (set_probability near 2 prob_back (se_disc (sbuilt (d_ (Some vs_) None)))).
Lemma sprobability_refuted_lemma : exists nn argsort delaunay P d pr m d1 g nb w,
  new_sampling_error nn argsort delaunay P euclidean d = Ok m /\ done (set_probability nn P pr (se_disc m)) = Ok d1 /\
  neighbours_are argsort delaunay g nb /\ holds_survey nn P g w (with_io None None d1) /\
  rmap fst (srun nn P [SAsk Contours] (on_disc (fun _ => d1) m)) <> replies nn g nb w [SAsk Contours] /\
  rmap fst (do m' <- new_sampling_error nn argsort delaunay P euclidean d1 ; srun nn P [SAsk Contours] m') <> replies nn g nb w [SAsk Contours].
Proof.
  destruct (new_inv near sorting no_simplices 2 (le_S _ _ (le_n 1)) g_ g_proper nb_ nb_neighbours euclidean (w_ (Some vs_) None) (d_ (Some vs_) None) eq_refl eq_refl (w_holds 2 (Some vs_) None eq_refl)) as (nei & m & E & _ & (HH & _) & _).
  assert (Em : m = sbuilt (d_ (Some vs_) None)) by (unfold sbuilt; rewrite E; reflexivity). rewrite Em in E, HH.
  assert (Hp : points_are 2 (g_out g_) prob_back (map pt (rev ys_))) by (apply eset_points; [reflexivity|apply only_length; reflexivity]).
  destruct (new_cells near 2 g_ (w_ (Some vs_) None) (se_disc (sbuilt (d_ (Some vs_) None))) prob_back _ (rev ps_) (le_S _ _ (le_n 1)) ltac:(vm_compute; reflexivity) HH Hp eq_refl) as (d1 & Ed & _ & H1).
  assert (E1 : d1 = d_sback) by (unfold d_sback; revert Ed; unfold done; destruct (set_probability near 2 prob_back _) as [x o]; cbn [snd fst]; destruct o; congruence). subst d1.
  exists near, sorting, no_simplices, 2, (d_ (Some vs_) None), prob_back, (sbuilt (d_ (Some vs_) None)), d_sback, g_back, nb_, w_back.
  split; [exact E|]. split; [exact Ed|]. split; [exact nb_neighbours|]. split; [exact H1|]. split; apply shown_b; vm_compute; discriminate.
Qed.

(** A new emulated set. *)
Definition one_zero : list Qc := [1; 0]%Qc.
Definition d_sure (v em : option (list Qc)) : disc cell :=
  mk_disc (d_in (d_ v em)) (d_out (d_ v em)) (Some (prob_ ys_ one_zero)) (d_ein (d_ v em)) None None None None None None None None.
Definition w_sure (v em : option (list Qc)) : view := mk_view one_zero (option_map (map pt) em) v [].
Lemma sure_holds P v em : match v with Some v => length v = 3 | None => True end -> holds_survey near P g_ (w_sure v em) (d_sure v em).
Proof.
  intros Lv. destruct (w_holds P v em Lv) as (H1 & H2 & _ & H4 & _). split; [exact H1|]. split; [exact H2|]. split; [|split; [exact H4|split; discriminate]].
  eexists. split; [reflexivity|]. split; [|reflexivity]. apply eset_points; [reflexivity|]. apply only_length. reflexivity.
Qed.
Lemma with_pointer nn P g w d ps : 0 < P -> w_emulated w = Some ps -> holds_survey nn P g w d -> exists d1, set_ii_ptr nn P true d = Ok d1 /\ holds_survey nn P g w d1 /\ ii d1 = Some (map (nn (g_samples g)) ps).
Proof.
  intros HP Ew ((inp & Ei & Hi & Gv) & H2 & H3 & H4 & H5 & _). unfold emulated_are in H4. rewrite Ew in H4. destruct (d_ein d) as [em|] eqn:Ee; [|contradiction].
  destruct (ii_points P HP nn true (g_in g) em ps inp (g_samples g) d Ee H4 Ei Hi) as (em1 & inp1 & E & He1 & _ & Hi1 & S1 & _). cbv iota in E. eexists. split; [exact E|]. split; [|reflexivity].
  split; [exists inp1; split; [reflexivity|]; split; [exact Hi1|]; rewrite (proj2 S1) by discriminate; exact Gv|]. split; [exact H2|]. split; [exact H3|]. split; [unfold emulated_are; rewrite Ew; exact He1|]. split; [exact H5|].
  intros l _. exists ps. split; [exact Ew|reflexivity].
Qed.
Definition emu_new : list Qc := [0; 1; 1; 1; q_ 2 1]%Qc.
Definition d_pointer : disc cell := get (d_sure None None) (set_ii_ptr near 2 true (d_sure None (Some emu_))).
Lemma semulated_refuted_lemma : exists nn argsort delaunay P g nb w d e ps q,
  neighbours_are argsort delaunay g nb /\ proper_survey g /\ proper_view g w /\ holds_survey nn P g w d /\ proper_sevent P g (SEmulated e ps) /\ proper_sevent P g (SAsk q) /\
  rmap fst (do m <- new_sampling_error nn argsort delaunay P euclidean d ; srun nn P [SEmulated e ps; SAsk q] m) <> replies nn g nb w [SEmulated e ps; SAsk q].
Proof.
  destruct (with_pointer near 2 g_ (w_sure None (Some emu_)) (d_sure None (Some emu_)) (map pt emu_) (le_S _ _ (le_n 1)) eq_refl (sure_holds 2 None (Some emu_) I)) as (d1 & E & H & _).
  assert (Ed : d1 = d_pointer) by (unfold d_pointer; rewrite E; reflexivity). subst d1.
  exists near, sorting, no_simplices, 2, g_, nb_, (w_sure None (Some emu_)), d_pointer, (eset emu_new none_), (map pt emu_new), (about None).
  split; [exact nb_neighbours|]. split; [exact g_proper|]. split; [split; [reflexivity|]; split; [discriminate|]; discriminate|]. split; [exact H|].
  split; [split; [apply eset_points; [reflexivity|discriminate]|discriminate]|]. split; [apply about_fits|]. apply shown_b. vm_compute. discriminate.
Qed.

(** Cells without emulated points. *)
Definition emu_far : list Qc := [q_ 2 1; q_ 3 1].
Lemma bracket_refuted_lemma : exists nn argsort delaunay P g nb w d us ls i u l p,
  (forall l x, l <> [] -> nn l x < length l) /\ proper_survey g /\ neighbours_are argsort delaunay g nb /\ proper_view g w /\ holds_survey nn P g w d /\
  rmap fst (do m <- new_sampling_error nn argsort delaunay P euclidean d ; srun nn P [SAsk Contours] m) = Ok [(us, ls)] /\
  nth_error us i = Some (Fin u) /\ nth_error ls i = Some (Fin l) /\ nth_error (w_probs w) i = Some p /\ (0 < p)%Qc /\ u = (- p)%Qc /\ l = (- p)%Qc.
Proof.
  exists near, sorting, no_simplices, 2, g_, nb_, (w_ None (Some emu_far)), (d_ None (Some emu_far)).
  pose (r := event_bounds (sample_events near g_) nb_ (volumes_now near g_ (w_ None (Some emu_far))) []).
  exists [fst (r 0 (q_ 3 4)); fst (r 1 quarter)], [snd (r 0 (q_ 3 4)); snd (r 1 quarter)], 0, (- q_ 3 4)%Qc, (- q_ 3 4)%Qc, (q_ 3 4).
  assert (PV : proper_view g_ (w_ None (Some emu_far))) by (apply w_proper; [exact I|discriminate]). assert (HH := w_holds 2 None (Some emu_far) I).
  split; [exact near_bound|]. split; [exact g_proper|]. split; [exact nb_neighbours|]. split; [exact PV|]. split; [exact HH|]. split.
  - rewrite (replies_lemma near sorting no_simplices 2 (le_S _ _ (le_n 1)) near_bound g_ g_proper nb_ nb_neighbours euclidean _ _ (prob_ ys_ ps_) [SAsk Contours] ltac:(vm_compute; reflexivity) PV eq_refl HH).
    + reflexivity.
    + constructor; [exact I|constructor].
    + reflexivity.
    + reflexivity.
    + left. reflexivity.
  - split; [vm_compute; reflexivity|]. split; [vm_compute; reflexivity|]. split; [reflexivity|]. split; [vm_compute; reflexivity|]. split; reflexivity.
Qed.
