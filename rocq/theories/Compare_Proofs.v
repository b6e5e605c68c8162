From Coq Require Import List Arith Lia Bool QArith Qcanon.
From Verif Require Import Err Num Ext Show Lists Inverse_Model Inverse_Spec Inverse2_Proofs Inverse3_Proofs Compare_Model Compare_Spec.
Import ListNotations.
Local Open Scope nat_scope.

Lemma fold_qsum l : fold_right Qcplus 0%Qc l = qsum l.
Proof. induction l as [|x l IH]; [reflexivity|]. simpl. rewrite IH. reflexivity. Qed.
Lemma asum_some l : asum (map Some l) = Some (qsum l).
Proof. induction l as [|x l IH]; [reflexivity|]. cbn [map asum fold_right]. unfold asum in IH. rewrite IH. reflexivity. Qed.
Lemma tv_some {X} fac (f g : X -> Qc) v : tv fac (map (fun x => Some (f x)) v) (map (fun x => Some (g x)) v) = Some (fac * half_l1 f g v)%Qc.
Proof.
  unfold tv.
  assert (E : map (fun e => match e with (Some a, Some b) => Some (Q2Qc (1 # 2) * qabs (a - b))%Qc | _ => None end) (combine (map (fun x => Some (f x)) v) (map (fun x => Some (g x)) v))
            = map Some (map (fun x => (Q2Qc (1 # 2) * qabs (f x - g x))%Qc) v)).
  { induction v as [|x v IH]; [reflexivity|]. cbn [map combine]. rewrite IH. reflexivity. }
  rewrite E, asum_some, qsum_map_mul. reflexivity.
Qed.
Lemma normalized_some {X} (f : X -> Qc) v : sum_at f v <> 0%Qc ->
  normalized (map (fun x => Some (f x)) v) = map (fun x => Some (f x / sum_at f v)%Qc) v.
Proof.
  intro H. assert (A : asum (map (fun x => Some (f x)) v) = Some (sum_at f v)) by (rewrite <- (map_map f Some); apply asum_some).
  unfold normalized. rewrite A, map_map. apply map_ext. intro x. destruct (qeqb (sum_at f v) 0) eqn:E; [apply qeqb_true in E; contradiction | reflexivity].
Qed.
Lemma normalized_length a : length (normalized a) = length a.
Proof. apply map_length. Qed.
Lemma asum_all a : (exists l, a = map Some l) \/ asum a = None.
Proof.
  induction a as [|[x|] a IH]; [left; exists []; reflexivity | | right; reflexivity].
  destruct IH as [(l & ->)|IH]; [left; exists (x :: l); reflexivity|]. right. cbn [asum fold_right]. unfold asum in IH. rewrite IH. reflexivity.
Qed.
Lemma normalized_none a : asum a = None -> normalized a = map (fun _ => None) a.
Proof. intro H. unfold normalized. rewrite H. apply map_ext. intros [x|]; reflexivity. Qed.
Lemma normalized_all_none a : (forall x, In x a -> x = None) -> normalized a = a.
Proof.
  intro H. unfold normalized. transitivity (map (fun x : option Qc => x) a); [|apply map_id]. apply map_ext_in. intros x Hx. rewrite (H x Hx). reflexivity.
Qed.
Lemma normalized_idem a : normalized (normalized a) = normalized a.
Proof.
  destruct (asum_all a) as [(l & ->)|H].
  - destruct (qeqb (qsum l) 0) eqn:E.
    + apply normalized_all_none. intros x Hx. unfold normalized in Hx. rewrite asum_some, map_map in Hx. apply in_map_iff in Hx. destruct Hx as (y & <- & _). rewrite E. reflexivity.
    + apply qeqb_false in E. pose proof (normalized_some (fun x => x) l) as N. unfold sum_at in N. rewrite map_id, fold_qsum in N. specialize (N E). change (normalized (map Some l) = map (fun x => Some (x / qsum l)%Qc) l) in N. rewrite N.
      pose proof (normalized_some (fun x => x / qsum l)%Qc l) as N2. unfold sum_at in N2. rewrite fold_qsum, qsum_map_div, map_id in N2. rewrite N2.
      * assert (SS : (qsum l / qsum l = 1)%Qc) by (field; exact E). rewrite SS. apply map_ext. intro x. f_equal. field. split; [exact E | discriminate].
      * intro C. assert (SS : (qsum l / qsum l = 1)%Qc) by (field; exact E). rewrite SS in C. discriminate.
  - rewrite (normalized_none a H). apply normalized_all_none. intros x Hx. apply in_map_iff in Hx. destruct Hx as (y & <- & _). reflexivity.
Qed.

(** ** Total variation *)
Lemma half_l1_eq {X} (f g : X -> Qc) v : half_l1 f g v = (Q2Qc (1 # 2) * qsum (map (fun x => qabs (f x - g x)) v))%Qc.
Proof. reflexivity. Qed.
Lemma half_l1_nonneg {X} (f g : X -> Qc) v : (0 <= half_l1 f g v)%Qc.
Proof.
  rewrite half_l1_eq. apply qc_mul_nonneg; [discriminate|]. apply qsum_nonneg. intros y Hy. apply in_map_iff in Hy. destruct Hy as (x & <- & _). apply qabs_nonneg.
Qed.
Lemma half_l1_sym {X} (f g : X -> Qc) v : half_l1 f g v = half_l1 g f v.
Proof. rewrite !half_l1_eq. f_equal. f_equal. apply map_ext. intro x. replace (f x - g x)%Qc with (- (g x - f x))%Qc by ring. apply qabs_opp. Qed.
Lemma half_l1_tri {X} (f g h : X -> Qc) v : (half_l1 f h v <= half_l1 f g v + half_l1 g h v)%Qc.
Proof.
  rewrite !half_l1_eq, <- Qcmult_plus_distr_r, <- qsum_map_add. apply qc_mul_le_l; [discriminate|]. apply qsum_map_le. intros x _.
  replace (f x - h x)%Qc with ((f x - g x) + (g x - h x))%Qc by ring. apply qabs_triangle.
Qed.
Lemma half_l1_zero {X} (f g : X -> Qc) v : half_l1 f g v = 0%Qc <-> forall x, In x v -> f x = g x.
Proof.
  rewrite half_l1_eq. split; intro H.
  - intros x Hx. assert (Z : qsum (map (fun x => qabs (f x - g x)) v) = 0%Qc) by (apply Qcmult_integral in H; destruct H as [H|H]; [discriminate | exact H]).
    assert (Q : qabs (f x - g x) = 0%Qc).
    { apply (qsum_zero_nonneg (map (fun x => qabs (f x - g x)) v)); [|exact Z | apply in_map_iff; exists x; split; [reflexivity | exact Hx]].
      intros y Hy. apply in_map_iff in Hy. destruct Hy as (z & <- & _). apply qabs_nonneg. }
    apply qabs_zero in Q. replace (f x) with (f x - g x + g x)%Qc by ring. rewrite Q. ring.
  - rewrite qsum_map_zero; [ring|]. intros x Hx. rewrite (H x Hx). replace (g x - g x)%Qc with 0%Qc by ring. reflexivity.
Qed.
Lemma tv_fresh {X} (f g : X -> Qc) v : v <> [] ->
  exists s, distance f g tv false (set_compare v new_cmp) = Ok (Some (1 / qn (length v) * half_l1 f g v)%Qc, s).
Proof.
  intro N. unfold distance, prepare, set_compare, new_cmp. cbn [vals pdfs]. unfold evaluated. rewrite map_length.
  destruct v as [|x v]; [congruence|]. cbn [length Nat.eqb]. change (S (length v)) with (length (x :: v)). cbn [bind]. rewrite tv_some. eexists. reflexivity.
Qed.
Lemma tv_fresh_norm {X} (f g : X -> Qc) v : sum_at f v <> 0%Qc -> sum_at g v <> 0%Qc ->
  exists s, distance f g tv true (set_compare v new_cmp) = Ok (Some (half_l1 (fun x => f x / sum_at f v)%Qc (fun x => g x / sum_at g v)%Qc v), s).
Proof.
  intros Hf Hg. unfold distance, prepare, set_compare, new_cmp. cbn [vals pdfs]. unfold evaluated. cbn [bind].
  rewrite (normalized_some f v Hf), (normalized_some g v Hg).
  rewrite (tv_some 1%Qc (fun x => f x / sum_at f v)%Qc (fun x => g x / sum_at g v)%Qc), Qcmult_1_l. eexists. reflexivity.
Qed.
Lemma tv_metric_lemma : forall (X : Type) (f g h : X -> Qc) v, v <> [] ->
  exists dfg dgf dgh dfh s1 s2 s3 s4,
    distance f g tv false (set_compare v new_cmp) = Ok (Some dfg, s1) /\ distance g f tv false (set_compare v new_cmp) = Ok (Some dgf, s2) /\
    distance g h tv false (set_compare v new_cmp) = Ok (Some dgh, s3) /\ distance f h tv false (set_compare v new_cmp) = Ok (Some dfh, s4) /\
    (0 <= dfg)%Qc /\ dfg = dgf /\ (dfg = 0%Qc <-> forall x, In x v -> f x = g x) /\ (dfh <= dfg + dgh)%Qc.
Proof.
  intros X f g h v N. destruct (tv_fresh f g v N) as [s1 E1]. destruct (tv_fresh g f v N) as [s2 E2]. destruct (tv_fresh g h v N) as [s3 E3]. destruct (tv_fresh f h v N) as [s4 E4].
  assert (Pn : (0 < 1 / qn (length v))%Qc) by (apply qc_div_pos; [reflexivity | apply qn_pos; destruct v; [congruence | simpl; lia]]).
  set (w := (1 / qn (length v))%Qc) in *. clearbody w.
  exists (w * half_l1 f g v)%Qc, (w * half_l1 g f v)%Qc, (w * half_l1 g h v)%Qc, (w * half_l1 f h v)%Qc, s1, s2, s3, s4.
  do 4 (split; [assumption|]). split; [apply qc_mul_nonneg; [apply Qclt_le_weak, Pn | apply half_l1_nonneg]|].
  split; [rewrite half_l1_sym; reflexivity|]. split.
  - rewrite <- half_l1_zero. split; intro H; [apply Qcmult_integral in H; destruct H as [H|H]; [rewrite H in Pn; discriminate | exact H] | rewrite H; ring].
  - rewrite <- Qcmult_plus_distr_r. apply qc_mul_le_l; [apply Qclt_le_weak, Pn | apply half_l1_tri].
Qed.
Lemma norm_sum_one {X} (f : X -> Qc) v : sum_at f v <> 0%Qc -> qsum (map (fun x => f x / sum_at f v)%Qc v) = 1%Qc.
Proof. intro H. rewrite qsum_map_div. change (qsum (map f v)) with (sum_at f v). field. exact H. Qed.
Lemma tv_normalized_lemma : forall (X : Type) (f g h : X -> Qc) v,
  (forall x, In x v -> (0 <= f x)%Qc /\ (0 <= g x)%Qc /\ (0 <= h x)%Qc) -> (0 < sum_at f v)%Qc -> (0 < sum_at g v)%Qc -> (0 < sum_at h v)%Qc ->
  exists dfg dgf dgh dfh s1 s2 s3 s4,
    distance f g tv true (set_compare v new_cmp) = Ok (Some dfg, s1) /\ distance g f tv true (set_compare v new_cmp) = Ok (Some dgf, s2) /\
    distance g h tv true (set_compare v new_cmp) = Ok (Some dgh, s3) /\ distance f h tv true (set_compare v new_cmp) = Ok (Some dfh, s4) /\
    (0 <= dfg)%Qc /\ (dfg <= 1)%Qc /\ dfg = dgf /\ (dfg = 0%Qc <-> forall x, In x v -> (f x / sum_at f v = g x / sum_at g v)%Qc) /\ (dfh <= dfg + dgh)%Qc.
Proof.
  intros X f g h v NN Pf Pg Ph. pose proof (Qclt_neq0 _ Pf) as Nf. pose proof (Qclt_neq0 _ Pg) as Ng. pose proof (Qclt_neq0 _ Ph) as Nh.
  destruct (tv_fresh_norm f g v Nf Ng) as [s1 E1]. destruct (tv_fresh_norm g f v Ng Nf) as [s2 E2]. destruct (tv_fresh_norm g h v Ng Nh) as [s3 E3]. destruct (tv_fresh_norm f h v Nf Nh) as [s4 E4].
  eexists _, _, _, _, s1, s2, s3, s4. do 4 (split; [eassumption|]). split; [apply half_l1_nonneg|]. split; [|split; [apply half_l1_sym | split; [apply half_l1_zero | apply half_l1_tri]]].
  rewrite half_l1_eq. eapply Qcle_trans.
  - apply qc_mul_le_l; [discriminate|]. apply (qsum_map_le _ (fun x => f x / sum_at f v + g x / sum_at g v)%Qc). intros x Hx. destruct (NN x Hx) as (A & B & _).
    assert (A' : (0 <= f x / sum_at f v)%Qc) by (apply qc_div_nonneg; [exact A | exact Pf]). assert (B' : (0 <= g x / sum_at g v)%Qc) by (apply qc_div_nonneg; [exact B | exact Pg]).
    eapply Qcle_trans; [unfold Qcminus; apply qabs_triangle|]. rewrite qabs_opp, !qabs_pos_eq by assumption. apply Qcle_refl.
  - rewrite qsum_map_add, !norm_sum_one by assumption. apply eq_le. qc_compute.
Qed.

(** ** Histories *)
Lemma run_plain {X V} (f g : X -> Qc) (h : list (call X V)) v : v <> [] -> (forall c, In c h -> exists F, c = Dist F false) ->
  forall s, vals s = Some v -> (pdfs s = None \/ pdfs s = Some (evaluated f g v)) ->
  vals (run f g h s) = Some v /\ (pdfs (run f g h s) = None \/ pdfs (run f g h s) = Some (evaluated f g v)).
Proof.
  intros N. induction h as [|c h IH]; intros H s Hv Hp; [split; assumption|]. cbn [run fold_left]. apply IH; [intros; apply H; right; assumption | |].
  - destruct (H c (or_introl eq_refl)) as [F ->]. unfold run1, distance, prepare. rewrite Hv. destruct Hp as [Hp|Hp]; rewrite Hp; unfold evaluated; rewrite map_length; destruct (length v =? 0); cbn [bind]; try reflexivity; exact Hv.
  - destruct (H c (or_introl eq_refl)) as [F ->]. unfold run1, distance, prepare. rewrite Hv. destruct Hp as [Hp|Hp]; rewrite Hp; unfold evaluated; rewrite map_length; destruct (length v =? 0); cbn [bind pdfs]; auto.
Qed.
Lemma history_plain_lemma : forall (X V : Type) (f g : X -> Qc) (h : list (call X V)) v (F : Qc -> arr -> arr -> V) d s', v <> [] ->
  (forall c, In c h -> exists G, c = Dist G false) ->
  distance f g F false (set_compare v new_cmp) = Ok (d, s') -> exists s2, distance f g F false (run f g h (set_compare v new_cmp)) = Ok (d, s2).
Proof.
  intros X V f g h v F d s' N H E. destruct (run_plain f g h v N H (set_compare v new_cmp) eq_refl (or_introl eq_refl)) as [Hv Hp].
  unfold distance, prepare in *. rewrite Hv. cbn [vals pdfs set_compare new_cmp] in E. destruct Hp as [Hp|Hp]; rewrite Hp; unfold evaluated in *; rewrite map_length in *; destruct (length v =? 0); cbn [bind] in *; try discriminate; injection E as E _; rewrite E; eexists; reflexivity.
Qed.
Lemma run_any {X V} (f g : X -> Qc) (h : list (call X V)) v : (forall c, In c h -> exists F b, c = Dist F b) ->
  forall s, vals s = Some v -> (pdfs s = None \/ exists p q, pdfs s = Some (p, q) /\ normalized p = normalized (fst (evaluated f g v)) /\ normalized q = normalized (snd (evaluated f g v))) ->
  vals (run f g h s) = Some v /\ (pdfs (run f g h s) = None \/ exists p q, pdfs (run f g h s) = Some (p, q) /\ normalized p = normalized (fst (evaluated f g v)) /\ normalized q = normalized (snd (evaluated f g v))).
Proof.
  induction h as [|c h IH]; intros H s Hv Hp; [split; assumption|]. cbn [run fold_left].
  destruct (H c (or_introl eq_refl)) as (F & b & ->).
  assert (Q : vals (run1 f g (Dist F b) s) = Some v /\ (pdfs (run1 f g (Dist F b) s) = None \/ exists p q, pdfs (run1 f g (Dist F b) s) = Some (p, q) /\ normalized p = normalized (fst (evaluated f g v)) /\ normalized q = normalized (snd (evaluated f g v)))).
  { unfold run1, distance, prepare. rewrite Hv. destruct Hp as [Hp|(p & q & Hp & Np & Nq)].
    - rewrite Hp. unfold evaluated. destruct b; [cbn [bind vals pdfs]; split; [reflexivity|]; right; eexists _, _; split; [reflexivity|]; rewrite !normalized_idem; split; reflexivity|].
      destruct (length _ =? 0); cbn [bind vals pdfs]; [split; [exact Hv | left; exact Hp] | split; [reflexivity|]; right; eexists _, _; split; [reflexivity | split; reflexivity]].
    - rewrite Hp. destruct b; [cbn [bind vals pdfs]; split; [reflexivity|]; right; eexists _, _; split; [reflexivity|]; rewrite !normalized_idem; split; assumption|].
      destruct (length _ =? 0); cbn [bind vals pdfs]; [split; [exact Hv | right; exists p, q; split; [exact Hp | split; assumption]] | split; [reflexivity|]; right; eexists _, _; split; [reflexivity | split; assumption]]. }
  apply IH; [intros; apply H; right; assumption | apply Q | apply Q].
Qed.
Lemma history_normalized_lemma : forall (X V : Type) (f g : X -> Qc) (h : list (call X V)) v (F : Qc -> arr -> arr -> V) d s',
  (forall c, In c h -> exists G b, c = Dist G b) ->
  distance f g F true (set_compare v new_cmp) = Ok (d, s') -> exists s2, distance f g F true (run f g h (set_compare v new_cmp)) = Ok (d, s2).
Proof.
  intros X V f g h v F d s' H E. destruct (run_any f g h v H (set_compare v new_cmp) eq_refl (or_introl eq_refl)) as [Hv Hp].
  unfold distance, prepare in *. rewrite Hv. cbn [vals pdfs set_compare new_cmp] in E. unfold evaluated in E. cbn [bind] in E. injection E as E _.
  destruct Hp as [Hp|(p & q & Hp & Np & Nq)]; rewrite Hp; unfold evaluated in *; cbn [bind fst snd] in *; [|rewrite Np, Nq]; rewrite E; eexists; reflexivity.
Qed.
Lemma history_refuted_lemma : forall (X V : Type) (f g : X -> Qc) v (F G : Qc -> arr -> arr -> V), v <> [] ->
  exists s, distance f g F false (run f g [Dist G true] (set_compare v new_cmp))
  = Ok (F (1 / qn (length v))%Qc (normalized (map (fun x => Some (f x)) v)) (normalized (map (fun x => Some (g x)) v)), s).
Proof.
  intros X V f g v F G N. unfold run. cbn [fold_left run1]. unfold distance at 2, prepare, set_compare, new_cmp. cbn [vals pdfs]. unfold evaluated. cbn [bind].
  unfold distance, prepare. cbn [vals pdfs]. rewrite normalized_length, map_length. destruct v as [|x v]; [congruence|]. cbn [length Nat.eqb]. eexists. reflexivity.
Qed.
Lemma stale_points_lemma : forall (X V : Type) (f g : X -> Qc) v w (F G : Qc -> arr -> arr -> V) b n, v <> [] ->
  forall d s, distance f g F n (run f g [Dist G b] (set_compare v new_cmp)) = Ok (d, s) ->
  exists s2, distance f g F n (run f g [Dist G b; Points w] (set_compare v new_cmp)) = Ok (d, s2).
Proof.
  intros X V f g v w F G b n N d s E. unfold run in *. cbn [fold_left] in *.
  set (s1 := run1 f g (Dist G b) (set_compare v new_cmp)) in *.
  assert (Q : exists p, pdfs s1 = Some p).
  { unfold s1, run1, distance, prepare, set_compare, new_cmp. cbn [vals pdfs]. unfold evaluated. rewrite map_length. destruct b; [cbn [bind pdfs]; eexists; reflexivity|].
    destruct v as [|x v]; [congruence|]. cbn [length Nat.eqb bind pdfs]. eexists; reflexivity. }
  destruct Q as [p Q]. unfold distance, prepare in *. cbn [run1 set_compare vals pdfs]. destruct (vals s1); [|discriminate]. rewrite Q in *. destruct p as [p q]. destruct n.
  - cbn [bind] in *. injection E as E _. rewrite E. eexists; reflexivity.
  - destruct (length p =? 0); [discriminate|]. cbn [bind] in *. injection E as E _. rewrite E. eexists; reflexivity.
Qed.
Lemma hell_lemma : forall (X V : Type) (f g : X -> Qc) v (sq : Qc -> arr -> arr -> V) root, v <> [] ->
  exists s1 s2 s3 s4 p q, distance f g sq false (set_compare v new_cmp) = Ok (sq (1 / qn (length v))%Qc (map (fun x => Some (f x)) v) (map (fun x => Some (g x)) v), s1) /\
  distance_hell f g sq root false (set_compare v new_cmp) = Ok (root (sq (1 / qn (length v))%Qc (map (fun x => Some (f x)) v) (map (fun x => Some (g x)) v)), s2) /\
  distance f g sq true (set_compare v new_cmp) = Ok (sq 1%Qc p q, s3) /\
  distance_hell f g sq root true (set_compare v new_cmp) = Ok (root (sq (1 / qn (length v))%Qc p q), s4).
Proof.
  intros X V f g v sq root N. unfold distance_hell, distance, prepare, set_compare, new_cmp. cbn [vals pdfs]. unfold evaluated. rewrite !map_length.
  destruct v as [|x v]; [congruence|]. cbn [length Nat.eqb]. cbn [bind vals pdfs fst snd]. rewrite !map_length, !normalized_length, !map_length. cbn [length Nat.eqb]. cbn [bind vals pdfs fst snd].
  eexists _, _, _, _, _, _. split; [reflexivity|]. split; [reflexivity|]. split; reflexivity.
Qed.

(** ** Comparison points and intervals *)
Lemma qlist_max_ge l x : In x l -> (x <= qlist_max l)%Qc.
Proof. intro H. apply (qlist_max_is_max l); [intro E; rewrite E in H; contradiction | exact H]. Qed.
Lemma qlist_max_in l : l <> [] -> In (qlist_max l) l.
Proof. intro H. apply (qlist_max_is_max l H). Qed.
Lemma ranges_lemma : forall dim v1 v2 factor, 0 < dim -> v1 ++ v2 <> [] ->
  let col := map (fun r => nth (dim - 1) r 0%Qc) (v1 ++ v2) in
  exists ranges, compare_ranges dim v1 v2 factor = Ok ranges /\ length ranges = dim /\
  forall i, i < dim -> nth_error ranges i = Some ((qlist_min col - factor * (qlist_max col - qlist_min col))%Qc, qlist_max col).
Proof.
  intros dim v1 v2 factor Hd N col. unfold compare_ranges. destruct (length (v1 ++ v2) =? 0) eqn:E; [apply Nat.eqb_eq in E; destruct (v1 ++ v2); [congruence | discriminate]|].
  destruct (Nat.eqb_spec dim 0); [lia|]. cbn [orb]. eexists. split; [reflexivity|]. split; [apply repeat_length|]. intros i Hi.
  rewrite Inverse_Proofs.nth_error_repeat' by exact Hi. fold col. f_equal. f_equal. ring.
Qed.
Lemma ranges_one_lemma : forall v1 v2, v1 ++ v2 <> [] ->
  exists lo hi, compare_ranges 1 v1 v2 0%Qc = Ok [(lo, hi)] /\ covers 0%Qc lo hi (map (fun r => nth 0 r 0%Qc) (v1 ++ v2)).
Proof.
  intros v1 v2 N. destruct (ranges_lemma 1 v1 v2 0%Qc ltac:(lia) N) as (r & E & L & H). simpl Nat.sub in H. set (col := map (fun r => nth 0 r 0%Qc) (v1 ++ v2)) in *.
  specialize (H 0 ltac:(lia)). destruct r as [|[lo hi] [|]]; try discriminate. exists lo, hi. split; [exact E|]. injection H as -> ->. intros x y z Hx Hy Hz.
  split.
  - eapply Qcle_trans; [|eapply Qcle_trans; [apply (qlist_min_le col x Hx)|]]; apply eq_le; ring.
  - eapply Qcle_trans; [|apply (qlist_max_ge col x Hx)]. apply eq_le. ring.
Qed.
Lemma interval_lemma : forall a b d2 c1 c2 factor lo hi,
  marginal_interval (Some (Fin a, Fin b)) (Some d2) c1 c2 factor = Ok (lo, hi) -> lo = (a - factor * (b - a))%Qc /\ hi = (b + factor * (b - a))%Qc.
Proof. intros a b d2 c1 c2 factor lo hi H. simpl in H. injection H as <- <-. split; reflexivity. Qed.
Lemma interval_values_lemma : forall d1 d2 c1 c2 factor, (d1 = None \/ d2 = None) -> (0 <= factor)%Qc ->
  (length c1 <> length c2 -> marginal_interval d1 d2 c1 c2 factor = Raise PyValueError) /\
  (length c1 = length c2 -> c1 <> [] -> exists lo hi, marginal_interval d1 d2 c1 c2 factor = Ok (lo, hi) /\ covers factor lo hi (c1 ++ c2)).
Proof.
  intros d1 d2 c1 c2 factor D F.
  assert (E : marginal_interval d1 d2 c1 c2 factor = if negb (length c1 =? length c2) then Raise PyValueError else if length c1 =? 0 then Raise PyValueError
     else Ok ((qlist_min (c1 ++ c2) - factor * (qlist_max (c1 ++ c2) - qlist_min (c1 ++ c2)))%Qc, (qlist_max (c1 ++ c2) + factor * (qlist_max (c1 ++ c2) - qlist_min (c1 ++ c2)))%Qc)).
  { destruct D as [->| ->]; [reflexivity|]. destruct d1 as [[[] []]|]; reflexivity. }
  rewrite E. split; intro L.
  - destruct (Nat.eqb_spec (length c1) (length c2)); [contradiction | reflexivity].
  - intro N. rewrite <- L, Nat.eqb_refl. cbn [negb]. destruct c1 as [|u c1]; [congruence|]. cbn [length Nat.eqb]. eexists _, _. split; [reflexivity|].
    set (l := (u :: c1) ++ c2). intros x y z Hx Hy Hz.
    pose proof (qlist_min_le l x Hx) as A1. pose proof (qlist_max_ge l x Hx) as A2. pose proof (qlist_min_le l y Hy) as A3. pose proof (qlist_max_ge l z Hz) as A4.
    set (m := qlist_min l) in *. set (M := qlist_max l) in *. clearbody m M.
    assert (D' : (factor * (z - y) <= factor * (M - m))%Qc) by (apply qc_mul_le_l; [exact F | qc_lra]).
    generalize dependent (factor * (z - y))%Qc. generalize dependent (factor * (M - m))%Qc. intros. split; qc_lra.
Qed.
