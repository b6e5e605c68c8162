(** Sums over cells and identifiers. *)
From Coq Require Import List Arith Bool QArith Qcanon Lia.
From Verif Require Import Err Num Ext NumPy Lists SampleSet_Model SampleSet_Spec Prob_Model Prob_Spec Prob_Proofs
  Disc_Model Disc_Spec Disc_Proofs Workflow_Proofs Error_Model Error_Proofs
  ErrorDisc_Model ErrorDisc_Spec ErrorDisc2_Proofs ErrorDisc3_Proofs Surrogate_Model Surrogate_Spec.
Import ListNotations.
Local Open Scope nat_scope.
Local Open Scope err_scope.

(** ** Sums *)
Lemma xadd_assoc x y z : xadd (xadd x y) z = xadd x (xadd y z).
Proof. destruct x, y, z; cbn [xadd]; try reflexivity. f_equal. ring. Qed.
Lemma xadd_0_l x : xadd (Fin 0%Qc) x = x.
Proof. destruct x; cbn [xadd]; try reflexivity. f_equal. ring. Qed.
Lemma xadd_0_r x : xadd x (Fin 0%Qc) = x.
Proof. destruct x; cbn [xadd]; try reflexivity. f_equal. ring. Qed.
Lemma xsum_app l m : xsum (l ++ m) = xadd (xsum l) (xsum m).
Proof. induction l as [|x l IH]; [symmetry; apply xadd_0_l|]. cbn [app xsum fold_right]. fold (xsum (l ++ m)). rewrite IH. symmetry. apply xadd_assoc. Qed.
Lemma xcells i blocks : xsum (map (xlocal_sum i) blocks) = xsum (map snd (filter (fun e => fst e =? i) (concat blocks))).
Proof.
  induction blocks as [|c r IH]; [reflexivity|]. cbn [map concat]. change (xsum (?x :: ?l)) with (xadd x (xsum l)). rewrite IH, filter_app, map_app, xsum_app. reflexivity.
Qed.
Lemma filter_keys {A B} (f : A -> nat) k : forall (xs : list A) (q : list B),
  map snd (filter (fun e => fst e =? k) (combine (map f xs) q)) = map snd (filter (fun e => f (fst e) =? k) (combine xs q)).
Proof. induction xs as [|x xs IH]; intros [|v q]; try reflexivity. cbn [map combine filter fst]. destruct (f x =? k); cbn [map snd]; rewrite IH; reflexivity. Qed.

(** the cells with a label *)
Lemma total_filter (flag : nat -> bool) s k : total_in (filter (fun e => flag (fst e)) s) k = if flag k then total_in s k else 0%Qc.
Proof.
  unfold total_in. induction s as [|[j v] s IH]; [destruct (flag k); reflexivity|]. cbn [filter fst]. destruct (flag j) eqn:F; cbn [filter fst]; destruct (Nat.eqb_spec j k) as [->|N]; cbn [map snd]; rewrite ?F in *.
  - change (qsum (?x :: ?l)) with (x + qsum l)%Qc. rewrite IH. reflexivity.
  - exact IH.
  - exact IH.
  - exact IH.
Qed.
Lemma labelled_sum region : forall labels (g : nat -> Qc) k,
  qsum (map snd (filter (fun e => qeqb (fst e) region) (combine labels (map g (seq k (length labels)))))) =
  qsum (map (fun i => if match nth_error labels (i - k) with Some l => qeqb l region | None => false end then g i else 0%Qc) (seq k (length labels))).
Proof.
  induction labels as [|l labels IH]; intros g k; [reflexivity|]. cbn [length seq map combine filter fst]. rewrite Nat.sub_diag. cbn [nth_error].
  assert (E : map (fun i => if match nth_error (l :: labels) (i - k) with Some l => qeqb l region | None => false end then g i else 0%Qc) (seq (S k) (length labels)) =
              map (fun i => if match nth_error labels (i - S k) with Some l => qeqb l region | None => false end then g i else 0%Qc) (seq (S k) (length labels))).
  { apply map_ext_in. intros i Hi. apply in_seq in Hi. replace (i - k) with (S (i - S k)) by lia. reflexivity. }
  change (qsum (?x :: ?l)) with (x + qsum l)%Qc. rewrite E, <- IH. destruct (qeqb l region).
  - cbn [map snd]. change (qsum (?x :: ?l)) with (x + qsum l)%Qc. reflexivity.
  - ring.
Qed.
Lemma filter_labels (f : cell -> nat) (flag : nat -> bool) : forall xs (q : list Qc),
  map snd (filter (fun e => flag (fst e)) (combine (map f xs) q)) = map snd (filter (fun e => flag (f (fst e))) (combine xs q)).
Proof. induction xs as [|x xs IH]; intros [|v q]; try reflexivity. cbn [map combine filter fst]. destruct (flag (f x)); cbn [map snd]; rewrite IH; reflexivity. Qed.
Lemma region_sum nn ss labels region ys q : length labels = length ss -> (forall y, nn ss y < length ss) ->
  qsum (map snd (filter (fun e => qeqb (fst e) region) (combine labels (map (total_in (combine (map (nn ss) ys) q)) (seq 0 (length ss)))))) =
  qsum (map snd (filter (fun e => in_the_region nn ss labels region (fst e)) (combine ys q))).
Proof.
  intros L B. rewrite <- L, labelled_sum. set (flag := fun i => match nth_error labels i with Some l => qeqb l region | None => false end).
  transitivity (qsum (map (total_in (filter (fun e => flag (fst e)) (combine (map (nn ss) ys) q))) (seq 0 (length labels)))).
  - f_equal. apply map_ext. intros i. rewrite Nat.sub_0_r, total_filter. reflexivity.
  - rewrite <- total_in_split.
    + rewrite filter_labels. reflexivity.
    + intros [k v] He. apply filter_In in He. destruct He as [He _]. apply in_combine_l in He. apply in_map_iff in He. destruct He as (y & <- & _). cbn [fst]. rewrite L. apply B.
Qed.

(** ** Identifiers *)
Lemma error_cell_moved i e : error_cell i e = moved i (as_point e).
Proof. unfold error_cell, moved, from, to, as_point, in1, in2. cbn [fst snd]. destruct (cell1 e =? i), (cell2 e =? i), (in_A e); reflexivity. Qed.
Lemma add_ids_map blocks i sh g : add_ids blocks i sh (map (map g) blocks) = map (map (fun e => if error_cell i e then xadd (g e) sh else g e)) blocks.
Proof.
  unfold add_ids. induction blocks as [|c r IH]; [reflexivity|]. cbn [map combine fst snd]. f_equal; [|exact IH].
  clear IH. induction c as [|e c IH]; [reflexivity|]. cbn [map combine fst snd]. f_equal; exact IH.
Qed.
Definition id_step (blocks : list (list epoint)) (e : epoint) (x : xnum) (ip : nat * Qc) : xnum :=
  if qltb 0 (snd ip) && moved (fst ip) (as_point e) then xadd x (event_part (map as_point (concat blocks)) ip) else x.
Lemma moved_count blocks i : count (error_cell i) blocks = length (filter (moved i) (map as_point (concat blocks))).
Proof. apply count_number. intros e. apply error_cell_moved. Qed.
Lemma part_eq blocks i p : count (error_cell i) blocks <> 0 ->
  xdivn (match contribution blocks i p with Some c => Fin c | None => PInf end) (count (error_cell i) blocks) = event_part (map as_point (concat blocks)) (i, p).
Proof.
  intros N. rewrite contribution_eq. cbv zeta. unfold event_part. cbn [fst snd]. destruct (existsb (from i) _); cbn [negb orb andb]; [|reflexivity]. destruct (existsb (to i) _); cbn [negb]; [|reflexivity].
  cbn [xdivn]. rewrite xdivq_fin by (apply qn_neq0; lia). unfold number. rewrite moved_count. reflexivity.
Qed.
Lemma mc_loop_ids blocks ips : forall acc g, snd (region_mc_loop blocks ips acc (map (map g) blocks)) =
  map (map (fun e => fold_left (id_step blocks e) ips (g e))) blocks.
Proof.
  induction ips as [|[i p] r IH]; intros acc g; [reflexivity|]. cbn [region_mc_loop]. cbv zeta. destruct (qltb 0 p) eqn:Pp.
  - destruct (Nat.eqb_spec (count (error_cell i) blocks) 0) as [Z|N].
    + rewrite IH. apply map_ext_in2. intros e He. cbn [fold_left]. unfold id_step at 3. cbn [fst snd]. rewrite Pp. cbn [andb].
      destruct (moved i (as_point e)) eqn:M; [|reflexivity]. exfalso. rewrite moved_count in Z. apply length_zero_iff_nil in Z.
      assert (X : In (as_point e) (filter (moved i) (map as_point (concat blocks)))) by (apply filter_In; split; [apply in_map; exact He|exact M]). rewrite Z in X. exact X.
    + rewrite add_ids_map, IH. apply map_ext. intros c. apply map_ext. intros e. cbn [fold_left]. f_equal. unfold id_step. cbn [fst snd]. rewrite Pp, error_cell_moved. cbn [andb].
      destruct (moved i (as_point e)); [|reflexivity]. f_equal. apply part_eq. exact N.
  - rewrite IH. apply map_ext. intros c. apply map_ext. intros e. cbn [fold_left]. unfold id_step at 3. cbn [fst snd]. rewrite Pp. reflexivity.
Qed.
Lemma id_fold blocks e ips : forall x, fold_left (id_step blocks e) ips x =
  xadd x (xsum (map (event_part (map as_point (concat blocks))) (filter (fun ip => moved (fst ip) (as_point e)) (filter (fun ip => qltb 0 (snd ip)) ips)))).
Proof.
  induction ips as [|[i p] r IH]; intros x; [symmetry; apply xadd_0_r|]. cbn [fold_left filter fst snd]. rewrite IH. unfold id_step. cbn [fst snd]. destruct (qltb 0 p); [|reflexivity].
  cbn [filter fst]. destruct (moved i (as_point e)); [|reflexivity]. cbn [map andb]. change (xsum (?x :: ?l)) with (xadd x (xsum l)). apply xadd_assoc.
Qed.
Lemma mc_ids P ps pts : 0 < P -> snd (region_error_mc ps (array_split (map ep_of pts) P)) = array_split (map (sample_id ps pts) pts) P.
Proof.
  intros HP. unfold region_error_mc. rewrite (mc_loop_ids (array_split (map ep_of pts) P) (combine (seq 0 (length ps)) ps) (Fin 0%Qc) (fun _ => Fin 0%Qc)). rewrite <- array_split_map. f_equal.
  rewrite map_map. apply map_ext. intros t. rewrite id_fold, xadd_0_l. rewrite array_split_concat by exact HP. rewrite as_point_ep. unfold sample_id, events.
  assert (E : as_point (ep_of t) = t) by (destruct t as [[x y] z]; reflexivity). rewrite E. reflexivity.
Qed.
Lemma none_ids ps pts e : existsb (qltb 0) ps = false -> sample_id ps pts e = Fin 0%Qc.
Proof. intros N. unfold sample_id. rewrite (no_events _ N). reflexivity. Qed.
