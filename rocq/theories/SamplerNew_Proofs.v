(** Proofs about samplers: new sets hold nothing but samples. *)
From Coq Require Import List Arith Bool Lia QArith Qcanon.
From Verif Require Import Err Num NumPy Lists SampleSet_Model SampleSet_Spec SampleSet_Proofs Disc_Model Sampling_Model Sampling_Spec Sampling_Proofs Workflow_Proofs Refs_Model Sampler_Model Sampler_Spec SamplerFill_Proofs SamplerRun_Proofs SamplerDisc_Proofs.
Import ListNotations.
Local Open Scope nat_scope.

Lemma random_new_lemma : forall P n g draw interval ob d w, 0 < P -> new_dim ob = Some d ->
  exists s, s_random P n g draw interval ob w = (mk_swork (w_sets w ++ [s]) (w_discs w) (Some (length (w_sets w))) (s_disc w), Ok (length (w_sets w))) /\
    only_samples d (drawn P n draw d) g nothing s /\ domain s = Some (map interval (seq 0 d)) /\
    (full_draws draw -> length (concat (map rows (drawn P n draw d))) = n).
Proof.
  intros P n g draw interval ob d w HP Nd. destruct (fresh_dim ob d Nd) as (s0 & F & D0).
  destruct (random_fresh_lemma P n g draw interval ob s0 w HP F) as (s1 & E & O & Dm). rewrite D0, (drawn_eq P n draw d HP) in O. rewrite D0 in Dm.
  exists s1. split; [exact E |]. split; [exact O |]. split; [exact Dm |]. intros Fd. rewrite <- drawn_eq by exact HP. now apply random_rows.
Qed.
Lemma fresh_box o s : fresh o = Some s -> domain_or_unit s = box_of o.
Proof. destruct o; cbn; intros E; [discriminate | |]; injection E as <-; reflexivity. Qed.
Lemma lhs_new_lemma : forall P n g H ob d w, 0 < P -> new_dim ob = Some d ->
  exists s bs extra xs, s_lhs P n g H ob w = (mk_swork (w_sets w ++ [s]) (w_discs w) (Some (length (w_sets w))) (s_disc w), Ok (length (w_sets w))) /\
    only_samples d bs g extra s /\ length bs = P /\ (forall x, ~ In x [Left_; Right_; Width_] -> extra x = None) /\
    domain s = Some (box_of ob) /\ extra Left_ = all_rows n d (map fst (box_of ob)) /\ extra Right_ = all_rows n d (map snd (box_of ob)) /\
    extra Width_ = all_rows n d (map (fun ab => (snd ab - fst ab)%Qc) (box_of ob)) /\
    ((forall r, length (H r) = n) -> length (concat (map rows bs)) = n) /\
    concat (map rows bs) = map row xs /\
    ((forall ab, In ab (box_of ob) -> (fst ab < snd ab)%Qc) -> (forall r, r < P -> H r = H 0) -> (forall h, In h (H 0) -> length h = d) ->
      latin (unit_cube d) n (H 0) -> latin (box_of ob) n xs).
Proof.
  intros P n g H ob d w HP Nd. destruct (fresh_dim ob d Nd) as (s0 & F & D0).
  destruct (lhs_fresh_lemma P n g H ob s0 w HP F) as (s1 & E & O & Dm). rewrite D0, (fresh_box ob s0 F) in O. rewrite (fresh_box ob s0 F) in Dm.
  do 4 eexists. split; [exact E |]. split; [exact O |]. split; [unfold lhs_blocks; now rewrite map_length, seq_length |]. split.
  { intros x Nx. destruct x; cbn in Nx |- *; auto; exfalso; apply Nx; auto. }
  split; [exact Dm |]. do 3 (split; [reflexivity |]). split; [intros FH; now apply lhs_rows |]. split.
  - instantiate (1 := lhs_values (box_of ob) H P). unfold lhs_blocks, lhs_values. rewrite map_map, concat_map, map_map. f_equal.
  - intros HB HS HL LT. assert (LB : length (box_of ob) = d) by (destruct ob; cbn in Nd |- *; [discriminate | |]; injection Nd as <-; [apply repeat_length | reflexivity]).
    apply lhs_same_lemma; auto; rewrite ?LB; auto.
Qed.
Lemma regular_new_lemma : forall P ns ob d w, 0 < P -> new_dim ob = Some d ->
  exists s bs, s_regular P ns ob w = (mk_swork (w_sets w ++ [s]) (w_discs w) (Some (length (w_sets w))) (s_disc w), Ok (length (w_sets w))) /\
    only_samples d bs true nothing s /\ length bs = P /\ domain s = Some (box_of ob) /\
    (length ns = d -> (forall k, In k ns -> 0 < k) -> concat (map rows bs) = map row (grid (box_of ob) ns)).
Proof.
  intros P ns ob d w HP Nd. destruct (fresh_dim ob d Nd) as (s0 & F & D0).
  destruct (regular_fresh_lemma P ns ob s0 w HP F) as (s1 & E & O & Dm). rewrite D0, (fresh_box ob s0 F) in O. rewrite (fresh_box ob s0 F) in Dm.
  do 2 eexists. split; [exact E |]. split; [exact O |]. split; [now apply split_arr_length |]. split; [exact Dm |].
  intros LN HN. rewrite split_arr_rows. cbn [rows]. rewrite array_split_concat by exact HP. f_equal. apply regular_lemma; [|exact HN].
  rewrite LN. destruct ob; cbn in Nd |- *; [discriminate | |]; injection Nd as <-; [apply repeat_length | reflexivity].
Qed.
