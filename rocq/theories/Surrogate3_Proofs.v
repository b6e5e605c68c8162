(** Questions about regions. *)
From Coq Require Import List Arith Bool QArith Qcanon Lia.
From Verif Require Import Err Num Ext NumPy Lists SampleSet_Model SampleSet_Spec SampleSet_Proofs Prob_Model Prob_Spec Prob_Proofs
  Disc_Model Disc_Spec Disc_Proofs Workflow_Model Workflow_Proofs VolHist_Proofs Error_Model
  ErrorDisc_Model ErrorDisc_Spec ErrorDisc_Proofs ErrorDisc2_Proofs ErrorDisc3_Proofs ErrorDisc4_Proofs Surrogate_Model Surrogate_Spec Surrogate_Proofs Surrogate2_Proofs.
Import ListNotations.
Local Open Scope nat_scope.
Local Open Scope err_scope.

Section Region.
Context (nn : list cell -> cell -> nat) (P : nat) (HP : 0 < P) (NN : forall l x, l <> [] -> nn l x < length l).
Context (b : problem) (WP : well_posed b) (ee : bool) (V : list Qc) (LV : length V = length (samples b)).
Notation n := (length (samples b)).
Notation c1 := (cells_before nn b).
Notation c2 := (cells_after nn b).
Notation sp := (sample_probs nn b V).
Lemma c1_len : length c1 = n.
Proof. unfold cells_before. rewrite map_length. apply WP. Qed.
Lemma c2_len : length c2 = n.
Proof. unfold cells_after. rewrite map_length, combine_length. destruct WP as (_ & _ & -> & -> & _). lia. Qed.
Lemma sp_len : length sp = n.
Proof. unfold sample_probs. rewrite map_length, combine_length, c1_len, LV. lia. Qed.
Lemma n_pos : n <> 0.
Proof. destruct WP as (N & _). destruct (samples b); [contradiction|discriminate]. Qed.

Definition vols_ok (inp : sset cell) : Prop :=
  loc inp Volumes = Some (split_arr P (vec_arr V)) \/ (loc inp Volumes = None /\ V = map (fun _ => (1 / qn n)%Qc) (samples b)).
Definition in_ok (inp : sset cell) : Prop :=
  held (p_in b) inp (samples b) /\ loc inp Values = Some (split_arr P (mk_arr (samples b) [p_in b])) /\ fitting P (samples b) inp.
Definition rest_ok (e : disc cell) : Prop :=
  (exists out, d_out e = Some out /\ local_set P (p_out b) (outputs b) (estimates b) ee out) /\
  (exists pr, d_prob e = Some pr /\ held (p_out b) pr (cells b) /\ glob pr Probabilities = Some (vec_arr (probs b))) /\
  (io_loc e = None \/ io_loc e = Some (array_split c1 P)).
Definition sinv (e : disc cell) : Prop := (exists inp, d_in e = Some inp /\ in_ok inp /\ vols_ok inp) /\ rest_ok e.

Lemma in_ok_loc inp a x : in_ok inp -> a <> Values -> length (rows x) = n -> in_ok (set_loc a (Some (split_arr P x)) inp).
Proof.
  intros (H & L & F) N Lx. split; [exact H|]. split; [cbn [set_loc loc]; rewrite upd_other by congruence; exact L|]. apply fitting_set; assumption.
Qed.
Lemma vec_rows l : length (rows (vec_arr l)) = length l.
Proof. apply map_length. Qed.

(** volumes *)
Lemma volumes_step e inp : d_in e = Some inp -> in_ok inp -> vols_ok inp -> exists inp1,
  (match loc inp Volumes with None => do inp1 <- estimate_mc P false inp ; Ok (with_in (Some inp1) e) | Some _ => Ok e end) = Ok (with_in (Some inp1) e) /\
  in_ok inp1 /\ loc inp1 Volumes = Some (split_arr P (vec_arr V)).
Proof.
  intros Ei Hi [L|[L EV]]; rewrite L.
  - exists inp. split; [|auto]. f_equal. destruct e. cbn in *. rewrite Ei. reflexivity.
  - pose proof Hi as (H & LX & F). unfold estimate_mc. rewrite (held_count P _ _ _ H). cbn [bind]. rewrite (mc_blocks P _ _ _ _ _ _ _ HP H F LX n_pos). cbn [bind]. rewrite <- EV.
    eexists. split; [reflexivity|]. split; [apply in_ok_loc; [exact Hi|discriminate|rewrite vec_rows; exact LV]|]. cbn [set_loc loc]. apply upd_same.
Qed.

(** probabilities of the samples *)
Lemma probs_ok pr : held (p_out b) pr (cells b) -> glob pr Probabilities = Some (vec_arr (probs b)) ->
  check_num P pr = Ok (length (cells b)) /\ out_probs (length (cells b)) pr = Ok (probs b).
Proof.
  intros Hp Gp. split; [apply (held_count P _ _ _ Hp)|]. unfold out_probs. destruct (Nat.eqb_spec (length (cells b)) 0) as [E0|_]; [destruct WP as (_ & NC & _); destruct (cells b); [contradiction|discriminate]|].
  rewrite Gp. cbn [subscript bind vec_arr rows]. apply scalars_nums.
Qed.
Lemma est_len : length (estimates b) = length (outputs b).
Proof. destruct WP as (_ & _ & -> & -> & _). reflexivity. Qed.
Lemma check_ok e inp : d_in e = Some inp -> in_ok inp -> rest_ok e -> check_nums P e = Ok n.
Proof.
  intros Ei (H & _) ((out & Eo & Ho) & _). unfold check_nums. rewrite Eo. cbn [need bind]. rewrite (local_count P _ _ _ _ _ HP est_len Ho). cbn [bind].
  rewrite Ei. cbn [need bind]. rewrite (held_count P _ _ _ H). cbn [bind]. rewrite (proj1 (proj2 Ho)). reflexivity.
Qed.
Lemma pointer_step e g : rest_ok e -> io_loc e = None -> exists out pr1, set_io_ptr nn P g e = Ok (with_io (if g then Some c1 else io e) (Some (array_split c1 P)) (with_prob (Some pr1) (with_out (Some out) e))) /\
  local_set P (p_out b) (outputs b) (estimates b) ee out /\ held (p_out b) pr1 (cells b) /\ glob pr1 Probabilities = Some (vec_arr (probs b)).
Proof.
  intros ((out & Eo & Ho) & (pr & Ep & Hp & Gp) & _) El. unfold set_io_ptr. rewrite Eo. cbn [need bind]. unfold localized. rewrite (proj1 (proj2 (proj2 Ho))). cbn [bind]. rewrite Ep. cbn [need bind].
  unfold loc_values. rewrite (proj1 (proj2 (proj2 Ho))). cbn [bind]. destruct (held_query_split nn P (p_out b) pr (cells b) (map row (outputs b)) HP Hp) as (pr1 & -> & H1 & S1 & _). cbn [bind fst snd].
  rewrite map_map, array_split_concat by exact HP. exists out, pr1. split; [reflexivity|]. split; [exact Ho|]. split; [exact H1|]. rewrite (proj2 S1) by discriminate. exact Gp.
Qed.
Lemma prob_ok e inp : d_in e = Some inp -> in_ok inp -> loc inp Volumes = Some (split_arr P (vec_arr V)) -> rest_ok e -> exists e1,
  prob_disc nn P false e = Ok (with_in (Some (set_loc Probabilities (Some (split_arr P (vec_arr sp))) inp)) e1) /\ rest_ok e1 /\ io_loc e1 = Some (array_split c1 P).
Proof.
  intros Ei Hi Lv HR. unfold prob_disc. rewrite (check_ok e inp Ei Hi HR). cbn [bind]. pose proof HR as (HO & (pr & Ep & Hp & Gp) & Hl). rewrite Ep. cbn [need bind]. destruct (probs_ok pr Hp Gp) as [-> Q]. cbn [bind].
  assert (X : exists e1, match io_loc e with None => set_io_ptr nn P false e | Some _ => Ok e end = Ok e1 /\ rest_ok e1 /\ io_loc e1 = Some (array_split c1 P) /\ d_in e1 = d_in e).
  { destruct Hl as [El|El].
    - rewrite El. destruct (pointer_step e false HR El) as (out & pr1 & -> & Ho1 & Hp1 & Gp1). eexists. split; [reflexivity|]. split; [|split; reflexivity].
      split; [exists out; auto|]. split; [exists pr1; auto|]. right. reflexivity.
    - rewrite El. exists e. auto. }
  destruct X as (e1 & -> & HR1 & El1 & Ei1). cbn [bind]. rewrite Ei1, Ei. cbn [need bind]. unfold localized. rewrite (proj1 (proj2 Hi)). cbn [bind]. rewrite El1. cbn [subscript bind]. rewrite Q. cbn [bind].
  rewrite Lv. cbn [subscript bind]. rewrite split_vec.
  assert (PE : prob (probs b) (array_split c1 P) (if existsb (qltb 0) (probs b) then array_split V P else []) = Ok (array_split sp P)).
  { pose proof (prob_split P (probs b) c1 V HP ltac:(rewrite c1_len; congruence)) as E0. change (map (event_share (probs b) (combine c1 V)) (combine c1 V)) with sp in E0. destruct (existsb (qltb 0) (probs b)) eqn:X; [exact E0|]. unfold prob in *. rewrite X in *. exact E0. }
  replace (if existsb (qltb 0) (probs b) then Ok (array_split V P) else Ok []) with (Ok (if existsb (qltb 0) (probs b) then array_split V P else [])) by (destruct (existsb (qltb 0) (probs b)); reflexivity).
  cbn [bind]. rewrite PE. cbn [bind]. rewrite vec_blocks. exists e1. auto.
Qed.

(** the sets of regions *)
Lemma rset_held d s ss labels : region_set_is d s ss labels -> held d s ss.
Proof. intros (H1 & H2 & H3 & H4 & _). split; [exact H1|]. auto. Qed.
Lemma rset_len d s ss labels : region_set_is d s ss labels -> length labels = length ss.
Proof. intros ((A & _) & _ & _ & _ & G). rewrite <- vec_rows. apply (A Region). exact G. Qed.
Lemma transfer_ok s inp ss labels : region_set_is (p_in b) s ss labels -> ss <> [] -> in_ok inp -> loc inp Probabilities = Some (split_arr P (vec_arr sp)) -> exists s1,
  prob_from_set nn P inp s = Ok (map (total_in (combine (map (nn ss) (samples b)) sp)) (seq 0 (length ss)), inp, s1) /\
  region_set_is (p_in b) s1 ss labels /\ glob s1 Probabilities = Some (vec_arr (cell_probs nn b V ss)) /\ forall x, x <> KdtreeValues -> x <> Probabilities -> glob s1 x = glob s x.
Proof.
  intros Hs NS (H & L & F) Lp. pose proof (rset_held _ _ _ _ Hs) as Hh. unfold prob_from_set. rewrite (held_count P _ _ _ H). cbn [bind]. rewrite (held_count P _ _ _ Hh). cbn [bind].
  rewrite (proj1 (proj2 (proj2 H))), (proj1 (proj2 (proj2 Hh))), Nat.eqb_refl. cbn [negb]. unfold localized. rewrite L. cbn [bind]. unfold loc_values. rewrite L. cbn [bind].
  destruct (held_query_split nn P (p_in b) s ss (samples b) HP Hh) as (s1 & -> & H1 & S1 & _). cbn [bind fst snd].
  destruct (Nat.eqb_spec (length ss) 0) as [E0|_]; [destruct ss; [contradiction|discriminate]|]. rewrite Lp. cbn [subscript bind]. rewrite split_vec. cbn [bind].
  rewrite transfer_lemma by (apply split_same_lengths; [exact HP|rewrite map_length, sp_len; reflexivity]). rewrite !array_split_concat by exact HP. cbn [bind].
  eexists. split; [reflexivity|]. set (q := map _ _).
  assert (Lq : length (rows (vec_arr q)) = length ss) by (rewrite vec_rows; unfold q; rewrite map_length, seq_length; reflexivity).
  pose proof (held_set_glob _ _ _ Probabilities (vec_arr q) H1 ltac:(discriminate) Lq) as H2. split.
  - destruct H2 as (A1 & A2 & A3 & A4). split; [exact A1|]. split; [exact A2|]. split; [exact A3|]. split; [exact A4|]. cbn [set_glob glob]. rewrite upd_other by discriminate. rewrite (proj2 S1) by discriminate. apply Hs.
  - split; [|intros x N1 N2; cbn [set_glob glob]; rewrite upd_other by congruence; apply (proj2 S1); exact N1].
    cbn [set_glob glob]. rewrite upd_same. do 2 f_equal. unfold q, cell_probs. apply map_ext. intros k. unfold total_in. rewrite filter_keys. reflexivity.
Qed.
Lemma marked_ok s ss labels region : region_set_is (p_in b) s ss labels -> ss <> [] ->
  marked_sum s (map (total_in (combine (map (nn ss) (samples b)) sp)) (seq 0 (length ss))) region = Ok (region_prob nn b V ss labels region).
Proof.
  intros Hs NS. unfold marked_sum. rewrite (proj2 (proj2 (proj2 (proj2 Hs)))). cbn [vec_arr rows]. rewrite scalars_nums. cbn [bind].
  rewrite map_length, seq_length, (rset_len _ _ _ _ Hs), Nat.eqb_refl. rewrite region_sum; [reflexivity|apply (rset_len _ _ _ _ Hs)|intros y; apply NN; exact NS].
Qed.

(** the object of error estimates *)
Lemma new_ok e inp : d_in e = Some inp -> in_ok inp -> rest_ok e -> io_loc e = Some (array_split c1 P) ->
  if ee then exists e1 en, new_model_error nn P e = Ok (mk_merr e1 en) /\ d_in e1 = d_in e /\ rest_ok e1 /\ io_loc e1 = Some (array_split c1 P) /\ io_loc en = Some (array_split c2 P)
  else new_model_error nn P e = Raise WrongArgumentType.
Proof.
  intros Ei Hi HR El. pose proof HR as ((out & Eo & Ho) & (pr & Ep & Hp & Gp) & _). unfold new_model_error. rewrite Eo. cbn [need bind].
  destruct (local_g2l P _ _ _ _ _ HP est_len Ho) as (out1 & EG & Ho1). cut (if ee then exists e1 en, (do out2 <- global_to_local P out; if has_estimates out2 then
      do _ <- check_nums P (with_out (Some out2) e); do d2 <- match io_loc (with_out (Some out2) e) with None => set_io_ptr nn P true (with_out (Some out2) e) | Some _ => Ok (with_out (Some out2) e) end;
      do out3 <- need (d_out d2); do out4 <- shifted out3; do d3 <- set_io_ptr nn P false (with_out (Some out4) d2); Ok (mk_merr d2 (with_io None (io_loc d3) d3)) else Raise WrongArgumentType) = Ok (mk_merr e1 en) /\
      d_in e1 = d_in e /\ rest_ok e1 /\ io_loc e1 = Some (array_split c1 P) /\ io_loc en = Some (array_split c2 P) else has_estimates out1 = false).
  { intros X. destruct ee; [exact X|]. rewrite EG. cbn [bind]. rewrite X. reflexivity. }
  rewrite EG. cbn [bind]. unfold has_estimates. pose proof Ho1 as (D1 & G1 & L1 & L2 & L3). rewrite G1, L2. destruct ee eqn:EE; [|reflexivity].
  assert (HR1 : rest_ok (with_out (Some out1) e)) by (split; [exists out1; rewrite EE; auto|split; [exists pr; auto|right; exact El]]).
  rewrite (check_ok (with_out (Some out1) e) inp Ei Hi HR1). cbn [bind with_out io_loc]. rewrite El. cbn [bind]. cbn [bind with_out d_out need]. unfold shifted, loc_values. rewrite L1. cbn [bind]. rewrite L2. cbn [subscript bind].
  pose proof WP as (_ & _ & Lz & Le & Hl & _). rewrite add_split; [|exact HP|congruence|intros z Hz; apply Hl; auto|intros z Hz; apply Hl; auto]. cbn [bind].
  unfold set_io_ptr. cbn [with_out d_out d_prob need bind]. unfold localized. cbn [set_loc loc]. rewrite upd_same. cbn [bind]. rewrite Ep. cbn [need bind]. unfold loc_values. cbn [set_loc loc]. rewrite upd_same. cbn [bind].
  destruct (held_query_split nn P (p_out b) pr (cells b) (map (fun ze : list Qc * list Qc => row (plus (fst ze) (snd ze))) (combine (outputs b) (estimates b))) HP Hp) as (pr2 & -> & _). cbn [bind fst snd].
  eexists. eexists. split; [reflexivity|]. split; [reflexivity|]. split; [rewrite <- EE in *; exact HR1|]. split; [exact El|]. cbn [with_io with_prob with_out io_loc]. rewrite map_map. reflexivity.
Qed.

Lemma rcells_ok s ss labels inp : region_set_is (p_in b) s ss labels -> in_ok inp -> cells_of nn P s inp = Ok (array_split (map (nn ss) (samples b)) P).
Proof.
  intros Hs (H & L & _). pose proof (rset_held _ _ _ _ Hs) as Hh. unfold cells_of, new_disc, check_nums. cbv zeta. cbn [d_out d_in need bind]. rewrite (held_count P _ _ _ Hh). cbn [bind].
  rewrite (proj2 (proj2 (proj2 Hh))), Nat.eqb_refl. cbn [bind]. unfold set_ii_ptr. cbn [d_ein need bind]. unfold localized. rewrite L. cbn [bind d_in need]. unfold loc_values. rewrite L. cbn [bind].
  destruct (held_query_split nn P (p_in b) s ss (samples b) HP Hh) as (s1 & -> & _). reflexivity.
Qed.
Lemma rflags_ok s ss labels region ps : ss <> [] -> region_set_is (p_in b) s ss labels ->
  fancy (map (fun l => qeqb l region) labels) (array_split (map (nn ss) ps) P) = Ok (array_split (map (in_the_region nn ss labels region) ps) P).
Proof.
  intros NS Hs. pose proof (rset_len _ _ _ _ Hs) as LL. rewrite (fancy_split _ false P _ HP).
  - rewrite map_map. do 2 f_equal. apply map_ext. intros x. unfold in_the_region. pose proof (NN ss x NS) as B. rewrite <- LL in B.
    destruct (nth_error labels (nn ss x)) as [l|] eqn:E; [|apply nth_error_None in E; lia]. apply nth_error_nth. rewrite nth_error_map, E. reflexivity.
  - intros k Hk. apply in_map_iff in Hk. destruct Hk as (x & <- & _). rewrite map_length, LL. apply NN. exact NS.
Qed.
Lemma rmarker_ok s ss labels region : region_set_is (p_in b) s ss labels ->
  marker s region = if existsb (fun l => qeqb l region) labels then Ok (map (fun l => qeqb l region) labels) else Raise WrongArgumentType.
Proof.
  intros (_ & _ & _ & _ & G). unfold marker. rewrite G. cbn [vec_arr rows]. rewrite scalars_nums. cbn [bind]. cbv zeta.
  assert (E : existsb (fun x => x) (map (fun l => qeqb l region) labels) = existsb (fun l => qeqb l region) labels) by (clear; induction labels as [|l r IH]; [reflexivity|cbn [map existsb]; rewrite IH; reflexivity]).
  rewrite E. reflexivity.
Qed.
Lemma mc_ok s ss labels region e en inp : ss <> [] -> region_set_is (p_in b) s ss labels -> d_in e = Some inp -> in_ok inp -> rest_ok e -> io_loc e = Some (array_split c1 P) -> io_loc en = Some (array_split c2 P) ->
  region_mc nn P s region (mk_merr e en) =
  if existsb (fun l => qeqb l region) labels
  then Ok (region_err nn b ss labels region, array_split (sample_ids nn b ss labels region) P, mk_merr (with_in (Some inp) e) en)
  else Raise WrongArgumentType.
Proof.
  intros NS Hs Ei Hi HR El1 El2. unfold region_mc. rewrite (rmarker_ok s ss labels region Hs). destruct (existsb (fun l => qeqb l region) labels); [|reflexivity]. cbn [bind me_disc]. rewrite Ei. cbn [need bind].
  rewrite (rcells_ok s ss labels inp Hs Hi). cbn [bind]. pose proof Hi as (H & L & F). unfold localized. rewrite L. cbn [bind]. rewrite (rflags_ok s) by assumption. cbn [bind].
  destruct HR as (_ & (pr & Ep & Hp & Gp) & _). rewrite Ep. cbn [need bind]. destruct (probs_ok pr Hp Gp) as [-> Q]. cbn [bind]. rewrite (ranks_numbers P _ _ _ _ _ _ HP H F L). cbn [bind]. rewrite Q. cbn [bind]. cbv zeta. cbn [me_new].
  set (pts := sample_points nn b ss labels region).
  assert (LP : length pts = n) by (unfold pts, sample_points, spoint; rewrite !combine_length, map_length, c1_len, c2_len; lia).
  destruct (existsb (qltb 0) (probs b)) eqn:Any.
  - rewrite El1, El2. cbn [subscript bind]. rewrite points_split by (try exact HP; rewrite ?map_length, ?c1_len, ?c2_len; reflexivity). cbn [bind].
    change (combine (combine (map (in_the_region nn ss labels region) (samples b)) c1) c2) with pts. f_equal. f_equal.
    pose proof (region_mc_formula (probs b) (array_split (map ep_of pts) P)) as F1. cbv zeta in F1. rewrite array_split_concat, as_point_ep in F1 by exact HP.
    pose proof (mc_ids P (probs b) pts HP) as F2. destruct (region_error_mc (probs b) (array_split (map ep_of pts) P)) as [x ids]. cbn [fst snd] in *. rewrite F1, F2. reflexivity.
  - f_equal. f_equal. f_equal.
    + unfold region_err. cbv zeta. fold pts. unfold some_event_empty, total_change. rewrite (no_events _ Any). reflexivity.
    + unfold sample_ids. cbv zeta. fold pts. rewrite (map_ext _ (fun _ => Fin 0%Qc)) by (intros t; apply none_ids; exact Any). rewrite array_split_map, map_map.
      assert (X : same_lengths (array_split (samples b) P) (array_split pts P)) by (apply split_same_lengths; [exact HP|congruence]). clear - X.
      induction X as [|u v l m E X IH]; [reflexivity|]. cbn [map]. f_equal; [|exact IH]. rewrite E. clear. induction v as [|t v IH]; [reflexivity|]. cbn [length repeat map]. f_equal. exact IH.
Qed.

(** the loop over the regions *)
Definition probs_in (e : disc cell) (inp : sset cell) : Prop := d_in e = Some inp /\ in_ok inp /\ rest_ok e /\ io_loc e = Some (array_split c1 P).
Lemma loop_ok s ss labels inp : ss <> [] -> region_set_is (p_in b) s ss labels -> forall regions e ids, probs_in e inp ->
  if (match regions with [] => true | _ => ee end) && forallb (fun r => existsb (fun l => qeqb l r) labels) regions
  then exists e1, region_loop nn P s (map (total_in (combine (map (nn ss) (samples b)) sp)) (seq 0 (length ss))) regions e ids =
    Ok (map (fun r => (region_prob nn b V ss labels r, region_err nn b ss labels r)) regions, e1,
        match regions with [] => ids | _ => Some (array_split (sample_ids nn b ss labels (last regions 0%Qc)) P) end) /\ probs_in e1 inp
  else region_loop nn P s (map (total_in (combine (map (nn ss) (samples b)) sp)) (seq 0 (length ss))) regions e ids = Raise WrongArgumentType.
Proof.
  intros NS Hs. induction regions as [|r rest IH]; intros e ids (Ei & Hi & HR & El).
  - cbn. exists e. split; [reflexivity|]. unfold probs_in. auto.
  - cbn [region_loop]. rewrite (marked_ok s ss labels r Hs NS). cbn [bind]. pose proof (new_ok e inp Ei Hi HR El) as HN. destruct ee eqn:EE; [|cbn [andb]; rewrite HN; reflexivity].
    destruct HN as (e1 & en & -> & Ei1 & HR1 & El1 & El2). cbn [bind]. rewrite <- EE in *. rewrite (mc_ok s ss labels r e1 en inp NS Hs) by (try assumption; congruence). cbn [forallb andb].
    rewrite EE. cbn [andb]. destruct (existsb (fun l => qeqb l r) labels); [|reflexivity]. cbn [bind andb fst snd me_disc]. rewrite EE in IH.
    assert (J : probs_in (with_in (Some inp) e1) inp) by (unfold probs_in; cbn [with_in d_in io_loc]; auto).
    specialize (IH (with_in (Some inp) e1) (Some (array_split (sample_ids nn b ss labels r) P)) J).
    destruct rest as [|r2 rest].
    + cbn [andb forallb] in *. destruct IH as (e2 & -> & J2). cbn [bind fst snd map last]. exists e2. auto.
    + cbn [andb] in IH. destruct (forallb _ (r2 :: rest)); [|rewrite IH; reflexivity]. destruct IH as (e2 & -> & J2). cbn [bind fst snd]. exists e2. split; [reflexivity|exact J2].
Qed.
End Region.
