From Coq Require Import List Arith Bool QArith Qcanon Lia.
From Verif Require Import Err Num Ext NumPy Lists SampleSet_Model SampleSet_Spec SampleSet_Proofs Prob_Model Prob_Spec
  Disc_Model Disc_Spec Disc_Proofs Workflow_Model Workflow_Proofs VolHist_Proofs Volume_Model Volume_Spec Volume_Proofs Error_Model Error_Spec Error_Proofs
  ErrorDisc_Model ErrorDisc_Spec ErrorDisc_Proofs ErrorDisc2_Proofs ErrorDisc3_Proofs.
Import ListNotations.
Local Open Scope nat_scope.
Local Open Scope err_scope.

Lemma local_number (s : sset cell) r n : local_rows s r n -> width_is_dim s -> check_num_local s r = Ok (Some n).
Proof.
  intros H W. apply check_width_ok in W. pose proof (check_num_local_ok (set_glob Values None s) r n) as C. unfold check_num_local in *. rewrite W. cbn [bind].
  assert (E : forall l, map (local_length (set_glob Values None s) r) l = map (local_length s r) l) by (intros l; apply map_ext; intros a; reflexivity).
  rewrite E in C. specialize (C ltac:(cbn [set_glob glob]; apply upd_same)). destruct (scan_lengths _ None); cbn [bind] in *.
  - unfold check_width in C. cbn [set_glob glob] in C. rewrite upd_same in C. cbn [bind] in C. apply C. exact H.
  - discriminate C. exact H.
Qed.

(** nothing is lost *)
Lemma ptr_refl {A} (o : option A) : pointer_same o o.
Proof. intros x E. exact E. Qed.
Lemma stored_refl o : stored_same o o.
Proof. destruct o; cbn; auto. Qed.
Lemma stored_data s s' : same_data s s' -> stored_same (Some s) (Some s').
Proof. intros H. exact H. Qed.
Lemma inputs_stored o o' : stored_same o o' -> inputs_same o o'.
Proof. destruct o, o'; cbn; auto. intros [D G]. split; [exact D|]. intros a N. left. apply G. exact N. Qed.
Lemma stored_trans o o' o'' : stored_same o o' -> stored_same o' o'' -> stored_same o o''.
Proof. destruct o, o', o''; cbn; try tauto. apply same_trans. Qed.
Lemma inputs_trans o o' o'' : inputs_same o o' -> inputs_same o' o'' -> inputs_same o o''.
Proof.
  destruct o as [s|], o' as [s'|], o'' as [s''|]; cbn; try tauto. intros [D G] [D' G']. split; [congruence|]. intros a N. destruct (G a N) as [E|E]; [|auto]. destruct (G' a N) as [E'|[-> E']]; [left; congruence|].
  right. split; [reflexivity|]. congruence.
Qed.
Lemma lost_refl d : nothing_lost d d.
Proof. do 3 (split; [first [apply stored_refl|apply inputs_stored, stored_refl]|]). split; [apply stored_refl|]. do 2 (split; [reflexivity|]). do 5 (split; [apply ptr_refl|]). apply ptr_refl. Qed.
Lemma ptr_trans {A} (o o' o'' : option A) : pointer_same o o' -> pointer_same o' o'' -> pointer_same o o''.
Proof. intros H H' x E. apply H', H, E. Qed.
Lemma lost_trans d d' d'' : nothing_lost d d' -> nothing_lost d' d'' -> nothing_lost d d''.
Proof.
  intros (A1 & A2 & A3 & A4 & A5 & A6 & A7 & A8 & A9 & A10 & A11 & A12) (B1 & B2 & B3 & B4 & B5 & B6 & B7 & B8 & B9 & B10 & B11 & B12).
  split; [eapply inputs_trans; eassumption|]. do 3 (split; [eapply stored_trans; eassumption|]). do 2 (split; [congruence|]). do 5 (split; [eapply ptr_trans; eassumption|]). eapply ptr_trans; eassumption.
Qed.
Lemma lost_in d s s' : d_in d = Some s -> inputs_same (Some s) (Some s') -> nothing_lost d (with_in (Some s') d).
Proof.
  intros E H. split; [rewrite E; exact H|]. do 3 (split; [apply stored_refl|]). do 2 (split; [reflexivity|]). do 5 (split; [apply ptr_refl|]). apply ptr_refl.
Qed.
Lemma lost_ein d s s' : d_ein d = Some s -> same_data s s' -> nothing_lost d (with_ein (Some s') d).
Proof.
  intros E H. split; [apply inputs_stored, stored_refl|]. do 2 (split; [apply stored_refl|]). split; [rewrite E; exact H|]. do 2 (split; [reflexivity|]). do 5 (split; [apply ptr_refl|]). apply ptr_refl.
Qed.
Lemma lost_out d s s' : d_out d = Some s -> same_data s s' -> nothing_lost d (with_out (Some s') d).
Proof.
  intros E H. split; [apply inputs_stored, stored_refl|]. split; [rewrite E; exact H|]. do 2 (split; [apply stored_refl|]). do 2 (split; [reflexivity|]). do 5 (split; [apply ptr_refl|]). apply ptr_refl.
Qed.
Lemma lost_prob d s s' : d_prob d = Some s -> same_data s s' -> nothing_lost d (with_prob (Some s') d).
Proof.
  intros E H. split; [apply inputs_stored, stored_refl|]. split; [apply stored_refl|]. split; [rewrite E; exact H|]. split; [apply stored_refl|]. do 2 (split; [reflexivity|]). do 5 (split; [apply ptr_refl|]). apply ptr_refl.
Qed.
Lemma lost_io d l bs : pointer_same (io d) l -> pointer_same (io_loc d) bs -> nothing_lost d (with_io l bs d).
Proof.
  intros E H. split; [apply inputs_stored, stored_refl|]. do 3 (split; [apply stored_refl|]). do 2 (split; [reflexivity|]). do 2 (split; [assumption|]). do 3 (split; [apply ptr_refl|]). apply ptr_refl.
Qed.
Lemma lost_ii d l bs : pointer_same (ii d) l -> pointer_same (ii_loc d) bs -> nothing_lost d (with_ii l bs d).
Proof.
  intros E H. split; [apply inputs_stored, stored_refl|]. do 3 (split; [apply stored_refl|]). do 2 (split; [reflexivity|]). do 2 (split; [apply ptr_refl|]). do 2 (split; [assumption|]). split; [apply ptr_refl|]. apply ptr_refl.
Qed.
Lemma ptr_fill g l : pointer_same g (fill g l).
Proof. intros x ->. unfold fill. destruct l; reflexivity. Qed.
Lemma lost_globalize d : nothing_lost d (globalize_ptrs d).
Proof.
  split; [apply inputs_stored, stored_refl|]. do 3 (split; [apply stored_refl|]). do 2 (split; [reflexivity|]). split; [apply ptr_fill|]. split; [apply ptr_refl|]. split; [apply ptr_fill|]. split; [apply ptr_refl|]. split; [apply ptr_fill|apply ptr_refl].
Qed.

Section Object.
Context (nn : list cell -> cell -> nat) (P : nat) (HP : 0 < P) (NN : forall l x, l <> [] -> nn l x < length l).
Context (b : problem) (WP : well_posed b).
Notation c1 := (cells_before nn b).
Notation c2 := (cells_after nn b).
Notation n := (length (samples b)).

Lemma c1_length : length c1 = n.
Proof. unfold cells_before. rewrite map_length. apply WP. Qed.
Lemma c2_length : length c2 = n.
Proof. unfold cells_after. rewrite map_length, combine_length. destruct WP as (_ & _ & -> & -> & _). lia. Qed.

(** fields of a discretization that holds the problem *)
Definition inputs_are (V : list Qc) (d : disc cell) : Prop := exists w, stored_volumes d w /\ input_volumes nn b w = V.
Definition inv (V : list Qc) (m : model_error) : Prop :=
  holds_problem nn P b (me_disc m) /\ io_loc (me_disc m) = Some (array_split c1 P) /\ inputs_are V (me_disc m) /\
  (exists inp, d_in (me_new m) = Some inp /\ points_are P (p_in b) inp (samples b)) /\ emulated_set_is P b (d_ein (me_new m)) /\
  io_loc (me_new m) = Some (array_split c2 P) /\ (forall l, io (me_new m) = Some l -> l = c2).

Lemma hp_in d inp1 : holds_problem nn P b d -> points_are P (p_in b) inp1 (samples b) -> holds_problem nn P b (with_in (Some inp1) d).
Proof. intros (_ & H) H1. split; [exists inp1; auto|exact H]. Qed.
Lemma hp_ein d em1 : holds_problem nn P b d -> emulated_set_is P b (Some em1) -> holds_problem nn P b (with_ein (Some em1) d).
Proof. intros (H1 & H2 & H3 & H4 & H) H5. split; [exact H1|]. split; [exact H2|]. split; [exact H3|]. split; [exact H5|exact H]. Qed.

(** ** The constructor *)
Lemma new_inv V d : holds_problem nn P b d -> inputs_are V d -> exists m, new_model_error nn P d = Ok m /\ inv V m /\ nothing_lost d (me_disc m) /\
  (forall pr, d_prob d = Some pr -> exists pr1, d_prob (me_disc m) = Some pr1 /\ loc pr1 = loc pr).
Proof.
  intros HH HV. pose proof HH as ((inp & Ei & Hi) & (out & Eo & Ho & Ge) & (pr & Ep & Hp & Gp) & Hem & Hio & Hiol & Hii).
  destruct WP as (NX & NC & Lz & Le & Hl & Lp & _). unfold new_model_error. rewrite Eo. cbn [need bind].
  destruct (g2l_in_step P out _ (proj1 Ho)) as (out1 & -> & I1 & S1 & _ & L1). cbn [bind].
  assert (Ho1 : points_are P (p_out b) out1 (map row (outputs b))) by (eapply points_data; eassumption).
  assert (Ge1 : glob out1 ErrorEstimates = Some (mk_arr (map row (estimates b)) [p_out b])) by (rewrite (proj2 S1) by discriminate; exact Ge).
  unfold has_estimates. rewrite Ge1. cbv zeta.
  assert (C : check_nums P (with_out (Some out1) d) = Ok n).
  { unfold check_nums. cbn [with_out d_out d_in need bind]. rewrite (count_in_step P out1 _ I1). cbn [bind]. rewrite Ei. cbn [need bind]. rewrite (count_in_step P inp _ (proj1 Hi)). cbn [bind].
    rewrite (proj2 (proj2 Ho1)), (proj2 (proj2 Hi)). rewrite map_length, Lz, Nat.eqb_refl. reflexivity. }
  rewrite C. cbn [bind].
  pose proof (L1 Values _ (proj2 (proj2 Ho))) as LV. pose proof (L1 ErrorEstimates _ Ge) as LE.
  assert (X : exists d2 pr1, match io_loc (with_out (Some out1) d) with None => set_io_ptr nn P true (with_out (Some out1) d) | Some _ => Ok (with_out (Some out1) d) end = Ok d2 /\
    d_in d2 = d_in d /\ d_out d2 = Some out1 /\ d_prob d2 = Some pr1 /\ d_ein d2 = d_ein d /\ ii_loc d2 = ii_loc d /\
    points_are P (p_out b) pr1 (cells b) /\ glob pr1 Probabilities = Some (vec_arr (probs b)) /\ io_loc d2 = Some (array_split c1 P) /\ (forall l, io d2 = Some l -> l = c1) /\ nothing_lost d d2 /\ loc pr1 = loc pr).
  { cbn [with_out io_loc]. destruct (io_loc d) as [bs|] eqn:El.
    - exists (with_out (Some out1) d), pr. split; [reflexivity|]. cbn [with_out d_in d_out d_prob d_ein ii_loc io_loc io]. do 7 (split; [first [reflexivity|assumption]|]).
      split; [rewrite El, (Hiol bs eq_refl); reflexivity|]. split; [exact Hio|]. split; [|reflexivity]. eapply lost_out; eassumption.
    - destruct (io_points P HP nn true (p_out b) out1 (map row (outputs b)) pr (cells b) (with_out (Some out1) d) eq_refl Ho1 Ep Hp) as (out2 & pr1 & E & _ & _ & Hp1 & Sp & Same & LP).
      exists (with_io (Some (map (nn (cells b)) (map row (outputs b)))) (Some (array_split (map (nn (cells b)) (map row (outputs b))) P)) (with_prob (Some pr1) (with_out (Some out2) (with_out (Some out1) d)))), pr1.
      split; [exact E|]. rewrite (Same _ LV). cbn [with_io with_prob with_out d_in d_out d_prob d_ein ii_loc io_loc io]. rewrite map_map. do 5 (split; [reflexivity|]). split; [exact Hp1|].
      split; [rewrite (proj2 Sp) by discriminate; exact Gp|]. split; [reflexivity|]. split; [intros l [= <-]; reflexivity|]. split; [|exact LP].
      eapply lost_trans; [eapply lost_out; eassumption|]. eapply lost_trans; [|apply lost_io; [|cbn [with_prob with_out io_loc]; rewrite El; discriminate]].
      + change (with_prob (Some pr1) (with_out (Some out1) (with_out (Some out1) d))) with (with_prob (Some pr1) (with_out (Some out1) d)). eapply lost_prob; eassumption.
      + cbn [with_prob with_out io]. intros l E0. rewrite (Hio l E0). reflexivity. }
  destruct X as (d2 & pr1 & -> & X1 & X2 & X3 & X4 & X5 & Hp1 & Gp1 & X6 & X7 & X8 & X9). cbn [bind]. rewrite X2. cbn [need bind].
  unfold shifted, loc_values. rewrite LV. cbn [bind]. rewrite LE. cbn [subscript bind].
  rewrite add_split; [|exact HP|congruence|intros z Hz; apply Hl; auto|intros z Hz; apply Hl; auto]. cbn [bind].
  set (sums := map (fun ze : list Qc * list Qc => row (plus (fst ze) (snd ze))) (combine (outputs b) (estimates b))).
  unfold set_io_ptr. cbn [with_out d_out d_prob need bind]. unfold localized. cbn [set_loc loc]. rewrite upd_same. cbn [bind]. rewrite X3. cbn [need bind].
  unfold loc_values. cbn [set_loc loc]. rewrite upd_same. cbn [bind].
  destruct (query_in_step P nn pr1 _ (cells b) (p_out b) (split_arr P (mk_arr sums [p_out b])) (proj1 Hp1) (proj2 (proj2 Hp1))) as (pr2 & -> & _); [intros z Hz; apply split_arr_tail in Hz; exact Hz|].
  cbn [bind fst snd]. eexists. split; [reflexivity|]. split; [|split; [exact X8|cbn [me_disc]; intros pr' E'; rewrite Ep in E'; injection E' as <-; exists pr1; auto]].
  assert (Hemn : emulated_set_is P b (d_ein d2)) by (rewrite X4; exact Hem).
  unfold inv. cbn [me_disc me_new]. split.
  - split; [exists inp; rewrite X1; auto|]. split; [exists out1; auto|]. split; [exists pr1; auto|]. split; [exact Hemn|]. split; [exact X7|]. split; [rewrite X6; congruence|]. rewrite X5. exact Hii.
  - split; [exact X6|]. split; [destruct HV as (w & (inp' & Ei' & Gv) & Ev); exists w; split; [exists inp'; rewrite X1; auto|exact Ev]|].
    cbn [with_io with_prob with_out d_in d_ein io_loc io]. split; [exists inp; rewrite X1; auto|]. split; [exact Hemn|]. split; [|congruence].
    rewrite blocks_ptrs. unfold sums. rewrite map_map. reflexivity.
Qed.

(** ** Volumes *)
Lemma finite_fins l : finite (map Fin l) = Ok l.
Proof. induction l as [|q l IH]; [reflexivity|]. cbn [map finite]. rewrite IH. reflexivity. Qed.
Lemma vec_len v : length (rows (vec_arr v)) = length v.
Proof. apply map_length. Qed.
Lemma volumes_stored inp xs : points_are P (p_in b) inp xs -> glob inp Volumes = None -> loc inp Volumes = None.
Proof. intros (I & _) G. destruct (loc inp Volumes) as [bs|] eqn:L; [|reflexivity]. destruct (in_step_loc P inp _ Volumes bs I L) as (x & Gx & _). congruence. Qed.
Lemma with_volumes inp v : points_are P (p_in b) inp (samples b) -> loc inp Volumes = None -> length v = n ->
  exists inp1, global_to_local P (set_glob Volumes (Some (vec_arr v)) inp) = Ok inp1 /\ points_are P (p_in b) inp1 (samples b) /\
    glob inp1 Volumes = Some (vec_arr v) /\ loc inp1 Volumes = Some (split_arr P (vec_arr v)) /\
    (dim inp1 = dim inp /\ forall a, a <> KdtreeValues -> a <> Volumes -> glob inp1 a = glob inp a).
Proof.
  intros (I & D & G) L Lv. pose proof (set_glob_in_step P inp n Volumes (vec_arr v) I ltac:(discriminate) ltac:(discriminate) L ltac:(rewrite vec_len; exact Lv)) as I'.
  destruct (g2l_in_step P _ _ I') as (inp1 & E & I1 & (D1 & G1) & _ & A). exists inp1. split; [exact E|].
  assert (GV : glob (set_glob Volumes (Some (vec_arr v)) inp) Volumes = Some (vec_arr v)) by (cbn [set_glob glob]; apply upd_same).
  split; [split; [exact I1|split; [rewrite D1; exact D|]]|].
  - rewrite G1 by discriminate. cbn [set_glob glob]. rewrite upd_other by discriminate. exact G.
  - split; [rewrite G1 by discriminate; exact GV|]. split; [apply A; exact GV|]. split; [rewrite D1; reflexivity|]. intros a N1 N2. rewrite G1 by exact N1. cbn [set_glob glob]. apply upd_other. congruence.
Qed.
Lemma map_same {A B} (c : B) (l : list A) : map (fun _ => c) l = repeat c (length l).
Proof. induction l as [|a l IH]; [reflexivity|]. cbn [map length repeat]. f_equal. exact IH. Qed.
Lemma ready_inv V d : holds_problem nn P b d -> inputs_are V d -> exists d1 inp1, volumes_ready nn P d = Ok d1 /\ holds_problem nn P b d1 /\
  d_in d1 = Some inp1 /\ glob inp1 Volumes = Some (vec_arr V) /\ loc inp1 Volumes = Some (split_arr P (vec_arr V)) /\ length V = n /\ io_loc d1 = io_loc d /\ nothing_lost d d1 /\ d_prob d1 = d_prob d.
Proof.
  intros HH (w & (inp & Ei & Gv) & Ev). pose proof HH as ((inp' & Ei' & Hi) & _ & _ & Hem & _). rewrite Ei in Ei'. injection Ei' as <-.
  unfold volumes_ready. rewrite Ei. cbn [need bind]. rewrite Gv. destruct w as [v|]; cbn [option_map].
  - cbn [input_volumes] in Ev. subst v. cbn [bind]. rewrite Ei. cbn [need bind].
    assert (LV : length V = n) by (rewrite <- vec_len; apply (proj1 (proj1 (proj1 Hi)) Volumes); exact Gv).
    destruct (loc inp Volumes) as [bs|] eqn:L.
    + exists d, inp. split; [reflexivity|]. split; [exact HH|]. split; [exact Ei|]. split; [exact Gv|]. split; [|split; [exact LV|split; [reflexivity|split; [apply lost_refl|reflexivity]]]]. destruct (in_step_loc P inp _ Volumes bs (proj1 Hi) L) as (x & Gx & ->). cbn in Gv. congruence.
    + destruct (g2l_in_step P inp _ (proj1 Hi)) as (inp1 & -> & I1 & S1 & _ & A). cbn [bind]. exists (with_in (Some inp1) d), inp1. split; [reflexivity|].
      split; [apply hp_in; [exact HH|eapply points_data; eassumption]|]. split; [reflexivity|]. split; [rewrite (proj2 S1) by discriminate; exact Gv|]. split; [apply A; exact Gv|]. split; [exact LV|]. split; [reflexivity|]. split; [|reflexivity]. eapply lost_in; [exact Ei|apply inputs_stored; exact S1].
  - pose proof (volumes_stored inp _ Hi Gv) as L. unfold emulated_set_is in Hem. cbn [input_volumes] in Ev. destruct (emulated b) as [ps|] eqn:Eb.
    + destruct (d_ein d) as [em|] eqn:Ee; [|contradiction]. unfold emulated_volumes. rewrite (count_in_step P inp _ (proj1 Hi)). cbn [bind].
      destruct (points_localized P (p_in b) em ps Hem) as (em1 & -> & Hem1 & Sem & Lem). cbn [bind]. unfold loc_values. rewrite Lem. cbn [bind].
      destruct (points_query P nn (p_in b) em1 ps inp (samples b) Hem1 Hi Lem) as (inp1 & -> & Hi1 & S1 & L1). cbn [bind fst snd].
      assert (NP : ps <> []) by (intros ->; apply WP; exact Eb).
      rewrite emulated_eq by (rewrite array_split_concat by exact HP; destruct ps; [contradiction|discriminate]). rewrite array_split_concat by exact HP.
      assert (EV : map (fun i => Fin (fraction (fun k => k) (map (nn (samples b)) ps) i)) (seq 0 n) = map Fin V).
      { rewrite <- Ev, map_map. apply map_ext. intros i. unfold fraction, hits. rewrite map_length, counts_map. reflexivity. }
      rewrite EV, finite_fins. cbn [bind].
      assert (LV : length V = n) by (rewrite <- Ev, map_length, seq_length; reflexivity).
      destruct (with_volumes inp1 V Hi1) as (inp2 & -> & Hi2 & Gv2 & Lv2 & SV2); [rewrite L1; exact L|exact LV|]. cbn [bind fst snd].
      cbn [with_ein with_in d_in need bind]. rewrite Lv2. exists (with_ein (Some em1) (with_in (Some inp2) d)), inp2. split; [reflexivity|].
      split; [apply hp_ein; [apply hp_in; [exact HH|exact Hi2]|unfold emulated_set_is; rewrite Eb; exact Hem1]|]. do 5 (split; [first [assumption|reflexivity]|]). split; [|reflexivity].
      apply (lost_trans _ (with_in (Some inp2) d)); [|apply (lost_ein (with_in (Some inp2) d) em em1); [exact Ee|exact Sem]]. eapply lost_in; [exact Ei|]. apply (inputs_trans _ (Some inp1)); [apply inputs_stored; exact S1|].
      split; [exact (proj1 SV2)|]. intros a Na. destruct (attr_eq_dec a Volumes) as [->|Nv]; [right; split; [reflexivity|]; rewrite (proj2 S1) by discriminate; exact Gv|left; apply SV2; assumption].
    + destruct (d_ein d) as [em|] eqn:Ee; [contradiction|]. unfold estimate_mc. rewrite (count_in_step P inp _ (proj1 Hi)). cbn [bind].
      destruct (Nat.eqb_spec n 0) as [E0|_]; [destruct WP as (NX & _); destruct (samples b); [contradiction|discriminate]|].
      assert (EV : repeat (1 / qn n)%Qc n = V) by (rewrite <- Ev; symmetry; apply map_same). rewrite EV.
      assert (LV : length V = n) by (rewrite <- EV; apply repeat_length).
      destruct (with_volumes inp V Hi L LV) as (inp1 & -> & Hi1 & Gv1 & Lv1 & SV1). cbn [bind with_in d_in need]. rewrite Lv1.
      exists (with_in (Some inp1) d), inp1. split; [reflexivity|]. split; [apply hp_in; assumption|]. do 5 (split; [first [assumption|reflexivity]|]). split; [|reflexivity]. eapply lost_in; [exact Ei|].
      split; [exact (proj1 SV1)|]. intros a Na. destruct (attr_eq_dec a Volumes) as [->|Nv]; [right; auto|left; apply SV1; assumption].
Qed.

(** ** Questions *)
Definition stays (m m1 : model_error) : Prop := nothing_lost (me_disc m) (me_disc m1) /\ d_prob (me_disc m1) = d_prob (me_disc m).
Lemma probs_read d pr : holds_problem nn P b d -> d_prob d = Some pr -> check_num P pr = Ok (length (cells b)) /\ out_probs (length (cells b)) pr = Ok (probs b).
Proof.
  intros (_ & _ & (pr' & E & Hp & Gp) & _) E'. rewrite E in E'. injection E' as <-. split; [apply (count_in_step P _ _ (proj1 Hp))|].
  unfold out_probs. destruct (Nat.eqb_spec (length (cells b)) 0) as [E0|_]; [destruct WP as (_ & NC & _); destruct (cells b); [contradiction|discriminate]|].
  rewrite Gp. cbn [subscript bind vec_arr rows]. apply scalars_nums.
Qed.
Lemma in_combine_snd {A} (l : list A) (v : list Qc) e : (forall x, In x v -> (0 <= x)%Qc) -> In e (combine l v) -> (0 <= snd e)%Qc.
Proof. intros N H. destruct e as [a x]. apply in_combine_r in H. apply N. exact H. Qed.
Lemma contours_inv V m : (forall x, In x V -> (0 <= x)%Qc) -> inv V m -> exists m1, contour_errors nn P m = Ok (contour_answer nn b V, m1) /\ inv V m1 /\ stays m m1.
Proof.
  intros NV (HH & Hl & HV & Hn1 & Hn2 & Hn3 & Hn4). destruct (ready_inv V (me_disc m) HH HV) as (d1 & inp1 & E & HH1 & Ei & Gv & Lv & LV & El & ST).
  unfold contour_errors. rewrite E. cbn [bind]. cbv zeta.
  assert (J : inv V (mk_merr d1 (me_new m))).
  { split; [exact HH1|]. cbn [me_disc me_new]. split; [congruence|]. split; [exists (Some V); split; [exists inp1; auto|reflexivity]|auto]. }
  destruct HH1 as (A1 & A2 & (pr & Ep & Hp & Gp) & A3). rewrite Ep. cbn [need bind].
  destruct (probs_read d1 pr (conj A1 (conj A2 (conj (ex_intro _ pr (conj Ep (conj Hp Gp))) A3))) Ep) as [-> Q]. cbn [bind]. rewrite Q. cbn [bind].
  destruct (existsb (qltb 0) (probs b)) eqn:Any.
  - rewrite El, Hl, Hn3. cbn [subscript bind]. rewrite Ei. cbn [need bind]. rewrite Lv. cbn [subscript bind]. rewrite split_vec. cbn [bind].
    rewrite beside_split by (try exact HP; rewrite c1_length; congruence). cbn [bind]. rewrite beside_split by (try exact HP; rewrite c1_length, c2_length; reflexivity). cbn [bind].
    rewrite beside_split by (try exact HP; rewrite combine_length, c1_length, c2_length; lia). cbn [bind]. eexists. split; [|split; [exact J|exact ST]].
    rewrite contours_formula by (rewrite array_split_concat by exact HP; intros e; apply in_combine_snd; exact NV). rewrite array_split_concat by exact HP. reflexivity.
  - eexists. split; [|split; [exact J|exact ST]]. rewrite (contours_none (probs b) Any (moved_volumes nn b V)). reflexivity.
Qed.

Lemma marker_ok s ss labels region : region_points_are P (p_in b) s ss labels ->
  marker s region = if existsb (fun l => qeqb l region) labels then Ok (map (fun l => qeqb l region) labels) else Raise WrongArgumentType.
Proof.
  intros (_ & G). unfold marker. rewrite G. cbn [vec_arr rows]. rewrite scalars_nums. cbn [bind]. cbv zeta.
  assert (E : existsb (fun x => x) (map (fun l => qeqb l region) labels) = existsb (fun l => qeqb l region) labels) by (clear; induction labels as [|l r IH]; [reflexivity|cbn [map existsb]; rewrite IH; reflexivity]).
  rewrite E. reflexivity.
Qed.
Lemma cells_ok s ss em ps : points_are P (p_in b) s ss -> points_are P (p_in b) em ps -> cells_of nn P s em = Ok (array_split (map (nn ss) ps) P).
Proof.
  intros Hs He. unfold cells_of, new_disc, check_nums. cbv zeta. cbn [d_out d_in need bind]. rewrite (count_in_step P s _ (proj1 Hs)). cbn [bind]. rewrite (proj2 (proj2 Hs)), Nat.eqb_refl. cbn [bind].
  destruct (ii_points P HP nn false (p_in b) em ps s ss (mk_disc (Some s) (Some s) None (Some em) None None None None None None None None) eq_refl He eq_refl Hs) as (em1 & s1 & -> & _). reflexivity.
Qed.
Lemma flags_ok s ss labels region ps : ss <> [] -> region_points_are P (p_in b) s ss labels ->
  fancy (map (fun l => qeqb l region) labels) (array_split (map (nn ss) ps) P) = Ok (array_split (map (in_the_region nn ss labels region) ps) P).
Proof.
  intros NS (Hs & G). assert (LL : length labels = length ss) by (rewrite <- vec_len; apply (proj1 (proj1 (proj1 Hs)) Region); exact G).
  rewrite (fancy_split _ false P _ HP).
  - rewrite map_map. do 2 f_equal. apply map_ext. intros x. unfold in_the_region. pose proof (NN ss x NS) as B. rewrite <- LL in B.
    destruct (nth_error labels (nn ss x)) as [l|] eqn:E; [|apply nth_error_None in E; lia]. apply nth_error_nth. rewrite nth_error_map, E. reflexivity.
  - intros k Hk. apply in_map_iff in Hk. destruct Hk as (x & <- & _). rewrite map_length, LL. apply NN. exact NS.
Qed.
(** the estimate with emulated points *)
Lemma estimate_ok s ss labels region ps d dn : ss <> [] -> region_points_are P (p_in b) s ss labels -> holds_problem nn P b d -> io d = Some c1 -> io dn = Some c2 ->
  region_estimate P (map (fun l => qeqb l region) labels) (array_split (map (nn (samples b)) ps) P) (array_split (map (nn ss) ps) P) d dn =
  let pts := emulated_points nn b ss labels region ps in if some_event_empty (probs b) pts then Raise PyZeroDivision else Ok (total_change (probs b) pts).
Proof.
  intros NS Hs HH E1 E2. unfold region_estimate. rewrite (flags_ok s) by assumption. cbn [bind].
  pose proof HH as (_ & _ & (pr & Ep & _) & _). rewrite Ep. cbn [need bind]. destruct (probs_read d pr HH Ep) as [-> Q]. cbn [bind]. rewrite Q. cbn [bind]. cbv zeta.
  assert (NX : samples b <> []) by apply WP.
  assert (B : forall k (c : list nat), length c = n -> In k (map (nn (samples b)) ps) -> k < length c) by (intros k c Lc Hk; apply in_map_iff in Hk; destruct Hk as (x & <- & _); rewrite Lc; apply NN; exact NX).
  destruct (existsb (qltb 0) (probs b)) eqn:Any.
  - rewrite E1. cbn [subscript bind]. rewrite (fancy_split c1 0 P) by (try exact HP; intros k; apply B, c1_length). cbn [bind]. rewrite E2. cbn [subscript bind].
    rewrite (fancy_split c2 0 P) by (try exact HP; intros k; apply B, c2_length). cbn [bind]. rewrite !map_map. rewrite points_split by (try exact HP; rewrite !map_length; reflexivity). cbn [bind].
    rewrite region_formula. rewrite array_split_concat by exact HP. rewrite as_point_ep.
    assert (EP : combine (combine (map (in_the_region nn ss labels region) ps) (map (fun x => nth (nn (samples b) x) c1 0) ps)) (map (fun x => nth (nn (samples b) x) c2 0) ps) = emulated_points nn b ss labels region ps).
    { unfold emulated_points. clear. induction ps as [|p ps IH]; [reflexivity|]. cbn [map combine]. f_equal. exact IH. }
    rewrite EP. reflexivity.
  - rewrite region_formula. cbn [concat map]. unfold some_event_empty, total_change. rewrite (no_events _ Any). reflexivity.
Qed.
Lemma global_input_ok d : holds_problem nn P b d -> exists inp inp1, d_in d = Some inp /\ global_input d = Ok (with_in (Some inp1) d) /\ points_are P (p_in b) inp1 (samples b) /\ same_data inp inp1.
Proof.
  intros ((inp & Ei & Hi) & _). destruct (l2g_in_step P HP inp _ (proj1 Hi)) as (inp1 & E & I1 & S1 & _). exists inp, inp1. split; [exact Ei|].
  unfold global_input. rewrite Ei. cbn [need bind]. rewrite E. cbn [bind]. split; [reflexivity|]. split; [eapply points_data; eassumption|exact S1].
Qed.
Lemma globalized_hp d : holds_problem nn P b d -> holds_problem nn P b (globalize_ptrs d).
Proof.
  intros (H1 & H2 & H3 & H4 & H5 & H6 & H7). split; [exact H1|]. split; [exact H2|]. split; [exact H3|]. split; [exact H4|]. split; [|split; [exact H6|exact H7]].
  cbn [globalize_ptrs with_io io]. unfold fill. intros l. destruct (io_loc d) as [bs|] eqn:E; [|apply H5]. destruct (io d); [apply H5|]. intros [= <-]. rewrite (H6 bs eq_refl). apply array_split_concat. exact HP.
Qed.
Lemma filled g c : (forall l, g = Some l -> l = c) -> fill g (Some (array_split c P)) = Some c.
Proof. intros H. unfold fill. destruct g as [l|]; [rewrite (H l eq_refl); reflexivity|]. rewrite array_split_concat by exact HP. reflexivity. Qed.
Lemma inputs_same V d inp inp1 : d_in d = Some inp -> same_data inp inp1 -> inputs_are V d -> forall d', d_in d' = Some inp1 -> inputs_are V d'.
Proof.
  intros Ei (_ & G) (w & (inp' & Ei' & Gv) & Ev) d' E'. rewrite Ei in Ei'. injection Ei' as <-. exists w. split; [|exact Ev]. exists inp1. split; [exact E'|]. rewrite G by discriminate. exact Gv.
Qed.

Lemma mc_inv V s ss labels region m : ss <> [] -> region_points_are P (p_in b) s ss labels -> existsb (fun l => qeqb l region) labels = true -> inv V m ->
  exists ids m1, region_mc nn P s region m = Ok ((let pts := sample_points nn b ss labels region in if some_event_empty (probs b) pts then PInf else Fin (total_change (probs b) pts)), ids, m1) /\ inv V m1 /\ stays m m1.
Proof.
  intros NS Hs Hr (HH & Hl & HV & Hn1 & Hn2 & Hn3 & Hn4). pose proof HH as ((inp & Ei & Hi) & _ & (pr & Ep & _) & _). unfold region_mc. rewrite (marker_ok s ss labels region Hs), Hr. cbn [bind].
  rewrite Ei. cbn [need bind]. rewrite (cells_ok s ss inp (samples b) (proj1 Hs) Hi). cbn [bind].
  destruct (points_localized P (p_in b) inp (samples b) Hi) as (inp1 & -> & Hi1 & S1 & L1). cbn [bind]. rewrite (flags_ok s) by assumption. cbn [bind].
  rewrite Ep. cbn [need bind]. destruct (probs_read _ pr HH Ep) as [-> Q]. cbn [bind].
  assert (NUM : exists nums, each_rank (fun r => do k <- check_num_local inp1 r; subscript k) (seq 0 P) = Ok nums).
  { exists (map (fun r => length (nth r (array_split (samples b) P) [])) (seq 0 P)). apply each_rank_map. intros r Hr0. apply in_seq in Hr0.
    assert (C : check_num_local inp1 r = Ok (Some (length (nth r (array_split (samples b) P) [])))); [|rewrite C; reflexivity].
    destruct Hi1 as (I1 & D1 & G1). apply local_number.
    - split.
      + exists Values, (split_arr P (mk_arr (samples b) [p_in b])), (mk_arr (nth r (array_split (samples b) P) []) [p_in b]). split; [exact L1|].
        rewrite split_rows, nth_error_map. rewrite (nth_error_nth' (array_split (samples b) P) []) by (rewrite array_split_length by exact HP; lia). reflexivity.
      + intros a bs c La Hc. destruct (in_step_loc P inp1 _ a bs I1 La) as (x & Gx & ->). destruct x as [rs tl]. rewrite split_rows, nth_error_map in Hc.
        destruct (nth_error (array_split rs P) r) as [c0|] eqn:E0; [|discriminate]. injection Hc as <-. cbn [rows].
        eapply nth_split; [exact HP| |exact E0|apply nth_error_nth'; rewrite array_split_length by exact HP; lia]. apply (proj1 (proj1 I1) a _ Gx).
    - intros x Gx. rewrite G1 in Gx. injection Gx as <-. exists []. cbn [tail_shape]. congruence. }
  destruct NUM as (nums & ->). cbn [bind]. rewrite Q. cbn [bind]. cbv zeta.
  assert (J : inv V (mk_merr (with_in (Some inp1) (me_disc m)) (me_new m))).
  { split; [apply hp_in; [exact HH|exact Hi1]|]. cbn [me_disc me_new]. split; [exact Hl|]. split; [eapply inputs_same; [exact Ei|exact S1|exact HV|reflexivity]|auto]. }
  assert (ST : stays m (mk_merr (with_in (Some inp1) (me_disc m)) (me_new m))) by (split; [eapply lost_in; [exact Ei|apply inputs_stored; exact S1]|reflexivity]).
  destruct (existsb (qltb 0) (probs b)) eqn:Any.
  - rewrite Hl, Hn3. cbn [subscript bind]. rewrite points_split by (try exact HP; rewrite ?map_length, ?c1_length, ?c2_length; reflexivity). cbn [bind].
    set (bl := array_split _ P). pose proof (region_mc_formula (probs b) bl) as F. cbv zeta in F. unfold bl in F at 2 3. rewrite array_split_concat, as_point_ep in F by exact HP.
    destruct (region_error_mc (probs b) bl) as [x ids]. cbn [fst] in F. exists ids. eexists. split; [|split; [exact J|exact ST]]. rewrite F. reflexivity.
  - exists (map (fun k => repeat (Fin 0%Qc) k) nums). eexists. split; [|split; [exact J|exact ST]]. unfold some_event_empty, total_change. rewrite (no_events _ Any). reflexivity.
Qed.
Lemma region_inv V s ss labels region em m : ss <> [] -> region_points_are P (p_in b) s ss labels ->
  match em with Some (e, ps) => points_are P (p_in b) e ps | None => True end -> inv V m ->
  match answer nn b V (Region_ s ss labels region em) with
  | Ok a => exists m1, pose nn P (Region_ s ss labels region em) m = Ok (a, m1) /\ inv V m1 /\ stays m m1
  | Raise x => pose nn P (Region_ s ss labels region em) m = Raise x
  end.
Proof.
  intros NS Hs He HI. cbn [answer pose]. unfold region_errors. rewrite (marker_ok s ss labels region Hs).
  destruct (existsb (fun l => qeqb l region) labels) eqn:Any; [|reflexivity]. cbn [bind].
  pose proof HI as (HH & Hl & HV & (inpn & Ein & Hin) & Hn2 & Hn3 & Hn4).
  destruct em as [[e ps]|]; cbn [option_map fst].
  - destruct (global_input_ok _ HH) as (inp & inp1 & Ei & -> & Hi1 & S1). cbn [bind]. cbv zeta. set (d1 := with_in (Some inp1) (me_disc m)) in *.
    assert (HH1 : holds_problem nn P b (globalize_ptrs d1)) by (apply globalized_hp, hp_in; assumption).
    unfold set_emulated_input, same_dim. cbn [globalize_ptrs with_io with_ii with_oo d_in d1 with_in].
    rewrite (proj1 (proj2 Hi1)), (proj1 (proj2 He)), Nat.eqb_refl. cbn [done fst snd bind].
    match goal with |- context [set_ii_ptr nn P false ?dd] => destruct (ii_points P HP nn false (p_in b) e ps inp1 (samples b) dd eq_refl He eq_refl Hi1) as (e1 & inp2 & -> & _) end.
    cbn [bind]. rewrite (cells_ok s ss e ps (proj1 Hs) He). cbn [bind with_ii ii_loc with_in with_ein subscript].
    match goal with |- context [region_estimate P _ _ _ ?dd ?dn] => rewrite (estimate_ok s ss labels region ps dd dn NS Hs) end.
    + cbv zeta. destruct (some_event_empty _ _); [reflexivity|]. cbn [bind rmap fst snd]. eexists. split; [reflexivity|]. split; [|split; [eapply lost_trans; [eapply lost_in; [exact Ei|apply inputs_stored; exact S1]|apply lost_globalize]|reflexivity]].
      split; [exact HH1|]. cbn [me_disc me_new globalize_ptrs with_io with_ii with_oo io_loc io d_in d_ein]. split; [exact Hl|].
      split; [eapply inputs_same; [exact Ei|exact S1|exact HV|reflexivity]|]. split; [exists inpn; auto|]. split; [exact Hn2|]. split; [exact Hn3|].
      rewrite Hn3, (filled _ c2 Hn4). congruence.
    + exact HH1.
    + cbn [globalize_ptrs with_io io with_in io_loc d1]. rewrite Hl. apply filled. apply HH.
    + cbn [globalize_ptrs with_io io]. rewrite Hn3. apply filled. exact Hn4.
  - pose proof HH as (_ & _ & _ & Hem & _ & _ & Hii). unfold emulated_set_is in Hem, Hn2. destruct (emulated b) as [ps|] eqn:Eb.
    + destruct (d_ein (me_disc m)) as [em|] eqn:Ee; [|contradiction]. destruct (d_ein (me_new m)) as [emn|] eqn:Een; [|contradiction].
      destruct (global_input_ok _ HH) as (inp & inp1 & Ei & -> & Hi1 & S1). cbn [bind]. cbv zeta. set (d1 := with_in (Some inp1) (me_disc m)) in *.
      assert (HH1 : holds_problem nn P b (globalize_ptrs d1)) by (apply globalized_hp, hp_in; assumption).
      assert (IO1 : io (globalize_ptrs d1) = Some c1) by (cbn [globalize_ptrs with_io io with_in io_loc d1]; rewrite Hl; apply filled; apply HH).
      assert (V1 : inputs_are V (globalize_ptrs d1)) by (eapply inputs_same; [exact Ei|exact S1|exact HV|reflexivity]).
      assert (L1 : nothing_lost (me_disc m) (globalize_ptrs d1)) by (eapply lost_trans; [eapply lost_in; [exact Ei|apply inputs_stored; exact S1]|apply lost_globalize]).
      assert (X : exists d2 e2, match ii_loc (globalize_ptrs d1) with None => set_ii_ptr nn P false (globalize_ptrs d1) | Some _ => Ok (globalize_ptrs d1) end = Ok d2 /\
        holds_problem nn P b d2 /\ io d2 = Some c1 /\ io_loc d2 = Some (array_split c1 P) /\ inputs_are V d2 /\ d_ein d2 = Some e2 /\ points_are P (p_in b) e2 ps /\ ii_loc d2 = Some (array_split (map (nn (samples b)) ps) P) /\ nothing_lost (me_disc m) d2 /\ d_prob d2 = d_prob (me_disc m)).
      { destruct (ii_loc (globalize_ptrs d1)) as [bs|] eqn:El.
        - exists (globalize_ptrs d1), em. split; [reflexivity|]. split; [exact HH1|]. split; [exact IO1|]. split; [exact Hl|]. split; [exact V1|]. split; [exact Ee|]. split; [exact Hem|].
          split; [|split; [exact L1|reflexivity]]. rewrite El. f_equal. destruct (Hii bs El) as (ps' & [= <-] & ->). reflexivity.
        - destruct (ii_points P HP nn false (p_in b) em ps inp1 (samples b) (globalize_ptrs d1) Ee Hem eq_refl Hi1) as (e1 & inp2 & E & He1 & Se1 & Hi2 & S2 & _).
          exists (with_ii (ii (globalize_ptrs d1)) (Some (array_split (map (nn (samples b)) ps) P)) (with_in (Some inp2) (with_ein (Some e1) (globalize_ptrs d1)))), e1.
          split; [exact E|]. split.
          + assert (HH2 : holds_problem nn P b (with_in (Some inp2) (with_ein (Some e1) (globalize_ptrs d1)))) by (apply hp_in; [apply hp_ein; [exact HH1|unfold emulated_set_is; rewrite Eb; exact He1]|exact Hi2]).
            destruct HH2 as (B1 & B2 & B3 & B4 & B5 & B6 & _). split; [exact B1|]. split; [exact B2|]. split; [exact B3|]. split; [exact B4|]. split; [exact B5|]. split; [exact B6|].
            cbn [with_ii ii_loc]. intros bs [= <-]. exists ps. auto.
          + split; [exact IO1|]. split; [exact Hl|]. split; [eapply inputs_same; [|exact S2|exact V1|reflexivity]; reflexivity|]. split; [reflexivity|]. split; [exact He1|]. split; [reflexivity|]. split; [|reflexivity].
            eapply lost_trans; [exact L1|]. eapply lost_trans; [eapply lost_ein; [exact Ee|exact Se1]|]. eapply lost_trans; [eapply lost_in; [reflexivity|apply inputs_stored; exact S2]|].
            apply lost_ii; [apply ptr_refl|]. cbn [with_in with_ein ii_loc]. rewrite El. discriminate. }
      destruct X as (d2 & e2 & -> & HH2 & IO2 & IL2 & V2 & Ee2 & He2 & II2 & ST2). cbn [bind].
      destruct (ii_points P HP nn false (p_in b) emn ps inpn (samples b) (globalize_ptrs (me_new m)) Een Hn2 Ein Hin) as (en1 & inn1 & -> & Hen1 & _ & Hinn1 & _). cbn [bind].
      rewrite Ee2. cbn [need bind]. rewrite (cells_ok s ss e2 ps (proj1 Hs) He2). cbn [bind]. rewrite II2. cbn [subscript bind].
      match goal with |- context [region_estimate P _ _ _ ?dd ?dn] => rewrite (estimate_ok s ss labels region ps dd dn NS Hs HH2 IO2) end.
      * cbv zeta. destruct (some_event_empty _ _); [reflexivity|]. cbn [bind rmap fst snd]. eexists. split; [reflexivity|]. split; [|exact ST2].
        split; [exact HH2|]. cbn [me_disc me_new with_ii with_in with_ein globalize_ptrs with_io with_oo io_loc io d_in d_ein]. split; [exact IL2|]. split; [exact V2|].
        split; [exists inn1; auto|]. split; [unfold emulated_set_is; rewrite Eb; exact Hen1|]. split; [exact Hn3|]. rewrite Hn3, (filled _ c2 Hn4). congruence.
      * cbn [with_ii with_in with_ein globalize_ptrs with_io io]. rewrite Hn3. apply filled. exact Hn4.
    + destruct (d_ein (me_disc m)) as [em|] eqn:Ee; [contradiction|]. destruct (mc_inv V s ss labels region m NS Hs Any HI) as (ids & m1 & -> & J). cbn [bind rmap fst snd]. exists m1. auto.
Qed.

(** any number of questions *)
Lemma pose_inv V q m : (forall x, In x V -> (0 <= x)%Qc) -> proper_question P b q -> inv V m ->
  match answer nn b V q with Ok a => exists m1, pose nn P q m = Ok (a, m1) /\ inv V m1 /\ stays m m1 | Raise x => pose nn P q m = Raise x end.
Proof.
  intros NV Hq HI. destruct q as [|s ss labels region em].
  - cbn [answer pose]. apply contours_inv; assumption.
  - destruct Hq as (NS & Hs & He). apply region_inv; assumption.
Qed.
Lemma pose_all_inv V qs : (forall x, In x V -> (0 <= x)%Qc) -> forall m, Forall (proper_question P b) qs -> inv V m ->
  rmap fst (pose_all nn P qs m) = in_turn (map (answer nn b V) qs) /\ forall r m1, pose_all nn P qs m = Ok (r, m1) -> stays m m1.
Proof.
  intros NV. induction qs as [|q qs IH]; intros m F HI; [split; [reflexivity|]; intros r m1 [= <- <-]; split; [apply lost_refl|reflexivity]|].
  inversion F as [|? ? Fq Fr]; subst. cbn [pose_all map in_turn]. pose proof (pose_inv V q m NV Fq HI) as A.
  destruct (answer nn b V q) as [a|x]; [|rewrite A; split; [reflexivity|discriminate]]. destruct A as (m1 & -> & J & ST). destruct (IH m1 Fr J) as [E L].
  destruct (pose_all nn P qs m1) as [[t m2]|x]; cbn [rmap fst] in E |- *; rewrite <- E; (split; [reflexivity|]); [|discriminate].
  intros r m3 [= <- <-]. destruct (L t m2 eq_refl) as [L1 L2], ST as [L3 L4]. split; [eapply lost_trans; eassumption|cbn [snd]; congruence].
Qed.
Theorem answers_lemma d w qs : holds_problem nn P b d -> stored_volumes d w -> (forall x, In x (input_volumes nn b w) -> (0 <= x)%Qc) -> Forall (proper_question P b) qs ->
  rmap fst (do m <- new_model_error nn P d; pose_all nn P qs m) = in_turn (map (answer nn b (input_volumes nn b w)) qs).
Proof.
  intros HH HW NV F. destruct (new_inv (input_volumes nn b w) d HH) as (m & -> & HI & _); [exists w; auto|]. cbn [bind]. apply pose_all_inv; assumption.
Qed.
Theorem kept_lemma d w qs r m : holds_problem nn P b d -> stored_volumes d w -> (forall x, In x (input_volumes nn b w) -> (0 <= x)%Qc) -> Forall (proper_question P b) qs ->
  (do m0 <- new_model_error nn P d; pose_all nn P qs m0) = Ok (r, m) -> nothing_lost d (me_disc m).
Proof.
  intros HH HW NV F. destruct (new_inv (input_volumes nn b w) d HH) as (m0 & -> & HI & L & _); [exists w; auto|]. cbn [bind]. intros E.
  eapply lost_trans; [exact L|]. eapply pose_all_inv; eassumption.
Qed.
End Object.

(** new probabilities *)
Section Changes.
Context (nn : list cell -> cell -> nat) (P : nat) (HP : 0 < P) (NN : forall l x, l <> [] -> nn l x < length l).
Lemma posed_with b p : well_posed b -> length p = length (cells b) -> well_posed (with_probs p b).
Proof. intros (A1 & A2 & A3 & A4 & A5 & _ & A7) L. do 5 (split; [assumption|]). split; assumption. Qed.
Lemma inv_with b V p m pr : length p = length (cells b) -> d_prob (me_disc m) = Some pr -> loc pr Probabilities = None -> inv nn P b V m -> inv nn P (with_probs p b) V (set_probs p m).
Proof.
  intros L Ep Lp ((A1 & A2 & (pr' & E' & Hp & Gp) & A4 & A5 & A6 & A7) & B2 & (w & (inp & Ei & Gw) & Ev) & B4 & B5 & B6 & B7). rewrite Ep in E'. injection E' as <-.
  unfold set_probs. rewrite Ep. cbn [option_map]. split.
  - split; [exact A1|]. split; [exact A2|]. split; [|split; [exact A4|split; [exact A5|split; [exact A6|exact A7]]]].
    eexists. split; [reflexivity|]. destruct Hp as (I & D & G). split; [|cbn [set_glob glob]; apply upd_same]. split.
    + apply set_glob_in_step; [exact I|discriminate|discriminate|exact Lp|]. rewrite vec_len. exact L.
    + split; [exact D|]. cbn [set_glob glob]. rewrite upd_other by discriminate. exact G.
  - split; [exact B2|]. split; [exists w; split; [exists inp; auto|exact Ev]|]. auto.
Qed.
Lemma run_inv V es : (forall x, In x V -> (0 <= x)%Qc) -> forall b m pr, well_posed b -> Forall (proper_event P b) es -> d_prob (me_disc m) = Some pr -> loc pr Probabilities = None -> inv nn P b V m ->
  run nn P es m = in_turn (answers_now nn b V es).
Proof.
  intros NV. induction es as [|[q|p] es IH]; intros b m pr WP F Ep Lp HI; [reflexivity| |]; inversion F as [|? ? Fq Fr]; subst; cbn [run answers_now in_turn].
  - pose proof (pose_inv nn P HP NN b WP V q m NV Fq HI) as A. destruct (answer nn b V q) as [a|x]; [|rewrite A; reflexivity]. destruct A as (m1 & -> & J & _ & E1). rewrite <- E1 in Ep.
    rewrite (IH b m1 pr WP Fr Ep Lp J). destruct (in_turn _); reflexivity.
  - eapply IH; [apply posed_with; assumption| |unfold set_probs; cbn [me_disc with_prob d_prob]; rewrite Ep; reflexivity| |eapply inv_with; eassumption].
    + eapply Forall_impl; [|exact Fr]. intros [q|p']; cbn; auto.
    + exact Lp.
Qed.
Theorem run_lemma b d w pr es : well_posed b -> holds_problem nn P b d -> d_prob d = Some pr -> loc pr Probabilities = None -> stored_volumes d w -> (forall x, In x (input_volumes nn b w) -> (0 <= x)%Qc) ->
  Forall (proper_event P b) es -> (do m <- new_model_error nn P d; run nn P es m) = in_turn (answers_now nn b (input_volumes nn b w) es).
Proof.
  intros WP HH Ep Lp HW NV F. destruct (new_inv nn P HP b WP (input_volumes nn b w) d HH) as (m & -> & HI & _ & Q); [exists w; auto|]. cbn [bind].
  destruct (Q pr Ep) as (pr1 & E1 & L1). eapply run_inv; try eassumption. rewrite L1. exact Lp.
Qed.
End Changes.

Lemma refused_lemma nn P (d : disc cell) out n : d_out d = Some out -> check_num P out = Ok n ->
  glob out ErrorEstimates = None -> loc out ErrorEstimates = None -> new_model_error nn P d = Raise WrongArgumentType.
Proof.
  intros E C G L. unfold new_model_error. rewrite E. cbn [need bind]. unfold global_to_local. rewrite C. cbn [bind]. unfold has_estimates. cbn [glob loc]. rewrite G, L. reflexivity.
Qed.
