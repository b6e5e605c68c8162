(** Histories of calls on a surrogate object. *)
From Coq Require Import List Arith Bool QArith Qcanon Lia.
From Verif Require Import Err Num Ext NumPy Lists SampleSet_Model SampleSet_Spec SampleSet_Proofs Prob_Model Prob_Spec Prob_Proofs
  Disc_Model Disc_Spec Disc_Proofs Workflow_Model Workflow_Proofs VolHist_Proofs Error_Model
  ErrorDisc_Model ErrorDisc_Spec ErrorDisc_Proofs ErrorDisc2_Proofs ErrorDisc3_Proofs ErrorDisc4_Proofs Surrogate_Model Surrogate_Spec Surrogate_Proofs Surrogate2_Proofs Surrogate3_Proofs.
From Verif Require Sampling_Model.
Import ListNotations.
Local Open Scope nat_scope.
Local Open Scope err_scope.

(** ** Looking up *)
Lemma split_map {A} P (f : A -> cell) ys t : split_arr P (mk_arr (map f ys) t) = map (fun c => mk_arr (map f c) t) (array_split ys P).
Proof. rewrite split_rows, array_split_map, map_map. reflexivity. Qed.
Lemma look_up_ok {A} P (f : A -> cell) l dflt t h (ys : list cell) : 0 < P -> (forall y, In y ys -> h y < length l) ->
  look_up (Some (mk_arr (map f l) t)) (array_split (map h ys) P) = Ok (split_arr P (mk_arr (map (fun y => f (nth (h y) l dflt)) ys) t)).
Proof.
  intros HP H. unfold look_up. cbn [subscript bind rows tail_shape]. rewrite (fancy_split (map f l) (f dflt) P (map h ys) HP).
  - cbn [bind]. rewrite split_rows, map_map. do 3 f_equal. apply map_ext. intros y. apply map_nth.
  - intros k Hk. apply in_map_iff in Hk. destruct Hk as (y & <- & Hy). rewrite map_length. apply H. exact Hy.
Qed.
Lemma look_up_id P (l : list cell) dflt t h (ys : list cell) : 0 < P -> (forall y, In y ys -> h y < length l) ->
  look_up (Some (mk_arr l t)) (array_split (map h ys) P) = Ok (split_arr P (mk_arr (map (fun y => nth (h y) l dflt) ys) t)).
Proof. intros HP H. pose proof (look_up_ok P (fun c => c) l dflt t h ys HP H) as E. rewrite map_id in E. exact E. Qed.
Lemma linear_rows_ok fz fJ fa g ys : (forall y, In y ys -> linear_row (fz y) (fJ y) (fa y) y = Ok (g y)) -> linear_rows (map fz ys) (map fJ ys) (map fa ys) ys = Ok (map g ys).
Proof.
  induction ys as [|y ys IH]; intros H; [reflexivity|]. cbn [map linear_rows]. rewrite (H y (or_introl eq_refl)). cbn [bind]. rewrite IH by (intros; apply H; right; assumption). reflexivity.
Qed.
Lemma linear_blocks_ok fz fJ fa g tz tJ ta tx bl : (forall y, In y (concat bl) -> linear_row (fz y) (fJ y) (fa y) y = Ok (g y)) ->
  linear_blocks (map (fun c => mk_arr (map fz c) tz) bl) (map (fun c => mk_arr (map fJ c) tJ) bl) (map (fun c => mk_arr (map fa c) ta) bl) (map (fun c => mk_arr c tx) bl) =
  Ok (map (fun c => mk_arr (map g c) tz) bl).
Proof.
  induction bl as [|c bl IH]; intros H; [reflexivity|]. cbn [map linear_blocks rows tail_shape]. rewrite (linear_rows_ok fz fJ fa g) by (intros; apply H; cbn [concat]; apply in_or_app; auto). cbn [bind].
  rewrite IH by (intros; apply H; cbn [concat]; apply in_or_app; auto). reflexivity.
Qed.
Lemma coords_row l : coords (row l) = l.
Proof. unfold coords, row. rewrite map_map. apply map_id. Qed.
Lemma vectors_rows M : vectors (map row M) = Ok M.
Proof. induction M as [|r M IH]; [reflexivity|]. cbn [map vectors]. unfold row at 1. rewrite scalars_nums. cbn [bind]. rewrite IH. reflexivity. Qed.
Lemma vector_row l : vector (row l) = Ok l.
Proof. unfold row. cbn [vector]. apply scalars_nums. Qed.
Lemma linear_row_ok d o z M x y : length z = o -> length M = o -> (forall r, In r M -> length r = d) -> length x = d -> length y = d ->
  linear_row (row z) (Vec (map row M)) (row x) (row y) = Ok (row (plus z (map (fun r => times r (minus x y)) M))).
Proof.
  intros Lz LM Lr Lx Ly. unfold linear_row. cbn [matrix]. rewrite vectors_rows, !vector_row. cbn [bind].
  rewrite LM, Lz, Lx, Ly, !Nat.eqb_refl. cbn [andb]. rewrite (proj2 (forallb_forall _ M)) by (intros r Hr; rewrite (Lr r Hr); apply Nat.eqb_refl). reflexivity.
Qed.
Lemma plus_length x y : length x = length y -> length (plus x y) = length x.
Proof. intros L. unfold plus. rewrite map_length, combine_length. lia. Qed.

Section Surrogate.
Context (nn : list cell -> cell -> nat) (P : nat) (HP : 0 < P) (NN : forall l x, l <> [] -> nn l x < length l).
Context (a : old_data) (SA : sound a).
Notation b := (o_problem a).
Notation home := (home nn a).
Lemma WB : well_posed b.
Proof. apply SA. Qed.
Lemma home_bound y : home y < length (samples b).
Proof. apply NN. apply WB. Qed.
Lemma home_out y : home y < length (outputs b).
Proof. pose proof (home_bound y). destruct WB as (_ & _ & -> & _). assumption. Qed.
Lemma home_est y : home y < length (estimates b).
Proof. pose proof (home_bound y). destruct WB as (_ & _ & _ & -> & _). assumption. Qed.
Lemma old_out y : length (nth (home y) (outputs b) []) = p_out b.
Proof. destruct WB as (_ & _ & _ & _ & H & _). apply H. left. apply nth_In. apply home_out. Qed.
Lemma old_est y : length (nth (home y) (estimates b) []) = p_out b.
Proof. destruct WB as (_ & _ & _ & _ & H & _). apply H. right. apply nth_In. apply home_est. Qed.
Lemma new_out_length order y : length (new_output nn a order y) = p_out b.
Proof.
  unfold new_output. cbv zeta. destruct order as [|[|order]]; try apply old_out. destruct (o_jacobians a) as [J|] eqn:EJ; [|apply old_out].
  destruct (proj2 (proj2 SA) J EJ) as [LJ HJ]. rewrite plus_length; [apply old_out|]. rewrite map_length, old_out. symmetry. apply HJ. apply nth_In. rewrite LJ. apply home_bound.
Qed.
Lemma new_posed order ys : ys <> [] -> well_posed (new_problem nn a order ys).
Proof.
  intros N. pose proof WB as (_ & NC & _ & _ & _ & Lp & _). split; [exact N|]. split; [exact NC|]. cbn [new_problem outputs estimates samples p_out probs cells emulated]. rewrite !map_length. do 2 (split; [reflexivity|]). split; [|split; [exact Lp|discriminate]].
  intros z [H|H]; apply in_map_iff in H; destruct H as (y & <- & _); [apply new_out_length|apply old_est].
Qed.

(** ** The old discretization *)
Definition base_is (u : surrogate) : Prop :=
  (exists inp, d_in (u_disc u) = Some inp /\ held (p_in b) inp (samples b) /\ (forall dom, domain inp = Some dom -> length dom = p_in b) /\
     glob inp Jacobians = option_map (fun J => mk_arr (map (fun M => Vec (map row M)) J) [p_out b; p_in b]) (o_jacobians a) /\
     (glob inp Jacobians = None -> loc inp Jacobians = None)) /\
  (exists out, d_out (u_disc u) = Some out /\ held (p_out b) out (map row (outputs b)) /\
     glob out ErrorEstimates = if o_estimates a then Some (mk_arr (map row (estimates b)) [p_out b]) else None) /\
  (exists pr, d_prob (u_disc u) = Some pr /\ held (p_out b) pr (cells b) /\ glob pr Probabilities = Some (vec_arr (probs b))).

Lemma init d : holds_old P a d -> exists u, new_surrogate P d = Ok u /\ base_is u /\ u_new u = None /\ old_kept None d u.
Proof.
  intros ((inp & Ei & Hi & Di & Ji) & (out & Eo & Ho & Ge) & (pr & Ep & Hp & Gp)). unfold new_surrogate.
  assert (C : check_nums P d = Ok (length (samples b))).
  { unfold check_nums. rewrite Eo. cbn [need bind]. rewrite (count_in_step P out _ (proj1 Ho)). cbn [bind]. rewrite Ei. cbn [need bind]. rewrite (count_in_step P inp _ (proj1 Hi)). cbn [bind].
    rewrite (proj2 (proj2 Ho)), (proj2 (proj2 Hi)). destruct WB as (_ & _ & Lz & _). rewrite map_length, Lz, Nat.eqb_refl. reflexivity. }
  rewrite C. cbn [bind]. unfold gathered. rewrite Ei. cbn [need bind].
  destruct (l2g_in_step P HP inp _ (proj1 Hi)) as (inp1 & E1 & I1 & S1 & _). rewrite E1. cbn [bind]. rewrite Eo. cbn [need bind].
  destruct (l2g_in_step P HP out _ (proj1 Ho)) as (out1 & E2 & I2 & S2 & _). rewrite E2. cbn [bind]. eexists. split; [reflexivity|].
  pose proof (points_data P _ _ _ _ Hi I1 S1) as Hi1. pose proof (points_data P _ _ _ _ Ho I2 S2) as Ho1.
  destruct (local_to_global_spec _ _ E1) as (_ & _ & _ & _ & DM & _).
  split; [|split; [reflexivity|]].
  - split; [exists inp1; split; [reflexivity|]; split; [eapply points_held; exact Hi1|]; split; [rewrite DM; exact Di|]; rewrite (proj2 S1) by discriminate; split; [exact Ji|]; intros GN; destruct (loc inp1 Jacobians) as [jb|] eqn:LJ; [|reflexivity]; destruct (in_step_loc P inp1 _ Jacobians jb I1 LJ) as (x & Gx & _); rewrite (proj2 S1) in Gx by discriminate; congruence|].
    split; [exists out1; split; [reflexivity|]; split; [eapply points_held; exact Ho1|]; rewrite (proj2 S2) by discriminate; exact Ge|]. exists pr. split; [exact Ep|]. split; [eapply points_held; exact Hp|exact Gp].
  - split; [|split; [|split; [|reflexivity]]].
    + exists inp, inp1. split; [exact Ei|]. split; [reflexivity|]. split; [apply S1|]. split; [intros x N _; apply S1; exact N|apply S1; discriminate].
    + rewrite Eo. exact S2.
    + apply stored_refl.
Qed.

(** ** Generating *)
Definition new_is (k : known) (u : surrogate) : Prop :=
  match k_new k with
  | None => u_new u = None
  | Some (b', v) => (exists order ys, b' = new_problem nn a order ys /\ ys <> []) /\ length v = length (samples b') /\
      (exists e, u_new u = Some e /\ sinv nn P b' (o_estimates a) v e) /\ u_ptr u = Some (array_split (map home (samples b')) P)
  end.
Lemma points_domain s ys dom : points_are P (p_in b) s ys -> points_are P (p_in b) (mk_sset (dim s) (glob s) (loc s) (local_index s) (kd s) dom (weights s)) ys.
Proof. intros H. exact H. Qed.
Lemma in_step_fitting s ys d : points_are P d s ys -> fitting P ys s.
Proof.
  intros (I & _) x bs L. destruct (in_step_loc P s _ x bs I L) as (y & G & ->). rewrite split_arr_rows. apply split_same_lengths; [exact HP|]. destruct I as ((A & _) & _). apply (A x). exact G.
Qed.
Lemma brought s s2 ys w : points_are P (p_in b) s ys -> brings s w -> localized P s = Ok s2 -> length (new_volumes ys w) = length ys /\
  (loc s2 Volumes = Some (split_arr P (vec_arr (new_volumes ys w))) \/ (loc s2 Volumes = None /\ new_volumes ys w = map (fun _ => (1 / qn (length ys))%Qc) ys)).
Proof.
  intros Hs B E. pose proof Hs as (I & D & G). destruct w as [v|]; cbn [brings new_volumes] in *.
  - destruct B as [Gv B]. split; [rewrite <- vec_rows; destruct I as ((A & _) & _); apply (A Volumes); exact Gv|]. left. unfold localized in E. destruct (loc s Values) as [bs|] eqn:L.
    + injection E as <-. destruct B as [B|B]; [|congruence]. destruct (loc s Volumes) as [vb|] eqn:LV; [|contradiction]. destruct (in_step_loc P s _ Volumes vb I LV) as (x & Gx & ->). congruence.
    + destruct (g2l_in_step P s _ I) as (s1 & E1 & _ & _ & _ & A). rewrite E1 in E. injection E as <-. apply A. exact Gv.
  - split; [apply map_length|]. right. split; [|reflexivity]. unfold localized in E. destruct (loc s Values) as [bs|] eqn:L.
    + injection E as <-. destruct B as [B|[B _]]; [|exact B]. destruct (loc s Volumes) as [vb|] eqn:LV; [|reflexivity]. destruct (in_step_loc P s _ Volumes vb I LV) as (x & Gx & _). congruence.
    + destruct B as [B|[_ B]]; [|congruence]. unfold global_to_local in E. rewrite (count_in_step P s _ I) in E. cbn [bind] in E. injection E as <-. cbn [loc]. rewrite B.
      destruct (loc s Volumes) as [vb|] eqn:LV; [|reflexivity]. destruct (in_step_loc P s _ Volumes vb I LV) as (x & Gx & _). congruence.
Qed.
Lemma finish s2 ys w out pr order u k : ys <> [] -> held (p_in b) s2 ys -> loc s2 Values = Some (split_arr P (mk_arr ys [p_in b])) -> fitting P ys s2 -> length (new_volumes ys w) = length ys ->
  (loc s2 Volumes = Some (split_arr P (vec_arr (new_volumes ys w))) \/ (loc s2 Volumes = None /\ new_volumes ys w = map (fun _ => (1 / qn (length ys))%Qc) ys)) ->
  held (p_out b) out (map row (outputs b)) -> glob out ErrorEstimates = (if o_estimates a then Some (mk_arr (map row (estimates b)) [p_out b]) else None) ->
  d_prob (u_disc u) = Some pr -> held (p_out b) pr (cells b) -> glob pr Probabilities = Some (vec_arr (probs b)) ->
  exists u1,
     (do o1 <- set_values_local (split_arr P (mk_arr (map row (map (new_output nn a order) ys)) [p_out b])) (new_sset (dim out));
      do o2 <- match glob out ErrorEstimates with None => Ok o1 | Some e => do es <- look_up (Some e) (array_split (map home ys) P); Ok (set_loc ErrorEstimates (Some es) o1) end;
      do new <- new_disc P (Some s2) (Some o2) (d_prob (u_disc u)) None None None;
      Ok (mk_sur (u_disc u) (Some (array_split (map home ys) P)) (Some new) None (u_base_ids u))) = Ok u1 /\ u_disc u1 = u_disc u /\ u_base_ids u1 = u_base_ids u /\
      new_is (mk_known (Some (new_problem nn a order ys, new_volumes ys w)) (k_stored k)) u1.
Proof.
  intros NY Hh2 L2 F2 LV VO Ho Ge Ep Hp Gp. rewrite (proj1 (proj2 (proj2 Ho))). unfold set_values_local.
  rewrite (proj2 (forallb_forall _ _)).
  2:{ intros c Hc. apply split_arr_tail in Hc. rewrite Hc. cbn [new_sset dim tail_shape]. destruct (shape_eq_dec [p_out b] [p_out b]); [reflexivity|contradiction]. }
  cbn [bind]. set (o1 := set_loc Values _ _).
  assert (EO : exists o2, match glob out ErrorEstimates with None => Ok o1 | Some e => do es <- look_up (Some e) (array_split (map home ys) P); Ok (set_loc ErrorEstimates (Some es) o1) end = Ok o2 /\
        local_set P (p_out b) (map (new_output nn a order) ys) (map (new_estimate nn a) ys) (o_estimates a) o2).
  { rewrite Ge. destruct (o_estimates a).
    - rewrite (look_up_ok P row (estimates b) [] [p_out b] home ys HP) by (intros; apply home_est). cbn [bind]. eexists. split; [reflexivity|]. split; [reflexivity|]. split; [reflexivity|]. split; [reflexivity|]. split.
      + cbn [set_loc loc]. rewrite upd_same, (map_map (new_estimate nn a) row). reflexivity.
      + intros x N1 N2. cbn [set_loc loc o1]. rewrite !upd_other by congruence. reflexivity.
    - exists o1. split; [reflexivity|]. split; [reflexivity|]. split; [reflexivity|]. split; [reflexivity|]. split; [reflexivity|]. intros x N1 N2. cbn [set_loc loc o1]. rewrite !upd_other by congruence. reflexivity. }
  destruct EO as (o2 & -> & Ho2). cbn [bind]. unfold new_disc, check_nums. cbv zeta. cbn [d_out d_in need bind].
  assert (LE : length (map (new_estimate nn a) ys) = length (map (new_output nn a order) ys)) by (rewrite !map_length; reflexivity).
  rewrite (local_count P _ _ _ _ _ HP LE Ho2). cbn [bind]. rewrite (held_count P _ _ _ Hh2). cbn [bind]. rewrite map_length, Nat.eqb_refl, (proj1 (proj2 Ho2)). cbn [bind].
  eexists. split; [reflexivity|]. cbn [u_disc u_base_ids]. do 2 (split; [reflexivity|]). unfold new_is. cbn [k_new].
  split; [exists order, ys; auto|]. split; [exact LV|]. split; [|reflexivity]. eexists. split; [reflexivity|].
  split; [exists s2; split; [reflexivity|]; split; [split; [exact Hh2|]; split; [exact L2|exact F2]|exact VO]|].
  split; [exists o2; split; [reflexivity|exact Ho2]|]. split; [exists pr; cbn [d_prob]; auto|]. left. reflexivity.
Qed.
Lemma generate_ok order s ys w u k : ys <> [] -> points_are P (p_in b) s ys -> Forall (is_point (p_in b)) ys -> brings s w -> base_is u ->
  match answer_to nn a k (Generate order s ys w) with
  | Ok _ => exists u1, generate nn P order s u = Ok u1 /\ u_disc u1 = u_disc u /\ u_base_ids u1 = u_base_ids u /\ new_is (learn nn a k (Generate order s ys w)) u1
  | Raise x => generate nn P order s u = Raise x
  end.
Proof.
  intros NY Hs FY B ((inp & Ei & Hi & Di & Ji & NJ) & (out & Eo & Ho & Ge) & (pr & Ep & Hp & Gp)).
  assert (ORD : order = 0 \/ order = 1 \/ 1 < order) by lia. destruct ORD as [E0|[E1|E2]].
  3:{ destruct order as [|[|order]]; try lia. reflexivity. }
  all: unfold generate; subst order; cbn [Nat.eqb orb negb]; rewrite (count_in_step P s _ (proj1 Hs)); cbn [bind]; rewrite Ei; cbn [need bind];
    rewrite (proj1 (proj2 Hs)), (proj1 (proj2 (proj2 Hi))), Nat.eqb_refl; cbn [negb].
  all: assert (GD : exists s1, given_domain inp s = Ok s1 /\ points_are P (p_in b) s1 ys /\ brings s1 w) by
   (unfold given_domain; destruct (domain s); [exists s; auto|]; destruct (domain inp) as [dom|] eqn:ED; [|exists s; auto];
    rewrite (proj1 (proj2 Hs)), (Di dom eq_refl), Nat.eqb_refl; eexists; split; [reflexivity|]; split; [rewrite <- (proj1 (proj2 Hs)) at 2; apply points_domain; exact Hs|exact B]).
  all: destruct GD as (s1 & -> & Hs1 & B1); cbn [bind]; rewrite Eo; cbn [need bind]; unfold set_emulated_input, same_dim; rewrite Ei, (proj1 (proj2 (proj2 Hi))), (proj1 (proj2 Hs1)), Nat.eqb_refl; cbn [done fst snd bind];
    unfold set_ii_ptr; cbn [with_ein d_ein need bind].
  all: destruct (points_localized P _ _ _ Hs1) as (s2 & EL & Hs2 & S2 & L2); rewrite EL; cbn [bind with_ein d_in]; rewrite Ei; cbn [need bind]; unfold loc_values at 1; rewrite L2; cbn [bind].
  all: destruct (held_query_split nn P (p_in b) inp (samples b) ys HP Hi) as (inp1 & EQ & _); rewrite EQ; cbn [bind fst snd with_ii with_in with_ein ii_loc d_ein subscript need].
  all: change (map (nn (samples b)) ys) with (map home ys).
  all: destruct (brought s1 s2 ys w Hs1 B1 EL) as [LV VO].
  all: pose proof (points_held _ _ _ _ Hs2) as Hh2; pose proof (in_step_fitting s2 ys (p_in b) Hs2) as F2.
  all: rewrite (proj2 (proj2 (proj2 Ho))).
  all: pose proof (fun order => finish s2 ys w out pr order u k NY Hh2 L2 F2 LV VO Ho Ge Ep Hp Gp) as REST.
  - cbn [answer_to learn]. rewrite (look_up_ok P row (outputs b) [] [p_out b] home ys HP) by (intros; apply home_out). cbn [bind fst snd]. specialize (REST 0). rewrite map_map in REST. exact REST.
  - cbn [answer_to learn]. unfold with_jacobians. rewrite Ei. cbn [need bind]. rewrite Ji. destruct (o_jacobians a) as [J|] eqn:EJ; cbn [option_map].
    + cbn [bind]. rewrite Ei. cbn [need bind]. rewrite Ji. cbn [option_map]. destruct (proj2 (proj2 SA) J EJ) as [LJ HJ].
      rewrite (look_up_ok P (fun M => Vec (map row M)) J [] [p_out b; p_in b] home ys HP) by (intros; rewrite LJ; apply home_bound). cbn [bind].
      rewrite (proj2 (proj2 (proj2 Hi))). rewrite (look_up_id P (samples b) (Vec []) [p_in b] home ys HP) by (intros; apply home_bound). cbn [bind].
      unfold loc_values. rewrite L2. cbn [bind]. rewrite (look_up_ok P row (outputs b) [] [p_out b] home ys HP) by (intros; apply home_out). cbn [bind].
      rewrite !split_map, split_rows. rewrite (linear_blocks_ok _ _ _ (fun y => row (new_output nn a 1 y))).
      * cbn [bind fst snd]. specialize (REST 1). rewrite map_map, split_map in REST. exact REST.
      * rewrite array_split_concat by exact HP. intros y Hy. rewrite Forall_forall in FY. destruct (FY y Hy) as (yl & -> & Ly).
        assert (PT : is_point (p_in b) (nth (home (row yl)) (samples b) (Vec []))) by (destruct SA as (_ & FS & _); rewrite Forall_forall in FS; apply FS; apply nth_In; apply home_bound).
        destruct PT as (xl & EX & Lx). unfold new_output. cbv zeta. rewrite EJ, EX, !coords_row.
        assert (HM : In (nth (home (row yl)) J []) J) by (apply nth_In; rewrite LJ; apply home_bound). destruct (HJ _ HM) as [LM LR].
        apply (linear_row_ok (p_in b) (p_out b)); try assumption. apply old_out.
    + rewrite NJ by (rewrite Ji; reflexivity). unfold loc_values at 1. rewrite L2. cbn [bind]. rewrite EQ. reflexivity.
Qed.

(** ** Probabilities of regions *)
Lemma pull_probs_ok (ys : list cell) p : length p = length ys ->
  pull_probs (length (samples b)) (array_split (map home ys) P) (array_split p P) =
  Ok (map (fun k => qsum (map snd (filter (fun e => home (fst e) =? k) (combine ys p)))) (seq 0 (length (samples b)))).
Proof.
  intros L. change (pull_probs (length (samples b)) (array_split (map home ys) P) (array_split p P)) with (transfer (length (samples b)) (array_split (map home ys) P) (array_split p P)).
  rewrite transfer_lemma by (apply split_same_lengths; [exact HP|rewrite map_length; congruence]). rewrite !array_split_concat by exact HP. f_equal. apply map_ext. intros k. unfold total_in. rewrite filter_keys. reflexivity.
Qed.
Lemma pull_ok (ys : list cell) p : length p = length ys ->
  pull (length (samples b)) (array_split (map home ys) P) (array_split p P) =
  Ok (map (fun k => xsum (map snd (filter (fun e => home (fst e) =? k) (combine ys p)))) (seq 0 (length (samples b)))).
Proof.
  intros L. unfold pull. assert (X : same_lengths (array_split (map home ys) P) (array_split p P)) by (apply split_same_lengths; [exact HP|rewrite map_length; congruence]).
  rewrite (zip_blocks_ok _ _ X). cbn [bind]. f_equal. apply map_ext. intros k. rewrite xcells, (zip_concat _ _ X), !array_split_concat by exact HP. rewrite filter_keys. reflexivity.
Qed.
Lemma ids_len (b' : problem) ss labels r : well_posed b' -> length (sample_ids nn b' ss labels r) = length (samples b').
Proof. intros W. unfold sample_ids. cbv zeta. rewrite map_length. unfold sample_points, spoint. rewrite !combine_length, map_length, c1_len by exact W. rewrite (c2_len nn P HP b' W (repeat 0%Qc (length (samples b'))) (repeat_length _ _)). clear. lia. Qed.
Lemma update_ok (b' : problem) v e inp u ss labels r : well_posed b' -> length v = length (samples b') -> base_is u -> u_ptr u = Some (array_split (map home (samples b')) P) ->
  d_in e = Some inp -> loc inp Probabilities = Some (split_arr P (vec_arr (sample_probs nn b' v))) ->
  exists base, d_in (u_disc u) = Some base /\ update_base P e u (Some (array_split (sample_ids nn b' ss labels r) P)) =
    Ok (mk_sur (with_in (Some (set_glob Probabilities (Some (vec_arr (old_probs nn a b' v))) base)) (u_disc u)) (u_ptr u) (Some e) (Some (array_split (sample_ids nn b' ss labels r) P)) (Some (old_ids nn a b' ss labels r))).
Proof.
  intros W LV ((base & Ei & Hi & _) & _) Ep Ein Lp. exists base. split; [exact Ei|]. unfold update_base. rewrite Ei. cbn [need bind]. rewrite (held_count P _ _ _ Hi). cbn [bind].
  destruct (Nat.eqb_spec (length (samples b)) 0) as [E0|_]; [destruct WB as (N & _); destruct (samples b); [contradiction|discriminate]|]. rewrite Ep. cbn [subscript bind]. rewrite Ein. cbn [need bind]. rewrite Lp. cbn [subscript bind].
  rewrite split_vec. cbn [bind]. rewrite pull_probs_ok by (apply (sp_len nn P HP); assumption). cbn [bind]. rewrite pull_ok by (apply ids_len; exact W). reflexivity.
Qed.
Lemma base_update u q p n i : base_is u -> length q = length (samples b) -> forall base, d_in (u_disc u) = Some base ->
  base_is (mk_sur (with_in (Some (set_glob Probabilities (Some (vec_arr q)) base)) (u_disc u)) p n i (u_base_ids u)).
Proof.
  intros ((base0 & Ei & Hi & Di & Ji & NJ) & HO & HPr) L base E. rewrite Ei in E. injection E as <-. split; [|split; [exact HO|exact HPr]]. eexists. split; [reflexivity|].
  split; [apply held_set_glob; [exact Hi|discriminate|rewrite vec_rows; exact L]|]. split; [exact Di|]. cbn [set_glob glob loc]. rewrite upd_other by discriminate. auto.
Qed.
Lemma kept_update st d u base q ids p n i : old_kept st d u -> d_in (u_disc u) = Some base ->
  old_kept (Some (q, ids)) d (mk_sur (with_in (Some (set_glob Probabilities (Some (vec_arr q)) base)) (u_disc u)) p n i (Some ids)).
Proof.
  intros ((inp & inp1 & E0 & E1 & D & G & _) & SO & SP & _) E. rewrite E1 in E. injection E as <-. split; [|split; [exact SO|split; [exact SP|reflexivity]]].
  exists inp. eexists. split; [exact E0|]. split; [reflexivity|]. split; [exact D|]. split.
  - intros x N1 N2. cbn [set_glob glob]. rewrite upd_other by congruence. apply G; assumption.
  - cbn [set_glob glob]. apply upd_same.
Qed.

Definition inv (d : disc cell) (k : known) (u : surrogate) : Prop := base_is u /\ new_is k u /\ old_kept (k_stored k) d u.
Lemma step d k u c : inv d k u -> proper_call a P c ->
  match answer_to nn a k c with
  | Ok x => exists u1, make nn P c u = Ok (x, u1) /\ inv d (learn nn a k c) u1
  | Raise x => make nn P c u = Raise x
  end.
Proof.
  intros (HB & HN & HK) HC. destruct c as [order s ys w|s ss labels regions update].
  - destruct HC as (NY & Hs & FY & B). pose proof (generate_ok order s ys w u k NY Hs FY B HB) as H. cbn [make].
    destruct (answer_to nn a k (Generate order s ys w)) as [x|x] eqn:EA.
    + destruct H as (u1 & -> & E1 & E2 & N1). exists u1. split.
      * cbn [rmap]. do 2 f_equal. cbn [answer_to] in EA. destruct order as [|[|order]], (o_jacobians a); congruence.
      * split; [unfold base_is in *; rewrite E1; exact HB|]. split; [exact N1|]. cbn [learn k_stored]. unfold old_kept in *. rewrite E1, E2. exact HK.
    + rewrite H. reflexivity.
  - destruct HC as (NS & Hs & NR). cbn [make answer_to learn]. unfold new_is in HN. unfold region_probabilities. destruct (k_new k) as [[b' v]|] eqn:EN; [|rewrite HN; reflexivity].
    destruct HN as ((order & ys & Eb & NY) & LV & (e & Ee & ((inp & Ein & Hin & Hv) & HR)) & EP). rewrite Ee. cbn [bind]. rewrite Ein. cbn [need bind].
    assert (W : well_posed b') by (rewrite Eb; apply new_posed; exact NY). assert (PI : p_in b' = p_in b) by (rewrite Eb; reflexivity). rewrite <- PI in Hs.
    destruct (volumes_step P HP b' W v LV e inp Ein Hin Hv) as (inp1 & -> & Hin1 & Lv1). cbn [bind].
    destruct (prob_ok nn P HP b' W (o_estimates a) v LV (with_in (Some inp1) e) inp1 eq_refl Hin1 Lv1 HR) as (e1 & -> & HR1 & El1). cbn [bind with_in d_in need].
    set (inp2 := set_loc Probabilities (Some (split_arr P (vec_arr (sample_probs nn b' v)))) inp1).
    assert (Hin2 : in_ok P b' inp2) by (apply in_ok_loc; [exact HP|exact Hin1|discriminate|rewrite vec_rows; apply (sp_len nn P HP); assumption]).
    assert (Lp2 : loc inp2 Probabilities = Some (split_arr P (vec_arr (sample_probs nn b' v)))) by (cbn [inp2 set_loc loc]; apply upd_same).
    assert (Lv2 : loc inp2 Volumes = Some (split_arr P (vec_arr v))) by (cbn [inp2 set_loc loc]; rewrite upd_other by discriminate; exact Lv1).
    destruct (transfer_ok nn P HP b' W v LV s inp2 ss labels Hs NS Hin2 Lp2) as (s1 & -> & Hs1 & _). cbn [bind fst snd]. cbv zeta.
    match goal with |- context [region_loop nn P s1 _ regions ?e0 (u_ids u)] =>
      assert (J : probs_in nn P b' (o_estimates a) e0 inp2) by (split; [reflexivity|]; split; [exact Hin2|]; split; [exact HR1|exact El1]);
      pose proof (loop_ok nn P HP NN b' W (o_estimates a) v LV s1 ss labels inp2 NS Hs1 regions e0 (u_ids u) J) as HL end.
    replace (match regions with [] => true | _ => o_estimates a end) with (o_estimates a) in HL by (destruct regions; [contradiction|reflexivity]).
    destruct (o_estimates a && forallb (fun r => existsb (fun l => qeqb l r) labels) regions); [|rewrite HL; reflexivity].
    destruct HL as (e2 & -> & (Ein2 & _ & HR2 & El2)). cbn [bind fst snd].
    replace (match regions with [] => u_ids u | _ => Some (array_split (sample_ids nn b' ss labels (last regions 0%Qc)) P) end) with (Some (array_split (sample_ids nn b' ss labels (last regions 0%Qc)) P)) by (destruct regions; [contradiction|reflexivity]).
    assert (SI : sinv nn P b' (o_estimates a) v e2) by (split; [exists inp2; split; [exact Ein2|]; split; [exact Hin2|left; exact Lv2]|exact HR2]).
    assert (NI : forall st dd i bi, new_is (mk_known (Some (b', v)) st) (mk_sur dd (u_ptr u) (Some e2) i bi)).
    { intros st dd i bi. unfold new_is. cbn [k_new u_new u_ptr]. split; [exists order, ys; auto|]. split; [exact LV|]. split; [exists e2; auto|exact EP]. }
    destruct update.
    + destruct (update_ok b' v e2 inp2 u ss labels (last regions 0%Qc) W LV HB EP Ein2 Lp2) as (base & Eb0 & ->). cbn [bind]. eexists. split; [reflexivity|].
      split; [|split; [apply NI|]].
      * apply (base_update u _ (u_ptr u) (Some e2) (Some (array_split (sample_ids nn b' ss labels (last regions 0%Qc)) P)) HB) with (base := base); [|exact Eb0]. unfold old_probs. rewrite map_length, seq_length. reflexivity.
      * cbn [k_stored]. eapply kept_update; [exact HK|exact Eb0].
    + cbn [bind]. eexists. split; [reflexivity|]. split; [exact HB|]. split; [apply NI|]. cbn [k_stored]. unfold old_kept in *. exact HK.
Qed.
Lemma history d : forall cs k u, inv d k u -> Forall (proper_call a P) cs ->
  match make_all nn P cs u with
  | Ok (xs, u1) => in_turn (answers_to nn a k cs) = Ok xs /\ inv d (fold_left (learn nn a) cs k) u1
  | Raise x => in_turn (answers_to nn a k cs) = Raise x
  end.
Proof.
  induction cs as [|c cs IH]; intros k u I F; [split; [reflexivity|exact I]|]. inversion F as [|? ? HC FC]; subst. cbn [make_all answers_to in_turn fold_left]. pose proof (step d k u c I HC) as H.
  destruct (answer_to nn a k c) as [x|x]; [|rewrite H; reflexivity]. destruct H as (u1 & -> & I1). cbn [bind]. specialize (IH _ u1 I1 FC).
  destruct (make_all nn P cs u1) as [[xs u2]|x2]; cbn [rmap fst snd].
  - destruct IH as [-> I2]. split; [reflexivity|exact I2].
  - rewrite IH. reflexivity.
Qed.
Lemma new_disc_is k u : new_is k u -> match k_new k with Some (b', _) => exists e, u_new u = Some e /\ surrogate_disc_is a P b' e | None => u_new u = None end.
Proof.
  unfold new_is. destruct (k_new k) as [[b' v]|]; [|auto]. intros (_ & LV & (e & Ee & ((inp & Ein & ((Hh & L & F) & _)) & HR)) & _). exists e. split; [exact Ee|].
  destruct HR as ((out & Eo & (D & G & L1 & L2 & _)) & (pr & Ep & Hp & Gp) & _). split; [exists inp; destruct Hh as (_ & _ & D1 & G1); auto|]. split; [exists out; auto|]. exists pr. destruct Hp as (_ & _ & D1 & G1). auto.
Qed.
Theorem histories d cs : holds_old P a d -> Forall (proper_call a P) cs ->
  exists u0, new_surrogate P d = Ok u0 /\
  match make_all nn P cs u0 with
  | Ok (xs, u) => in_turn (answers_to nn a (mk_known None None) cs) = Ok xs /\
      (match k_new (fold_left (learn nn a) cs (mk_known None None)) with
       | Some (b', _) => exists e, u_new u = Some e /\ surrogate_disc_is a P b' e
       | None => u_new u = None
       end) /\ old_kept (k_stored (fold_left (learn nn a) cs (mk_known None None))) d u
  | Raise x => in_turn (answers_to nn a (mk_known None None) cs) = Raise x
  end.
Proof.
  intros HD F. destruct (init d HD) as (u0 & E & B0 & N0 & K0). exists u0. split; [exact E|].
  pose proof (history d cs (mk_known None None) u0 (conj B0 (conj N0 K0)) F) as H. destruct (make_all nn P cs u0) as [[xs u]|x]; [|exact H].
  destruct H as (A & (_ & N & K)). split; [exact A|]. split; [apply new_disc_is; exact N|exact K].
Qed.
End Surrogate.
