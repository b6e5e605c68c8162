(** The statements of the properties of surrogate objects. *)
From Coq Require Import List Arith Bool QArith Qcanon Lia.
From Verif Require Import Err Num Ext NumPy Lists SampleSet_Model SampleSet_Spec SampleSet_Proofs Prob_Model Prob_Spec Prob_Proofs
  Disc_Model Disc_Spec Disc_Proofs Workflow_Model Workflow_Proofs VolHist_Proofs Error_Model
  ErrorDisc_Model ErrorDisc_Spec ErrorDisc_Proofs ErrorDisc2_Proofs ErrorDisc3_Proofs ErrorDisc4_Proofs Surrogate_Model Surrogate_Spec Surrogate_Proofs Surrogate2_Proofs Surrogate3_Proofs Surrogate4_Proofs.
Import ListNotations.
Local Open Scope nat_scope.
Local Open Scope err_scope.

Section Statements.
Context (nn : list cell -> cell -> nat) (P : nat) (HP : 0 < P) (NN : forall l x, l <> [] -> nn l x < length l) (a : old_data) (SA : sound a).
Notation k0 := (mk_known None None).
Lemma surrogate_answers_lemma d cs : holds_old P a d -> Forall (proper_call a P) cs ->
  rmap fst (do u0 <- new_surrogate P d ; make_all nn P cs u0) = in_turn (answers_to nn a k0 cs).
Proof.
  intros HD F. destruct (histories nn P HP NN a SA d cs HD F) as (u0 & -> & H). cbn [bind]. destruct (make_all nn P cs u0) as [[xs u]|x]; cbn [rmap fst]; [symmetry; apply H|symmetry; exact H].
Qed.
Lemma surrogate_kept_lemma d cs xs u : holds_old P a d -> Forall (proper_call a P) cs ->
  (do u0 <- new_surrogate P d ; make_all nn P cs u0) = Ok (xs, u) ->
  let k := fold_left (learn nn a) cs k0 in
  (match k_new k with Some (b', _) => exists e, u_new u = Some e /\ surrogate_disc_is a P b' e | None => u_new u = None end) /\ old_kept (k_stored k) d u.
Proof.
  intros HD F E. destruct (histories nn P HP NN a SA d cs HD F) as (u0 & E0 & H). rewrite E0 in E. cbn [bind] in E. rewrite E in H. apply H.
Qed.
Lemma given_set_lemma d cs xs u s ss labels regions up r s1 u1 : holds_old P a d -> Forall (proper_call a P) cs -> proper_call a P (Regions s ss labels regions up) ->
  (do u0 <- new_surrogate P d ; make_all nn P cs u0) = Ok (xs, u) -> region_probabilities nn P s regions up u = Ok (r, s1, u1) ->
  exists b' v, k_new (fold_left (learn nn a) cs k0) = Some (b', v) /\ glob s1 Probabilities = Some (vec_arr (cell_probs nn b' v ss)) /\
    forall x, x <> KdtreeValues -> x <> Probabilities -> glob s1 x = glob s x.
Proof.
  intros HD F (NS & Hs & NR) E ER. destruct (init P HP a SA d HD) as (u0 & E0 & B0 & N0 & K0). rewrite E0 in E. cbn [bind] in E.
  pose proof (history nn P HP NN a SA d cs k0 u0 (conj B0 (conj N0 K0)) F) as H. rewrite E in H. destruct H as (_ & (_ & HN & _)).
  unfold region_probabilities in ER. unfold new_is in HN. destruct (k_new (fold_left (learn nn a) cs k0)) as [[b' v]|]; [|rewrite HN in ER; discriminate].
  exists b', v. split; [reflexivity|]. destruct HN as ((order & ys & Eb & NY) & LV & (e & Ee & ((inp & Ein & Hin & Hv) & HR)) & EP). rewrite Ee in ER. cbn [bind] in ER. rewrite Ein in ER. cbn [need bind] in ER.
  assert (W : well_posed b') by (rewrite Eb; apply new_posed; assumption). assert (PI : p_in b' = p_in (o_problem a)) by (rewrite Eb; reflexivity). rewrite <- PI in Hs.
  destruct (volumes_step P HP b' W v LV e inp Ein Hin Hv) as (inp1 & EV & Hin1 & Lv1). rewrite EV in ER. cbn [bind] in ER.
  destruct (prob_ok nn P HP b' W (o_estimates a) v LV (with_in (Some inp1) e) inp1 eq_refl Hin1 Lv1 HR) as (e1 & EQ & HR1 & El1). rewrite EQ in ER. cbn [bind with_in d_in need] in ER.
  set (inp2 := set_loc Probabilities (Some (split_arr P (vec_arr (sample_probs nn b' v)))) inp1) in ER.
  assert (Hin2 : in_ok P b' inp2) by (apply in_ok_loc; [exact HP|exact Hin1|discriminate|rewrite vec_rows; apply (sp_len nn P HP); assumption]).
  assert (Lp2 : loc inp2 Probabilities = Some (split_arr P (vec_arr (sample_probs nn b' v)))) by (cbn [inp2 set_loc loc]; apply upd_same).
  destruct (transfer_ok nn P HP b' W v LV s inp2 ss labels Hs NS Hin2 Lp2) as (s2 & ET & _ & G & O). rewrite ET in ER. cbn [bind fst snd] in ER. cbv zeta in ER.
  destruct (region_loop _ _ _ _ _ _ _) as [l|] in ER; [|discriminate]. cbn [bind] in ER. destruct (if up then _ else _) as [u2|] in ER; [|discriminate]. cbn [bind] in ER. injection ER as _ <- _. split; [exact G|exact O].
Qed.
Lemma snoc_new cs c : k_new (fold_left (learn nn a) (cs ++ [c]) k0) = match c with Generate order _ ys w => Some (new_problem nn a order ys, new_volumes ys w) | Regions _ _ _ _ _ => k_new (fold_left (learn nn a) cs k0) end.
Proof. rewrite fold_left_app. cbn [fold_left learn]. destruct c; [reflexivity|]. cbn [learn]. destruct (k_new (fold_left (learn nn a) cs k0)) as [[b' v]|] eqn:E; [reflexivity|exact E]. Qed.
Lemma new_source : forall cs b' v, Forall (proper_call a P) cs -> k_new (fold_left (learn nn a) cs k0) = Some (b', v) -> exists order ys w s, In (Generate order s ys w) cs /\ b' = new_problem nn a order ys /\ v = new_volumes ys w.
Proof.
  intros cs. induction cs as [|c cs IH] using rev_ind; intros b' v F E; [discriminate|]. rewrite snoc_new in E. apply Forall_app in F. destruct F as [F _]. destruct c as [order s ys w|].
  - injection E as <- <-. exists order, ys, w, s. split; [apply in_or_app; right; left; reflexivity|auto].
  - destruct (IH b' v F E) as (order & ys & w & s0 & HI & X). exists order, ys, w, s0. split; [apply in_or_app; left; exact HI|exact X].
Qed.
Lemma old_total (b' : problem) v : well_posed b' -> length v = length (samples b') -> qsum (old_probs nn a b' v) = qsum (sample_probs nn b' v).
Proof.
  intros W LV. unfold old_probs. pose proof (sp_len nn P HP b' W v LV) as L. rewrite (map_ext _ (total_in (combine (map (home nn a) (samples b')) (sample_probs nn b' v)))).
  - rewrite <- total_in_split.
    + rewrite combine_snd; [reflexivity|]. rewrite map_length. congruence.
    + intros [i q] H. apply in_combine_l in H. apply in_map_iff in H. destruct H as (y & <- & _). apply (home_bound nn NN a SA).
  - intros k. unfold total_in. rewrite filter_keys. reflexivity.
Qed.
Lemma sample_total (b' : problem) v : well_posed b' -> length v = length (samples b') -> (forall p, In p (probs b') -> (0 <= p)%Qc) ->
  (qsum (sample_probs nn b' v) <= qsum (probs b'))%Qc /\
  (qsum (sample_probs nn b' v) = qsum (probs b') <-> forall i p, nth_error (probs b') i = Some p -> (0 < p)%Qc -> (0 < total_in (combine (cells_before nn b') v) i)%Qc).
Proof.
  intros W LV NP. pose proof (c1_len nn b' W) as LC. assert (L : length (cells_before nn b') = length v) by congruence.
  pose proof (prob_total_iff_lemma (probs b') (array_split (cells_before nn b') 1) (array_split v 1) (array_split (sample_probs nn b' v) 1) (split_same_lengths _ _ 1 Nat.lt_0_1 L)) as H.
  rewrite !array_split_concat in H by (clear; lia). specialize (H NP). 
  assert (B : forall i, In i (cells_before nn b') -> i < length (probs b')).
  { intros i Hi. apply in_map_iff in Hi. destruct Hi as (z & <- & _). destruct W as (_ & NC & _ & _ & _ & -> & _). apply NN. exact NC. }
  specialize (H B (prob_split 1 (probs b') (cells_before nn b') v Nat.lt_0_1 L)). exact H.
Qed.
Lemma surrogate_update_lemma d cs s ss labels regions xs u : holds_old P a d -> Forall (proper_call a P) cs -> proper_call a P (Regions s ss labels regions true) ->
  (do u0 <- new_surrogate P d ; make_all nn P (cs ++ [Regions s ss labels regions true]) u0) = Ok (xs, u) ->
  exists b' v base, k_new (fold_left (learn nn a) cs k0) = Some (b', v) /\ d_in (u_disc u) = Some base /\
    glob base Probabilities = Some (vec_arr (old_probs nn a b' v)) /\ u_base_ids u = Some (old_ids nn a b' ss labels (last regions 0%Qc)) /\
    qsum (old_probs nn a b' v) = qsum (sample_probs nn b' v) /\
    ((forall p, In p (probs (o_problem a)) -> (0 <= p)%Qc) -> (qsum (old_probs nn a b' v) <= qsum (probs (o_problem a)))%Qc /\
      (qsum (old_probs nn a b' v) = qsum (probs (o_problem a)) <->
       forall i p, nth_error (probs (o_problem a)) i = Some p -> (0 < p)%Qc -> (0 < total_in (combine (cells_before nn b') v) i)%Qc)).
Proof.
  intros HD F HC E. assert (F' : Forall (proper_call a P) (cs ++ [Regions s ss labels regions true])) by (apply Forall_app; auto).
  destruct (histories nn P HP NN a SA d _ HD F') as (u0 & E0 & H). rewrite E0 in E. cbn [bind] in E. rewrite E in H. destruct H as (A & _ & K).
  rewrite fold_left_app in K. cbn [fold_left learn] in K. destruct (k_new (fold_left (learn nn a) cs k0)) as [[b' v]|] eqn:EN.
  - destruct (new_source cs b' v F EN) as (order & ys & w & s0 & HI & Eb & Ev). rewrite Forall_forall in F. specialize (F _ HI). destruct F as (NY & Hs & _ & B).
    assert (W : well_posed b') by (rewrite Eb; apply new_posed; assumption).
    assert (LV : length v = length (samples b')).
    { rewrite Ev, Eb. cbn [new_problem samples]. destruct (points_localized P _ _ _ Hs) as (s2 & EL & _). apply (brought P a s0 s2 ys w Hs B EL). }
    destruct K as ((inp & inp1 & _ & E1 & _ & _ & G) & _ & _ & I). cbn [k_stored fst snd option_map] in *. exists b', v, inp1. split; [reflexivity|]. split; [exact E1|]. split; [exact G|]. split; [exact I|].
    pose proof (old_total b' v W LV) as T. split; [exact T|]. intros NP. rewrite T. assert (EP : probs b' = probs (o_problem a)) by (rewrite Eb; reflexivity). rewrite <- EP in *. apply sample_total; assumption.
  - exfalso. clear - A EN. assert (X : forall cs k, k_new (fold_left (learn nn a) cs k) = None -> forall xs, in_turn (answers_to nn a k (cs ++ [Regions s ss labels regions true])) <> Ok xs).
    { induction cs0 as [|c cs0 IH]; intros k EK ys; cbn [app answers_to in_turn].
      - cbn [fold_left] in EK. cbn [answer_to]. rewrite EK. discriminate.
      - destruct (answer_to nn a k c); [|discriminate]. pose proof (IH (learn nn a k c) EK) as Y. destruct (in_turn (answers_to nn a (learn nn a k c) (cs0 ++ _))) eqn:EI; [|discriminate]. exfalso. exact (Y _ eq_refl). }
    exact (X cs k0 EN xs A).
Qed.
End Statements.

(** Two runs with the same data on different numbers of processes. *)
Lemma same_answers nn a : forall cs1 cs2 k1 k2, Forall2 same_call cs1 cs2 -> k_new k1 = k_new k2 -> answers_to nn a k1 cs1 = answers_to nn a k2 cs2.
Proof.
  intros cs1 cs2 k1 k2 H. revert k1 k2. induction H as [|c1 c2 r1 r2 HC H IH]; intros k1 k2 E; [reflexivity|]. cbn [answers_to].
  destruct c1, c2; cbn [same_call] in HC; try contradiction.
  - destruct HC as (-> & -> & ->). f_equal. apply IH. reflexivity.
  - destruct HC as (-> & -> & -> & ->). f_equal; [cbn [answer_to]; rewrite E; reflexivity|]. apply IH. cbn [learn]. rewrite E. destruct (k_new k2) as [[b' v]|] eqn:EK; cbn [k_new]; congruence.
Qed.
Lemma processes_lemma nn a P1 P2 d1 d2 cs1 cs2 : 0 < P1 -> 0 < P2 -> (forall l x, l <> [] -> nn l x < length l) -> sound a ->
  holds_old P1 a d1 -> holds_old P2 a d2 -> Forall (proper_call a P1) cs1 -> Forall (proper_call a P2) cs2 -> Forall2 same_call cs1 cs2 ->
  rmap fst (do u <- new_surrogate P1 d1 ; make_all nn P1 cs1 u) = rmap fst (do u <- new_surrogate P2 d2 ; make_all nn P2 cs2 u).
Proof.
  intros H1 H2 NN SA D1 D2 F1 F2 S. rewrite (surrogate_answers_lemma nn P1 H1 NN a SA d1 cs1 D1 F1), (surrogate_answers_lemma nn P2 H2 NN a SA d2 cs2 D2 F2). f_equal. apply same_answers; [exact S|reflexivity].
Qed.

(** ** Order one of an affine map *)
Lemma dot_sub : forall (r x y : list Qc), length x = length y -> times r (minus x y) = (times r x - times r y)%Qc.
Proof.
  unfold times, minus. induction r as [|c r IH]; intros x y L; [cbn; ring|]. destruct x as [|p x], y as [|q y]; try discriminate; [cbn; ring|]. cbn [combine map fst snd]. cbn [qsum]. injection L as L. rewrite (IH x y L). ring.
Qed.
Lemma reflect_rows (x y : list Qc) : length x = length y -> forall A c, length c = length A ->
  plus (affine A c x) (map (fun r => times r (minus x y)) A) = minus (plus (affine A c x) (affine A c x)) (affine A c y).
Proof.
  intros L. unfold affine, plus, minus at 2. induction A as [|r A IH]; intros [|q c] LC; try discriminate; [reflexivity|]. cbn [map combine fst snd]. injection LC as LC. f_equal; [|apply IH; exact LC].
  rewrite dot_sub by exact L. ring.
Qed.
Lemma linear_lemma nn P a A c s ys w d xs u : 0 < P -> (forall l x, l <> [] -> nn l x < length l) -> sound a -> of_affine a A c ->
  holds_old P a d -> proper_call a P (Generate 1 s ys w) -> (do u0 <- new_surrogate P d ; make_all nn P [Generate 1 s ys w] u0) = Ok (xs, u) ->
  exists e out, u_new u = Some e /\ d_out e = Some out /\
    loc out Values = Some (split_arr P (mk_arr (map (fun y => let x := coords (nth (home nn a y) (samples (o_problem a)) (Vec [])) in
      row (minus (plus (affine A c x) (affine A c x)) (affine A c (coords y)))) ys) [p_out (o_problem a)])).
Proof.
  intros HP NN SA (EO & EJ & LA) HD HC E. destruct (surrogate_kept_lemma nn P HP NN a SA d [Generate 1 s ys w] xs u HD (Forall_cons _ HC (Forall_nil _)) E) as [(e & Ee & HS) _].
  destruct HS as (_ & (out & Eo & _ & L & _) & _). exists e, out. split; [exact Ee|]. split; [exact Eo|]. rewrite L. cbn [new_problem outputs p_out]. do 3 f_equal. rewrite map_map. apply map_ext_in. intros y Hy. cbv zeta. f_equal.
  destruct HC as (_ & _ & FY & _). rewrite Forall_forall in FY. destruct (FY y Hy) as (yl & -> & Ly).
  pose proof (home_bound nn NN a SA (row yl)) as HB.
  assert (PT : is_point (p_in (o_problem a)) (nth (home nn a (row yl)) (samples (o_problem a)) (Vec []))) by (destruct SA as (_ & FS & _); rewrite Forall_forall in FS; apply FS; apply nth_In; exact HB).
  destruct PT as (xl & EX & Lx). unfold new_output. cbv zeta. rewrite EJ, EX, !coords_row.
  replace (nth (home nn a (row yl)) (repeat A (length (samples (o_problem a)))) []) with A.
  2:{ symmetry. apply (repeat_spec (length (samples (o_problem a)))). apply nth_In. rewrite repeat_length. exact HB. }
  replace (nth (home nn a (row yl)) (outputs (o_problem a)) []) with (affine A c xl).
  2:{ rewrite EO. symmetry. rewrite (nth_indep _ [] (affine A c (coords (Vec [])))) by (rewrite map_length; exact HB). rewrite map_nth with (f := fun x => affine A c (coords x)), EX, coords_row. reflexivity. }
  apply reflect_rows; congruence.
Qed.
