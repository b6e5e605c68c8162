From Coq Require Import List Arith Bool QArith Qcanon Lia.
From Verif Require Import Err Num NumPy Lists Prob_Model Prob_Spec Prob_Proofs Query_Proofs Inverse_Proofs Rounding_Model Rounding_Spec Rounding_Proofs RoundingEnd_Model RoundingEnd_Spec.
Import ListNotations.
Local Open Scope nat_scope.
Local Open Scope err_scope.

Lemma total_cons c x l i : total_in ((c, x) :: l) i = ((if c =? i then x else 0) + total_in l i)%Qc.
Proof. unfold total_in. cbn [filter fst]. destruct (c =? i); cbn [map snd]; [reflexivity|]. ring. Qed.
Section Within.
Variable u : Qc.
Hypothesis (U0 : (0 <= u)%Qc) (U1 : (u < 1)%Qc).
Lemma total_within k c v v' i : Forall2 (near u k) v v' -> near u k (total_in (combine c v) i) (total_in (combine c v') i).
Proof.
  intros H. revert c. induction H as [|x x' v v' X H IH]; intros [|j c]; cbn [combine]; try (apply near_refl; [exact U0|exact U1|apply Qcle_refl]).
  rewrite !total_cons. apply near_add; [|apply IH]. destruct (j =? i); [exact X|]. apply near_refl; [exact U0|exact U1|apply Qcle_refl].
Qed.
Lemma forall2_nth {A B} (P : A -> B -> Prop) l m j : Forall2 P l m ->
  match nth_error l j, nth_error m j with Some x, Some y => P x y | None, None => True | _, _ => False end.
Proof. intros H. revert j. induction H as [|x y l m X H IH]; intros [|j]; cbn; auto. apply IH. Qed.
Lemma share_within a b probs probs' c v v' i x x' : Forall2 (near u a) probs probs' -> Forall2 (near u b) v v' -> near u b x x' ->
  near u (a + b + b) (share probs (combine c v) (i, x)) (share probs' (combine c v') (i, x')).
Proof.
  intros HP HV HX. unfold share. cbn [fst snd]. pose proof (forall2_nth _ _ _ i HP) as P. pose proof (total_within b c v v' i HV) as T.
  assert (Z : near u (a + b + b) 0%Qc 0%Qc) by (apply near_refl; [exact U0|exact U1|apply Qcle_refl]).
  destruct (nth_error probs i) as [p|], (nth_error probs' i) as [p'|]; try (now destruct P); try exact Z.
  destruct (qltb_spec 0%Qc p) as [Pp|Pp], (qltb_spec 0%Qc p') as [Pp'|Pp']; cbn [andb]; try exact Z.
  - destruct (qltb_spec 0%Qc (total_in (combine c v) i)) as [Tp|Tp], (qltb_spec 0%Qc (total_in (combine c v') i)) as [Tp'|Tp']; try exact Z.
    + apply near_div; try exact U0; try exact U1; [exact Tp| |exact T]. apply near_mul; try exact U0; try exact U1; [exact P|exact HX].
    + exfalso. apply Tp'. exact (near_pos u U1 _ _ _ T Tp).
    + exfalso. apply Tp. exact (near_pos u U1 _ _ _ (near_sym u _ _ _ T) Tp').
  - exfalso. apply Pp'. exact (near_pos u U1 _ _ _ P Pp).
  - exfalso. apply Pp. exact (near_pos u U1 _ _ _ (near_sym u _ _ _ P) Pp').
Qed.
End Within.

Lemma near_nonneg u k v v' : Forall2 (near u k) v v' -> nonneg v'.
Proof. intros H x Hx. apply In_nth_error in Hx. destruct Hx as [j Hj]. pose proof (forall2_nth _ _ _ j H) as X. rewrite Hj in X. destruct (nth_error v j); [apply X|destruct X]. Qed.

Section Solve.
Variables (u : Qc) (rnd : Qc -> Qc) (np_sum reduce : list Qc -> Qc).
Hypotheses (RR : rounding u rnd) (AN : adds rnd np_sum) (AR : adds rnd reduce).
Lemma U0' : (0 <= u)%Qc. Proof. apply RR. Qed.
Lemma U1' : (u < 1)%Qc. Proof. apply RR. Qed.
Local Notation U0 := U0'.
Local Notation U1 := U1'.

Lemma solution_rounding_lemma a b probs probs' ptrs vols vols' :
  same_lengths ptrs vols -> same_lengths ptrs vols' -> all_within u a probs probs' -> all_within u b (concat vols) (concat vols') -> exists Q F,
  prob probs ptrs vols = Ok Q /\ prob_fl rnd np_sum reduce probs' ptrs vols' = Ok F /\ same_lengths Q ptrs /\ same_lengths F ptrs /\
  forall j c q f, nth_error (concat ptrs) j = Some c -> nth_error (concat Q) j = Some q -> nth_error (concat F) j = Some f ->
    within u (a + 2 * b + (number_in (concat ptrs) c + length ptrs)) q f.
Proof.
  intros H H' HP HV. destruct (prob_concat probs ptrs vols H) as (Q & EQ & SQ & CQ). destruct (prob_concat probs' ptrs vols' H') as (Q' & EQ' & SQ' & CQ').
  destruct (prob_near rnd np_sum reduce u RR AN AR probs' ptrs vols' H' (near_nonneg _ _ _ _ HV)) as (Q2 & F & E2 & EF & S2 & SF & G).
  rewrite EQ' in E2. injection E2 as <-. exists Q, F. split; [exact EQ|]. split; [exact EF|]. split; [exact SQ|]. split; [exact SF|].
  intros j c q f Hc Hq Hf. assert (Lj : j < length (concat Q')). { rewrite (same_lengths_concat _ _ SQ'). apply nth_error_Some. congruence. }
  destruct (nth_error (concat Q') j) as [q'|] eqn:Eq'; [|apply nth_error_None in Eq'; lia].
  change (near u (a + 2 * b + (number_in (concat ptrs) c + length ptrs)) q f). eapply near_trans; try exact U1; [|exact (G j c q' f Hc Eq' Hf)].
  rewrite CQ, nth_error_map, nth_error_combine, Hc in Hq. rewrite CQ', nth_error_map, nth_error_combine, Hc in Eq'.
  pose proof (forall2_nth _ _ _ j HV) as X. destruct (nth_error (concat vols) j) as [x|]; [|discriminate]. destruct (nth_error (concat vols') j) as [x'|]; [|discriminate].
  injection Hq as <-. injection Eq' as <-. replace (a + 2 * b) with (a + b + b) by lia. apply (share_within u U0 U1); [exact HP|exact HV|exact X].
Qed.

(** ** Monte-Carlo volumes: all equal *)
Lemma total_repeat c x n i : length c = n -> total_in (combine c (repeat x n)) i = (qn (number_in c i) * x)%Qc.
Proof.
  revert n. induction c as [|j c IH]; intros n <-; cbn [length repeat combine].
  - unfold number_in. cbn [filter length]. rewrite qn_0. unfold total_in. cbn. ring.
  - rewrite total_cons, (IH _ eq_refl). unfold number_in. cbn [filter]. destruct (j =? i); cbn [length]; [rewrite qn_S|]; ring.
Qed.
Lemma share_equal probs c x y n i : length c = n -> (0 < x)%Qc -> (0 < y)%Qc -> share probs (combine c (repeat x n)) (i, x) = share probs (combine c (repeat y n)) (i, y).
Proof.
  intros L X Y. unfold share. cbn [fst snd]. destruct (nth_error probs i) as [p|]; [|reflexivity]. rewrite !(total_repeat c _ n i L).
  destruct (qltb 0 p); cbn [andb]; [|reflexivity]. destruct (Nat.eq_dec (number_in c i) 0) as [Z|Z].
  - rewrite Z, qn_0. replace (0 * x)%Qc with 0%Qc by ring. replace (0 * y)%Qc with 0%Qc by ring. reflexivity.
  - assert (N : (0 < qn (number_in c i))%Qc) by (apply qn_pos; lia). set (m := qn (number_in c i)) in *.
    destruct (qltb_spec 0%Qc (m * x)%Qc) as [A|A]; [|exfalso; apply A; apply qc_mul_pos; assumption].
    destruct (qltb_spec 0%Qc (m * y)%Qc) as [B|B]; [|exfalso; apply B; apply qc_mul_pos; assumption].
    field. repeat split; intros E; subst; try rewrite E in *; try (revert X; rewrite ?E; apply Qcle_not_lt; apply Qcle_refl); try (revert Y; rewrite ?E; apply Qcle_not_lt; apply Qcle_refl); try (revert N; rewrite ?E; apply Qcle_not_lt; apply Qcle_refl).
Qed.
Lemma repeat_nth {A} (x : A) n j y : nth_error (repeat x n) j = Some y -> y = x.
Proof. intros H. apply nth_error_In in H. apply repeat_spec in H. exact H. Qed.
Lemma mc_rounding_lemma a probs probs' ptrs vols vols' n :
  same_lengths ptrs vols -> same_lengths ptrs vols' -> 0 < n -> length (concat ptrs) = n -> concat vols = repeat (1 / qn n)%Qc n -> concat vols' = mc_fl rnd n -> all_within u a probs probs' -> exists Q F,
  prob probs ptrs vols = Ok Q /\ prob_fl rnd np_sum reduce probs' ptrs vols' = Ok F /\ same_lengths Q ptrs /\ same_lengths F ptrs /\
  forall j c q f, nth_error (concat ptrs) j = Some c -> nth_error (concat Q) j = Some q -> nth_error (concat F) j = Some f ->
    within u (a + (number_in (concat ptrs) c + length ptrs)) q f.
Proof.
  intros H H' N L EV EV' HP.
  assert (P1 : (0 < 1 / qn n)%Qc). { unfold Qcdiv. rewrite Qcmult_1_l. apply qc_inv_pos. apply qn_pos. exact N. }
  assert (P2 : (0 < rnd (1 / qn n))%Qc). { destruct RR as (A & B & C). apply (near_pos u B 1 (1 / qn n)%Qc); [|exact P1]. apply near_rnd; try exact A; try exact B; try exact C; []. apply Qclt_le_weak. exact P1. }
  assert (HV : all_within u 0 (concat vols') (concat vols')).
  { rewrite EV'. unfold mc_fl, all_within. generalize n at 2 4. intros k. induction k as [|k IH]; constructor; [|exact IH]. apply (near_refl u U0 U1). apply Qclt_le_weak. exact P2. }
  destruct (solution_rounding_lemma a 0 probs probs' ptrs vols' vols' H' H' HP HV) as (Q' & F & EQ' & EF & SQ' & SF & G).
  destruct (prob_concat probs ptrs vols H) as (Q & EQ & SQ & CQ). destruct (prob_concat probs ptrs vols' H') as (Q2 & EQ2 & SQ2 & CQ2). rewrite EQ2 in EQ'. injection EQ' as <-.
  assert (CC : concat Q = concat Q2).
  { rewrite CQ, CQ2, EV, EV'. unfold mc_fl. apply nth_error_ext. intros j. rewrite !nth_error_map, !nth_error_combine. destruct (nth_error (concat ptrs) j) as [c|] eqn:Ec; [|reflexivity].
    assert (Lj : j < n) by (rewrite <- L; apply nth_error_Some; congruence). rewrite !nth_error_repeat' by exact Lj. cbn [option_map]. f_equal. apply share_equal; assumption. }
  exists Q, F. split; [exact EQ|]. split; [exact EF|]. split; [exact SQ|]. split; [exact SF|]. intros j c q f Hc Hq Hf. rewrite CC in Hq. pose proof (G j c q f Hc Hq Hf) as W. rewrite Nat.mul_0_r, Nat.add_0_r in W. exact W.
Qed.

(** ** Emulated volumes *)
Lemma emulated_within counts total : all_within u 1 (map (fun c => qn c / qn total)%Qc counts) (emulated_fl rnd counts total).
Proof.
  unfold emulated_fl, all_within. induction counts as [|c counts IH]; constructor; [|exact IH]. destruct RR as (A & B & C). apply (near_rnd u A B rnd C).
  unfold Qcdiv. apply qc_mul_nonneg; [apply qn_nonneg|]. destruct total as [|t]; [rewrite qn_0; apply Qcle_refl|]. apply Qclt_le_weak, qc_inv_pos, qn_pos. lia.
Qed.
Lemma emulated_rounding_lemma a probs probs' ptrs vols vols' counts total :
  same_lengths ptrs vols -> same_lengths ptrs vols' -> 0 < total -> concat vols = map (fun c => qn c / qn total)%Qc counts -> concat vols' = emulated_fl rnd counts total -> all_within u a probs probs' -> exists Q F,
  prob probs ptrs vols = Ok Q /\ prob_fl rnd np_sum reduce probs' ptrs vols' = Ok F /\ same_lengths Q ptrs /\ same_lengths F ptrs /\
  forall j c q f, nth_error (concat ptrs) j = Some c -> nth_error (concat Q) j = Some q -> nth_error (concat F) j = Some f ->
    within u (a + 2 + (number_in (concat ptrs) c + length ptrs)) q f.
Proof.
  intros H H' _ EV EV' HP. apply (solution_rounding_lemma a 1 probs probs' ptrs vols vols' H H' HP). rewrite EV, EV'. apply emulated_within.
Qed.

(** ** Probabilities of emulated points *)
Definition eshare (f : Qc -> Qc) (probs : list Qc) (pts : list nat) (c : nat) : Qc :=
  match nth_error probs c with
  | Some p => if (qltb 0 p && (0 <? number_in pts c))%bool then f (p / qn (number_in pts c))%Qc else 0%Qc
  | None => 0%Qc
  end.
Lemma assign_units i x (g : nat -> Qc) (ptrs : list (list nat)) :
  map (fun bo => assign i (fun _ : unit => x) (map (fun k => (k, tt)) (fst bo)) (snd bo)) (combine ptrs (map (map g) ptrs)) = map (map (fun k => if k =? i then x else g k)) ptrs.
Proof.
  induction ptrs as [|b bs IH]; [reflexivity|]. cbn [map combine fst snd]. f_equal; [|exact IH]. unfold assign. clear. induction b as [|k b IH]; [reflexivity|]. cbn [map combine fst snd]. f_equal. exact IH.
Qed.
Lemma emulated_fold_fl ptrs l g :
  fold_left (emulated_step_fl rnd ptrs) l (map (map g) ptrs) =
  map (map (fun k => fold_left (fun x ip =>
     if k =? fst ip
     then match (if (qltb 0 (snd ip) && (0 <? number_in (concat ptrs) k))%bool then Some (rnd (snd ip / qn (number_in (concat ptrs) k))%Qc) else None) with Some y => y | None => x end
     else x) l (g k))) ptrs.
Proof.
  revert g; induction l as [|[i p] l IH]; intros g; cbn [fold_left]; [reflexivity|].
  assert (emulated_step_fl rnd ptrs (map (map g) ptrs) (i, p) =
          map (map (fun k => if k =? i then if (qltb 0 p && (0 <? number_in (concat ptrs) k))%bool then rnd (p / qn (number_in (concat ptrs) k))%Qc else g k else g k)) ptrs) as ->.
  { unfold emulated_step_fl. rewrite cell_count_concat. destruct (qltb 0 p); cbn [andb].
    - destruct (0 <? number_in (concat ptrs) i) eqn:E.
      + rewrite assign_units. apply map_ext. intros b. apply map_ext. intros k. destruct (Nat.eqb_spec k i) as [->|]; [rewrite E|]; reflexivity.
      + apply map_ext. intros b. apply map_ext. intros k. destruct (Nat.eqb_spec k i) as [->|]; [rewrite E|]; reflexivity.
    - apply map_ext. intros b. apply map_ext. intros k. destruct (k =? i); reflexivity. }
  rewrite IH. apply map_ext. intros b. apply map_ext. intros k. cbn [fst snd]. f_equal. destruct (k =? i); [|reflexivity]. destruct (_ && _)%bool; reflexivity.
Qed.
Lemma emulated_fl_eq probs io_ptr ii ptrs : follow io_ptr ii = Ok ptrs -> prob_on_emulated_fl rnd probs io_ptr ii = Ok (map (map (eshare rnd probs (concat ptrs))) ptrs).
Proof.
  intros E. unfold prob_on_emulated_fl. rewrite E. cbn [bind]. f_equal.
  assert (Z : map (fun p : list nat => repeat 0%Qc (length p)) ptrs = map (map (fun _ => 0%Qc)) ptrs). { apply map_ext. intros b. induction b as [|k b IH]; [reflexivity|]. cbn. f_equal. exact IH. }
  rewrite Z, emulated_fold_fl. apply map_ext. intros b. apply map_ext. intros k. unfold enumerate.
  rewrite (fold_pick k 0 probs (fun p => if (qltb 0 p && (0 <? number_in (concat ptrs) k))%bool then Some (rnd (p / qn (number_in (concat ptrs) k))%Qc) else None)). cbn [Nat.leb]. rewrite Nat.sub_0_r. unfold eshare.
  destruct (nth_error probs k); [|reflexivity]. destruct (_ && _)%bool; reflexivity.
Qed.
End Solve.
Lemma emulated_exact_eq probs io_ptr ii ptrs : follow io_ptr ii = Ok ptrs -> prob_on_emulated_samples probs io_ptr ii = Ok (map (map (eshare (fun x => x) probs (concat ptrs))) ptrs).
Proof. intros E. rewrite <- (emulated_fl_eq (fun x => x) probs io_ptr ii ptrs E). reflexivity. Qed.

Lemma emulated_points_lemma u rnd a probs probs' io_ptr ii : rounding u rnd -> (forall k, In k (concat ii) -> k < length io_ptr) -> all_within u a probs probs' -> exists Q F,
  prob_on_emulated_samples probs io_ptr ii = Ok Q /\ prob_on_emulated_fl rnd probs' io_ptr ii = Ok F /\ same_lengths Q ii /\ same_lengths F ii /\
  all_within u (a + 1) (concat Q) (concat F).
Proof.
  intros RR I HP. destruct RR as (U0 & U1 & R). destruct (follow_ok io_ptr ii I) as (ptrs & E & S & _). rewrite (emulated_exact_eq _ _ _ _ E), (emulated_fl_eq rnd _ _ _ _ E). eexists. eexists. split; [reflexivity|]. split; [reflexivity|].
  assert (SL : forall h : nat -> Qc, same_lengths (map (map h) ptrs) ii).
  { intros h. clear -S. induction S as [|x y xs ys L S IH]; constructor; [rewrite map_length; exact L|exact IH]. }
  split; [apply SL|]. split; [apply SL|]. rewrite !concat_map_map'. unfold all_within. generalize (concat ptrs) at 2 4. intros l. induction l as [|c l IH]; constructor; [|exact IH]. clear IH.
  assert (Z : near u (a + 1) 0%Qc 0%Qc) by (apply near_refl; [exact U0|exact U1|apply Qcle_refl]).
  change (near u (a + 1) (eshare (fun x => x) probs (concat ptrs) c) (eshare rnd probs' (concat ptrs) c)). unfold eshare. pose proof (forall2_nth _ _ _ c HP) as P. destruct (nth_error probs c) as [p|], (nth_error probs' c) as [p'|]; try (now destruct P); try exact Z.
  change (near u a p p') in P.
  destruct (qltb_spec 0%Qc p) as [Pp|Pp], (qltb_spec 0%Qc p') as [Pp'|Pp']; cbn [andb]; try exact Z.
  - destruct (Nat.ltb_spec 0 (number_in (concat ptrs) c)) as [N|N]; [|exact Z]. apply near_after; try exact U0; try exact U1; try exact R; []. unfold Qcdiv. rewrite (Qcmult_comm p), (Qcmult_comm p'). apply near_mul_l; try exact U0; try exact U1; [|exact P]. apply Qclt_le_weak, qc_inv_pos, qn_pos. exact N.
  - exfalso. apply Pp'. exact (near_pos u U1 _ _ _ P Pp).
  - exfalso. apply Pp. exact (near_pos u U1 _ _ _ (near_sym u _ _ _ P) Pp').
Qed.

(** ** Moved afterwards *)
Lemma near_blocks (P : Qc -> Qc -> Prop) (a b : list (list Qc)) : same_lengths a b -> Forall2 P (concat a) (concat b) -> Forall2 (Forall2 P) a b.
Proof.
  induction 1 as [|x y xs ys L S IH]; cbn [concat]; intros H; constructor.
  - revert y L H. induction x as [|e x IHx]; intros [|d y] L H; try discriminate L; [constructor|]. cbn [app] in H. inversion H; subst. constructor; [assumption|]. apply IHx; [injection L as L; exact L|assumption].
  - apply IH. revert y L H. induction x as [|e x IHx]; intros [|d y] L H; try discriminate L; [exact H|]. cbn [app] in H. inversion H; subst. apply (IHx y); [injection L as L; exact L|assumption].
Qed.
Lemma same_trans {A B C} (a : list (list A)) (b : list (list B)) (c : list (list C)) : same_lengths a b -> same_lengths b c -> same_lengths a c.
Proof. intros H. revert c. induction H as [|x y xs ys L S IH]; intros c G; inversion G; subst; constructor; [congruence|]. apply IH. assumption. Qed.
Lemma moved_rounding_lemma u rnd np_sum reduce k num ptrs probs probs' T : rounding u rnd -> adds rnd np_sum -> adds rnd reduce -> same_lengths ptrs probs' -> all_within u k (concat probs) (concat probs') -> transfer num ptrs probs = Ok T ->
  exists F, transfer_fl np_sum reduce num ptrs probs' = Ok F /\ length F = length T /\
  forall i t f, nth_error T i = Some t -> nth_error F i = Some f -> within u (k + (number_in (concat ptrs) i + length ptrs)) t f.
Proof.
  intros RR A B S' W. unfold transfer, transfer_fl. destruct (zip_blocks ptrs probs) as [blocks|] eqn:Z; cbn [bind]; [|discriminate]. pose proof (zip_blocks_inv _ _ _ Z) as H. rewrite (zip_blocks_ok _ _ H) in Z. injection Z as <-. intros [= <-].
  rewrite (zip_blocks_ok _ _ S'). cbn [bind]. eexists. split; [reflexivity|]. split; [rewrite !map_length; reflexivity|]. intros i t f Ht Hf. rewrite nth_error_map in Ht, Hf. destruct (nth_error (seq 0 num) i) as [c|] eqn:E; [|discriminate]. injection Ht as <-. injection Hf as <-.
  assert (c = i) as ->. { assert (L : i < num) by (rewrite <- (seq_length num 0); apply nth_error_Some; congruence). rewrite (nth_error_nth' _ 0) in E by (rewrite seq_length; exact L). rewrite seq_nth in E by exact L. injection E as <-. reflexivity. }
  destruct RR as (U0 & U1 & R).
  change (near u (k + (number_in (concat ptrs) i + length ptrs)) (cell_sum i (zipped ptrs probs)) (cell_sum_fl np_sum reduce i (zipped ptrs probs'))). apply near_trans with (cell_sum i (zipped ptrs probs')); try exact U0; try exact U1.
  - rewrite !cell_sum_concat, (zip_concat _ _ H), (zip_concat _ _ S'). apply total_within; [exact U0|exact U1|exact W].
  - rewrite <- (zipped_fst _ _ S'), <- (zipped_length _ _ S'). eapply near_weaken; [exact U0|exact U1| |apply (cell_sum_near u U0 U1 rnd R); [exact A|exact B|apply nonneg_zipped; [exact S'|exact (near_nonneg _ _ _ _ W)]]]. lia.
Qed.

(** ** From the points to the moved probabilities *)
Lemma rounding_chain_lemma u rnd np_sum reduce a probs probs' ptrs vols vols' counts total num ptrs2 Q T : rounding u rnd -> adds rnd np_sum -> adds rnd reduce ->
  same_lengths ptrs vols -> same_lengths ptrs vols' -> same_lengths ptrs2 ptrs -> 0 < total -> concat vols = map (fun c => qn c / qn total)%Qc counts -> concat vols' = emulated_fl rnd counts total -> all_within u a probs probs' ->
  prob probs ptrs vols = Ok Q -> transfer num ptrs2 Q = Ok T -> exists F G,
  prob_fl rnd np_sum reduce probs' ptrs vols' = Ok F /\ transfer_fl np_sum reduce num ptrs2 F = Ok G /\ length G = length T /\
  forall i t g, nth_error T i = Some t -> nth_error G i = Some g ->
    close (qn (a + 2 + (length (concat ptrs) + length ptrs) + (number_in (concat ptrs2) i + length ptrs2)) * u) t g.
Proof.
  intros RR A B H H' H2 N EV EV' HP EQ ET. destruct (emulated_rounding_lemma u rnd np_sum reduce RR A B a probs probs' ptrs vols vols' counts total H H' N EV EV' HP) as (Q' & F & EQ' & EF & SQ & SF & G). rewrite EQ in EQ'. injection EQ' as <-.
  assert (W : all_within u (a + 2 + (length (concat ptrs) + length ptrs)) (concat Q) (concat F)).
  { pose proof (same_lengths_concat _ _ SQ) as L1. pose proof (same_lengths_concat _ _ SF) as L2. pose proof RR as (U0 & U1 & _).
    assert (K : forall j q f, nth_error (concat Q) j = Some q -> nth_error (concat F) j = Some f -> near u (a + 2 + (length (concat ptrs) + length ptrs)) q f).
    { intros j q f Hq Hf. destruct (nth_error (concat ptrs) j) as [c|] eqn:Ec; [|exfalso; apply nth_error_None in Ec; assert (j < length (concat Q)) by (apply nth_error_Some; congruence); lia].
      eapply near_weaken; [exact U0|exact U1| |exact (G j c q f Ec Hq Hf)]. pose proof (number_le c (concat ptrs)). lia. }
    unfold all_within. assert (L : length (concat Q) = length (concat F)) by congruence. revert L K. clear. generalize (concat Q) (concat F). induction l as [|x l IH]; intros [|y m] L K; try discriminate L; constructor; [exact (K 0 x y eq_refl eq_refl)|]. apply IH; [injection L as L; exact L|]. intros j q f Hq Hf. exact (K (S j) q f Hq Hf). }
  assert (S2 : same_lengths ptrs2 F). { apply (same_trans _ _ _ H2). clear -SF. induction SF; constructor; [congruence|assumption]. }
  destruct (moved_rounding_lemma u rnd np_sum reduce _ num ptrs2 Q F T RR A B S2 W ET) as (GG & EG & LG & C). exists F, GG. split; [exact EF|]. split; [exact EG|]. split; [exact LG|].
  intros i t g Ht Hg. destruct RR as (U0 & U1 & _). apply near_close; [exact U0|exact U1|]. exact (C i t g Ht Hg).
Qed.
Lemma within_close_lemma u k a b : (0 <= u)%Qc -> (u < 1)%Qc -> within u k a b -> close (qn k * u) a b.
Proof. intros U0 U1 H. apply (near_close u U0 U1). exact H. Qed.
Lemma volumes_rounding_lemma u rnd n counts total : rounding u rnd -> 0 < total ->
  all_within u 1 (repeat (1 / qn n)%Qc n) (mc_fl rnd n) /\ all_within u 1 (map (fun c => qn c / qn total)%Qc counts) (emulated_fl rnd counts total).
Proof.
  intros RR _. split; [|apply emulated_within; exact RR]. unfold all_within, mc_fl. destruct RR as (A & B & C). assert (N : near u 1 (1 / qn n)%Qc (rnd (1 / qn n)%Qc)).
  { apply (near_rnd u A B rnd C). destruct n as [|n]; [rewrite qn_0; apply Qcle_refl|]. unfold Qcdiv. rewrite Qcmult_1_l. apply Qclt_le_weak, qc_inv_pos, qn_pos. lia. }
  generalize n at 2 4. intros k. induction k as [|k IH]; constructor; [exact N|exact IH].
Qed.
