From Coq Require Import List Arith Bool QArith Qcanon Lia.
From Verif Require Import Err Num Ext NumPy Lists SampleSet_Model SampleSet_Spec Prob_Spec
  Disc_Model Disc_Spec Error_Spec ErrorDisc_Model ErrorDisc_Spec SampErr_Model SampErr_Spec SampErr_Proofs SampErr2_Proofs ErrTrue_Spec ErrTrue_Proofs ErrTrue2_Proofs.
Import ListNotations.
Local Open Scope nat_scope.
Local Open Scope err_scope.

Lemma nth_both {A B} (l : list A) (m : list B) k a b : nth_error l k = Some a -> nth_error m k = Some b -> nth_error (combine l m) k = Some (a, b).
Proof. revert m k. induction l as [|x l IH]; intros [|y m] [|k] H1 H2; try discriminate; cbn in *; [congruence|]. apply IH; assumption. Qed.

Lemma filter_none {A} (f : A -> bool) l : existsb f l = false -> filter f l = [].
Proof. induction l as [|a l IH]; [reflexivity|]. cbn. intros H. apply orb_false_iff in H. destruct H as [-> H]. apply IH. exact H. Qed.

(** ** The last answer of a history *)
Section Last.
Context (nn : list cell -> cell -> nat) (g : survey) (nb : nat -> nat -> bool).
Definition same_view (w w' : view) : Prop := w_probs w' = w_probs w /\ w_emulated w' = w_emulated w /\ volumes_now nn g w' = volumes_now nn g w.
Lemma reply_view w q r : reply nn g nb w q = Ok r -> same_view w (snd r).
Proof.
  unfold reply. destruct q as [|s ss labels region em].
  - cbv zeta. intros [= <-]. cbn [snd]. split; [reflexivity|]. split; reflexivity.
  - destruct (existsb _ labels); [|discriminate]. cbv zeta. intros [= <-]. split; [reflexivity|]. split; reflexivity.
Qed.
Lemma last_reply q a : forall qs w rs, replies nn g nb w (map SAsk (qs ++ [q])) = Ok (rs ++ [a]) -> exists w' w2, same_view w w' /\ reply nn g nb w' q = Ok (a, w2).
Proof.
  induction qs as [|q0 qs IH]; intros w rs H; cbn [app map replies] in H.
  - destruct (reply nn g nb w q) as [r|] eqn:E; [|discriminate]. cbn [bind] in H. injection H as H. destruct rs as [|x rs]; [|destruct rs; discriminate].
    cbn in H. injection H as H. exists w, (snd r). split; [split; [reflexivity|split; reflexivity]|]. rewrite <- H. destruct r; exact E.
  - destruct (reply nn g nb w q0) as [r|] eqn:E; [|discriminate]. cbn [bind] in H. destruct (replies nn g nb (snd r) (map SAsk (qs ++ [q]))) as [rest|] eqn:R; [|discriminate]. cbn [bind] in H. injection H as H.
    destruct rs as [|x rs].
    + cbn in H. injection H as _ H. subst rest. exfalso. clear -R. revert R. generalize (snd r). induction qs as [|q1 qs IH]; intros w; cbn [app map replies].
      * destruct (reply nn g nb w q) as [r1|]; cbn [bind]; discriminate.
      * destruct (reply nn g nb w q1) as [r1|]; cbn [bind]; [|discriminate]. destruct (replies nn g nb (snd r1) (map SAsk (qs ++ [q]))); cbn [bind]; discriminate.
    + cbn in H. injection H as _ ->. destruct (IH _ _ R) as (w' & w2 & (A & B & C) & D). exists w', w2. split; [|exact D]. destruct (reply_view _ _ _ E) as (A1 & B1 & C1). split; [congruence|]. split; congruence.
Qed.
End Last.

(** ** Other events of the points *)
Section Between.
Context (ev : list nat) (nb : nat -> nat -> bool).
Definition fits (k i : nat) : Prop := touches ev nb i k = true /\ forall i', inside ev nb i' k = true -> i' = i.
Lemma between_forall ks t : between ev nb ks t -> Forall2 fits ks t.
Proof.
  intros [L H]. revert t L H. induction ks as [|k ks IH]; intros [|i t] L H; try discriminate; constructor.
  - exact (H 0 k i eq_refl eq_refl).
  - apply IH; [injection L as L; exact L|]. intros j k' i' H1 H2. exact (H (S j) k' i' H1 H2).
Qed.
Lemma count_up (f h : bool * nat -> bool) (pts : list (bool * nat)) t : Forall2 fits (map snd pts) t -> (forall r k i, fits k i -> f (r, k) = true -> h (r, i) = true) ->
  length (filter f pts) <= length (filter h (combine (map fst pts) t)).
Proof.
  intros H I. revert t H. induction pts as [|[r k] pts IH]; intros t H; cbn [map snd fst] in *; inversion H as [|? i ? t' F H1]; subst; [apply le_n|]. cbn [combine filter]. specialize (IH t' H1).
  destruct (f (r, k)) eqn:E; [rewrite (I r k i F E); cbn; lia|]. destruct (h (r, i)); cbn; lia.
Qed.
Lemma count_down (f h : bool * nat -> bool) (pts : list (bool * nat)) t : Forall2 fits (map snd pts) t -> (forall r k i, fits k i -> h (r, i) = true -> f (r, k) = true) ->
  length (filter h (combine (map fst pts) t)) <= length (filter f pts).
Proof.
  intros H I. revert t H. induction pts as [|[r k] pts IH]; intros t H; cbn [map snd fst] in *; inversion H as [|? i ? t' F H1]; subst; [apply le_n|]. cbn [combine filter]. specialize (IH t' H1).
  destruct (h (r, i)) eqn:E; [rewrite (I r k i F E); cbn; lia|]. destruct (f (r, k)); cbn; lia.
Qed.
Lemma ratio_le a b c d : a <= b -> d <= c -> 0 < d -> (qn a / qn c <= qn b / qn d)%Qc.
Proof.
  intros A D Hd. assert (Pd : (0 < qn d)%Qc) by (apply qn_pos; exact Hd). assert (Pc : (0 < qn c)%Qc) by (apply qn_pos; lia).
  apply qc_div_le; [exact Pc|]. apply Qcle_trans with (qn b); [apply qn_le; exact A|].
  replace (qn b / qn d * qn c)%Qc with (qn b * qn c / qn d)%Qc by (field; intros Z; rewrite Z in Pd; discriminate).
  apply qc_le_div; [exact Pd|]. rewrite Qcmult_comm, (Qcmult_comm (qn b)). apply Qcmult_le_compat_r; [apply qn_le; exact D|apply qn_nonneg].
Qed.
Lemma share_between (pts : list (bool * nat)) t i : Forall2 fits (map snd pts) t -> hit (inside ev nb i) pts = true ->
  (npts_in (inside ev nb i) pts / npts (touches ev nb i) pts <= share_of (combine (map fst pts) t) i)%Qc /\
  (share_of (combine (map fst pts) t) i <= npts_in (touches ev nb i) pts / npts (inside ev nb i) pts)%Qc.
Proof.
  intros F H. unfold npts_in, npts, share_of.
  assert (HI : 0 < length (filter (fun e : bool * nat => inside ev nb i (snd e)) pts)).
  { unfold hit in H. apply existsb_exists in H. destruct H as (e & He & H). assert (X : In e (filter (fun e : bool * nat => inside ev nb i (snd e)) pts)) by (apply filter_In; auto). destruct (filter _ pts); [contradiction|cbn; lia]. }
  assert (C1 : length (filter (fun e : bool * nat => inside ev nb i (snd e)) pts) <= length (filter (fun e : bool * nat => snd e =? i) (combine (map fst pts) t))).
  { apply count_up; [exact F|]. intros r k j [_ Hj] E. cbn in *. apply Nat.eqb_eq. symmetry. apply Hj. exact E. }
  split; apply ratio_le.
  - apply count_up; [exact F|]. intros r k j [_ Hj] E. cbn in *. apply andb_true_iff in E. destruct E as [-> E]. cbn. apply Nat.eqb_eq. symmetry. apply Hj. exact E.
  - apply count_down; [exact F|]. intros r k j [Hj _] E. cbn in *. apply Nat.eqb_eq in E. subst j. exact Hj.
  - lia.
  - apply count_down; [exact F|]. intros r k j [Hj _] E. cbn in *. apply andb_true_iff in E. destruct E as [-> E]. apply Nat.eqb_eq in E. subst j. exact Hj.
  - exact C1.
  - exact HI.
Qed.
Lemma own_share (pts : list (bool * nat)) i : share_of (map (fun e => (fst e, nth (snd e) ev 0)) pts) i = (npts_in (in_ev ev i) pts / npts (in_ev ev i) pts)%Qc.
Proof. rewrite share_map. reflexivity. Qed.
Lemma value_encloses ps (pts : list (bool * nat)) t u l : Forall2 fits (map snd pts) t -> region_value ev nb ps pts = (Fin u, Fin l) ->
  let diff := (region_probability ps (combine (map fst pts) t) - region_probability ps (map (fun e => (fst e, nth (snd e) ev 0%nat)) pts))%Qc in (l <= diff /\ diff <= u)%Qc.
Proof.
  intros F. unfold region_value. destruct (forallb _ (events ps)) eqn:A; [|discriminate]. intros [= <- <-]. cbv zeta. unfold region_probability.
  assert (PP : forall ip, In ip (events ps) -> (0 < snd ip)%Qc) by (intros ip H; unfold events in H; apply filter_In in H; apply qltb_true, H).
  rewrite forallb_forall in A. induction (events ps) as [|[i p] es IH]; [split; apply Qcle_refl|]. cbn [map qsum fst snd].
  destruct IH as [I1 I2]; [intros ip H; apply A; right; exact H|intros ip H; apply PP; right; exact H|].
  assert (Hp : (0 <= p)%Qc) by (apply Qclt_le_weak; apply (PP (i, p)); left; reflexivity).
  specialize (A (i, p) (or_introl eq_refl)). cbn [fst] in A. unfold all_hit in A. apply andb_true_iff in A. destruct A as [_ A]. destruct (share_between pts t i F A) as [B1 B2]. rewrite own_share.
  assert (T1 : (term_1 ev nb pts i <= share_of (combine (map fst pts) t) i - npts_in (in_ev ev i) pts / npts (in_ev ev i) pts)%Qc) by (unfold term_1; qc_lra).
  assert (T2 : (share_of (combine (map fst pts) t) i - npts_in (in_ev ev i) pts / npts (in_ev ev i) pts <= term_2 ev nb pts i)%Qc) by (unfold term_2; qc_lra).
  set (sh := share_of (combine (map fst pts) t) i) in *. set (ow := (npts_in (in_ev ev i) pts / npts (in_ev ev i) pts)%Qc) in *.
  assert (M1 : (p * qmin (term_1 ev nb pts i) (term_2 ev nb pts i) <= p * (sh - ow))%Qc).
  { rewrite (Qcmult_comm p), (Qcmult_comm p (sh - ow)). apply Qcmult_le_compat_r; [|exact Hp]. eapply Qcle_trans; [|exact T1]. apply qmin_le_l. }
  assert (M2 : (p * (sh - ow) <= p * qmax (term_1 ev nb pts i) (term_2 ev nb pts i))%Qc).
  { rewrite (Qcmult_comm p), (Qcmult_comm p (qmax _ _)). apply Qcmult_le_compat_r; [|exact Hp]. eapply Qcle_trans; [exact T2|]. apply qmax_ge_r. }
  match goal with |- (?lo + ?a <= ?x + ?y - (?z + ?t))%Qc /\ _ => replace (x + y - (z + t))%Qc with (p * (sh - ow) + (y - t))%Qc by (unfold sh, ow; ring) end.
  split; apply Qcplus_le_compat; assumption.
Qed.
End Between.

Section Region.
Context (nn : list cell -> cell -> nat) (argsort : list Qc -> list nat) (delaunay : list cell -> result (list (list nat))) (P : nat) (HP : 0 < P) (NN : forall l x, l <> [] -> nn l x < length l).
Context (g : survey) (PS : proper_survey g) (nb : nat -> nat -> bool) (NB : neighbours_are argsort delaunay g nb).
Lemma history_reply w d q qs rs a : proper_view g w -> w_seen w = [] -> holds_survey nn P g w d -> Forall (proper_sevent P g) (map SAsk (qs ++ [q])) ->
  rmap fst (do m <- new_sampling_error nn argsort delaunay P euclidean d ; srun nn P (map SAsk (qs ++ [q])) m) = Ok (rs ++ [a]) ->
  exists w' w2, same_view nn g w w' /\ reply nn g nb w' q = Ok (a, w2).
Proof.
  intros PV W HH F H. pose proof HH as (_ & _ & (pr & Ep & _) & _).
  rewrite (replies_lemma nn argsort delaunay P HP NN g PS nb NB euclidean d w pr _ eq_refl PV W HH F Ep) in H.
  - apply last_reply in H. exact H.
  - intros (p & H0). apply in_map_iff in H0. destruct H0 as (? & H0 & _). discriminate H0.
  - right. intros e ps H0. apply in_map_iff in H0. destruct H0 as (? & H0 & _). discriminate H0.
Qed.
Lemma region_encloses w d s ss labels region em qs rs u l P1 w1 d1 t :
  proper_view g w -> w_seen w = [] -> holds_survey nn P g w d -> nonneg (w_probs w) ->
  Forall (proper_sevent P g) (map SAsk (qs ++ [Region_ s ss labels region em])) ->
  rmap fst (do m <- new_sampling_error nn argsort delaunay P euclidean d ; srun nn P (map SAsk (qs ++ [Region_ s ss labels region em])) m) = Ok (rs ++ [([Fin u], [Fin l])]) ->
  let ps := points_used g w em in let inr := in_the_region nn ss labels region in
  0 < P1 -> proper_view g w1 -> holds_survey nn P1 g w1 d1 -> no_pointers d1 -> w_probs w1 = w_probs w -> w_emulated w1 = Some ps ->
  between (sample_events nn g) nb (map (nn (g_samples g)) ps) t ->
  exists q, point_probabilities (emulated_disc nn P1 true d1) = Some (map Num q) /\
  let err := (region_probability (w_probs w) (combine (map inr ps) t) - mass inr ps q)%Qc in (l <= err /\ err <= u)%Qc.
Proof.
  intros PV W HH NP F H. cbv zeta. intros HP1 PV1 HH1 N1 W1 E1 B. destruct (history_reply w d _ qs rs _ PV W HH F H) as (w' & w2 & (A1 & A2 & _) & R). clear H.
  assert (NQ : nonneg (w_probs w1)) by (rewrite W1; exact NP).
  eexists. split; [apply (emulated_run nn P1 HP1 NN g PS w1 d1 _ PV1 HH1 N1 E1 NQ)|].
  unfold reply in R. destruct (existsb (fun l0 => qeqb l0 region) labels); [|discriminate]. cbv zeta in R.
  assert (EU : points_used g w' em = points_used g w em) by (unfold points_used; rewrite A2; reflexivity). rewrite EU, A1 in R. set (ps := points_used g w em) in *.
  set (rp := region_pts nn g ss labels region ps) in *. injection R as Ru Rl _.
  assert (RV : region_value (sample_events nn g) nb (w_probs w) rp = (Fin u, Fin l)) by (rewrite (surjective_pairing (region_value _ _ _ _)); congruence).
  assert (Er : map snd rp = map (nn (g_samples g)) ps) by (unfold rp, region_pts; rewrite map_map; reflexivity).
  assert (Ef : map fst rp = map (in_the_region nn ss labels region) ps) by (unfold rp, region_pts; rewrite map_map; reflexivity).
  pose proof (value_encloses (sample_events nn g) nb (w_probs w) rp t u l) as VE. rewrite Er, Ef in VE. specialize (VE (between_forall _ _ _ _ B) RV). cbv zeta in VE.
  rewrite mass_grouped; [|exact NQ|intros x _; rewrite (proj1 PV1); apply (event_lt nn NN g PS)]. rewrite W1.
  replace (map (fun x => (in_the_region nn ss labels region x, event_of nn g x)) ps) with (map (fun e : bool * nat => (fst e, nth (snd e) (sample_events nn g) 0)) rp); [exact VE|].
  unfold rp, region_pts. rewrite map_map. reflexivity.
Qed.

(** ** Contour events: the lower bound *)
Lemma cells_points ps f :
  qsum (map (fun k => nth k (map (fun k => (qn (hits nn (g_samples g) ps k) / qn (length ps))%Qc) (seq 0 (length (g_samples g)))) 0%Qc) (filter f (seq 0 (length (g_samples g))))) =
  (qn (length (filter (fun x => f (nn (g_samples g) x)) ps)) / qn (length ps))%Qc.
Proof.
  assert (Hf : forall x, nn (g_samples g) x < length (g_samples g)) by (intros x; apply NN, PS). set (n := length (g_samples g)) in *.
  assert (E : map (fun k => nth k (map (fun k => (qn (hits nn (g_samples g) ps k) / qn (length ps))%Qc) (seq 0 n)) 0%Qc) (filter f (seq 0 n)) = map (fun k => (qn (hits nn (g_samples g) ps k) / qn (length ps))%Qc) (filter f (seq 0 n))).
  { apply map_ext_in. intros k Hk. apply filter_In in Hk. destruct Hk as [Hk _]. apply in_seq in Hk. apply nth_error_nth. rewrite nth_error_map, nth_error_seq, (proj2 (Nat.ltb_lt _ _)) by lia. reflexivity. }
  rewrite E. set (N := qn (length ps)). clearbody N. clear E.
  assert (G : forall l, NoDup l -> qsum (map (fun k => (qn (hits nn (g_samples g) ps k) / N)%Qc) l) = (qn (length (filter (fun x => existsb (Nat.eqb (nn (g_samples g) x)) l) ps)) / N)%Qc).
  { induction l as [|k l IH]; intros ND.
    - cbn [map qsum existsb]. replace (length (filter (fun _ : cell => false) ps)) with 0; [change (qn 0) with 0%Qc; unfold Qcdiv; ring|]. clear. induction ps; [reflexivity|assumption].
    - inversion ND as [|? ? Nk ND']; subst. cbn [map qsum existsb]. rewrite (IH ND').
      assert (C : length (filter (fun x => (nn (g_samples g) x =? k) || existsb (Nat.eqb (nn (g_samples g) x)) l) ps) = hits nn (g_samples g) ps k + length (filter (fun x => existsb (Nat.eqb (nn (g_samples g) x)) l) ps)).
      { unfold hits. clear -Nk. induction ps as [|x ps IH]; [reflexivity|]. cbn [filter]. destruct (Nat.eqb_spec (nn (g_samples g) x) k) as [E|E]; cbn [orb].
        - assert (X : existsb (Nat.eqb (nn (g_samples g) x)) l = false).
          { rewrite E. destruct (existsb (Nat.eqb k) l) eqn:Z; [|reflexivity]. apply existsb_exists in Z. destruct Z as (y & Hy & Z). apply Nat.eqb_eq in Z. subst y. contradiction. }
          rewrite X. cbn [length]. lia.
        - destruct (existsb _ l); cbn [length]; lia. }
      rewrite C, qn_add. unfold Qcdiv. ring. }
  rewrite G by (apply NoDup_filter, seq_NoDup). do 3 f_equal. apply filter_ext. intros x. destruct (f (nn (g_samples g) x)) eqn:Fx.
  - apply existsb_exists. exists (nn (g_samples g) x). split; [apply filter_In; split; [apply in_seq; split; [lia|apply Hf]|exact Fx]|apply Nat.eqb_refl].
  - destruct (existsb _ _) eqn:Z; [|reflexivity]. apply existsb_exists in Z. destruct Z as (y & Hy & Z). apply Nat.eqb_eq in Z. subst y. apply filter_In in Hy. destruct Hy. congruence.
Qed.
Lemma share_nonneg pts i : (0 <= share_of pts i)%Qc.
Proof.
  unfold share_of. destruct (length (filter (fun e : bool * nat => snd e =? i) pts)) as [|m] eqn:E.
  - change (qn 0) with 0%Qc. unfold Qcdiv. replace (/ 0)%Qc with 0%Qc by reflexivity. rewrite Qcmult_0_r. apply Qcle_refl.
  - apply qc_div_nonneg; [apply qn_nonneg|apply qn_pos; lia].
Qed.
Lemma region_nonneg ps pts : (0 <= region_probability ps pts)%Qc.
Proof.
  unfold region_probability. apply qsum_nonneg. intros x Hx. apply in_map_iff in Hx. destruct Hx as ([i p] & <- & H). unfold events in H. apply filter_In in H. apply qc_mul_nonneg; [apply Qclt_le_weak, qltb_true, H|apply share_nonneg].
Qed.
Lemma region_ge ps pts i p : nth_error ps i = Some p -> (0 < p)%Qc -> (p * share_of pts i <= region_probability ps pts)%Qc.
Proof.
  intros Np Hp. unfold region_probability. assert (HI : In (i, p) (events ps)).
  { unfold events. apply filter_In. split; [|apply qltb_true; exact Hp]. apply (nth_error_In _ i). apply nth_both; [|exact Np]. rewrite nth_error_seq, (proj2 (Nat.ltb_lt _ _)); [reflexivity|]. apply nth_error_Some. congruence. }
  assert (PP : forall ip, In ip (events ps) -> (0 <= snd ip * share_of pts (fst ip))%Qc) by (intros ip H; unfold events in H; apply filter_In in H; apply qc_mul_nonneg; [apply Qclt_le_weak, qltb_true, H|apply share_nonneg]).
  induction (events ps) as [|ip es IH]; [contradiction|]. cbn [map qsum]. destruct HI as [->|HI].
  - cbn [fst snd]. rewrite <- (Qcplus_0_r (p * share_of pts i)) at 1. apply Qcplus_le_compat; [apply Qcle_refl|]. apply qsum_nonneg. intros x Hx. apply in_map_iff in Hx. destruct Hx as (jp & <- & H). apply PP. right. exact H.
  - rewrite <- (Qcplus_0_l (p * share_of pts i)). apply Qcplus_le_compat; [apply PP; left; reflexivity|]. apply IH; [exact HI|]. intros jp H. apply PP. right. exact H.
Qed.
Lemma contour_lower w d qs rs us ls i p l ps t :
  proper_view g w -> w_seen w = [] -> holds_survey nn P g w d -> nonneg (w_probs w) -> w_vols w = None -> w_emulated w = Some ps ->
  Forall (proper_sevent P g) (map SAsk (qs ++ [Contours])) ->
  rmap fst (do m <- new_sampling_error nn argsort delaunay P euclidean d ; srun nn P (map SAsk (qs ++ [Contours])) m) = Ok (rs ++ [(us, ls)]) ->
  nth_error (w_probs w) i = Some p -> nth_error ls i = Some (Fin l) ->
  between (sample_events nn g) nb (map (nn (g_samples g)) ps) t ->
  (l <= region_probability (w_probs w) (combine (map (fun x => event_of nn g x =? i) ps) t) - p)%Qc.
Proof.
  intros PV W HH NP WV WE F H Np Nl B. destruct (history_reply w d _ qs rs _ PV W HH F H) as (w' & w2 & (A1 & _ & A3) & R). clear H.
  unfold reply in R. cbv zeta in R. rewrite A1, A3 in R. injection R as _ R _. subst ls. rewrite map_map in Nl. set (ev := sample_events nn g) in *.
  apply (event_list_nth (fun i p => snd (event_bounds ev nb (volumes_now nn g w) (w_seen w') i p))) in Nl. destruct Nl as (p' & Np' & Nl). rewrite Np in Np'. injection Np' as <-.
  set (pts := map (fun x => (event_of nn g x =? i, nn (g_samples g) x)) ps).
  assert (Ef : map fst pts = map (fun x => event_of nn g x =? i) ps) by (unfold pts; rewrite map_map; reflexivity).
  assert (Es : map snd pts = map (nn (g_samples g)) ps) by (unfold pts; rewrite map_map; reflexivity). rewrite <- Ef. rewrite <- Es in B. apply between_forall in B.
  pose proof (region_nonneg (w_probs w) (combine (map fst pts) t)) as RN.
  assert (NN0 : forall x : Qc, (0 <= x)%Qc -> (- p <= x - p)%Qc) by (intros x Hx; qc_lra).
  unfold event_bounds in Nl. destruct (qltb 0 p) eqn:Ep.
  - apply qltb_true in Ep. destruct (_ || _)%bool; [|discriminate]. unfold bounds_from in Nl. set (a := cells_vol ev _ (inside ev nb i)) in Nl. destruct (qltb 0 a) eqn:Ea.
    + apply qltb_true in Ea. cbn [snd] in Nl. injection Nl as ->. pose proof (region_ge (w_probs w) (combine (map fst pts) t) i p Np Ep) as RG.
      assert (LE : length ev = length (g_samples g)) by (unfold ev, sample_events; rewrite map_length; apply PS).
      assert (CV : forall f, cells_vol ev (volumes_now nn g w) f = (npts f pts / qn (length ps))%Qc).
      { intros f. unfold cells_vol, ids, volumes_now. rewrite WV, WE, LE, cells_points. unfold npts, pts. do 2 f_equal. clear. induction ps as [|x ps IH]; [reflexivity|]. cbn [map filter snd]. destruct (f (nn (g_samples g) x)); cbn [length]; rewrite IH; reflexivity. }
      unfold a in *. rewrite !CV in *.
      assert (IN : npts_in (inside ev nb i) pts = npts (inside ev nb i) pts).
      { unfold npts_in, npts, pts. do 2 f_equal. apply filter_ext_in. intros e He. apply in_map_iff in He. destruct He as (x & <- & _). cbn [fst snd]. destruct (inside ev nb i (nn (g_samples g) x)) eqn:I0; [|apply andb_false_r]. rewrite andb_true_r. unfold inside in I0. apply andb_true_iff in I0. destruct I0 as [I0 _]. apply andb_true_iff in I0. apply I0. }
      assert (HI : hit (inside ev nb i) pts = true).
      { unfold hit. destruct (existsb (fun e => inside ev nb i (snd e)) pts) eqn:X; [reflexivity|]. exfalso. assert (Z : npts (inside ev nb i) pts = 0%Qc).
        { unfold npts. rewrite filter_none; [reflexivity|exact X]. }
        rewrite Z in Ea. unfold Qcdiv in Ea. rewrite Qcmult_0_l in Ea. discriminate. }
      destruct (share_between ev nb pts t i B HI) as [S1 _]. rewrite IN in S1.
      assert (HN : qn (length ps) <> 0%Qc). { intros Z. rewrite Z in Ea. unfold Qcdiv in Ea. replace (/ 0)%Qc with 0%Qc in Ea by reflexivity. rewrite Qcmult_0_r in Ea. discriminate. }
      assert (TC : npts (touches ev nb i) pts <> 0%Qc).
      { unfold npts. assert (L0 : 0 < length (filter (fun e : bool * nat => touches ev nb i (snd e)) pts)); [|apply qn_pos in L0; intros Z; rewrite Z in L0; discriminate].
        unfold hit in HI. apply existsb_exists in HI. destruct HI as (e & He & HI). unfold inside in HI. apply andb_true_iff in HI. destruct HI as [HI _]. apply andb_true_iff in HI.
        assert (X : In e (filter (fun e : bool * nat => touches ev nb i (snd e)) pts)) by (apply filter_In; split; [exact He|apply HI]). destruct (filter _ pts); [contradiction|cbn; lia]. }
      replace (npts (inside ev nb i) pts / qn (length ps) / (npts (touches ev nb i) pts / qn (length ps)))%Qc with (npts (inside ev nb i) pts / npts (touches ev nb i) pts)%Qc by (field; split; assumption).
      eapply Qcle_trans; [|apply Qcplus_le_compat; [exact RG|apply Qcle_refl]]. replace (p * (npts (inside ev nb i) pts / npts (touches ev nb i) pts - 1))%Qc with (p * (npts (inside ev nb i) pts / npts (touches ev nb i) pts) + - p)%Qc by (unfold Qcminus; ring).
      apply Qcplus_le_compat; [|apply Qcle_refl]. rewrite (Qcmult_comm p), (Qcmult_comm p (share_of _ _)). apply Qcmult_le_compat_r; [exact S1|apply Qclt_le_weak; exact Ep].
    + match type of Nl with context [qltb 0 ?x] => destruct (qltb 0 x) end; [cbn [snd] in Nl; injection Nl as Nl; rewrite Nl; apply NN0; exact RN|]. match type of Nl with context [qltb 0 ?x] => destruct (qltb 0 x) end; [cbn [snd] in Nl; injection Nl as Nl; rewrite Nl; apply NN0; exact RN|discriminate].
  - cbn [snd] in Nl. injection Nl as Nl. rewrite Nl. apply qltb_false in Ep. assert (E0 : p = 0%Qc) by (apply Qcle_antisym; [exact Ep|apply NP; eapply nth_error_In, Np]). rewrite E0. unfold Qcminus. replace (- 0)%Qc with 0%Qc by reflexivity. rewrite Qcplus_0_r. exact RN.
Qed.
End Region.
