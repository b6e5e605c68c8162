From Coq Require Import List Arith Lia Bool Permutation QArith Qcanon.
From Verif Require Import Err Num Ext NumPy Lists Query_Model Query_Proofs Volume_Model Volume_Spec Volume_Proofs PlotVoronoi_Model PlotVoronoi_Spec.
Import ListNotations.
Local Open Scope nat_scope.

Lemma mid_points_length s : length (mid_points s) = length s - 1.
Proof. induction s as [|x [|y r] IH]; [reflexivity | reflexivity|]. rewrite mid_points_cons. cbn [length] in *. rewrite IH. lia. Qed.
Lemma mid_points_nth s : forall k a b, nth_error s k = Some a -> nth_error s (S k) = Some b -> nth_error (mid_points s) k = Some (midp a b).
Proof.
  induction s as [|x [|y r] IH]; intros k a b Ha Hb; [destruct k; discriminate | destruct k; [discriminate | destruct k; discriminate]|]. rewrite mid_points_cons.
  destruct k as [|k]; [cbn in *; congruence|]. cbn [nth_error] in *. apply IH; assumption.
Qed.
Section Cells.
Context (argsort : list Qc -> list nat) (s : pset) (probs : list Qc).
Context (HA : is_argsort (ps_values s) (argsort (ps_values s))) (HS : plot_set s probs).
Let srt := map (fun i => nth i (ps_values s) 0%Qc) (argsort (ps_values s)).
Lemma plot_eq density : exists p0, nth_error probs (hd 0 (argsort (ps_values s))) = Some p0 /\
  plot_1D_voronoi argsort density (PSet s) = Ok {| l_y := if density then map (fun mm => xdivq p0 (snd mm - fst mm)%Qc) (combine (ps_lo s :: mid_points srt) (mid_points srt ++ [ps_hi s])) else [Fin p0];
                        l_min := ps_lo s :: mid_points srt; l_max := mid_points srt ++ [ps_hi s] |}.
Proof.
  destruct HS as (Dm & Pr & L & NE & _). destruct (argsort_sorted _ _ HA) as (_ & _ & B & _ & Lp). unfold plot_1D_voronoi, checked. rewrite Dm, Pr. cbn [Nat.eqb negb]. rewrite (take_idx_spec _ _ B 0%Qc).
  destruct (argsort (ps_values s)) as [|i0 r] eqn:E. { destruct (ps_values s); [contradiction | discriminate]. }
  assert (i0 < length probs) as H by (rewrite L; apply B; left; reflexivity). apply nth_error_Some in H. destruct (nth_error probs i0) as [p0|] eqn:F; [|contradiction]. exists p0. cbn [hd]. split; [exact F | reflexivity].
Qed.
Lemma srt_lt i j a b : i < j -> nth_error srt i = Some a -> nth_error srt j = Some b -> (a < b)%Qc.
Proof.
  intros Hij Ha Hb. destruct HS as (_ & _ & _ & _ & ND & _). destruct HA as (P & O). destruct (argsort_sorted _ _ HA) as (_ & Ps & _ & _ & _). fold srt in Ps.
  assert (a <= b)%Qc as LE. { unfold srt in Ha, Hb. rewrite nth_error_map_eq in Ha, Hb. destruct (nth_error (argsort (ps_values s)) i) as [c|] eqn:Ec; [|discriminate]. destruct (nth_error (argsort (ps_values s)) j) as [c'|] eqn:Ec'; [|discriminate]. injection Ha as <-. injection Hb as <-. exact (O i j c c' Hij Ec Ec'). }
  assert (NoDup srt) as NS by (eapply Permutation_NoDup; [apply Permutation_sym; exact Ps | exact ND]).
  destruct (Qcle_lt_or_eq _ _ LE) as [L|E]; [exact L|]. exfalso. subst b. rewrite NoDup_nth_error in NS. assert (i = j); [|lia]. apply NS; [apply nth_error_Some; congruence | congruence].
Qed.
Lemma srt_in w : In w srt <-> In w (ps_values s).
Proof. destruct (argsort_sorted _ _ HA) as (_ & Ps & _). fold srt in Ps. split; apply Permutation_in; [exact Ps | apply Permutation_sym; exact Ps]. Qed.
Lemma cell_lemma l k i v : plot_1D_voronoi argsort true (PSet s) = Ok l -> nth_error (argsort (ps_values s)) k = Some i -> nth_error (ps_values s) i = Some v -> covers_cell s l k v.
Proof.
  intros E Hk Hi. destruct (plot_eq true) as (p0 & _ & E2). rewrite E2 in E. injection E as <-. destruct HS as (_ & _ & _ & _ & _ & W & D).
  assert (nth_error srt k = Some v) as Hv. { unfold srt. rewrite nth_error_map_eq, Hk. cbn. f_equal. apply nth_error_nth. exact Hi. }
  assert (In v srt) as Iv by (eapply nth_error_In; exact Hv). assert (k < length srt) as Lk by (apply nth_error_Some; congruence).
  assert (exists a, nth_error (ps_lo s :: mid_points srt) k = Some a /\ ((a <= v)%Qc /\ (k <> 0 -> (a < v)%Qc)) /\ ((forall w, In w srt -> (v <= w)%Qc) /\ a = ps_lo s \/ (exists p, In p srt /\ (p < v)%Qc /\ a = midp p v /\ forall w, In w srt -> (w <= p)%Qc \/ (v <= w)%Qc))) as (a & Ea & La & Ca).
  { destruct k as [|k].
    - exists (ps_lo s). split; [reflexivity|]. split; [split; [apply D, srt_in, Iv | lia]|]. left. split; [|reflexivity]. intros w Hw. apply In_nth_error in Hw. destruct Hw as (j & Hj). destruct j as [|j]; [rewrite Hv in Hj; injection Hj as <-; apply Qcle_refl|]. apply Qclt_le_weak. apply (srt_lt 0 (S j)); [lia | exact Hv | exact Hj].
    - assert (k < length srt) as H by lia. apply nth_error_Some in H. destruct (nth_error srt k) as [p|] eqn:Ep; [|contradiction]. assert (p < v)%Qc as Lt by (apply (srt_lt k (S k)); [lia | exact Ep | exact Hv]).
      exists (midp p v). split; [cbn [nth_error]; apply mid_points_nth; assumption|]. split. { assert (midp p v < v)%Qc by (unfold midp, half; qc_lra). split; [apply Qclt_le_weak; assumption | intro; assumption]. }
      right. exists p. split; [eapply nth_error_In; exact Ep|]. split; [exact Lt|]. split; [reflexivity|]. intros w Hw. apply In_nth_error in Hw. destruct Hw as (j & Hj). destruct (lt_eq_lt_dec j k) as [[A|A]|A].
      + left. apply Qclt_le_weak. apply (srt_lt j k); assumption.
      + subst j. rewrite Ep in Hj. injection Hj as <-. left. apply Qcle_refl.
      + right. destruct (Nat.eq_dec j (S k)) as [->|A2]; [rewrite Hv in Hj; injection Hj as <-; apply Qcle_refl|]. apply Qclt_le_weak. apply (srt_lt (S k) j); [lia | exact Hv | exact Hj]. }
  assert (exists b, nth_error (mid_points srt ++ [ps_hi s]) k = Some b /\ ((v <= b)%Qc /\ (k <> length srt - 1 -> (v < b)%Qc)) /\ ((b = ps_hi s /\ forall w, In w srt -> (w <= v)%Qc) \/ (exists q, In q srt /\ (v < q)%Qc /\ b = midp v q /\ forall w, In w srt -> (w <= v)%Qc \/ (q <= w)%Qc))) as (b & Eb & Lb & Cb).
  { destruct (nth_error srt (S k)) as [q|] eqn:Eq.
    - assert (v < q)%Qc as Lt by (apply (srt_lt k (S k)); [lia | exact Hv | exact Eq]). assert (S k < length srt) as LS by (apply nth_error_Some; congruence).
      exists (midp v q). split; [rewrite nth_error_app1 by (rewrite mid_points_length; lia); apply mid_points_nth; assumption|]. split. { assert (v < midp v q)%Qc by (unfold midp, half; qc_lra). split; [apply Qclt_le_weak; assumption | intro; assumption]. }
      right. exists q. split; [eapply nth_error_In; exact Eq|]. split; [exact Lt|]. split; [reflexivity|]. intros w Hw. apply In_nth_error in Hw. destruct Hw as (j & Hj). destruct (lt_eq_lt_dec j k) as [[A|A]|A].
      + left. apply Qclt_le_weak. apply (srt_lt j k); assumption.
      + subst j. rewrite Hv in Hj. injection Hj as <-. left. apply Qcle_refl.
      + right. destruct (Nat.eq_dec j (S k)) as [->|A2]; [rewrite Eq in Hj; injection Hj as <-; apply Qcle_refl|]. apply Qclt_le_weak. apply (srt_lt (S k) j); [lia | exact Eq | exact Hj].
    - apply nth_error_None in Eq. assert (k = length srt - 1) as Ek by lia. exists (ps_hi s). split; [rewrite nth_error_app2 by (rewrite mid_points_length; lia); rewrite mid_points_length, Ek, Nat.sub_diag; reflexivity|]. split; [split; [apply D, srt_in, Iv | lia]|].
      left. split; [reflexivity|]. intros w Hw. apply In_nth_error in Hw. destruct Hw as (j & Hj). assert (j < length srt) as Lj by (apply nth_error_Some; congruence). destruct (Nat.eq_dec j k) as [->|A]; [rewrite Hv in Hj; injection Hj as <-; apply Qcle_refl|]. apply Qclt_le_weak. apply (srt_lt j k); [lia | exact Hj | exact Hv]. }
  assert (forall w, In w srt -> (ps_lo s <= w)%Qc /\ (w <= ps_hi s)%Qc) as D' by (intros w Hw; apply D, srt_in, Hw).
  destruct (interval_is_cell (ps_lo s) (ps_hi s) srt v a b D' Iv Ca Cb) as (_ & CE).
  exists a, b. cbn [l_min l_max]. split; [exact Ea|]. split; [exact Eb|]. split.
  - destruct (Nat.eq_dec k 0) as [K0|K0]; [|eapply Qclt_le_trans; [apply La; exact K0 | apply Lb]]. destruct (Nat.eq_dec k (length srt - 1)) as [K1|K1]; [|eapply Qcle_lt_trans; [apply La | apply Lb; exact K1]].
    subst k. cbn in Ea. injection Ea as <-. assert (length srt = 1) as L1 by lia. assert (mid_points srt = []) as M by (destruct (mid_points srt) eqn:F; [reflexivity | pose proof (mid_points_length srt) as ML; rewrite F in ML; cbn in ML; lia]). rewrite M in Eb. cbn in Eb. injection Eb as <-. exact W.
  - intro x. rewrite <- CE. unfold voronoi_interval. split; intros (X1 & X2 & X); (split; [exact X1 | split; [exact X2|]]); intros w Hw; apply X, srt_in, Hw.
Qed.
Lemma nth_error_combine {A B} (l : list A) (m : list B) k a b : nth_error l k = Some a -> nth_error m k = Some b -> nth_error (combine l m) k = Some (a, b).
Proof. revert l m. induction k as [|k IH]; intros [|x l] [|y m] Ha Hb; try discriminate; cbn in *; [congruence | apply IH; assumption]. Qed.
Lemma height_lemma l k i : plot_1D_voronoi argsort true (PSet s) = Ok l -> nth_error (argsort (ps_values s)) k = Some i ->
  exists p0, nth_error probs (hd 0 (argsort (ps_values s))) = Some p0 /\ height_is l k p0 /\ forall p, height_is l k p -> p = p0.
Proof.
  intros E Hk. destruct (argsort_sorted _ _ HA) as (_ & _ & B & _ & _). assert (i < length (ps_values s)) as Hi by (apply B; eapply nth_error_In; exact Hk). apply nth_error_Some in Hi. destruct (nth_error (ps_values s) i) as [v|] eqn:Ev; [|contradiction].
  destruct (cell_lemma l k i v E Hk Ev) as (a & b & Ea & Eb & Lab & _). destruct (plot_eq true) as (p0 & Hp & E2). rewrite E2 in E. injection E as <-. cbn [l_min l_max] in *. exists p0. split; [exact Hp|].
  assert (nth_error (map (fun mm => xdivq p0 (snd mm - fst mm)%Qc) (combine (ps_lo s :: mid_points srt) (mid_points srt ++ [ps_hi s]))) k = Some (Fin (p0 / (b - a))%Qc)) as H.
  { rewrite nth_error_map_eq, (nth_error_combine _ _ k a b Ea Eb). cbn [option_map fst snd]. unfold xdivq. destruct (qeqb_spec (b - a) 0) as [Z|_]; [|reflexivity]. exfalso. assert (0 < b - a)%Qc as P by (apply qc_sub_pos; exact Lab). rewrite Z in P. apply (Qclt_not_eq _ _ P). reflexivity. }
  split; [exists a, b; cbn [l_min l_max l_y]; auto|]. intros p (a' & b' & Ea' & Eb' & H'). cbn [l_min l_max l_y] in *. rewrite Ea in Ea'. injection Ea' as <-. rewrite Eb in Eb'. injection Eb' as <-. pose proof (eq_trans (eq_sym H) H') as H2. apply (f_equal (fun o => match o with Some (Fin q) => q | _ => 0%Qc end)) in H2. cbv beta iota in H2.
  assert (b - a <> 0)%Qc as N. { intro Z. assert (0 < b - a)%Qc as P by (apply qc_sub_pos; exact Lab). rewrite Z in P. apply (Qclt_not_eq _ _ P). reflexivity. }
  transitivity ((p / (b - a)) * (b - a))%Qc; [field; exact N|]. rewrite <- H2. field. exact N.
Qed.
End Cells.
Lemma cells_lemma : forall argsort s probs l, is_argsort (ps_values s) (argsort (ps_values s)) -> plot_set s probs -> plot_1D_voronoi argsort true (PSet s) = Ok l ->
  length (l_min l) = length (ps_values s) /\ length (l_max l) = length (ps_values s) /\
  forall k i v, nth_error (argsort (ps_values s)) k = Some i -> nth_error (ps_values s) i = Some v -> covers_cell s l k v.
Proof.
  intros argsort s probs l HA HS E. split; [|split].
  - destruct (plot_eq argsort s probs HA HS true) as (p0 & _ & E2). rewrite E2 in E. injection E as <-. destruct (argsort_sorted _ _ HA) as (_ & _ & _ & _ & L). cbn [l_min length]. rewrite mid_points_length, map_length, L. destruct HS as (_ & _ & _ & N & _). destruct (ps_values s); [contradiction | cbn; lia].
  - destruct (plot_eq argsort s probs HA HS true) as (p0 & _ & E2). rewrite E2 in E. injection E as <-. destruct (argsort_sorted _ _ HA) as (_ & _ & _ & _ & L). cbn [l_max]. rewrite app_length, mid_points_length, map_length, L. destruct HS as (_ & _ & _ & N & _). destruct (ps_values s); [contradiction | cbn; lia].
  - intros k i v Hk Hi. exact (cell_lemma argsort s probs HA HS l k i v E Hk Hi).
Qed.
Lemma total_lemma : forall argsort s probs density, is_argsort (ps_values s) (argsort (ps_values s)) -> plot_set s probs -> exists l, plot_1D_voronoi argsort density (PSet s) = Ok l.
Proof. intros argsort s probs density HA HS. destruct (plot_eq argsort s probs HA HS density) as (p0 & _ & E). eexists. exact E. Qed.
Lemma heights_lemma : forall argsort s probs l, is_argsort (ps_values s) (argsort (ps_values s)) -> plot_set s probs -> plot_1D_voronoi argsort true (PSet s) = Ok l ->
  (forall k i p, nth_error (argsort (ps_values s)) k = Some i -> nth_error probs i = Some p -> height_is l k p) <-> (forall p p', In p probs -> In p' probs -> p = p').
Proof.
  intros argsort s probs l HA HS E. destruct (plot_eq argsort s probs HA HS true) as (p0 & Hp & _). destruct (argsort_sorted _ _ HA) as (_ & _ & B & _ & Lp). pose proof HS as (_ & _ & L & _). split.
  - intro H. assert (forall p, In p probs -> p = p0) as A.
    { intros p Ip. apply In_nth_error in Ip. destruct Ip as (i & Hi). assert (i < length (ps_values s)) as Li by (rewrite <- L; apply nth_error_Some; congruence).
      assert (In i (argsort (ps_values s))) as Ii. { destruct HA as (P & _). apply (Permutation_in _ (Permutation_sym P)). apply in_seq. lia. } apply In_nth_error in Ii. destruct Ii as (k & Hk).
      destruct (height_lemma argsort s probs HA HS l k i E Hk) as (p1 & H1 & _ & U). rewrite Hp in H1. injection H1 as <-. apply U. exact (H k i p Hk Hi). }
    intros p p' Ip Ip'. rewrite (A p Ip), (A p' Ip'). reflexivity.
  - intros Q k i p Hk Hi. destruct (height_lemma argsort s probs HA HS l k i E Hk) as (p1 & H1 & H2 & _). rewrite (Q p p1); [exact H2 | eapply nth_error_In; exact Hi | eapply nth_error_In; exact H1].
Qed.
Lemma measure_lemma : forall argsort s probs l, is_argsort (ps_values s) (argsort (ps_values s)) -> plot_set s probs -> plot_1D_voronoi argsort false (PSet s) = Ok l ->
  length (l_y l) = 1 /\ length (l_min l) = length (ps_values s).
Proof.
  intros argsort s probs l HA HS E. destruct (plot_eq argsort s probs HA HS false) as (p0 & _ & E2). rewrite E2 in E. injection E as <-. split; [reflexivity|]. destruct (argsort_sorted _ _ HA) as (_ & _ & _ & _ & L). cbn [l_min length]. rewrite mid_points_length, map_length, L. destruct HS as (_ & _ & _ & N & _). destruct (ps_values s); [contradiction | cbn; lia].
Qed.
Lemma rejects_lemma : forall argsort density a,
  (a = POther -> plot_1D_voronoi argsort density a = Raise BadObject) /\
  (a = PDisc None -> plot_1D_voronoi argsort density a = Raise MissingAttribute) /\
  (forall s, a = PSet s \/ a = PDisc (Some s) -> ps_dim s <> 1 -> plot_1D_voronoi argsort density a = Raise DimNotMatching) /\
  (forall s, a = PSet s \/ a = PDisc (Some s) -> ps_dim s = 1 -> ps_probs s = None -> ps_probs_local s = None -> plot_1D_voronoi argsort density a = Raise MissingAttribute) /\
  (forall s, plot_1D_voronoi argsort density (PDisc (Some s)) = plot_1D_voronoi argsort density (PSet s)).
Proof.
  intros argsort density a. split; [intros ->; reflexivity|]. split; [intros ->; reflexivity|]. split; [|split].
  - intros s [-> | ->] H; unfold plot_1D_voronoi, checked; apply Nat.eqb_neq in H; rewrite H; reflexivity.
  - intros s [-> | ->] H1 H2 H3; unfold plot_1D_voronoi, checked; rewrite H1, H2, H3; reflexivity.
  - reflexivity.
Qed.
Lemma gathered_lemma : forall argsort density s p, ps_probs s = None -> ps_probs_local s = Some p ->
  plot_1D_voronoi argsort density (PSet s) = plot_1D_voronoi argsort density (PSet {| ps_dim := ps_dim s; ps_values := ps_values s; ps_probs := Some p; ps_probs_local := ps_probs_local s; ps_lo := ps_lo s; ps_hi := ps_hi s |}).
Proof. intros argsort density s p H1 H2. unfold plot_1D_voronoi, checked. cbn. rewrite H1, H2. destruct (negb (ps_dim s =? 1)); reflexivity. Qed.
