From Coq Require Import List Arith Bool QArith Qcanon Lia.
From Verif Require Import Err Num Ext Lists Query_Model Query_Spec Query_Proofs Volume_Model Volume_Spec Volume_Proofs BoxVolume_Proofs BallVolume_Model BallVolume_Spec.
Import ListNotations.
Local Open Scope nat_scope.

Lemma cube_volume c r : volume (lo c r) (hi c r) = (two_q ^ length c * r ^ length c)%Qc.
Proof.
  induction c as [|u c IH]; [reflexivity|]. cbn [lo hi map volume length Qcpower]. unfold lo, hi in IH. rewrite IH.
  assert (T : two_q = (1 + 1)%Qc) by (apply Qc_is_canon; reflexivity). rewrite T. ring.
Qed.
Lemma dom_volume dom : volume (map fst dom) (map snd dom) = qprod (map (fun p => (snd p - fst p)%Qc) dom).
Proof. induction dom as [|[a b] d IH]; [reflexivity|]. cbn. rewrite IH. reflexivity. Qed.

Lemma ball_volumes_eq unit dom d cs rs s : ball_setup d cs rs = Ok s -> length dom = d -> proper_domain dom ->
  exists vs rem, ball_exact_volume unit dom s = Some (vs ++ [rem]) /\ length vs = length cs /\
    (forall i r, nth_error rs i = Some r -> nth_error vs i = Some (unit * r ^ d / volume (map fst dom) (map snd dom))%Qc) /\
    qsum (vs ++ [rem]) = 1%Qc.
Proof.
  intros HS Ld PD. destruct (ball_setup_ok _ _ _ _ HS) as (E1 & E2 & E3 & L & _).
  unfold ball_exact_volume. rewrite E1, E3, (lebesgue_guard dom d PD Ld).
  set (vs := map _ _). exists vs, (1 - qsum vs)%Qc. split; [reflexivity|].
  split; [unfold vs; rewrite map_length; symmetry; exact L|]. split.
  - intros i r Hr. unfold vs. rewrite nth_error_map_eq, Hr. cbn. f_equal. rewrite dom_volume. unfold Qcdiv. ring.
  - rewrite qsum_app. cbn. ring.
Qed.

(** Coordinates of a point in two half-open cubes. *)
Lemma norm_cube d norm_lt x c r : sup_norm d norm_lt -> length x = d -> length c = d -> (0 < r)%Qc ->
  (norm_lt (map (fun p => (fst p - snd p)%Qc) (combine x c)) r = true <->
   forall j a u, nth_error x j = Some a -> nth_error c j = Some u -> (u - r < a)%Qc /\ (a < u + r)%Qc).
Proof.
  intros SN Lx Lc Hr. assert (LM : length (map (fun p : Qc * Qc => (fst p - snd p)%Qc) (combine x c)) = d) by (rewrite map_length, combine_length, Lx, Lc; apply Nat.min_id).
  pose proof (SN _ r LM) as E. rewrite E. clear E. split.
  - intros [_ H] j a u Ha Hu.
    assert (I : In (a - u)%Qc (map (fun p => (fst p - snd p)%Qc) (combine x c))).
    { apply (in_map (fun p : Qc * Qc => (fst p - snd p)%Qc) _ (a, u)). apply (nth_error_In _ j). rewrite nth_error_combine, Ha, Hu. reflexivity. }
    destruct (H _ I) as [A B]. split; qc_lra.
  - intros H. split; [exact Hr|]. intros v Hv. apply in_map_iff in Hv. destruct Hv as ([a u] & <- & I). cbn [fst snd].
    apply In_nth_error in I. destruct I as [j Hj]. rewrite nth_error_combine in Hj.
    destruct (nth_error x j) as [a'|] eqn:Ha; [|discriminate]. destruct (nth_error c j) as [u'|] eqn:Hu; [|discriminate].
    injection Hj as -> ->. destruct (H j a u Ha Hu). split; qc_lra.
Qed.
Definition mid (a b : Qc) : Qc := (half * (a + b))%Qc.
Lemma mid_between a b : (a < b)%Qc -> (a < mid a b)%Qc /\ (mid a b < b)%Qc.
Proof.
  intros H. unfold mid. assert (E : half = Q2Qc (1 # 2)) by reflexivity. rewrite E.
  assert (D : (Q2Qc (1 # 2) * a + Q2Qc (1 # 2) * a = a)%Qc) by (rewrite <- Qcmult_plus_distr_l; transitivity (1 * a)%Qc; [f_equal; apply Qc_is_canon; reflexivity|ring]).
  assert (F : (Q2Qc (1 # 2) * b + Q2Qc (1 # 2) * b = b)%Qc) by (rewrite <- Qcmult_plus_distr_l; transitivity (1 * b)%Qc; [f_equal; apply Qc_is_canon; reflexivity|ring]).
  assert (P : (0 < Q2Qc (1 # 2) * (b - a))%Qc) by (apply qc_mul_pos; [reflexivity|qc_lra]).
  split; qc_lra.
Qed.
Lemma cubes_disjoint d norm_lt cs rs : sup_norm d norm_lt -> length cs = length rs -> (forall c, In c cs -> length c = d) -> (forall r, In r rs -> (0 < r)%Qc) ->
  disjoint_balls norm_lt d cs rs ->
  disjoint_boxes (map (fun p => lo (fst p) (snd p)) (combine cs rs)) (map (fun p => hi (fst p) (snd p)) (combine cs rs)).
Proof.
  intros SN L LC RP D i j x (l & r & Hl & Hr & (X1 & X2 & X3)) (l' & r' & Hl' & Hr' & (Y1 & Y2 & Y3)).
  assert (G : forall k a b, nth_error (map (fun p => lo (fst p) (snd p)) (combine cs rs)) k = Some a -> nth_error (map (fun p => hi (fst p) (snd p)) (combine cs rs)) k = Some b ->
     exists c q, nth_error cs k = Some c /\ nth_error rs k = Some q /\ a = lo c q /\ b = hi c q).
  { intros k a b A B. rewrite nth_error_map_eq, nth_error_combine in A, B.
    destruct (nth_error cs k) as [c|]; [|discriminate]. destruct (nth_error rs k) as [q|]; [|discriminate].
    injection A as <-. injection B as <-. exists c, q. repeat split. }
  destruct (G _ _ _ Hl Hr) as (c & q & Hc & Hq & -> & ->). destruct (G _ _ _ Hl' Hr') as (c' & q' & Hc' & Hq' & -> & ->).
  assert (Lc : length c = d) by (eapply LC, nth_error_In; eassumption). assert (Lc' : length c' = d) by (eapply LC, nth_error_In; eassumption).
  assert (Rq : (0 < q)%Qc) by (eapply RP, nth_error_In; eassumption). assert (Rq' : (0 < q')%Qc) by (eapply RP, nth_error_In; eassumption).
  unfold lo, hi in *. rewrite map_length in X1, X2, Y1, Y2.
  set (y := map (fun p => mid (qmax (fst p - q) (snd p - q')) (qmin (fst p + q) (snd p + q'))) (combine c c')).
  assert (Ly : length y = d) by (unfold y; rewrite map_length, combine_length; lia).
  assert (Cy : forall k u u', nth_error c k = Some u -> nth_error c' k = Some u' ->
     exists z, nth_error y k = Some z /\ (u - q < z)%Qc /\ (z < u + q)%Qc /\ (u' - q' < z)%Qc /\ (z < u' + q')%Qc).
  { intros k u u' Hu Hu'. eexists. split; [unfold y; rewrite nth_error_map_eq, nth_error_combine, Hu, Hu'; reflexivity|]. cbn [fst snd].
    destruct (nth_error x k) as [a|] eqn:Ha.
    2: { apply nth_error_None in Ha. assert (k < length c) by (apply nth_error_Some; rewrite Hu; discriminate). lia. }
    destruct (X3 k a (u - q)%Qc (u + q)%Qc Ha) as [P1 P2]; [rewrite nth_error_map_eq, Hu; reflexivity|rewrite nth_error_map_eq, Hu; reflexivity|].
    destruct (Y3 k a (u' - q')%Qc (u' + q')%Qc Ha) as [Q1 Q2]; [rewrite nth_error_map_eq, Hu'; reflexivity|rewrite nth_error_map_eq, Hu'; reflexivity|].
    assert (M : (qmax (u - q) (u' - q') < qmin (u + q) (u' + q'))%Qc).
    { unfold qmax, qmin. destruct (qleb_spec (u - q) (u' - q')); destruct (qleb_spec (u + q) (u' + q')); qc_lra. }
    destruct (mid_between _ _ M) as [B1 B2].
    unfold qmax, qmin in *. destruct (qleb_spec (u - q) (u' - q')) as [?|n1]; [|apply Qcnot_le_lt in n1];
      destruct (qleb_spec (u + q) (u' + q')) as [?|n2]; try apply Qcnot_le_lt in n2; generalize dependent mid; intros mid B1 B2; repeat split; qc_lra. }
  apply (D i j y Ly).
  - exists c, q. split; [exact Hc|]. split; [exact Hq|]. apply (norm_cube d norm_lt y c q SN Ly Lc Rq).
    intros k a u Ha Hu. destruct (nth_error c' k) as [u'|] eqn:Hu'.
    + destruct (Cy k u u' Hu Hu') as (z & Hz & Z). rewrite Ha in Hz. injection Hz as <-. split; apply Z.
    + apply nth_error_None in Hu'. assert (k < length c) by (apply nth_error_Some; rewrite Hu; discriminate). lia.
  - exists c', q'. split; [exact Hc'|]. split; [exact Hq'|]. apply (norm_cube d norm_lt y c' q' SN Ly Lc' Rq').
    intros k a u' Ha Hu'. destruct (nth_error c k) as [u|] eqn:Hu.
    + destruct (Cy k u u' Hu Hu') as (z & Hz & Z). rewrite Ha in Hz. injection Hz as <-. split; apply Z.
    + apply nth_error_None in Hu. assert (k < length c') by (apply nth_error_Some; rewrite Hu'; discriminate). lia.
Qed.

Lemma ball_volumes_cubes norm_lt dom d cs rs s : sup_norm d norm_lt -> ball_setup d cs rs = Ok s -> length dom = d -> proper_domain dom ->
  (forall r, In r rs -> (0 < r)%Qc) -> (forall c r, In (c, r) (combine cs rs) -> ball_inside dom c r) -> disjoint_balls norm_lt d cs rs ->
  exists vs rem, ball_exact_volume (two_q ^ d) dom s = Some (vs ++ [rem]) /\ length vs = length cs /\
    (forall i c r, nth_error cs i = Some c -> nth_error rs i = Some r ->
       nth_error vs i = Some (volume (lo c r) (hi c r) / volume (map fst dom) (map snd dom))%Qc) /\
    qsum (vs ++ [rem]) = 1%Qc /\ (0 <= rem)%Qc /\ (forall v, In v vs -> (0 < v)%Qc).
Proof.
  intros SN HS Ld PD RP IN DJ. destruct (ball_volumes_eq (two_q ^ d) dom d cs rs s HS Ld PD) as (vs & rem & EV & LV & NV & SV).
  destruct (ball_setup_ok _ _ _ _ HS) as (E1 & E2 & E3 & L & _).
  assert (LC : forall c, In c cs -> length c = d).
  { unfold ball_setup in HS. destruct (negb (length cs =? length rs)); [discriminate|]. destruct (forallb (fun c => length c =? d) cs) eqn:F; [|discriminate].
    rewrite forallb_forall in F. intros c Hc. apply Nat.eqb_eq, F, Hc. }
  exists vs, rem. split; [exact EV|]. split; [exact LV|].
  assert (NV' : forall i c r, nth_error cs i = Some c -> nth_error rs i = Some r ->
       nth_error vs i = Some (volume (lo c r) (hi c r) / volume (map fst dom) (map snd dom))%Qc).
  { intros i c r Hc Hr. rewrite (NV i r Hr), cube_volume, (LC c) by (eapply nth_error_In; eassumption). reflexivity. }
  split; [exact NV'|]. split; [exact SV|].
  set (mn := map (fun p => lo (fst p) (snd p)) (combine cs rs)). set (mx := map (fun p => hi (fst p) (snd p)) (combine cs rs)).
  assert (RS : exists s', rect_setup d mx mn = Ok s').
  { unfold rect_setup, mx, mn. rewrite !map_length, Nat.eqb_refl. cbn [negb].
    replace (forallb _ _) with true; [eexists; reflexivity|]. symmetry. apply forallb_forall. intros [a b] I.
    apply In_nth_error in I. destruct I as [k Hk]. rewrite nth_error_combine, !nth_error_map_eq, nth_error_combine in Hk.
    destruct (nth_error cs k) as [c|] eqn:Hc; [|discriminate]. destruct (nth_error rs k) as [r|]; [|discriminate].
    cbn in Hk. injection Hk as <- <-. cbn [fst snd]. unfold lo, hi. rewrite !map_length, (LC c), !Nat.eqb_refl by (eapply nth_error_In; eassumption). reflexivity. }
  destruct RS as [s' RS]. destruct (lebesgue_volumes dom d mx mn s' RS Ld PD) as (ws & rem' & EW & LW & NW & SW & NN).
  assert (VW : vs = ws).
  { apply nth_error_ext. intros i. destruct (nth_error cs i) as [c|] eqn:Hc.
    - destruct (nth_error rs i) as [r|] eqn:Hr.
      + rewrite (NV' i c r Hc Hr). symmetry. apply NW; unfold mn, mx; rewrite nth_error_map_eq, nth_error_combine, Hc, Hr; reflexivity.
      + apply nth_error_None in Hr. assert (i < length cs) by (apply nth_error_Some; rewrite Hc; discriminate). lia.
    - apply nth_error_None in Hc. rewrite (proj2 (nth_error_None vs i)) by lia. symmetry. apply nth_error_None. rewrite LW. unfold mx. rewrite map_length, combine_length. lia. }
  assert (RW : rem = rem'). { subst ws. rewrite qsum_app in SV, SW. cbn in SV, SW. assert (E : (qsum vs + (rem + 0) = qsum vs + (rem' + 0))%Qc) by congruence. qc_lra. }
  split.
  - subst rem'. apply NN.
    + intros l r I. apply In_nth_error in I. destruct I as [k Hk]. unfold mn, mx in Hk. rewrite nth_error_combine, !nth_error_map_eq, nth_error_combine in Hk.
      destruct (nth_error cs k) as [c|] eqn:Hc; [|discriminate]. destruct (nth_error rs k) as [q|] eqn:Hq; [|discriminate].
      cbn in Hk. injection Hk as <- <-. unfold lo, hi, sub_box. rewrite !map_length, (LC c) by (eapply nth_error_In; eassumption).
      split; [symmetry; exact Ld|]. split; [symmetry; exact Ld|]. intros j ab a b Hab Ha Hb. rewrite nth_error_map_eq in Ha, Hb.
      destruct (nth_error c j) as [u|] eqn:Hu; [|discriminate]. cbn in Ha, Hb. injection Ha as <-. injection Hb as <-.
      assert (I : In (c, q) (combine cs rs)) by (apply (nth_error_In _ k); rewrite nth_error_combine, Hc, Hq; reflexivity).
      destruct (IN c q I j ab u Hab Hu) as [A B]. assert (0 < q)%Qc by (eapply RP, nth_error_In; eassumption).
      split; [exact A|]. split; [qc_lra|exact B].
    + apply (cubes_disjoint d norm_lt cs rs SN L LC RP DJ).
  - intros v Hv. apply In_nth_error in Hv. destruct Hv as [i Hi].
    assert (Li : i < length vs) by (apply nth_error_Some; rewrite Hi; discriminate).
    destruct (nth_error rs i) as [r|] eqn:Hr; [|apply nth_error_None in Hr; lia].
    rewrite (NV i r Hr) in Hi. injection Hi as <-. assert (P : (0 < r)%Qc) by (eapply RP, nth_error_In; eassumption).
    apply qc_div_pos.
    + assert (Q : forall (z : Qc) n, (0 < z)%Qc -> (0 < z ^ n)%Qc).
      { intros z n Hz. induction n as [|n IH]; [reflexivity|]. cbn. apply qc_mul_pos; assumption. }
      apply qc_mul_pos; apply Q; [reflexivity|exact P].
    + rewrite dom_volume. apply qprod_pos. intros w Hw. apply in_map_iff in Hw. destruct Hw as (ab & <- & I). specialize (PD ab I). qc_lra.
Qed.

(** *** Norms *)
Lemma fold_qmax_lt l r : (fold_right qmax 0 l < r)%Qc <-> (0 < r)%Qc /\ forall x, In x l -> (x < r)%Qc.
Proof.
  induction l as [|a l IH]; cbn.
  - split; [intros H; split; [exact H|intros x []]|intros [H _]; exact H].
  - unfold qmax at 1. destruct (qleb_spec a (fold_right qmax 0%Qc l)) as [H|H]; [|apply Qcnot_le_lt in H].
    + rewrite IH. split; intros [A B]; (split; [exact A|]).
      * intros x [<-|I]; [|apply B, I]. apply Qcle_lt_trans with (fold_right qmax 0%Qc l); [exact H|]. apply IH. split; assumption.
      * intros x I. apply B. right. exact I.
    + split.
      * intros A. assert (F : (fold_right qmax 0 l < r)%Qc) by qc_lra. apply IH in F. destruct F as [F G]. split; [exact F|]. intros x [<-|I]; [exact A|apply G, I].
      * intros [_ B]. apply B. left. reflexivity.
Qed.
Lemma qabs_lt x r : (qabs x < r)%Qc <-> (- r < x < r)%Qc.
Proof. unfold qabs. destruct (qleb_spec 0 x) as [H|H]; [|apply Qcnot_le_lt in H]; (split; [intros K; split|intros [K1 K2]]); qc_lra. Qed.
Lemma norminf_sup d : sup_norm d norminf_lt.
Proof.
  intros v r _. unfold norminf_lt. rewrite qltb_true, fold_qmax_lt. split; intros [A B]; (split; [exact A|]).
  - intros u I. apply qabs_lt, B, in_map, I.
  - intros x I. apply in_map_iff in I. destruct I as (u & <- & I). apply qabs_lt, B, I.
Qed.
Lemma norm1_sup : sup_norm 1 norm1_lt.
Proof.
  intros [|u [|w v]] r L; try discriminate. unfold norm1_lt. cbn [map qsum fold_right]. rewrite qltb_true. split.
  - intros H. assert (K : (qabs u < r)%Qc) by qc_lra. apply qabs_lt in K. split; [qc_lra|]. intros x [<-|[]]. exact K.
  - intros [_ H]. assert (K : (qabs u < r)%Qc) by (apply qabs_lt, H; left; reflexivity). qc_lra.
Qed.

(** *** Overlapping balls *)
Lemma duplicate_ball norm_lt d c r s : ball_setup d [c; c] [r; r] = Ok s ->
  forall x, length x = d -> forall i dist, ball_query norm_lt s x 1 = Ok [(i, dist)] -> i <> 1.
Proof.
  intros HS x Lx i dist Q. destruct (ball_query_first norm_lt d [c; c] [r; r] s x HS Lx) as (i' & dist' & Q' & A).
  rewrite Q in Q'. injection Q' as <- <-. intros ->. destruct A as [[(L & (c' & r' & Hc & Hr & N) & F) _]|(E & _)]; [|discriminate].
  cbn in Hc, Hr. injection Hc as <-. injection Hr as <-. apply (F 0); [lia|]. exists c, r. split; [reflexivity|]. split; [reflexivity|exact N].
Qed.
