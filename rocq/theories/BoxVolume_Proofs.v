From Coq Require Import List Arith Bool ZArith NArith QArith Qcanon Lia Permutation.
From Verif Require Import Err Num Ext Lists NumPy Query_Model Query_Spec Query_Proofs Volume_Model Volume_Spec.
Import ListNotations.
Local Open Scope nat_scope.

(** ** Segments of an increasing list of cut points *)
Definition in_seg (l r b : Qc) : bool := qltb l b && qleb b r.
Definition seg_sum (l r : Qc) (c : list Qc) : Qc :=
  qsum (map (fun iv => ind (in_seg l r (snd iv)) (snd iv - fst iv)%Qc) (ivs c)).

Lemma increasing_head x c w : increasing (x :: c) -> In w c -> (x < w)%Qc.
Proof.
  revert x; induction c as [|y c IH]; intros x H Hw; [destruct Hw|]. destruct H as [H1 H2].
  destruct Hw as [<-|Hw]; [exact H1|]. eapply Qclt_trans; [exact H1 | apply IH; assumption].
Qed.
Lemma ivs_snd_In c iv : In iv (ivs c) -> In (snd iv) (tl c).
Proof. intro H. change (tl c) with (uppers c). rewrite <- ivs_snd. apply in_map, H. Qed.
Lemma in_seg_true l r b : in_seg l r b = true <-> (l < b)%Qc /\ (b <= r)%Qc.
Proof. unfold in_seg. rewrite andb_true_iff, qltb_true, qleb_true. reflexivity. Qed.
Lemma bool_eq_iff (a b : bool) : (a = true <-> b = true) -> a = b.
Proof. destruct a, b; intuition congruence. Qed.

Lemma seg_sum_eq c : increasing c -> forall l r, In l c -> In r c -> (l <= r)%Qc -> seg_sum l r c = (r - l)%Qc.
Proof.
  induction c as [|x [|y c] IH]; intros I l r Hl Hr L; [destruct Hl | |].
  - destruct Hl as [<-|[]], Hr as [<-|[]]. unfold seg_sum. simpl. ring.
  - destruct I as [I1 I2]. unfold seg_sum. rewrite ivs_cons. cbn [map qsum fst snd].
    fold (seg_sum l r (y :: c)).
    assert (Hy : forall w, In w (y :: c) -> (y <= w)%Qc).
    { intros w [<-|Hw]; [apply Qcle_refl | apply Qclt_le_weak; eapply increasing_head; eassumption]. }
    destruct Hr as [<-|Hr].
    + assert (l = x) as ->.
      { destruct Hl as [Hl|Hl]; [congruence|]. exfalso. apply (Qclt_not_le x y I1). eapply Qcle_trans; [apply Hy, Hl | exact L]. }
      assert (Z : forall w, In w (y :: c) -> in_seg x x w = false).
      { intros w Hw. apply not_true_is_false. intro E. apply in_seg_true in E. destruct E as [E1 E2].
        apply (Qclt_not_le _ _ E1 E2). }
      unfold seg_sum. rewrite qsum_map_zero.
      * rewrite Z by (left; reflexivity). simpl. ring.
      * intros iv Hiv. rewrite Z; [reflexivity|]. right. apply (ivs_snd_In _ _ Hiv).
    + destruct Hl as [<-|Hl].
      * assert (E : in_seg x r y = true) by (apply in_seg_true; split; [exact I1 | apply Hy, Hr]). rewrite E. cbn [ind].
        assert (E2 : seg_sum x r (y :: c) = seg_sum y r (y :: c)).
        { unfold seg_sum. apply qsum_map_ext. intros iv Hiv. f_equal. apply ivs_snd_In in Hiv. simpl in Hiv.
          assert (y < snd iv)%Qc by (eapply increasing_head; eassumption).
          apply bool_eq_iff. rewrite !in_seg_true. split; intros [A B]; split; auto. eapply Qclt_trans; eassumption. }
        rewrite E2, (IH I2 y r (or_introl eq_refl) Hr (Hy r Hr)). ring.
      * assert (E : in_seg l r y = false).
        { apply not_true_is_false. intro E. apply in_seg_true in E. apply (Qclt_not_le _ _ (proj1 E)). apply Hy, Hl. }
        rewrite E, (IH I2 l r Hl Hr L). simpl. ring.
Qed.

(** ** Inserting cut points *)
Fixpoint ins (x : Qc) (c : list Qc) : list Qc :=
  match c with
  | [] => [x]
  | y :: r => if qltb x y then x :: c else if qeqb x y then c else y :: ins x r
  end.
Lemma ins_In x c w : In w (ins x c) <-> w = x \/ In w c.
Proof.
  induction c as [|y c IH]; simpl; [intuition congruence|].
  destruct (qltb x y); [simpl; intuition congruence|]. destruct (qeqb_spec x y) as [<-|N]; simpl.
  - intuition congruence.
  - rewrite IH. intuition congruence.
Qed.
Lemma increasing_cons x c : (forall w, In w c -> (x < w)%Qc) -> increasing c -> increasing (x :: c).
Proof. intros H I. destruct c as [|y c]; [exact Logic.I|]. split; [apply H; left; reflexivity | exact I]. Qed.
Lemma increasing_tl x c : increasing (x :: c) -> increasing c.
Proof. destruct c; [reflexivity | intros [_ H]; exact H]. Qed.
Lemma ins_increasing x c : increasing c -> increasing (ins x c).
Proof.
  induction c as [|y c IH]; intro I; simpl; [exact Logic.I|].
  destruct (qltb x y) eqn:E; [apply qltb_true in E; split; assumption|].
  destruct (qeqb_spec x y) as [<-|N]; [exact I|]. apply qltb_false in E.
  apply increasing_cons; [|apply IH; eapply increasing_tl; exact I].
  intros w Hw. apply ins_In in Hw. destruct Hw as [->|Hw].
  - destruct (Qcle_lt_or_eq _ _ E); [assumption | congruence].
  - eapply increasing_head; eassumption.
Qed.
Definition cuts (l : list Qc) : list Qc := fold_right ins [] l.
Lemma cuts_In l w : In w (cuts l) <-> In w l.
Proof. induction l as [|x l IH]; simpl; [reflexivity|]. rewrite ins_In, IH. intuition congruence. Qed.
Lemma cuts_increasing l : increasing (cuts l).
Proof. induction l as [|x l IH]; [exact Logic.I | apply ins_increasing, IH]. Qed.

(** ** Weighted intervals: if the weights covering any point add up to at most
    W, the weighted lengths add up to at most (R - L) W. *)
Lemma weighted_cover {A} (itv : A -> Qc * Qc) (w : A -> Qc) (items : list A) L R W :
  (L <= R)%Qc -> (forall a, In a items -> (L <= fst (itv a))%Qc /\ (fst (itv a) <= snd (itv a))%Qc /\ (snd (itv a) <= R)%Qc) ->
  (forall t, (L < t)%Qc -> (t <= R)%Qc -> (qsum (map w (filter (fun a => in_seg (fst (itv a)) (snd (itv a)) t) items)) <= W)%Qc) ->
  (qsum (map (fun a => (snd (itv a) - fst (itv a)) * w a)%Qc items) <= (R - L) * W)%Qc.
Proof.
  intros LR H C.
  set (c := cuts (L :: R :: flat_map (fun a => [fst (itv a); snd (itv a)]) items)).
  assert (Ic : increasing c) by apply cuts_increasing.
  assert (HL : In L c) by (apply cuts_In; left; reflexivity).
  assert (HR : In R c) by (apply cuts_In; right; left; reflexivity).
  assert (Hi : forall a, In a items -> In (fst (itv a)) c /\ In (snd (itv a)) c).
  { intros a Ha. split; apply cuts_In; right; right; apply in_flat_map; exists a; simpl; auto. }
  assert (Hb : forall x, In x c -> (L <= x)%Qc /\ (x <= R)%Qc).
  { intros x Hx. apply (proj1 (cuts_In _ _)) in Hx. destruct Hx as [<-|[<-|Hx]]; [split; [apply Qcle_refl | exact LR] | split; [exact LR | apply Qcle_refl]|].
    apply in_flat_map in Hx. destruct Hx as (a & Ha & Hx). destruct (H a Ha) as (A1 & A2 & A3).
    destruct Hx as [<-|[<-|[]]]; split; try assumption; eapply Qcle_trans; eassumption. }
  assert (E1 : qsum (map (fun a => (snd (itv a) - fst (itv a)) * w a)%Qc items) =
    qsum (map (fun iv => (snd iv - fst iv) * qsum (map w (filter (fun a => in_seg (fst (itv a)) (snd (itv a)) (snd iv)) items)))%Qc (ivs c))).
  { transitivity (qsum (map (fun a => qsum (map (fun iv => (snd iv - fst iv) * ind (in_seg (fst (itv a)) (snd (itv a)) (snd iv)) (w a))%Qc (ivs c))) items)).
    - apply qsum_map_ext. intros a Ha. destruct (H a Ha) as (_ & A2 & _). destruct (Hi a Ha) as [I1 I2].
      rewrite <- (seg_sum_eq c Ic _ _ I1 I2 A2). unfold seg_sum. rewrite <- qsum_map_mul_r. apply qsum_map_ext.
      intros iv _. destruct (in_seg _ _ _); simpl; ring.
    - rewrite qsum_swap. apply qsum_map_ext. intros iv _. rewrite qsum_filter, qsum_map_mul. reflexivity. }
  rewrite E1. rewrite <- (seg_sum_eq c Ic L R HL HR LR). unfold seg_sum. rewrite <- qsum_map_mul_r. apply qsum_map_le.
  intros [a b] Hiv. pose proof (ivs_snd_In _ _ Hiv) as Hs. simpl in Hs. cbn [fst snd].
  apply (proj1 (ivs_consecutive c a b)) in Hiv. destruct Hiv as (m & Hm & Hm').
  assert (Lab : (a < b)%Qc) by (eapply (increasing_lt c Ic m (S m)); [lia | exact Hm | exact Hm']).
  assert (LA : (L <= a)%Qc) by (apply Hb; eapply nth_error_In; exact Hm).
  assert (BR : (b <= R)%Qc) by (apply Hb; eapply nth_error_In; exact Hm').
  assert (E : in_seg L R b = true) by (apply in_seg_true; split; [eapply Qcle_lt_trans; eassumption | exact BR]).
  rewrite E. cbn [ind]. apply qc_mul_le_l; [apply Qclt_le_weak; qc_lra|].
  apply C; [eapply Qcle_lt_trans; eassumption | exact BR].
Qed.

(** ** Disjoint boxes *)
Notation pbox := (list (Qc * Qc)).
Definition pvol (c : pbox) : Qc := qprod (map (fun p => (snd p - fst p)%Qc) c).
Definition in_pbox (x : list Qc) (c : pbox) : Prop := Forall2 (fun v p => (fst p < v)%Qc /\ (v <= snd p)%Qc) x c.
Definition psub (dom c : pbox) : Prop := Forall2 (fun d p => (fst d <= fst p)%Qc /\ (fst p <= snd p)%Qc /\ (snd p <= snd d)%Qc) dom c.
Definition pdisjoint (bs : list pbox) : Prop := ForallOrdPairs (fun c c' => forall x, in_pbox x c -> in_pbox x c' -> False) bs.

Lemma ForallOrdPairs_filter {A} (R : A -> A -> Prop) (p : A -> bool) l : ForallOrdPairs R l -> ForallOrdPairs R (filter p l).
Proof.
  induction 1 as [|a l F H IH]; simpl; [constructor|]. destruct (p a); [|exact IH]. constructor; [|exact IH].
  rewrite Forall_forall in *. intros b Hb. apply filter_In in Hb. apply F, Hb.
Qed.
Lemma ForallOrdPairs_map {A B} (R : B -> B -> Prop) (S : A -> A -> Prop) (f : A -> B) l :
  (forall a b, In a l -> In b l -> S a b -> R (f a) (f b)) -> ForallOrdPairs S l -> ForallOrdPairs R (map f l).
Proof.
  intros H F. induction F as [|a l Fa F IH]; simpl; constructor.
  - rewrite Forall_forall in *. intros b Hb. apply in_map_iff in Hb. destruct Hb as (c & <- & Hc).
    apply H; [left; reflexivity | right; exact Hc | apply Fa, Hc].
  - apply IH. intros; apply H; try (right; assumption); assumption.
Qed.

Lemma psub_vol_nonneg dom c : psub dom c -> (0 <= pvol c)%Qc.
Proof.
  intro H. unfold pvol. apply qprod_nonneg. intros x Hx. apply in_map_iff in Hx. destruct Hx as (p & <- & Hp).
  assert (fst p <= snd p)%Qc.
  { induction H as [|d q dom c Hq F IH]; [destruct Hp|]. destruct Hp as [<-|Hp]; [apply Hq | apply IH, Hp]. }
  qc_lra.
Qed.

Lemma disjoint_volume dom : (forall d, In d dom -> (fst d < snd d)%Qc) -> forall bs,
  (forall c, In c bs -> psub dom c) -> pdisjoint bs -> (qsum (map pvol bs) <= pvol dom)%Qc.
Proof.
  induction dom as [|[dl dr] dom IH]; intros PD bs Hsub D.
  - destruct bs as [|b [|b' bs]].
    + unfold pvol. simpl. discriminate.
    + assert (Hb := Hsub b (or_introl eq_refl)). inversion Hb; subst. apply Qcle_refl.
    + exfalso. inversion D as [|? ? F _]; subst. rewrite Forall_forall in F.
      assert (Hb := Hsub b (or_introl eq_refl)). assert (Hb' := Hsub b' (or_intror (or_introl eq_refl))).
      inversion Hb; subst. inversion Hb'; subst. apply (F [] (or_introl eq_refl) []); constructor.
  - assert (Lr : (dl < dr)%Qc) by (apply (PD (dl, dr)); left; reflexivity).
    assert (PD' : forall d, In d dom -> (fst d < snd d)%Qc) by (intros; apply PD; right; assumption).
    assert (Sh : forall c, In c bs -> exists p t, c = p :: t /\ (dl <= fst p)%Qc /\ (fst p <= snd p)%Qc /\ (snd p <= dr)%Qc /\ psub dom t).
    { intros c Hc. specialize (Hsub c Hc). inversion Hsub as [|? p ? t Hp Ht]; subst. exists p, t. tauto. }
    assert (E : qsum (map pvol bs) = qsum (map (fun c => (snd (hd (dl, dl) c) - fst (hd (dl, dl) c)) * pvol (tl c))%Qc bs)).
    { apply qsum_map_ext. intros c Hc. destruct (Sh c Hc) as (p & t & -> & _). reflexivity. }
    rewrite E. change (pvol ((dl, dr) :: dom)) with ((dr - dl) * pvol dom)%Qc.
    apply (weighted_cover (fun c => hd (dl, dl) c) (fun c => pvol (tl c))).
    + apply Qclt_le_weak, Lr.
    + intros c Hc. destruct (Sh c Hc) as (p & t & -> & H1 & H2 & H3 & _). auto.
    + intros t Ht1 Ht2. rewrite <- (map_map (@tl (Qc * Qc)) pvol). apply IH.
      * exact PD'.
      * intros c Hc. apply in_map_iff in Hc. destruct Hc as (c' & <- & Hc'). apply filter_In in Hc'. destruct Hc' as [Hc' _].
        destruct (Sh c' Hc') as (p & u & -> & _ & _ & _ & Hu). exact Hu.
      * eapply ForallOrdPairs_map; [|apply ForallOrdPairs_filter, D].
        intros c c' Hc Hc' HD x Hx Hx'. apply filter_In in Hc, Hc'. destruct Hc as [Hc Sc], Hc' as [Hc' Sc'].
        destruct (Sh c Hc) as (p & u & -> & _). destruct (Sh c' Hc') as (p' & u' & -> & _). simpl in *.
        apply (HD (t :: x)); constructor; try assumption; apply in_seg_true; assumption.
Qed.

(** ** exact_volume_lebesgue *)
Lemma pvol_volume l r : length l = length r -> pvol (combine l r) = volume l r.
Proof.
  revert r; induction l as [|a l IH]; intros [|b r] L; simpl in *; try discriminate; [reflexivity|].
  unfold pvol in *. simpl. rewrite IH by lia. reflexivity.
Qed.
Lemma volume_pairs c : volume (map fst c) (map snd c) = pvol c.
Proof. induction c as [|p c IH]; [reflexivity|]. simpl. rewrite IH. reflexivity. Qed.
Lemma pvol_pos dom : proper_domain dom -> (0 < pvol dom)%Qc.
Proof.
  intro H. unfold pvol. apply qprod_pos. intros x Hx. apply in_map_iff in Hx. destruct Hx as (d & <- & Hd).
  specialize (H d Hd). qc_lra.
Qed.
Lemma proper_cons d dom : proper_domain (d :: dom) -> (fst d < snd d)%Qc /\ proper_domain dom.
Proof. intro H. split; [apply H; left; reflexivity | intros e He; apply H; right; exact He]. Qed.

Lemma box_fraction_eq dom l r : proper_domain dom -> length l = length dom -> length r = length dom ->
  box_fraction dom l r = (volume l r / pvol dom)%Qc.
Proof.
  revert l r; induction dom as [|d dom IH]; intros [|a l] [|b r] PD L1 L2; simpl in L1, L2; try discriminate.
  - unfold box_fraction, pvol. simpl. field. discriminate.
  - destruct (proper_cons _ _ PD) as [Hd PD']. unfold box_fraction, pvol in *. simpl.
    rewrite IH by (try assumption; lia). assert (P := pvol_pos dom PD'). unfold pvol in P.
    field. split; [apply Qclt_neq0, P|]. apply Qclt_neq0. qc_lra.
Qed.

Lemma lebesgue_guard dom d : proper_domain dom -> length dom = d ->
  (length dom =? d) && forallb (fun p => negb (qeqb (fst p) (snd p))) dom = true.
Proof.
  intros PD L. rewrite L, Nat.eqb_refl. simpl. apply forallb_forall. intros p Hp. apply negb_true_iff, qeqb_false.
  apply Qclt_not_eq, PD, Hp.
Qed.

Lemma nth_error_ForallOrdPairs {A} (R : A -> A -> Prop) l :
  (forall i j a b, i < j -> nth_error l i = Some a -> nth_error l j = Some b -> R a b) -> ForallOrdPairs R l.
Proof.
  induction l as [|x l IH]; intro H; constructor.
  - rewrite Forall_forall. intros b Hb. apply In_nth_error in Hb. destruct Hb as (j & Hj).
    apply (H 0 (S j)); [lia | reflexivity | exact Hj].
  - apply IH. intros i j a b Hij Ha Hb. apply (H (S i) (S j)); [lia | exact Ha | exact Hb].
Qed.

Lemma lebesgue_volumes dom d mx mn s : rect_setup d mx mn = Ok s -> length dom = d -> proper_domain dom ->
  exists vs rem, exact_volume_lebesgue dom s = Some (vs ++ [rem]) /\ length vs = length mx /\
    (forall i l r, nth_error mn i = Some l -> nth_error mx i = Some r ->
       nth_error vs i = Some (volume l r / volume (map fst dom) (map snd dom))%Qc) /\
    qsum (vs ++ [rem]) = 1%Qc /\
    ((forall l r, In (l, r) (combine mn mx) -> sub_box dom l r) -> disjoint_boxes mn mx -> (0 <= rem)%Qc).
Proof.
  intros HS Ld PD. destruct (rect_setup_ok _ _ _ _ HS) as (E1 & E2 & E3 & L & _ & W1 & W2).
  unfold exact_volume_lebesgue. rewrite E1, E2, E3, (lebesgue_guard dom d PD Ld).
  set (vs := map _ _). exists vs, (1 - qsum vs)%Qc.
  assert (Nth : forall i l r, nth_error mn i = Some l -> nth_error mx i = Some r ->
       nth_error vs i = Some (volume l r / pvol dom)%Qc).
  { intros i l r Hl Hr. unfold vs. rewrite nth_error_map_eq, nth_error_combine, Hl, Hr. simpl. f_equal.
    apply box_fraction_eq; [exact PD | |].
    - rewrite (W2 l) by (eapply nth_error_In; eassumption). symmetry. exact Ld.
    - rewrite (W1 r) by (eapply nth_error_In; eassumption). symmetry. exact Ld. }
  split; [reflexivity|]. split; [unfold vs; rewrite map_length, combine_length; lia|].
  split; [rewrite volume_pairs; exact Nth|]. split; [rewrite qsum_app; simpl; ring|].
  intros Sub Dis.
  set (bs := map (fun lr : list Qc * list Qc => combine (fst lr) (snd lr)) (combine mn mx)).
  assert (Hn : forall i c, nth_error bs i = Some c -> exists l r, nth_error mn i = Some l /\ nth_error mx i = Some r /\ c = combine l r /\ length l = d /\ length r = d).
  { intros i c Hi. unfold bs in Hi. rewrite nth_error_map_eq, nth_error_combine in Hi.
    destruct (nth_error mn i) as [l|] eqn:El; [|discriminate]. destruct (nth_error mx i) as [r|] eqn:Er; [|discriminate].
    simpl in Hi. injection Hi as <-. exists l, r. repeat split; auto; [apply W2 | apply W1]; eapply nth_error_In; eassumption. }
  assert (V : (qsum (map pvol bs) <= pvol dom)%Qc).
  { apply disjoint_volume; [exact PD | |].
    - intros c Hc. apply In_nth_error in Hc. destruct Hc as (i & Hi). destruct (Hn i c Hi) as (l & r & Hl & Hr & -> & Ll & Lr).
      destruct (Sub l r) as (S1 & S2 & S3).
      { apply nth_error_In with (n := i). rewrite nth_error_combine, Hl, Hr. reflexivity. }
      apply Forall2_nth. split; [rewrite combine_length; lia|]. intros j a p Ha Hp. rewrite nth_error_combine in Hp.
      destruct (nth_error l j) as [u|] eqn:Eu; [|discriminate]. destruct (nth_error r j) as [v|] eqn:Ev; [|discriminate].
      injection Hp as <-. simpl. eapply S3; eassumption.
    - apply nth_error_ForallOrdPairs. intros i j a b Hij Ha Hb x Hxa Hxb.
      assert (G : forall k c, nth_error bs k = Some c -> in_pbox x c -> box_contains mn mx x k).
      { intros k c Hk Hx. destruct (Hn k c Hk) as (l & r & Hl & Hr & -> & Ll & Lr). exists l, r. repeat split; auto.
        - apply Forall2_length in Hx. rewrite combine_length in Hx. lia.
        - apply Forall2_length in Hx. rewrite combine_length in Hx. lia.
        - apply Forall2_nth in Hx. eapply (proj2 Hx j0 a0 (l0, r0)); [exact H|]. rewrite nth_error_combine, H0, H1. reflexivity.
        - apply Forall2_nth in Hx. eapply (proj2 Hx j0 a0 (l0, r0)); [exact H|]. rewrite nth_error_combine, H0, H1. reflexivity. }
      assert (i = j) by (apply (Dis i j x); [eapply G; [exact Ha | exact Hxa] | eapply G; [exact Hb | exact Hxb]]). lia. }
  assert (E : qsum vs = (qsum (map pvol bs) / pvol dom)%Qc).
  { rewrite <- qsum_map_div. unfold vs, bs. rewrite map_map. apply qsum_map_ext. intros [l r] Hin. simpl.
    apply In_nth_error in Hin. destruct Hin as (i & Hi). rewrite nth_error_combine in Hi.
    destruct (nth_error mn i) as [l'|] eqn:El; [|discriminate]. destruct (nth_error mx i) as [r'|] eqn:Er; [|discriminate].
    injection Hi as -> ->. assert (length l = d) by (apply W2; eapply nth_error_In; eassumption).
    assert (length r = d) by (apply W1; eapply nth_error_In; eassumption).
    rewrite box_fraction_eq, pvol_volume by (try exact PD; lia). reflexivity. }
  assert (qsum vs <= 1)%Qc; [|qc_lra].
  rewrite E. apply qc_div_le; [apply pvol_pos, PD|]. replace (1 * pvol dom)%Qc with (pvol dom) by ring. exact V.
Qed.

(** ** The cells of a cartesian grid fill its outer box *)
Lemma qsum_flat_map {A B} (f : B -> Qc) (g : A -> list B) l : qsum (map f (flat_map g l)) = qsum (map (fun a => qsum (map f (g a))) l).
Proof. induction l as [|a l IH]; simpl; [reflexivity|]. rewrite map_app, qsum_app, IH. reflexivity. Qed.
Definition len (p : Qc * Qc) : Qc := (snd p - fst p)%Qc.
Lemma grid_rest_volume ls : qsum (map pvol (grid_rest ls)) = qprod (map (fun l => qsum (map len l)) ls).
Proof.
  induction ls as [|l ls IH]; cbn [grid_rest map qprod].
  - unfold pvol. simpl. ring.
  - rewrite qsum_flat_map.
    rewrite (qsum_map_ext _ (fun t => qsum (map len l) * pvol t)%Qc), qsum_map_mul, IH; [reflexivity|].
    intros t _. rewrite map_map. change (fun x => pvol (x :: t)) with (fun x => len x * pvol t)%Qc. apply qsum_map_mul_r.
Qed.
Lemma mesh_rows_volume ls : ls <> [] -> qsum (map pvol (mesh_rows ls)) = qprod (map (fun l => qsum (map len l)) ls).
Proof.
  destruct ls as [|l0 [|l1 r]]; intro N; [congruence | |]; cbn [mesh_rows map qprod].
  - rewrite map_map. rewrite (qsum_map_ext _ len); [ring|]. intros x _. unfold pvol, len. simpl. ring.
  - rewrite qsum_flat_map.
    rewrite (qsum_map_ext _ (fun t => qsum (map len l0) * (qsum (map len l1)) * pvol t)%Qc), qsum_map_mul, grid_rest_volume; [ring|].
    intros t _. rewrite qsum_flat_map.
    rewrite (qsum_map_ext _ (fun a => len a * (qsum (map len l1) * pvol t))%Qc), qsum_map_mul_r; [ring|].
    intros a _. rewrite map_map. rewrite (qsum_map_ext _ (fun b => len b * (len a * pvol t))%Qc), qsum_map_mul_r; [ring|].
    intros b _. unfold pvol, len. simpl. ring.
Qed.
Lemma ivs_total l : l <> [] -> qsum (map len (ivs l)) = (last l 0 - hd 0 l)%Qc.
Proof.
  induction l as [|x [|y l] IH]; intro N; [congruence | simpl; ring |].
  rewrite ivs_cons. cbn [map qsum]. rewrite IH by discriminate. unfold len. cbn [fst snd hd].
  change (last (x :: y :: l) 0%Qc) with (last (y :: l) 0%Qc). ring.
Qed.

Lemma cart_volumes_map d xi : length xi = d -> 1 <= d -> (forall l, In l xi -> breakpoints l) ->
  let dom := map (fun l => (hd 0%Qc l, last l 0%Qc)) xi in let vs := map (fun c => pvol c / pvol dom)%Qc (mesh_rows (map ivs xi)) in
  exists s, cart_setup d xi = Ok s /\ lefts s = map (map fst) (mesh_rows (map ivs xi)) /\
    rights s = map (map snd) (mesh_rows (map ivs xi)) /\ proper_domain dom /\
    exact_volume_lebesgue dom s = Some (vs ++ [0%Qc]) /\
    (forall v, In v vs -> (0 < v)%Qc).
Proof.
  intros L D B. cbn zeta. destruct (cart_setup_ok d xi L D B) as (s & HS & EL & ER & Ed & HR).
  set (dom := map (fun l => (hd 0%Qc l, last l 0%Qc)) xi). set (M := mesh_rows (map ivs xi)) in *.
  assert (NX : map ivs xi <> []) by (destruct xi; [simpl in L; lia | discriminate]).
  assert (LastHd : forall l, breakpoints l -> (hd 0 l < last l 0)%Qc).
  { intros l [L2 I]. destruct l as [|a [|b l]]; simpl in L2; try lia. cbn [hd].
    assert (In (last (a :: b :: l) 0%Qc) (b :: l)).
    { change (last (a :: b :: l) 0%Qc) with (last (b :: l) 0%Qc). rewrite (app_removelast_last 0%Qc (l := b :: l)) at 2 by discriminate.
      apply in_or_app. right. left. reflexivity. }
    eapply increasing_head; eassumption. }
  assert (PD : proper_domain dom).
  { intros e He. apply in_map_iff in He. destruct He as (l & <- & Hl). apply LastHd, B, Hl. }
  assert (Ld : length dom = d) by (unfold dom; rewrite map_length; exact L).
  assert (LC : forall c, In c M -> length c = d).
  { intros c Hc. apply mesh_rows_In in Hc; [|exact NX]. apply Forall2_length in Hc. rewrite map_length in Hc. congruence. }
  assert (EV : map (fun lr => box_fraction dom (fst lr) (snd lr)) (combine (lefts s) (rights s)) = map (fun c => pvol c / pvol dom)%Qc M).
  { rewrite EL, ER, combine_map_l, combine_map_r, !map_map.
    transitivity (map (fun p : pbox * pbox => (pvol (fst p) / pvol dom)%Qc) (combine M M)).
    - apply map_ext_in. intros [c c'] Hin. simpl. assert (c = c' /\ In c M) as [<- Hc].
      { clear -Hin. induction M as [|m M IH]; simpl in Hin; [destruct Hin|]. destruct Hin as [E|Hin]; [injection E as -> ->; simpl; auto|].
        destruct (IH Hin). simpl. auto. }
      rewrite box_fraction_eq by (try exact PD; rewrite map_length, (LC c Hc); congruence).
      rewrite volume_pairs. reflexivity.
    - clear. induction M as [|m M IH]; simpl; [reflexivity | rewrite IH; reflexivity]. }
  exists s. split; [exact HS|]. split; [exact EL|]. split; [exact ER|]. split; [exact PD|].
  assert (Pd := pvol_pos dom PD).
  assert (Tot : qsum (map pvol M) = pvol dom).
  { unfold M. rewrite mesh_rows_volume by exact NX. unfold pvol at 1, dom. rewrite !map_map. f_equal.
    apply map_ext_in. intros l Hl. destruct (B l Hl) as [L2 _]. rewrite ivs_total; [reflexivity|].
    destruct l; [simpl in L2; lia | discriminate]. }
  split.
  - unfold exact_volume_lebesgue. rewrite Ed, (lebesgue_guard dom d PD Ld), EV. f_equal. f_equal. f_equal.
    rewrite qsum_map_div, Tot. field. apply Qclt_neq0, Pd.
  - intros v Hv. apply in_map_iff in Hv. destruct Hv as (c & <- & Hc). apply qc_div_pos; [|exact Pd].
    unfold pvol. apply qprod_pos. intros w Hw. apply in_map_iff in Hw. destruct Hw as (p & <- & Hp).
    apply mesh_rows_In in Hc; [|exact NX]. apply In_nth_error in Hp. destruct Hp as (j & Hj).
    apply Forall2_nth in Hc. rewrite map_length in Hc. destruct Hc as [Lc Hc].
    destruct (nth_error xi j) as [l|] eqn:El; [|apply nth_error_None in El; apply nth_error_lt in Hj; lia].
    assert (Hp : In p (ivs l)) by (apply (Hc j); [exact Hj | rewrite nth_error_map_eq, El; reflexivity]).
    destruct p as [a b]. apply (proj1 (ivs_consecutive l a b)) in Hp. destruct Hp as (m & Hm & Hm').
    assert (a < b)%Qc; [|simpl; qc_lra].
    eapply (increasing_lt l); [apply (B l); eapply nth_error_In; exact El | | exact Hm | exact Hm']. lia.
Qed.
Lemma cart_volumes d xi : length xi = d -> 1 <= d -> (forall l, In l xi -> breakpoints l) ->
  exists s vs, cart_setup d xi = Ok s /\
    exact_volume_lebesgue (map (fun l => (hd 0%Qc l, last l 0%Qc)) xi) s = Some (vs ++ [0%Qc]) /\
    (forall v, In v vs -> (0 < v)%Qc).
Proof.
  intros L D B. destruct (cart_volumes_map d xi L D B) as (s & HS & _ & _ & _ & HV & HP).
  exists s. eexists. split; [exact HS|]. split; [exact HV|exact HP].
Qed.

(** ** Local emulation *)
Local Open Scope N_scope.
Lemma local_loop_some hits need mx : forall fuel inside total draws, mx <= total * 2 ^ N.of_nat fuel ->
  exists r, local_loop fuel hits need mx inside total draws = Some r.
Proof.
  induction fuel as [|f IH]; intros inside total draws H; cbn [local_loop].
  - change (N.of_nat 0) with 0 in H. rewrite N.pow_0_r, N.mul_1_r in H.
    destruct ((inside <? need) && (total <? mx)) eqn:E; [|eauto].
    apply andb_true_iff in E. destruct E as [_ E]. apply N.ltb_lt in E. lia.
  - destruct ((inside <? need) && (total <? mx)) eqn:E; [|eauto]. apply IH.
    rewrite Nat2N.inj_succ, N.pow_succ_r' in H. nia.
Qed.
Lemma local_emulation_some hits need mx : exists r, local_emulation hits need mx = Some r.
Proof.
  unfold local_emulation. apply local_loop_some. rewrite N2Nat.id. pose proof (N.size_gt mx). lia.
Qed.

Definition nsum (l : list N) : N := fold_right N.add 0 l.
Lemma nsum_app l m : nsum (l ++ m) = nsum l + nsum m.
Proof. induction l as [|x l IH]; simpl; [reflexivity | rewrite IH; lia]. Qed.
Lemma local_loop_inv hits need mx : forall fuel inside total draws r,
  (forall n, In n draws -> n < 10 * mx) -> 9 * nsum draws < 100 * mx \/ draws = [] -> 
  9 * nsum draws + 100 <= 10 * total -> (draws <> [] -> inside = hits total /\ last draws 0 = total) ->
  local_loop fuel hits need mx inside total draws = Some r ->
  let '(inside', total', draws') := r in
  (forall n, In n draws' -> n < 10 * mx) /\ (9 * nsum draws' < 100 * mx \/ draws' = []) /\
  (need <= inside' \/ mx <= total') /\ (draws' <> [] -> inside' = hits total' /\ last draws' 0 = total').
Proof.
  induction fuel as [|f IH]; intros inside total draws r D S T HL; cbn [local_loop].
  - destruct ((inside <? need) && (total <? mx)) eqn:E; [discriminate|]. intro H. injection H as <-.
    repeat split; auto; [|apply HL; assumption | apply HL; assumption]. apply andb_false_iff in E. rewrite !N.ltb_ge in E. exact E.
  - destruct ((inside <? need) && (total <? mx)) eqn:E.
    + apply andb_true_iff in E. destruct E as [_ E]. apply N.ltb_lt in E. apply IH.
      * intros n Hn. apply in_app_or in Hn. destruct Hn as [Hn|[<-|[]]]; [apply D, Hn | lia].
      * left. rewrite nsum_app. unfold nsum at 2; cbn [fold_right]; lia.
      * rewrite nsum_app. unfold nsum at 2; cbn [fold_right]; lia.
      * intros _. split; [reflexivity|]. apply last_last.
    + intro H. injection H as <-.
      repeat split; auto; [|apply HL; assumption | apply HL; assumption]. apply andb_false_iff in E. rewrite !N.ltb_ge in E. exact E.
Qed.
Lemma local_emulation_inv hits need mx inside total draws : local_emulation hits need mx = Some (inside, total, draws) ->
  (forall n, In n draws -> n < 10 * mx) /\ (9 * nsum draws < 100 * mx \/ draws = []) /\
  (need <= inside \/ mx <= total) /\ (draws <> [] -> inside = hits total /\ last draws 0 = total).
Proof.
  intro H. apply (local_loop_inv hits need mx _ 0 10 [] (inside, total, draws)) in H; auto.
  - intros n [].
  - simpl. lia.
  - congruence.
Qed.

Lemma budget_witness : exists hits need mx inside total draws,
  local_emulation hits need mx = Some (inside, total, draws) /\ exists n, In n draws /\ mx < n.
Proof.
  exists (fun _ => 0), 1, 5000, 0, 10000, [100; 1000; 10000]. split; [reflexivity|].
  exists 10000. split; [right; right; left; reflexivity | reflexivity].
Qed.
Lemma no_draw_witness : forall hits need mx, mx <= 10 -> local_emulation hits need mx = Some (0, 10, []).
Proof.
  intros hits need mx H. unfold local_emulation. destruct (N.to_nat (N.size mx)); cbn [local_loop];
  (destruct (10 <? mx) eqn:E; [apply N.ltb_lt in E; lia | rewrite andb_false_r; reflexivity]).
Qed.
Lemma zero_estimates_nan (balls : list Qc) : normalized_volumes (map (fun b => cell_estimate b (0, 10, [])) balls) = map (fun _ => NaN) balls.
Proof.
  assert (Z : forall b, cell_estimate b (0, 10, []) = 0%Qc).
  { intro b. unfold cell_estimate, Qcdiv. replace (qN 0) with 0%Qc by (apply Qc_is_canon; reflexivity). ring. }
  unfold normalized_volumes. rewrite qsum_map_zero by (intros; apply Z). rewrite map_map. apply map_ext. intro b. rewrite Z. reflexivity.
Qed.
Lemma normalized_sum vs : (forall v, In v vs -> (0 <= v)%Qc) -> (exists v, In v vs /\ (0 < v)%Qc) ->
  exists ws, normalized_volumes vs = map Fin ws /\ qsum ws = 1%Qc /\ forall w, In w ws -> (0 <= w)%Qc.
Proof.
  intros H (v & Hv & P). assert (S : (0 < qsum vs)%Qc) by (eapply Qclt_le_trans; [exact P | apply qsum_ge_elem; assumption]).
  exists (map (fun v => v / qsum vs)%Qc vs). repeat split.
  - unfold normalized_volumes. rewrite map_map. apply map_ext. intro w. apply xdivq_fin, Qclt_neq0, S.
  - rewrite (qsum_map_div (qsum vs) (fun v => v)), map_id. field. apply Qclt_neq0, S.
  - intros w Hw. apply in_map_iff in Hw. destruct Hw as (u & <- & Hu). apply qc_div_nonneg; [apply H, Hu | exact S].
Qed.

(** A factor common to all ball volumes cancels. *)
Lemma normalized_scale c vs : (0 < c)%Qc -> qsum vs <> 0%Qc -> normalized_volumes (map (fun v => c * v)%Qc vs) = normalized_volumes vs.
Proof.
  intros C Z. unfold normalized_volumes. rewrite map_map. apply map_ext. intro v. rewrite (qsum_map_mul c (fun v => v)), map_id.
  apply Qclt_neq0 in C. rewrite !xdivq_fin; [f_equal; field; auto | exact Z |]. intro H. apply Qcmult_integral in H. tauto.
Qed.
Lemma no_budget_nan (balls : list Qc) hits need mx : (mx <= 10)%N ->
  exists r, local_emulation hits need mx = Some r /\
    normalized_volumes (map (fun b => cell_estimate b r) balls) = map (fun _ => NaN) balls.
Proof. intro H. exists (0%N, 10%N, []). split; [apply no_draw_witness, H | apply zero_estimates_nan]. Qed.
Lemma local_emulation_bounds hits need mx : exists inside total draws,
  local_emulation hits need mx = Some (inside, total, draws) /\
  (need <= inside \/ mx <= total)%N /\
  (forall n, In n draws -> (n < 10 * mx)%N) /\
  (draws = [] \/ (9 * fold_right N.add 0 draws < 100 * mx)%N).
Proof.
  destruct (local_emulation_some hits need mx) as ([[inside total] draws] & E).
  exists inside, total, draws. split; [exact E|]. destruct (local_emulation_inv _ _ _ _ _ _ E) as (A & B & C & _). tauto.
Qed.

(** With a budget above 10 and a positive number of required hits, the estimate of
    a cell is taken from the last draw. *)
Lemma local_loop_last hits need mx : forall fuel total draws n0 r,
  local_loop fuel hits need mx (hits total) total (draws ++ [n0]) = Some r -> n0 = total -> (0 < total)%N -> exists n ds, r = (hits n, n, ds ++ [n]) /\ (0 < n)%N.
Proof.
  induction fuel as [|f IH]; intros total draws n0 r E -> T; cbn [local_loop] in E; destruct ((hits total <? need) && (total <? mx))%N; try discriminate.
  1,3: injection E as <-; exists total, draws; split; [reflexivity|exact T].
  apply IH in E; [exact E|reflexivity|lia].
Qed.
Lemma local_emulation_last hits need mx : (10 < mx)%N -> (0 < need)%N -> exists n ds, local_emulation hits need mx = Some (hits n, n, ds ++ [n]) /\ (0 < n)%N.
Proof.
  intros M N0. destruct (local_emulation_some hits need mx) as (r & E). unfold local_emulation in E |- *.
  destruct (N.to_nat (N.size mx)) as [|f]; cbn [local_loop] in E |- *; rewrite (proj2 (N.ltb_lt 0 need) N0), (proj2 (N.ltb_lt 10 mx) M) in E |- *; cbn [andb] in E |- *; [discriminate|].
  destruct (local_loop_last hits need mx f (10 * 10) [] (10 * 10) r E eq_refl ltac:(lia)) as (n & ds & -> & T). exists n, ds. split; [exact E|exact T].
Qed.
Lemma qN_pos n : (0 < n)%N -> (0 < qN n)%Qc.
Proof. intro H. replace (qN n) with (qn (N.to_nat n)); [apply qn_pos; lia|]. unfold qn, qN. rewrite N_nat_Z. reflexivity. Qed.
Lemma positive_estimates need mx : (10 < mx)%N -> (0 < need)%N -> forall cells : list (Qc * (N -> N)), (forall b h, In (b, h) cells -> (0 < b)%Qc /\ forall n, (0 < n)%N -> (0 < h n)%N) ->
  exists rs, Forall2 (fun c r => local_emulation (snd c) need mx = Some r) cells rs /\
    (forall v, In v (map (fun p => cell_estimate (fst p) (snd p)) (combine (map fst cells) rs)) -> (0 < v)%Qc) /\ length rs = length cells /\
    Forall2 (fun c r => exists n ds, r = (snd c n, n, ds ++ [n]) /\ (cell_estimate (fst c) r * qN n = fst c * qN (snd c n))%Qc) cells rs.
Proof.
  intros M N0. induction cells as [|[b h] cells IH]; intros H; [exists []; repeat split; try constructor; intros ? []|].
  destruct IH as (rs & F & V & L & G); [intros; apply H; right; assumption|]. destruct (local_emulation_last h need mx M N0) as (n & ds & E & T).
  destruct (H b h (or_introl eq_refl)) as (B & Hh). pose proof (qN_pos n T) as Tn. pose proof (qN_pos _ (Hh n T)) as Th.
  exists ((h n, n, ds ++ [n]) :: rs). split; [constructor; assumption|]. split; [|split; [cbn; congruence|]].
  - cbn [map combine fst snd]. intros v [<-|Hv]; [|apply V, Hv]. unfold cell_estimate. apply qc_div_pos; [apply qc_mul_pos; assumption|exact Tn].
  - constructor; [|exact G]. exists n, ds. split; [reflexivity|]. cbn [fst snd]. unfold cell_estimate. field. apply Qclt_neq0, Tn.
Qed.
Lemma positive_volumes need mx (cells : list (Qc * (N -> N))) : (10 < mx)%N -> (0 < need)%N -> cells <> [] -> (forall b h, In (b, h) cells -> (0 < b)%Qc /\ forall n, (0 < n)%N -> (0 < h n)%N) ->
  exists rs ws c, Forall2 (fun c r => local_emulation (snd c) need mx = Some r) cells rs /\
    normalized_volumes (map (fun p => cell_estimate (fst p) (snd p)) (combine (map fst cells) rs)) = map Fin ws /\ qsum ws = 1%Qc /\ (forall w, In w ws -> (0 < w)%Qc) /\ (0 < c)%Qc /\
    forall i b h inside total draws w, nth_error cells i = Some (b, h) -> nth_error rs i = Some (inside, total, draws) -> nth_error ws i = Some w ->
      last draws 0%N = total /\ (0 < total)%N /\ (c * w * qN total = b * qN (h total))%Qc.
Proof.
  intros M N0 NE H. destruct (positive_estimates need mx M N0 cells H) as (rs & F & V & L & G). set (vs := map (fun p => cell_estimate (fst p) (snd p)) (combine (map fst cells) rs)) in *.
  destruct (normalized_sum vs) as (ws & E & S1 & _); [intros v Hv; apply Qclt_le_weak, V, Hv| |].
  { destruct cells as [|c0 cells]; [contradiction|]. destruct rs as [|r0 rs]; [discriminate|]. eexists. split; [left; reflexivity|]. apply V. left. reflexivity. }
  assert (SP : (0 < qsum vs)%Qc).
  { destruct cells as [|c0 cells]; [contradiction|]. destruct rs as [|r0 rs]; [discriminate|]. apply (Qclt_le_trans _ (cell_estimate (fst c0) r0)); [apply V; left; reflexivity|].
    apply qsum_ge_elem; [intros v Hv; apply Qclt_le_weak, V, Hv|left; reflexivity]. }
  assert (EW : ws = map (fun v => v / qsum vs)%Qc vs).
  { assert (E2 : map Fin ws = map Fin (map (fun v => v / qsum vs)%Qc vs)).
    { rewrite <- E. unfold normalized_volumes. rewrite map_map. apply map_ext. intro v. apply xdivq_fin, Qclt_neq0, SP. }
    revert E2. generalize (map (fun v => v / qsum vs)%Qc vs). clear. induction ws as [|w ws IH]; intros [|u us] E2; try discriminate; [reflexivity|]. injection E2 as -> E2. f_equal. apply IH, E2. }
  exists rs, ws, (qsum vs). split; [exact F|]. split; [exact E|]. split; [exact S1|]. split.
  { intros w Hw. rewrite EW in Hw. apply in_map_iff in Hw. destruct Hw as (v & <- & Hv). apply qc_div_pos; [apply V, Hv|exact SP]. }
  split; [exact SP|]. intros i b h inside total draws w Hc Hr Hw. rewrite EW, nth_error_map in Hw. unfold vs in Hw at 2. rewrite nth_error_map in Hw.
  assert (C : nth_error (combine (map fst cells) rs) i = Some (b, (inside, total, draws))).
  { clear -Hc Hr. revert rs i Hc Hr. induction cells as [|c0 cells IH]; intros [|r0 rs] [|i] Hc Hr; try discriminate; cbn [nth_error map combine] in *; [injection Hc as ->; injection Hr as ->; reflexivity|apply IH; assumption]. }
  rewrite C in Hw. cbn [option_map fst snd] in Hw. injection Hw as <-.
  assert (R : exists n ds, (inside, total, draws) = (h n, n, ds ++ [n]) /\ (cell_estimate b (inside, total, draws) * qN n = b * qN (h n))%Qc).
  { clear -G Hc Hr. revert i Hc Hr. induction G as [|c0 r0 cells rs Q G IH]; intros [|i] Hc Hr; try discriminate; cbn [nth_error] in *; [injection Hc as ->; injection Hr as ->; exact Q|eapply IH; eassumption]. }
  destruct R as (n & ds & R & Q). assert (EN : total = n) by congruence. assert (ED : draws = ds ++ [n]) by congruence. subst n. rewrite ED in *.
  assert (T : (0 < total)%N).
  { clear -F Hr Hc M N0. assert (X : local_emulation h need mx = Some (inside, total, ds ++ [total])).
    { revert i Hc Hr. induction F as [|c0 r0 cells rs Q F IH]; intros [|i] Hc Hr; try discriminate; cbn [nth_error] in *; [injection Hc as ->; injection Hr as ->; exact Q|eapply IH; eassumption]. }
    destruct (local_emulation_last h need mx M N0) as (n & ds' & E & T). rewrite E in X. injection X as _ -> _. exact T. }
  split; [apply last_last|]. split; [exact T|]. rewrite <- Q. unfold cell_estimate. field. split; apply Qclt_neq0; [apply qN_pos, T|exact SP].
Qed.
