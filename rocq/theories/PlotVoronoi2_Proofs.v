From Coq Require Import String List Arith Lia Bool QArith Qcanon.
From Verif Require Import Err Num Ext NumPy Lists Query_Proofs ChooseQoIs_Model PlotVoronoi_Model PlotVoronoi2_Model PlotVoronoi2_Spec.
Import ListNotations.
Local Open Scope nat_scope.

Lemma xmax_fin a b : xmax (Fin a) (Fin b) = Fin (if qleb a b then b else a).
Proof. unfold xmax. cbn. destruct (qleb a b); reflexivity. Qed.
Lemma fold_xmax l : forall x, exists m, fold_left xmax (map Fin l) (Fin x) = Fin m /\ (x <= m)%Qc /\ (forall y, In y l -> (y <= m)%Qc) /\ (m = x \/ In m l).
Proof.
  induction l as [|y l IH]; intro x; [exists x; split; [reflexivity|]; split; [apply Qcle_refl|]; split; [intros y [] | left; reflexivity]|].
  cbn [map fold_left]. rewrite xmax_fin. destruct (qleb_spec x y) as [L|L].
  - destruct (IH y) as (m & E & A & B & C). exists m. split; [exact E|]. split; [eapply Qcle_trans; eassumption|]. split; [intros z [<-|I]; [exact A | apply B, I]|]. right. destruct C as [->|C]; [left; reflexivity | right; exact C].
  - apply Qcnot_le_lt in L. destruct (IH x) as (m & E & A & B & C). exists m. split; [exact E|]. split; [exact A|]. split; [intros z [<-|I]; [eapply Qcle_trans; [apply Qclt_le_weak; exact L | exact A] | apply B, I]|]. destruct C as [->|C]; [left; reflexivity | right; right; exact C].
Qed.
Lemma list_max_fin l : l <> [] -> exists m, xlist_max (map Fin l) = Fin m /\ (forall y, In y l -> (y <= m)%Qc) /\ In m l.
Proof.
  destruct l as [|x l]; [contradiction|]. intros _. destruct (fold_xmax l x) as (m & E & A & B & C). exists m. split; [exact E|]. split; [intros y [<-|I]; [exact A | apply B, I]|]. destruct C as [->|C]; [left; reflexivity | right; exact C].
Qed.
Definition numbers (density : bool) (probs vol : list Qc) : list Qc := if density then map (fun pv => fst pv / snd pv)%Qc (combine probs vol) else probs.
Lemma combine_nth_error {A B} (l : list A) (m : list B) i a b : nth_error (combine l m) i = Some (a, b) <-> nth_error l i = Some a /\ nth_error m i = Some b.
Proof.
  revert m i. induction l as [|x l IH]; intros [|y m] [|i]; cbn; try (split; [discriminate | intros (H1 & H2); discriminate]).
  - split; [intro H; injection H as <- <-; auto | intros (H1 & H2); congruence].
  - apply IH.
Qed.
Lemma numbers_spec density probs vol i x : length probs = length vol -> nth_error (numbers density probs vol) i = Some x <-> cell_number density probs vol i x.
Proof.
  intro L. unfold numbers, cell_number. destruct density.
  - rewrite nth_error_map_eq. split.
    + destruct (nth_error (combine probs vol) i) as [(p, v)|] eqn:E; [|discriminate]. intro H. cbn [option_map fst snd] in H. apply combine_nth_error in E. exists p, v. destruct E. split; [assumption|]. split; [assumption|]. congruence.
    + intros (p & v & Ep & Ev & ->). rewrite (proj2 (combine_nth_error probs vol i p v) (conj Ep Ev)). reflexivity.
  - split.
    + intro H. assert (i < length vol) as Hi by (rewrite <- L; apply nth_error_Some; congruence). apply nth_error_Some in Hi. destruct (nth_error vol i) as [v|] eqn:Ev; [|contradiction]. exists x, v. auto.
    + intros (p & v & Ep & _ & ->). exact Ep.
Qed.
Lemma pos_neq (v : Qc) : (0 < v)%Qc -> v <> 0%Qc.
Proof. intros H E. rewrite E in H. apply (Qclt_not_eq _ _ H). reflexivity. Qed.
Lemma shown_fin density probs vol : plot2_ok probs vol -> shown density probs (Some vol) = Ok (map Fin (numbers density probs vol)).
Proof.
  intros (L & _ & _ & V). unfold shown, numbers. destruct density; [|reflexivity]. rewrite L, Nat.eqb_refl. f_equal. rewrite map_map. apply map_ext_in. intros (p, v) I. cbn [fst snd]. apply xdivq_fin. apply pos_neq, V. eapply in_combine_r. exact I.
Qed.
Lemma div_pos (a b : Qc) : (0 < a)%Qc -> (0 < b)%Qc -> (0 < a / b)%Qc.
Proof.
  intros Ha Hb. assert (b <> 0)%Qc as N by (apply pos_neq; exact Hb). destruct (Qclt_le_dec 0 (a / b)) as [H|H]; [exact H|]. exfalso. assert (a = a / b * b)%Qc as E by (field; exact N).
  assert (a / b * b <= 0 * b)%Qc as F by (apply Qcmult_le_compat_r; [exact H | apply Qclt_le_weak; exact Hb]). rewrite <- E, Qcmult_0_l in F. apply (Qcle_not_lt _ _ F Ha).
Qed.
Lemma div_ge0 (a b : Qc) : (0 <= a)%Qc -> (0 < b)%Qc -> (0 <= a / b)%Qc.
Proof. intros Ha Hb. destruct (Qcle_lt_or_eq _ _ Ha) as [H|H]; [apply Qclt_le_weak, div_pos; assumption|]. subst a. unfold Qcdiv. rewrite Qcmult_0_l. apply Qcle_refl. Qed.
Lemma div_le (a c b : Qc) : (0 < b)%Qc -> (a / b <= c / b)%Qc <-> (a <= c)%Qc.
Proof.
  intro Hb. assert (b <> 0)%Qc as N by (apply pos_neq; exact Hb). split; intro H.
  - replace a with (a / b * b)%Qc by (field; exact N). replace c with (c / b * b)%Qc by (field; exact N). apply Qcmult_le_compat_r; [exact H | apply Qclt_le_weak; exact Hb].
  - apply Qcmult_le_compat_r; [exact H|]. assert (0 < 1 / b)%Qc as P by (apply div_pos; [reflexivity | exact Hb]). unfold Qcdiv in P. rewrite Qcmult_1_l in P. apply Qclt_le_weak. exact P.
Qed.
Lemma numbers_pos density probs vol : plot2_ok probs vol -> (forall x, In x (numbers density probs vol) -> (0 <= x)%Qc) /\ exists x, In x (numbers density probs vol) /\ (0 < x)%Qc.
Proof.
  intros (L & P & (p & Ip & Pp) & V). split.
  - intros x I. unfold numbers in I. destruct density; [|apply P, I]. apply in_map_iff in I. destruct I as ((a, b) & <- & I). cbn. apply div_ge0; [apply P; eapply in_combine_l; exact I | apply V; eapply in_combine_r; exact I].
  - apply In_nth_error in Ip. destruct Ip as (i & Ei). assert (i < length vol) as Hi by (rewrite <- L; apply nth_error_Some; congruence). apply nth_error_Some in Hi. destruct (nth_error vol i) as [v|] eqn:Ev; [|contradiction].
    exists (if density then p / v else p)%Qc. split; [apply (nth_error_In _ i); apply numbers_spec; [exact L|]; exists p, v; split; [exact Ei | split; [exact Ev | reflexivity]]|]. destruct density; [apply div_pos; [exact Pp | apply V; eapply nth_error_In; exact Ev] | exact Pp].
Qed.
Lemma plot2_lemma : forall density s probs vol, ps_dim s = 2 -> ps_probs s = Some probs -> plot2_ok probs vol ->
  exists colours, plot_2D_voronoi density (PSet s) (Some vol) None = Ok (map Fin colours, ("$\lambda_1$", "$\lambda_2$")%string) /\ length colours = length probs /\
    (forall c, In c colours -> (0 <= c)%Qc /\ (c <= 1)%Qc) /\ In 1%Qc colours /\
    forall i j x y c d, cell_number density probs vol i x -> cell_number density probs vol j y -> nth_error colours i = Some c -> nth_error colours j = Some d -> ((x <= y)%Qc <-> (c <= d)%Qc) /\ (c * y = d * x)%Qc.
Proof.
  intros density s probs vol Hd Hp OK. pose proof (shown_fin density probs vol OK) as SH. destruct (numbers_pos density probs vol OK) as (NN & x0 & I0 & P0). pose proof OK as (L & _ & _ & _). set (ns := numbers density probs vol) in *.
  assert (ns <> []) as NE by (intro E; rewrite E in I0; destruct I0). destruct (list_max_fin ns NE) as (m & Em & Mx & Im). assert (0 < m)%Qc as Pm by (eapply Qclt_le_trans; [exact P0 | apply Mx, I0]). assert (m <> 0)%Qc as Nm by (apply pos_neq; exact Pm).
  exists (map (fun x => x / m)%Qc ns). split; [|split; [|split; [|split]]].
  - unfold plot_2D_voronoi, checked. rewrite Hd, Hp. cbn [Nat.eqb negb]. rewrite SH. destruct (map Fin ns) as [|n0 ns'] eqn:EM; [destruct ns; [contradiction | discriminate]|]. rewrite <- EM in *. cbn [labels]. f_equal. f_equal. rewrite Em, !map_map. apply map_ext. intro x. cbn [xdiv]. apply xdivq_fin. exact Nm.
  - rewrite map_length. unfold ns, numbers. destruct density; [|reflexivity]. rewrite map_length, combine_length, <- L. lia.
  - intros c I. apply in_map_iff in I. destruct I as (x & <- & I). split; [apply div_ge0; [apply NN, I | exact Pm]|]. replace 1%Qc with (m / m)%Qc by (field; exact Nm). apply div_le; [exact Pm | apply Mx, I].
  - apply in_map_iff. exists m. split; [field; exact Nm | exact Im].
  - intros i j x y c d Hx Hy Hc Hdd. apply numbers_spec in Hx; [|exact L]. apply numbers_spec in Hy; [|exact L]. fold ns in Hx, Hy. rewrite nth_error_map_eq, Hx in Hc. rewrite nth_error_map_eq, Hy in Hdd. cbn in Hc, Hdd.
    assert (c = x / m)%Qc as -> by congruence. assert (d = y / m)%Qc as -> by congruence. split; [symmetry; apply div_le; exact Pm | field; exact Nm].
Qed.
Lemma labels_lemma : forall density s probs vol l1 l2 ls, ps_dim s = 2 -> ps_probs s = Some probs -> plot2_ok probs vol ->
  plot_2D_voronoi density (PSet s) (Some vol) (Some (l1 :: l2 :: ls)) = Raise PyNameError.
Proof.
  intros density s probs vol l1 l2 ls Hd Hp OK. unfold plot_2D_voronoi, checked. rewrite Hd, Hp. cbn [Nat.eqb negb]. rewrite (shown_fin density probs vol OK). destruct (numbers_pos density probs vol OK) as (_ & x0 & I0 & _). destruct (numbers density probs vol); [destruct I0 | reflexivity].
Qed.
Lemma zero_lemma : forall s n vol, ps_dim s = 2 -> ps_probs s = Some (repeat 0%Qc (S n)) -> length vol = S n -> (forall v, In v vol -> (0 < v)%Qc) -> forall density,
  plot_2D_voronoi density (PSet s) (Some vol) None = Ok (repeat NaN (S n), ("$\lambda_1$", "$\lambda_2$")%string).
Proof.
  intros s n vol Hd Hp L V density. unfold plot_2D_voronoi, checked. rewrite Hd, Hp. cbn [Nat.eqb negb].
  assert (shown density (repeat 0%Qc (S n)) (Some vol) = Ok (map Fin (repeat 0%Qc (S n)))) as E.
  { unfold shown. destruct density; [|reflexivity]. rewrite repeat_length, L, Nat.eqb_refl. f_equal. clear Hp. revert vol L V. induction (S n) as [|k IH]; intros vol L V; [reflexivity|]. destruct vol as [|v vol]; [discriminate|]. cbn [repeat combine map fst snd]. rewrite IH; [|cbn in L; lia | intros; apply V; right; assumption]. f_equal. rewrite xdivq_fin by (apply pos_neq, V; left; reflexivity). f_equal. unfold Qcdiv. apply Qcmult_0_l. }
  rewrite E. cbn [repeat map]. destruct (list_max_fin (repeat 0%Qc (S n))) as (m & Em & _ & Im); [discriminate|]. apply repeat_spec in Im. subst m. cbn [repeat map] in Em. rewrite Em. cbn [labels]. f_equal. f_equal. cbn [map]. f_equal.
  clear. induction n as [|n IH]; [reflexivity|]. cbn [repeat map]. rewrite IH. reflexivity.
Qed.
Lemma rejects2_lemma : forall density a volumes ls,
  (a = POther -> plot_2D_voronoi density a volumes ls = Raise BadObject) /\
  (a = PDisc None -> plot_2D_voronoi density a volumes ls = Raise MissingAttribute) /\
  (forall s, a = PSet s \/ a = PDisc (Some s) -> ps_dim s <> 2 -> plot_2D_voronoi density a volumes ls = Raise DimNotMatching) /\
  (forall s, a = PSet s \/ a = PDisc (Some s) -> ps_dim s = 2 -> ps_probs s = None -> ps_probs_local s = None -> plot_2D_voronoi density a volumes ls = Raise MissingAttribute) /\
  (forall s p, a = PSet s -> ps_dim s = 2 -> ps_probs s = Some p -> plot_2D_voronoi true a None ls = Raise PyTypeError).
Proof.
  intros density a volumes ls. split; [intros ->; reflexivity|]. split; [intros ->; reflexivity|]. split; [|split].
  - intros s [-> | ->] H; unfold plot_2D_voronoi, checked; apply Nat.eqb_neq in H; rewrite H; reflexivity.
  - intros s [-> | ->] H1 H2 H3; unfold plot_2D_voronoi, checked; rewrite H1, H2, H3; reflexivity.
  - intros s p -> H1 H2. unfold plot_2D_voronoi, checked. rewrite H1, H2. reflexivity.
Qed.
Lemma max_inf l : (forall x, In x l -> x = PInf \/ exists q, x = Fin q) -> In PInf l -> xlist_max l = PInf.
Proof.
  assert (G : forall l x, (forall y, In y (x :: l) -> y = PInf \/ exists q, y = Fin q) -> In PInf (x :: l) -> fold_left xmax l x = PInf).
  { clear. induction l as [|y l IH]; intros x F I; cbn [fold_left]; [destruct I as [I|[]]; exact I|].
    assert (E : xmax x y = PInf /\ (x = PInf \/ y = PInf) \/ exists q, xmax x y = Fin q /\ x <> PInf /\ y <> PInf).
    { destruct (F x (or_introl eq_refl)) as [->|(a & ->)]; destruct (F y (or_intror (or_introl eq_refl))) as [->|(b & ->)];
        [left; split; [reflexivity | left; reflexivity] | left; split; [reflexivity | left; reflexivity] | left; split; [reflexivity | right; reflexivity] |].
      right. exists (if qleb a b then b else a). split; [apply xmax_fin|]. split; discriminate. }
    apply IH.
    - intros z [<-|Iz]; [destruct E as [[-> _]|(q & -> & _)]; [left; reflexivity | right; exists q; reflexivity]|]. apply F. right. right. exact Iz.
    - destruct E as [[-> _]|(q & _ & N1 & N2)]; [left; reflexivity|]. destruct I as [I|[I|I]]; [contradiction | contradiction | right; exact I]. }
  destruct l as [|x l]; [intros _ [] | apply G].
Qed.
Lemma zero_volume_lemma : forall s probs vol, ps_dim s = 2 -> ps_probs s = Some probs -> length probs = length vol ->
  (forall i p v, nth_error probs i = Some p -> nth_error vol i = Some v -> (0 < v)%Qc \/ (v = 0 /\ 0 < p)%Qc) ->
  (exists i, nth_error vol i = Some 0%Qc) ->
  plot_2D_voronoi true (PSet s) (Some vol) None = Ok (map (fun v => if Qc_eq_dec v 0 then NaN else Fin 0%Qc) vol, ("$\lambda_1$", "$\lambda_2$")%string).
Proof.
  intros s probs vol Hd Hp L H (i & Hi).
  set (P := map (fun pv : Qc * Qc => xdivq (fst pv) (snd pv)) (combine probs vol)).
  assert (C : forall pv, In pv (combine probs vol) -> (snd pv = 0%Qc /\ xdivq (fst pv) (snd pv) = PInf) \/ (snd pv <> 0%Qc /\ exists q, xdivq (fst pv) (snd pv) = Fin q)).
  { intros (p, v) I. apply In_nth_error in I. destruct I as (k & Ik). apply combine_nth_error in Ik. destruct Ik as [I1 I2]. cbn [fst snd]. destruct (H k p v I1 I2) as [V|[-> Pp]].
    - right. split; [apply pos_neq; exact V|]. exists (p / v)%Qc. apply xdivq_fin. apply pos_neq. exact V.
    - left. split; [reflexivity|]. unfold xdivq, sgn_inf. replace (qeqb 0 0) with true by (symmetry; apply qeqb_true; reflexivity). replace (qeqb p 0) with false by (symmetry; apply qeqb_false; apply pos_neq; exact Pp).
      replace (qltb 0 p) with true by (symmetry; apply qltb_true; exact Pp). reflexivity. }
  assert (M : xlist_max P = PInf).
  { apply max_inf.
    - intros x I. apply in_map_iff in I. destruct I as (pv & <- & I). destruct (C pv I) as [[_ ->]|[_ (q & ->)]]; [left; reflexivity | right; exists q; reflexivity].
    - assert (K : i < length probs) by (rewrite L; apply nth_error_Some; congruence). apply nth_error_Some in K. destruct (nth_error probs i) as [p|] eqn:Ep; [|contradiction].
      apply in_map_iff. exists (p, 0%Qc). assert (I : In (p, 0%Qc) (combine probs vol)) by (apply (nth_error_In _ i); apply combine_nth_error; auto).
      split; [|exact I]. destruct (C _ I) as [[_ E]|[N _]]; [exact E | exfalso; apply N; reflexivity]. }
  unfold plot_2D_voronoi, checked. rewrite Hd, Hp. cbn [Nat.eqb negb]. unfold shown. rewrite L, Nat.eqb_refl. fold P.
  assert (NE : P <> []). { intro E. rewrite E in M. discriminate M. }
  replace (match P with [] => _ | _ :: _ => _ end) with (@Ok (list xnum * (string * string)) (map (fun x => xdiv x (xlist_max P)) P, ("$\lambda_1$", "$\lambda_2$")%string)) by (destruct P; [contradiction | reflexivity]).
  rewrite M. f_equal. f_equal. subst P. clear M NE H Hi. revert vol L C. clear. induction probs as [|p probs IH]; intros [|v vol] L C; try discriminate L; [reflexivity|].
  cbn [combine map fst snd]. f_equal; [|apply IH; [injection L as L; exact L | intros pv I; apply C; right; exact I]].
  destruct (C (p, v) (or_introl eq_refl)) as [[E1 E2]|[E1 (q & E2)]]; cbn [fst snd] in E1, E2; rewrite E2; destruct (Qc_eq_dec v 0); try contradiction; reflexivity.
Qed.
