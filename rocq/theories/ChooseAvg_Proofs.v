From Coq Require Import List Arith Bool Lia Permutation QArith Qcanon.
From Verif Require Import Err Num Ext NumPy Lists Post_Model Post_Spec Sampling_Model ChooseQoIs_Model ChooseQoIs_Spec ChooseQoIs_Proofs.
Import ListNotations.
Local Open Scope nat_scope.
Local Open Scope err_scope.

(** ** harmonic mean *)
Definition pos_or_inf (x : xnum) : Prop := x = PInf \/ exists q, x = Fin q /\ (0 < q)%Qc.
Lemma xrecip_of x : pos_or_inf x -> xrecip x = Fin (recip_of x).
Proof.
  intros [->|(q & -> & H)]; [reflexivity|]. cbn [xrecip recip_of]. rewrite xdivq_fin by (apply Qclt_neq0; assumption). f_equal. field. apply Qclt_neq0. assumption.
Qed.
Lemma recip_nonneg x : pos_or_inf x -> (0 <= recip_of x)%Qc.
Proof. intros [->|(q & -> & H)]; cbn [recip_of]; [apply Qcle_refl | apply Qclt_le_weak, qc_inv_pos, H]. Qed.
Lemma qsum_fold l : fold_right Qcplus 0%Qc l = qsum l.
Proof. reflexivity. Qed.
Lemma hmean_lemma l : l <> [] -> (forall x, In x l -> pos_or_inf x) -> exists h, hmean l = Ok h /\ is_hmean l h.
Proof.
  intros NE H. unfold hmean.
  replace (forallb (fun x => xleb (Fin 0) x) l) with true.
  2:{ symmetry. apply forallb_forall. intros x I. destruct (H x I) as [->|(q & -> & P)]; [reflexivity|]. cbn [xleb]. apply qleb_true, Qclt_le_weak, P. }
  replace (map xrecip l) with (map Fin (map recip_of l)).
  2:{ rewrite map_map. apply map_ext_in. intros x I. symmetry. apply xrecip_of, H, I. }
  rewrite xsum_fin. assert (Ln : 0 < length l) by (destruct l; [congruence | simpl; lia]).
  eexists. split; [reflexivity|]. split.
  - intro All. replace (qsum (map recip_of l)) with 0%Qc.
    + unfold xdivq. replace (qeqb 0 0) with true by reflexivity. replace (qeqb (qn (length l)) 0) with false by (symmetry; apply qeqb_false, qn_neq0, Ln).
      unfold sgn_inf. replace (qltb 0 (qn (length l))) with true; [reflexivity|]. symmetry. apply qltb_true, qn_pos, Ln.
    + symmetry. apply qsum_map_zero. intros x I. rewrite (All x I). reflexivity.
  - intros (x & I & Hx). assert (SP : (0 < qsum (map recip_of l))%Qc).
    { destruct (H x I) as [->|(q & -> & P)]; [congruence|]. apply Qclt_le_trans with (recip_of (Fin q)); [apply qc_inv_pos, P|].
      apply qsum_ge_elem; [|apply in_map, I]. intros y Iy. apply in_map_iff in Iy. destruct Iy as (z & <- & Iz). apply recip_nonneg, H, Iz. }
    exists (qn (length l) / qsum (map recip_of l))%Qc. split; [apply xdivq_fin, Qclt_neq0, SP|]. change (fold_right Qcplus 0%Qc (map recip_of l)) with (qsum (map recip_of l)). apply qc_div_mul, Qclt_neq0, SP.
Qed.
(** A harmonic mean of numbers that are at least 1 is at least 1. *)
Lemma hmean_ge_one l h : is_hmean l h -> (forall x, In x l -> x = PInf \/ exists q, x = Fin q /\ (1 <= q)%Qc) -> xleb (Fin 1) h = true.
Proof.
  intros [H1 H2] H. destruct (existsb (fun x => negb (xeqb x PInf)) l) eqn:E.
  - apply existsb_exists in E. destruct E as (x & I & Ex). destruct H2 as (q & -> & Hq).
    { exists x. split; [exact I|]. intros ->. discriminate. }
    cbn [xleb]. apply qleb_true. change (fold_right Qcplus 0%Qc (map recip_of l)) with (qsum (map recip_of l)) in Hq.
    assert (P01 : (0 < 1)%Qc) by reflexivity.
    assert (B : forall y, In y l -> (0 <= recip_of y <= 1)%Qc).
    { intros y Iy. destruct (H y Iy) as [->|(r & -> & Hr)]; cbn [recip_of]; [split; [apply Qcle_refl | apply Qclt_le_weak, P01]|].
      assert (Pr : (0 < r)%Qc) by (apply Qclt_le_trans with 1%Qc; assumption). split; [apply Qclt_le_weak, qc_inv_pos, Pr|].
      replace (/ r)%Qc with (1 / r)%Qc by (unfold Qcdiv; ring). apply qc_div_le; [exact Pr|]. rewrite Qcmult_1_l. exact Hr. }
    assert (LE : (qsum (map recip_of l) <= qn (length l))%Qc).
    { replace (qn (length l)) with (qsum (map (fun _ : xnum => 1%Qc) l)); [apply qsum_map_le; intros y Iy; apply B, Iy|]. rewrite qsum_map_const. ring. }
    assert (SP : (0 < qsum (map recip_of l))%Qc).
    { destruct (H x I) as [->|(r & -> & Hr)]; [discriminate|]. assert (Pr : (0 < r)%Qc) by (apply Qclt_le_trans with 1%Qc; assumption).
      apply Qclt_le_trans with (recip_of (Fin r)); [apply qc_inv_pos, Pr|]. apply qsum_ge_elem; [|apply in_map, I]. intros y Iy. apply in_map_iff in Iy. destruct Iy as (z & <- & Iz). apply B, Iz. }
    replace q with (qn (length l) / qsum (map recip_of l))%Qc; [|rewrite <- Hq; field; apply Qclt_neq0, SP].
    apply qc_le_div; [exact SP|]. rewrite Qcmult_1_l. exact LE.
  - rewrite H1; [reflexivity|]. intros x I. destruct (xeqb x PInf) eqn:Ex; [apply xeqb_true, Ex|].
    assert (existsb (fun x => negb (xeqb x PInf)) l = true) by (apply existsb_exists; exists x; rewrite Ex; split; [exact I | reflexivity]). congruence.
Qed.

(** ** average measure *)
Lemma product_zero l : product l = 0%Qc <-> In 0%Qc l.
Proof.
  induction l as [|x l IH]; simpl; [split; [discriminate | intros []]|]. split.
  - intro H. apply Qcmult_integral in H. destruct H as [->|H]; [left; reflexivity | right; apply IH, H].
  - intros [->|I]; [ring|]. apply IH in I. fold (product l). rewrite I. ring.
Qed.
Lemma product_nonneg l : (forall x, In x l -> (0 <= x)%Qc) -> (0 <= product l)%Qc.
Proof. induction l as [|x l IH]; intro H; simpl; [discriminate|]. apply qc_mul_nonneg; [apply H; left; reflexivity | apply IH; intros; apply H; right; assumption]. Qed.
Lemma average_zero l : l <> [] -> (forall x, In x l -> (0 <= x)%Qc) -> (average l = 0%Qc <-> forall x, In x l -> x = 0%Qc).
Proof.
  intros NE H. assert (Ln : 0 < length l) by (destruct l; [congruence | simpl; lia]). unfold average. change (fold_right Qcplus 0%Qc l) with (qsum l). split.
  - intro E. apply qsum_zero_nonneg; [exact H|]. rewrite <- (qc_div_mul (qsum l) (qn (length l)) (qn_neq0 _ Ln)), E. ring.
  - intro Z. rewrite <- (map_id l), qsum_map_zero by exact Z. unfold Qcdiv. ring.
Qed.
Lemma avg_measure_lemma : forall o i singvals bin_measure, o <= i -> singvals <> [] -> (forall s x, In s singvals -> In x s -> (0 <= x)%Qc) ->
  exists m, calculate_avg_measure (Some (o, i)) singvals bin_measure = Ok (m, singvals) /\
    (m = PInf <-> forall s, In s singvals -> In 0%Qc s) /\
    (m <> PInf -> exists q, m = Fin q /\ (q * average (map product singvals) = match bin_measure with Some b => b | None => 1 end)%Qc).
Proof.
  intros o i sv b Ho NE H. unfold calculate_avg_measure. replace (i <? o) with false by (symmetry; apply Nat.ltb_ge, Ho).
  change (qmean (map q_prod sv)) with (average (map product sv)).
  assert (Z : average (map product sv) = 0%Qc <-> forall s, In s sv -> In 0%Qc s).
  { rewrite average_zero.
    - split.
      + intros A s Is. apply product_zero, A, in_map, Is.
      + intros A x Ix. apply in_map_iff in Ix. destruct Ix as (s & <- & Is). apply product_zero, A, Is.
    - destruct sv; [congruence | discriminate].
    - intros x Ix. apply in_map_iff in Ix. destruct Ix as (s & <- & Is). apply product_nonneg. intros y Iy. exact (H s y Is Iy). }
  destruct (qeqb (average (map product sv)) 0) eqn:E.
  - apply qeqb_true in E. exists PInf. split; [reflexivity|]. split; [split; [intros _; apply Z, E | reflexivity] | congruence].
  - apply qeqb_false in E. eexists. split; [reflexivity|]. split; [split; [discriminate | intro A; apply Z in A; contradiction]|].
    intros _. eexists. split; [reflexivity|]. apply qc_div_mul, E.
Qed.
(** Scaling all Jacobians by c scales the singular values by c and the measure by c^-o. *)
Lemma product_scale c l : product (map (Qcmult c) l) = (Qcpower c (length l) * product l)%Qc.
Proof. induction l as [|x l IH]; [simpl; ring|]. change (product (map (Qcmult c) (x :: l))) with (c * x * product (map (Qcmult c) l))%Qc. rewrite IH. change (product (x :: l)) with (x * product l)%Qc. cbn [length Qcpower]. ring. Qed.
Lemma avg_measure_scale_lemma : forall o i singvals bin_measure c q, o <= i -> singvals <> [] -> (0 < c)%Qc -> (forall s, In s singvals -> length s = o) ->
  calculate_avg_measure (Some (o, i)) singvals bin_measure = Ok (Fin q, singvals) ->
  calculate_avg_measure (Some (o, i)) (map (map (Qcmult c)) singvals) bin_measure = Ok (Fin (q / Qcpower c o)%Qc, map (map (Qcmult c)) singvals).
Proof.
  intros o i sv b c q Ho NE Hc HL. unfold calculate_avg_measure. replace (i <? o) with false by (symmetry; apply Nat.ltb_ge, Ho).
  change (qmean (map q_prod sv)) with (average (map product sv)). change (qmean (map q_prod (map (map (Qcmult c)) sv))) with (average (map product (map (map (Qcmult c)) sv))).
  assert (PC : (0 < Qcpower c o)%Qc) by (clear -Hc; induction o as [|o IH]; simpl; [reflexivity | apply qc_mul_pos; assumption]).
  assert (E : average (map product (map (map (Qcmult c)) sv)) = (Qcpower c o * average (map product sv))%Qc).
  { unfold average. rewrite !map_length. change (fold_right Qcplus 0%Qc) with qsum. rewrite map_map.
    rewrite (qsum_map_ext (fun s => product (map (Qcmult c) s)) (fun s => Qcpower c o * product s)%Qc).
    - rewrite qsum_map_mul. unfold Qcdiv. ring.
    - intros s Is. rewrite product_scale, (HL s Is). reflexivity. }
  rewrite E. destruct (qeqb (average (map product sv)) 0) eqn:Ez; [discriminate|]. apply qeqb_false in Ez. intro Q. injection Q as <-.
  replace (qeqb (Qcpower c o * average (map product sv)) 0) with false.
  - do 2 f_equal. f_equal. field. split; [exact Ez | apply Qclt_neq0, PC].
  - symmetry. apply qeqb_false. intro Z. apply Qcmult_integral in Z. destruct Z as [Z|Z]; [apply (Qclt_neq0 _ PC Z) | exact (Ez Z)].
Qed.

(** ** average skewness *)
Lemma xmax_fin a b : xmax (Fin a) (Fin b) = Fin (qmax a b).
Proof. unfold xmax, qmax. cbn [is_nan xleb]. destruct (qleb a b); reflexivity. Qed.
Lemma fold_xmax_fin l a : exists m, fold_left xmax (map Fin l) (Fin a) = Fin m /\ In m (a :: l) /\ forall x, In x (a :: l) -> (x <= m)%Qc.
Proof.
  revert a. induction l as [|b l IH]; intro a; cbn [map fold_left].
  - exists a. split; [reflexivity|]. split; [left; reflexivity|]. intros x [<-|[]]. apply Qcle_refl.
  - rewrite xmax_fin. destruct (IH (qmax a b)) as (m & E & I & M). exists m. split; [exact E|].
    assert (Q : qmax a b = a \/ qmax a b = b) by (unfold qmax; destruct (qleb a b); tauto).
    assert (QM : (a <= qmax a b)%Qc /\ (b <= qmax a b)%Qc).
    { unfold qmax. destruct (qleb a b) eqn:L; [apply qleb_true in L | apply qleb_false in L]; split; try apply Qcle_refl; [exact L | apply Qclt_le_weak, L]. }
    split.
    + destruct I as [I|I]; [|right; right; exact I]. rewrite <- I. destruct Q as [-> | ->]; [left; reflexivity | right; left; reflexivity].
    + assert (MM : (qmax a b <= m)%Qc) by (apply M; left; reflexivity).
      intros x [<-|[<-|Ix]]; [eapply Qcle_trans; [apply QM | exact MM] | eapply Qcle_trans; [apply QM | exact MM] | apply M; right; exact Ix].
Qed.
Lemma fold_xmax_top l a : (a = PInf \/ a = NaN) -> (forall x, In x l -> x = PInf \/ x = NaN) -> fold_left xmax l a = PInf \/ fold_left xmax l a = NaN.
Proof.
  revert a. induction l as [|b l IH]; intros a Ha Hl; cbn [fold_left]; [exact Ha|]. apply IH; [|intros; apply Hl; right; assumption].
  destruct Ha as [-> | ->]; destruct (Hl b (or_introl eq_refl)) as [-> | ->]; cbn; tauto.
Qed.
Lemma skew_center_lemma c : geometric c -> is_skewness c (skew_center c).
Proof.
  destruct c as [mg es]. intros (NE & P & H). cbn [fst snd] in *. unfold skew_center. cbn [fst snd]. split; cbn [fst snd].
  - intros ->. destruct es as [|e es]; [congruence|]. cbn [map xlist_max].
    assert (T : forall x, In x (e :: es) -> skew_entry 0 (fst x) (snd x) = PInf \/ skew_entry 0 (fst x) (snd x) = NaN).
    { intros x Ix. unfold skew_entry, xdivq. destruct (qeqb (fst x) 0) eqn:E; [right; reflexivity|]. left. replace (0 / fst x)%Qc with 0%Qc by (unfold Qcdiv; ring). reflexivity. }
    destruct (fold_xmax_top (map (fun e0 => skew_entry 0 (fst e0) (snd e0)) es) (skew_entry 0 (fst e) (snd e))) as [E|E].
    + apply T. left. reflexivity.
    + intros x Ix. apply in_map_iff in Ix. destruct Ix as (y & <- & Iy). apply T. right. exact Iy.
    + rewrite E. reflexivity.
    + rewrite E. reflexivity.
  - intro Z. assert (Pm : (0 < mg)%Qc) by (destruct (Qcle_lt_or_eq _ _ P) as [?|E]; [assumption | congruence]).
    assert (Q : forall e, In e es -> skew_entry mg (fst e) (snd e) = Fin (snd e * fst e / mg)%Qc).
    { intros e Ie. destruct (H e Ie) as (P1 & Z1 & _). assert (NZ : fst e <> 0%Qc) by (intro E; apply Z, Z1, E). unfold skew_entry. rewrite xdivq_fin by exact NZ.
      replace (qeqb (mg / fst e) 0) with false; [f_equal; field; split; assumption|]. symmetry. apply qeqb_false. intro E. apply Z. rewrite <- (qc_div_mul mg (fst e) NZ), E. ring. }
    rewrite (map_ext_in _ (fun e => Fin (snd e * fst e / mg)%Qc)) by exact Q. rewrite <- (map_map (fun e => (snd e * fst e / mg)%Qc) Fin).
    destruct es as [|e es]; [congruence|]. cbn [map xlist_max]. destruct (fold_xmax_fin (map (fun e0 => (snd e0 * fst e0 / mg)%Qc) es) (snd e * fst e / mg)%Qc) as (m & E & I & M).
    rewrite E. cbn [is_nan]. exists m. split; [reflexivity|]. split.
    + change (In m (map (fun e0 => (snd e0 * fst e0 / mg)%Qc) (e :: es))) in I. apply in_map_iff in I. destruct I as (x & <- & Ix). exists x. split; [exact Ix | apply qc_div_mul, Z].
    + intros x Ix. assert (L : (snd x * fst x / mg <= m)%Qc) by (apply M; exact (in_map (fun e0 => (snd e0 * fst e0 / mg)%Qc) (e :: es) x Ix)).
      rewrite <- (qc_div_mul (snd x * fst x) mg Z). apply Qcmult_le_compat_r; [exact L | exact P].
Qed.
Lemma skewness_ge_one c s : geometric c -> is_skewness c s -> s = PInf \/ exists q, s = Fin q /\ (1 <= q)%Qc.
Proof.
  destruct c as [mg es]. intros (NE & P & H) [S1 S2]. cbn [fst snd] in *. destruct (Qc_eq_dec mg 0) as [Z|Z]; [left; exact (S1 Z)|]. right.
  destruct (S2 Z) as (q & -> & (e & Ie & Eq) & _). exists q. split; [reflexivity|]. assert (Pm : (0 < mg)%Qc) by (destruct (Qcle_lt_or_eq _ _ P) as [?|E]; [assumption | congruence]).
  destruct (H e Ie) as (_ & _ & L). rewrite <- Eq in L. replace q with (q * mg / mg)%Qc by (field; exact Z). apply qc_le_div; [exact Pm|]. rewrite Qcmult_1_l. exact L.
Qed.
Lemma avg_skewness_lemma : forall o i centers, o <= i -> centers <> [] -> (forall c, In c centers -> geometric c) ->
  exists h skews, calculate_avg_skewness (Some (o, i)) centers = Ok h /\ Forall2 is_skewness centers skews /\ is_hmean skews h /\
    (h = PInf <-> forall c, In c centers -> fst c = 0%Qc) /\ xleb (Fin 1) h = true.
Proof.
  intros o i cs Ho NE H. unfold calculate_avg_skewness. replace (i <? o) with false by (symmetry; apply Nat.ltb_ge, Ho).
  assert (SK : forall c, In c cs -> is_skewness c (skew_center c)) by (intros; apply skew_center_lemma, H; assumption).
  assert (G1 : forall x, In x (map skew_center cs) -> x = PInf \/ exists q, x = Fin q /\ (1 <= q)%Qc).
  { intros x Ix. apply in_map_iff in Ix. destruct Ix as (c & <- & Ic). apply (skewness_ge_one c); auto. }
  destruct (hmean_lemma (map skew_center cs)) as (h & E & M).
  - destruct cs; [congruence | discriminate].
  - intros x Ix. destruct (G1 x Ix) as [->|(q & -> & L)]; [left; reflexivity|]. right. exists q. split; [reflexivity|]. apply Qclt_le_trans with 1%Qc; [reflexivity | exact L].
  - exists h, (map skew_center cs). split; [exact E|]. split; [|split; [exact M | split; [split|]]].
    + clear -SK. induction cs as [|c cs IH]; cbn [map]; constructor; [apply SK; left; reflexivity | apply IH; intros; apply SK; right; assumption].
    + intros -> c Ic. destruct (Qc_eq_dec (fst c) 0) as [Z|Z]; [exact Z|]. exfalso. destruct (proj2 (SK c Ic) Z) as (q & Eq & _).
      destruct (proj2 M) as (q' & Eq' & _); [|discriminate]. exists (skew_center c). split; [apply in_map, Ic | rewrite Eq; discriminate].
    + intro A. apply (proj1 M). intros x Ix. apply in_map_iff in Ix. destruct Ix as (c & <- & Ic). apply (proj1 (SK c Ic)), A, Ic.
    + exact (hmean_ge_one _ _ M G1).
Qed.

(** ** average condition number *)
Lemma last_map {A B} (f : A -> B) l d : last (map f l) (f d) = f (last l d).
Proof. induction l as [|x l IH]; [reflexivity|]. simpl. destruct l; [reflexivity | exact IH]. Qed.
Lemma last_app_one {A} (l : list A) x d : last (l ++ [x]) d = x.
Proof. apply last_last. Qed.
Lemma cond_lemma s : 2 <= length s -> is_condnum s (cond_of (overwrite s)).
Proof.
  intro L. destruct s as [|x [|y r]]; try (simpl in L; lia). unfold overwrite. split.
  - intros ->. replace (qeqb 0 0) with true by reflexivity. change (map Fin (y :: r)) with (Fin y :: map Fin r). unfold cond_of. rewrite last_app_one.
    change (removelast (PInf :: Fin y :: map Fin r)) with (PInf :: removelast (Fin y :: map Fin r)). reflexivity.
  - intro Z. replace (qeqb (last (x :: y :: r) 0%Qc) 0) with false by (symmetry; apply qeqb_false, Z). unfold cond_of.
    assert (E : last (map Fin (x :: y :: r)) NaN = Fin (last (x :: y :: r) 0%Qc)).
    { clear. revert x y. induction r as [|a r IH]; intros x y; [reflexivity|]. exact (IH y a). }
    rewrite E. cbn [nth map]. apply xdivq_fin, Z.
Qed.
Lemma condnum_lemma : forall o i singvals, 2 <= o -> o <= i -> singvals <> [] -> (forall s, In s singvals -> length s = o /\ forall x, In x s -> (0 <= x <= nth 0 s 0)%Qc) ->
  exists h out conds, calculate_avg_condnum (Some (o, i)) singvals = Ok (h, out) /\ Forall2 is_condnum singvals conds /\ is_hmean conds h.
Proof.
  intros o i sv Ho Hi NE H. unfold calculate_avg_condnum. replace (i <? o) with false by (symmetry; apply Nat.ltb_ge, Hi). replace (o =? 0) with false by (symmetry; apply Nat.eqb_neq; lia).
  assert (CD : forall s, In s sv -> is_condnum s (cond_of (overwrite s))) by (intros s Is; apply cond_lemma; destruct (H s Is) as [-> _]; exact Ho).
  assert (F : Forall2 is_condnum sv (map (fun s => cond_of (overwrite s)) sv)).
  { clear -CD. induction sv as [|c cs IH]; cbn [map]; constructor; [apply CD; left; reflexivity | apply IH; intros; apply CD; right; assumption]. }
  destruct (forallb (fun s => qeqb (last s 0%Qc) 0) sv) eqn:E.
  - eexists _, _, _. split; [reflexivity|]. split; [exact F|].
    assert (A : forall x, In x (map (fun s => cond_of (overwrite s)) sv) -> x = PInf).
    { intros x Ix. apply in_map_iff in Ix. destruct Ix as (s & <- & Is). apply (proj1 (CD s Is)). rewrite forallb_forall in E. apply qeqb_true, E, Is. }
    split; [reflexivity|]. intros (x & Ix & Hx). exfalso. exact (Hx (A x Ix)).
  - destruct (hmean_lemma (map (fun s => cond_of (overwrite s)) sv)) as (h & Eh & M).
    + destruct sv; [congruence | discriminate].
    + intros x Ix. apply in_map_iff in Ix. destruct Ix as (s & <- & Is). destruct (CD s Is) as [C1 C2]. destruct (Qc_eq_dec (last s 0%Qc) 0) as [Z|Z]; [left; exact (C1 Z)|]. right.
      exists (nth 0 s 0 / last s 0)%Qc. split; [exact (C2 Z)|].
      destruct (H s Is) as [Ls B]. assert (In (last s 0%Qc) s).
      { destruct (exists_last (l := s)) as (s0 & y & ->); [intros ->; simpl in Ls; lia|]. rewrite last_last. apply in_or_app. right. left. reflexivity. }
      destruct (B _ H0) as [B1 B2]. assert (PL : (0 < last s 0)%Qc) by (destruct (Qcle_lt_or_eq _ _ B1) as [?|Q]; [assumption | congruence]).
      apply qc_div_pos; [apply Qclt_le_trans with (last s 0%Qc); assumption | exact PL].
    + rewrite Eh. cbn [bind]. eexists _, _, _. split; [reflexivity|]. split; [exact F | exact M].
Qed.
Lemma condnum_regular_lemma : forall o i singvals h out, (forall s, In s singvals -> last s 0 <> 0)%Qc ->
  calculate_avg_condnum (Some (o, i)) singvals = Ok (h, out) -> out = map (map Fin) singvals.
Proof.
  intros o i sv h out H. unfold calculate_avg_condnum. destruct (i <? o); [discriminate|]. destruct (o =? 0); [discriminate|].
  destruct (forallb _ sv); [intro E; injection E as _ <-; reflexivity|]. destruct (hmean _); [|discriminate]. cbn [bind]. intro E. injection E as _ <-.
  apply map_ext_in. intros s Is. unfold overwrite. destruct s as [|x r]; [reflexivity|]. replace (qeqb (last (x :: r) 0%Qc) 0) with false; [reflexivity|]. symmetry. apply qeqb_false, H, Is.
Qed.
(** A center where the smallest singular value is 0 comes back changed as soon as
    some other center is regular. *)
Lemma condnum_changed_lemma : forall o i singvals h out k s, calculate_avg_condnum (Some (o, i)) singvals = Ok (h, out) ->
  nth_error singvals k = Some s -> s <> [] -> (last s 0 = 0)%Qc -> (exists s', In s' singvals /\ (last s' 0 <> 0)%Qc) ->
  exists s2, nth_error out k = Some s2 /\ last s2 NaN = Fin 1.
Proof.
  intros o i sv h out k s E Hk NE Z (s' & Is & NZ). unfold calculate_avg_condnum in E. destruct (i <? o); [discriminate|]. destruct (o =? 0); [discriminate|].
  replace (forallb (fun s0 => qeqb (last s0 0%Qc) 0) sv) with false in E.
  - destruct (hmean _); [|discriminate]. cbn [bind] in E. injection E as _ <-. exists (overwrite s). split; [rewrite nth_error_map, Hk; reflexivity|].
    unfold overwrite. destruct s as [|x r]; [congruence|]. rewrite Z. replace (qeqb 0 0) with true by reflexivity. apply last_last.
  - symmetry. apply Bool.not_true_is_false. intro A. rewrite forallb_forall in A. apply NZ, qeqb_true, A, Is.
Qed.
