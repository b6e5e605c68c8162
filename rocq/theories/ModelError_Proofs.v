From Coq Require Import ZArith List Arith Lia Bool QArith Qcanon Permutation.
From Verif Require Import Err Num Ext NumPy Lists Query_Proofs Prob_Model Prob_Spec Prob_Proofs Error_Model Error_Spec Error_Proofs.
Import ListNotations.
Local Open Scope nat_scope.

(** * Contour events *)
Lemma vsum_concat f blocks : vsum f blocks = qsum (map snd (filter f (concat blocks))).
Proof. unfold vsum. induction blocks as [|b r IH]; simpl; [reflexivity|]. rewrite filter_app, map_app, qsum_app, IH. reflexivity. Qed.
Lemma vol_where_nonneg f S : (forall s, In s S -> (0 <= snd s)%Qc) -> (0 <= vol_where f S)%Qc.
Proof.
  intro H. apply qsum_nonneg. intros x Hx. apply in_map_iff in Hx. destruct Hx as (s & <- & Hs). apply filter_In in Hs. apply H, Hs.
Qed.
Lemma vol_where_le f g S : (forall s, In s S -> (0 <= snd s)%Qc) -> (forall a b, f a b = true -> g a b = true) ->
  (vol_where f S <= vol_where g S)%Qc.
Proof.
  intros H Hfg. unfold vol_where. induction S as [|[[a b] v] S IH]; simpl; [apply Qcle_refl|].
  assert (IH' := IH (fun s Hs => H s (or_intror Hs))). assert (Hv : (0 <= v)%Qc) by (apply (H (a, b, v)); left; reflexivity).
  destruct (f a b) eqn:E.
  - rewrite (Hfg _ _ E). simpl. clear - IH'. qc_lra.
  - destruct (g a b); simpl; [|exact IH']. clear - IH' Hv. qc_lra.
Qed.
Lemma vol_where_eq f g S : (forall s, In s S -> f (fst (fst s)) (snd (fst s)) = g (fst (fst s)) (snd (fst s))) -> vol_where f S = vol_where g S.
Proof. intro H. unfold vol_where. f_equal. f_equal. apply filter_ext_in. exact H. Qed.

Lemma model_contours_nth blocks probs i p : nth_error probs i = Some p ->
  nth_error (model_error_contours blocks probs) i = Some (model_error_entry blocks i p).
Proof. intro H. unfold model_error_contours. rewrite nth_error_map, (enum_nth _ _ _ H). reflexivity. Qed.

Lemma model_entry_value blocks i p : model_error_entry blocks i p =
  let S := concat blocks in
  if qltb 0 p then xmul (Fin p) (xdivq (vol_before S i * vol_after S i - vol_kept S i * vol_before S i) (vol_before S i * vol_after S i))%Qc
  else Fin 0%Qc.
Proof. unfold model_error_entry. rewrite !vsum_concat. reflexivity. Qed.

Lemma model_error_lemma blocks probs i p : (forall s, In s (concat blocks) -> (0 <= snd s)%Qc) -> nth_error probs i = Some p ->
  ((p <= 0)%Qc -> nth_error (model_error_contours blocks probs) i = Some (Fin 0%Qc)) /\
  ((0 < p)%Qc -> (0 < vol_before (concat blocks) i)%Qc -> (0 < vol_after (concat blocks) i)%Qc -> exists er,
     nth_error (model_error_contours blocks probs) i = Some (Fin er) /\
     er = (p * (1 - vol_kept (concat blocks) i / vol_after (concat blocks) i))%Qc /\ (0 <= er)%Qc /\ (er <= p)%Qc /\
     ((forall s, In s (concat blocks) -> snd (fst s) = i -> fst (fst s) = i) -> er = 0%Qc)) /\
  ((0 < p)%Qc -> (vol_before (concat blocks) i = 0%Qc \/ vol_after (concat blocks) i = 0%Qc) ->
     nth_error (model_error_contours blocks probs) i = Some NaN).
Proof.
  intros Hn Hi. rewrite (model_contours_nth _ _ _ _ Hi), model_entry_value. cbv zeta. set (S := concat blocks) in *.
  split; [|split].
  - intro H. replace (qltb 0 p) with false by (symmetry; apply qltb_false; exact H). reflexivity.
  - intros H Hb Ha. replace (qltb 0 p) with true by (symmetry; apply qltb_true; exact H).
    assert (Pba : (0 < vol_before S i * vol_after S i)%Qc) by (apply qc_mul_pos; assumption).
    rewrite xdivq_fin by (apply Qclt_neq0; exact Pba). cbn [xmul].
    assert (E : ((vol_before S i * vol_after S i - vol_kept S i * vol_before S i) / (vol_before S i * vol_after S i) = 1 - vol_kept S i / vol_after S i)%Qc).
    { field. split; apply Qclt_neq0; assumption. }
    rewrite E. eexists. split; [reflexivity|]. split; [reflexivity|].
    assert (K0 : (0 <= vol_kept S i)%Qc) by (apply vol_where_nonneg; exact Hn).
    assert (K1 : (vol_kept S i <= vol_after S i)%Qc).
    { apply vol_where_le; [exact Hn|]. intros a b Hab. apply andb_true_iff in Hab. apply Hab. }
    assert (Q0 : (0 <= vol_kept S i / vol_after S i)%Qc) by (apply qc_div_nonneg; assumption).
    assert (Q1 : (vol_kept S i / vol_after S i <= 1)%Qc) by (apply qc_div_le; [exact Ha|]; clear - K1; qc_lra).
    set (q := (vol_kept S i / vol_after S i)%Qc) in *. clear - H Q0 Q1 Ha q Hn. split; [|split].
    + qc_nra.
    + qc_nra.
    + intro M. assert (q = 1%Qc) as ->; [|ring]. unfold q.
      assert (vol_kept S i = vol_after S i) as ->.
      { apply vol_where_eq. intros s Hs. destruct (snd (fst s) =? i) eqn:E; [|apply andb_false_r].
        apply Nat.eqb_eq in E. rewrite (M s Hs E), Nat.eqb_refl. reflexivity. }
      field. apply Qclt_neq0. exact Ha.
  - intros H Hz. replace (qltb 0 p) with true by (symmetry; apply qltb_true; exact H).
    assert (vol_before S i * vol_after S i = 0)%Qc as Z0 by (destruct Hz as [-> | ->]; ring). rewrite Z0.
    assert (vol_kept S i * vol_before S i = 0)%Qc as Z1.
    { destruct Hz as [Z|Z]; [rewrite Z; ring|].
      assert (vol_kept S i = 0)%Qc as ->; [|ring]. apply Qcle_antisym.
      - rewrite <- Z. apply vol_where_le; [exact Hn|]. intros a b Hab. apply andb_true_iff in Hab. apply Hab.
      - apply vol_where_nonneg. exact Hn. }
    rewrite Z1. reflexivity.
Qed.

Lemma model_error_split blocks blocks' probs : concat blocks = concat blocks' -> model_error_contours blocks probs = model_error_contours blocks' probs.
Proof. intro H. unfold model_error_contours. apply map_ext. intros [i p]. cbn [fst snd]. rewrite !model_entry_value, H. reflexivity. Qed.

(** * Regions *)
Definition contrib_q (blocks : list (list epoint)) (ip : nat * Qc) : Qc :=
  if qltb 0 (snd ip) then match contribution blocks (fst ip) (snd ip) with Some c => c | None => 0%Qc end else 0%Qc.
Lemma region_error_sum blocks ips : (forall i p, In (i, p) ips -> (0 < p)%Qc -> contribution blocks i p <> None) -> forall acc,
  region_error_loop blocks ips acc = Ok (acc + qsum (map (contrib_q blocks) ips))%Qc.
Proof.
  induction ips as [|[i p] ips IH]; intros H acc; simpl.
  - f_equal. ring.
  - assert (H' : forall i p, In (i, p) ips -> (0 < p)%Qc -> contribution blocks i p <> None) by (intros; eapply H; [right; eassumption|assumption]).
    unfold contrib_q at 1. cbn [fst snd]. destruct (qltb 0 p) eqn:E.
    + apply qltb_true in E. specialize (H i p (or_introl eq_refl) E). destruct (contribution blocks i p) as [c|]; [|congruence].
      rewrite (IH H'). f_equal. ring.
    + rewrite (IH H'). f_equal. ring.
Qed.
Lemma region_error_none blocks ips : (exists i p, In (i, p) ips /\ (0 < p)%Qc /\ contribution blocks i p = None) -> forall acc,
  region_error_loop blocks ips acc = Raise PyZeroDivision.
Proof.
  induction ips as [|[i p] ips IH]; intros (j & q & Hin & Hq & Hc) acc; [destruct Hin|]. simpl. destruct Hin as [Hin|Hin].
  - injection Hin as -> ->. replace (qltb 0 q) with true by (symmetry; apply qltb_true; exact Hq). rewrite Hc. reflexivity.
  - assert (exists i p, In (i, p) ips /\ (0 < p)%Qc /\ contribution blocks i p = None) as X by eauto.
    destruct (qltb 0 p); [destruct (contribution blocks i p); [|reflexivity]|]; apply IH; exact X.
Qed.

Lemma mark_concat labels r pts : concat (mark labels r pts) = map (fun e => mk_ep (in_region labels r e) (snd (fst e)) (snd e)) (concat pts).
Proof. unfold mark. apply concat_map_map'. Qed.
Lemma count_mark labels r pts f : count f (mark labels r pts) =
  length (filter (fun e => f (mk_ep (in_region labels r e) (snd (fst e)) (snd e))) (concat pts)).
Proof. rewrite count_concat, mark_concat, filter_map_comm, map_length. reflexivity. Qed.

Lemma filter_pos {A} (f : A -> bool) l : (exists e, In e l /\ f e = true) <-> 0 < length (filter f l).
Proof.
  split.
  - intros (e & Hin & E). assert (In e (filter f l)) by (apply filter_In; auto). destruct (filter f l); [easy|simpl; lia].
  - intro H. destruct (filter f l) as [|e r] eqn:E; [simpl in H; lia|]. exists e. apply filter_In. rewrite E. left. reflexivity.
Qed.
Lemma contribution_mark labels r pts i p :
  contribution (mark labels r pts) i p =
  if (length (filter (before i) (concat pts)) * length (filter (after i) (concat pts)) =? 0) then None
  else Some (exchange labels r (concat pts) i p).
Proof.
  unfold contribution. rewrite !count_mark. unfold in1, in2. cbn [in_A cell1 cell2].
  fold (before i) (after i). destruct (_ =? 0) eqn:E; [reflexivity|]. f_equal. unfold exchange, npoints.
  apply Nat.eqb_neq in E. f_equal.
  change (fun e : nat * nat * nat => snd (fst e) =? i) with (before i).
  change (fun e : nat * nat * nat => snd e =? i) with (after i).
  change (fun e : nat * nat * nat => in_region labels r e && (snd (fst e) =? i)) with (fun e => in_region labels r e && before i e).
  change (fun e : nat * nat * nat => in_region labels r e && (snd e =? i)) with (fun e => in_region labels r e && after i e).
  field. split; apply qn_neq0; nia.
Qed.
Lemma present_contribution labels r probs pts : all_present probs (concat pts) ->
  forall i p, In (i, p) (combine (seq 0 (length probs)) probs) -> (0 < p)%Qc -> contribution (mark labels r pts) i p <> None.
Proof.
  intros H i p Hin Hp. apply in_enum in Hin. destruct (H i p Hin Hp) as [H1 H2]. apply filter_pos in H1, H2.
  rewrite contribution_mark. destruct (_ =? 0) eqn:E; [|discriminate]. apply Nat.eqb_eq in E. nia.
Qed.
Definition total_exchange (labels : list Z) (r : Z) (pts : list (nat * nat * nat)) (probs : list Qc) : Qc :=
  qsum (map (fun ip => if qltb 0 (snd ip) then exchange labels r pts (fst ip) (snd ip) else 0%Qc) (combine (seq 0 (length probs)) probs)).
Lemma contrib_exchange labels r probs pts : all_present probs (concat pts) ->
  map (contrib_q (mark labels r pts)) (combine (seq 0 (length probs)) probs) =
  map (fun ip => if qltb 0 (snd ip) then exchange labels r (concat pts) (fst ip) (snd ip) else 0%Qc) (combine (seq 0 (length probs)) probs).
Proof.
  intro H. apply map_ext_in. intros [i p] Hin. unfold contrib_q. cbn [fst snd]. destruct (qltb 0 p) eqn:E; [|reflexivity].
  apply qltb_true in E. pose proof (present_contribution labels r probs pts H i p Hin E) as N. rewrite contribution_mark in *.
  destruct (_ =? 0); [congruence|reflexivity].
Qed.
Lemma region_exists_in labels r : In r labels -> region_exists labels r = true.
Proof. intro H. apply existsb_exists. exists r. split; [exact H|]. apply Z.eqb_refl. Qed.
Lemma region_value labels r probs pts : In r labels -> all_present probs (concat pts) ->
  sample_set_region labels r probs pts = Ok (total_exchange labels r (concat pts) probs).
Proof.
  intros Hr H. unfold sample_set_region. rewrite (region_exists_in _ _ Hr). unfold region_error.
  rewrite (region_error_sum _ _ (present_contribution labels r probs pts H)). f_equal. rewrite (contrib_exchange _ _ _ _ H). unfold total_exchange. ring.
Qed.
Lemma region_defined labels r probs pts : In r labels -> ~ all_present probs (concat pts) ->
  sample_set_region labels r probs pts = Raise PyZeroDivision.
Proof.
  intros Hr H. unfold sample_set_region. rewrite (region_exists_in _ _ Hr). apply region_error_none.
  destruct (existsb (fun ip => qltb 0 (snd ip) && match contribution (mark labels r pts) (fst ip) (snd ip) with None => true | Some _ => false end)
     (combine (seq 0 (length probs)) probs)) eqn:E.
  - apply existsb_exists in E. destruct E as ([i p] & Hin & E). cbn [fst snd] in E. apply andb_true_iff in E. destruct E as [E1 E2].
    exists i, p. split; [exact Hin|]. split; [apply qltb_true; exact E1|]. destruct (contribution (mark labels r pts) i p); [discriminate|reflexivity].
  - exfalso. apply H. intros i p Hi Hp.
    assert (~ (length (filter (before i) (concat pts)) * length (filter (after i) (concat pts)) = 0)) as N.
    { intro Z. apply not_true_iff_false in E. apply E. apply existsb_exists. exists (i, p). split; [apply in_enum; exact Hi|]. cbn [fst snd].
      rewrite (proj2 (qltb_true 0 p) Hp), contribution_mark, Z. reflexivity. }
    rewrite !filter_pos. nia.
Qed.

Lemma in_region_split labels (rs : list Z) (f : nat * nat * nat -> bool) pts :
  NoDup rs -> (forall e, In e pts -> exists l, nth_error labels (fst (fst e)) = Some l /\ In l rs) ->
  qsum (map (fun r => npoints (fun e => in_region labels r e && f e) pts) rs) = npoints f pts.
Proof.
  intros Hd. induction pts as [|e pts IH]; intro H.
  - unfold npoints. simpl. rewrite qn_0. apply qsum_map_zero. reflexivity.
  - assert (IH' := IH (fun e He => H e (or_intror He))).
    destruct (H e (or_introl eq_refl)) as (l & El & Hl).
    assert (Hone : qsum (map (fun r => if in_region labels r e && f e then 1%Qc else 0%Qc) rs) = if f e then 1%Qc else 0%Qc).
    { clear - Hd El Hl. unfold in_region. rewrite El. destruct (f e).
      - induction rs as [|r rs IH]; [destruct Hl|]. inversion Hd as [|? ? N Hd']; subst. simpl.
        rewrite andb_true_r. destruct (Z.eqb_spec l r) as [->|Ne].
        + match goal with |- (1 + ?X = 1)%Qc => replace X with 0%Qc; [ring|] end. symmetry. apply qsum_map_zero. intros x Hx. rewrite andb_true_r.
          destruct (Z.eqb_spec r x) as [->|_]; [contradiction|reflexivity].
        + destruct Hl as [Hl|Hl]; [congruence|]. rewrite IH by assumption. ring.
      - apply qsum_map_zero. intros r _. rewrite andb_false_r. reflexivity. }
    assert (Hc : forall g : nat * nat * nat -> bool, npoints g (e :: pts) = ((if g e then 1 else 0) + npoints g pts)%Qc).
    { intro g. unfold npoints. simpl. destruct (g e); simpl; [rewrite qn_S; ring|ring]. }
    rewrite Hc, <- IH', <- Hone, <- qsum_map_add. f_equal. apply map_ext. intro r. apply Hc.
Qed.

Lemma exchange_zero_sum labels rs pts i p : NoDup rs -> (forall e, In e pts -> exists l, nth_error labels (fst (fst e)) = Some l /\ In l rs) ->
  (exists e, In e pts /\ before i e = true) -> (exists e, In e pts /\ after i e = true) ->
  qsum (map (fun r => exchange labels r pts i p) rs) = 0%Qc.
Proof.
  intros Hd H H1 H2. apply filter_pos in H1, H2.
  assert (N1 : npoints (before i) pts <> 0%Qc) by (apply qn_neq0; exact H1).
  assert (N2 : npoints (after i) pts <> 0%Qc) by (apply qn_neq0; exact H2).
  pose proof (in_region_split labels rs (before i) pts Hd H) as S1. pose proof (in_region_split labels rs (after i) pts Hd H) as S2.
  unfold exchange. rewrite qsum_map_mul, qsum_map_sub, !qsum_map_div, S1, S2.
  assert (forall x : Qc, x <> 0%Qc -> (x / x = 1)%Qc) as Hx by (intros x Nx; field; exact Nx).
  rewrite !Hx by assumption. ring.
Qed.

Lemma regions_cancel labels rs probs pts : NoDup rs -> (forall r, In r rs -> In r labels) ->
  (forall e, In e (concat pts) -> exists l, nth_error labels (fst (fst e)) = Some l /\ In l rs) ->
  all_present probs (concat pts) ->
  exists est, (forall r, In r rs -> sample_set_region labels r probs pts = Ok (est r)) /\ qsum (map est rs) = 0%Qc.
Proof.
  intros Hd Hl H Hp. exists (fun r => total_exchange labels r (concat pts) probs). split.
  - intros r Hr. apply region_value; auto.
  - unfold total_exchange. rewrite qsum_swap. apply qsum_map_zero. intros [i p] Hin. cbn [fst snd].
    destruct (qltb 0 p) eqn:E; [|apply qsum_map_zero; reflexivity]. apply qltb_true in E. apply in_enum in Hin. destruct (Hp i p Hin E) as [P1 P2].
    apply exchange_zero_sum; assumption.
Qed.

Lemma exchange_bound labels r pts i p : (0 < p)%Qc -> (exists e, In e pts /\ before i e = true) -> (exists e, In e pts /\ after i e = true) ->
  (qabs (exchange labels r pts i p) <= p)%Qc.
Proof.
  intros Hp H1 H2. apply filter_pos in H1, H2. unfold exchange.
  assert (F : forall f, 0 < length (filter f pts) -> (0 <= npoints (fun e => in_region labels r e && f e) pts / npoints f pts)%Qc /\
     (npoints (fun e => in_region labels r e && f e) pts / npoints f pts <= 1)%Qc).
  { intros f Hf. assert (0 < npoints f pts)%Qc by (apply qn_pos; exact Hf). split.
    - apply qc_div_nonneg; [apply qn_nonneg|assumption].
    - apply qc_div_le; [assumption|]. rewrite Qcmult_1_l. apply qn_le.
      clear. induction pts as [|e l IH]; simpl; [lia|]. destruct (in_region labels r e), (f e); simpl; lia. }
  destruct (F _ H1) as [A1 A2]. destruct (F _ H2) as [B1 B2].
  revert A1 A2 B1 B2. generalize (npoints (fun e => in_region labels r e && before i e) pts / npoints (before i) pts)%Qc as a.
  generalize (npoints (fun e => in_region labels r e && after i e) pts / npoints (after i) pts)%Qc as b. intros b a A1 A2 B1 B2.
  clear - Hp A1 A2 B1 B2. apply qabs_le. split; qc_nra.
Qed.
Lemma region_bounded labels r probs pts est : nonneg probs -> all_present probs (concat pts) ->
  sample_set_region labels r probs pts = Ok est -> (qabs est <= qsum probs)%Qc.
Proof.
  intros Hn Hp E. unfold sample_set_region in E. destruct (region_exists labels r) eqn:Er; [|discriminate].
  assert (Hr : In r labels) by (apply existsb_exists in Er; destruct Er as (x & Hx & Ex); apply Z.eqb_eq in Ex; subst; exact Hx).
  pose proof (region_value labels r probs pts Hr Hp) as V. unfold sample_set_region in V. rewrite Er in V. rewrite E in V. injection V as ->.
  unfold total_exchange. eapply Qcle_trans; [apply qsum_abs|]. rewrite map_map.
  assert (Ep : probs = map snd (combine (seq 0 (length probs)) probs)) by (rewrite combine_snd; [reflexivity|rewrite seq_length; reflexivity]).
  rewrite Ep at 3. apply qsum_map_le. intros [i p] Hin. cbn [fst snd]. apply in_enum in Hin.
  destruct (qltb 0 p) eqn:E0.
  - apply qltb_true in E0. destruct (Hp i p Hin E0). apply exchange_bound; assumption.
  - rewrite qabs_pos_eq by apply Qcle_refl. apply Hn. eapply nth_error_In, Hin.
Qed.
Lemma region_no_change labels r probs pts : In r labels -> all_present probs (concat pts) -> (forall e, In e (concat pts) -> snd (fst e) = snd e) ->
  sample_set_region labels r probs pts = Ok 0%Qc.
Proof.
  intros Hr Hp H. rewrite (region_value labels r probs pts Hr Hp). f_equal. unfold total_exchange. apply qsum_map_zero. intros [i p] _. cbn [fst snd]. destruct (qltb 0 p); [|reflexivity].
  unfold exchange. assert (forall g : nat * nat * nat -> bool, npoints (fun e => g e && after i e) (concat pts) = npoints (fun e => g e && before i e) (concat pts)) as G.
  { intro g. unfold npoints. f_equal. f_equal. apply filter_ext_in. intros e He. unfold before, after. rewrite (H e He). reflexivity. }
  pose proof (G (fun _ => true)) as G1. cbn [andb] in G1.
  rewrite G. change (fun e : nat * nat * nat => after i e) with (after i) in G1. change (fun e : nat * nat * nat => before i e) with (before i) in G1. rewrite G1. ring.
Qed.

(** * The Monte Carlo version *)
Lemma mc_value blocks ips : (forall i p, In (i, p) ips -> (0 < p)%Qc -> contribution blocks i p <> None) -> forall acc ids,
  fst (region_mc_loop blocks ips (Fin acc) ids) = Fin (acc + qsum (map (contrib_q blocks) ips))%Qc.
Proof.
  induction ips as [|[i p] ips IH]; intros H acc ids; simpl.
  - f_equal. ring.
  - assert (H' : forall i p, In (i, p) ips -> (0 < p)%Qc -> contribution blocks i p <> None) by (intros; eapply H; [right; eassumption|assumption]).
    unfold contrib_q at 1. cbn [fst snd]. destruct (qltb 0 p) eqn:E.
    + apply qltb_true in E. specialize (H i p (or_introl eq_refl) E). destruct (contribution blocks i p) as [c|]; [|congruence].
      cbn [xadd]. rewrite (IH H'). f_equal. ring.
    + rewrite (IH H'). f_equal. ring.
Qed.
Lemma mc_inf_stays blocks ips : forall ids, fst (region_mc_loop blocks ips PInf ids) = PInf.
Proof.
  induction ips as [|[i p] ips IH]; intro ids; simpl; [reflexivity|]. destruct (qltb 0 p); [|apply IH].
  destruct (contribution blocks i p); apply IH.
Qed.
Lemma mc_inf blocks ips : (exists i p, In (i, p) ips /\ (0 < p)%Qc /\ contribution blocks i p = None) -> forall acc ids,
  fst (region_mc_loop blocks ips (Fin acc) ids) = PInf.
Proof.
  induction ips as [|[i p] ips IH]; intros (j & q & Hin & Hq & Hc) acc ids; [destruct Hin|]. simpl. destruct Hin as [Hin|Hin].
  - injection Hin as -> ->. replace (qltb 0 q) with true by (symmetry; apply qltb_true; exact Hq). rewrite Hc. cbn [xadd]. apply mc_inf_stays.
  - assert (exists i p, In (i, p) ips /\ (0 < p)%Qc /\ contribution blocks i p = None) as X by eauto.
    destruct (qltb 0 p); [|apply IH; exact X]. destruct (contribution blocks i p); cbn [xadd]; [apply IH; exact X|apply mc_inf_stays].
Qed.

Lemma error_cell_diff i e : error_cell i e = negb (eqb (in1 i e) (in2 i e)).
Proof. unfold error_cell. destruct (in_A e), (in1 i e), (in2 i e); reflexivity. Qed.
Lemma no_error_cells blocks i p c : count (error_cell i) blocks = 0 -> contribution blocks i p = Some c -> c = 0%Qc.
Proof.
  intros H. unfold contribution. destruct (_ =? 0) eqn:E; [discriminate|]. intro X. injection X as <-.
  assert (D : forall e, In e (concat blocks) -> in1 i e = in2 i e).
  { intros e He. destruct (error_cell i e) eqn:F.
    - exfalso. rewrite count_concat in H. assert (0 < length (filter (error_cell i) (concat blocks))) by (apply filter_pos; eauto). lia.
    - rewrite error_cell_diff in F. apply negb_false_iff, eqb_prop in F. exact F. }
  assert (forall g : epoint -> bool, count (fun e => g e && in2 i e) blocks = count (fun e => g e && in1 i e) blocks) as G.
  { intro g. rewrite !count_concat. f_equal. apply filter_ext_in. intros e He. rewrite (D e He). reflexivity. }
  assert (count (in2 i) blocks = count (in1 i) blocks) as G1 by (rewrite !count_concat; f_equal; apply filter_ext_in; intros e He; rewrite (D e He); reflexivity).
  rewrite G, G1. apply Nat.eqb_neq in E. assert (qn (count (in1 i) blocks) <> 0%Qc) by (apply qn_neq0; rewrite G1 in E; nia). field. assumption.
Qed.

(** sums of the id arrays *)
Definition id_total (ids : list (list Qc)) : Qc := qsum (concat ids).
Lemma add_ids_total blocks i s ids : same_lengths blocks ids ->
  exists ids', add_ids blocks i (Fin s) (map (map Fin) ids) = map (map Fin) ids' /\ same_lengths blocks ids' /\
  id_total ids' = (id_total ids + s * qn (count (error_cell i) blocks))%Qc.
Proof.
  intro H. unfold add_ids. induction H as [|b d blocks ids Hl H IH].
  - exists []. repeat split; [constructor|]. unfold id_total, count. simpl. rewrite qn_0. ring.
  - destruct IH as (ids' & E & L & T).
    exists (map (fun ei => if error_cell i (fst ei) then (snd ei + s)%Qc else snd ei) (combine b d) :: ids').
    cbn [map combine fst snd]. split; [|split].
    + f_equal; [|exact E]. rewrite combine_map_r, !map_map. apply map_ext. intros [e x]. cbn [fst snd]. destruct (error_cell i e); reflexivity.
    + constructor; [|exact L]. rewrite map_length, combine_length. lia.
    + unfold id_total in *. cbn [concat]. rewrite !qsum_app, T. unfold count. cbn [map]. unfold list_sum. cbn [fold_right]. fold (list_sum (map (fun b => length (filter (error_cell i) b)) blocks)).
      rewrite qn_add.
      assert (qsum (map (fun ei => if error_cell i (fst ei) then (snd ei + s)%Qc else snd ei) (combine b d)) = (qsum d + s * qn (length (filter (error_cell i) b)))%Qc) as Eb.
      { clear - Hl. revert d Hl. induction b as [|e b IHb]; intros [|x d] Hl; simpl in *; try lia; [rewrite qn_0; ring|].
        rewrite (IHb d) by lia. destruct (error_cell i e); simpl; [rewrite qn_S|]; ring. }
      rewrite Eb. ring.
Qed.
Lemma mc_ids blocks ips : (forall i p, In (i, p) ips -> (0 < p)%Qc -> contribution blocks i p <> None) -> forall acc ids,
  same_lengths blocks ids -> exists ids',
  snd (region_mc_loop blocks ips acc (map (map Fin) ids)) = map (map Fin) ids' /\ same_lengths blocks ids' /\
  id_total ids' = (id_total ids + qsum (map (contrib_q blocks) ips))%Qc.
Proof.
  induction ips as [|[i p] ips IH]; intros H acc ids Hl; simpl.
  - exists ids. repeat split; auto. ring.
  - assert (H' : forall i p, In (i, p) ips -> (0 < p)%Qc -> contribution blocks i p <> None) by (intros; eapply H; [right; eassumption|assumption]).
    unfold contrib_q at 1. cbn [fst snd]. destruct (qltb 0 p) eqn:E.
    + apply qltb_true in E. specialize (H i p (or_introl eq_refl) E). destruct (contribution blocks i p) as [c|] eqn:Ec; [|congruence].
      destruct (count (error_cell i) blocks =? 0) eqn:En.
      * apply Nat.eqb_eq in En. rewrite (no_error_cells _ _ _ _ En Ec).
        destruct (IH H' (xadd acc (Fin 0%Qc)) ids Hl) as (ids' & A & B & C). exists ids'. repeat split; auto. rewrite C. ring.
      * apply Nat.eqb_neq in En. cbn [xdivn].
        assert (Nq : qn (count (error_cell i) blocks) <> 0%Qc) by (apply qn_neq0; lia).
        rewrite xdivq_fin by exact Nq.
        destruct (add_ids_total blocks i (c / qn (count (error_cell i) blocks))%Qc ids Hl) as (ids1 & A1 & B1 & C1). rewrite A1.
        destruct (IH H' (xadd acc (Fin c)) ids1 B1) as (ids' & A & B & C). exists ids'. repeat split; auto. rewrite C, C1.
        replace (c / qn (count (error_cell i) blocks) * qn (count (error_cell i) blocks))%Qc with c by (field; exact Nq). ring.
    + destruct (IH H' acc ids Hl) as (ids' & A & B & C). exists ids'. repeat split; auto. rewrite C. ring.
Qed.

Lemma zeros_lengths {A} (l : list (list A)) : same_lengths l (map (map (fun _ => 0%Qc)) l).
Proof. unfold same_lengths. induction l as [|b l IH]; simpl; constructor; [rewrite map_length; reflexivity|exact IH]. Qed.
Lemma mc_agrees_lemma labels r probs pts :
  match sample_set_region labels r probs pts with
  | Ok est => exists ids, sample_set_region_mc labels r probs pts = Ok (Fin est, map (map Fin) ids) /\
                same_lengths pts ids /\ qsum (concat ids) = est
  | Raise PyZeroDivision => exists ids, sample_set_region_mc labels r probs pts = Ok (PInf, ids)
  | Raise e => sample_set_region_mc labels r probs pts = Raise e
  end.
Proof.
  unfold sample_set_region, sample_set_region_mc. destruct (region_exists labels r) eqn:Er; [|reflexivity].
  assert (Hr : In r labels) by (apply existsb_exists in Er; destruct Er as (x & Hx & Ex); apply Z.eqb_eq in Ex; subst; exact Hx).
  set (ips := combine (seq 0 (length probs)) probs).
  destruct (existsb (fun ip => qltb 0 (snd ip) && match contribution (mark labels r pts) (fst ip) (snd ip) with None => true | Some _ => false end) ips) eqn:E.
  - apply existsb_exists in E. destruct E as ([i p] & Hin & E). cbn [fst snd] in E. apply andb_true_iff in E. destruct E as [E1 E2].
    assert (X : exists i p, In (i, p) ips /\ (0 < p)%Qc /\ contribution (mark labels r pts) i p = None).
    { exists i, p. split; [exact Hin|]. split; [apply qltb_true; exact E1|]. destruct (contribution (mark labels r pts) i p); [discriminate|reflexivity]. }
    unfold region_error. fold ips. rewrite (region_error_none _ _ X).
    exists (snd (region_error_mc probs (mark labels r pts))). f_equal.
    rewrite (surjective_pairing (region_error_mc probs (mark labels r pts))) at 1. f_equal. apply (mc_inf _ _ X).
  - assert (X : forall i p, In (i, p) ips -> (0 < p)%Qc -> contribution (mark labels r pts) i p <> None).
    { intros i p Hin Hp N. apply not_true_iff_false in E. apply E. apply existsb_exists. exists (i, p). split; [exact Hin|]. cbn [fst snd].
      rewrite (proj2 (qltb_true 0 p) Hp), N. reflexivity. }
    unfold region_error. fold ips. rewrite (region_error_sum _ _ X).
    assert (Z0 : map (map (fun _ => Fin 0%Qc)) (mark labels r pts) = map (map Fin) (map (map (fun _ => 0%Qc)) (mark labels r pts))).
    { rewrite map_map. apply map_ext. intro b. rewrite map_map. reflexivity. }
    assert (L0 : same_lengths (mark labels r pts) (map (map (fun _ => 0%Qc)) (mark labels r pts))).
    { apply zeros_lengths. }
    destruct (mc_ids _ _ X (Fin 0%Qc) _ L0) as (ids & A & B & C).
    exists ids. split; [|split].
    + unfold region_error_mc. fold ips. rewrite Z0. f_equal.
      rewrite (surjective_pairing (region_mc_loop _ _ _ _)). f_equal; [apply (mc_value _ _ X)|exact A].
    + unfold mark in B. clear - B. unfold same_lengths in *. remember (map _ pts) as m eqn:Em. revert pts Em.
      induction B as [|x y m ids Hxy B IH]; intros [|a pts] Em; try discriminate; constructor.
      * simpl in Em. injection Em as -> _. rewrite map_length in Hxy. exact Hxy.
      * simpl in Em. injection Em as _ ->. apply IH. reflexivity.
    + unfold id_total in C. rewrite C. f_equal. rewrite concat_map_map'. apply qsum_map_zero. reflexivity.
Qed.

Lemma contribution_split labels r pts pts' i p : concat pts = concat pts' -> contribution (mark labels r pts) i p = contribution (mark labels r pts') i p.
Proof. intro H. rewrite !contribution_mark, H. reflexivity. Qed.
Lemma region_split labels r probs pts pts' : concat pts = concat pts' -> sample_set_region labels r probs pts = sample_set_region labels r probs pts'.
Proof.
  intro H. unfold sample_set_region. destruct (region_exists labels r); [|reflexivity]. unfold region_error.
  generalize (combine (seq 0 (length probs)) probs) as ips. generalize 0%Qc as acc. intros acc ips. revert acc.
  induction ips as [|[i p] ips IH]; intro acc; simpl; [reflexivity|]. rewrite (contribution_split labels r pts pts' i p H).
  destruct (qltb 0 p); [|apply IH]. destruct (contribution _ i p); [apply IH|reflexivity].
Qed.
