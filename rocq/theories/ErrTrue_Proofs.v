From Coq Require Import List Arith Bool QArith Qcanon Lia.
From Verif Require Import Err Num Ext NumPy Lists SampleSet_Model SampleSet_Spec SampleSet_Proofs Prob_Model Prob_Spec Prob_Proofs
  Disc_Model Disc_Spec Workflow_Model Workflow_Spec Workflow_Proofs Error_Spec
  ErrorDisc_Model ErrorDisc_Spec ErrorDisc_Proofs SampErr_Model SampErr_Spec SampErr_Proofs SampErr2_Proofs ErrTrue_Spec.
Import ListNotations.
Local Open Scope nat_scope.
Local Open Scope err_scope.

(** ** Sums over points by events *)
Definition even (probs : list Qc) (es : list nat) (i : nat) : Qc := (nth i probs 0 / qn (number_in es i))%Qc.
Lemma number_in_filter {A} (f : A -> nat) l i : number_in (map f l) i = length (filter (fun a => f a =? i) l).
Proof. unfold number_in. induction l as [|a l IH]; [reflexivity|]. cbn. destruct (f a =? i); cbn; rewrite IH; reflexivity. Qed.
Lemma filter_twice {A} (f h : A -> bool) l : filter h (filter f l) = filter (fun a => f a && h a) l.
Proof. induction l as [|a l IH]; [reflexivity|]. cbn. destruct (f a); cbn; rewrite ?IH; reflexivity. Qed.
Lemma qsum_const {A} (l : list A) (c : Qc) : qsum (map (fun _ => c) l) = (qn (length l) * c)%Qc.
Proof. induction l as [|a l IH]; [cbn [map qsum length]; change (qn 0) with 0%Qc; ring|]. cbn [map qsum length]. rewrite IH. rewrite qn_S. ring. Qed.
Lemma total_const (l : list nat) f i : total_in (map (fun k => (k, f k)) l) i = (qn (number_in l i) * f i)%Qc.
Proof.
  unfold total_in, number_in. induction l as [|a l IH]; [cbn [map filter length qsum]; change (qn 0) with 0%Qc; ring|]. cbn [map filter fst]. destruct (Nat.eqb_spec a i) as [->|N]; [|exact IH].
  cbn [map snd qsum length]. rewrite IH, qn_S. ring.
Qed.
Lemma events_sum (ps : list Qc) (g : nat -> Qc) : nonneg ps ->
  qsum (map (fun ip => snd ip * g (fst ip))%Qc (events ps)) = qsum (map (fun i => nth i ps 0 * g i)%Qc (seq 0 (length ps))).
Proof.
  intros H. unfold events. assert (G : forall s, qsum (map (fun ip => snd ip * g (fst ip))%Qc (filter (fun ip => qltb 0 (snd ip)) (combine (seq s (length ps)) ps))) = qsum (map (fun i => nth (i - s) ps 0 * g i)%Qc (seq s (length ps)))).
  { induction ps as [|p ps IH]; intros s; [reflexivity|]. cbn [length seq combine filter snd map qsum]. rewrite Nat.sub_diag. change (nth 0 (p :: ps) 0%Qc) with p.
    assert (E : qsum (map (fun i => nth (i - s) (p :: ps) 0 * g i)%Qc (seq (S s) (length ps))) = qsum (map (fun i => nth (i - S s) ps 0 * g i)%Qc (seq (S s) (length ps)))).
    { apply f_equal, map_ext_in. intros i Hi. apply in_seq in Hi. replace (i - s) with (S (i - S s)) by lia. reflexivity. }
    rewrite E, <- (IH (fun x Hx => H x (or_intror Hx)) (S s)). destruct (qltb 0 p) eqn:L; [reflexivity|].
    replace p with 0%Qc; [ring|]. apply qltb_false in L. apply Qcle_antisym; [apply H; left; reflexivity|exact L]. }
  rewrite G. apply f_equal, map_ext. intros i. rewrite Nat.sub_0_r. reflexivity.
Qed.
Lemma grouped (ps : list Qc) (pts : list (bool * nat)) : nonneg ps -> (forall e, In e pts -> snd e < length ps) ->
  qsum (map (fun e => even ps (map snd pts) (snd e)) (filter fst pts)) = region_probability ps pts.
Proof.
  intros NP B. set (f := even ps (map snd pts)). set (l := map snd (filter fst pts)).
  assert (E : map (fun e => f (snd e)) (filter fst pts) = map snd (map (fun k => (k, f k)) l)) by (unfold l; rewrite !map_map; reflexivity).
  rewrite E, (total_in_split _ (length ps)).
  - unfold region_probability. rewrite (events_sum ps (share_of pts) NP). apply f_equal, map_ext. intros i. rewrite total_const.
    unfold f, even, share_of, l. rewrite !number_in_filter. replace (filter (fun a => snd a =? i) (filter fst pts)) with (filter (fun e : bool * nat => fst e && (snd e =? i)) pts); [unfold Qcdiv; ring|].
    symmetry. apply filter_twice.
  - intros e He. apply in_map_iff in He. destruct He as (k & <- & Hk). cbn. unfold l in Hk. apply in_map_iff in Hk. destruct Hk as (e & <- & He). apply filter_In in He. apply B, He.
Qed.
Lemma mass_grouped (inr : cell -> bool) (c : cell -> nat) ps xs : nonneg ps -> (forall x, In x xs -> c x < length ps) ->
  mass inr xs (map (fun x => even ps (map c xs) (c x)) xs) = region_probability ps (map (fun x => (inr x, c x)) xs).
Proof.
  intros NP B. rewrite <- (grouped ps _ NP).
  - unfold mass. rewrite map_map. cbn [snd]. change (map (fun x => c x) xs) with (map c xs). generalize (even ps (map c xs)). intros f. f_equal. clear B. induction xs as [|x xs IH]; [reflexivity|]. cbn. destruct (inr x); cbn; rewrite IH; reflexivity.
  - intros e He. apply in_map_iff in He. destruct He as (x & <- & Hx). apply B. exact Hx.
Qed.

(** ** The emulated probabilities of a survey *)
Section Run.
Context (nn : list cell -> cell -> nat) (P : nat) (HP : 0 < P) (NN : forall l x, l <> [] -> nn l x < length l).
Lemma ii_points_loc g d em ps inp xs dd : d_ein dd = Some em -> points_are P d em ps -> d_in dd = Some inp -> points_are P d inp xs ->
  exists em1 inp1, set_ii_ptr nn P g dd = Ok (with_ii (if g then Some (map (nn xs) ps) else ii dd) (Some (array_split (map (nn xs) ps) P)) (with_in (Some inp1) (with_ein (Some em1) dd))) /\
    points_are P d em1 ps /\ loc em1 Values = Some (split_arr P (mk_arr ps [d])).
Proof.
  intros Eo Ho Ep Hp. destruct (points_localized P d em ps Ho) as (em1 & E1 & H1 & S1 & L1). destruct (points_query P nn d em1 ps inp xs H1 Hp L1) as (inp1 & E2 & H2 & S2 & LL).
  exists em1, inp1. unfold set_ii_ptr. rewrite Eo. cbn [need bind]. rewrite E1. cbn [bind]. rewrite Ep. cbn [need bind]. unfold loc_values. rewrite L1. cbn [bind]. rewrite E2. cbn [bind fst snd].
  rewrite array_split_concat by exact HP. auto.
Qed.
Context (g : survey) (PS : proper_survey g).
Lemma event_lt x : event_of nn g x < length (g_cells g).
Proof.
  destruct PS as (NS & NC & L). unfold event_of. assert (B : nn (g_samples g) x < length (sample_events nn g)) by (unfold sample_events; rewrite map_length, L; apply NN, NS).
  unfold sample_events in *. pose proof (nth_In _ 0 B) as HI. apply in_map_iff in HI. destruct HI as (z & <- & _). apply NN, NC.
Qed.
Lemma follow_events ps : forall bs, bs = array_split (map (nn (g_samples g)) ps) P -> forall k, In k (concat bs) -> k < length (sample_events nn g).
Proof.
  intros bs -> k. rewrite array_split_concat by exact HP. intros Hk. apply in_map_iff in Hk. destruct Hk as (x & <- & _). destruct PS as (NS & NC & L). unfold sample_events. rewrite map_length, L. apply NN, NS.
Qed.
Lemma emulated_run w d ps : proper_view g w -> holds_survey nn P g w d -> no_pointers d -> w_emulated w = Some ps -> nonneg (w_probs w) ->
  point_probabilities (emulated_disc nn P true d) = Some (map Num (map (fun x => even (w_probs w) (map (event_of nn g) ps) (event_of nn g x)) ps)).
Proof.
  intros PV HH NP EW NN0. pose proof HH as ((inp & Ei & Hi & _) & (out & Eo & Ho) & (pr & Ep & Hp & Gp) & He & _). unfold emulated_are in He. rewrite EW in He.
  destruct (d_ein d) as [em|] eqn:Ee; [|contradiction]. destruct (probs_read nn P g PS w d pr PV HH Ep) as [C1 C2].
  unfold emulated_disc. rewrite (count_nums nn P g PS w d HH). cbn [bind]. rewrite Ep. cbn [need bind]. rewrite C1. cbn [bind]. rewrite Ee. cbn [need bind]. rewrite (count_in_step P em _ (proj1 He)). cbn [bind].
  destruct (NP Io) as [_ N1]. destruct (NP Ii) as [_ N2]. cbn in N1, N2. rewrite N1.
  destruct (io_points P HP nn true (g_out g) out (g_outputs g) pr (g_cells g) d Eo Ho Ep Hp) as (out1 & pr1 & -> & _). cbn [bind].
  set (d1 := with_io _ _ _). change (ii_loc d1) with (ii_loc d). rewrite N2.
  destruct (ii_points_loc false (g_in g) em ps inp (g_samples g) d1) as (em1 & inp1 & -> & He1 & L1); [exact Ee|exact He|exact Ei|exact Hi|]. cbn [bind].
  set (d2 := with_ii _ _ _). change (d_ein d2) with (Some em1). cbn [need bind]. rewrite L1. cbn [need bind]. change (io d2) with (Some (sample_events nn g)). cbn [subscript bind].
  change (ii_loc d2) with (Some (array_split (map (nn (g_samples g)) ps) P)). cbn [subscript bind]. set (bs := array_split (map (nn (g_samples g)) ps) P).
  destruct (follow_ok (sample_events nn g) bs (follow_events ps bs eq_refl)) as (ptrs & EF & SF & NF). rewrite EF. cbn [bind]. rewrite C2. cbn [bind].
  unfold emulated_probs. rewrite EF. cbn [bind].
  assert (CB : concat bs = map (nn (g_samples g)) ps) by (apply array_split_concat, HP).
  assert (SZ : map (fun b : arr cell => length (rows b)) (split_arr P (mk_arr ps [g_in g])) = map (@length nat) ptrs).
  { rewrite <- (map_map rows (@length cell)), split_arr_rows. cbn [rows]. replace (map (@length nat) ptrs) with (map (@length nat) bs).
    - unfold bs. rewrite array_split_map, map_map. apply map_ext. intros l. rewrite map_length. reflexivity.
    - clear -SF. induction SF; [reflexivity|]. cbn. congruence. }
  rewrite SZ. destruct (list_eq_dec Nat.eq_dec (map (length (A:=nat)) ptrs) (map (length (A:=nat)) ptrs)) as [_|N]; [|congruence].
  destruct (emulated_lemma (w_probs w) (sample_events nn g) bs (follow_events ps bs eq_refl)) as (ptr & Q & EQ & SQ & LQ & HQ & VQ & _). rewrite EQ. cbn [bind].
  set (em2 := set_loc Probabilities (Some (map vec_arr Q)) em1).
  assert (NQ : map vec_arr Q <> []). { intros E. apply map_eq_nil in E. subst Q. assert (LL : length (@nil (list Qc)) = length bs) by (clear -SQ; unfold same_lengths in SQ; induction SQ; cbn; congruence). unfold bs in LL. rewrite array_split_length in LL by exact HP. cbn in LL. lia. }
  assert (GQ : get_global_values (map vec_arr Q) = Ok (vec_arr (concat Q))).
  { rewrite (gather_same _ []).
    - rewrite map_map. cbn [rows vec_arr]. unfold vec_arr. f_equal. f_equal. rewrite concat_map. reflexivity.
    - exact NQ.
    - intros b Hb. apply in_map_iff in Hb. destruct Hb as (q & <- & _). reflexivity. }
  destruct (gather_attrs_total all_attrs em2) as [em3 E3].
  { intros a cs _ La. unfold em2 in La. cbn [set_loc loc] in La. destruct (attr_eq_dec a Probabilities) as [->|NA].
    - rewrite upd_same in La. injection La as <-. eauto.
    - rewrite upd_other in La by exact NA. destruct (in_step_loc P em1 _ a cs (proj1 He1) La) as (x & _ & ->). exists x. apply gather_split. exact HP. }
  change (gather_attrs all_attrs em2) with (local_to_global em2) in E3. rewrite E3. cbn [bind point_probabilities d_ein with_ein].
  destruct (local_to_global_spec _ _ E3) as (_ & _ & _ & _ & _ & _ & IG). specialize (IG Probabilities). unfold em2 in IG. cbn [set_loc loc] in IG. rewrite upd_same in IG. destruct IG as (x & Hx & ->).
  rewrite GQ in Hx. injection Hx as <-. cbn [option_map rows vec_arr]. do 2 f_equal.
  assert (EP : ptr = map (event_of nn g) ps).
  { apply nth_error_ext. intros j. rewrite nth_error_map. destruct (nth_error ps j) as [x|] eqn:Ex.
    - cbn [option_map]. rewrite (HQ j (nn (g_samples g) x)) by (rewrite CB, nth_error_map, Ex; reflexivity). unfold event_of. apply nth_error_nth'. eapply (follow_events ps bs eq_refl). rewrite CB. apply in_map. eapply nth_error_In, Ex.
    - cbn [option_map]. apply nth_error_None. rewrite LQ, CB, map_length. apply nth_error_None. exact Ex. }
  subst ptr. apply nth_error_ext. intros j. rewrite nth_error_map. destruct (nth_error ps j) as [x|] eqn:Ex; cbn [option_map].
  - assert (B : event_of nn g x < length (w_probs w)) by (rewrite (proj1 PV); apply event_lt). apply (VQ j (event_of nn g x) (nth (event_of nn g x) (w_probs w) 0%Qc)); [rewrite nth_error_map, Ex; reflexivity|apply nth_error_nth'; exact B|apply NN0, nth_In; exact B].
  - apply nth_error_None. assert (LL : length (concat Q) = length (concat bs)) by (apply same_lengths_concat; exact SQ). rewrite LL, CB, map_length. apply nth_error_None. exact Ex.
Qed.
End Run.
