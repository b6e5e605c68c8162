From Coq Require Import List Arith Bool QArith Qcanon Lia.
From Verif Require Import Err Num Ext NumPy Lists SampleSet_Model SampleSet_Spec SampleSet_Proofs Prob_Model Prob_Spec Prob_Proofs
  Disc_Model Disc_Spec Disc_Proofs Workflow_Model Workflow_Spec Workflow_Proofs Stable_Spec Stable_Proofs DataUnif_Proofs Batches_Proofs Batches2_Proofs Restart_Proofs Clipped_Proofs Emulated_Model Emulated_Spec Emulated_Proofs
  ErrorDisc_Model ErrorDisc_Proofs ErrorDisc4_Proofs Surrogate_Proofs Moved_Model Moved_Spec Moved_Proofs MovedVol_Model MovedVol_Spec.
Import ListNotations.
Local Open Scope nat_scope.
Local Open Scope err_scope.

Section Spread.
Context (nn : list cell -> cell -> nat).
Lemma seen_hit xs es q : all_seen nn xs es q <-> all_hit q (map (nn xs) es).
Proof.
  unfold all_seen, all_hit. split; intros H i p Hi Hp; specialize (H i p Hi Hp).
  - destruct H as (e & He & <-). unfold number_in. assert (X : In (nn xs e) (filter (fun k => k =? nn xs e) (map (nn xs) es))) by (apply filter_In; split; [apply in_map; exact He|apply Nat.eqb_refl]).
    destruct (filter _ _); [contradiction|cbn; lia].
  - unfold number_in in H. destruct (filter (fun k => k =? i) (map (nn xs) es)) as [|k l] eqn:E; [cbn in H; lia|].
    assert (X : In k (filter (fun k => k =? i) (map (nn xs) es))) by (rewrite E; left; reflexivity). apply filter_In in X. destruct X as (X & Y). apply Nat.eqb_eq in Y. subst k. apply in_map_iff in X. destruct X as (e & <- & He). exists e. auto.
Qed.
Lemma number_points xs (es : list cell) i : number_in (map (nn xs) es) i = length (filter (fun e => nn xs e =? i) es).
Proof. unfold number_in. induction es as [|e es IH]; [reflexivity|]. cbn [map filter]. destruct (nn xs e =? i); cbn [length]; rewrite IH; reflexivity. Qed.
Lemma spread_weights xs es q : nonneg q -> map (eweight q (map (nn xs) es)) (map (nn xs) es) = spread nn xs es q.
Proof.
  intros NQ. unfold spread. rewrite map_map. apply map_ext_in. intros e He. unfold eweight. rewrite share_formula.
  - cbn [fst snd]. rewrite number_total, number_points. apply Qcmult_1_l.
  - intros y Hy. apply in_map_iff in Hy. destruct Hy as (z & <- & _). discriminate.
  - exact NQ.
  - apply (in_map (fun j => (j, 1%Qc))). apply in_map. exact He.
Qed.
Lemma spread_solution xs es q : spread nn xs es q = solution (nn xs) q (combine es (repeat 1%Qc (length es))).
Proof.
  assert (E : combine es (repeat 1%Qc (length es)) = map (fun e => (e, 1%Qc)) es) by (induction es as [|e es IH]; [reflexivity|]; cbn [length repeat combine map]; rewrite IH; reflexivity).
  unfold solution, spread. rewrite E, !map_map. apply map_ext. intros e. cbn [fst snd].
  assert (X : total_in (map (fun x => (nn xs x, 1%Qc)) es) (nn xs e) = qn (length (filter (fun e' => nn xs e' =? nn xs e) es))).
  { rewrite <- number_points, <- number_total, map_map. reflexivity. }
  rewrite X. symmetry. apply Qcmult_1_l.
Qed.
Lemma spread_length xs es q : length (spread nn xs es q) = length es.
Proof. apply map_length. Qed.
Lemma spread_part xs es q i : qsum (map snd (filter (fun ew => fst ew =? i) (combine (map (nn xs) es) (spread nn xs es q)))) =
  (qn (length (filter (fun e => nn xs e =? i) es)) * (nth i q 0 / qn (length (filter (fun e => nn xs e =? i) es))))%Qc.
Proof.
  unfold spread. set (n := fun k => qn (length (filter (fun e' => nn xs e' =? k) es))). change (qn (length (filter (fun e => nn xs e =? i) es))) with (n i) at 2.
  assert (G : forall l, qsum (map snd (filter (fun ew => fst ew =? i) (combine (map (nn xs) l) (map (fun e => nth (nn xs e) q 0 / n (nn xs e))%Qc l)))) = (qn (length (filter (fun e => nn xs e =? i) l)) * (nth i q 0 / n i))%Qc).
  { intros l. induction l as [|e l IH]; [cbn; symmetry; apply Qcmult_0_l|]. cbn [map combine filter fst]. destruct (Nat.eqb_spec (nn xs e) i) as [<-|N]; [|exact IH].
    cbn [map snd qsum length]. rewrite IH, qn_S. ring. }
  apply G.
Qed.
(** Moved to the old samples themselves *)
Lemma spread_back xs es q : length q = length xs -> nonneg q -> all_seen nn xs es q -> moved nn xs es (spread nn xs es q) = q.
Proof.
  intros L NQ A. apply list_nth; [rewrite moved_length; symmetry; exact L|]. rewrite moved_length. intros j Hj. unfold moved. rewrite nth_error_map, (nth_error_nth' (seq 0 (length xs)) 0) by (rewrite seq_length; exact Hj).
  rewrite seq_nth by exact Hj. cbn [option_map plus]. rewrite probability_parts by (apply spread_length). unfold total_in. rewrite spread_part.
  rewrite (nth_error_nth' q 0%Qc) by lia. f_equal. set (p := nth j q 0%Qc).
  destruct (filter (fun e => nn xs e =? j) es) as [|e l] eqn:E.
  - assert (Hp : nth_error q j = Some p) by (apply nth_error_nth'; lia). destruct (Qclt_le_dec 0 p) as [Q|Q].
    + destruct (A j p Hp Q) as (e & He & Hn). assert (X : In e (filter (fun e => nn xs e =? j) es)) by (apply filter_In; split; [exact He|apply Nat.eqb_eq; exact Hn]). rewrite E in X. contradiction.
    + assert (p = 0%Qc) as -> by (apply Qcle_antisym; [exact Q|apply NQ; eapply nth_error_In; exact Hp]). cbn [length]. unfold qn. cbn. apply Qcmult_0_l.
  - field. apply Qclt_neq0. apply qn_pos. cbn. lia.
Qed.
(** The old samples themselves as emulated samples *)
Lemma spread_own xs q : length q = length xs -> map (nn xs) xs = seq 0 (length xs) -> spread nn xs xs q = q /\ (forall p, all_seen nn xs xs p \/ length p <> length xs).
Proof.
  intros L S. assert (N : forall j x, nth_error xs j = Some x -> nn xs x = j).
  { intros j x H. assert (E : nth_error (map (nn xs) xs) j = Some (nn xs x)) by (rewrite nth_error_map, H; reflexivity). assert (Lj : j < length xs) by (apply nth_error_Some; rewrite H; discriminate).
    rewrite S, (nth_error_nth' (seq 0 (length xs)) 0), seq_nth in E by (rewrite ?seq_length; exact Lj). injection E as <-. reflexivity. }
  assert (C : forall j, j < length xs -> length (filter (fun e => nn xs e =? j) xs) = 1).
  { intros j Hj. rewrite <- number_points, S. unfold number_in. generalize (length xs) Hj. clear. intros n. 
    assert (G : forall a, a <= j < a + n -> length (filter (fun k => k =? j) (seq a n)) = 1).
    { induction n as [|n IH]; intros a H; [lia|]. cbn [seq filter]. destruct (Nat.eqb_spec a j) as [->|Na]; [|apply IH; lia].
      cbn [length]. f_equal. clear. assert (Z : forall b, j < b -> filter (fun k => k =? j) (seq b n) = []) by (induction n as [|n IH]; intros b Hb; [reflexivity|]; cbn [seq filter]; destruct (Nat.eqb_spec b j); [lia|]; apply IH; lia). rewrite Z by lia. reflexivity. }
    intros H. apply G. lia. }
  split.
  - apply list_nth; [rewrite spread_length; symmetry; exact L|]. rewrite spread_length. intros j Hj. destruct (nth_error xs j) as [x|] eqn:Ex; [|apply nth_error_None in Ex; lia].
    unfold spread. rewrite nth_error_map, Ex. cbn [option_map]. rewrite (N j x Ex), (C j Hj), (nth_error_nth' q 0%Qc) by lia. f_equal. replace (qn 1) with 1%Qc by (apply Qc_is_canon; reflexivity). field; discriminate.
  - intros p. destruct (Nat.eq_dec (length p) (length xs)) as [E|E]; [left|right; exact E]. intros i v Hi _. assert (Li : i < length xs) by (rewrite <- E; apply nth_error_Some; rewrite Hi; discriminate).
    destruct (nth_error xs i) as [x|] eqn:Ex; [|apply nth_error_None in Ex; lia]. exists x. split; [eapply nth_error_In; exact Ex|apply N; exact Ex].
Qed.
End Spread.

Section Transfer.
Context (nn : list cell -> cell -> nat) (P d : nat) (HP : 0 < P).
Lemma emulates_localized es s : emulates d es s -> exists s1 B, localized P s = Ok s1 /\ emulates d es s1 /\ glob s1 = glob s /\ loc_values s1 = Ok (map (fun b => mk_arr b [d]) B) /\ concat B = es.
Proof.
  intros (V & D & [(B & LV & CB)|(L & GV)]).
  - exists s, B. unfold localized, loc_values. rewrite LV. split; [reflexivity|]. split; [split; [exact V|split; [exact D|left; exists B; auto]]|]. auto.
  - unfold localized. rewrite L. unfold global_to_local. rewrite (valid_count P _ _ V). cbn [bind]. eexists. exists (array_split es P). split; [reflexivity|]. unfold loc_values. cbn [loc glob]. rewrite GV.
    assert (C : concat (array_split es P) = es) by (apply array_split_concat; exact HP).
    split; [|split; [reflexivity|split; [rewrite split_rows; reflexivity|exact C]]]. split; [exact V|]. split; [exact D|]. left. exists (array_split es P). cbn [loc]. rewrite GV, split_rows. auto.
Qed.
(** What the processes find before the probabilities are divided *)
Lemma points_found xs q zs es old new e : xs <> [] -> known d xs q old -> target d zs new -> emulates d es e ->
  exists old1 new1 e1 B, concat B = es /\ known d xs q old1 /\ loc old1 = loc old /\ target d zs new1 /\ loc new1 = loc new /\ same_data new new1 /\ emulates d es e1 /\ glob e1 = glob e /\
    transfer_points nn P old new (Some e) = (do x <- transfer_emulated q (length zs) (map (map (nn xs)) B) (map (map (nn zs)) B) ; do r <- finite x ; Ok (old1, set_glob Probabilities (Some (vec_arr r)) new1, Some e1, r)).
Proof.
  intros NX (TO & GP & NQ) TN E. unfold transfer_points. rewrite (held_count P d old xs TO), (held_count P d new zs TN). cbn [bind]. rewrite (valid_count P _ _ (proj1 E)). cbn [bind].
  rewrite (proj1 (proj2 (proj2 TO))), (proj1 (proj2 (proj2 TN))), (proj1 (proj2 E)), Nat.eqb_refl. cbn [negb orb].
  destruct (emulates_localized es e E) as (e1 & B & EL & E1 & G1 & EV & CB). rewrite EL. cbn [bind]. rewrite EV. cbn [bind].
  assert (TB : forall b, In b (map (fun b => mk_arr b [d]) B) -> tail_shape b = [d]) by (intros b Hb; apply in_map_iff in Hb; destruct Hb as (r & <- & _); reflexivity).
  destruct (held_query nn P d old xs _ TO TB) as (old1 & -> & TO1 & SO & LO & _). cbn [bind fst snd].
  destruct (held_query nn P d new zs _ TN TB) as (new1 & -> & TN1 & SN & LN & _). cbn [bind fst snd].
  assert (GP1 : glob old1 Probabilities = Some (vec_arr q)) by (rewrite <- GP; apply SO; discriminate).
  exists old1, new1, e1, B. split; [exact CB|]. split; [split; [exact TO1|split; [exact GP1|exact NQ]]|]. do 6 (split; [assumption|]).
  unfold old_probs. destruct (Nat.eqb_spec (length xs) 0) as [Z|_]; [destruct xs; [contradiction|discriminate]|]. rewrite GP1. cbn [subscript bind rows vec_arr]. rewrite scalars_nums. cbn [bind]. rewrite !map_map. reflexivity.
Qed.
Lemma blocks_lengths {A} (f g : cell -> A) (B : list (list cell)) : same_lengths (map (map f) B) (map (map g) B).
Proof. induction B; constructor; [rewrite !map_length; reflexivity|assumption]. Qed.
Definition given zs new new1 r := target d zs new1 /\ loc new1 = loc new /\ glob new1 Probabilities = Some (vec_arr r) /\ (forall a, a <> Probabilities -> a <> KdtreeValues -> glob new1 a = glob new a).
Lemma given_stored zs new new1 r : target d zs new1 -> loc new1 = loc new -> same_data new new1 -> length r = length zs -> given zs new (set_glob Probabilities (Some (vec_arr r)) new1) r.
Proof.
  intros T L S E. split; [apply target_stored; assumption|]. split; [exact L|]. cbn [set_glob glob]. split; [apply upd_same|]. intros a Na Nk. rewrite upd_other by exact Na. apply S. exact Nk.
Qed.
Lemma points_all xs q zs es old new e : xs <> [] -> known d xs q old -> target d zs new -> emulates d es e -> all_seen nn xs es q ->
  exists old1 new1 e1, let r := moved nn zs es (spread nn xs es q) in transfer_points nn P old new (Some e) = Ok (old1, new1, Some e1, r) /\
    known d xs q old1 /\ loc old1 = loc old /\ emulates d es e1 /\ glob e1 = glob e /\ given zs new new1 r.
Proof.
  intros NX K T E A. destruct (points_found xs q zs es old new e NX K T E) as (old1 & new1 & e1 & B & CB & K1 & LO & T1 & LN & SN & E1 & GE & ->). apply seen_hit in A.
  rewrite transfer_emulated_hit; [|apply blocks_lengths|rewrite <- concat_map, CB; exact A]. cbn [bind]. rewrite finite_fins. cbn [bind]. rewrite <- !concat_map, CB, spread_weights by apply K.
  rewrite (map_ext _ (probability_in nn zs es (spread nn xs es q))) by (intros j; symmetry; apply probability_parts; apply spread_length).
  eexists. eexists. eexists. cbv zeta. split; [reflexivity|]. do 4 (split; [assumption|]). apply given_stored; [assumption..|apply moved_length].
Qed.
Lemma points_some xs q zs es old new e : xs <> [] -> known d xs q old -> target d zs new -> emulates d es e -> ~ all_seen nn xs es q -> one_seen nn xs es q -> 
  exists old1 new1 e1, let r := moved nn zs es (map (fun w => w / qsum (spread nn xs es q))%Qc (spread nn xs es q)) in (0 < qsum (spread nn xs es q))%Qc /\ transfer_points nn P old new (Some e) = Ok (old1, new1, Some e1, r) /\
    known d xs q old1 /\ loc old1 = loc old /\ emulates d es e1 /\ glob e1 = glob e /\ given zs new new1 r.
Proof.
  intros NX K T E A (i & p & x & Hi & Hp & Hx & Nx). destruct (points_found xs q zs es old new e NX K T E) as (old1 & new1 & e1 & B & CB & K1 & LO & T1 & LN & SN & E1 & GE & ->). rewrite seen_hit in A.
  assert (POS : (0 < qsum (spread nn xs es q))%Qc).
  { rewrite <- spread_weights by apply K. eapply Qclt_le_trans; [apply (eweight_pos q (map (nn xs) es) i p); [rewrite <- Nx; apply in_map; exact Hx|exact Hi|exact Hp]|]. apply qsum_ge_elem.
    - intros y Hy. apply in_map_iff in Hy. destruct Hy as (k & <- & Hk). apply eweight_nonneg. exact Hk.
    - apply in_map. rewrite <- Nx. apply in_map. exact Hx. }
  rewrite transfer_emulated_miss; [|apply blocks_lengths|rewrite <- concat_map, CB; exact A|rewrite <- concat_map, CB, spread_weights by apply K; apply Qclt_neq0; exact POS].
  cbn [bind]. rewrite finite_fins. cbn [bind]. rewrite <- !concat_map, CB, spread_weights by apply K.
  rewrite <- (map_map (eweight q (map (nn xs) es)) (fun w => (w / qsum (spread nn xs es q))%Qc)). rewrite spread_weights by apply K.
  rewrite (map_ext _ (probability_in nn zs es (map (fun w => w / qsum (spread nn xs es q))%Qc (spread nn xs es q)))) by (intros j; symmetry; apply probability_parts; rewrite map_length; apply spread_length).
  eexists. eexists. eexists. cbv zeta. split; [exact POS|]. split; [reflexivity|]. do 4 (split; [assumption|]). apply given_stored; [assumption..|apply moved_length].
Qed.
Lemma points_unknown xs zs es old new e : xs <> [] -> target d xs old -> glob old Probabilities = None -> target d zs new -> emulates d es e -> transfer_points nn P old new (Some e) = Raise PyTypeError.
Proof.
  intros NX TO GP TN E. unfold transfer_points. rewrite (held_count P d old xs TO), (held_count P d new zs TN). cbn [bind]. rewrite (valid_count P _ _ (proj1 E)). cbn [bind].
  rewrite (proj1 (proj2 (proj2 TO))), (proj1 (proj2 (proj2 TN))), (proj1 (proj2 E)), Nat.eqb_refl. cbn [negb orb].
  destruct (emulates_localized es e E) as (e1 & B & EL & E1 & G1 & EV & CB). rewrite EL. cbn [bind]. rewrite EV. cbn [bind].
  assert (TB : forall b, In b (map (fun b => mk_arr b [d]) B) -> tail_shape b = [d]) by (intros b Hb; apply in_map_iff in Hb; destruct Hb as (r & <- & _); reflexivity).
  destruct (held_query nn P d old xs _ TO TB) as (old1 & -> & TO1 & SO & LO & _). cbn [bind fst snd].
  destruct (held_query nn P d new zs _ TN TB) as (new1 & -> & TN1 & SN & LN & _). cbn [bind fst snd].
  assert (GP1 : glob old1 Probabilities = None) by (rewrite <- GP; apply SO; discriminate). unfold old_probs. destruct (Nat.eqb_spec (length xs) 0) as [Z|_]; [destruct xs; [contradiction|discriminate]|]. rewrite GP1. reflexivity.
Qed.
End Transfer.
