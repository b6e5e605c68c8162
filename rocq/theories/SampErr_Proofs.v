(** The formulas of the bounds. *)
From Coq Require Import List Arith Bool QArith Qcanon Lia Permutation.
From Verif Require Import Err Num Ext NumPy Lists SampleSet_Model Volume_Spec Error_Model Error_Spec Error_Proofs ErrorDisc_Spec ErrorDisc2_Proofs SampErr_Model SampErr_Spec.
Import ListNotations.
Local Open Scope nat_scope.
Local Open Scope err_scope.

Lemma vol_le v a b : (forall x, In x v -> (0 <= x)%Qc) -> NoDup a -> incl a b -> (vol v a <= vol v b)%Qc.
Proof. intros. apply vol_incl; assumption. Qed.
Lemma events_probs ps : events ps = filter (fun ip => qltb 0 (snd ip)) (combine (seq 0 (length ps)) ps).
Proof. reflexivity. Qed.

Section Core.
Context (ev : list nat) (nb : nat -> nat -> bool) (nei : list (list nat)).
Context (Ht : neighbour_table ev nei).
Context (Hn : forall p l, nth_error nei p = Some l -> forall e, In e l <-> exists q, nb p q = true /\ nth_error ev q = Some e).
Notation n := (length ev).
Notation fr := (boundary_sets ev nei).

Lemma in_ids k : In k (ids ev) <-> k < n.
Proof. unfold ids. rewrite in_seq. lia. Qed.
Lemma ev_at i k : k < n -> (nth_error ev k = Some i <-> in_ev ev i k = true).
Proof. intros L. unfold in_ev. rewrite (nth_error_nth' ev 0 L), Nat.eqb_eq. split; congruence. Qed.
Lemma nei_at k : k < n -> exists l, nth_error nei k = Some l.
Proof. intros L. destruct (nth_error nei k) as [l|] eqn:E; [eauto|]. apply nth_error_None in E. rewrite (proj1 Ht) in E. lia. Qed.
Lemma touch_at i k : k < n -> (touching nei i k <-> touches ev nb i k = true).
Proof.
  intros L. destruct (nei_at k L) as [l E]. unfold touches. rewrite existsb_exists. split.
  - intros (l' & E' & H). rewrite E in E'. injection E' as <-. apply (Hn k l E) in H. destruct H as (q & Q1 & Q2).
    assert (Lq : q < n) by (apply nth_error_Some; congruence). exists q. split; [apply in_ids; exact Lq|]. apply andb_true_iff. split; [exact Q1|]. apply ev_at; assumption.
  - intros (q & Hq & H). apply in_ids in Hq. apply andb_true_iff in H. destruct H as [Q1 Q2]. exists l. split; [exact E|]. apply (Hn k l E). exists q. split; [exact Q1|]. apply ev_at; assumption.
Qed.
Lemma inside_at i k : k < n -> (interior ev nei i k <-> inside ev nb i k = true).
Proof.
  intros L. unfold inside. rewrite !andb_true_iff, forallb_forall, <- (ev_at i k L), <- (touch_at i k L). split.
  - intros (A & l & E & H). split; [split; [exact A|]|].
    + exists l. split; [exact E|]. apply H. reflexivity.
    + intros q Hq. apply in_ids in Hq. destruct (nb k q) eqn:Q; [|reflexivity]. cbn [implb]. apply ev_at; [exact Hq|].
      destruct (nth_error ev q) as [e|] eqn:Ee; [|apply nth_error_None in Ee; lia]. f_equal. apply H. apply (Hn k l E). eauto.
  - intros ((A & l & E & T) & H). split; [exact A|]. exists l. split; [exact E|]. intros j. split; [|intros ->; exact T].
    intros J. apply (Hn k l E) in J. destruct J as (q & Q1 & Q2). assert (Lq : q < n) by (apply nth_error_Some; congruence).
    specialize (H q (proj2 (in_ids q) Lq)). rewrite Q1 in H. cbn [implb] in H. apply (ev_at i q Lq) in H. congruence.
Qed.
Lemma interior_lt i k : interior ev nei i k -> k < n.
Proof. intros (A & _). apply nth_error_Some. congruence. Qed.
Lemma touching_lt' i k : touching nei i k -> k < n.
Proof. eapply touching_lt. apply Ht. Qed.

(** the lists kept in the object *)
Lemma listed (l : list nat) (S0 : nat -> Prop) f : lists_set l S0 -> (forall k, S0 k -> k < n) -> (forall k, k < n -> (S0 k <-> f k = true)) -> Permutation l (filter f (ids ev)).
Proof.
  intros [N H] B E. apply NoDup_Permutation; [exact N|apply NoDup_filter, seq_NoDup|]. intros k. rewrite filter_In, in_ids, H. split.
  - intros K. split; [apply B; exact K|]. apply E; [apply B|]; exact K.
  - intros [K1 K2]. apply E; assumption.
Qed.
Lemma B_list i : Permutation (lookup (fst fr) i) (filter (inside ev nb i) (ids ev)).
Proof. destruct (boundary_sets_lemma ev nei Ht i) as (H & _). eapply listed; [exact H|apply interior_lt|apply inside_at]. Qed.
Lemma C_list i : Permutation (lookup (snd fr) i) (filter (touches ev nb i) (ids ev)).
Proof. destruct (boundary_sets_lemma ev nei Ht i) as (_ & H & _). eapply listed; [exact H|apply touching_lt'|apply touch_at]. Qed.
Lemma B_none i : fst fr i = None <-> existsb (inside ev nb i) (ids ev) = false.
Proof.
  destruct (boundary_sets_lemma ev nei Ht i) as (_ & _ & ->). split.
  - intros N. destruct (existsb _ _) eqn:E; [|reflexivity]. exfalso. apply N. apply existsb_exists in E. destruct E as (k & K1 & K2). apply in_ids in K1. exists k. apply inside_at; assumption.
  - intros E (k & K). pose proof (interior_lt i k K) as L. apply inside_at in K; [|exact L]. assert (existsb (inside ev nb i) (ids ev) = true); [|congruence].
    apply existsb_exists. exists k. split; [apply in_ids; exact L|exact K].
Qed.
Lemma mem_list l f k : Permutation l (filter f (ids ev)) -> k < n -> mem k l = f k.
Proof.
  intros Pm L. destruct (f k) eqn:E.
  - apply mem_In. eapply Permutation_in; [symmetry; exact Pm|]. apply filter_In. split; [apply in_ids; exact L|exact E].
  - destruct (mem k l) eqn:M; [|reflexivity]. apply mem_In in M. eapply Permutation_in in M; [|exact Pm]. apply filter_In in M. destruct M. congruence.
Qed.

(** the states of the object after questions that came across [seen] *)
Definition sets_ok (seen : list nat) (BC : dict * dict) : Prop :=
  (forall i, lookup (fst BC) i = lookup (fst fr) i) /\ (forall i, lookup (snd BC) i = lookup (snd fr) i) /\
  (forall i, fst BC i = None <-> (fst fr i = None /\ ~ In i seen)).
Lemma sets_fresh : sets_ok [] fr.
Proof. split; [reflexivity|]. split; [reflexivity|]. intros i. cbn. tauto. Qed.
Lemma sets_touchC seen BC i : sets_ok seen BC -> sets_ok seen (fst BC, touch (snd BC) i).
Proof. intros (A & B & C). split; [exact A|]. split; [|exact C]. intros k. cbn [snd]. rewrite lookup_touch. apply B. Qed.
Lemma sets_touch seen BC i : sets_ok seen BC -> sets_ok (seen ++ [i]) (touch (fst BC) i, touch (snd BC) i).
Proof.
  intros (A & B & C). split; [intros k; cbn [fst]; rewrite lookup_touch; apply A|]. split; [intros k; cbn [snd]; rewrite lookup_touch; apply B|].
  intros k. cbn [fst]. unfold touch. rewrite in_app_iff. destruct (Nat.eqb_spec k i) as [->|N].
  - split; [discriminate|]. intros [_ X]. exfalso. apply X. right. left. reflexivity.
  - rewrite C. split; intros [X Y]; (split; [exact X|]); intros Z; apply Y; [destruct Z as [Z|[Z|[]]]; congruence|left; exact Z].
Qed.
Lemma in_seen i seen : existsb (Nat.eqb i) seen = true <-> In i seen.
Proof. rewrite existsb_exists. split; [intros (k & K & E); apply Nat.eqb_eq in E; subst; exact K|intros H; exists i; split; [exact H|apply Nat.eqb_refl]]. Qed.

(** ** Contours *)
Section Vols.
Context (v : list Qc) (Lv : length v = n) (Nv : forall x, In x v -> (0 <= x)%Qc).
Lemma vol_list l f : Permutation l (filter f (ids ev)) -> vol v l = cells_vol ev v f.
Proof. intros H. rewrite (vol_perm v _ _ H). reflexivity. Qed.
Lemma in_list l f k : Permutation l (filter f (ids ev)) -> In k l -> k < length v.
Proof. intros H K. eapply Permutation_in in K; [|exact H]. apply filter_In in K. destruct K as [K _]. apply in_ids in K. congruence. Qed.
Lemma filter_and (f g : nat -> bool) l : filter g (filter f l) = filter (fun k => f k && g k) l.
Proof. induction l as [|a l IH]; [reflexivity|]. cbn [filter]. destruct (f a); cbn [filter andb]; [destruct (g a)|]; congruence. Qed.
Lemma lam_list l f i : Permutation l (filter f (ids ev)) -> vol (lam_vol ev v i) l = cells_vol ev v (fun k => f k && in_ev ev i k).
Proof.
  intros H. rewrite vol_lam by (try congruence; intros k; apply (in_list l f k H)). rewrite (vol_perm v _ (filter (fun k => nth k ev 0 =? i) (filter f (ids ev)))).
  - rewrite filter_and. reflexivity.
  - clear - H. induction H; cbn [filter]; repeat match goal with |- context [if ?c then _ else _] => destruct c end; eauto using Permutation_refl, perm_skip, perm_swap, perm_trans.
Qed.
Lemma cells_vol_le f h : (forall k, f k = true -> h k = true) -> (cells_vol ev v f <= cells_vol ev v h)%Qc.
Proof.
  intros H. unfold cells_vol. apply (vol_incl v (filter f (ids ev)) (filter h (ids ev)) Nv).
  - apply NoDup_filter, seq_NoDup.
  - intros k K. apply filter_In in K. apply filter_In. split; [apply K|apply H, K].
Qed.
Lemma cells_vol_nonneg f : (0 <= cells_vol ev v f)%Qc.
Proof. apply vol_nonneg. exact Nv. Qed.
Lemma pos_neq (x : Qc) : (0 < x)%Qc -> x <> 0%Qc.
Proof. intros H E. rewrite E in H. revert H. apply Qcle_not_lt, Qcle_refl. Qed.
Lemma sgn_pos (x : Qc) : (0 < x)%Qc -> sgn_inf x = PInf.
Proof. intros H. unfold sgn_inf. rewrite (proj2 (qltb_true 0 x) H). reflexivity. Qed.
Lemma neq_eqb (x : Qc) : x <> 0%Qc -> qeqb x 0 = false.
Proof. intros H. apply qeqb_false. exact H. Qed.
Lemma bounds_formula p a c d : (0 < p)%Qc -> (0 <= a)%Qc -> (a <= d)%Qc -> (d <= c)%Qc ->
  let t1 := xadd (xdivq a c) (Fin (- (1))%Qc) in let t2 := xadd (xdivq d a) (Fin (- (1))%Qc) in
  (xmul (Fin p) (pymax t1 t2), xmul (Fin p) (pymin t1 t2)) = bounds_from p a c d.
Proof.
  intros Hp Ha Had Hdc. cbv zeta. unfold bounds_from. destruct (qltb 0 a) eqn:Ea.
  - apply qltb_true in Ea. assert (Hc : (0 < c)%Qc) by qc_lra. rewrite !xdivq_fin by (apply pos_neq; assumption).
    cbn [xadd]. assert (A1 : (a / c <= 1)%Qc) by (apply qc_div_le; [exact Hc|qc_lra]). assert (A2 : (1 <= d / a)%Qc) by (apply qc_le_div; [exact Ea|qc_lra]).
    assert (X : (a / c + - (1) <= d / a + - (1))%Qc) by qc_lra. destruct (pymax_fin _ _ X) as [-> ->]. reflexivity.
  - apply qltb_false in Ea. assert (E0 : a = 0%Qc) by (apply Qcle_antisym; assumption). subst a. destruct (qltb 0 d) eqn:Ed.
    + apply qltb_true in Ed. assert (Hc : (0 < c)%Qc) by qc_lra. rewrite xdivq_fin by (apply pos_neq; exact Hc). unfold xdivq. change (qeqb 0 0) with true. cbv iota. rewrite (neq_eqb d) by (apply pos_neq; exact Ed). rewrite (sgn_pos d Ed). cbn [xadd].
      unfold pymax, pymin. cbn [xltb xleb negb xmul]. rewrite (neq_eqb p) by (apply pos_neq; exact Hp). rewrite (sgn_pos p Hp). f_equal. f_equal. field. apply pos_neq. exact Hc.
    + apply qltb_false in Ed. assert (E0 : d = 0%Qc) by (apply Qcle_antisym; assumption). subst d. replace (xdivq 0 0) with NaN by reflexivity. cbn [xadd]. destruct (qltb 0 c) eqn:Ec.
      * apply qltb_true in Ec. rewrite xdivq_fin by (apply pos_neq; exact Ec). cbn [xadd]. unfold pymax, pymin. cbn [xltb xmul]. f_equal; f_equal; field; apply pos_neq; exact Ec.
      * apply qltb_false in Ec. assert (E0 : c = 0%Qc) by (apply Qcle_antisym; assumption). subst c. reflexivity.
Qed.
Lemma inside_touches i k : inside ev nb i k = true -> touches ev nb i k && in_ev ev i k = true.
Proof. unfold inside. rewrite !andb_true_iff. tauto. Qed.
Lemma cells_vol_ext f h : (forall k, f k = h k) -> cells_vol ev v f = cells_vol ev v h.
Proof. intros E. unfold cells_vol. f_equal. f_equal. apply filter_ext. exact E. Qed.
Lemma entry_formula seen BC i p : sets_ok seen BC -> exists BC', contour_entry ev v p i BC = Ok (event_bounds ev nb v seen i p, BC') /\ sets_ok seen BC'.
Proof.
  intros R. pose proof R as (A & B & C). unfold contour_entry, event_bounds. destruct (qltb 0 p) eqn:Ep; [|exists BC; auto]. apply qltb_true in Ep.
  destruct (fst BC i) as [Bi|] eqn:E.
  - assert (EB : Bi = lookup (fst fr) i) by (rewrite <- A; unfold lookup; rewrite E; reflexivity). cbv zeta. rewrite B, EB.
    rewrite !sum_at_ok by (intros k K; rewrite ?lam_length by congruence; eapply in_list; [|exact K]; first [apply B_list|apply C_list]). cbn [bind].
    rewrite (vol_list _ _ (B_list i)), (vol_list _ _ (C_list i)), (lam_list _ _ i (B_list i)), (lam_list _ _ i (C_list i)).
    rewrite (cells_vol_ext (fun k => inside ev nb i k && in_ev ev i k) (inside ev nb i)) by (intros k; destruct (inside ev nb i k) eqn:I; [|reflexivity]; apply inside_touches in I; apply andb_true_iff in I; destruct I as [_ ->]; reflexivity).
    rewrite (bounds_formula p (cells_vol ev v (inside ev nb i)) (cells_vol ev v (touches ev nb i)) (cells_vol ev v (fun k => touches ev nb i k && in_ev ev i k)) Ep).
    + exists (fst BC, touch (snd BC) i). split; [|apply sets_touchC; exact R]. destruct (existsb (inside ev nb i) (ids ev)) eqn:I; [reflexivity|]. cbn [orb].
      assert (S0 : existsb (Nat.eqb i) seen = true); [|rewrite S0; reflexivity]. apply in_seen. apply B_none in I. destruct (in_dec Nat.eq_dec i seen) as [Y|N]; [exact Y|].
      exfalso. assert (fst BC i = None) by (apply C; auto). congruence.
    + apply cells_vol_nonneg.
    + apply cells_vol_le. apply inside_touches.
    + apply cells_vol_le. intros k K. apply andb_true_iff in K. apply K.
  - exists BC. split; [|exact R]. apply C in E. destruct E as [E N]. apply B_none in E. rewrite E. cbn [orb].
    destruct (existsb (Nat.eqb i) seen) eqn:S0; [|reflexivity]. apply in_seen in S0. contradiction.
Qed.
Lemma contour_formula seen ips : forall BC, sets_ok seen BC -> exists BC',
  contour_loop ev v ips BC = Ok (map fst (map (fun ip => event_bounds ev nb v seen (fst ip) (snd ip)) ips), map snd (map (fun ip => event_bounds ev nb v seen (fst ip) (snd ip)) ips), BC') /\ sets_ok seen BC'.
Proof.
  induction ips as [|[i p] ips IH]; intros BC R; [exists BC; auto|]. cbn [contour_loop]. destruct (entry_formula seen BC i p R) as (BC1 & -> & R1). cbn [bind].
  destruct (event_bounds ev nb v seen i p) as [u l] eqn:Eb. destruct (IH BC1 R1) as (BC2 & -> & R2). cbn [bind]. exists BC2. split; [|exact R2]. cbn [map fst snd]. rewrite Eb. reflexivity.
Qed.
End Vols.

(** ** Regions *)
Section Region.
Context (blocks : list (list (bool * nat))) (Hb : forall e, In e (concat blocks) -> snd e < n).
Notation pts := (concat blocks).
Lemma count_pts (f g : bool * nat -> bool) : (forall e, snd e < n -> f e = g e) -> count f blocks = length (filter g pts).
Proof. intros E. rewrite count_concat. f_equal. apply filter_ext_in. intros e He. apply E, Hb, He. Qed.
Lemma in_event_at i e : snd e < n -> in_event ev i e = in_ev ev i (snd e).
Proof. intros L. unfold in_event, in_ev. rewrite (nth_error_nth' ev 0 L). reflexivity. Qed.
Lemma count_zero (f : nat -> bool) : (length (filter (fun e : rpoint => f (snd e)) pts) =? 0) = negb (hit f pts).
Proof. apply filter_empty. Qed.
Lemma region_formula_loop seen ips : forall acc BC, sets_ok seen BC -> exists BC',
  region_loop ev blocks ips acc BC =
    ((let evs := filter (fun ip => qltb 0 (snd ip)) ips in
      if forallb (fun ip => all_hit ev nb pts (fst ip)) evs
      then Some ((fst acc + qsum (map (fun ip => (snd ip * qmax (term_1 ev nb pts (fst ip)) (term_2 ev nb pts (fst ip)))%Qc) evs))%Qc,
                 (snd acc + qsum (map (fun ip => (snd ip * qmin (term_1 ev nb pts (fst ip)) (term_2 ev nb pts (fst ip)))%Qc) evs))%Qc)
      else None), BC') /\
  sets_ok (seen ++ come_across ev nb (filter (fun ip => qltb 0 (snd ip)) ips) pts) BC'.
Proof.
  revert seen. induction ips as [|[i p] ips IH]; intros seen acc BC R; cbn [region_loop filter snd].
  - exists BC. cbn [forallb map come_across]. rewrite app_nil_r. split; [|exact R]. change (qsum []) with 0%Qc. destruct acc as [a1 a2]. cbn [fst snd]. do 3 f_equal; ring.
  - destruct (qltb 0 p) eqn:Ep; [|apply IH; exact R]. cbv zeta. pose proof R as (A & B & C). rewrite A, B.
    rewrite (count_pts (fun e => fst e && in_event ev i e) (fun e => fst e && in_ev ev i (snd e))) by (intros e L; rewrite in_event_at by exact L; reflexivity).
    rewrite (count_pts (in_event ev i) (fun e => in_ev ev i (snd e))) by (intros e L; apply in_event_at; exact L).
    rewrite (count_pts (fun e => fst e && mem (snd e) (lookup (fst fr) i)) (fun e => fst e && inside ev nb i (snd e))) by (intros e L; rewrite (mem_list _ _ _ (B_list i) L); reflexivity).
    rewrite (count_pts (fun e => mem (snd e) (lookup (snd fr) i)) (fun e => touches ev nb i (snd e))) by (intros e L; apply (mem_list _ _ _ (C_list i) L)).
    rewrite (count_pts (fun e => fst e && mem (snd e) (lookup (snd fr) i)) (fun e => fst e && touches ev nb i (snd e))) by (intros e L; rewrite (mem_list _ _ _ (C_list i) L); reflexivity).
    rewrite (count_pts (fun e => mem (snd e) (lookup (fst fr) i)) (fun e => inside ev nb i (snd e))) by (intros e L; apply (mem_list _ _ _ (B_list i) L)).
    rewrite !count_zero. cbn [forallb fst come_across]. unfold all_hit at 1 3. destruct (hit (in_ev ev i) pts); cbn [negb andb].
    + destruct (hit (touches ev nb i) pts); cbn [negb andb].
      * destruct (hit (inside ev nb i) pts); cbn [negb andb].
        -- pose proof (sets_touch seen BC i R) as R1.
           match goal with |- context [region_loop ev blocks ips ?acc' _] => destruct (IH _ acc' _ R1) as (BC2 & -> & R2) end. exists BC2. split.
           ++ cbv zeta. destruct (forallb _ _); [|reflexivity]. cbn [map fst snd]. repeat change (qsum (?a :: ?l)) with (a + qsum l)%Qc. unfold term_1, term_2, npts, npts_in. do 3 f_equal; ring.
           ++ rewrite <- app_assoc in R2. exact R2.
        -- eexists. split; [reflexivity|]. apply sets_touch. exact R.
      * eexists. split; [reflexivity|]. apply sets_touch. exact R.
    + exists BC. split; [reflexivity|]. rewrite app_nil_r. exact R.
Qed.
Lemma region_core seen ps BC : sets_ok seen BC -> exists BC' o, region_bounds ev ps blocks BC = (o, BC') /\
  pair_of o = ([fst (region_value ev nb ps pts)], [snd (region_value ev nb ps pts)]) /\ sets_ok (seen ++ come_across ev nb (events ps) pts) BC'.
Proof.
  intros R. unfold region_bounds. destruct (region_formula_loop seen (combine (seq 0 (length ps)) ps) (0, 0)%Qc BC R) as (BC' & E & R'). cbv zeta in E.
  eexists BC', _. split; [exact E|]. split; [|exact R']. unfold region_value. rewrite <- events_probs. destruct (forallb _ _); [|reflexivity]. cbn [pair_of fst snd]. do 2 f_equal; f_equal; f_equal; ring.
Qed.
End Region.
End Core.
