(** The formulas of the answers. *)
From Coq Require Import List Arith Bool QArith Qcanon Lia.
From Verif Require Import Err Num Ext NumPy Lists SampleSet_Model Disc_Model Prob_Spec Volume_Model Error_Model Error_Spec Error_Proofs ErrorDisc_Model ErrorDisc_Spec.
Import ListNotations.
Local Open Scope nat_scope.

Lemma vsum_concat f blocks : vsum f blocks = qsum (map snd (filter f (concat blocks))).
Proof.
  unfold vsum. induction blocks as [|b r IH]; [reflexivity|]. cbn [map concat]. change (qsum (?a :: ?l)) with (a + qsum l)%Qc. rewrite IH, filter_app, map_app, qsum_app. reflexivity.
Qed.
Lemma vol_kept_zero s i : (forall e, In e s -> (0 <= snd e)%Qc) -> vol_after s i = 0%Qc -> vol_kept s i = 0%Qc.
Proof.
  intros N. unfold vol_after, vol_kept, vol_where. intros H. apply Qcle_antisym.
  - rewrite <- H. clear H. induction s as [|e s IH]; [apply Qcle_refl|]. specialize (IH (fun x Hx => N x (or_intror Hx))). pose proof (N e (or_introl eq_refl)) as Ne. cbn [filter].
    destruct (snd (fst e) =? i); rewrite ?andb_true_r, ?andb_false_r; [destruct (fst (fst e) =? i)|exact IH]; cbn [map]; repeat change (qsum (?a :: ?l)) with (a + qsum l)%Qc; qc_lra.
  - clear H. induction s as [|e s IH]; [apply Qcle_refl|]. specialize (IH (fun x Hx => N x (or_intror Hx))). pose proof (N e (or_introl eq_refl)) as Ne. cbn [filter].
    destruct ((fst (fst e) =? i) && (snd (fst e) =? i)); [|exact IH]. cbn [map]. change (qsum (?a :: ?l)) with (a + qsum l)%Qc. qc_lra.
Qed.
Lemma entry_error blocks i p : (forall e, In e (concat blocks) -> (0 <= snd e)%Qc) -> model_error_entry blocks i p = event_error (concat blocks) i p.
Proof.
  intros N. unfold model_error_entry, event_error. destruct (qltb 0 p); [|reflexivity]. cbv zeta. rewrite !vsum_concat.
  change (qsum (map snd (filter (fun e : nat * nat * Qc => fst (fst e) =? i) (concat blocks)))) with (vol_before (concat blocks) i).
  change (qsum (map snd (filter (fun e : nat * nat * Qc => snd (fst e) =? i) (concat blocks)))) with (vol_after (concat blocks) i).
  change (qsum (map snd (filter (fun e : nat * nat * Qc => (fst (fst e) =? i) && (snd (fst e) =? i)) (concat blocks)))) with (vol_kept (concat blocks) i).
  pose proof (vol_kept_zero (concat blocks) i N) as K. set (b := vol_before _ i) in *. set (a := vol_after _ i) in *. set (k := vol_kept _ i) in *.
  destruct (qeqb b 0) eqn:Eb; cbn [orb].
  - apply qeqb_true in Eb. rewrite Eb. replace (0 * a - k * 0)%Qc with 0%Qc by ring. replace (0 * a)%Qc with 0%Qc by ring. reflexivity.
  - apply qeqb_false in Eb. destruct (qeqb a 0) eqn:Ea.
    + apply qeqb_true in Ea. rewrite (K Ea), Ea. replace (b * 0 - 0 * b)%Qc with 0%Qc by ring. replace (b * 0)%Qc with 0%Qc by ring. reflexivity.
    + apply qeqb_false in Ea. rewrite xdivq_fin by (intros E; apply Qcmult_integral in E; destruct E; contradiction). cbn [xmul]. do 2 f_equal. field. auto.
Qed.
Lemma contours_formula blocks ps : (forall e, In e (concat blocks) -> (0 <= snd e)%Qc) ->
  model_error_contours blocks ps = map (fun ip => event_error (concat blocks) (fst ip) (snd ip)) (combine (seq 0 (length ps)) ps).
Proof. intros N. unfold model_error_contours. apply map_ext. intros ip. apply entry_error. exact N. Qed.
Lemma contours_none ps : existsb (qltb 0) ps = false -> forall s, model_error_contours [] ps = map (fun ip => event_error s (fst ip) (snd ip)) (combine (seq 0 (length ps)) ps).
Proof.
  intros N s. unfold model_error_contours. apply map_ext_in. intros [i p] H. apply in_combine_r in H. unfold model_error_entry, event_error. cbn [fst snd].
  destruct (qltb 0 p) eqn:E; [|reflexivity]. assert (existsb (qltb 0) ps = true) by (apply existsb_exists; eauto). congruence.
Qed.

(** Regions *)
Definition as_point (e : epoint) : spoint := (in_A e, cell1 e, cell2 e).
Lemma count_number (f : epoint -> bool) (g : spoint -> bool) blocks : (forall e, f e = g (as_point e)) ->
  count f blocks = length (filter g (map as_point (concat blocks))).
Proof.
  intros E. rewrite count_concat. induction (concat blocks) as [|e l IH]; [reflexivity|]. cbn [filter map]. rewrite E. destruct (g (as_point e)); cbn [length]; congruence.
Qed.
Lemma filter_empty {A} (f : A -> bool) l : (length (filter f l) =? 0) = negb (existsb f l).
Proof. induction l as [|a l IH]; [reflexivity|]. cbn [filter existsb]. destruct (f a); [reflexivity|exact IH]. Qed.
Lemma contribution_eq blocks i p : let pts := map as_point (concat blocks) in
  contribution blocks i p = if negb (existsb (from i) pts) || negb (existsb (to i) pts) then None else Some (share_change pts i p).
Proof.
  cbv zeta. set (pts := map as_point (concat blocks)). unfold contribution. cbv zeta.
  rewrite (count_number (fun e => in_A e && in1 i e) (fun e => is_in e && from i e) blocks) by reflexivity. rewrite (count_number (in1 i) (from i) blocks) by reflexivity.
  rewrite (count_number (fun e => in_A e && in2 i e) (fun e => is_in e && to i e) blocks) by reflexivity. rewrite (count_number (in2 i) (to i) blocks) by reflexivity. fold pts.
  rewrite <- !filter_empty. unfold share_change, number.
  set (b := length (filter (from i) pts)). set (a := length (filter (to i) pts)).
  destruct (Nat.eqb_spec b 0) as [Eb|Nb]; [rewrite Eb; reflexivity|]. destruct (Nat.eqb_spec a 0) as [Ea|Na]; [rewrite Ea, Nat.mul_0_r; reflexivity|].
  destruct (Nat.eqb_spec (b * a) 0) as [E|_]; [lia|]. cbn [orb]. do 2 f_equal. field. split; apply qn_neq0; lia.
Qed.
Lemma region_loop_eq blocks ips : forall acc, let pts := map as_point (concat blocks) in let evs := filter (fun ip => qltb 0 (snd ip)) ips in
  region_error_loop blocks ips acc =
  if existsb (fun ip => negb (existsb (from (fst ip)) pts) || negb (existsb (to (fst ip)) pts)) evs then Raise PyZeroDivision
  else Ok (acc + qsum (map (fun ip => share_change pts (fst ip) (snd ip)) evs))%Qc.
Proof.
  cbv zeta. induction ips as [|[i p] r IH]; intros acc; cbn [region_error_loop filter snd].
  - cbn [existsb map]. change (qsum []) with 0%Qc. f_equal. ring.
  - destruct (qltb 0 p); [|apply IH]. rewrite contribution_eq. cbv zeta. cbn [existsb fst map snd].
    destruct (negb (existsb (from i) _) || negb (existsb (to i) _)); cbn [orb]; [reflexivity|]. rewrite IH. destruct (existsb _ _); [reflexivity|].
    change (qsum (?a :: ?l)) with (a + qsum l)%Qc. f_equal. ring.
Qed.
Lemma region_formula ps blocks : let pts := map as_point (concat blocks) in
  region_error ps blocks = if some_event_empty ps pts then Raise PyZeroDivision else Ok (total_change ps pts).
Proof.
  cbv zeta. unfold region_error. rewrite region_loop_eq. unfold some_event_empty, total_change, events. destruct (existsb _ _); [reflexivity|]. f_equal. ring.
Qed.
Lemma no_events ps : existsb (qltb 0) ps = false -> events ps = [].
Proof.
  intros N. unfold events. generalize 0 at 1. induction ps as [|p ps IH]; intros k; [reflexivity|]. cbn [existsb] in N. apply orb_false_iff in N. destruct N as [N1 N2].
  cbn [length seq combine filter snd]. rewrite N1. apply IH. exact N2.
Qed.
Lemma region_mc_loop_eq blocks ips : forall acc ids, let pts := map as_point (concat blocks) in let evs := filter (fun ip => qltb 0 (snd ip)) ips in
  fst (region_mc_loop blocks ips (Fin acc) ids) =
  if existsb (fun ip => negb (existsb (from (fst ip)) pts) || negb (existsb (to (fst ip)) pts)) evs then PInf
  else Fin (acc + qsum (map (fun ip => share_change pts (fst ip) (snd ip)) evs))%Qc.
Proof.
  assert (X : forall ips ids, fst (region_mc_loop blocks ips PInf ids) = PInf).
  { induction ips0 as [|[i p] r IH]; intros ids; cbn [region_mc_loop]; [reflexivity|]. destruct (qltb 0 p); [|apply IH]. cbv zeta. destruct (contribution blocks i p); cbn [xadd]; apply IH. }
  cbv zeta. induction ips as [|[i p] r IH]; intros acc ids; cbn [region_mc_loop filter snd].
  - cbn [existsb map fst]. change (qsum []) with 0%Qc. f_equal. ring.
  - destruct (qltb 0 p); [|apply IH]. cbv zeta. rewrite contribution_eq. cbv zeta. cbn [existsb fst map snd].
    destruct (negb (existsb (from i) _) || negb (existsb (to i) _)); cbn [orb xadd]; [apply X|]. rewrite IH. destruct (existsb _ _); [reflexivity|].
    change (qsum (?a :: ?l)) with (a + qsum l)%Qc. f_equal. ring.
Qed.
Lemma region_mc_formula ps blocks : let pts := map as_point (concat blocks) in
  fst (region_error_mc ps blocks) = if some_event_empty ps pts then PInf else Fin (total_change ps pts).
Proof.
  cbv zeta. unfold region_error_mc. rewrite region_mc_loop_eq. unfold some_event_empty, total_change, events. destruct (existsb _ _); [reflexivity|]. f_equal. ring.
Qed.
