(** Proofs about samplers: sampling into a set again, copies. *)
From Coq Require Import List Arith Bool Lia QArith Qcanon.
From Verif Require Import Err Num NumPy Lists SampleSet_Model SampleSet_Spec SampleSet_Proofs Prob_Model Disc_Model Sampling_Model Workflow_Model Workflow_Spec Workflow_Proofs Refs_Model Refs_Spec Refs_Proofs RefsView_Proofs RefsNew_Proofs Sampler_Model Sampler_Spec Sampler_Proofs SamplerFill_Proofs SamplerRun_Proofs SamplerDisc_Proofs.
Import ListNotations.
Local Open Scope nat_scope.
Local Open Scope sampler_scope.

(** ** Latin hypercube samples, then random ones *)
Lemma random_after_lhs P n1 n2 g1 g2 draw interval d dom bs s : 0 < P -> length (concat (map rows bs)) = n1 ->
  only_samples d bs g1 (bounds_of n1 d dom) s ->
  exists s1, fill_random P n2 g2 draw interval s = (s1, Ok tt) /\ only_samples d (random_blocks P n2 draw d) g2 (bounds_of n1 d dom) s1.
Proof.
  intros HP Lb (D & L & G & K & W). unfold fill_random. set (t := with_domain _ _).
  assert (Lt : forall a, loc t a = if attr_eq_dec a Values then Some (random_blocks P n2 draw d) else None).
  { intros a. cbn. unfold upd. rewrite D. destruct (attr_eq_dec a Values) as [-> | n]; [reflexivity |]. rewrite L. destruct (attr_eq_dec a Values); congruence. }
  assert (Gt : forall a, glob t a = glob s a) by reflexivity.
  assert (Wt : check_width t = Ok tt).
  { unfold check_width. rewrite Gt, G. cbn. destruct g1; [| reflexivity]. cbn. rewrite D, Nat.eqb_refl. reflexivity. }
  destruct (sum_local_ok t _ Wt Lt (seq 0 P)) as [k ->]. cbn [bind].
  assert (C : check_num P t = Ok n1).
  { unfold check_num. rewrite Wt. unfold all_attrs. cbn [map]. rewrite !Gt, !G. destruct g1; cbn; rewrite ?Lb, ?repeat_length, !Nat.eqb_refl; reflexivity. }
  rewrite C. destruct (globalized_samples t (random_blocks P n2 draw d) d g2 (bounds_of n1 d dom)) as (s1 & E1 & E2 & _); auto.
  - now apply random_blocks_some.
  - apply random_blocks_shape.
  - intros a n. rewrite Gt, G. destruct (attr_eq_dec a Values); congruence.
  - exists s1. auto.
Qed.
Lemma lhs_random_lemma : forall model P n1 n2 g1 g2 H draw interval ob d o f w, 0 < P -> new_dim ob = Some d -> row_model d o f model ->
  full_draws draw -> (forall r, length (H r) = n1) -> n1 <> n2 ->
  exists w1 w2 w3 a, s_lhs P n1 g1 H ob w = (w1, Ok a) /\ s_random P n2 g2 draw interval (SetAt a) w1 = (w2, Ok a) /\
    s_compute model P (Some a) true w2 = (w3, Raise LengthNotMatching).
Proof.
  intros model P n1 n2 g1 g2 H draw interval ob d o f w HP Nd M Fd FH Ne. destruct (fresh_dim ob d Nd) as (s0 & F & D0).
  destruct (lhs_fresh_lemma P n1 g1 H ob s0 w HP F) as (s1 & E & O & Dm). rewrite D0 in O.
  destruct (random_after_lhs P n1 n2 g1 g2 draw interval d (domain_or_unit s0) _ s1 HP (lhs_rows P (domain_or_unit s0) H d n1 HP FH) O) as (s2 & E2 & O2).
  set (a := length (w_sets w)) in *. set (bs := random_blocks P n2 draw d) in *.
  assert (N : bs <> []) by (apply random_blocks_some; exact HP). assert (Sh : forall b, In b bs -> tail_shape b = [d]) by apply random_blocks_shape.
  destruct (samples_globalized d bs g2 true _ s2 N Sh O2) as (s3 & E3 & O3 & _).
  assert (No : outputs o f bs <> []) by (unfold outputs; destruct bs; [congruence | discriminate]).
  destruct (samples_l2g o (outputs o f bs) false nothing _ No (outputs_shape o f bs) (out_set_samples o (outputs o f bs))) as (t & Et & Ot & _).
  assert (Lv : loc s2 Values = Some bs) by (destruct O2 as (_ & L & _); rewrite L; reflexivity).
  do 4 eexists. split; [exact E |]. split.
  - unfold s_random, sbind. cbn [as_set sret].
    pose proof (on_set_last (w_sets w) s1 (mk_swork (w_sets w ++ [s1]) (w_discs w) (Some a) (s_disc w)) _ s2 eq_refl E2) as X. fold a in X.
    rewrite X. reflexivity.
  - erewrite s_compute_eq; [| reflexivity | | unfold localized; rewrite Lv; reflexivity | unfold loc_values; rewrite Lv; reflexivity
      | apply (out_set_rows d o f); auto | exact E3 | exact Et].
    2: { cbn. rewrite nth_error_app2 by (unfold a; lia). unfold a. rewrite Nat.sub_diag. reflexivity. }
    cbv zeta. assert (C : nums_check P t s3 = Raise LengthNotMatching).
    { unfold nums_check. rewrite (samples_count P o (outputs o f bs) true t HP (eq_trans (outputs_length o f bs) (random_blocks_length P n2 draw d)) Ot). cbn [bind].
      destruct O3 as (D & L & G & _). unfold check_num, all_attrs. cbn [map]. rewrite !G. cbn. fold bs. rewrite (random_rows P n2 draw d HP Fd : length (concat (map rows bs)) = n2), repeat_length.
      assert (X : (n2 =? n1) = false) by (apply Nat.eqb_neq; congruence). rewrite X. reflexivity. }
    rewrite C. reflexivity.
Qed.

(** ** A discretization whose input set is sampled into again *)
Lemma again_lemma : forall P n draw interval w w1 j d a o t, s_random P n true draw interval (SetAt a) w = (w1, Ok a) -> 0 < P ->
  nth_error (w_discs w) j = Some d -> r_in d = Some a -> r_out d = Some o -> nth_error (w_sets w) o = Some t -> a <> o ->
  nth_error (w_discs w1) j = Some d /\ nth_error (w_sets w1) o = Some t /\
  exists s, nth_error (w_sets w1) a = Some s /\ loc s Values = Some (drawn P n draw (dim s)) /\
    glob s Values = Some (mk_arr (concat (map rows (drawn P n draw (dim s)))) [dim s]).
Proof.
  intros P n draw interval w w1 j d a o t E HP Ed Ei Eo Et n0. unfold s_random in E.
  rewrite (sbind_ok _ _ _ _ _ (eq_refl (sret a w))) in E. apply sbind_inv in E. destruct E as (w2 & [] & E1 & E).
  unfold on_set in E1. destruct (nth_error (w_sets w) a) as [s|] eqn:Ea; [| discriminate].
  assert (La : a < length (w_sets w)) by (apply nth_error_Some; congruence).
  destruct (fill_random P n true draw interval s) as [s1 r] eqn:Ef. injection E1 as <- ->. cbn in E. injection E as <-. cbn.
  split; [exact Ed |]. split; [rewrite write_other by auto; exact Et |]. exists s1. split; [now apply write_same |].
  destruct (stale_lemma _ _ _ _ _ _ _ Ef) as (Lv & _). 
  assert (X : dim s1 = dim s /\ glob s1 Values = Some (mk_arr (concat (map rows (random_blocks P n draw (dim s)))) [dim s])).
  { unfold fill_random in Ef. revert Ef. set (t0 := with_domain _ _). destruct (bind (sum_local t0 (seq 0 P)) _) as [k|e]; [| discriminate]. intros Ef.
    destruct (globalized_keeps _ _ _ _ Ef) as (Dk & _ & _ & _ & _ & _ & _ & Gk & _). split; [exact Dk |].
    destruct (Gk eq_refl eq_refl Values (random_blocks P n draw (dim s)) eq_refl) as (x & Ex & ->).
    rewrite (gather_same _ [dim s]) in Ex; [congruence | now apply random_blocks_some | apply random_blocks_shape]. }
  destruct X as (X1 & X2). rewrite X1, <- drawn_eq by exact HP. auto.
Qed.
Lemma kept_lemma : forall nn model P cs w j d v, nth_error (w_discs w) j = Some d -> sees (w_sets w) d v ->
  out_of_reach (fun a => In a (refs d)) (eq j) w cs ->
  let '(w1, _) := scall_run nn model P cs w in nth_error (w_discs w1) j = Some d /\ sees (w_sets w1) d v.
Proof.
  intros nn model P cs w j d v Ed V O. pose proof (frame_lemma nn model P _ _ cs w O) as X. destruct (scall_run nn model P cs w) as [w1 rs].
  destruct X as [X1 X2]. split; [now rewrite X2 |]. 
  assert (Y : forall f s, is_place f -> sees_place (w_sets w) (f d) s -> sees_place (w_sets w1) (f d) s).
  { intros f s Pl. unfold sees_place. destruct (f d) as [a|] eqn:E; auto. intros [<- N]. rewrite X1 by (now apply (Pl d)). auto. }
  destruct V as (V1 & V2 & V3 & V4 & V5 & V6 & V7). split; [apply Y; auto using place_in |]. split; [apply Y; auto using place_out |]. split; [apply Y; auto using place_prob |].
  split; [apply Y; auto using place_ein |]. split; [apply Y; auto using place_eout |]. split; [apply Y; auto using place_obs |]. exact V7.
Qed.

(** ** Copies of a sampler *)
Lemma copy_lemma : forall w w1 i j, (forall a, s_in w = Some a -> a < length (w_sets w)) ->
  (forall k, s_disc w = Some k -> exists d v, nth_error (w_discs w) k = Some d /\ sees (w_sets w) d v) ->
  s_copy w = (w1, Ok (i, j)) ->
  (exists ext, w_sets w1 = w_sets w ++ ext) /\ s_in w1 = s_in w /\ s_disc w1 = s_disc w /\
  match s_in w with
  | None => i = None
  | Some a => exists b, i = Some b /\ length (w_sets w) <= b < length (w_sets w1) /\ nth_error (w_sets w1) b = nth_error (w_sets w) a
  end /\
  match s_disc w with
  | None => j = None /\ w_discs w1 = w_discs w
  | Some k => exists d v e, j = Some (length (w_discs w)) /\ nth_error (w_discs w) k = Some d /\ sees (w_sets w) d v /\
      w_discs w1 = w_discs w ++ [e] /\ sees (w_sets w1) e v /\
      (forall b, In b (refs e) -> length (w_sets w) <= b < length (w_sets w1)) /\
      (forall f a, In f [r_in; r_out; r_prob; r_ein; r_eout; r_obs] -> s_in w = Some a -> (f d = Some a <-> exists b, i = Some b /\ f e = Some b))
  end.
Proof.
  intros w w1 i j Hin Hd E. unfold s_copy in E. destruct (copy_place [] (w_sets w) (s_in w)) as [[h1 memo1] i0] eqn:C.
  destruct (copy_place_ok (w_sets w) (w_sets w) [] (s_in w) h1 memo1 i0 (memo_ok_nil _) Hin C) as (I1 & G1 & E1 & L1).
  assert (Xi : match s_in w with
    | None => i0 = None
    | Some a => exists b, i0 = Some b /\ look memo1 a = Some b /\ length (w_sets w) <= b < length h1 /\ nth_error h1 b = nth_error (w_sets w) a
    end).
  { destruct (s_in w) as [a|] eqn:Es; [| exact E1]. destruct I1 as (_ & I2 & _). rewrite E1. destruct (look memo1 a) as [b|] eqn:Lk; [| exfalso; now apply (L1 a eq_refl)].
    exists b. destruct (I2 a b Lk). auto. }
  assert (Xh : exists ext, h1 = w_sets w ++ ext) by apply I1.
  destruct (s_disc w) as [k|] eqn:Ek.
  - destruct (Hd k eq_refl) as (d & v & Ed & V). rewrite Ed in E. destruct (copy_from memo1 h1 d) as [h2 e] eqn:Cf. injection E as <- <- <-.
    destruct (copy_from_lemma _ _ _ _ _ _ _ _ I1 V Cf) as (memo2 & I2 & G2 & V2 & R2 & P2 & L2).
    cbn [w_sets w_discs s_in s_disc with_sets with_discs]. split; [apply I2 |]. split; [reflexivity |]. split; [exact Ek |]. split.
    + destruct (s_in w) as [a|] eqn:Es; [| exact Xi]. destruct Xi as (b & -> & Lb & _). exists b. split; [reflexivity |]. destruct I2 as (_ & I2 & _). apply I2. now apply G2.
    + exists d, v, e. split; [reflexivity |]. split; [exact Ed |]. split; [exact V |]. split; [reflexivity |].
      split; [exact V2 |]. split; [exact R2 |]. intros f a Hf Ea. rewrite Ea in Xi. destruct Xi as (b & -> & Lb & _). apply G2 in Lb.
      rewrite (P2 f Hf). split.
      * intros ->. exists b. auto.
      * intros (b' & [= <-] & Eb). destruct (f d) as [a'|]; [| discriminate]. destruct I2 as (_ & _ & I3). f_equal. exact (I3 _ _ _ Eb Lb).
  - injection E as <- <- <-. cbn. split; [exact Xh |]. split; [reflexivity |]. split; [exact Ek |]. split; [| auto].
    destruct (s_in w) as [a|]; [| exact Xi]. destruct Xi as (b & -> & _ & X). eauto.
Qed.
Lemma copy_apart_lemma : forall nn model P w w1 i j cs, (forall a, s_in w = Some a -> a < length (w_sets w)) ->
  (forall k, s_disc w = Some k -> exists d v, nth_error (w_discs w) k = Some d /\ sees (w_sets w) d v) ->
  s_copy w = (w1, Ok (i, j)) ->
  (forall c a, In c cs -> In a (given c) -> length (w_sets w) <= a) -> (forall c k, In c cs -> works_on c = Some k -> length (w_discs w) <= k) ->
  let '(w2, _) := scall_run nn model P cs (mk_swork (w_sets w1) (w_discs w1) i j) in
  (forall a, a < length (w_sets w) -> nth_error (w_sets w2) a = nth_error (w_sets w) a) /\
  (forall k, k < length (w_discs w) -> nth_error (w_discs w2) k = nth_error (w_discs w) k).
Proof.
  intros nn model P w w1 i j cs Hin Hd E Hg Hw. destruct (copy_lemma w w1 i j Hin Hd E) as ((ext & Es) & _ & _ & Xi & Xd).
  assert (O : out_of_reach (fun a => a < length (w_sets w)) (fun k => k < length (w_discs w)) (mk_swork (w_sets w1) (w_discs w1) i j) cs).
  { split; [| split; [| split; [| split; [| split; [| split]]]]]; cbn.
    - intros a Ha. rewrite Es, app_length. lia.
    - intros k Hk. destruct (s_disc w) as [k0|]; [destruct Xd as (d & v & e & _ & _ & _ & -> & _); rewrite app_length; lia | destruct Xd as [_ ->]; exact Hk].
    - intros k d a Ek nk Ia La. destruct (s_disc w) as [k0|].
      + destruct Xd as (d0 & v & e & _ & _ & _ & Ew & _ & R & _). rewrite Ew, nth_error_app2 in Ek by lia.
        destruct (k - length (w_discs w)) as [|m]; cbn in Ek; [injection Ek as <-; apply R in Ia; lia | destruct m; discriminate].
      + destruct Xd as [_ Ew]. rewrite Ew in Ek. apply nk. apply nth_error_Some. congruence.
    - intros a Ea La. destruct (s_in w) as [a0|]; [destruct Xi as (b & Eb & Lb & _); rewrite Ea in Eb; injection Eb as <-; lia | congruence].
    - intros k Ek Lk. destruct (s_disc w) as [k0|]; [destruct Xd as (d & v & e & Ej & _); rewrite Ek in Ej; injection Ej as ->; lia | destruct Xd as [Ej _]; congruence].
    - intros c a Hc Ha La. specialize (Hg c a Hc Ha). lia.
    - intros c k Hc Hk Lk. specialize (Hw c k Hc Hk). lia. }
  pose proof (frame_lemma nn model P _ _ cs _ O) as X. destruct (scall_run nn model P cs _) as [w2 rs]. destruct X as [X1 X2]. cbn in X1, X2. split.
  - intros a Ha. rewrite X1 by exact Ha. rewrite Es. now apply nth_error_app1.
  - intros k Hk. rewrite X2 by exact Hk. destruct (s_disc w) as [k0|]; [destruct Xd as (d & v & e & _ & _ & _ & -> & _); now apply nth_error_app1 | now destruct Xd as [_ ->]].
Qed.

(** ** What stays in a set that is sampled into *)
Lemma resample_lemma : forall P n g draw interval a w w1 s, 0 < P -> nth_error (w_sets w) a = Some s -> s_random P n g draw interval (SetAt a) w = (w1, Ok a) ->
  exists s1, nth_error (w_sets w1) a = Some s1 /\ loc s1 Values = Some (drawn P n draw (dim s)) /\
    (forall x, x <> Values -> loc s1 x = loc s x /\ (loc s x = None -> glob s1 x = glob s x)) /\ kd s1 = kd s /\ weights s1 = weights s.
Proof.
  intros P n g draw interval a w w1 s HP Es E. unfold s_random in E.
  rewrite (sbind_ok _ _ _ _ _ (eq_refl (sret a w))) in E. apply sbind_inv in E. destruct E as (w2 & [] & E1 & E).
  unfold on_set in E1. rewrite Es in E1. destruct (fill_random P n g draw interval s) as [s1 r] eqn:Ef. injection E1 as <- ->. cbn in E. injection E as <-.
  assert (La : a < length (w_sets w)) by (apply nth_error_Some; congruence).
  exists s1. split; [cbn; now apply write_same |]. rewrite <- drawn_eq by exact HP. eapply stale_lemma; eauto.
Qed.
Lemma resample_lhs_lemma : forall P n g H a w w1 s, nth_error (w_sets w) a = Some s -> s_lhs P n g H (SetAt a) w = (w1, Ok a) ->
  exists s1, nth_error (w_sets w1) a = Some s1 /\
    (forall x, x <> Values -> loc s1 x = loc s x) /\ (forall x, ~ In x [Values; Left_; Right_; Width_] -> loc s x = None -> glob s1 x = glob s x) /\
    kd s1 = kd s /\ weights s1 = weights s.
Proof.
  intros P n g H a w w1 s Es E. unfold s_lhs in E.
  rewrite (sbind_ok _ _ _ _ _ (eq_refl (sret a w))) in E. apply sbind_inv in E. destruct E as (w2 & [] & E1 & E).
  unfold on_set in E1. rewrite Es in E1. destruct (fill_lhs P n g H s) as [s1 r] eqn:Ef. injection E1 as <- ->. cbn in E. injection E as <-.
  assert (La : a < length (w_sets w)) by (apply nth_error_Some; congruence).
  exists s1. split; [cbn; now apply write_same |]. destruct (stale_lhs_lemma _ _ _ _ _ _ Ef) as (_ & X). exact X.
Qed.
Lemma resample_regular_lemma : forall P ns a w w1 b s, nth_error (w_sets w) a = Some s -> s_regular P ns (SetAt a) w = (w1, Ok b) ->
  exists s1, w_sets w1 = w_sets w ++ [s1] /\ b = length (w_sets w) /\ (forall x, x <> Values -> glob s1 x = glob s x) /\ kd s1 = kd s /\ weights s1 = weights s.
Proof.
  intros P ns a w w1 b s Es E. unfold s_regular, sbind in E. cbn [as_copy] in E. unfold sget in E. rewrite Es in E. cbn [need] in E.
  unfold slift in E. destruct (fill_regular P ns s) as [s1|] eqn:Ef; [| discriminate]. cbn in E. injection E as <- <-.
  exists s1. split; [reflexivity |]. split; [reflexivity |]. eapply stale_regular_lemma; eauto.
Qed.

(** ** A failed call *)
Lemma scan_first k ls : scan_lengths (Some k :: ls) None = scan_lengths ls (Some k).
Proof. reflexivity. Qed.
Lemma scan_mismatch : forall ls n, (exists k, In (Some k) ls /\ k <> n) -> scan_lengths ls (Some n) = Raise LengthNotMatching.
Proof.
  induction ls as [|[m|] ls IH]; intros n (k & I & ne); cbn.
  - destruct I.
  - destruct (n =? m) eqn:E; [| reflexivity]. apply IH. apply Nat.eqb_eq in E. destruct I as [[= ->] | I]; [congruence |]. eauto.
  - apply IH. destruct I as [X | I]; [discriminate | eauto].
Qed.
Lemma sum_local_error (s : sset cell) : check_width s = Ok tt -> forall rs r, In r rs -> check_num_local s r = Raise LengthNotMatching ->
  sum_local s rs = Raise LengthNotMatching.
Proof.
  intros W rs. induction rs as [|q rs IH]; intros r I E; [destruct I |]. cbn.
  assert (X : forall q0, check_num_local s q0 = Raise LengthNotMatching \/ exists m, check_num_local s q0 = Ok m).
  { intros q0. unfold check_num_local. rewrite W. generalize (map (local_length s q0) all_attrs). intros ls.
    assert (Y : forall ls n, scan_lengths ls n = Raise LengthNotMatching \/ exists m, scan_lengths ls n = Ok m).
    { clear. induction ls as [|[m|] ls IH]; intros n; cbn; eauto. destruct n as [n|]; auto. destruct (n =? m); auto. }
    destruct (Y ls None) as [-> | [m ->]]; cbn; eauto. }
  destruct (X q) as [-> | [m Em]]; [reflexivity |]. rewrite Em. cbn. destruct I as [-> | I]; [congruence |]. rewrite (IH r I E). reflexivity.
Qed.
Lemma mismatch_lemma : forall P n g draw interval a w s x vs v r, 0 < P -> full_draws draw -> nth_error (w_sets w) a = Some s ->
  (forall y, glob s Values = Some y -> tail_shape y = [dim s]) ->
  x <> Values -> loc s x = Some vs -> nth_error vs r = Some v -> r < P -> length (rows v) <> length (nth r (array_split (repeat tt n) P) []) ->
  exists w1 s1, s_random P n g draw interval (SetAt a) w = (w1, Raise LengthNotMatching) /\ s_in w1 = s_in w /\
    nth_error (w_sets w1) a = Some s1 /\ loc s1 Values = Some (drawn P n draw (dim s)) /\ glob s1 Values = glob s Values /\ loc s1 x = Some vs.
Proof.
  intros P n g draw interval a w s x vs v r HP Fd Es Wd Nx Lx Ev Hr Ne.
  assert (La : a < length (w_sets w)) by (apply nth_error_Some; congruence).
  set (t := with_domain (map interval (seq 0 (dim s))) (set_loc Values (Some (random_blocks P n draw (dim s))) s)).
  assert (Ef : fill_random P n g draw interval s = (t, Raise LengthNotMatching)).
  { unfold fill_random. fold t. rewrite (sum_local_error t) with (r := r); [reflexivity | | apply in_seq; lia |].
    - unfold check_width. change (glob t Values) with (glob s Values). destruct (glob s Values) as [y|]; [| reflexivity]. rewrite (Wd y eq_refl). cbn. now rewrite Nat.eqb_refl.
    - assert (Eb : nth_error (random_blocks P n draw (dim s)) r = Some (mk_arr (map row (draw r (num_local P n r))) [dim s])).
      { unfold random_blocks. rewrite nth_error_map. rewrite (nth_error_nth' (seq 0 P) 0) by (rewrite seq_length; lia). rewrite seq_nth by lia. reflexivity. }
      assert (Ev0 : local_length t r Values = Some (num_local P n r)).
      { unfold local_length. change (loc t Values) with (Some (random_blocks P n draw (dim s))). cbv iota beta. rewrite Eb. cbn. now rewrite map_length, Fd. }
      unfold check_num_local. change (map (local_length t r) all_attrs) with (local_length t r Values :: map (local_length t r) (tl all_attrs)).
      rewrite Ev0, scan_first. rewrite scan_mismatch; [reflexivity |]. exists (length (rows v)). split.
      + change (In (Some (length (rows v))) (map (local_length t r) (tl all_attrs))). apply in_map_iff. exists x. split.
        * unfold local_length, t. cbn [with_domain set_loc loc]. unfold upd. destruct (attr_eq_dec x Values); [congruence |]. rewrite Lx, Ev. reflexivity.
        * destruct x; cbn; tauto.
      + rewrite array_split_nth_length, repeat_length in Ne by lia. exact Ne. }
  exists (with_sets (write (w_sets w) a t) w), t. split.
  - unfold s_random, sbind. cbn [as_set sret]. rewrite (on_set_at _ _ _ _ Es), Ef. reflexivity.
  - split; [reflexivity |]. split; [cbn; now apply write_same |]. rewrite <- drawn_eq by exact HP. split; [reflexivity |]. split; [reflexivity |].
    cbn. unfold upd. destruct (attr_eq_dec x Values); congruence.
Qed.
