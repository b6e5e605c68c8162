(** sampling_error objects: the constructor, each question, histories. *)
From Coq Require Import List Arith Bool QArith Qcanon Lia.
From Verif Require Import Err Num Ext NumPy Lists SampleSet_Model SampleSet_Spec SampleSet_Proofs Prob_Model Prob_Spec
  Disc_Model Disc_Spec Disc_Proofs Workflow_Model Workflow_Proofs VolHist_Proofs Volume_Model Volume_Spec Volume_Proofs Error_Model Error_Spec Error_Proofs
  ErrorDisc_Model ErrorDisc_Spec ErrorDisc_Proofs ErrorDisc2_Proofs ErrorDisc3_Proofs ErrorDisc4_Proofs SampErr_Model SampErr_Spec SampErr_Proofs.
Import ListNotations.
Local Open Scope nat_scope.
Local Open Scope err_scope.

Lemma kept_lost d d' : nothing_lost d d' -> kept d d'.
Proof. intros (A1 & A2 & A3 & A4 & A5 & A6 & A7 & A8 & A9 & A10 & A11 & A12). do 6 (split; [assumption|]). split; [exact A7|]. split; [discriminate|]. split; [exact A9|]. split; [discriminate|]. split; assumption. Qed.
Lemma kept_refl d : kept d d.
Proof. apply kept_lost, lost_refl. Qed.
Lemma kept_trans d d' d'' : kept d d' -> kept d' d'' -> kept d d''.
Proof.
  intros (A1 & A2 & A3 & A4 & A5 & A6 & A7 & A8 & A9 & A10 & A11 & A12) (B1 & B2 & B3 & B4 & B5 & B6 & B7 & B8 & B9 & B10 & B11 & B12).
  split; [eapply inputs_trans; eassumption|]. do 3 (split; [eapply stored_trans; eassumption|]). do 2 (split; [cbn in *; congruence|]).
  split; [eapply ptr_trans; eassumption|]. split; [discriminate|]. split; [eapply ptr_trans; eassumption|]. split; [discriminate|]. split; eapply ptr_trans; eassumption.
Qed.
Lemma kept_io d l bs : pointer_same (io d) l -> kept d (with_io l bs d).
Proof.
  intros E. split; [apply inputs_stored, stored_refl|]. do 3 (split; [apply stored_refl|]). do 2 (split; [reflexivity|]). split; [exact E|]. split; [discriminate|]. split; [apply ptr_refl|]. split; [discriminate|]. split; apply ptr_refl.
Qed.
Lemma kept_ii d l bs : pointer_same (ii d) l -> kept d (with_ii l bs d).
Proof.
  intros E. split; [apply inputs_stored, stored_refl|]. do 3 (split; [apply stored_refl|]). do 2 (split; [reflexivity|]). split; [apply ptr_refl|]. split; [discriminate|]. split; [exact E|]. split; [discriminate|]. split; apply ptr_refl.
Qed.

Lemma no_pos ps k : existsb (qltb 0) ps = false -> forall ip, In ip (combine (seq k (length ps)) ps) -> qltb 0 (snd ip) = false.
Proof.
  intros N [i p] H. apply in_combine_r in H. cbn [snd]. destruct (qltb 0 p) eqn:E; [|reflexivity]. assert (existsb (qltb 0) ps = true); [|congruence]. apply existsb_exists. eauto.
Qed.
Lemma contour_none a a' v v' ips : (forall ip, In ip ips -> qltb 0 (snd ip) = false) -> forall BC, contour_loop a v ips BC = contour_loop a' v' ips BC.
Proof.
  induction ips as [|[i p] ips IH]; intros H BC; [reflexivity|]. cbn [contour_loop]. unfold contour_entry. pose proof (H (i, p) (or_introl eq_refl)) as E. cbn [snd] in E. rewrite E. cbn [bind].
  rewrite (IH (fun ip K => H ip (or_intror K))). reflexivity.
Qed.
Lemma region_none a bl ips : (forall ip, In ip ips -> qltb 0 (snd ip) = false) -> forall acc BC, region_loop a bl ips acc BC = (Some acc, BC).
Proof.
  induction ips as [|[i p] ips IH]; intros H acc BC; [reflexivity|]. cbn [region_loop]. pose proof (H (i, p) (or_introl eq_refl)) as E. cbn [snd] in E. rewrite E.
  apply IH. intros ip K. apply H. right. exact K.
Qed.
Lemma flats_rows xs : flats (map (fun q => row [q]) xs) = Ok xs.
Proof. induction xs as [|q xs IH]; [reflexivity|]. cbn [map flats row flat bind]. rewrite IH. reflexivity. Qed.

Section Object.
Context (nn : list cell -> cell -> nat) (argsort : list Qc -> list nat) (delaunay : list cell -> result (list (list nat))).
Context (P : nat) (HP : 0 < P) (NN : forall l x, l <> [] -> nn l x < length l).
Context (g : survey) (PS : proper_survey g) (nb : nat -> nat -> bool) (NB : neighbours_are argsort delaunay g nb).
Notation ev := (sample_events nn g).
Notation n := (length (g_samples g)).
(** for the lemmas about model_error *)
Notation pb := (mk_problem (g_in g) 0 (g_samples g) [] [] [] [] None).

Lemma ev_length : length ev = n.
Proof. unfold sample_events. rewrite map_length. apply PS. Qed.

Lemma hs_in w d inp1 v seen : holds_survey nn P g w d -> points_are P (g_in g) inp1 (g_samples g) -> glob inp1 Volumes = option_map vec_arr v ->
  holds_survey nn P g (mk_view (w_probs w) (w_emulated w) v seen) (with_in (Some inp1) d).
Proof. intros (_ & H) H1 H2. split; [exists inp1; auto|exact H]. Qed.
Lemma hs_seen w d seen : holds_survey nn P g w d -> holds_survey nn P g (mk_view (w_probs w) (w_emulated w) (w_vols w) seen) d.
Proof. intros H. exact H. Qed.
Lemma hs_ein w d em1 : holds_survey nn P g w d -> emulated_are P g w (Some em1) -> holds_survey nn P g w (with_ein (Some em1) d).
Proof. intros (H1 & H2 & H3 & H4 & H) H5. split; [exact H1|]. split; [exact H2|]. split; [exact H3|]. split; [exact H5|exact H]. Qed.

Definition inv (nei : list (list nat)) (w : view) (m : samp_err) : Prop :=
  holds_survey nn P g w (se_disc m) /\ io (se_disc m) = Some ev /\ se_num m = n /\ sets_ok ev nei (w_seen w) (se_sets m).
Definition table (nei : list (list nat)) : Prop :=
  neighbour_table ev nei /\ forall p l, nth_error nei p = Some l -> forall e, In e l <-> exists q, nb p q = true /\ nth_error ev q = Some e.

(** ** The constructor *)
Lemma count_nums w d : holds_survey nn P g w d -> check_nums P d = Ok n.
Proof.
  intros ((inp & Ei & Hi & _) & (out & Eo & Ho) & _). unfold check_nums. rewrite Eo. cbn [need bind]. rewrite (count_in_step P out _ (proj1 Ho)). cbn [bind]. rewrite Ei. cbn [need bind].
  rewrite (count_in_step P inp _ (proj1 Hi)). cbn [bind]. rewrite (proj2 (proj2 Ho)), (proj2 (proj2 Hi)). destruct PS as (_ & _ & ->). rewrite Nat.eqb_refl. reflexivity.
Qed.
Lemma links_found inp : points_are P (g_in g) inp (g_samples g) -> exists links, links_of argsort delaunay inp = Ok links /\ links_valid (length ev) links = true /\
  table (map (nei_of ev links) (seq 0 n)).
Proof.
  intros (_ & D & G). unfold links_of. rewrite G. cbn [need bind rows]. rewrite D. destruct NB as [(D1 & xs & Ex & ND & AS & OI & H)|(D1 & t & Et & Vt & H)].
  - rewrite D1, Nat.eqb_refl, Ex, flats_rows. cbn [bind].
    destruct (connectivity_1D_lemma argsort xs ev AS ND) as (nei & E & T & Hn); [rewrite ev_length, Ex; apply map_length|exact OI|].
    unfold connectivity_1D in E. cbv zeta in E. destruct (links_1D _ _) as [links|]; [|discriminate]. cbn [bind] in E. unfold nei_list in E. destruct (links_valid (length ev) links) eqn:V; [|discriminate].
    injection E as <-. exists links. split; [reflexivity|]. split; [exact V|]. rewrite map_length. assert (EL : length xs = length ev) by (rewrite ev_length, Ex; symmetry; apply map_length). rewrite EL. split; [exact T|].
    intros p l Hl e. rewrite (Hn p l Hl e). split; intros (q & A & B); exists q; (split; [apply H; exact A|exact B]).
  - destruct (Nat.eqb_spec (g_in g) 1) as [?|_]; [contradiction|]. rewrite Et. cbn [bind].
    destruct (connectivity_nD_lemma t ev) as (nei & E & T & Hn); [rewrite ev_length; exact Vt|].
    unfold nei_list in E. destruct (links_valid (length ev) (links_nD t)) eqn:V; [|discriminate]. injection E as <-. exists (links_nD t). split; [reflexivity|]. split; [exact V|].
    rewrite <- ev_length. split; [exact T|]. intros p l Hl e. rewrite (Hn p l Hl e). split.
    + intros (q & s & S1 & S2 & S3 & S4 & S5). exists q. split; [apply H; exists s; auto|exact S5].
    + intros (q & A & B). apply H in A. destruct A as (s & S1 & S2 & S3 & S4). exists q, s. auto.
Qed.
Lemma pointed_ok w d : holds_survey nn P g w d -> exists d1, pointed nn P d = Ok d1 /\ holds_survey nn P g w d1 /\ io d1 = Some ev /\ d_in d1 = d_in d /\ ii d1 = ii d /\ kept d d1 /\
  (forall pr, d_prob d = Some pr -> exists pr1, d_prob d1 = Some pr1 /\ loc pr1 = loc pr).
Proof.
  intros HH. pose proof HH as (Hi & (out & Eo & Ho) & (pr & Ep & Hp & Gp) & He & Hio & Hii). unfold pointed. destruct (io d) as [l|] eqn:El.
  - exists d. split; [reflexivity|]. split; [exact HH|]. split; [rewrite El, (Hio l eq_refl); reflexivity|]. do 2 (split; [reflexivity|]). split; [apply kept_refl|]. intros pr' E. exists pr'. auto.
  - destruct (io_points P HP nn true (g_out g) out (g_outputs g) pr (g_cells g) d Eo Ho Ep Hp) as (out1 & pr1 & E & Ho1 & So & Hp1 & Sp & _ & LP). eexists. split; [exact E|]. split; [|split; [reflexivity|]].
    + split; [exact Hi|]. split; [exists out1; auto|]. split; [exists pr1; split; [reflexivity|]; split; [exact Hp1|]; rewrite (proj2 Sp) by discriminate; exact Gp|]. split; [exact He|]. split; [intros l [= <-]; reflexivity|exact Hii].
    + do 2 (split; [reflexivity|]). split; [|intros pr' E'; rewrite Ep in E'; injection E' as <-; exists pr1; auto].
      eapply kept_trans; [apply kept_lost; eapply lost_out; [exact Eo|exact So]|]. eapply kept_trans; [apply kept_lost; eapply lost_prob; [exact Ep|exact Sp]|]. apply kept_io. cbn [with_prob with_out io]. rewrite El. discriminate.
Qed.
Lemma new_inv k w d : two_norm k = true -> w_seen w = [] -> holds_survey nn P g w d -> exists nei m, new_sampling_error nn argsort delaunay P k d = Ok m /\ table nei /\ inv nei w m /\ kept d (se_disc m) /\
  ii (se_disc m) = ii d /\ (forall pr, d_prob d = Some pr -> exists pr1, d_prob (se_disc m) = Some pr1 /\ loc pr1 = loc pr).
Proof.
  intros K W HH. unfold new_sampling_error. rewrite (count_nums w d HH). cbn [bind]. unfold connectivity. pose proof HH as ((inp & Ei & Hi & _) & _). rewrite Ei. cbn [need bind]. rewrite K, (count_nums w d HH). cbn [bind].
  destruct (pointed_ok w d HH) as (d1 & -> & HH1 & E1 & I1 & II1 & K1 & LP). cbn [bind]. rewrite E1. cbn [subscript bind].
  destruct (links_found inp Hi) as (links & -> & V & T). cbn [bind]. rewrite V. cbn [bind fst snd]. unfold disc_boundary_sets. rewrite I1, Ei. cbn [need bind]. rewrite K, (count_nums w d1 HH1). cbn [bind].
  unfold pointed. rewrite E1. cbn [bind]. rewrite E1. cbn [subscript bind]. rewrite ev_length, Nat.leb_refl. cbn [bind fst snd]. rewrite firstn_all2 by (rewrite ev_length; lia).
  eexists _, _. split; [reflexivity|]. split; [exact T|]. split; [|auto]. split; [exact HH1|]. split; [exact E1|]. split; [reflexivity|]. rewrite W. apply sets_fresh.
Qed.

(** ** Volumes *)
Lemma vols_length w d v : holds_survey nn P g w d -> w_vols w = Some v -> length v = n.
Proof. intros ((inp & Ei & Hi & Gv) & _) E. rewrite E in Gv. rewrite <- vec_len. apply (proj1 (proj1 (proj1 Hi)) Volumes). exact Gv. Qed.
Lemma now_length w : (forall v, w_vols w = Some v -> length v = n) -> length (volumes_now nn g w) = n.
Proof. intros H. unfold volumes_now. destruct (w_vols w) as [v|]; [apply H; reflexivity|]. destruct (w_emulated w); rewrite map_length; [apply seq_length|reflexivity]. Qed.
Lemma now_nonneg w : proper_view g w -> forall x, In x (volumes_now nn g w) -> (0 <= x)%Qc.
Proof.
  intros (_ & _ & H) x. unfold volumes_now. destruct (w_vols w) as [v|]; [apply H; reflexivity|]. destruct (w_emulated w) as [ps|]; rewrite in_map_iff; intros (k & <- & _).
  - destruct ps as [|p ps]; [|apply qc_div_nonneg; [apply qn_nonneg|apply qn_pos; cbn; lia]]. cbn [length]. change (qn 0) with 0%Qc. unfold Qcdiv. replace (/ 0)%Qc with 0%Qc by reflexivity. rewrite Qcmult_0_r. apply Qcle_refl.
  - apply qc_div_nonneg; [discriminate|]. apply qn_pos. destruct PS as (N & _). destruct (g_samples g); [contradiction|cbn; lia].
Qed.
Definition measured (w : view) : view := mk_view (w_probs w) (w_emulated w) (Some (volumes_now nn g w)) (w_seen w).
Lemma volumes_inv w d : proper_view g w -> holds_survey nn P g w d -> exists d1 inp1, with_volumes_ nn P d = Ok d1 /\ holds_survey nn P g (measured w) d1 /\
  d_in d1 = Some inp1 /\ glob inp1 Volumes = Some (vec_arr (volumes_now nn g w)) /\ io d1 = io d /\ ii d1 = ii d /\ kept d d1 /\ d_prob d1 = d_prob d.
Proof.
  intros PV HH. pose proof HH as ((inp & Ei & Hi & Gv) & _ & _ & Hem & _). pose proof (now_length w (fun v => vols_length w d v HH)) as LV. set (V := volumes_now nn g w) in *.
  unfold with_volumes_. rewrite Ei. cbn [need bind]. rewrite Gv. destruct (w_vols w) as [v|] eqn:Ew; cbn [option_map].
  - assert (EV : V = v) by (unfold V, volumes_now; rewrite Ew; reflexivity). exists d, inp. split; [reflexivity|]. split; [|rewrite EV; split; [exact Ei|]; split; [exact Gv|]; do 2 (split; [reflexivity|]); split; [apply kept_refl|reflexivity]].
    split; [exists inp; split; [exact Ei|]; split; [exact Hi|]; unfold measured; cbn [w_vols]; fold V; rewrite EV; exact Gv|apply HH].
  - pose proof (volumes_stored P pb inp _ Hi Gv) as L. unfold emulated_are in Hem. destruct (w_emulated w) as [ps|] eqn:Eb.
    + destruct (d_ein d) as [em|] eqn:Ee; [|contradiction]. unfold emulated_volumes. rewrite (count_in_step P inp _ (proj1 Hi)). cbn [bind].
      destruct (points_localized P (g_in g) em ps Hem) as (em1 & -> & Hem1 & Sem & Lem). cbn [bind]. unfold loc_values. rewrite Lem. cbn [bind].
      destruct (points_query P nn (g_in g) em1 ps inp (g_samples g) Hem1 Hi Lem) as (inp1 & -> & Hi1 & S1 & L1). cbn [bind fst snd].
      assert (NP : ps <> []) by (intros ->; apply PV; exact Eb).
      rewrite emulated_eq by (rewrite array_split_concat by exact HP; destruct ps; [contradiction|discriminate]). rewrite array_split_concat by exact HP.
      assert (EV : map (fun i => Fin (fraction (fun k => k) (map (nn (g_samples g)) ps) i)) (seq 0 n) = map Fin V).
      { unfold V, volumes_now. rewrite Ew, Eb, map_map. apply map_ext. intros i. unfold fraction, hits. rewrite map_length, counts_map. reflexivity. }
      rewrite EV, finite_fins. cbn [bind].
      destruct (with_volumes P pb inp1 V Hi1) as (inp2 & -> & Hi2 & Gv2 & Lv2 & SV2); [rewrite L1; exact L|exact LV|]. cbn [bind fst snd].
      exists (with_ein (Some em1) (with_in (Some inp2) d)), inp2. split; [reflexivity|].
      split; [apply hs_ein; [apply hs_in; [exact HH|exact Hi2|exact Gv2]|unfold emulated_are; cbn [measured w_emulated]; rewrite Eb; exact Hem1]|]. split; [reflexivity|]. split; [exact Gv2|]. do 2 (split; [reflexivity|]). split; [|reflexivity]. apply kept_lost.
      apply (lost_trans _ (with_in (Some inp2) d)); [|apply (lost_ein (with_in (Some inp2) d) em em1); [exact Ee|exact Sem]]. eapply lost_in; [exact Ei|]. apply (inputs_trans _ (Some inp1)); [apply inputs_stored; exact S1|].
      split; [exact (proj1 SV2)|]. intros a Na. destruct (attr_eq_dec a Volumes) as [->|Nv]; [right; split; [reflexivity|]; rewrite (proj2 S1) by discriminate; exact Gv|left; apply SV2; assumption].
    + destruct (d_ein d) as [em|] eqn:Ee; [contradiction|]. unfold estimate_mc. rewrite (count_in_step P inp _ (proj1 Hi)). cbn [bind].
      destruct (Nat.eqb_spec n 0) as [E0|_]; [destruct PS as (NX & _); destruct (g_samples g); [contradiction|discriminate]|].
      assert (EV : repeat (1 / qn n)%Qc n = V) by (unfold V, volumes_now; rewrite Ew, Eb; symmetry; apply map_same). rewrite EV.
      destruct (with_volumes P pb inp V Hi L LV) as (inp1 & -> & Hi1 & Gv1 & Lv1 & SV1). cbn [bind].
      exists (with_in (Some inp1) d), inp1. split; [reflexivity|]. split; [apply hs_in; assumption|]. split; [reflexivity|]. split; [exact Gv1|]. do 2 (split; [reflexivity|]). split; [|reflexivity]. apply kept_lost. eapply lost_in; [exact Ei|].
      split; [exact (proj1 SV1)|]. intros a Na. destruct (attr_eq_dec a Volumes) as [->|Nv]; [right; auto|left; apply SV1; assumption].
Qed.

(** ** Questions *)
Definition stays (m m1 : samp_err) : Prop := kept (se_disc m) (se_disc m1) /\ d_prob (se_disc m1) = d_prob (se_disc m) /\ ii (se_disc m1) = ii (se_disc m).
Lemma probs_read w d pr : proper_view g w -> holds_survey nn P g w d -> d_prob d = Some pr -> check_num P pr = Ok (length (g_cells g)) /\ out_probs (length (g_cells g)) pr = Ok (w_probs w).
Proof.
  intros PV (_ & _ & (pr' & E & Hp & Gp) & _) E'. rewrite E in E'. injection E' as <-. split; [apply (count_in_step P _ _ (proj1 Hp))|].
  unfold out_probs. destruct (Nat.eqb_spec (length (g_cells g)) 0) as [E0|_]; [destruct PS as (_ & NC & _); destruct (g_cells g); [contradiction|discriminate]|].
  rewrite Gp. cbn [subscript bind vec_arr rows]. apply scalars_nums.
Qed.
Section Table.
Context (nei : list (list nat)) (T : table nei).
Lemma contours_inv w m : proper_view g w -> inv nei w m -> exists m1,
  sampling_contours nn P m = (let bs := map (fun ip => event_bounds ev nb (volumes_now nn g w) (w_seen w) (fst ip) (snd ip)) (combine (seq 0 (length (w_probs w))) (w_probs w)) in Ok (map fst bs, map snd bs, m1)) /\
  inv nei (measured w) m1 /\ stays m m1.
Proof.
  intros PV (HH & Hl & Hn & Hs). destruct (volumes_inv w (se_disc m) PV HH) as (d1 & inp1 & E & HH1 & Ei & Gv & El & Eii & KP & EP).
  unfold sampling_contours. rewrite E. cbn [bind]. pose proof HH1 as (_ & _ & (pr & Ep & _) & _). rewrite Ep. cbn [need bind].
  assert (PV1 : proper_view g (measured w)) by (destruct PV as (A & B & C); split; [exact A|]; split; [exact B|]; intros v x [= <-]; apply now_nonneg; split; [exact A|split; [exact B|exact C]]).
  destruct (probs_read _ d1 pr PV1 HH1 Ep) as [-> Q]. cbn [bind]. rewrite Q. cbn [measured w_probs bind]. cbv zeta.
  pose proof (now_length w (fun v => vols_length w (se_disc m) v HH)) as LV.
  assert (F : exists BC', contour_events ev (volumes_now nn g w) (w_probs w) (se_sets m) =
    Ok (map fst (map (fun ip => event_bounds ev nb (volumes_now nn g w) (w_seen w) (fst ip) (snd ip)) (combine (seq 0 (length (w_probs w))) (w_probs w))),
        map snd (map (fun ip => event_bounds ev nb (volumes_now nn g w) (w_seen w) (fst ip) (snd ip)) (combine (seq 0 (length (w_probs w))) (w_probs w))), BC') /\ sets_ok ev nei (w_seen w) BC').
  { unfold contour_events. apply contour_formula; [apply T|apply T|rewrite ev_length; exact LV|apply now_nonneg; exact PV|exact Hs]. }
  destruct F as (BC' & F & R').
  assert (J : inv nei (measured w) (mk_serr d1 (se_num m) BC')) by (split; [exact HH1|]; cbn [se_disc se_num se_sets]; split; [congruence|]; split; [exact Hn|exact R']).
  assert (ST : stays m (mk_serr d1 (se_num m) BC')) by (split; [exact KP|]; split; assumption).
  destruct (existsb (qltb 0) (w_probs w)) eqn:Any.
  - rewrite El, Hl. cbn [subscript bind]. rewrite Ei. cbn [need bind]. rewrite Gv. cbn [subscript bind vec_arr rows]. rewrite scalars_nums. cbn [bind]. rewrite Hn, LV, ev_length, Nat.eqb_refl. cbn [andb]. rewrite F. cbn [bind fst snd].
    eexists. split; [reflexivity|]. split; [|rewrite <- Hn; exact ST]. rewrite <- Hn. exact J.
  - unfold contour_events in *. rewrite (contour_none [] ev [] (volumes_now nn g w) _ (no_pos _ 0 Any)), F. cbn [bind fst snd]. eexists. split; [reflexivity|]. split; [exact J|exact ST].
Qed.

Lemma estimate_ok w s ss labels region ps d m : proper_view g w -> ss <> [] -> region_points_are P (g_in g) s ss labels -> holds_survey nn P g w (se_disc m) -> sets_ok ev nei (w_seen w) (se_sets m) ->
  io d = Some ev -> ii_loc d = Some (array_split (map (nn (g_samples g)) ps) P) ->
  let pts := region_pts nn g ss labels region ps in
  exists o BC', sampling_estimate P (map (fun l => qeqb l region) labels) (array_split (map (nn ss) ps) P) d m = Ok (o, BC') /\
    pair_of o = ([fst (region_value ev nb (w_probs w) pts)], [snd (region_value ev nb (w_probs w) pts)]) /\ sets_ok ev nei (w_seen w ++ come_across ev nb (events (w_probs w)) pts) BC'.
Proof.
  intros PV NS Hs HH R E1 E2 pts. unfold sampling_estimate. rewrite (flags_ok nn P HP NN pb s) by assumption. cbn [bind].
  pose proof HH as (_ & _ & (pr & Ep & _) & _). rewrite Ep. cbn [need bind]. destruct (probs_read w _ pr PV HH Ep) as [-> Q]. cbn [bind]. rewrite Q. cbn [bind].
  destruct (existsb (qltb 0) (w_probs w)) eqn:Any.
  - rewrite E1. cbn [subscript bind]. rewrite E2. cbn [subscript bind].
    assert (B : forall k, In k (map (nn (g_samples g)) ps) -> k < length ev) by (intros k Hk; apply in_map_iff in Hk; destruct Hk as (x & <- & _); rewrite ev_length; apply NN; apply PS).
    rewrite (fancy_split ev 0 P) by assumption. cbn [bind]. rewrite beside_split by (try exact HP; rewrite !map_length; reflexivity). cbn [bind].
    set (bl := array_split _ P). assert (EB : concat bl = pts).
    { unfold bl. rewrite array_split_concat by exact HP. unfold pts, region_pts. clear. induction ps as [|p ps IH]; [reflexivity|]. cbn [map combine]. f_equal. exact IH. }
    destruct (region_core ev nb nei (proj1 T) (proj2 T) bl) with (seen := w_seen w) (ps := w_probs w) (BC := se_sets m) as (BC' & o & E & A & B').
    + rewrite EB. intros e He. unfold pts, region_pts in He. apply in_map_iff in He. destruct He as (x & <- & _). cbn [snd]. rewrite ev_length. apply NN. apply PS.
    + exact R.
    + rewrite E. exists o, BC'. rewrite EB in A, B'. auto.
  - unfold region_bounds. rewrite (region_none [] [] _ (no_pos _ 0 Any)). eexists _, _. split; [reflexivity|]. unfold region_value. rewrite (no_events _ Any). cbn [forallb map come_across]. rewrite app_nil_r. split; [reflexivity|exact R].
Qed.
Lemma global_input_ok w d : holds_survey nn P g w d -> exists inp inp1, d_in d = Some inp /\ global_input d = Ok (with_in (Some inp1) d) /\ points_are P (g_in g) inp1 (g_samples g) /\ same_data inp inp1 /\ holds_survey nn P g w (with_in (Some inp1) d).
Proof.
  intros HH. pose proof HH as ((inp & Ei & Hi & Gv) & _). destruct (l2g_in_step P HP inp _ (proj1 Hi)) as (inp1 & E & I1 & S1 & _). exists inp, inp1. split; [exact Ei|].
  unfold global_input. rewrite Ei. cbn [need bind]. rewrite E. cbn [bind]. split; [reflexivity|]. assert (Hi1 : points_are P (g_in g) inp1 (g_samples g)) by (eapply points_data; eassumption). split; [exact Hi1|]. split; [exact S1|].
  split; [exists inp1; split; [reflexivity|]; split; [exact Hi1|]; rewrite (proj2 S1) by discriminate; exact Gv|apply HH].
Qed.
Lemma region_inv w s ss labels region em m : proper_view g w -> ss <> [] -> region_points_are P (g_in g) s ss labels ->
  match em with Some (e, ps) => points_are P (g_in g) e ps | None => True end -> inv nei w m ->
  match reply nn g nb w (Region_ s ss labels region em) with
  | Ok (a, w1) => exists m1, spose nn P (Region_ s ss labels region em) m = Ok (a, m1) /\ inv nei w1 m1 /\ stays m m1
  | Raise x => spose nn P (Region_ s ss labels region em) m = Raise x
  end.
Proof.
  intros PV NS Hs He (HH & Hl & Hn & R). cbn [reply spose]. unfold sampling_region.
  destruct (global_input_ok w _ HH) as (inp & inp1 & Ei & -> & Hi1 & S1 & HH1). cbn [bind]. rewrite (marker_ok P pb s ss labels region Hs).
  destruct (existsb (fun l => qeqb l region) labels) eqn:Any; [|reflexivity]. cbn [bind]. cbv zeta. set (d1 := with_in (Some inp1) (se_disc m)) in *.
  assert (K1 : kept (se_disc m) d1) by (apply kept_lost; eapply lost_in; [exact Ei|apply inputs_stored; exact S1]).
  destruct em as [[e ps]|]; cbn [option_map fst points_used].
  - unfold set_emulated_input, same_dim. cbn [d1 with_in d_in]. rewrite (proj1 (proj2 Hi1)), (proj1 (proj2 He)), Nat.eqb_refl. cbn [done fst snd bind].
    match goal with |- context [set_ii_ptr nn P false ?dd] => destruct (ii_points P HP nn false (g_in g) e ps inp1 (g_samples g) dd eq_refl He eq_refl Hi1) as (e1 & inp2 & -> & _) end.
    cbn [bind]. rewrite (cells_ok nn P HP pb s ss e ps (proj1 Hs) He). cbn [bind].
    match goal with |- context [sampling_estimate P _ _ ?dd ?mm] => destruct (estimate_ok w s ss labels region ps dd mm PV NS Hs HH1 R Hl eq_refl) as (o & BC' & -> & A & B) end.
    cbn [bind rmap fst snd]. rewrite A. eexists. split; [reflexivity|]. split; [split; [exact HH1|]; cbn [se_disc se_num se_sets w_seen]; auto|]. split; [exact K1|]. split; reflexivity.
  - pose proof HH1 as (_ & _ & _ & Hem & _ & Hii). unfold emulated_are in Hem. destruct (w_emulated w) as [ps|] eqn:Eb; cbn [d1 with_in d_ein] in *.
    + destruct (d_ein (se_disc m)) as [em|] eqn:Ee; [|contradiction]. fold d1.
      assert (X : exists d2 e2, match ii d1 with None => set_ii_ptr nn P false d1 | Some _ => Ok d1 end = Ok d2 /\
        holds_survey nn P g w d2 /\ io d2 = Some ev /\ d_ein d2 = Some e2 /\ points_are P (g_in g) e2 ps /\ ii_loc d2 = Some (array_split (map (nn (g_samples g)) ps) P) /\ kept (se_disc m) d2 /\ d_prob d2 = d_prob (se_disc m) /\ ii d2 = ii (se_disc m)).
      { destruct (ii d1) as [l|] eqn:El.
        - exists d1, em. split; [reflexivity|]. split; [exact HH1|]. split; [exact Hl|]. split; [exact Ee|]. split; [exact Hem|]. destruct (Hii l eq_refl) as (ps' & [= <-] & E). split; [exact E|]. split; [exact K1|]. split; reflexivity.
        - destruct (ii_points P HP nn false (g_in g) em ps inp1 (g_samples g) d1 Ee Hem eq_refl Hi1) as (e1 & inp2 & E & He1 & Se1 & Hi2 & S2 & _).
          exists (with_ii (ii d1) (Some (array_split (map (nn (g_samples g)) ps) P)) (with_in (Some inp2) (with_ein (Some e1) d1))), e1.
          split; [exact E|]. split.
          + pose proof HH1 as ((x & Ex & _ & Gx) & B2 & B3 & _ & B5 & _). injection Ex as <-. split; [exists inp2; split; [reflexivity|]; split; [exact Hi2|]; rewrite (proj2 S2) by discriminate; exact Gx|]. split; [exact B2|]. split; [exact B3|].
            split; [unfold emulated_are; rewrite Eb; exact He1|]. split; [exact B5|]. cbn [with_ii ii ii_loc]. intros l _. exists ps. auto.
          + split; [exact Hl|]. split; [reflexivity|]. split; [exact He1|]. split; [reflexivity|]. split; [|split; reflexivity].
            eapply kept_trans; [exact K1|]. eapply kept_trans; [apply kept_lost; eapply lost_ein; [exact Ee|exact Se1]|]. eapply kept_trans; [apply kept_lost; eapply lost_in; [reflexivity|apply inputs_stored; exact S2]|].
            apply kept_ii. apply ptr_refl. }
      destruct X as (d2 & e2 & -> & HH2 & IO2 & Ee2 & He2 & II2 & K2 & P2 & I2). cbn [bind]. rewrite Ee2. cbn [need bind]. rewrite (cells_ok nn P HP pb s ss e2 ps (proj1 Hs) He2). cbn [bind].
      destruct (estimate_ok w s ss labels region ps d2 (mk_serr d2 (se_num m) (se_sets m)) PV NS Hs HH2 R IO2 II2) as (o & BC' & -> & A & B).
      cbn [bind rmap fst snd]. rewrite A. eexists. split; [reflexivity|]. split; [|split; [exact K2|]; split; assumption].
      rewrite <- Eb. split; [apply hs_seen; exact HH2|]. cbn [se_disc se_num se_sets w_seen]. auto.
    + destruct (d_ein (se_disc m)) as [em|] eqn:Ee; [contradiction|]. fold d1. cbn [d1 with_in d_in need bind]. unfold set_emulated_input, same_dim. cbn [d1 with_in d_in]. rewrite Nat.eqb_refl. cbn [done fst snd bind].
      match goal with |- context [set_ii_ptr nn P false ?dd] => destruct (ii_points P HP nn false (g_in g) inp1 (g_samples g) inp1 (g_samples g) dd eq_refl Hi1 eq_refl Hi1) as (e1 & inp2 & -> & _) end.
      cbn [bind]. rewrite (cells_ok nn P HP pb s ss inp1 (g_samples g) (proj1 Hs) Hi1). cbn [bind].
      destruct (points_localized P (g_in g) inp1 (g_samples g) Hi1) as (inp3 & -> & Hi3 & S3 & L3). cbn [bind].
      match goal with |- context [sampling_estimate P _ _ ?dd ?mm] => destruct (estimate_ok w s ss labels region (g_samples g) dd mm PV NS Hs HH1 R Hl eq_refl) as (o & BC' & -> & A & B) end.
      cbn [bind rmap fst snd]. rewrite A. eexists. split; [reflexivity|]. split; [|split; [|split; reflexivity]].
      * split; [|cbn [se_disc se_num se_sets w_seen]; auto]. rewrite <- Eb. pose proof HH1 as ((x & Ex & _ & Gx) & H). injection Ex as <-. split; [exists inp3; split; [reflexivity|]; split; [exact Hi3|]; rewrite (proj2 S3) by discriminate; exact Gx|exact H].
      * eapply kept_trans; [exact K1|]. apply kept_lost. eapply lost_in; [reflexivity|apply inputs_stored; exact S3].
Qed.

(** ** Histories *)
Lemma reply_proper w q a w1 : proper_view g w -> reply nn g nb w q = Ok (a, w1) -> proper_view g w1.
Proof.
  intros PV. destruct q as [|s ss labels region em]; cbn [reply].
  - intros [= <- <-]. pose proof PV as (A & B & _). split; [exact A|]. split; [exact B|]. cbn [w_vols]. intros v x [= <-]. apply now_nonneg. exact PV.
  - destruct (existsb _ _); [|discriminate]. intros [= <- <-]. exact PV.
Qed.
Lemma spose_inv w q m : proper_view g w -> proper_sevent P g (SAsk q) -> inv nei w m ->
  match reply nn g nb w q with
  | Ok (a, w1) => exists m1, spose nn P q m = Ok (a, m1) /\ inv nei w1 m1 /\ stays m m1
  | Raise x => spose nn P q m = Raise x
  end.
Proof.
  intros PV Hq HI. destruct q as [|s ss labels region em].
  - cbn [reply spose]. destruct (contours_inv w m PV HI) as (m1 & E & J). exists m1. split; [exact E|exact J].
  - destruct Hq as (NS & Hs & He). apply region_inv; assumption.
Qed.
Lemma inv_probs w p m pr : length p = length (g_cells g) -> d_prob (se_disc m) = Some pr -> loc pr Probabilities = None -> inv nei w m ->
  inv nei (mk_view p (w_emulated w) (w_vols w) (w_seen w)) (on_disc (put_probs p) m).
Proof.
  intros L Ep Lp ((A1 & A2 & (pr' & E' & Hp & Gp) & A4) & B). rewrite Ep in E'. injection E' as <-. split; [|exact B]. unfold on_disc, put_probs. cbn [se_disc]. rewrite Ep. cbn [option_map].
  split; [exact A1|]. split; [exact A2|]. split; [|exact A4]. eexists. split; [reflexivity|]. destruct Hp as (I & D & G). split; [|cbn [set_glob glob]; apply upd_same]. split.
  - apply set_glob_in_step; [exact I|discriminate|discriminate|exact Lp|]. rewrite vec_len. exact L.
  - split; [exact D|]. cbn [set_glob glob]. rewrite upd_other by discriminate. exact G.
Qed.
Lemma inv_emulated w e ps m : points_are P (g_in g) e ps -> ii (se_disc m) = None -> inv nei w m -> exists d1, done (set_emulated_input e (se_disc m)) = Ok d1 /\ ii d1 = None /\ d_prob d1 = d_prob (se_disc m) /\
  inv nei (mk_view (w_probs w) (Some ps) (w_vols w) (w_seen w)) (on_disc (fun _ => d1) m).
Proof.
  intros He Hi ((A1 & A2 & A3 & A4 & A5 & A6) & B). unfold set_emulated_input, same_dim. pose proof A1 as (inp & Ei & Hinp & _). rewrite Ei. rewrite (proj1 (proj2 Hinp)), (proj1 (proj2 He)), Nat.eqb_refl.
  eexists. split; [reflexivity|]. split; [exact Hi|]. split; [reflexivity|]. split; [|exact B]. unfold on_disc. cbn [se_disc fst]. split; [exact A1|]. split; [exact A2|]. split; [exact A3|]. split; [exact He|]. split; [exact A5|].
  cbn [with_ein ii]. rewrite Hi. discriminate.
Qed.
Lemma srun_inv es : forall w m pr, proper_view g w -> Forall (proper_sevent P g) es -> d_prob (se_disc m) = Some pr -> ((exists p, In (SProbs p) es) -> loc pr Probabilities = None) ->
  (ii (se_disc m) = None \/ no_new_emulated es) -> inv nei w m -> rmap fst (srun nn P es m) = replies nn g nb w es.
Proof.
  induction es as [|[q|p|e ps] es IH]; intros w m pr PV F Ep Lp Hi HI; [reflexivity| | |]; inversion F as [|? ? Fq Fr]; subst; cbn [srun replies].
  - pose proof (spose_inv w q m PV Fq HI) as A. destruct (reply nn g nb w q) as [[a w1]|x] eqn:Er; [|rewrite A; reflexivity]. destruct A as (m1 & -> & J & _ & E1 & E2). cbn [bind fst snd].
    assert (IE : rmap fst (srun nn P es m1) = replies nn g nb w1 es).
    { eapply IH; [eapply reply_proper; [exact PV|exact Er]|exact Fr|rewrite E1; exact Ep| |rewrite E2|exact J].
      - intros (p & H). apply Lp. exists p. right. exact H.
      - destruct Hi as [Hi|Hi]; [left; exact Hi|right; intros e ps H; apply (Hi e ps); right; exact H]. }
    rewrite <- IE. destruct (srun nn P es m1) as [[t m2]|x]; reflexivity.
  - assert (Lp' : loc pr Probabilities = None) by (apply Lp; exists p; left; reflexivity).
    eapply IH; [| exact Fr |unfold on_disc, put_probs; cbn [se_disc with_prob d_prob]; rewrite Ep; reflexivity| | |eapply inv_probs; eassumption].
    + destruct PV as (_ & A & B). split; [exact Fq|]. split; assumption.
    + intros _. exact Lp'.
    + destruct Hi as [Hi|Hi]; [left; exact Hi|right; intros e ps H; apply (Hi e ps); right; exact H].
  - destruct Fq as [He Np]. assert (Hi' : ii (se_disc m) = None) by (destruct Hi as [Hi|Hi]; [exact Hi|exfalso; apply (Hi e ps); left; reflexivity]).
    destruct (inv_emulated w e ps m He Hi' HI) as (d1 & -> & I1 & P1 & J). cbn [bind]. eapply IH; [| exact Fr |cbn [on_disc se_disc]; rewrite P1; exact Ep| |left; exact I1|exact J].
    + destruct PV as (A & _ & B). split; [exact A|]. split; [cbn; congruence|exact B].
    + intros (p & H). apply Lp. exists p. right. exact H.
Qed.
Lemma asked_kept qs : forall w m r m1, proper_view g w -> Forall (fun q => proper_sevent P g (SAsk q)) qs -> inv nei w m -> srun nn P (map SAsk qs) m = Ok (r, m1) -> kept (se_disc m) (se_disc m1).
Proof.
  induction qs as [|q qs IH]; intros w m r m1 PV F HI; cbn [map srun]; [intros [= <- <-]; apply kept_refl|]. inversion F as [|? ? Fq Fr]; subst.
  pose proof (spose_inv w q m PV Fq HI) as A. destruct (reply nn g nb w q) as [[a w1]|x] eqn:Er; [|rewrite A; discriminate]. destruct A as (m2 & -> & J & K & _). cbn [bind fst snd].
  destruct (srun nn P (map SAsk qs) m2) as [[t m3]|x] eqn:E; [|discriminate]. cbn [bind fst snd]. intros [= <- <-]. eapply kept_trans; [exact K|]. eapply IH; [eapply reply_proper; [exact PV|exact Er]|exact Fr|exact J|exact E].
Qed.
End Table.

Theorem replies_lemma k d w pr es : two_norm k = true -> proper_view g w -> w_seen w = [] -> holds_survey nn P g w d -> Forall (proper_sevent P g) es ->
  d_prob d = Some pr -> ((exists p, In (SProbs p) es) -> loc pr Probabilities = None) -> (ii d = None \/ no_new_emulated es) ->
  rmap fst (do m <- new_sampling_error nn argsort delaunay P k d ; srun nn P es m) = replies nn g nb w es.
Proof.
  intros K PV W HH F Ep Lp Hi. destruct (new_inv k w d K W HH) as (nei & m & -> & T & HI & _ & I1 & Q). cbn [bind]. destruct (Q pr Ep) as (pr1 & E1 & L1).
  apply (srun_inv nei T es w m pr1); try assumption; [rewrite L1; exact Lp|rewrite I1; exact Hi].
Qed.
Theorem kept_lemma k d w qs r m : two_norm k = true -> proper_view g w -> w_seen w = [] -> holds_survey nn P g w d -> Forall (fun q => proper_sevent P g (SAsk q)) qs ->
  (do m0 <- new_sampling_error nn argsort delaunay P k d ; srun nn P (map SAsk qs) m0) = Ok (r, m) -> kept d (se_disc m).
Proof.
  intros K PV W HH F. destruct (new_inv k w d K W HH) as (nei & m0 & -> & T & HI & L & _). cbn [bind]. intros E. eapply kept_trans; [exact L|]. eapply asked_kept; eassumption.
Qed.
End Object.
