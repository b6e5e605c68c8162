From Coq Require Import ZArith List Arith Lia Bool QArith Qcanon.
From Verif Require Import Err Num Ext NumPy Lists SampleSet_Model SampleSet_Spec SampleSet_Proofs Disc_Model Disc_Proofs Inverse_Model Inverse_Spec Inverse_Proofs Density_Model Density_Spec Density_Proofs Fits_Model Learned_Spec.
Import ListNotations.
Local Open Scope nat_scope.
Local Open Scope err_scope.

Lemma labels_count P s ls : keeps_labels P s ls -> check_num P s = Ok (length ls).
Proof.
  intros (G & _ & O). unfold check_num. cbn [all_attrs map]. rewrite G. rewrite !(fun a N => proj1 (O a N)) by discriminate. cbn [option_map scan_lengths bind rows].
  unfold check_width. rewrite (proj1 (O Values ltac:(discriminate))). rewrite map_length. reflexivity.
Qed.
Lemma labels_gather P s ls : 0 < P -> keeps_labels P s ls -> exists s', local_to_global s = Ok s' /\ keeps_labels P s' ls /\ dim s' = dim s.
Proof.
  intros HP (G & L & O). destruct (gather_attrs_total all_attrs s) as [s1 E].
  - intros a bs _ La. destruct (attr_eq_dec a Region) as [->|N]; [|destruct (O a N); congruence]. destruct L as [L|L]; [congruence|]. rewrite L in La. injection La as <-. eexists. apply gather_split. exact HP.
  - exists s1. split; [exact E|]. destruct (local_to_global_spec _ _ E) as (D1 & D2 & _ & _ & _ & _ & I). split; [|exact D1]. split; [|split].
    + specialize (I Region). destruct L as [L|L]; rewrite L in I; [congruence|]. destruct I as (g & Hg & ->). rewrite gather_split in Hg by exact HP. congruence.
    + rewrite D2. exact L.
    + intros a N. specialize (I a). rewrite D2. destruct (O a N) as (O1 & O2). rewrite O2 in *. split; [congruence|reflexivity].
Qed.

(** ** The same estimates *)
Section Twins.
Context (gkde : list cell -> option (list xnum) -> result (cell -> Qc)).
Context (P di o oo K : nat) (xs : list (list Qc)) (ys zs : list cell) (ls ms : list Z) (pm om : list (list cell)).
Hypothesis HP : 0 < P.
Hypothesis HK : 2 <= K.
Notation twin d v := (twins P d v di o oo K xs ys zs ls ms pm om).

Lemma twin_global d v : twin d v -> exists d' v', all_global d = Ok d' /\ ensure_regions P d' = Ok d' /\ all_global v = Ok v' /\ ensure_regions P v' = Ok v' /\ twin d' v' /\
  (forall a, glob (arrays (r_out v')) a = content o ys (Some ls) a) /\ (forall a, glob (arrays (r_obs v')) a = content oo zs (Some ms) a).
Proof.
  intros ((KI & KO & KB & MO & MB) & (VI & VO & VB & NO & NB & X) & M & I & W & P1 & P2 & L1 & L2 & T).
  destruct (keeps_gather P _ _ _ _ HP KI) as (si & Ei & KI' & GI & _). destruct (keeps_gather P _ _ _ _ HP VO) as (sv & Ev & VO' & GV & _). destruct (labels_gather P _ _ HP KO) as (so & Eo & KO' & DO').
  exists (mk_rdisc (with_arrays si (r_in d)) (with_arrays so (r_out d)) (r_obs d)), (mk_rdisc (with_arrays si (r_in v)) (with_arrays sv (r_out v)) (r_obs v)).
  split; [unfold all_global; rewrite Ei; cbn [bind]; rewrite Eo; reflexivity|]. split; [unfold ensure_regions; cbn [r_out r_obs with_arrays arrays]; rewrite (proj1 KO'), (proj1 KB); reflexivity|].
  split; [unfold all_global; rewrite <- I, Ei; cbn [bind]; rewrite Ev; reflexivity|]. split; [unfold ensure_regions; cbn [r_out r_obs with_arrays arrays]; rewrite GV, (proj2 VB); reflexivity|].
  split; [|split; [exact GV|exact (proj2 VB)]].
  split; [split; [exact KI'|]; split; [exact KO'|]; split; [exact KB|]; split; [exact MO|exact MB]|].
  split; [split; [exact KI'|]; split; [exact VO'|]; split; [exact VB|]; split; [exact NO|]; split; [exact NB|discriminate]|].
  split; [exact M|]. split; [cbn [r_in]; rewrite I; reflexivity|]. split; [exact W|]. split; [exact P1|]. split; [exact P2|]. split; [exact L1|]. split; [exact L2|exact T].
Qed.
Lemma same_cluster r r' init (vs : list cell) k vm n j : maps r = Some vm -> maps r' = None -> glob (arrays r') Values = Some (mk_arr vs [n]) -> parted vs k vm -> j < length vm -> 2 <= length vm -> 2 <= length (members (combine vs k) j) ->
  cluster_kde gkde r init k j = cluster_kde gkde r' init k j.
Proof.
  intros M M' G (L & Pt) J L2 T. unfold cluster_kde. rewrite M, M', G. destruct (Nat.ltb_spec 1 (length vm)) as [_|F]; [|lia]. rewrite (members_length vs k j L) in T. destruct (Nat.ltb_spec 1 (length (pointer k j))) as [_|F]; [|lia].
  destruct (nth_error vm j) as [m|] eqn:E; [|apply nth_error_None in E; lia]. rewrite (Pt j m E). cbn [subscript bind rows]. unfold take. rewrite (take_members vs k j L). reflexivity.
Qed.
Lemma same_kdes d v : twin d v -> (forall a, glob (arrays (r_out v)) a = content o ys (Some ls) a) -> (forall a, glob (arrays (r_obs v)) a = content oo zs (Some ms) a) ->
  forall is, (forall j, In j is -> j < K) -> kdes gkde (r_out d) (r_obs d) ls ms is = kdes gkde (r_out v) (r_obs v) ls ms is.
Proof.
  intros ((KI & KO & KB & MO & MB) & (VI & VO & VB & NO & NB & X) & M & I & W & P1 & P2 & L1 & L2 & (_ & T)) G1 G2. induction is as [|j is IH]; intros J; [reflexivity|].
  cbn [kdes]. rewrite IH by (intros i H; apply J; right; exact H). specialize (J j (or_introl eq_refl)). destruct (T j J) as (T1 & T2).
  rewrite (same_cluster (r_out d) (r_out v) _ ys ls pm o j MO NO) by (first [rewrite G1; reflexivity | exact P1 | lia]). rewrite W.
  rewrite (same_cluster (r_obs d) (r_obs v) _ zs ms om oo j MB NB) by (first [rewrite G2; reflexivity | exact P2 | lia]). reflexivity.
Qed.
Definition both_gen (d v : rdisc) : Prop :=
  (exists e, generate_output_kdes gkde P d = Raise e /\ generate_output_kdes gkde P v = Raise e) \/
  exists d' v' ps os, generate_output_kdes gkde P d = Ok (mk_gen d' ps os K ls ms) /\ generate_output_kdes gkde P v = Ok (mk_gen v' ps os K ls ms) /\ twin d' v' /\
    (forall a, glob (arrays (r_out v')) a = content o ys (Some ls) a).
Lemma twin_generate d v : twin d v -> both_gen d v.
Proof.
  intros T. destruct (twin_global d v T) as (d' & v' & E1 & E2 & F1 & F2 & T' & G1 & G2). unfold both_gen, generate_output_kdes. rewrite E1, F1. cbn [bind]. rewrite E2, F2. cbn [bind].
  assert (Q := same_kdes d' v' T' G1 G2 (seq 0 K) ltac:(intros j H; apply in_seq in H; lia)).
  pose proof T' as ((KI & KO & KB & MO & MB) & (VI & VO & VB & NO & NB & X) & M & I & W & P1 & P2 & L1 & L2 & (C & _)).
  unfold region_of. rewrite (proj1 KO), (proj1 KB), G1, G2. cbn [content option_map subscript bind rows]. change (fun z => Num (Q2Qc (inject_Z z))) with label_cell. rewrite !labels_lemma. cbn [bind]. rewrite MO, NO. cbn [num_clusters bind]. rewrite L1.
  assert (NE : ls <> []). { destruct M as (N & _ & _ & L & _). specialize (L ls eq_refl). intros E. rewrite E in L. apply N. destruct ys; [reflexivity|discriminate]. }
  destruct (num_clusters_spec (V := cell) ls NE) as (c & E & C'). cbn [num_clusters] in E. rewrite E. rewrite (clusters_unique ls c K NE C' C). cbn [bind]. rewrite Q. destruct (kdes gkde (r_out v') (r_obs v') ls ms (seq 0 K)) as [(ps & os)|e].
  - right. exists d', v', ps, os. cbn [bind fst snd]. split; [reflexivity|]. split; [reflexivity|]. split; [exact T'|exact G1].
  - left. exists e. split; reflexivity.
Qed.

(** ** The same weights *)
Lemma same_clusters d v d' v' ps os n : twin d v -> (forall a, glob (arrays (r_out v)) a = content o ys (Some ls) a) -> forall is st, (forall j, In j is -> j < K) ->
  invert_clusters (r_out d) (mk_gen d' ps os n ls ms) is st = invert_clusters (r_out v) (mk_gen v' ps os n ls ms) is st.
Proof.
  intros ((KI & KO & KB & MO & MB) & (VI & VO & VB & NO & NB & X) & M & I & W & (PL & P1) & P2 & L1 & L2 & (C & _)) G1. induction is as [|j is IH]; intros st J; [reflexivity|].
  cbn [invert_clusters g_regions g_obs g_predict]. rewrite MO, NO, G1. cbn [content subscript bind rows]. unfold take. rewrite (take_members ys ls j PL). cbn [bind].
  specialize (J j (or_introl eq_refl)) as Jj. destruct (nth_error pm j) as [m|] eqn:E; [|apply nth_error_None in E; lia]. rewrite (P1 j m E). cbn [bind].
  assert (IH' := fun st => IH st (fun i H => J i (or_intror H))). destruct (0 <? _); [|apply IH']. destruct (nth_error os j) as [[f|]|]; [|reflexivity|reflexivity]. destruct (nth_error ps j) as [[g|]|]; [|reflexivity|reflexivity].
  destruct (scatter _ _ _) as [w|]; [|reflexivity]. apply IH'.
Qed.
Definition both_inv (d v : rdisc) : Prop :=
  (exists e, invert_disc gkde P d = Raise e /\ invert_disc gkde P v = Raise e) \/
  exists d' v' inv, invert_disc gkde P d = Ok (d', inv) /\ invert_disc gkde P v = Ok (v', inv) /\ twin d' v'.
Lemma twin_invert d v : twin d v -> both_inv d v.
Proof.
  intros T. unfold both_inv, invert_disc. destruct (twin_generate d v T) as [(e & -> & ->)|(d' & v' & ps & os & -> & -> & T' & G)]; [left; exists e; split; reflexivity|]. cbn [bind g_disc].
  pose proof T' as ((KI & KO & KB & MO & MB) & (VI & VO & VB & NO & NB & X) & M & I & W & P1 & P2 & L1 & L2 & (C & _)).
  rewrite (labels_count P _ _ KO). rewrite (global_count P _ o ys (Some ls) (proj1 VO) G) by apply M. cbn [bind g_num]. rewrite <- (proj1 P1).
  rewrite (same_clusters d' v' d' v' ps os K T' G) by (intros j H; apply in_seq in H; lia). destruct (invert_clusters _ _ _ _) as [inv|e]; [|left; exists e; split; reflexivity].
  right. cbn [bind]. eexists _, _, inv. split; [reflexivity|]. split; [reflexivity|].
  split; [split; [exact KI|]; split; [exact KO|]; split; [exact KB|]; split; [exact MO|exact MB]|].
  split; [split; [exact VI|]; split; [exact VO|]; split; [exact VB|]; split; [exact NO|]; split; [exact NB|discriminate]|].
  split; [exact M|]. split; [cbn [r_in]; rewrite I; reflexivity|]. split; [exact W|]. split; [exact P1|]. split; [exact P2|]. split; [exact L1|]. split; [exact L2|]. split; [exact C|]. apply T'.
Qed.

(** ** The same distributions *)
Lemma twin_obs d v : twin d v -> check_num P (arrays (r_obs d)) = Ok (length ms) /\ check_num P (arrays (r_obs v)) = Ok (length ms) /\ region_of (r_obs d) = Ok ms /\ region_of (r_obs v) = Ok ms.
Proof.
  intros ((KI & KO & KB & MO & MB) & (VI & VO & VB & NO & NB & X) & M & I & W & P1 & P2 & L1 & L2 & (C & _)). split; [apply labels_count; exact KB|]. split.
  - rewrite (proj1 P2). apply (global_count P _ oo zs (Some ms)); [exact (proj1 VB)|exact (proj2 VB)|]. apply M.
  - unfold region_of. rewrite (proj1 KB), (proj2 VB). cbn [content option_map subscript bind rows]. change (fun z => Num (Q2Qc (inject_Z z))) with label_cell. rewrite labels_lemma. split; reflexivity.
Qed.
Lemma twin_kde gkde1 d v : twin d v -> rmap r_in (invert_to_kde gkde gkde1 P d) = rmap r_in (invert_to_kde gkde gkde1 P v).
Proof.
  intros T. unfold invert_to_kde. destruct (twin_generate d v T) as [(e & -> & ->)|(d' & v' & ps & os & -> & -> & T' & G)]; [reflexivity|]. cbn [bind g_disc].
  destruct (twin_invert d' v' T') as [(e & -> & ->)|(d2 & v2 & inv & -> & -> & T2)]; [reflexivity|]. cbn [bind fst snd g_num]. destruct (twin_obs d2 v2 T2) as (-> & -> & -> & ->). cbn [bind].
  destruct T2 as (_ & _ & _ & I & _). rewrite I. destruct (_ && _); [reflexivity|]. destruct (each _ _) as [l|e]; [|reflexivity]. cbn [bind rmap r_in]. reflexivity.
Qed.
Definition both_start (d v : rdisc) : Prop :=
  (exists e, start gkde P d = Raise e /\ start gkde P v = Raise e) \/
  exists d' v' inv, start gkde P d = Ok (K, d', inv, length ms, ms) /\ start gkde P v = Ok (K, v', inv, length ms, ms) /\ twin d' v'.
Lemma twin_start d v : twin d v -> both_start d v.
Proof.
  intros T. unfold both_start, start. destruct (twin_generate d v T) as [(e & -> & ->)|(d' & v' & ps & os & -> & -> & T' & G)]; [left; exists e; split; reflexivity|]. cbn [bind g_disc].
  destruct (twin_invert d' v' T') as [(e & -> & ->)|(d2 & v2 & inv & -> & -> & T2)]; [left; exists e; split; reflexivity|]. cbn [bind fst snd g_num]. destruct (twin_obs d2 v2 T2) as (-> & -> & -> & ->). cbn [bind].
  right. exists d2, v2, inv. split; [reflexivity|]. split; [reflexivity|exact T2].
Qed.
Definition left_in {A} (r : rdisc * A) : rset * A := (r_in (fst r), snd r).
Lemma twin_gmm d v : twin d v -> rmap left_in (invert_to_gmm gkde P d) = rmap left_in (invert_to_gmm gkde P v).
Proof.
  intros T. unfold invert_to_gmm. destruct (twin_start d v T) as [(e & -> & ->)|(d' & v' & inv & -> & -> & T')]; [reflexivity|]. cbn [bind]. destruct T' as (_ & _ & _ & I & _). rewrite I.
  destruct (each _ _) as [l|e]; [|reflexivity]. cbn [bind rmap left_in fst snd]. unfold left_in. cbn [fst snd]. rewrite I. reflexivity.
Qed.
Lemma twin_weights d v : twin d v -> (exists e, fit_weights gkde P d = Raise e /\ fit_weights gkde P v = Raise e) \/
  exists d' v' tw, fit_weights gkde P d = Ok (d', tw) /\ fit_weights gkde P v = Ok (v', tw) /\ r_in d' = r_in v'.
Proof.
  intros T. unfold fit_weights. destruct (twin_start d v T) as [(e & -> & ->)|(d' & v' & inv & -> & -> & T')]; [left; exists e; split; reflexivity|]. cbn [bind]. destruct T' as (_ & _ & _ & I & _). rewrite I.
  destruct (check_num P _) as [n|e]; [|left; exists e; split; reflexivity]. cbn [bind]. destruct (spread_weights _ _ _ _ _) as [tw|e]; [|left; exists e; split; reflexivity]. right. exists d', v', tw. split; [reflexivity|]. split; [reflexivity|exact I].
Qed.
Lemma twin_gaussian d v : twin d v -> rmap left_in (invert_to_multivariate_gaussian gkde P d) = rmap left_in (invert_to_multivariate_gaussian gkde P v).
Proof.
  intros T. unfold invert_to_multivariate_gaussian. destruct (twin_weights d v T) as [(e & -> & ->)|(d' & v' & tw & -> & -> & I)]; [reflexivity|]. cbn [bind fst snd]. rewrite I.
  destruct (subscript _) as [a|e]; [|reflexivity]. cbn [bind]. destruct (columns _ _) as [c|e]; [|reflexivity]. cbn [bind rmap]. unfold left_in. cbn [fst snd]. rewrite I. reflexivity.
Qed.
Lemma twin_data num d v : twin d v -> rmap left_in (fit_data gkde num P d) = rmap left_in (fit_data gkde num P v).
Proof.
  intros T. unfold fit_data. destruct (twin_weights d v T) as [(e & -> & ->)|(d' & v' & tw & -> & -> & I)]; [reflexivity|]. cbn [bind fst snd]. rewrite I.
  destruct (subscript _) as [a|e]; [|reflexivity]. cbn [bind]. destruct (each _ tw) as [c|e]; [|reflexivity]. cbn [bind]. destruct (np_repeat _ _) as [r|e]; [|reflexivity]. cbn [bind]. destruct (each _ (seq _ _)) as [l|e]; [|reflexivity].
  cbn [bind rmap]. unfold left_in. cbn [fst snd]. rewrite I. reflexivity.
Qed.
Lemma each_ext {A B} (f g : A -> result B) l : (forall x, f x = g x) -> each f l = each g l.
Proof. intros H. induction l as [|x l IH]; [reflexivity|]. cbn [each]. rewrite H, IH. reflexivity. Qed.
Lemma twin_rejection draws d v : twin d v -> rmap left_in (invert_rejection_sampling gkde P draws d) = rmap left_in (invert_rejection_sampling gkde P draws v).
Proof.
  intros T. unfold invert_rejection_sampling. destruct (twin_generate d v T) as [(e & -> & ->)|(d' & v' & ps & os & -> & -> & T' & G)]; [reflexivity|]. cbn [bind g_disc].
  destruct (twin_invert d' v' T') as [(e & -> & ->)|(d2 & v2 & inv & -> & -> & T2)]; [reflexivity|]. cbn [bind fst snd g_num]. destruct T2 as (_ & _ & _ & I & _). rewrite I.
  destruct (local_to_global _) as [s|e]; [|reflexivity]. cbn [bind]. unfold rejection_on. cbn [r_in with_arrays arrays].
  destruct (each _ _) as [l|e]; [|reflexivity]. cbn [bind rmap]. unfold left_in. cbn [fst snd r_in]. reflexivity.
Qed.
End Twins.

(** ** Weights *)
Lemma learned_weights_lemma gkde P di o oo K xs ys zs ls ms pm om p q d v : 0 < P -> 2 <= K -> twins P d v di o oo K xs ys zs ls ms pm om -> estimated gkde ys ls (weights_init (r_out d)) zs ms p q ->
  exists d' inv, invert_disc gkde P d = Ok (d', inv) /\ sample_weights (r_in d') = Some (map (weight p q) (combine ys ls)) /\ i_weights inv = map (weight p q) (combine ys ls) /\ length (i_means inv) = K.
Proof.
  intros HP HK T Es. pose proof T as (_ & ST & M & I & W & _ & _ & _ & _ & (C & _)). rewrite W in Es.
  destruct (weights_lemma gkde P di o oo xs ys zs (Some ls) (Some ms) _ ls ms p q K v HP M eq_refl ST eq_refl Es C) as (v1 & inv & E & S1 & S2 & S3 & _).
  destruct (twin_invert gkde P di o oo K xs ys zs ls ms pm om HP HK d v T) as [(e & _ & F)|(d' & v' & inv' & E1 & E2 & T')]; [congruence|].
  rewrite E in E2. injection E2 as <- <-. exists d', inv. split; [exact E1|]. destruct T' as (_ & _ & _ & I' & _). rewrite I'. split; [exact S1|]. split; [exact S2|exact S3].
Qed.

(** ** One cluster *)
Lemma learns_global P d di xs ls ms pm om : 0 < P -> learns P d di xs ls ms pm om -> exists d', all_global d = Ok d' /\ ensure_regions P d' = Ok d' /\ learns P d' di xs ls ms pm om.
Proof.
  intros HP (KI & KO & KB & MO & MB). destruct (keeps_gather P _ _ _ _ HP KI) as (si & Ei & KI' & _). destruct (labels_gather P _ _ HP KO) as (so & Eo & KO' & _).
  exists (mk_rdisc (with_arrays si (r_in d)) (with_arrays so (r_out d)) (r_obs d)). split; [unfold all_global; rewrite Ei; cbn [bind]; rewrite Eo; reflexivity|].
  split; [unfold ensure_regions; cbn [r_out r_obs with_arrays arrays]; rewrite (proj1 KO'), (proj1 KB); reflexivity|]. split; [exact KI'|]. split; [exact KO'|]. split; [exact KB|]. split; [exact MO|exact MB].
Qed.
Lemma pointer_nonempty ls : In 0%Z ls -> pointer ls 0 <> [].
Proof. intros H E. pose proof (in_members ls ls 0 eq_refl H) as N. apply N. apply length_zero_iff_nil. rewrite (members_length ls ls 0 eq_refl), E. reflexivity. Qed.
Lemma one_generate gkde P d di xs ls ms m n : 0 < P -> learns P d di xs ls ms [m] [n] -> exists d', generate_output_kdes gkde P d = Ok (mk_gen d' [None] [None] 1 ls ms) /\ learns P d' di xs ls ms [m] [n].
Proof.
  intros HP L. destruct (learns_global _ _ _ _ _ _ _ _ HP L) as (d' & E1 & E2 & L'). exists d'. split; [|exact L']. unfold generate_output_kdes. rewrite E1. cbn [bind]. rewrite E2. cbn [bind].
  destruct L' as (KI & KO & KB & MO & MB). unfold region_of. rewrite (proj1 KO), (proj1 KB). cbn [subscript bind rows]. change (fun z => Num (Q2Qc (inject_Z z))) with label_cell. rewrite !labels_lemma. cbn [bind]. rewrite MO. cbn [num_clusters length bind seq kdes].
  unfold cluster_kde. rewrite MO, MB. reflexivity.
Qed.
Lemma one_invert gkde P d di xs ls ms m n : 0 < P -> learns P d di xs ls ms [m] [n] -> In 0%Z ls -> invert_disc gkde P d = Raise PyTypeError.
Proof.
  intros HP L Z. unfold invert_disc. destruct (one_generate gkde P d di xs ls ms m n HP L) as (d' & -> & (KI & KO & KB & MO & MB)). cbn [bind g_disc]. rewrite (labels_count P _ _ KO). cbn [bind g_num seq invert_clusters g_regions g_obs g_predict]. rewrite MO. cbn [nth_error bind].
  destruct (pointer ls 0) eqn:E; [destruct (pointer_nonempty ls Z E)|]. reflexivity.
Qed.
Lemma one_cluster_lemma gkde gkde1 P d di xs ls ms m n : 0 < P -> learns P d di xs ls ms [m] [n] -> In 0%Z ls ->
  invert_disc gkde P d = Raise PyTypeError /\ invert_to_kde gkde gkde1 P d = Raise PyTypeError /\ invert_to_gmm gkde P d = Raise PyTypeError /\
  invert_to_multivariate_gaussian gkde P d = Raise PyTypeError /\ (forall num, fit_data gkde num P d = Raise PyTypeError) /\ forall draws, invert_rejection_sampling gkde P draws d = Raise PyTypeError.
Proof.
  intros HP L Z. split; [eapply one_invert; eassumption|]. destruct (one_generate gkde P d di xs ls ms m n HP L) as (d' & E & L'). pose proof (one_invert gkde P d' di xs ls ms m n HP L' Z) as F.
  assert (S1 : start gkde P d = Raise PyTypeError) by (unfold start; rewrite E; cbn [bind g_disc]; rewrite F; reflexivity).
  split; [unfold invert_to_kde; rewrite E; cbn [bind g_disc]; rewrite F; reflexivity|]. split; [unfold invert_to_gmm; rewrite S1; reflexivity|].
  assert (S2 : fit_weights gkde P d = Raise PyTypeError) by (unfold fit_weights; rewrite S1; reflexivity).
  split; [unfold invert_to_multivariate_gaussian; rewrite S2; reflexivity|]. split; [intros num; unfold fit_data; rewrite S2; reflexivity|]. intros draws. unfold invert_rejection_sampling. rewrite E. cbn [bind g_disc]. rewrite F. reflexivity.
Qed.

(** ** Learned values *)
Lemma deal_out {A} : forall (ls : list Z) (f : nat -> list A), (forall l, In l ls -> (0 <= l)%Z) -> (forall j, length (f j) = count_label ls j) -> exists ys, length ls = length ys /\ forall j, members (combine ys ls) j = f j.
Proof.
  induction ls as [|l ls IH]; intros f N L.
  - exists []. split; [reflexivity|]. intros j. specialize (L j). cbn in L. destruct (f j); [reflexivity|discriminate].
  - assert (Hl : (0 <= l)%Z) by (apply N; left; reflexivity). set (k := Z.to_nat l). assert (Ek : l = Z.of_nat k) by (unfold k; lia).
    pose proof (L k) as Lk. unfold count_label in Lk. cbn [filter] in Lk. rewrite Ek, Z.eqb_refl in Lk. destruct (f k) as [|y t] eqn:Ef; [discriminate|].
    destruct (IH (fun j => if j =? k then t else f j)) as (ys & E1 & E2).
    + intros x H. apply N. right. exact H.
    + intros j. specialize (L j). unfold count_label in L. cbn [filter] in L. destruct (Nat.eqb_spec j k) as [->|D].
      * rewrite Ef, Ek, Z.eqb_refl in L. cbn [length] in L. unfold count_label. lia.
      * destruct (Z.eqb_spec (Z.of_nat j) l) as [F|_]; [lia|]. exact L.
    + exists (y :: ys). split; [cbn [length]; rewrite E1; reflexivity|]. intros j. specialize (E2 j). cbv beta in E2. unfold members in *. cbn [combine filter snd]. destruct (Nat.eqb_spec j k) as [D|D].
      * rewrite D in *. rewrite Ek, Z.eqb_refl. cbn [map fst]. rewrite E2, Ef. reflexivity.
      * destruct (Z.eqb_spec l (Z.of_nat j)) as [F|_]; [lia|]. exact E2.
Qed.
Lemma dealt_once {A} : forall (ls : list Z) (ys ys' : list A), length ls = length ys -> length ls = length ys' -> (forall l, In l ls -> (0 <= l)%Z) ->
  (forall j, In (Z.of_nat j) ls -> members (combine ys ls) j = members (combine ys' ls) j) -> ys = ys'.
Proof.
  induction ls as [|l ls IH]; intros [|y ys] [|y' ys'] L L' N H; try discriminate; [reflexivity|]. assert (Hl : (0 <= l)%Z) by (apply N; left; reflexivity).
  assert (Q : forall j, In (Z.of_nat j) (l :: ls) -> members (combine (y :: ys) (l :: ls)) j = members (combine (y' :: ys') (l :: ls)) j) by exact H.
  unfold members in Q. cbn [combine filter snd] in Q. pose proof (Q (Z.to_nat l) ltac:(left; lia)) as Q0. rewrite Z2Nat.id, Z.eqb_refl in Q0 by exact Hl. cbn [map fst] in Q0. injection Q0 as <- _. f_equal.
  apply IH; [cbn in L; lia|cbn in L'; lia|intros x Hx; apply N; right; exact Hx|]. intros j Hj. specialize (Q j (or_intror Hj)). unfold members. destruct (Z.eqb l (Z.of_nat j)); [cbn [map fst] in Q; injection Q as Q; exact Q|exact Q].
Qed.
Lemma learned_values_lemma {A} (ls : list Z) (maps : list (list A)) : (forall l, In l ls -> (0 <= l < Z.of_nat (length maps))%Z) -> (forall j m, nth_error maps j = Some m -> length m = count_label ls j) -> exists ! ys, parted ys ls maps.
Proof.
  intros N L. destruct (deal_out ls (fun j => nth j maps [])) as (ys & E1 & E2).
  - intros l H. apply N in H. lia.
  - intros j. destruct (nth_error maps j) as [m|] eqn:E; [rewrite (nth_error_nth _ _ _ E); apply L; exact E|]. rewrite nth_overflow by (apply nth_error_None; exact E). cbn [length]. unfold count_label. symmetry. apply length_zero_iff_nil.
    destruct (filter _ ls) as [|x r] eqn:F; [reflexivity|]. exfalso. assert (I : In x (filter (Z.eqb (Z.of_nat j)) ls)) by (rewrite F; left; reflexivity). apply filter_In in I. destruct I as (I & Q). apply Z.eqb_eq in Q. apply N in I. apply nth_error_None in E. lia.
  - exists ys. split.
    + split; [exact E1|]. intros j m E. rewrite E2, (nth_error_nth _ _ _ E). reflexivity.
    + intros ys' (E1' & E2'). apply (dealt_once ls); [exact E1|exact E1'|intros l H; apply N in H; lia|]. intros j Hj. apply N in Hj. destruct (nth_error maps j) as [m|] eqn:E; [|apply nth_error_None in E; lia]. rewrite E2, (nth_error_nth _ _ _ E). apply E2'. exact E.
Qed.
