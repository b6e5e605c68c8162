(** Distributions fitted to the samples of Density_Examples. *)
From Coq Require Import ZArith List Arith Bool QArith Qcanon Permutation Lia.
From Verif Require Import Err Num Ext NumPy SampleSet_Model SampleSet_Proofs Disc_Model Disc_Examples Inverse_Model Inverse_Spec Density_Model Density_Spec Density_Proofs Density_Examples Fits_Model Fits_Spec Fits_Proofs Fits3_Proofs Fits5_Proofs.
Import ListNotations.
Local Open Scope nat_scope.

Definition fit_disc (P : nat) (xs : list (list Qc)) (ys : list cell) (ls : list Z) (zs : list cell) (ms : list Z) : rdisc := cluster_disc P true false xs ys (Some ls) None zs (Some ms).
Definition example_of (P : nat) (xs : list (list Qc)) (ys : list cell) (ls : list Z) (zs : list cell) (ms : list Z) (K : nat) : Prop :=
  inversion window P (fit_disc P xs ys ls zs ms) 1 1 1 xs ys zs (Some ls) (Some ms) None ls ms (predicted ys ls None) (observed zs ms) K.
Ltac no_labels H := repeat (destruct H as [H|H]; [lia|]); destruct H.
Lemma example_intro P xs ys ls zs ms K : 0 < P -> ys <> [] -> length xs = length ys -> (forall x, In x xs -> length x = 1) -> length ls = length ys -> length ms = length zs -> populated ys ls zs ms -> clusters ls K -> example_of P xs ys ls zs ms K.
Proof.
  intros HP N L1 Hx L2 L3 Po HK. split; [exact HP|]. split; [split; [exact N|]; split; [exact L1|]; split; [exact Hx|]; split; [intros l [= <-]; exact L2|]; split; [intros l [= <-]; exact L3|discriminate]|].
  split; [reflexivity|]. split; [apply cluster_stores; left; reflexivity|]. split; [reflexivity|]. split; [apply window_estimated, Po|exact HK].
Qed.
Ltac in_turn H := repeat (destruct H as [<-|H]; [vm_compute; try (split; lia); try lia; try reflexivity|]); destruct H.
Lemma two_example P : 0 < P -> example_of P in_points out_points out_labels seen seen_labels 2.
Proof. intros HP. apply example_intro; [exact HP|discriminate|reflexivity|each_point|reflexivity|reflexivity|exact two_clusters|exact labels_two]. Qed.
Lemma gap_example P : 0 < P -> example_of P in_points out_points gap_labels seen gap_seen 3.
Proof. intros HP. apply example_intro; [exact HP|discriminate|reflexivity|each_point|reflexivity|reflexivity|apply gap_facts|apply gap_facts]. Qed.
(** Observations far from all outputs. *)
Definition far_seen : list cell := map (fun z => pt (Q2Qc z)) [50; 60; 70; 80; 90]%Q.
Lemma far_example P : 0 < P -> example_of P in_points out_points out_labels far_seen seen_labels 2.
Proof. intros HP. apply example_intro; [exact HP|discriminate|reflexivity|each_point|reflexivity|reflexivity|intros l H _; in_turn H|exact labels_two]. Qed.
(** Two clusters with the same sum of ratios. *)
Definition even_in : list (list Qc) := map (fun z => [Q2Qc z]) [0; 1 # 2; 3; 2; 4; 5]%Q.
Definition even_out : list cell := map (fun z => pt (Q2Qc z)) [0; 1 # 2; 3; 10; 21 # 2; 13]%Q.
Definition even_labels : list Z := [0; 0; 0; 1; 1; 1]%Z.
Definition even_seen : list cell := map (fun z => pt (Q2Qc z)) [0; 1 # 4; 10; 41 # 4; 10]%Q.
Definition even_seen_labels : list Z := [0; 0; 1; 1; 1]%Z.
Lemma even_example P : 0 < P -> example_of P even_in even_out even_labels even_seen even_seen_labels 2.
Proof.
  intros HP. apply example_intro; [exact HP|discriminate|reflexivity|each_point|reflexivity|reflexivity|intros l H _; in_turn H|].
  split; [intros l H; repeat (destruct H as [<-|H]; [lia|]); destruct H|right; cbn; auto 10].
Qed.
(** Ratios that are not all equal. *)
Definition mixed_seen : list cell := map (fun z => pt (Q2Qc z)) [0; 5; 3; 5; 8]%Q.
Lemma mixed_example P : 0 < P -> example_of P in_points out_points out_labels mixed_seen seen_labels 2.
Proof. intros HP. apply example_intro; [exact HP|discriminate|reflexivity|each_point|reflexivity|reflexivity|intros l H _; in_turn H|exact labels_two]. Qed.
Lemma qc_neq x y : Qeq_bool (this x) (this y) = false -> x <> y.
Proof. intros H E. rewrite E, (proj2 (Qeq_bool_iff _ _) (Qeq_refl _)) in H. discriminate. Qed.
Lemma qc_pos x : Qle_bool (this x) 0 = false -> (0 < x)%Qc.
Proof. intros H. apply Qcnot_le_lt. intros E. apply (proj2 (Qle_bool_iff _ _)) in E. cbn [this] in *. change (this 0%Qc) with 0%Q in E. congruence. Qed.
Lemma qc_ge x : Qle_bool 0 (this x) = true -> (0 <= x)%Qc.
Proof. intros H. apply Qle_bool_iff in H. exact H. Qed.
Definition defined_at (ys : list cell) (ls : list Z) (p : nat -> cell -> Qc) (j : nat) : bool :=
  forallb (fun y => negb (Qeq_bool (this (p j y)) 0)) (members (combine ys ls) j) && negb (length (members (combine ys ls) j) =? 0).
Lemma full_intro ys ls p K : forallb (defined_at ys ls p) (seq 0 K) = true -> full ys ls p K.
Proof.
  intros H j J. rewrite forallb_forall in H. specialize (H j (proj2 (in_seq _ _ _) (conj (Nat.le_0_l j) J))). apply andb_prop in H. destruct H as (H1 & H2). split.
  - intros E. rewrite E in H2. discriminate.
  - intros y I. rewrite forallb_forall in H1. specialize (H1 y I). apply qc_neq. change (this 0%Qc) with 0%Q. destruct (Qeq_bool (this (p j y)) 0); [discriminate|reflexivity].
Qed.
Lemma two_full : full out_points out_labels p2 2.
Proof. apply full_intro. vm_compute. reflexivity. Qed.
Lemma even_full : full even_out even_labels (predicted even_out even_labels None) 2.
Proof. apply full_intro. vm_compute. reflexivity. Qed.
Definition show_n (n : normal) : list (option Q) * list (list (option Q)) := (show_x (n_mean n), map show_x (n_cov n)).
Definition show_m {A} (r : result (A * gmm)) := rmap (fun e => (map (option_map show_n) (gaussians (snd e)), map this (gshares (snd e)))) r.
(** Simple densities for the evaluation. *)
Definition any_density (g : option normal) (x : list Qc) : result Qc := Ok (qn (length x)).
Definition any_density1 (mu v : xnum) (x : Qc) : result Qc := match mu with Fin m => Ok (qabs (x - m)) | _ => Ok 0%Qc end.
(** Uniform numbers of two processes. *)
Definition numbers (a b : Q) (j : nat) : list Qc := match j with 0 => [Q2Qc a; Q2Qc b; 0%Qc] | _ => [Q2Qc (1 # 2); Q2Qc (1 # 3)] end.
Definition unequal (rank : nat) : nat -> list Qc := match rank with 0 => numbers (3 # 4) (3 # 4) | _ => numbers (1 # 4) (1 # 4) end.
Lemma numbers_ok a b j : (0 <= Q2Qc a /\ Q2Qc a < 1)%Qc -> (0 <= Q2Qc b /\ Q2Qc b < 1)%Qc -> j < 2 -> uniform_numbers (numbers a b j) (length (members (combine out_points out_labels) j)).
Proof.
  intros A B J. destruct j as [|[|j]]; [| |lia].
  - split; [reflexivity|]. intros u [<-|[<-|[<-|[]]]]; [exact A|exact B|split; [apply Qcle_refl|reflexivity]].
  - split; [reflexivity|]. intros u [<-|[<-|[]]]; (split; [apply qc_ge|]; reflexivity).
Qed.
Lemma unequal_ok rank j : j < 2 -> uniform_numbers (unequal rank j) (length (members (combine out_points out_labels) j)).
Proof. intros J. destruct rank; apply numbers_ok; try exact J; (split; [apply qc_ge; reflexivity|reflexivity]). Qed.
Definition mixed_p := predicted out_points out_labels None.
Definition mixed_o := observed mixed_seen seen_labels.
Lemma mixed_full : full out_points out_labels mixed_p 2.
Proof. apply full_intro. vm_compute. reflexivity. Qed.
Lemma mixed_positive : forall j, j < 2 -> exists y, In y (members (combine out_points out_labels) j) /\ (0 < quotient mixed_p mixed_o j y)%Qc.
Proof. intros [|[|j]] J; [exists (pt 0)|exists (pt (Q2Qc 5))|lia]; (split; [left; reflexivity|apply qc_pos; vm_compute; reflexivity]). Qed.
Definition shown (c : cell) : Q := this (value c).
Definition mixed_run : rdisc * list held := get (even_disc, []) (invert_rejection_sampling window 2 unequal (fit_disc 2 in_points out_points out_labels mixed_seen seen_labels)).
Lemma mixed_ok : invert_rejection_sampling window 2 unequal (fit_disc 2 in_points out_points out_labels mixed_seen seen_labels) = Ok mixed_run.
Proof. unfold mixed_run. apply get_ok. vm_compute. reflexivity. Qed.
Lemma mixed_shown : map (fun h => (map shown (h_global h), map shown (h_local h))) (snd mixed_run) = [([3; 2; 4], [3; 2]); ([0; 1 # 2; 3; 2; 4], [2; 4])]%Q.
Proof. vm_compute. reflexivity. Qed.
Definition single (c : cell) : bool := match c with Vec [Num _] => true | _ => false end.
Lemma shown_inj c c' : single c = true -> single c' = true -> shown c = shown c' -> c = c'.
Proof.
  unfold shown, value. destruct c as [|[|[q|] [|]]], c' as [|[|[q'|] [|]]]; try discriminate. intros _ _ E. replace q' with q; [reflexivity|]. apply Qc_is_canon. rewrite E. reflexivity.
Qed.
Lemma mixed_single : forallb (fun h => forallb single (h_local h)) (snd mixed_run) = true.
Proof. vm_compute. reflexivity. Qed.
Lemma rejection_witness : exists P d draws d' hs, 
  inversion window P d 1 1 1 in_points out_points mixed_seen (Some out_labels) (Some seen_labels) None out_labels seen_labels mixed_p mixed_o 2 /\ full out_points out_labels mixed_p 2 /\
  (forall rank j, j < 2 -> uniform_numbers (draws rank j) (length (members (combine out_points out_labels) j))) /\ NoDup in_points /\
  invert_rejection_sampling window P draws d = Ok (d', hs) /\ ~ NoDup (concat (map h_local hs)) /\ exists h h', In h hs /\ In h' hs /\ length (h_global h) <> length (h_global h').
Proof.
  exists 2, (fit_disc 2 in_points out_points out_labels mixed_seen seen_labels), unequal, (fst mixed_run), (snd mixed_run).
  split; [apply mixed_example; lia|]. split; [exact mixed_full|]. split; [intros rank j; apply unequal_ok|]. split.
  { apply (NoDup_map_inv (fun x : list Qc => map this x)). vm_compute. repeat (constructor; [cbn; intros H; repeat (destruct H as [H|H]; [discriminate|]); destruct H|]). constructor. }
  split; [rewrite mixed_ok; destruct mixed_run; reflexivity|]. pose proof mixed_shown as S. pose proof mixed_single as G. destruct (snd mixed_run) as [|h [|h' [|h'' r]]]; try discriminate. cbn [map] in S. injection S as S1 S2 S3 S4. split.
  - cbn [map concat]. rewrite app_nil_r. cbn [forallb] in G. destruct (h_local h) as [|a [|b [|? ?]]]; try discriminate. destruct (h_local h') as [|a' [|b' [|? ?]]]; try discriminate. cbn [map] in S2, S4. injection S2 as _ E1. injection S4 as E2 _. cbn [app].
    intros N. inversion_clear N as [|? ? _ N1]. inversion_clear N1 as [|? ? N2 _]. apply N2. left. cbn [forallb] in G.
    apply andb_prop in G. destruct G as (G1 & G). apply andb_prop in G1. destruct G1 as (_ & G1). apply andb_prop in G1. destruct G1 as (G1 & _). apply andb_prop in G. destruct G as (G2 & _). apply andb_prop in G2. destruct G2 as (G2 & _).
    apply shown_inj; [exact G2|exact G1|congruence].
  - exists h, h'. split; [left; reflexivity|]. split; [right; left; reflexivity|]. apply (f_equal (@length Q)) in S1, S3. rewrite map_length in S1, S3. rewrite S1, S3. discriminate.
Qed.
(** Sums of ratios 3 and 4/3, parts 2/5 and 3/5 of the observations. *)
Definition two_mean (j : nat) : list Qc := map (mean_of (cluster_points in_points out_points out_labels p2 o2 j)) (seq 0 1).
Definition two_cov (j : nat) : list (list Qc) := map (fun a => map (cov_of (cluster_points in_points out_points out_labels p2 o2 j) a) (seq 0 1)) (seq 0 1).
Lemma two_moments : forall j, j < 2 -> is_moments 1 (cluster_points in_points out_points out_labels p2 o2 j) (two_mean j) (two_cov j).
Proof. intros j J. apply normal_moments. apply qc_neq. destruct j as [|[|j]]; [| |lia]; vm_compute; reflexivity. Qed.
Lemma seen_labelled : labelled seen_labels 2.
Proof. split; [discriminate|]. intros l H. repeat (destruct H as [<-|H]; [lia|]). destruct H. Qed.
Lemma two_mass : mass (all_points in_points out_points out_labels seen_labels p2 o2) <> 0%Qc.
Proof. apply qc_neq. vm_compute. reflexivity. Qed.
Lemma gaussian_witness : exists P d d' mu c mj cj,
  inversion window P d 1 1 1 in_points out_points seen (Some out_labels) (Some seen_labels) None out_labels seen_labels p2 o2 2 /\ full out_points out_labels p2 2 /\ labelled seen_labels 2 /\
  (forall j, j < 2 -> is_moments 1 (cluster_points in_points out_points out_labels p2 o2 j) (mj j) (cj j)) /\
  invert_to_multivariate_gaussian window P d = Ok (d', mk_gmm [Some (mk_normal (map Fin mu) (map (map Fin) c))] [1%Qc]) /\ axis 0 mu <> mixture_mean seen_labels 2 mj 0.
Proof.
  destruct (gaussian_moments_lemma _ _ _ _ _ _ _ _ _ _ _ _ _ _ _ _ _ (two_example 2 ltac:(lia)) two_full two_mass) as (d' & mu & c & E & Mm & _).
  exists 2, (fit_disc 2 in_points out_points out_labels seen seen_labels), d', mu, c, two_mean, two_cov. split; [apply two_example; lia|]. split; [exact two_full|]. split; [exact seen_labelled|]. split; [exact two_moments|]. split; [exact E|].
  intros A. destruct (gaussian_represents_lemma 1 in_points out_points out_labels seen_labels p2 o2 2 mu c two_mean two_cov labels_two Mm two_moments) as (T & _). specialize (T 0 ltac:(lia)). rewrite A in T. revert T. apply qc_neq. vm_compute. reflexivity.
Qed.
Definition even_p := predicted even_out even_labels None.
Definition even_o := observed even_seen even_seen_labels.
Lemma even_masses : exists S, S <> 0%Qc /\ forall j, j < 2 -> mass (cluster_points even_in even_out even_labels even_p even_o j) = S.
Proof. exists (Q2Qc 3). split; [apply qc_neq; reflexivity|]. intros [|[|j]] J; [| |lia]; apply Qc_is_canon; vm_compute; reflexivity. Qed.
Lemma even_nonneg : forall e, In e (all_points even_in even_out even_labels even_seen_labels even_p even_o) -> (0 <= snd e)%Qc.
Proof.
  assert (H : forallb (fun e => Qle_bool 0 (this (snd e))) (all_points even_in even_out even_labels even_seen_labels even_p even_o) = true) by (vm_compute; reflexivity).
  rewrite forallb_forall in H. intros e I. apply qc_ge, H, I.
Qed.
Lemma even_labelled : labelled even_seen_labels 2.
Proof. split; [discriminate|]. intros l H. repeat (destruct H as [<-|H]; [lia|]). destruct H. Qed.
Lemma even_mass : mass (all_points even_in even_out even_labels even_seen_labels even_p even_o) <> 0%Qc.
Proof. apply qc_neq. vm_compute. reflexivity. Qed.
Lemma far_useless : forall j, j < 2 -> ratios_useless out_points out_labels (predicted out_points out_labels None) (observed far_seen seen_labels) j.
Proof.
  intros j J. right. assert (H : forallb (fun j => forallb (fun y => Qeq_bool (this (observed far_seen seen_labels j y)) 0) (members (combine out_points out_labels) j)) (seq 0 2) = true) by (vm_compute; reflexivity).
  rewrite forallb_forall in H. specialize (H j (proj2 (in_seq _ _ _) (conj (Nat.le_0_l j) J))). rewrite forallb_forall in H. intros y I. specialize (H y I). apply Qeq_bool_iff in H. apply Qc_is_canon. rewrite H. reflexivity.
Qed.
Lemma far_mass : mass (all_points in_points out_points out_labels seen_labels (predicted out_points out_labels None) (observed far_seen seen_labels)) = 0%Qc.
Proof. apply Qc_is_canon. vm_compute. reflexivity. Qed.
Definition show_cols {A} (r : result (A * list (list Qc))) : result (list (list Q)) := rmap (fun e => map (map this) (snd e)) r.
