From Coq Require Import ZArith List Arith Lia Bool Permutation QArith Qcanon.
From Verif Require Import Err Num Ext NumPy Lists SampleSet_Model SampleSet_Spec SampleSet_Proofs Disc_Model Disc_Proofs Inverse_Model Inverse_Spec Inverse_Proofs Inverse2_Proofs Inverse3_Proofs
  Density_Model Density_Spec Density_Proofs Fits_Model Fits_Spec.
Import ListNotations.
Local Open Scope nat_scope.
Local Open Scope err_scope.

(** ** Moments *)
Lemma combine_maps {A B C} (f : A -> B) (g : A -> C) l : combine (map f l) (map g l) = map (fun x => (f x, g x)) l.
Proof. induction l as [|x l IH]; [reflexivity|]. cbn [map combine]. rewrite IH. reflexivity. Qed.
Lemma combine_map_fst {A B C} (f : A -> B) (l : list A) (w : list C) : combine (map f l) w = map (fun e => (f (fst e), snd e)) (combine l w).
Proof. revert w. induction l as [|x l IH]; intros [|y w]; try reflexivity. cbn [map combine fst snd]. rewrite IH. reflexivity. Qed.
Lemma combine_map_snd {A B C} (f : B -> C) (l : list A) (w : list B) : combine l (map f w) = map (fun e => (fst e, f (snd e))) (combine l w).
Proof. revert w. induction l as [|x l IH]; intros [|y w]; try reflexivity. cbn [map combine fst snd]. rewrite IH. reflexivity. Qed.
Lemma qsum_cons x l : qsum (x :: l) = (x + qsum l)%Qc.
Proof. reflexivity. Qed.
Lemma qsum_map_ext {A} (f g : A -> Qc) l : (forall x, In x l -> f x = g x) -> qsum (map f l) = qsum (map g l).
Proof. intros H. f_equal. apply map_ext_in. exact H. Qed.
Lemma qsum_map_add {A} (f g : A -> Qc) l : qsum (map (fun x => f x + g x)%Qc l) = (qsum (map f l) + qsum (map g l))%Qc.
Proof. induction l as [|x l IH]; [cbn; ring|]. cbn [map]. rewrite !qsum_cons, IH. ring. Qed.
Lemma qsum_map_mul {A} (f : A -> Qc) c l : qsum (map (fun x => c * f x)%Qc l) = (c * qsum (map f l))%Qc.
Proof. induction l as [|x l IH]; [cbn; ring|]. cbn [map]. rewrite !qsum_cons, IH. ring. Qed.
Lemma qsum_map_sub {A} (f g : A -> Qc) l : qsum (map (fun x => f x - g x)%Qc l) = (qsum (map f l) - qsum (map g l))%Qc.
Proof. induction l as [|x l IH]; [cbn; ring|]. cbn [map]. rewrite !qsum_cons, IH. ring. Qed.
Lemma qsum_map_zero {A} (l : list A) : qsum (map (fun _ => 0%Qc) l) = 0%Qc.
Proof. induction l as [|x l IH]; [reflexivity|]. cbn [map]. rewrite qsum_cons, IH. ring. Qed.

Definition mean_of (pts : list (list Qc * Qc)) (i : nat) : Qc := (qsum (map (fun e => axis i (fst e) * snd e)%Qc pts) / mass pts)%Qc.
Definition cov_of (pts : list (list Qc * Qc)) (a b : nat) : Qc :=
  (qsum (map (fun e => snd e * ((axis a (fst e) - mean_of pts a) * (axis b (fst e) - mean_of pts b)))%Qc pts) / mass pts)%Qc.
Definition columns_of (di : nat) (xs : list (list Qc)) : list (list Qc) := map (fun i => map (axis i) xs) (seq 0 di).
Lemma wmean_fin pts i : mass pts <> 0%Qc -> wmean (map Fin (map snd pts)) (map (axis i) (map fst pts)) = Fin (mean_of pts i).
Proof.
  intros N. unfold wmean. rewrite xsum_fin. rewrite !map_map, combine_maps, map_map. cbn [fst snd xmul].
  assert (E : map (fun e : list Qc * Qc => Fin (axis i (fst e) * snd e)%Qc) pts = map Fin (map (fun e => axis i (fst e) * snd e)%Qc pts)) by (rewrite map_map; reflexivity).
  rewrite E, xsum_fin. cbn [xdiv]. rewrite xdivq_fin by exact N. reflexivity.
Qed.
Lemma wcov_fin pts a b : mass pts <> 0%Qc ->
  wcov (map Fin (map snd pts)) (map (axis a) (map fst pts), Fin (mean_of pts a)) (map (axis b) (map fst pts), Fin (mean_of pts b)) = Fin (cov_of pts a b).
Proof.
  intros N. unfold wcov. rewrite xsum_fin. cbn [fst snd]. rewrite !map_map, combine_maps, combine_maps, map_map. cbn [fst snd deviation xneg xadd xmul].
  assert (E : map (fun e : list Qc * Qc => Fin (snd e * ((axis a (fst e) + - mean_of pts a) * (axis b (fst e) + - mean_of pts b)))%Qc) pts =
              map Fin (map (fun e => snd e * ((axis a (fst e) - mean_of pts a) * (axis b (fst e) - mean_of pts b)))%Qc pts)) by (rewrite map_map; reflexivity).
  rewrite E, xsum_fin. cbn [xdiv]. rewrite xdivq_fin by exact N. reflexivity.
Qed.
Definition normal_of (di : nat) (pts : list (list Qc * Qc)) : normal :=
  mk_normal (map Fin (map (mean_of pts) (seq 0 di))) (map (map Fin) (map (fun a => map (cov_of pts a) (seq 0 di)) (seq 0 di))).
Lemma weighted_fin di pts : mass pts <> 0%Qc -> weighted_normal (columns_of di (map fst pts)) (map Fin (map snd pts)) = normal_of di pts.
Proof.
  intros N. unfold weighted_normal, normal_of. cbv zeta.
  assert (E : map (wmean (map Fin (map snd pts))) (columns_of di (map fst pts)) = map Fin (map (mean_of pts) (seq 0 di))).
  { unfold columns_of. rewrite (map_map (fun i => map (axis i) (map fst pts))), (map_map (mean_of pts) Fin). apply map_ext. intros i. exact (wmean_fin pts i N). }
  rewrite E. f_equal. unfold columns_of. rewrite (map_map (mean_of pts) Fin), (combine_maps (fun i => map (axis i) (map fst pts)) (fun i => Fin (mean_of pts i))), (map_map (fun i => (map (axis i) (map fst pts), Fin (mean_of pts i)))), (map_map (fun a => map (cov_of pts a) (seq 0 di))).
  apply map_ext. intros a. rewrite (map_map (fun i => (map (axis i) (map fst pts), Fin (mean_of pts i)))), (map_map (cov_of pts a)). apply map_ext. intros b. exact (wcov_fin pts a b N).
Qed.
Lemma normal_moments di pts : mass pts <> 0%Qc -> is_moments di pts (map (mean_of pts) (seq 0 di)) (map (fun a => map (cov_of pts a) (seq 0 di)) (seq 0 di)).
Proof.
  intros N. assert (A : forall i, i < di -> axis i (map (mean_of pts) (seq 0 di)) = mean_of pts i) by (intros i H; apply nth_map_seq, H).
  split; [rewrite map_length, seq_length; reflexivity|]. split.
  { split; [rewrite map_length, seq_length; reflexivity|]. intros r H. apply in_map_iff in H. destruct H as (a & <- & _). rewrite map_length, seq_length. reflexivity. }
  split.
  - intros i I. rewrite (A i I). rewrite (qsum_map_ext _ (fun e => axis i (fst e) * snd e - mean_of pts i * snd e)%Qc) by (intros; ring).
    rewrite qsum_map_sub, qsum_map_mul. fold (mass pts). unfold mean_of. field. exact N.
  - intros a b Ha Hb. rewrite (A a Ha), (A b Hb). unfold entry. rewrite (nth_map_seq (fun a => map (cov_of pts a) (seq 0 di)) di a [] Ha), (nth_map_seq (cov_of pts a) di b 0%Qc Hb).
    unfold cov_of. field. exact N.
Qed.
(** ** Infinite and undefined weights *)
Lemma xsum_nonfinite l : (exists x, In x l /\ forall q, x <> Fin q) -> forall q, xsum l <> Fin q.
Proof.
  intros (x & I & N) q E. pose proof (xsum_cases l) as C. rewrite E in C. destruct C as (C1 & C2 & C3). destruct x; try contradiction. exact (N q0 eq_refl).
Qed.
Lemma xdiv_nonfinite x y : (forall q, x <> Fin q) -> (forall q, y <> Fin q) -> xdiv x y = NaN.
Proof. intros A B. destruct x as [q| | |]; [destruct (A q eq_refl)| | |]; destruct y as [q'| | |]; try reflexivity; destruct (B q' eq_refl). Qed.
Lemma xmul_nonfinite a x : (forall q, x <> Fin q) -> forall q, xmul (Fin a) x <> Fin q.
Proof. intros N q. destruct x as [q'| | |]; [destruct (N q' eq_refl)| | |]; cbn [xmul]; try discriminate; destruct (qeqb a 0); try discriminate; unfold sgn_inf; destruct (qltb 0 a); cbn [xneg]; discriminate. Qed.
Lemma xmul_nan_r x : xmul x NaN = NaN.
Proof. destruct x; reflexivity. Qed.
Lemma xadd_nan_r x : xadd x NaN = NaN.
Proof. destruct x; reflexivity. Qed.
Lemma xsum_nan l : In NaN l -> xsum l = NaN.
Proof. intros I. pose proof (xsum_cases l) as C. destruct (xsum l); tauto. Qed.
Definition useless (w : list xnum) : Prop := (exists x, In x w /\ forall q, x <> Fin q) \/ (forall x, In x w -> x = Fin 0%Qc).
Lemma wmean_useless w col : useless w -> length col = length w -> wmean w col = NaN.
Proof.
  intros [H|H] L; unfold wmean.
  - apply xdiv_nonfinite; [|apply xsum_nonfinite, H]. apply xsum_nonfinite. destruct H as (x & I & N). apply In_nth_error in I. destruct I as (k & Hk).
    destruct (nth_error col k) as [v|] eqn:E; [|apply nth_error_None in E; assert (k < length w) by (apply nth_error_Some; congruence); lia].
    exists (xmul (Fin v) x). split; [|apply xmul_nonfinite, N]. apply in_map_iff. exists (v, x). split; [reflexivity|]. apply (nth_error_In _ k). clear -E Hk. revert k w E Hk. induction col as [|c col IH]; intros [|k] [|y w] E Hk; try discriminate; cbn in *; [congruence|]. apply IH; assumption.
  - assert (Z : xsum w = Fin 0%Qc). { clear L. induction w as [|x w IH]; [reflexivity|]. change (xsum (x :: w)) with (xadd x (xsum w)). rewrite IH, (H x) by (try (left; reflexivity); intros y Hy; apply H; right; exact Hy). cbn [xadd]; f_equal; ring. }
    assert (Z' : xsum (map (fun e => xmul (Fin (fst e)) (snd e)) (combine col w)) = Fin 0%Qc).
    { clear L Z. revert w H. induction col as [|c col IH]; intros [|x w] H; try reflexivity. cbn [combine map fst snd]. rewrite (H x (or_introl eq_refl)). change (xadd (xmul (Fin c) (Fin 0%Qc)) (xsum (map (fun e => xmul (Fin (fst e)) (snd e)) (combine col w))) = Fin 0%Qc).
      rewrite IH by (intros y Hy; apply H; right; exact Hy). cbn [xmul xadd]; f_equal; ring. }
    rewrite Z, Z'. cbn [xdiv]. unfold xdivq. replace (qeqb 0 0) with true by reflexivity. reflexivity.
Qed.
Lemma useless_normal di xs w : useless w -> length xs = length w -> w <> [] -> weighted_normal (columns_of di xs) w = mk_normal (repeat NaN di) (repeat (repeat NaN di) di).
Proof.
  intros U L N. unfold weighted_normal. cbv zeta.
  assert (E : map (wmean w) (columns_of di xs) = map (fun _ => NaN) (seq 0 di)).
  { unfold columns_of. rewrite map_map. apply map_ext. intros i. apply wmean_useless; [exact U|rewrite map_length; exact L]. }
  assert (R : forall (x : xnum) n k, map (fun _ => x) (seq k n) = repeat x n) by (intros x n; induction n as [|n IH]; intros k; [reflexivity|]; cbn [seq map repeat]; rewrite IH; reflexivity).
  assert (R' : forall (x : list xnum) n k, map (fun _ => x) (seq k n) = repeat x n) by (intros x n; induction n as [|n IH]; intros k; [reflexivity|]; cbn [seq map repeat]; rewrite IH; reflexivity).
  rewrite E. f_equal; [apply R|]. unfold columns_of. rewrite combine_maps, map_map, <- (R' _ di 0). apply map_ext. intros a. rewrite map_map, <- (R _ di 0). apply map_ext. intros b.
  unfold wcov. cbn [fst snd]. rewrite xsum_nan; [destruct (xsum w); reflexivity|]. destruct xs as [|x xs]; [destruct w; [contradiction|discriminate]|]. destruct w as [|y w]; [discriminate|].
  cbn [map combine fst snd]. left. destruct y; reflexivity.
Qed.

(** ** Stored samples *)
Lemma start_lemma gkde P di o oo xs ys zs lo mo w ls ms p q K d : 0 < P -> matching di xs ys lo zs mo w -> used_labels (length ys) (length zs) lo mo = (ls, ms) ->
  stores P d di xs o ys lo oo zs mo -> weights_init (r_out d) = w -> estimated gkde ys ls w zs ms p q -> clusters ls K ->
  exists d3, prepared_for P di o oo xs ys zs w ls ms d3 /\ updated (r_in d3) = updated (r_in d) /\
    start gkde P d = Ok (K, mk_rdisc (set_weights (map (weight p q) (combine ys ls)) (r_in d3)) (r_out d3) (r_obs d3), solution ys p q ls K, length zs, ms).
Proof.
  intros HP M U St W Es HK. destruct (prepare P di o oo xs ys zs lo mo w ls ms d HP M U St W) as (d1 & d2 & E1 & E2 & Q & SR).
  destruct (prepared_again P di o oo xs ys zs w HP ls ms d2 Q) as (d3 & F1 & F2 & Q3 & SR3).
  exists d3. split; [exact Q3|]. split; [destruct SR as (_ & _ & _ & A), SR3 as (_ & _ & _ & B); congruence|].
  unfold start. rewrite (generate_from gkde P di o oo xs ys zs lo mo w p q HP M ls ms U Es K HK d1 d2 d E1 E2 Q). cbn [bind gen_of g_disc g_num].
  rewrite (invert_from gkde P di o oo xs ys zs lo mo w p q HP M ls ms U Es K HK d3 d3 d2 F1 F2 Q3). cbn [bind fst snd r_in r_out r_obs set_weights arrays].
  destruct Q3 as ((A1 & A2 & A3 & A4 & A5 & A6) & A7 & A8 & A9). rewrite (global_count P _ oo zs (Some ms)); [|exact (proj1 A3)|exact (proj2 A3)|intros l [= <-]; apply (used_lengths _ _ _ _ _ _ _ _ _ M U)]. cbn [bind].
  unfold region_of. rewrite (proj2 A3). cbn [content option_map subscript bind rows]. rewrite labels_lemma. reflexivity.
Qed.
Lemma guard_lemma gkde P di xs ys zs lo mo w ls ms p q K : 0 < P -> matching di xs ys lo zs mo w -> used_labels (length ys) (length zs) lo mo = (ls, ms) ->
  estimated gkde ys ls w zs ms p q -> clusters ls K -> 0 < K -> length zs <> 0.
Proof.
  intros HP M U Es HK HK0 Z. pose proof (guard gkde P di xs ys zs lo mo w p q HP M ls ms U Es K HK) as G. rewrite Z in G. cbn [Nat.eqb andb] in G. destruct (Nat.ltb_spec 0 K); [discriminate|lia].
Qed.
Lemma columns_lemma di v xs : (forall x, In x v -> length x = di) -> columns (mk_arr (map point_row xs) [di]) (map point_row v) = Ok (columns_of di v).
Proof. intros H. unfold columns, width. cbn [tail_shape bind]. apply each_map. intros i Hi. apply in_seq in Hi. apply coordinates_lemma. intros x Hx. rewrite (H x Hx). lia. Qed.
Lemma pair_members {A B} (xs : list A) (ys : list B) ls j : length xs = length ys -> length ls = length ys ->
  members (combine ys ls) j = map snd (members (combine (combine xs ys) ls) j) /\ members (combine xs ls) j = map fst (members (combine (combine xs ys) ls) j).
Proof. intros L1 L2. destruct (combine_fst xs ys ls L1 L2) as (-> & -> & _). apply members_pairs. Qed.
Section Clusters.
Context (xs : list (list Qc)) (ys : list cell) (ls : list Z) (p q : nat -> cell -> Qc).
Hypothesis L1 : length xs = length ys.
Hypothesis L2 : length ls = length ys.
Lemma points_fst j : map fst (cluster_points xs ys ls p q j) = members (combine xs ls) j.
Proof. rewrite (proj2 (pair_members xs ys ls j L1 L2)). unfold cluster_points. rewrite map_map. reflexivity. Qed.
Lemma points_snd j : ratios_defined ys ls p j -> map Fin (map snd (cluster_points xs ys ls p q j)) = map (ratio p q j) (members (combine ys ls) j).
Proof.
  intros D. unfold ratios_defined in D. rewrite (proj1 (pair_members xs ys ls j L1 L2)) in *. unfold cluster_points. rewrite !map_map. apply map_ext_in. intros e H. cbn [snd]. unfold ratio. rewrite xdivq_fin; [reflexivity|].
  apply D, in_map, H.
Qed.
Definition cluster_normal (di j : nat) : normal := weighted_normal (columns_of di (members (combine xs ls) j)) (map (ratio p q j) (members (combine ys ls) j)).
Lemma cluster_normal_fin di j : ratios_defined ys ls p j -> mass (cluster_points xs ys ls p q j) <> 0%Qc -> cluster_normal di j = normal_of di (cluster_points xs ys ls p q j).
Proof. intros D N. unfold cluster_normal. rewrite <- points_fst, <- (points_snd j D). apply weighted_fin, N. Qed.
Lemma cluster_normal_useless di j : members (combine ys ls) j <> [] -> ratios_useless ys ls p q j -> cluster_normal di j = mk_normal (repeat NaN di) (repeat (repeat NaN di) di).
Proof.
  intros N H. apply useless_normal.
  - assert (D : (exists y, In y (members (combine ys ls) j) /\ p j y = 0%Qc) \/ ratios_defined ys ls p j).
    { unfold ratios_defined. clear N H. induction (members (combine ys ls) j) as [|y r IH]; [right; intros y []|]. destruct (Qc_eq_dec (p j y) 0) as [E|E]; [left; exists y; split; [left; reflexivity|exact E]|].
      destruct IH as [(z & I & Z)|IH]; [left; exists z; split; [right; exact I|exact Z]|]. right. intros z [<-|I]; [exact E|apply IH, I]. }
    destruct D as [(y & I & Z)|D].
    + left. exists (ratio p q j y). split; [apply in_map, I|]. intros v. unfold ratio, xdivq. rewrite Z. replace (qeqb 0 0) with true by reflexivity. destruct (qeqb (q j y) 0); [discriminate|]. unfold sgn_inf. destruct (qltb 0 (q j y)); discriminate.
    + destruct H as [(y & I & Z)|H]; [destruct (D y I Z)|]. right. intros x Hx. apply in_map_iff in Hx. destruct Hx as (y & <- & I). unfold ratio. rewrite (H y I), xdivq_fin by (apply D, I). f_equal. unfold Qcdiv. ring.
  - rewrite map_length. destruct (pair_members xs ys ls j L1 L2) as (-> & ->). rewrite !map_length. reflexivity.
  - intros E. apply map_eq_nil in E. contradiction.
Qed.
End Clusters.
Definition gmm_of (di : nat) (xs : list (list Qc)) (ys : list cell) (ls ms : list Z) (p q : nat -> cell -> Qc) (K : nat) : gmm :=
  mk_gmm (map (fun j => if length (members (combine ys ls) j) =? 0 then None else Some (cluster_normal xs ys ls p q di j)) (seq 0 K)) (map (share ms) (seq 0 K)).
Lemma share_lemma ms n j : length ms = n -> n <> 0 -> cluster_share ms n j = Ok (share ms j).
Proof. intros <- N. unfold cluster_share, share. destruct (Nat.eqb_spec (length ms) 0); [contradiction|]. rewrite pointer_length. reflexivity. Qed.
Lemma solution_nth ys p q ls K j : j < K -> nth_error (i_ratios (solution ys p q ls K)) j = Some (ratios ys p q ls j) /\ nth_error (i_ptrs (solution ys p q ls K)) j = Some (pointer ls j).
Proof. intros J. unfold solution. cbn [i_ratios i_ptrs]. rewrite !nth_error_map, !nth_error_seq. destruct (Nat.ltb_spec j K); [|lia]. split; reflexivity. Qed.
Lemma gmm_lemma gkde P di o oo xs ys zs lo mo w ls ms p q K d : 0 < P -> matching di xs ys lo zs mo w -> used_labels (length ys) (length zs) lo mo = (ls, ms) ->
  stores P d di xs o ys lo oo zs mo -> weights_init (r_out d) = w -> estimated gkde ys ls w zs ms p q -> clusters ls K ->
  exists d', invert_to_gmm gkde P d = Ok (d', gmm_of di xs ys ls ms p q K) /\ sample_weights (r_in d') = Some (map (weight p q) (combine ys ls)) /\
    stores P d' di xs o ys (Some ls) oo zs (Some ms) /\ weights_init (r_out d') = w.
Proof.
  intros HP M U St W Es HK. destruct (start_lemma gkde P di o oo xs ys zs lo mo w ls ms p q K d HP M U St W Es HK) as (d3 & Q3 & _ & E).
  destruct (used_lengths _ _ _ _ _ _ _ _ _ M U) as (Ll & Lm). assert (LX : length ls = length xs) by (rewrite Ll; symmetry; apply M).
  eexists. unfold invert_to_gmm. rewrite E. cbn [bind r_in set_weights arrays]. pose proof Q3 as ((A1 & A2 & A3 & A4 & A5 & A6) & A7 & A8 & A9). rewrite (A7 Values). cbn [content].
  rewrite (each_map _ (fun j => (if length (members (combine ys ls) j) =? 0 then None else Some (cluster_normal xs ys ls p q di j), share ms j))).
  - cbn [bind]. rewrite !map_map. cbn [fst snd]. split; [reflexivity|]. cbn [r_in r_out r_obs set_weights sample_weights]. split; [reflexivity|]. split; [exact (prepared_stores _ _ _ _ _ _ _ _ _ _ _ Q3)|exact A9].
  - intros j Hj. apply in_seq in Hj. unfold gmm_cluster. rewrite (share_lemma ms (length zs) j Lm); [|apply (guard_lemma gkde P di xs ys zs lo mo w ls ms p q K HP M U Es HK); lia]. cbn [bind].
    destruct (solution_nth ys p q ls K j) as (-> & ->); [lia|]. unfold ratios. destruct (Nat.eqb_spec (length (members (combine ys ls) j)) 0); [reflexivity|]. cbn [subscript bind rows]. unfold take.
    rewrite take_members by (rewrite map_length; exact LX). cbn [bind]. rewrite members_map, columns_lemma; [reflexivity|]. intros x Hx. apply members_sub in Hx. apply M. exact Hx.
Qed.
