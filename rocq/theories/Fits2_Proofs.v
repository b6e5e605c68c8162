From Coq Require Import ZArith List Arith Lia Bool Permutation QArith Qcanon.
From Verif Require Import Err Num Ext NumPy Lists SampleSet_Model SampleSet_Spec SampleSet_Proofs Disc_Model Disc_Proofs Inverse_Model Inverse_Spec Inverse_Proofs Inverse2_Proofs Inverse3_Proofs
  Density_Model Density_Spec Density_Proofs Fits_Model Fits_Spec Fits_Proofs.
Import ListNotations.
Local Open Scope nat_scope.
Local Open Scope err_scope.

(** ** Weights of all samples *)
Section Total.
Context (xs : list (list Qc)) (ys : list cell) (ls ms : list Z) (p q : nat -> cell -> Qc) (K nobs : nat).
Hypothesis L2 : length ls = length ys.
Hypothesis HK : clusters ls K.
Hypothesis Lm : length ms = nobs.
Hypothesis N0 : nobs <> 0.
Definition total_weight (e : cell * Z) : xnum := if (snd e <? 0)%Z then Fin 0 else xmul (ratio p q (Z.to_nat (snd e)) (fst e)) (Fin (share ms (Z.to_nat (snd e)))).
Definition total_to (k : nat) (e : cell * Z) : xnum :=
  if ((0 <=? snd e) && (snd e <? Z.of_nat k))%Z then xmul (ratio p q (Z.to_nat (snd e)) (fst e)) (Fin (share ms (Z.to_nat (snd e)))) else Fin 0.
Lemma total_step k : map (fun e : cell * Z => if Z.eqb (snd e) (Z.of_nat k) then xmul (ratio p q k (fst e)) (Fin (share ms k)) else total_to k e) (combine ys ls) = map (total_to (S k)) (combine ys ls).
Proof. clear - ys ls ms p q.
  apply map_ext. intros (y & l). unfold total_to. cbn [fst snd]. destruct (Z.eqb_spec l (Z.of_nat k)) as [->|N].
  - rewrite (proj2 (Z.leb_le 0 _)), (proj2 (Z.ltb_lt _ _)) by lia. cbn [andb]. rewrite Nat2Z.id. reflexivity.
  - destruct (Z.leb_spec 0 l); cbn [andb]; [|reflexivity]. destruct (Z.ltb_spec l (Z.of_nat k)), (Z.ltb_spec l (Z.of_nat (S k))); try reflexivity; lia.
Qed.
Lemma spread_step k tw rest : k < K -> members (combine ys ls) k <> [] -> tw = map (total_to k) (combine ys ls) ->
  spread_weights (solution ys p q ls K) ms nobs (k :: rest) tw = spread_weights (solution ys p q ls K) ms nobs rest (map (total_to (S k)) (combine ys ls)).
Proof. clear - L2 Lm N0.
  intros Hk N ->. cbn [spread_weights]. rewrite (share_lemma ms nobs k Lm N0). cbn [bind]. destruct (solution_nth ys p q ls K k Hk) as (-> & ->). unfold ratios.
  destruct (Nat.eqb_spec (length (members (combine ys ls) k)) 0) as [E|_]; [apply length_zero_iff_nil in E; contradiction|]. rewrite map_map, (scatter_members k (fun v => xmul (ratio p q k v) (Fin (share ms k))) (total_to k) ys ls L2), total_step. reflexivity.
Qed.
Lemma spread_loop n : forall k, k + n = K -> (forall j, j < K -> members (combine ys ls) j <> []) ->
  spread_weights (solution ys p q ls K) ms nobs (seq k n) (map (total_to k) (combine ys ls)) = Ok (map (total_to K) (combine ys ls)).
Proof. clear - L2 Lm N0.
  induction n as [|n IH]; intros k E N; [cbn; replace k with K by lia; reflexivity|]. cbn [seq]. rewrite (spread_step k _ _ ltac:(lia) (N k ltac:(lia)) eq_refl). apply IH; [lia|exact N].
Qed.
Lemma spread_gap n j : forall k, k + n = K -> k <= j < K -> members (combine ys ls) j = [] ->
  spread_weights (solution ys p q ls K) ms nobs (seq k n) (map (total_to k) (combine ys ls)) = Raise PyTypeError.
Proof. clear - L2 Lm N0.
  induction n as [|n IH]; intros k E J N; [lia|]. cbn [seq]. destruct (Nat.eq_dec (length (members (combine ys ls) k)) 0) as [Z|Z].
  - cbn [spread_weights]. rewrite (share_lemma ms nobs k Lm N0). cbn [bind]. destruct (solution_nth ys p q ls K k) as (-> & ->); [lia|]. unfold ratios. rewrite (proj2 (Nat.eqb_eq _ 0) Z). reflexivity.
  - assert (M : members (combine ys ls) k <> []) by (intros X; rewrite X in Z; apply Z; reflexivity). rewrite (spread_step k _ _ ltac:(lia) M eq_refl). destruct (Nat.eq_dec k j) as [->|D]; [contradiction|]. apply IH; [lia|lia|exact N].
Qed.
Lemma total_all : map (total_to K) (combine ys ls) = map total_weight (combine ys ls).
Proof. clear - HK.
  apply map_ext_in. intros (y & l) H. unfold total_to, total_weight. cbn [fst snd]. apply in_combine_r in H. pose proof (proj1 HK l H) as B.
  destruct (Z.leb_spec 0 l); destruct (Z.ltb_spec l 0); destruct (Z.ltb_spec l (Z.of_nat K)); try lia; reflexivity.
Qed.
Lemma total_none : map (total_to 0) (combine ys ls) = repeat (Fin 0) (length ys).
Proof. clear - L2.
  assert (L : length (combine ys ls) = length ys) by (rewrite combine_length, L2; lia). rewrite <- L. clear L. induction (combine ys ls) as [|(y & l) r IH]; [reflexivity|]. cbn [map length repeat]. f_equal; [|exact IH].
  unfold total_to. cbn [snd]. destruct (Z.leb_spec 0 l), (Z.ltb_spec l (Z.of_nat 0)); try reflexivity. lia.
Qed.
Lemma all_fst (L1 : length xs = length ys) : map fst (all_points xs ys ls ms p q) = xs.
Proof. clear - L2 L1. unfold all_points. rewrite map_map. cbn [fst]. rewrite <- (map_map fst fst), (map_fst_combine (combine xs ys) ls), (map_fst_combine xs ys L1); [reflexivity|]. rewrite combine_length. lia. Qed.
Lemma member_of (y : cell) l : In (y, l) (combine ys ls) -> (0 <= l)%Z -> In y (members (combine ys ls) (Z.to_nat l)).
Proof. clear - ys ls ms p q. intros H B. unfold members. apply in_map_iff. exists (y, l). split; [reflexivity|]. apply filter_In. split; [exact H|]. cbn [snd]. apply Z.eqb_eq. lia. Qed.
Lemma all_snd (L1 : length xs = length ys) : (forall j, j < K -> ratios_defined ys ls p j) -> map Fin (map snd (all_points xs ys ls ms p q)) = map total_weight (combine ys ls).
Proof. clear - L2 HK L1.
  intros D. unfold all_points. rewrite !map_map. cbn [snd]. rewrite (proj1 (combine_fst xs ys ls L1 L2)), map_map. apply map_ext_in. intros ((x & y) & l) H. unfold total_weight. cbn [fst snd].
  destruct (Z.ltb_spec l 0) as [_|B]; [reflexivity|]. assert (I : In (y, l) (combine ys ls)) by (rewrite (proj1 (combine_fst xs ys ls L1 L2)); apply in_map_iff; exists (x, y, l); split; [reflexivity|exact H]).
  unfold ratio. rewrite xdivq_fin; [cbn [xmul]; unfold quotient; f_equal; ring|]. apply (D (Z.to_nat l)); [|apply member_of; assumption]. pose proof (proj1 HK l (in_combine_r _ _ _ _ I)). lia.
Qed.
End Total.
Section Stored.
Context (gkde : list cell -> option (list xnum) -> result (cell -> Qc)) (P di o oo : nat) (xs : list (list Qc)) (ys zs : list cell) (lo mo : option (list Z)) (w : option (list Qc)) (ls ms : list Z) (p q : nat -> cell -> Qc) (K : nat) (d : rdisc).
Hypothesis HP : 0 < P.
Hypothesis M : matching di xs ys lo zs mo w.
Hypothesis U : used_labels (length ys) (length zs) lo mo = (ls, ms).
Hypothesis St : stores P d di xs o ys lo oo zs mo.
Hypothesis W : weights_init (r_out d) = w.
Hypothesis Es : estimated gkde ys ls w zs ms p q.
Hypothesis HK : clusters ls K.
Lemma L1 : length xs = length ys. Proof. apply M. Qed.
Lemma L2 : length ls = length ys. Proof. apply (used_lengths _ _ _ _ _ _ _ _ _ M U). Qed.
Lemma Lm : length ms = length zs. Proof. apply (used_lengths _ _ _ _ _ _ _ _ _ M U). Qed.
Definition leaving (d' : rdisc) : Prop :=
  sample_weights (r_in d') = Some (map (weight p q) (combine ys ls)) /\ stores P d' di xs o ys (Some ls) oo zs (Some ms) /\ weights_init (r_out d') = w /\
  (forall a, glob (arrays (r_in d')) a = content di (map point_row xs) None a) /\ dim (arrays (r_in d')) = di.
Lemma fit_weights_lemma : (forall j, j < K -> members (combine ys ls) j <> []) -> exists d', fit_weights gkde P d = Ok (d', map (total_weight ms p q) (combine ys ls)) /\ leaving d'.
Proof.
  intros N. destruct (start_lemma gkde P di o oo xs ys zs lo mo w ls ms p q K d HP M U St W Es HK) as (d3 & Q3 & _ & E). pose proof Q3 as ((A1 & A2 & A3 & A4 & A5 & A6) & A7 & A8 & A9).
  eexists. unfold fit_weights. rewrite E. cbn [bind r_in set_weights arrays]. rewrite (global_count P _ di (map point_row xs) None); [|exact (proj1 A1)|exact A7|discriminate]. cbn [bind]. rewrite map_length, L1, <- (total_none ys ls ms p q L2).
  assert (Z : spread_weights (solution ys p q ls K) ms (length zs) (seq 0 K) (map (total_to ms p q 0) (combine ys ls)) = Ok (map (total_to ms p q K) (combine ys ls))).
  { destruct (Nat.eq_dec K 0) as [K0|K0]; [rewrite K0; reflexivity|]. apply (spread_loop ys ls ms p q K (length zs) L2 Lm); [|lia|exact N]. apply (guard_lemma gkde P di xs ys zs lo mo w ls ms p q K HP M U Es HK). lia. }
  rewrite Z. cbn [bind]. rewrite (total_all ys ls ms p q K HK). split; [reflexivity|]. split; [reflexivity|]. split; [exact (prepared_stores _ _ _ _ _ _ _ _ _ _ _ Q3)|]. split; [exact A9|]. split; [exact A7|exact (proj1 A1)].
Qed.
Lemma fit_weights_gap j : j < K -> members (combine ys ls) j = [] -> fit_weights gkde P d = Raise PyTypeError.
Proof.
  intros J N. destruct (start_lemma gkde P di o oo xs ys zs lo mo w ls ms p q K d HP M U St W Es HK) as (d3 & Q3 & _ & E). pose proof Q3 as ((A1 & A2 & A3 & A4 & A5 & A6) & A7 & A8 & A9).
  unfold fit_weights. rewrite E. cbn [bind r_in set_weights arrays]. rewrite (global_count P _ di (map point_row xs) None); [|exact (proj1 A1)|exact A7|discriminate]. cbn [bind]. rewrite map_length, L1, <- (total_none ys ls ms p q L2).
  rewrite (spread_gap ys ls ms p q K (length zs) L2 Lm) with (j := j); [reflexivity| |lia|lia|exact N]. apply (guard_lemma gkde P di xs ys zs lo mo w ls ms p q K HP M U Es HK). lia.
Qed.
Lemma gaussian_lemma : (forall j, j < K -> members (combine ys ls) j <> []) ->
  exists d', invert_to_multivariate_gaussian gkde P d = Ok (d', mk_gmm [Some (weighted_normal (columns_of di xs) (map (total_weight ms p q) (combine ys ls)))] [1%Qc]) /\ leaving d'.
Proof.
  intros N. destruct (fit_weights_lemma N) as (d' & E & L). exists d'. split; [|exact L]. unfold invert_to_multivariate_gaussian. rewrite E. cbn [bind fst snd].
  destruct L as (_ & _ & _ & G & _). rewrite (G Values). cbn [content subscript bind rows]. rewrite columns_lemma by apply M. reflexivity.
Qed.
Lemma gaussian_fin : (forall j, j < K -> ratios_defined ys ls p j) -> mass (all_points xs ys ls ms p q) <> 0%Qc ->
  weighted_normal (columns_of di xs) (map (total_weight ms p q) (combine ys ls)) = normal_of di (all_points xs ys ls ms p q).
Proof. intros D N. rewrite <- (all_snd xs ys ls ms p q K L2 HK L1 D). rewrite <- (all_fst xs ys ls ms p q L2 L1) at 1. apply weighted_fin, N. Qed.
End Stored.
