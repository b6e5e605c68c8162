From Coq Require Import List Arith Bool QArith Qcanon Lia.
From Verif Require Import Err Num Ext NumPy Lists Gradient_Model Gradient_Spec Gradient_Proofs Units_Spec Units_Proofs Units2_Spec Units2_Proofs Units3_Spec.
Import ListNotations.
Local Open Scope nat_scope.

Lemma row_add_units a b x t : length a = length b -> row_add (in_units a b x) (length_in_units a t) = in_units a b (row_add x t).
Proof.
  unfold row_add, in_units, length_in_units. revert b x t. induction a as [|u a IH]; intros [|c b] x t E; try discriminate; [reflexivity|]. destruct x as [|p x]; [reflexivity|]. destruct t as [|q t]; [reflexivity|]. cbn [combine map fst snd]. injection E as E. rewrite (IH b x t E). f_equal. ring.
Qed.
Lemma mat_add_units a b X T : length a = length b -> mat_add (map (in_units a b) X) (map (length_in_units a) T) = map (in_units a b) (mat_add X T).
Proof. intros E. unfold mat_add. revert T. induction X as [|x X IH]; intros [|t T]; try reflexivity. cbn [map combine fst snd]. rewrite IH, (row_add_units a b x t E). reflexivity. Qed.
Lemma np_repeat_map {A B} (f : A -> B) l k : np_repeat (map f l) k = map f (np_repeat l k).
Proof. unfold np_repeat. induction l as [|x l IH]; [reflexivity|]. cbn [map flat_map]. rewrite map_app, IH. f_equal. clear. induction k as [|k IH]; [reflexivity|]. cbn [repeat map]. rewrite IH. reflexivity. Qed.
Lemma np_tile_map {A B} (f : A -> B) l k : np_tile (map f l) k = map f (np_tile l k).
Proof. unfold np_tile. induction k as [|k IH]; [reflexivity|]. cbn [repeat concat]. rewrite map_app, IH. reflexivity. Qed.
Lemma eye_row_units i k a r : map (fun p => ((if i =? fst p then 1 else 0) * snd p)%Qc) (combine k (length_in_units a r)) = length_in_units a (map (fun p => ((if i =? fst p then 1 else 0) * snd p)%Qc) (combine k r)) \/ length k < length r.
Proof.
  unfold length_in_units. revert a r. induction k as [|j k IH]; intros a r.
  - destruct r as [|x r]; [left; destruct a; reflexivity|right; cbn; lia].
  - destruct r as [|x r]; [left; destruct a; reflexivity|]. destruct a as [|u a]; [left; reflexivity|]. cbn [combine map fst snd length]. destruct (IH a r) as [E|L]; [left; rewrite E; f_equal; ring|right; lia].
Qed.
Lemma eye_units d a r : length r = d -> eye_scaled d (length_in_units a r) = map (length_in_units a) (eye_scaled d r).
Proof. intros E. unfold eye_scaled. rewrite map_map. apply map_ext. intros i. destruct (eye_row_units i (seq 0 d) a r) as [H|H]; [exact H|rewrite seq_length in H; lia]. Qed.
Lemma neg_units a m : mat_neg (map (length_in_units a) m) = map (length_in_units a) (mat_neg m).
Proof.
  unfold mat_neg. rewrite !map_map. apply map_ext. intros r. unfold length_in_units. rewrite map_map. revert r. induction a as [|u a IH]; intros [|x r]; try reflexivity. cbn [combine map fst snd]. rewrite IH. f_equal. ring.
Qed.
Lemma bcast_full d r : length r = d -> bcast_radii d r = Ok r.
Proof. intros <-. unfold bcast_radii. rewrite Nat.eqb_refl. reflexivity. Qed.
Lemma units_len a r : length a = length r -> length (length_in_units a r) = length r.
Proof. intros E. unfold length_in_units. rewrite map_length, combine_length. lia. Qed.
Lemma ffd_units a b cs r pts : length a = length b -> length a = length r -> pick_ffd_points (length a) (Some cs) r = Ok pts ->
  pick_ffd_points (length a) (Some (map (in_units a b) cs)) (length_in_units a r) = Ok (map (in_units a b) pts).
Proof.
  intros E R. unfold pick_ffd_points. rewrite !bcast_full by (try (rewrite units_len); congruence). cbn [bind]. intros H. injection H as <-. f_equal. rewrite map_app, map_length, np_repeat_map, eye_units, np_tile_map, mat_add_units by congruence. reflexivity.
Qed.
Lemma cfd_units a b cs r pts : length a = length b -> length a = length r -> pick_cfd_points (length a) (Some cs) r = Ok pts ->
  pick_cfd_points (length a) (Some (map (in_units a b) cs)) (length_in_units a r) = Ok (map (in_units a b) pts).
Proof.
  intros E R. unfold pick_cfd_points. rewrite !bcast_full by (try (rewrite units_len); congruence). cbn [bind]. intros H. injection H as <-. f_equal. rewrite map_app, map_length, np_repeat_map, eye_units, neg_units, <- map_app, np_tile_map, mat_add_units by congruence. reflexivity.
Qed.

(** ** Gradients *)
Section Gradients.
Variables (d o : nat) (u c : list Qc) (w z : nat -> Qc) (f f' : qoi) (cs : mat) (r : list Qc).
Hypotheses (LU : length u = d) (LC : length c = d) (LR : length r = d) (Hd : 0 < d) (NE : cs <> []) (PC : points d cs)
  (Upos : forall q, In q u -> (0 < q)%Qc) (RN : forall h, In h r -> h <> 0%Qc) (SM : same_model d o u c w z f f').
Lemma units_points : points d (map (in_units u c) cs).
Proof. intros x Hx. apply in_map_iff in Hx. destruct Hx as (y & <- & Hy). unfold in_units. rewrite map_length, !combine_length, LU, LC, (PC y Hy). lia. Qed.
Lemma units_radii : good_radii d (length_in_units u r).
Proof.
  split; [left; rewrite units_len; congruence|]. intros h Hh. unfold length_in_units in Hh. apply in_map_iff in Hh. destruct Hh as ((p, q) & <- & I). cbn [fst snd]. intros K. apply Qcmult_integral in K. destruct K as [K|K].
  - apply in_combine_l in I. apply Upos in I. rewrite K in I. discriminate I.
  - apply in_combine_r in I. exact (RN q I K).
Qed.
Lemma radius_nth (l : list Qc) b : b < length l -> radius l b = nth b l 0%Qc.
Proof. intros H. unfold radius. destruct l as [|h [|k l]]; [reflexivity| |reflexivity]. cbn in H. replace b with 0 by lia. reflexivity. Qed.
Lemma nth_length_units b : b < d -> nth b (length_in_units u r) 0%Qc = (nth b u 0 * nth b r 0)%Qc.
Proof.
  assert (E : length u = length r) by congruence. rewrite <- LU. clear -E. unfold length_in_units. revert r E b. induction u as [|p l IH]; intros [|q m] E b H; try discriminate; [cbn in H; lia|]. destruct b as [|b]; [reflexivity|]. cbn [combine map nth]. apply IH; [injection E as E; exact E|cbn in H; lia].
Qed.
Lemma radius_units b : b < d -> radius (length_in_units u r) b = (nth b u 0 * radius r b)%Qc.
Proof. intros H. rewrite !radius_nth by (try rewrite units_len; congruence). apply nth_length_units. exact H. Qed.
Lemma moved_length x b h : length (moved x b h) = length x.
Proof. unfold moved. rewrite map_length, seq_length. reflexivity. Qed.
Lemma moved_units x b h : length x = d -> b < d -> moved (in_units u c x) b (nth b u 0 * h)%Qc = in_units u c (moved x b h).
Proof.
  intros LX H. assert (L1 : length (in_units u c x) = d) by (unfold in_units; rewrite map_length, !combine_length; lia). apply (nth_ext _ _ 0%Qc 0%Qc).
  - rewrite moved_length, L1. unfold in_units. rewrite map_length, !combine_length, moved_length. lia.
  - intros k Hk. rewrite moved_length, L1 in Hk. assert (LE : length u = length c) by congruence.
    rewrite (nth_units u c LE Upos (moved x b h) k) by (try rewrite moved_length; lia). unfold moved. rewrite (nth_indep _ 0%Qc ((fun k => nth k (in_units u c x) 0 + (if k =? b then nth b u 0 * h else 0))%Qc 0)) by (rewrite map_length, seq_length; lia).
    rewrite (map_nth (fun k => nth k (in_units u c x) 0 + (if k =? b then nth b u 0 * h else 0))%Qc), seq_nth by lia. cbn [Nat.add].
    rewrite (nth_indep (map (fun k => nth k x 0 + (if k =? b then h else 0))%Qc (seq 0 (length x))) 0%Qc ((fun k => nth k x 0 + (if k =? b then h else 0))%Qc 0)) by (rewrite map_length, seq_length; lia).
    rewrite (map_nth (fun k => nth k x 0 + (if k =? b then h else 0))%Qc), seq_nth by lia. cbn [Nat.add]. rewrite (nth_units u c LE Upos x k) by lia. unfold unit_fun. cbn [fst snd]. destruct (Nat.eqb_spec k b) as [->|_]; ring.
Qed.
Lemma radius_nonzero b : b < d -> radius r b <> 0%Qc.
Proof. intros H. rewrite radius_nth by lia. apply RN. apply nth_In. lia. Qed.
Lemma factor_nonzero b : b < d -> nth b u 0%Qc <> 0%Qc.
Proof. intros H K. assert (P : (0 < nth b u 0)%Qc) by (apply Upos, nth_In; lia). rewrite K in P. discriminate P. Qed.
Lemma good_r : good_radii d r.
Proof. split; [left; exact LR|exact RN]. Qed.
Lemma map_ne : map (in_units u c) cs <> [].
Proof. destruct cs; [contradiction|discriminate]. Qed.
Lemma ffd_gradients_units mf : exists pts g g', pick_ffd_points d (Some cs) r = Ok pts /\
  pick_ffd_points d (Some (map (in_units u c) cs)) (length_in_units u r) = Ok (map (in_units u c) pts) /\
  calculate_gradients_ffd mf d o (Some pts) (Some (map (outputs o f) pts)) false = Ok g /\
  calculate_gradients_ffd mf d o (Some (map (in_units u c) pts)) (Some (map (outputs o f') (map (in_units u c) pts))) false = Ok g' /\
  forall k a b, k < length cs -> a < o -> b < d -> exists q, entry (g_jac g) k a b = Some (Fin q) /\ entry (g_jac g') k a b = Some (Fin (w a * q / nth b u 0))%Qc.
Proof.
  destruct (ffd_lemma mf d o f cs r PC good_r Hd NE) as (pts & g & E1 & E2 & _ & _ & H). destruct (ffd_lemma mf d o f' _ _ units_points units_radii Hd map_ne) as (pts' & g' & E1' & E2' & _ & _ & H').
  assert (EP : pick_ffd_points d (Some (map (in_units u c) cs)) (length_in_units u r) = Ok (map (in_units u c) pts)) by (rewrite <- LU; apply ffd_units; [congruence|congruence|rewrite LU; exact E1]).
  rewrite EP in E1'. injection E1' as <-. exists pts, g, g'. split; [exact E1|]. split; [exact EP|]. split; [exact E2|]. split; [exact E2'|]. intros k a b Hk Ha Hb.
  destruct (nth_error cs k) as [x|] eqn:Ex; [|apply nth_error_None in Ex; lia]. pose proof (PC x (nth_error_In _ _ Ex)) as LX. eexists. split; [exact (H k x a b Ex Ha Hb)|].
  rewrite (H' k (in_units u c x) a b) by (try assumption; rewrite nth_error_map, Ex; reflexivity). do 2 f_equal. rewrite (radius_units b Hb), (moved_units x b _ LX Hb), !SM by (try rewrite moved_length; assumption). field. split; first [apply factor_nonzero; exact Hb|apply radius_nonzero; exact Hb].
Qed.
Lemma cfd_gradients_units mf : exists pts g g', pick_cfd_points d (Some cs) r = Ok pts /\
  pick_cfd_points d (Some (map (in_units u c) cs)) (length_in_units u r) = Ok (map (in_units u c) pts) /\
  calculate_gradients_cfd mf d o (Some pts) (Some (map (outputs o f) pts)) false = Ok g /\
  calculate_gradients_cfd mf d o (Some (map (in_units u c) pts)) (Some (map (outputs o f') (map (in_units u c) pts))) false = Ok g' /\
  forall k a b, k < length cs -> a < o -> b < d -> exists q, entry (g_jac g) k a b = Some (Fin q) /\ entry (g_jac g') k a b = Some (Fin (w a * q / nth b u 0))%Qc.
Proof.
  destruct (cfd_lemma mf d o f cs r PC good_r Hd NE) as (pts & g & E1 & E2 & _ & _ & H). destruct (cfd_lemma mf d o f' _ _ units_points units_radii Hd map_ne) as (pts' & g' & E1' & E2' & _ & _ & H').
  assert (EP : pick_cfd_points d (Some (map (in_units u c) cs)) (length_in_units u r) = Ok (map (in_units u c) pts)) by (rewrite <- LU; apply cfd_units; [congruence|congruence|rewrite LU; exact E1]).
  rewrite EP in E1'. injection E1' as <-. exists pts, g, g'. split; [exact E1|]. split; [exact EP|]. split; [exact E2|]. split; [exact E2'|]. intros k a b Hk Ha Hb.
  destruct (nth_error cs k) as [x|] eqn:Ex; [|apply nth_error_None in Ex; lia]. pose proof (PC x (nth_error_In _ _ Ex)) as LX. eexists. split; [exact (H k x a b Ex Ha Hb)|].
  rewrite (H' k (in_units u c x) a b) by (try assumption; rewrite nth_error_map, Ex; reflexivity). do 2 f_equal. rewrite (radius_units b Hb). replace (- (nth b u 0 * radius r b))%Qc with (nth b u 0 * - radius r b)%Qc by ring. rewrite !(moved_units x b _ LX Hb), !SM by (try rewrite moved_length; assumption). field. repeat split; first [apply factor_nonzero; exact Hb|apply radius_nonzero; exact Hb|apply qn_neq0; lia].
Qed.
End Gradients.
