(** model_error objects in the course of questions. *)
From Coq Require Import List Arith Bool QArith Qcanon Lia.
From Verif Require Import Err Num Ext NumPy Lists SampleSet_Model SampleSet_Spec SampleSet_Proofs Prob_Model Prob_Spec Prob_Proofs
  Disc_Model Disc_Spec Disc_Proofs Workflow_Model Workflow_Proofs VolHist_Proofs Volume_Model Volume_Spec Volume_Proofs Error_Model Error_Spec Error_Proofs
  ErrorDisc_Model ErrorDisc_Spec ErrorDisc_Proofs ErrorDisc2_Proofs.
Import ListNotations.
Local Open Scope nat_scope.
Local Open Scope err_scope.

(** ** Blocks *)
Definition zipb {A B} (a : list (list A)) (b : list (list B)) : list (list (A * B)) := map (fun p => combine (fst p) (snd p)) (combine a b).
Lemma beside_ok {A B} x (a : list (list A)) (b : list (list B)) : same_lengths a b -> beside x a b = Ok (zipb a b).
Proof. induction 1 as [|u v a b E H IH]; [reflexivity|]. cbn [beside]. rewrite E, Nat.eqb_refl, IH. reflexivity. Qed.
Lemma combine_app' {A B} (u : list A) (v : list B) a b : length u = length v -> combine (u ++ a) (v ++ b) = combine u v ++ combine a b.
Proof. revert v. induction u as [|x u IH]; intros [|y v] E; try discriminate; [reflexivity|]. cbn [app combine]. f_equal. apply IH. cbn in E. congruence. Qed.
Lemma zipb_concat {A B} (a : list (list A)) (b : list (list B)) : same_lengths a b -> concat (zipb a b) = combine (concat a) (concat b).
Proof. induction 1 as [|u v a b E H IH]; [reflexivity|]. unfold zipb in *. cbn [combine map concat fst snd]. rewrite IH. symmetry. apply combine_app'. exact E. Qed.
Lemma zipb_same {A B} (a : list (list A)) (b : list (list B)) : same_lengths a b -> same_lengths (zipb a b) a.
Proof.
  induction 1 as [|u v a b E H IH]; [constructor|]. unfold zipb in *. cbn [combine map fst snd]. constructor; [|exact IH]. rewrite combine_length. lia.
Qed.
Lemma zipb_split {A B} P (a : list A) (b : list B) : 0 < P -> length a = length b -> zipb (array_split a P) (array_split b P) = array_split (combine a b) P.
Proof.
  intros HP L. pose proof (split_same_lengths a b P HP L) as S0. pose proof (zipb_same _ _ S0) as S1. destruct (split_concat P _ a HP S1) as [E _].
  rewrite <- E, zipb_concat, !array_split_concat by assumption. reflexivity.
Qed.
Lemma beside_split {A B} x P (a : list A) (b : list B) : 0 < P -> length a = length b -> beside x (array_split a P) (array_split b P) = Ok (array_split (combine a b) P).
Proof. intros HP L. rewrite beside_ok by (apply split_same_lengths; assumption). rewrite zipb_split by assumption. reflexivity. Qed.
Lemma take_idx_range {A} (a : list A) dflt l : (forall k, In k l -> k < length a) -> take_idx a l = Some (map (fun k => nth k a dflt) l).
Proof.
  induction l as [|k l IH]; intros H; [reflexivity|]. cbn [take_idx map]. rewrite (nth_error_nth' a dflt) by (apply H; left; reflexivity). rewrite IH by (intros; apply H; right; assumption). reflexivity.
Qed.
Lemma fancy_range {A} (a : list A) dflt ptrs : (forall k, In k (concat ptrs) -> k < length a) -> fancy a ptrs = Ok (map (map (fun k => nth k a dflt)) ptrs).
Proof.
  induction ptrs as [|p r IH]; intros H; [reflexivity|]. cbn [fancy map]. rewrite (take_idx_range a dflt) by (intros; apply H; cbn [concat]; apply in_or_app; auto).
  rewrite IH by (intros; apply H; cbn [concat]; apply in_or_app; auto). reflexivity.
Qed.
Lemma fancy_split {A} (a : list A) dflt P l : 0 < P -> (forall k, In k l -> k < length a) -> fancy a (array_split l P) = Ok (array_split (map (fun k => nth k a dflt) l) P).
Proof. intros HP H. rewrite (fancy_range a dflt) by (rewrite array_split_concat by exact HP; exact H). rewrite array_split_map. reflexivity. Qed.
Definition ep_of (t : bool * nat * nat) : epoint := mk_ep (fst (fst t)) (snd (fst t)) (snd t).
Lemma points_split P f c1 c2 : 0 < P -> length f = length c1 -> length c1 = length c2 ->
  points (array_split f P) (array_split c1 P) (array_split c2 P) = Ok (array_split (map ep_of (combine (combine f c1) c2)) P).
Proof.
  intros HP L1 L2. unfold points. rewrite beside_split by assumption. cbn [bind]. rewrite beside_split; [|exact HP|rewrite combine_length; lia]. cbn [bind]. rewrite array_split_map. reflexivity.
Qed.
Lemma as_point_ep l : map as_point (map ep_of l) = l.
Proof. rewrite map_map. rewrite <- (map_id l) at 2. apply map_ext. intros [[a b] c]. reflexivity. Qed.

(** ** Adding the estimates *)
Lemma add_rows_ok o zs : forall es, length zs = length es -> (forall z, In z zs -> length z = o) -> (forall z, In z es -> length z = o) ->
  add_rows (map row zs) (map row es) = Ok (map (fun ze => row (plus (fst ze) (snd ze))) (combine zs es)).
Proof.
  induction zs as [|z zs IH]; intros [|e es] L Hz He; try discriminate; [reflexivity|]. cbn [map add_rows combine fst snd]. unfold row at 1 2. cbn [add_row]. rewrite !scalars_nums. cbn [bind].
  rewrite (Hz z (or_introl eq_refl)), (He e (or_introl eq_refl)), Nat.eqb_refl. cbn [bind]. rewrite IH; [reflexivity|cbn in L; congruence|intros; apply Hz; right; assumption|intros; apply He; right; assumption].
Qed.
Lemma add_blocks_ok o bz be : same_lengths bz be -> (forall z, In z (concat bz) -> length z = o) -> (forall z, In z (concat be) -> length z = o) ->
  add_blocks (map (fun b => mk_arr b [o]) (map (map row) bz)) (map (fun b => mk_arr b [o]) (map (map row) be)) =
  Ok (map (fun b => mk_arr b [o]) (map (map (fun ze => row (plus (fst ze) (snd ze)))) (zipb bz be))).
Proof.
  induction 1 as [|u v a b E H IH]; intros Hz He; [reflexivity|]. cbn [map add_blocks]. unfold add_arr. cbn [tail_shape rows]. destruct (shape_eq_dec [o] [o]) as [_|N]; [|congruence].
  rewrite (add_rows_ok o); [|exact E|intros; apply Hz; cbn [concat]; apply in_or_app; auto|intros; apply He; cbn [concat]; apply in_or_app; auto]. cbn [bind].
  rewrite IH; [reflexivity|intros; apply Hz; cbn [concat]; apply in_or_app; auto|intros; apply He; cbn [concat]; apply in_or_app; auto].
Qed.
Lemma add_split P o zs es : 0 < P -> length zs = length es -> (forall z, In z zs -> length z = o) -> (forall z, In z es -> length z = o) ->
  add_blocks (split_arr P (mk_arr (map row zs) [o])) (split_arr P (mk_arr (map row es) [o])) =
  Ok (split_arr P (mk_arr (map (fun ze => row (plus (fst ze) (snd ze))) (combine zs es)) [o])).
Proof.
  intros HP L Hz He. rewrite !split_rows, !array_split_map. rewrite (add_blocks_ok o); [|apply split_same_lengths; assumption|rewrite array_split_concat by exact HP; exact Hz|rewrite array_split_concat by exact HP; exact He].
  rewrite zipb_split by assumption. reflexivity.
Qed.
