From Coq Require Import List Arith Bool QArith Qcanon Lia Permutation.
From Verif Require Import Err Num Ext NumPy Lists SampleSet_Model SampleSet_Spec SampleSet_Proofs Prob_Model Prob_Spec Prob_Proofs Disc_Model Disc_Spec Disc_Proofs
  Workflow_Model Workflow_Spec Workflow_Proofs Sampling_Model Post_Model Post_Spec Post_Proofs PostObj_Model PostObj_Spec.
Import ListNotations.
Local Open Scope nat_scope.
Local Open Scope err_scope.

(** ** Sides of the domain *)
Lemma nth_map_seq {B} (f : nat -> B) n j d : j < n -> nth j (map f (seq 0 n)) d = f j.
Proof. intros H. rewrite nth_indep with (d' := f 0) by (rewrite map_length, seq_length; exact H). rewrite map_nth, seq_nth by exact H. reflexivity. Qed.
Lemma nth_error_seq0 n i : i < n -> nth_error (seq 0 n) i = Some i.
Proof. intros H. rewrite nth_error_seq. destruct (Nat.ltb_spec i n); [reflexivity|lia]. Qed.
Lemma each_of_map {A B} (f : A -> result B) (h : A -> B) l : (forall x, In x l -> f x = Ok (h x)) -> each_of f l = Ok (map h l).
Proof. induction l as [|x l IH]; intros H; [reflexivity|]. cbn [each_of map]. rewrite H by (left; reflexivity). cbn [bind]. rewrite IH by (intros; apply H; right; assumption). reflexivity. Qed.
Lemma bin_number_given b d ns i : bins_given b d ns -> i < d -> bin_number b i = Ok (nth i ns 0) /\ i < length ns.
Proof.
  destruct b as [n|l|n]; cbn [bins_given bin_number]; intros H Hi.
  - subst ns. rewrite repeat_length. rewrite nth_indep with (d' := n) by (rewrite repeat_length; exact Hi). rewrite nth_repeat. auto.
  - destruct H as [-> H]. rewrite (nth_error_nth' l 0) by lia. split; [reflexivity|lia].
  - contradiction.
Qed.
Definition the_sides (dom : list (Qc * Qc)) (ns : list nat) (d : nat) := map (fun i => (nth i dom (0%Qc, 0%Qc), nth i ns 0)) (seq 0 d).
Lemma sides_given s b dom ns : domain s = Some dom -> dim s <= length dom -> bins_given b (dim s) ns -> sides s b = Ok (the_sides dom ns (dim s)).
Proof.
  intros D L B. apply each_of_map. intros i Hi. apply in_seq in Hi. unfold side. rewrite D. rewrite (nth_error_nth' dom (0%Qc, 0%Qc)) by lia.
  rewrite (proj1 (bin_number_given b _ ns i B ltac:(lia))). reflexivity.
Qed.
Lemma the_sides_fst dom ns d i : i < d -> nth i (map fst (the_sides dom ns d)) (0%Qc, 0%Qc) = nth i dom (0%Qc, 0%Qc).
Proof. intros H. unfold the_sides. rewrite map_map. rewrite nth_map_seq by exact H. reflexivity. Qed.
Lemma the_sides_snd dom ns d i : i < d -> nth i (map snd (the_sides dom ns d)) 0 = nth i ns 0.
Proof. intros H. unfold the_sides. rewrite map_map. rewrite nth_map_seq by exact H. reflexivity. Qed.
Lemma the_sides_proper dom ns d : proper dom -> d <= length dom -> forallb increasing_edges (the_sides dom ns d) = true.
Proof.
  intros Pd L. apply forallb_forall. intros e He. apply in_map_iff in He. destruct He as (i & <- & Hi). apply in_seq in Hi. unfold increasing_edges. cbn [fst snd].
  apply orb_true_iff. right. apply qleb_true. apply Pd. apply nth_In. lia.
Qed.

(** ** The data *)
Lemma scalars_weights b : scalars (weight_rows b) = Ok (map snd b).
Proof. unfold weight_rows. rewrite <- map_map with (f := snd) (g := Num). apply scalars_nums. Qed.
Lemma points_rows d b : (forall e, In e b -> length (fst e) = d) -> each_of (point d) (value_rows b) = Ok (map fst b).
Proof.
  intros H. unfold value_rows. induction b as [|e b IH]; [reflexivity|]. cbn [map each_of point]. rewrite scalars_nums. cbn [bind].
  rewrite (H e) by (left; reflexivity). rewrite Nat.ltb_irrefl. cbn [bind]. rewrite IH by (intros; apply H; right; assumption). reflexivity.
Qed.
Lemma block_data d x p b : (forall e, In e b -> length (fst e) = d) -> rows x = value_rows b -> rows p = weight_rows b -> weighted_block d (x, p) = Ok b.
Proof.
  intros H X Y. unfold weighted_block. cbn [fst snd]. rewrite X, Y, points_rows by exact H. cbn [bind]. rewrite scalars_weights. cbn [bind]. rewrite !map_length, Nat.eqb_refl.
  f_equal. clear. induction b as [|(u, w) b IH]; [reflexivity|]. cbn [map combine fst snd]. rewrite IH. reflexivity.
Qed.
Lemma blocks_data s blocks : (forall e, In e (concat blocks) -> length (fst e) = dim s) -> local_data s blocks -> weighted_blocks s = Ok blocks.
Proof.
  intros H (x & p & X & Y & RX & RP). unfold weighted_blocks. rewrite X, Y. cbn [subscript bind]. clear X Y. revert x p H RX RP.
  induction blocks as [|b bs IH]; intros [|x xs] [|p ps] H RX RP; try discriminate; [reflexivity|]. cbn [map] in RX, RP. injection RX as R1 R2. injection RP as R3 R4.
  cbn [combine each_of]. rewrite (block_data _ x p b); [|intros e He; apply H; cbn [concat]; apply in_or_app; auto|exact R1|exact R3]. cbn [bind].
  rewrite (IH xs ps); [reflexivity|intros e He; apply H; cbn [concat]; apply in_or_app; auto|exact R2|exact R4].
Qed.
Lemma carries_local P s data : 0 < P -> carries s data -> exists t blocks, marg_local P s = Ok t /\ only_localized s t /\ concat blocks = data /\ local_data t blocks.
Proof.
  intros HP (_ & [(N & x & p & X & Y & RX & RP & V)|(blocks & C & (x & p & X & Y & RX & RP))]); unfold marg_local.
  - rewrite N, Y. unfold global_to_local. rewrite (valid_count _ _ _ V). cbn [bind]. eexists _, (array_split data P). split; [reflexivity|]. split; [do 4 (split; [reflexivity|]); reflexivity|].
    split; [apply array_split_concat; exact HP|]. exists (split_arr P x), (split_arr P p). cbn [loc]. rewrite X, Y. split; [reflexivity|]. split; [reflexivity|].
    unfold split_arr. rewrite !map_map. cbn [rows]. rewrite !map_id. rewrite RX, RP. unfold value_rows, weight_rows. rewrite !array_split_map. split; reflexivity.
  - rewrite Y. exists s, blocks. split; [reflexivity|]. split; [do 4 (split; [reflexivity|]); reflexivity|]. split; [exact C|]. exists x, p. auto.
Qed.
Lemma uses_set_put a s put : uses a s put -> marg_set a = Ok s /\ forall t, marg_put a t = put t.
Proof.
  intros [t|d t E|d t E F]; cbn [marg_set marg_put].
  - split; reflexivity.
  - rewrite E. split; reflexivity.
  - rewrite E, F. split; reflexivity.
Qed.
Lemma marginal_1D_histogram domain nbins blocks i :
  marginal_1D domain nbins blocks i = map (fun k => weight_of (concat blocks) (fun x => bin_has (nth i domain (0%Qc, 0%Qc)) (nth i nbins 0) k (nth i x 0%Qc))) (seq 0 (nth i nbins 0)).
Proof.
  rewrite marginal_1D_eq. apply map_ext_in. intros k Hk. apply in_seq in Hk. unfold weight_of. rewrite qsum_filter. f_equal. apply map_ext. intros e. rewrite in_bin_has by lia. reflexivity.
Qed.
Lemma marginal_2D_histogram domain nbins blocks i j :
  marginal_2D domain nbins blocks i j = map (fun k => map (fun l => weight_of (concat blocks) (fun x => bin_has (nth i domain (0%Qc, 0%Qc)) (nth i nbins 0) k (nth i x 0%Qc) && bin_has (nth j domain (0%Qc, 0%Qc)) (nth j nbins 0) l (nth j x 0%Qc))) (seq 0 (nth j nbins 0))) (seq 0 (nth i nbins 0)).
Proof.
  rewrite marginal_2D_eq. apply map_ext_in. intros k Hk. apply in_seq in Hk. apply map_ext_in. intros l Hl. apply in_seq in Hl. unfold weight_of. rewrite qsum_filter. f_equal. apply map_ext. intros e. rewrite !in_bin_has by lia. reflexivity.
Qed.
Lemma edges_linspace e : edges_of_side e = map (bin_edge (fst e) (snd e)) (seq 0 (snd e + 1)).
Proof. unfold edges_of_side, linspace, bin_edge. replace (snd e + 1 - 1) with (snd e) by lia. reflexivity. Qed.

Lemma calculate_1D_lemma P a s put data b dom ns : 0 < P -> uses a s put -> carries s data -> domain s = Some dom -> dim s <= length dom -> proper dom -> bins_given b (dim s) ns ->
  exists bins marg t, calculate_1D P a b = Ok (bins, marg, put t) /\ only_localized s t /\ length bins = dim s /\ length marg = dim s /\
  forall i ab n, i < dim s -> nth_error dom i = Some ab -> nth_error ns i = Some n ->
    nth_error bins i = Some (map (bin_edge ab n) (seq 0 (n + 1))) /\
    nth_error marg i = Some (map (fun k => weight_of data (fun x => bin_has ab n k (nth i x 0%Qc))) (seq 0 n)).
Proof.
  intros HP U C D L Pd B. destruct (uses_set_put _ _ _ U) as [US UP]. destruct (carries_local P s data HP C) as (t & blocks & ML & OL & CB & LD).
  unfold calculate_1D. rewrite US. cbn [bind]. rewrite ML. cbn [bind]. pose proof OL as (D1 & _ & D2 & _). rewrite (sides_given t b dom ns) by (rewrite ?D1, ?D2; assumption). cbn [bind].
  rewrite D1. assert (BL : exists bl, (if dim s =? 0 then Ok [] else weighted_blocks t) = Ok bl /\ (0 < dim s -> bl = blocks)).
  { destruct (Nat.eqb_spec (dim s) 0) as [Z|Z]; [exists []; split; [reflexivity|lia]|]. exists blocks. split; [|reflexivity].
    apply blocks_data; [|exact LD]. rewrite CB, D1. exact (proj1 C). }
  destruct BL as (bl & -> & BL). cbn [bind]. rewrite the_sides_proper by assumption. eexists _, _, t. rewrite UP. split; [reflexivity|]. split; [exact OL|].
  split; [rewrite map_length; unfold the_sides; rewrite map_length; apply seq_length|]. split; [rewrite map_length; apply seq_length|].
  intros i ab n Hi Ea En. pose proof (nth_error_nth _ _ (0%Qc, 0%Qc) Ea) as Na. pose proof (nth_error_nth _ _ 0 En) as Nn. split.
  - unfold the_sides. rewrite map_map, nth_error_map. rewrite nth_error_seq0 by exact Hi. cbn [option_map]. rewrite edges_linspace. cbn [fst snd]. rewrite Na, Nn. reflexivity.
  - rewrite nth_error_map. rewrite nth_error_seq0 by exact Hi. cbn [option_map]. rewrite marginal_1D_histogram. rewrite the_sides_fst, the_sides_snd by exact Hi. rewrite Na, Nn, BL by lia. rewrite CB. reflexivity.
Qed.

(** ** Two dimensions *)
Lemma pairs_in n i j : In (i, j) (pairs n) <-> i < j /\ j < n.
Proof.
  unfold pairs. rewrite in_concat. split.
  - intros (l & Hl & H). apply in_map_iff in Hl. destruct Hl as (k & <- & Hk). apply in_map_iff in H. destruct H as (m & [= <- <-] & Hm). apply in_seq in Hk, Hm. lia.
  - intros [H1 H2]. eexists. split; [apply in_map_iff; exists i; split; [reflexivity|apply in_seq; lia]|]. apply in_map_iff. exists j. split; [reflexivity|]. apply in_seq. lia.
Qed.
Lemma pairs_nodup n : NoDup (pairs n).
Proof.
  unfold pairs. assert (G : forall l, NoDup l -> NoDup (concat (map (fun i => map (fun j => (i, j)) (seq (i + 1) (n - (i + 1)))) l))).
  { induction l as [|i l IH]; intros N; [constructor|]. inversion N as [|? ? N1 N2]; subst. cbn [map concat]. apply NoDup_app.
    - apply FinFun.Injective_map_NoDup; [intros ? ? [=]; assumption|apply seq_NoDup].
    - apply IH. exact N2.
    - intros x H1 H2. apply in_map_iff in H1. destruct H1 as (j & <- & _). apply in_concat in H2. destruct H2 as (m & Hm & H2). apply in_map_iff in Hm. destruct Hm as (k & <- & Hk).
      apply in_map_iff in H2. destruct H2 as (? & [= <- <-] & _). contradiction. }
  apply G, seq_NoDup.
Qed.

Lemma calculate_2D_lemma P a s put data b dom ns : 0 < P -> uses a s put -> carries s data -> domain s = Some dom -> dim s <= length dom -> proper dom -> bins_given b (dim s) ns -> 2 <= dim s ->
  exists bins marg t, calculate_2D P a b = Ok (bins, marg, put t) /\ only_localized s t /\ length bins = dim s /\
  (forall i ab n, i < dim s -> nth_error dom i = Some ab -> nth_error ns i = Some n -> nth_error bins i = Some (map (bin_edge ab n) (seq 0 (n + 1)))) /\
  NoDup (map fst marg) /\ (forall i j, In (i, j) (map fst marg) <-> i < j /\ j < dim s) /\
  forall i j m ab n ab' n', In ((i, j), m) marg -> nth_error dom i = Some ab -> nth_error ns i = Some n -> nth_error dom j = Some ab' -> nth_error ns j = Some n' ->
    m = map (fun k => map (fun l => weight_of data (fun x => bin_has ab n k (nth i x 0%Qc) && bin_has ab' n' l (nth j x 0%Qc))) (seq 0 n')) (seq 0 n).
Proof.
  intros HP U C D L Pd B D2. destruct (uses_set_put _ _ _ U) as [US UP]. destruct (carries_local P s data HP C) as (t & blocks & ML & OL & CB & LD).
  unfold calculate_2D. rewrite US. cbn [bind]. rewrite ML. cbn [bind]. pose proof OL as (D1 & _ & D3 & _). rewrite D1. destruct (Nat.ltb_spec (dim s) 2) as [?|_]; [lia|].
  rewrite (sides_given t b dom ns) by (rewrite ?D1, ?D3; assumption). cbn [bind].
  rewrite (blocks_data t blocks); [|rewrite CB, D1; exact (proj1 C)|exact LD]. cbn [bind]. rewrite D1, the_sides_proper by assumption. eexists _, _, t. rewrite UP. split; [reflexivity|]. split; [exact OL|].
  split; [rewrite map_length; unfold the_sides; rewrite map_length; apply seq_length|]. rewrite map_map. cbn [fst]. rewrite map_id.
  split; [|split; [apply pairs_nodup|split; [apply pairs_in|]]].
  - intros i ab n Hi Ea En. pose proof (nth_error_nth _ _ (0%Qc, 0%Qc) Ea) as Na. pose proof (nth_error_nth _ _ 0 En) as Nn.
    unfold the_sides. rewrite map_map, nth_error_map. rewrite nth_error_seq0 by exact Hi. cbn [option_map]. rewrite edges_linspace. cbn [fst snd]. rewrite Na, Nn. reflexivity.
  - intros i j m ab n ab' n' Hm Ea En Ea' En'. apply in_map_iff in Hm. destruct Hm as ((i0, j0) & [= -> -> <-] & Hp). apply pairs_in in Hp. cbn [fst snd]. rewrite marginal_2D_histogram.
    rewrite !the_sides_fst, !the_sides_snd by lia. rewrite (nth_error_nth _ _ _ Ea), (nth_error_nth _ _ _ En), (nth_error_nth _ _ _ Ea'), (nth_error_nth _ _ _ En'), CB. reflexivity.
Qed.

(** ** Probabilities that are not used *)
Lemma stale_lemma P s p b : loc s Probabilities <> None ->
  (forall bins marg a, calculate_1D P (ASet s) b = Ok (bins, marg, a) -> exists a', calculate_1D P (ASet (set_glob Probabilities p s)) b = Ok (bins, marg, a')) /\
  (forall bins marg a, calculate_2D P (ASet s) b = Ok (bins, marg, a) -> exists a', calculate_2D P (ASet (set_glob Probabilities p s)) b = Ok (bins, marg, a')).
Proof.
  intros N. assert (E : forall t, loc t Probabilities <> None -> marg_local P t = Ok t) by (intros t Ht; unfold marg_local; destruct (loc t Probabilities); [reflexivity|contradiction]).
  unfold calculate_1D, calculate_2D. cbn [marg_set bind]. rewrite (E s) by exact N. rewrite (E (set_glob Probabilities p s)) by exact N. cbn [bind].
  change (dim (set_glob Probabilities p s)) with (dim s). change (sides (set_glob Probabilities p s) b) with (sides s b). change (weighted_blocks (set_glob Probabilities p s)) with (weighted_blocks s).
  split; intros bins marg a.
  - destruct (sides s b) as [es|]; [|discriminate]. cbn [bind]. destruct (if dim s =? 0 then Ok [] else weighted_blocks s) as [bl|]; [|discriminate]. cbn [bind].
    destruct (forallb increasing_edges es); [|discriminate]. intros [= <- <- <-]. eexists. reflexivity.
  - destruct (dim s <? 2); [discriminate|]. destruct (sides s b) as [es|]; [|discriminate]. cbn [bind]. destruct (weighted_blocks s) as [bl|]; [|discriminate]. cbn [bind].
    destruct (forallb increasing_edges es); [|discriminate]. intros [= <- <- <-]. eexists. reflexivity.
Qed.
Lemma emulated_missing_lemma P d e b : d_ein d = Some e -> loc e Probabilities = None -> glob e Probabilities = None ->
  calculate_1D P (ADisc d) b = Raise MissingAttribute /\ calculate_2D P (ADisc d) b = Raise MissingAttribute.
Proof. intros E L G. unfold calculate_1D, calculate_2D, marg_set, marg_local. rewrite E. cbn [bind]. rewrite L, G. split; reflexivity. Qed.
Lemma numpy_bins_lemma P a s put data dom n : 0 < P -> uses a s put -> carries s data -> domain s = Some dom -> dim s <= length dom -> 0 < dim s ->
  calculate_1D P a (BNumpyInt n) = Raise PyIndexError /\ (2 <= dim s -> calculate_2D P a (BNumpyInt n) = Raise PyIndexError).
Proof.
  intros HP U C D L D0. destruct (uses_set_put _ _ _ U) as [US UP]. destruct (carries_local P s data HP C) as (t & blocks & ML & OL & CB & LD).
  unfold calculate_1D, calculate_2D. rewrite US. cbn [bind]. rewrite ML. cbn [bind]. pose proof OL as (D1 & _ & D2 & _).
  assert (E : sides t (BNumpyInt n) = Raise PyIndexError).
  { unfold sides. rewrite D1. destruct (dim s) as [|k] eqn:K; [lia|]. cbn [seq each_of]. unfold side. rewrite D2, D. destruct dom; [cbn in L; lia|]. reflexivity. }
  rewrite E, D1. split; [reflexivity|]. intros H. destruct (Nat.ltb_spec (dim s) 2); [lia|reflexivity].
Qed.
Lemma marginal_errors_lemma P b d s : calculate_1D P AOther b = Raise BadObject /\ calculate_2D P AOther b = Raise BadObject /\
  (d_ein d = None -> d_in d = None -> calculate_1D P (ADisc d) b = Raise MissingAttribute /\ calculate_2D P (ADisc d) b = Raise MissingAttribute) /\
  (loc s Probabilities = None -> glob s Probabilities = None -> calculate_1D P (ASet s) b = Raise MissingAttribute /\ calculate_2D P (ASet s) b = Raise MissingAttribute).
Proof.
  split; [reflexivity|]. split; [reflexivity|]. split.
  - intros E F. unfold calculate_1D, calculate_2D, marg_set. rewrite E, F. split; reflexivity.
  - intros L G. unfold calculate_1D, calculate_2D, marg_set, marg_local. cbn [bind]. rewrite L, G. split; reflexivity.
Qed.

(** ** Sorting *)
Lemma read_lemma s xs probs ov data : has_arrays s xs probs ov -> read_set s data = Ok (mk_p xs probs ov data).
Proof.
  intros (X & Y & V & L & LV). unfold read_set. rewrite Y. cbn [subscript bind vec_arr rows]. rewrite scalars_nums. cbn [bind]. rewrite V, X. destruct ov as [v|]; cbn [option_map].
  - cbn [vec_arr rows]. rewrite scalars_nums. cbn [bind]. rewrite (LV v eq_refl), Nat.eqb_refl. reflexivity.
  - reflexivity.
Qed.
Lemma write_lemma s xs probs ov p : has_arrays s xs probs ov -> exists t, write_set s p = Ok t /\ plain_set t (dim s) (p_values p) (p_prob p) (p_vol p).
Proof.
  intros (X & _). unfold write_set. rewrite X. cbn [subscript bind tail_shape]. unfold set_values. cbn [tail_shape new_sset dim]. destruct (shape_eq_dec [dim s] [dim s]); [|contradiction].
  cbn [bind]. eexists. split; [reflexivity|]. split; [reflexivity|]. cbn [set_glob glob loc domain new_sset]. split; [reflexivity|]. split; [reflexivity|]. split; [reflexivity|].
  split; [|split; reflexivity]. intros a A B C. rewrite !upd_other by assumption. reflexivity.
Qed.
Lemma write_data_lemma o zs l : glob o Values = Some (mk_arr zs [dim o]) -> exists t, write_data o (Some l) = Ok t /\ outputs_only t (dim o) l.
Proof.
  intros X. unfold write_data. rewrite X. unfold set_values. cbn [tail_shape new_sset dim]. destruct (shape_eq_dec [dim o] [dim o]); [|contradiction].
  eexists. split; [reflexivity|]. split; [reflexivity|]. cbn [set_glob glob loc domain new_sset]. split; [reflexivity|]. split; [|split; reflexivity]. intros a A. rewrite upd_other by assumption. reflexivity.
Qed.
Lemma new_empty_disc P d e : new_disc P (Some (new_sset d)) (Some (new_sset e)) None None None None = Ok (mk_disc (Some (new_sset (R := cell) d)) (Some (new_sset e)) None None None None None None None None None None).
Proof.
  assert (Z : forall d rs, sum_local (new_sset (R := cell) d) rs = Ok 0) by (intros d0; induction rs as [|r rs IH]; [reflexivity|]; cbn [sum_local]; change (check_num_local (new_sset d0) r) with (@Ok (option nat) None); cbn [bind]; rewrite IH; reflexivity).
  assert (C : forall d, check_num P (new_sset (R := cell) d) = Ok 0) by (intros d0; unfold check_num; exact (Z d0 (seq 0 P))).
  unfold new_disc, check_nums. cbn [d_out d_in need bind]. rewrite !C. reflexivity.
Qed.
Lemma on_arrays_lemma {N} P (f : pset cell cell -> result (N * pset cell cell * list nat)) a xs probs ov oz n out idx : given a xs probs ov oz ->
  f (mk_p xs probs ov oz) = Ok (n, out, idx) -> (oz = None <-> p_data out = None) ->
  exists a', on_arrays P f a = Ok (n, a', idx) /\ returned a a' (p_values out) (p_prob out) (p_vol out) (p_data out).
Proof.
  destruct a as [d|s|]; cbn [given]; [| |contradiction].
  - intros (i & o & zs & Ei & Eo & H & Z & Lz & ->) F D. unfold on_arrays. rewrite Ei, Eo. cbn [need bind]. rewrite Z. cbn [option_map rows]. rewrite (read_lemma _ _ _ _ _ H). cbn [bind]. rewrite F. cbn [bind fst snd].
    rewrite new_empty_disc. cbn [bind]. destruct (write_lemma i xs probs ov out H) as (t & -> & Pt). cbn [bind]. destruct (p_data out) as [l|] eqn:Pd; [|destruct D as [_ D]; discriminate (D eq_refl)].
    destruct (write_data_lemma o zs l Z) as (u & -> & Pu). cbn [bind]. eexists. split; [reflexivity|]. exists i, o, t, u, l. do 5 (split; [assumption || reflexivity|]). reflexivity.
  - intros (H & ->) F D. unfold on_arrays. rewrite (read_lemma _ _ _ _ _ H). cbn [bind]. rewrite F. cbn [bind fst snd]. destruct (write_lemma s xs probs ov out H) as (t & -> & Pt). cbn [bind].
    eexists. split; [reflexivity|]. split; [exact Pt|]. apply D. reflexivity.
Qed.
Lemma given_lengths a xs probs ov oz : given a xs probs ov oz -> length xs = length probs /\ (forall v, ov = Some v -> length v = length probs) /\ (forall z, oz = Some z -> length z = length probs).
Proof.
  destruct a as [d|s|]; cbn [given]; [| |contradiction].
  - intros (i & o & zs & _ & _ & (_ & _ & _ & L & LV) & _ & Lz & ->). split; [exact L|]. split; [exact LV|]. intros z [= <-]. exact Lz.
  - intros ((_ & _ & _ & L & LV) & ->). split; [exact L|]. split; [exact LV|]. intros z [=].
Qed.
Lemma selects_opt_none {A} (l : option (list A)) idx out : selects_opt l idx out -> (l = None <-> out = None).
Proof. destruct l, out; cbn; try contradiction; intros _; split; congruence. Qed.
Lemma sort_object_lemma argsort P a xs probs ov oz : given a xs probs ov oz -> proper_measure probs ov -> is_xargsort (rho probs ov) (argsort (rho probs ov)) ->
  exists a' idx xs' probs' ov' oz', sort_object argsort P a = Ok (a', idx) /\ returned a a' xs' probs' ov' oz' /\
  NoDup idx /\ (forall i, In i idx <-> i < length probs /\ (0 < nth i probs 0)%Qc) /\ decreasing_density probs ov idx /\
  selects xs idx xs' /\ selects probs idx probs' /\ selects_opt ov idx ov' /\ selects_opt oz idx oz'.
Proof.
  intros G (N1 & N2 & N3) A. destruct (given_lengths _ _ _ _ _ G) as (L1 & L2 & L3).
  destruct (sort_lemma cell cell (argsort (rho probs ov)) (mk_p xs probs ov oz) L1 L2 L3 N1 N2 N3 A) as (out & idx & E & ND & I & DD & S1 & S2 & S3 & S4).
  cbn [p_values p_prob p_vol p_data] in *.
  destruct (on_arrays_lemma P (fun p => do q <- sorted_pset argsort p ; Ok (tt, fst q, snd q)) a xs probs ov oz tt out idx G) as (a' & Ea & R).
  - unfold sorted_pset. cbn [p_prob p_vol]. rewrite E. reflexivity.
  - eapply selects_opt_none. exact S4.
  - exists a', idx, (p_values out), (p_prob out), (p_vol out), (p_data out). unfold sort_object. rewrite Ea. cbn [bind fst snd]. do 8 (split; [assumption || reflexivity|]). exact S4.
Qed.
Lemma sample_object_lemma argsort P percentile a descending xs probs ov oz : given a xs probs ov oz -> proper_measure probs ov -> is_xargsort (rho probs ov) (argsort (rho probs ov)) -> (0 <= percentile)%Qc ->
  exists sorted order num a' xs' probs' ov' oz', sort_object argsort P a = Ok (sorted, if descending : bool then rev order else order) /\
  sample_prob_object argsort P percentile a descending = Ok (num, a', firstn num order) /\ num <= length order /\
  (total probs (firstn num order) <= percentile)%Qc /\ (forall m, num < m -> m <= length order -> (percentile < total probs (firstn m order))%Qc) /\
  returned a a' xs' probs' ov' oz' /\
  selects xs (firstn num order) xs' /\ selects probs (firstn num order) probs' /\ selects_opt ov (firstn num order) ov' /\ selects_opt oz (firstn num order) oz'.
Proof.
  intros G M A Pp. destruct (given_lengths _ _ _ _ _ G) as (L1 & L2 & L3). destruct M as (N1 & N2 & N3).
  destruct (sort_object_lemma argsort P a xs probs ov oz G (conj N1 (conj N2 N3)) A) as (sorted & idx' & ? & ? & ? & ? & ES & _).
  destruct (sample_prob_lemma cell cell (argsort (rho probs ov)) percentile (mk_p xs probs ov oz) descending L1 L2 L3 N1 N2 N3 A Pp) as (so & idx & num & out & E & E2 & Hn & T1 & T2 & S1 & S2 & S3 & S4).
  cbn [p_values p_prob p_vol p_data] in *.
  assert (idx' = idx) as ->.
  { destruct (on_arrays_lemma P (fun p => do q <- sorted_pset argsort p ; Ok (tt, fst q, snd q)) a xs probs ov oz tt so idx G) as (a' & Ea & R).
    - unfold sorted_pset. cbn [p_prob p_vol]. rewrite E. reflexivity.
    - clear -E. unfold sort_by_rho in E. cbn [p_values p_prob p_vol p_data] in E. destruct (fancy probs _); [|discriminate]. cbn [bind] in E. destruct (fancy xs _); [|discriminate]. cbn [bind] in E.
      destruct (fancy_opt ov _); [|discriminate]. cbn [bind] in E. destruct oz as [z|]; cbn [fancy_opt] in E; [destruct (fancy z _); [|discriminate]|]; cbn [bind] in E; injection E as <- _; cbn [p_data]; split; congruence.
    - unfold sort_object in ES. rewrite Ea in ES. cbn [bind fst snd] in ES. congruence. }
  destruct (on_arrays_lemma P (fun p => sample_prob (argsort (rho (p_prob p) (p_vol p))) percentile p true descending) a xs probs ov oz num out (firstn num (if descending then rev idx else idx)) G) as (a' & Ea & R).
  - exact E2.
  - eapply selects_opt_none. exact S4.
  - exists sorted, (if descending then rev idx else idx), num, a', (p_values out), (p_prob out), (p_vol out), (p_data out).
    split; [rewrite ES; destruct descending; rewrite ?rev_involutive; reflexivity|]. do 8 (split; [assumption|]). exact S4.
Qed.
Lemma highest_object_lemma argsort P percentile a xs probs ov oz : given a xs probs ov oz -> proper_measure probs ov -> is_xargsort (rho probs ov) (argsort (rho probs ov)) -> (0 <= percentile)%Qc ->
  exists order num a' xs' probs' ov' oz', highest_prob_object argsort P percentile a = Ok (num, a', firstn num order) /\
  all_positive probs order /\ decreasing_density probs ov order /\ longest_within probs percentile order num /\ returned a a' xs' probs' ov' oz' /\
  selects xs (firstn num order) xs' /\ selects probs (firstn num order) probs' /\ selects_opt ov (firstn num order) ov' /\ selects_opt oz (firstn num order) oz'.
Proof.
  intros G PM A Pp. destruct (sort_object_lemma argsort P _ _ _ _ _ G PM A) as (so & idx & ? & ? & ? & ? & ES & _ & ND & I & DD & _).
  destruct (sample_object_lemma argsort P percentile _ false _ _ _ _ G PM A Pp) as (so' & idx' & num & a' & xs' & q' & ov' & oz' & ES' & E2 & Hn & T1 & T2 & R & T).
  rewrite ES in ES'. injection ES' as <- <-. exists idx, num, a', xs', q', ov', oz'. split; [exact E2|]. split; [exact (conj ND I)|]. split; [exact DD|]. split; [exact (conj Hn (conj T1 T2))|]. exact (conj R T).
Qed.
Lemma lowest_object_lemma argsort P percentile a xs probs ov oz : given a xs probs ov oz -> proper_measure probs ov -> is_xargsort (rho probs ov) (argsort (rho probs ov)) -> (0 <= percentile)%Qc ->
  exists order num a' xs' probs' ov' oz', lowest_prob_object argsort P percentile a = Ok (num, a', firstn num order) /\
  all_positive probs order /\ increasing_density probs ov order /\ longest_within probs percentile order num /\ returned a a' xs' probs' ov' oz' /\
  selects xs (firstn num order) xs' /\ selects probs (firstn num order) probs' /\ selects_opt ov (firstn num order) ov' /\ selects_opt oz (firstn num order) oz'.
Proof.
  intros G PM A Pp. destruct (sort_object_lemma argsort P _ _ _ _ _ G PM A) as (so & idx & ? & ? & ? & ? & ES & _ & ND & I & DD & _).
  destruct (sample_object_lemma argsort P percentile _ true _ _ _ _ G PM A Pp) as (so' & idx' & num & a' & xs' & q' & ov' & oz' & ES' & E2 & Hn & T1 & T2 & R & T).
  rewrite ES in ES'. injection ES' as <- EI. assert (J : idx' = rev idx) by (rewrite EI, rev_involutive; reflexivity). subst idx'.
  exists (rev idx), num, a', xs', q', ov', oz'. split; [exact E2|]. split; [|split; [apply increasing_rev; exact DD|split; [exact (conj Hn (conj T1 T2))|exact (conj R T)]]].
  split; [apply NoDup_rev; exact ND|]. intros i. rewrite <- in_rev. apply I.
Qed.
Lemma sort_errors_lemma argsort P a d s o :
  (glob s Probabilities = None -> sort_object argsort P (ASet s) = Raise PyTypeError /\ forall pc b, sample_prob_object argsort P pc (ASet s) b = Raise PyTypeError) /\
  (d_in d = Some s -> d_out d = None -> sort_object argsort P (ADisc d) = Raise PyAttributeError /\ forall pc b, sample_prob_object argsort P pc (ADisc d) b = Raise PyAttributeError) /\
  (d_in d = Some s -> d_out d = Some o -> glob s Probabilities = None -> sort_object argsort P (ADisc d) = Raise PyTypeError /\ forall pc b, sample_prob_object argsort P pc (ADisc d) b = Raise PyTypeError) /\
  (a = AOther -> sort_object argsort P a = Raise BadObject /\ forall pc b, sample_prob_object argsort P pc a b = Raise BadObject).
Proof.
  unfold sort_object, sample_prob_object, on_arrays, read_set. split; [|split; [|split]].
  - intros ->. split; reflexivity.
  - intros -> ->. split; reflexivity.
  - intros E1 E2 E3. rewrite E1, E2. cbn [need bind]. rewrite E3. split; reflexivity.
  - intros ->. split; reflexivity.
Qed.

(** ** After an inversion *)
Lemma bind_inv {A B} (r : result A) (f : A -> result B) y : bind r f = Ok y -> exists x, r = Ok x /\ f x = Ok y.
Proof. destruct r as [x|]; [|discriminate]. intros H. exists x. split; [reflexivity|exact H]. Qed.
Lemma g2l_frame P (s t : sset cell) : global_to_local P s = Ok t -> domain t = domain s.
Proof. unfold global_to_local. intros H. apply bind_inv in H. destruct H as (n & _ & [= <-]). reflexivity. Qed.
Lemma localized_frame P (s t : sset cell) : localized P s = Ok t -> domain t = domain s.
Proof. unfold localized. destruct (loc s Values); [intros [= <-]; reflexivity|apply g2l_frame]. Qed.
Lemma l2g_frame (s t : sset cell) : local_to_global s = Ok t -> domain t = domain s.
Proof. intros H. destruct (local_to_global_spec _ _ H) as (_ & _ & _ & _ & D & _). exact D. Qed.
Ltac unbind H x E := apply bind_inv in H; destruct H as (x & E & H).
Lemma volumes_frame P w (s t : sset cell) : define_volumes P w s = Ok t -> domain t = domain s.
Proof.
  destruct w as [|v]; cbn [define_volumes]; [|intros [= <-]; reflexivity]. unfold estimate_mc. intros H. unbind H n E. destruct (n =? 0); [discriminate|]. apply g2l_frame in H. exact H.
Qed.
Definition input_domain (d : disc cell) : option (option (list (Qc * Qc))) := option_map domain (d_in d).
Lemma qoi_frame model P (s : sset cell) d : qoi model P true s = Ok d -> input_domain d = Some (domain s).
Proof.
  unfold qoi. intros H. unbind H s1 E1. unbind H bs E2. cbv zeta in H. destruct (map model bs) as [|b r]; [discriminate|]. destruct (forallb _ _); [|discriminate].
  unbind H o E3. unbind H s2 E4. unbind H o2 E5. unfold new_disc in H. unbind H u E6. injection H as <-. unfold input_domain. cbn [d_in option_map].
  rewrite (l2g_frame _ _ E4), (localized_frame _ _ _ E1). reflexivity.
Qed.
Lemma io_frame nn P g (d e : disc cell) : set_io_ptr nn P g d = Ok e -> input_domain e = input_domain d.
Proof. unfold set_io_ptr. intros H. unbind H o E1. unbind H o1 E2. unbind H p E3. unbind H x E4. unbind H q E5. injection H as <-. reflexivity. Qed.
Lemma output_frame nn P setter pr (d e : disc cell) : define_output nn P setter pr d = Ok e -> input_domain e = input_domain d.
Proof.
  unfold define_output. destruct setter; [|unfold store_output_probability; intros H; rewrite (io_frame _ _ _ _ _ H); reflexivity].
  unfold set_probability, done. destruct (_ && _); [|discriminate]. destruct (d_out d) as [o|]; [|discriminate].
  destruct (loc o Values); [|intros [= <-]; reflexivity]. destruct (glob pr Values); [|intros [= <-]; reflexivity].
  destruct (set_io_ptr nn P false (with_prob (Some pr) d)) as [d2|] eqn:E; [|discriminate]. intros [= <-]. rewrite (io_frame _ _ _ _ _ E). reflexivity.
Qed.
Lemma prob_frame nn P g (d e : disc cell) : prob_disc nn P g d = Ok e -> input_domain e = input_domain d.
Proof.
  unfold prob_disc. intros H. unbind H n E1. unbind H pr E2. unbind H m E3. unbind H d1 E4. unbind H i E5. unbind H i1 E6. unbind H pt E7. unbind H ps E8. unbind H vs E9. unbind H q E10.
  injection H as <-. unfold input_domain at 1. cbn [with_in d_in option_map]. transitivity (input_domain d1).
  - unfold input_domain. destruct (d_in d1) as [j|]; [|discriminate]. injection E5 as <-. cbn [option_map]. f_equal. rewrite <- (localized_frame _ _ _ E6). destruct g; reflexivity.
  - destruct (io_loc d); [injection E4 as <-; reflexivity|]. exact (io_frame _ _ _ _ _ E4).
Qed.
Lemma solve_frame nn P model w before setter s pr e : solve nn P model w before setter s pr = Ok e -> input_domain e = Some (domain s).
Proof.
  unfold solve. intros H. unbind H s1 E1. unbind H d E2. unbind H d1 E3. unbind H d2 E4. rewrite (prob_frame _ _ _ _ _ H), (output_frame _ _ _ _ _ _ E4).
  assert (D1 : domain s1 = domain s) by (destruct before; [exact (volumes_frame _ _ _ _ E1)|injection E1 as <-; reflexivity]).
  rewrite <- D1, <- (qoi_frame _ _ _ _ E2). destruct before; [injection E3 as <-; reflexivity|]. unfold define_input_volumes in E3. unbind E3 i F1. unbind E3 i1 F2. injection E3 as <-.
  unfold input_domain. cbn [with_in d_in option_map]. destruct (d_in d) as [j|]; [|discriminate]. injection F1 as <-. cbn [option_map]. f_equal. exact (volumes_frame _ _ _ _ F2).
Qed.

(** Points with their probabilities: the samples of the inversion. *)
Lemma solution_blocks P d (pts : list (list Qc)) (Q : list (list Qc)) : 0 < P -> same_lengths Q (array_split (points pts) P) ->
  exists blocks, concat blocks = combine pts (concat Q) /\
    map rows (split_arr P (mk_arr (points pts) [d])) = map value_rows blocks /\ map rows (map vec_arr Q) = map weight_rows blocks.
Proof.
  intros HP SL. unfold split_arr, points in *. cbn [rows tail_shape]. rewrite array_split_map in *. pose proof (array_split_concat pts P HP) as EX. set (X := array_split pts P) in *. clearbody X. subst pts.
  exists (map (fun e => combine (fst e) (snd e)) (combine X Q)). rewrite !map_map. cbn [rows]. revert Q SL. induction X as [|x X IH]; intros [|q Q] SL; inversion SL; subst; [repeat split|].
  destruct (IH Q) as (I1 & I2 & I3); [assumption|]. rewrite map_length in *. cbn [combine map concat fst snd]. split; [|split].
  - rewrite combine_app by congruence. f_equal. exact I1.
  - f_equal; [|exact I2]. unfold value_rows. clear -H2. revert q H2. induction x as [|u x IHx]; intros [|v q] L; try discriminate; [reflexivity|]. cbn [map combine fst]. f_equal. apply IHx. cbn in L. lia.
  - f_equal; [|exact I3]. unfold weight_rows, vec_arr. cbn [rows]. clear -H2. revert x H2. induction q as [|v q IHq]; intros [|u x] L; try discriminate; [reflexivity|]. cbn [map combine snd]. f_equal. apply IHq. cbn in L. lia.
Qed.
Section Solved.
Variables (nn : list cell -> cell -> nat) (P d o : nat) (g : cell -> cell) (model : arr cell -> arr cell) (w : volumes_by) (before setter : bool).
Variables (dom : option (list (Qc * Qc))) (dom' : option (list (Qc * Qc))) (ys : list cell) (probs : list Qc).
Hypotheses (HP : 0 < P) (M : row_model d o g model) (NY : ys <> []) (Lp : length probs = length ys) (NP : nonneg probs) (B : before = false -> w = MonteCarlo).
Definition answer (xs : list cell) : list Qc := solution (fun x => nn ys (g x)) probs (combine xs (volume_list w (length xs))).
Definition solved (xs : list cell) : result (disc cell) := solve nn P model w before setter (values_set d dom xs) (probability_set o dom' ys probs).
Lemma answer_length xs : (forall v, w = Given v -> length v = length xs /\ nonneg v) -> length (answer xs) = length xs.
Proof. intros W. unfold answer. rewrite solution_length, combine_length, volume_list_length; [lia|]. intros v Hv. apply (W v Hv). Qed.
Lemma solved_carries pts : (forall x, In x pts -> length x = d) -> pts <> [] -> (forall v, w = Given v -> length v = length pts /\ nonneg v) ->
  exists e s, solved (points pts) = Ok e /\ d_ein e = None /\ d_in e = Some s /\ dim s = d /\ domain s = dom /\ carries s (combine pts (answer (points pts))).
Proof.
  intros Hd NE W. assert (Lx : length (points pts) = length pts) by apply map_length.
  destruct (solve_state nn P d o g model w before setter dom dom' (points pts) ys probs HP M) as (i & o1 & Q & E & Hi & Ho & CQ & SL); try assumption.
  { destruct pts; [contradiction|discriminate]. } { rewrite Lx. exact W. }
  pose proof (solve_frame _ _ _ _ _ _ _ _ _ E) as Fr. eexists _, _. split; [exact E|]. cbn [d_ein d_in]. split; [reflexivity|]. split; [reflexivity|]. split; [exact (proj1 Hi)|]. split.
  { unfold input_domain in Fr. cbn [d_in option_map values_set domain] in Fr. congruence. }
  split.
  { intros e He. cbn [set_loc set_glob dim]. rewrite (proj1 Hi). apply Hd. destruct e. eapply in_combine_l. exact He. }
  right. destruct (solution_blocks P d pts Q HP SL) as (blocks & C1 & C2 & C3). exists blocks. split; [rewrite C1, CQ; reflexivity|].
  exists (split_arr P (mk_arr (points pts) [d])), (map vec_arr Q). cbn [set_loc set_glob loc]. rewrite upd_same, upd_other by discriminate. rewrite (proj2 (proj2 Hi)).
  split; [reflexivity|]. split; [reflexivity|]. split; assumption.
Qed.
Lemma solved_given xs : xs <> [] -> (forall v, w = Given v -> length v = length xs /\ nonneg v) ->
  exists e, solved xs = Ok e /\ given (ADisc e) xs (answer xs) (Some (volume_list w (length xs))) (Some (map g xs)).
Proof.
  intros NE W. pose proof (answer_length xs W) as LA.
  destruct (solve_state nn P d o g model w before setter dom dom' xs ys probs HP M) as (i & o1 & Q & E & Hi & Ho & CQ & SL); try assumption.
  eexists. split; [exact E|]. cbn [given]. eexists _, o1, (map g xs). split; [reflexivity|]. split; [reflexivity|]. split.
  { unfold has_arrays. cbn [set_loc set_glob glob dim]. rewrite upd_same, !upd_other by discriminate. rewrite !(proj1 (proj2 Hi)), (proj1 Hi). cbn [expected option_map].
    split; [reflexivity|]. split; [reflexivity|]. split; [reflexivity|]. split; [symmetry; exact LA|]. intros v [= <-]. rewrite LA. apply volume_list_length. intros v Hv. apply (W v Hv). }
  split; [rewrite (proj1 (proj2 Ho)), (proj1 Ho); reflexivity|]. split; [rewrite map_length; symmetry; exact LA|reflexivity].
Qed.
Lemma answer_proper xs : xs <> [] -> (forall v, w = Given v -> length v = length xs /\ forall x, In x v -> (0 < x)%Qc) -> proper_measure (answer xs) (Some (volume_list w (length xs))).
Proof.
  intros NE W. assert (Lv : length (volume_list w (length xs)) = length xs) by (apply volume_list_length; intros v Hv; apply (W v Hv)).
  assert (PV : forall x, In x (volume_list w (length xs)) -> (0 < x)%Qc).
  { destruct w as [|v]; [|apply (W v eq_refl)]. intros x Hx. apply repeat_spec in Hx. subst x. apply qc_div_pos; [reflexivity|]. apply qn_pos. destruct xs; [contradiction|cbn; lia]. }
  assert (NV : nonneg (volume_list w (length xs))) by (intros x Hx; apply Qclt_le_weak, PV, Hx). split; [|split].
  - unfold answer. rewrite <- solution_share by (try assumption; congruence). intros p Hp. apply in_map_iff in Hp. destruct Hp as (e & <- & He). apply share_nonneg.
    + intros x Hx. apply NV. destruct x. eapply in_combine_r. exact Hx.
    + exact He.
  - intros v x [= <-]. apply NV.
  - intros v i [= <-] Hi Z. exfalso. rewrite answer_length in Hi by (intros v Hv; destruct (W v Hv) as [? Q]; split; [assumption|intros x Hx; apply Qclt_le_weak, Q, Hx]).
    assert (In (nth i (volume_list w (length xs)) 0%Qc) (volume_list w (length xs))) by (apply nth_In; rewrite Lv; exact Hi). apply PV in H. rewrite Z in H. discriminate.
Qed.
End Solved.
Lemma solved_1D_lemma nn P d o g model w before setter dom dom' pts ys probs b ns : 0 < P -> row_model d o g model -> (forall x, In x pts -> length x = d) -> pts <> [] -> ys <> [] -> length probs = length ys -> nonneg probs ->
  (forall v, w = Given v -> length v = length pts /\ nonneg v) -> (before = false -> w = MonteCarlo) -> d <= length dom -> proper dom -> bins_given b d ns ->
  let q := solution (fun x => nn ys (g x)) probs (combine (points pts) (volume_list w (length pts))) in
  exists e bins marg a, solve nn P model w before setter (values_set d (Some dom) (points pts)) (probability_set o dom' ys probs) = Ok e /\
  calculate_1D P (ADisc e) b = Ok (bins, marg, a) /\ length bins = d /\ length marg = d /\
  forall i ab n, i < d -> nth_error dom i = Some ab -> nth_error ns i = Some n ->
    nth_error bins i = Some (map (bin_edge ab n) (seq 0 (n + 1))) /\
    nth_error marg i = Some (map (fun k => weight_of (combine pts q) (fun x => bin_has ab n k (nth i x 0%Qc))) (seq 0 n)).
Proof.
  intros HP M Hd NE NY Lp NP W B L Pd Bn. cbv zeta. assert (Lx : length (points pts) = length pts) by apply map_length.
  destruct (solved_carries nn P d o g model w before setter (Some dom) dom' ys probs HP M NY Lp NP B pts Hd NE W) as (e & s & E & Ee & Ei & Ds & Dm & C).
  destruct (calculate_1D_lemma P (ADisc e) s _ _ b dom ns HP (uses_input e s Ee Ei) C Dm) as (bins & marg & t & E1 & _ & L1 & L2 & H); try (rewrite Ds; assumption); [assumption|].
  unfold answer in H. rewrite Lx in H. rewrite Ds in *. exists e, bins, marg. eexists. split; [exact E|]. split; [exact E1|]. split; [exact L1|]. split; [exact L2|exact H].
Qed.
Lemma solved_2D_lemma nn P d o g model w before setter dom dom' pts ys probs b ns : 0 < P -> row_model d o g model -> (forall x, In x pts -> length x = d) -> pts <> [] -> ys <> [] -> length probs = length ys -> nonneg probs ->
  (forall v, w = Given v -> length v = length pts /\ nonneg v) -> (before = false -> w = MonteCarlo) -> d <= length dom -> proper dom -> bins_given b d ns -> 2 <= d ->
  let q := solution (fun x => nn ys (g x)) probs (combine (points pts) (volume_list w (length pts))) in
  exists e bins marg a, solve nn P model w before setter (values_set d (Some dom) (points pts)) (probability_set o dom' ys probs) = Ok e /\
  calculate_2D P (ADisc e) b = Ok (bins, marg, a) /\ NoDup (map fst marg) /\ (forall i j, In (i, j) (map fst marg) <-> i < j /\ j < d) /\
  forall i j m ab n ab' n', In ((i, j), m) marg -> nth_error dom i = Some ab -> nth_error ns i = Some n -> nth_error dom j = Some ab' -> nth_error ns j = Some n' ->
    m = map (fun k => map (fun l => weight_of (combine pts q) (fun x => bin_has ab n k (nth i x 0%Qc) && bin_has ab' n' l (nth j x 0%Qc))) (seq 0 n')) (seq 0 n).
Proof.
  intros HP M Hd NE NY Lp NP W B L Pd Bn D2. cbv zeta. assert (Lx : length (points pts) = length pts) by apply map_length.
  destruct (solved_carries nn P d o g model w before setter (Some dom) dom' ys probs HP M NY Lp NP B pts Hd NE W) as (e & s & E & Ee & Ei & Ds & Dm & C).
  destruct (calculate_2D_lemma P (ADisc e) s _ _ b dom ns HP (uses_input e s Ee Ei) C Dm) as (bins & marg & t & E1 & _ & L1 & _ & N & I & H); try (rewrite Ds; assumption); [assumption|].
  unfold answer in H. rewrite Lx in H. rewrite Ds in *. exists e, bins, marg. eexists. split; [exact E|]. split; [exact E1|]. split; [exact N|]. split; [exact I|exact H].
Qed.
Lemma solved_sample_lemma argsort percentile nn P d o g model w before setter dom dom' xs ys probs : 0 < P -> row_model d o g model -> xs <> [] -> ys <> [] -> length probs = length ys -> nonneg probs ->
  (forall v, w = Given v -> length v = length xs /\ forall x, In x v -> (0 < x)%Qc) -> (before = false -> w = MonteCarlo) -> (0 <= percentile)%Qc ->
  let v := volume_list w (length xs) in
  let q := solution (fun x => nn ys (g x)) probs (combine xs v) in
  is_xargsort (rho q (Some v)) (argsort (rho q (Some v))) ->
  exists e idx num i o1 xs' q' v' zs', solve nn P model w before setter (values_set d dom xs) (probability_set o dom' ys probs) = Ok e /\
  highest_prob_object argsort P percentile (ADisc e) = Ok (num, ADisc (mk_disc (Some i) (Some o1) None None None None None None None None None None), firstn num idx) /\
  NoDup idx /\ (forall k, In k idx <-> k < length xs /\ (0 < nth k q 0)%Qc) /\ decreasing_density q (Some v) idx /\ num <= length idx /\
  (total q (firstn num idx) <= percentile)%Qc /\ (forall m, num < m -> m <= length idx -> (percentile < total q (firstn m idx))%Qc) /\
  plain_set i d xs' q' (Some v') /\ outputs_only o1 o zs' /\
  selects xs (firstn num idx) xs' /\ selects q (firstn num idx) q' /\ selects v (firstn num idx) v' /\ selects (map g xs) (firstn num idx) zs'.
Proof.
  intros HP M NE NY Lp NP W B Pp. cbv zeta. intros A.
  assert (W' : forall v, w = Given v -> length v = length xs /\ nonneg v) by (intros v Hv; destruct (W v Hv) as [? Q]; split; [assumption|intros x Hx; apply Qclt_le_weak, Q, Hx]).
  destruct (solved_given nn P d o g model w before setter dom dom' ys probs HP M NY Lp NP B xs NE W') as (e & E & G).
  pose proof (answer_proper nn P g w before ys probs HP Lp NP B xs NE W) as PM.
  destruct (sort_object_lemma argsort P _ _ _ _ _ G PM A) as (so & idx & ? & ? & ? & ? & ES & _ & ND & I & DD & _).
  destruct (sample_object_lemma argsort P percentile _ false _ _ _ _ G PM A Pp) as (so' & idx' & num & a' & xs' & q' & ov' & oz' & ES' & E2 & Hn & T1 & T2 & R & S1 & S2 & S3 & S4).
  rewrite ES in ES'. injection ES' as <- <-. unfold returned in R. destruct a' as [e'|?|]; try contradiction. destruct R as (i & o1 & i' & o1' & zs' & Ei & Eo & -> & Pi & Po & ->).
  destruct ov' as [v'|]; [|contradiction S3]. rewrite (answer_length nn P g w ys probs HP Lp xs W') in I.
  exists e, idx, num, i', o1', xs', q', v', zs'. split; [exact E|]. split; [exact E2|]. do 6 (split; [assumption|]).
  assert (DI : dim i = d /\ dim o1 = o).
  { destruct (solve_state nn P d o g model w before setter dom dom' xs ys probs HP M NE NY Lp NP W' B) as (i0 & o0 & Q & E0 & Hi & Ho & _). unfold solved in E. rewrite E0 in E. injection E as <-.
    cbn [d_in d_out] in Ei, Eo. injection Ei as <-. injection Eo as <-. split; [exact (proj1 Hi)|exact (proj1 Ho)]. }
  destruct DI as [<- <-]. split; [exact Pi|]. split; [exact Po|]. split; [exact S1|]. split; [exact S2|]. split; [exact S3|exact S4].
Qed.
