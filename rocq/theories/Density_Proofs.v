From Coq Require Import ZArith List Arith Lia Bool Permutation QArith Qcanon.
From Verif Require Import Err Num Ext NumPy Lists SampleSet_Model SampleSet_Spec SampleSet_Proofs Disc_Model Disc_Proofs Inverse_Model Inverse_Spec Inverse_Proofs Density_Model Density_Spec.
Import ListNotations.
Local Open Scope nat_scope.
Local Open Scope err_scope.

(** ** Arrays *)
Lemma label_cell_lemma z : label_of (label_cell z) = Ok z.
Proof.
  unfold label_of, label_cell. assert (E : this (Q2Qc (inject_Z z)) = inject_Z z).
  { cbn [this Q2Qc]. unfold inject_Z, Qred. destruct (Z.ggcd z 1) as [g [a b]] eqn:G. pose proof (Z.ggcd_gcd z 1) as H1. pose proof (Z.ggcd_correct_divisors z 1) as H2.
    rewrite G in H1, H2. cbn [fst] in H1. rewrite Z.gcd_1_r in H1. subst g. destruct H2 as (A & B). assert (Ha : a = z) by lia. assert (Hb : b = 1%Z) by lia. cbn [snd]. rewrite Ha, Hb. reflexivity. }
  rewrite E. reflexivity.
Qed.
Lemma labels_lemma l : labels_of (map label_cell l) = Ok l.
Proof. induction l as [|z l IH]; [reflexivity|]. cbn [map labels_of]. rewrite label_cell_lemma. cbn [bind]. rewrite IH. reflexivity. Qed.
Lemma zero_region_lemma n : zero_region n = mk_arr (map label_cell (repeat 0%Z n)) [].
Proof. unfold zero_region. f_equal. induction n as [|n IH]; [reflexivity|]. cbn [repeat map]. f_equal. exact IH. Qed.
Lemma keeps_gather P s d xs lo : 0 < P -> keeps P s d xs lo -> exists s', local_to_global s = Ok s' /\ keeps P s' d xs lo /\ (forall a, glob s' a = content d xs lo a) /\ loc s' = loc s.
Proof.
  intros HP (D & K). destruct (gather_attrs_total all_attrs s) as [s1 E].
  - intros a bs _ La. specialize (K a). destruct (content d xs lo a) as [x|]; [|destruct K; congruence]. destruct K as [K|(K & _)]; [|congruence]. rewrite K in La. injection La as <-. exists x. apply gather_split. exact HP.
  - exists s1. split; [exact E|]. destruct (local_to_global_spec _ _ E) as (D1 & D2 & _ & _ & _ & _ & I).
    assert (G : forall a, glob s1 a = content d xs lo a).
    { intros a. specialize (I a). specialize (K a). destruct (content d xs lo a) as [x|]; [|destruct K as (K1 & K2); rewrite K1 in I; congruence].
      destruct K as [K|(K1 & K2)]; [|rewrite K1 in I; congruence]. rewrite K in I. destruct I as (g & Hg & ->). rewrite gather_split in Hg by exact HP. congruence. }
    split; [|split; [exact G|exact D2]]. split; [congruence|]. intros a. specialize (K a). rewrite D2, G. destruct (content d xs lo a) as [x|]; [|tauto]. destruct K as [K|(K1 & K2)]; tauto.
Qed.
Lemma global_count P s d xs lo : dim s = d -> (forall a, glob s a = content d xs lo a) -> (forall l, lo = Some l -> length l = length xs) -> check_num P s = Ok (length xs).
Proof.
  intros D G F. apply valid_count. split.
  - intros a x E. rewrite G in E. destruct a; try discriminate; cbn [content] in E; [injection E as <-; reflexivity|]. destruct lo as [l|]; [|discriminate]. injection E as <-. cbn [rows]. rewrite map_length. apply F. reflexivity.
  - exists (mk_arr xs [d]). rewrite G, D. split; reflexivity.
Qed.
Lemma content_region d xs lo n : forall a, upd (content d xs lo) Region (Some (zero_region n)) a = content d xs (Some (repeat 0%Z n)) a.
Proof. intros a. unfold upd. destruct (attr_eq_dec a Region) as [->|N]; [rewrite zero_region_lemma; reflexivity|]. destruct a; try reflexivity. contradiction. Qed.

(** ** Clusters *)
Definition pointer_from (s : nat) (ls : list Z) (i : nat) : list nat := map fst (filter (fun e => Z.eqb (snd e) (Z.of_nat i)) (combine (seq s (length ls)) ls)).
Lemma take_cluster {A} i : forall (ys : list A) (ls : list Z) (pre : list A), length ls = length ys -> take_idx (pre ++ ys) (pointer_from (length pre) ls i) = Some (members (combine ys ls) i).
Proof.
  induction ys as [|y ys IH]; intros [|l ls] pre E; try discriminate; [reflexivity|]. unfold pointer_from, members. cbn [length seq combine filter snd].
  assert (IHx := IH ls (pre ++ [y]) ltac:(cbn in E; lia)). rewrite app_length, Nat.add_comm, <- app_assoc in IHx. cbn [length Nat.add app] in IHx. unfold pointer_from, members in IHx.
  destruct (Z.eqb l (Z.of_nat i)); [|exact IHx]. cbn [map fst take_idx]. rewrite IHx. rewrite nth_error_app2 by lia. rewrite Nat.sub_diag. reflexivity.
Qed.
Lemma take_members {A} (ys : list A) ls i : length ls = length ys -> take_idx ys (pointer ls i) = Some (members (combine ys ls) i).
Proof. intros E. exact (take_cluster i ys ls [] E). Qed.
Lemma members_length {A} (ys : list A) ls i : length ls = length ys -> length (members (combine ys ls) i) = length (pointer ls i).
Proof. intros E. pose proof (take_members ys ls i E) as H. apply take_idx_nth in H. apply H. Qed.
Lemma set_nth_app {A} (pre : list A) x v r : set_nth (length pre) v (pre ++ x :: r) = Some (pre ++ v :: r).
Proof. induction pre as [|y pre IH]; [reflexivity|]. cbn [length app set_nth]. rewrite IH. reflexivity. Qed.
Lemma scatter_cluster {A B} i (h : A -> B) (g : A * Z -> B) : forall (ys : list A) (ls : list Z) (pre : list B), length ls = length ys ->
  scatter (pre ++ map g (combine ys ls)) (pointer_from (length pre) ls i) (map h (members (combine ys ls) i)) =
  Some (pre ++ map (fun e => if Z.eqb (snd e) (Z.of_nat i) then h (fst e) else g e) (combine ys ls)).
Proof.
  induction ys as [|y ys IH]; intros [|l ls] pre E; try discriminate; [reflexivity|]. unfold pointer_from, members. cbn [length seq combine filter snd fst map].
  assert (Q : length ls = length ys) by (cbn in E; lia). destruct (Z.eqb l (Z.of_nat i)) eqn:X; cbn [map fst snd scatter].
  - rewrite set_nth_app. assert (IHx := IH ls (pre ++ [h y]) Q). rewrite app_length, Nat.add_comm, <- !app_assoc in IHx. cbn [length Nat.add app] in IHx. exact IHx.
  - assert (IHx := IH ls (pre ++ [g (y, l)]) Q). rewrite app_length, Nat.add_comm, <- !app_assoc in IHx. cbn [length Nat.add app] in IHx. exact IHx.
Qed.
Lemma scatter_members {A B} i (h : A -> B) (g : A * Z -> B) ys ls : length ls = length ys -> scatter (map g (combine ys ls)) (pointer ls i) (map h (members (combine ys ls) i)) =
  Some (map (fun e => if Z.eqb (snd e) (Z.of_nat i) then h (fst e) else g e) (combine ys ls)).
Proof. intros E. exact (scatter_cluster i h g ys ls [] E). Qed.
Lemma members_in {A} (ys : list A) ls i : length ls = length ys -> members (combine ys ls) i <> [] -> In (Z.of_nat i) ls.
Proof.
  intros E N. unfold members in N. destruct (filter _ (combine ys ls)) as [|[y l] r] eqn:F; [contradiction|]. assert (H : In (y, l) (filter (fun e : A * Z => Z.eqb (snd e) (Z.of_nat i)) (combine ys ls))) by (rewrite F; left; reflexivity).
  apply filter_In in H. destruct H as (H & Q). cbn in Q. apply Z.eqb_eq in Q. subst l. eapply in_combine_r, H.
Qed.
Lemma in_members {A} (ys : list A) ls i : length ls = length ys -> In (Z.of_nat i) ls -> members (combine ys ls) i <> [].
Proof.
  intros E H N. assert (L := members_length ys ls i E). rewrite N in L. cbn in L. rewrite pointer_length in L. unfold count_label in L.
  assert (Q : In (Z.of_nat i) (filter (Z.eqb (Z.of_nat i)) ls)) by (apply filter_In; split; [exact H|apply Z.eqb_refl]). destruct (filter _ ls); [destruct Q|discriminate].
Qed.

(** The states after the arrays have been made global and labelled. *)
Definition prepared_for (P di o oo : nat) (xs : list (list Qc)) (ys zs : list cell) (w : option (list Qc)) (ls ms : list Z) (d : rdisc) : Prop :=
  stores P d di xs o ys (Some ls) oo zs (Some ms) /\ (forall a, glob (arrays (r_in d)) a = content di (map point_row xs) None a) /\
  (forall a, glob (arrays (r_out d)) a = content o ys (Some ls) a) /\ weights_init (r_out d) = w.
Definition same_rest (d d' : rdisc) : Prop :=
  maps (r_in d') = maps (r_in d) /\ weights_init (r_in d') = weights_init (r_in d) /\ sample_weights (r_in d') = sample_weights (r_in d) /\ updated (r_in d') = updated (r_in d).
Lemma prepare P di o oo xs ys zs lo mo w ls ms d : 0 < P -> matching di xs ys lo zs mo w -> used_labels (length ys) (length zs) lo mo = (ls, ms) -> stores P d di xs o ys lo oo zs mo -> weights_init (r_out d) = w ->
  exists d1 d2, all_global d = Ok d1 /\ ensure_regions P d1 = Ok d2 /\ prepared_for P di o oo xs ys zs w ls ms d2 /\ same_rest d d2.
Proof.
  intros HP M U (KI & KO & KB & MO & MB & X) W. destruct (keeps_gather P _ _ _ _ HP KI) as (si & Ei & KI' & GI & _). destruct (keeps_gather P _ _ _ _ HP KO) as (so & Eo & KO' & GO & LO).
  unfold all_global. rewrite Ei. cbn [bind]. rewrite Eo. cbn [bind]. exists (mk_rdisc (with_arrays si (r_in d)) (with_arrays so (r_out d)) (r_obs d)). unfold ensure_regions. cbn [r_out r_obs r_in with_arrays arrays]. destruct KB as (DB & GB).
  rewrite GO, GB. destruct M as (_ & _ & _ & Ml & Mm & _).
  assert (C1 : check_num P so = Ok (length ys)) by (eapply global_count; [exact (proj1 KO')|exact GO|exact Ml]).
  assert (C2 : check_num P (arrays (r_obs d)) = Ok (length zs)) by (eapply global_count; [exact DB|exact GB|exact Mm]).
  assert (Z : forall (new := mk_rdisc (with_arrays si (r_in d)) (with_arrays (set_glob Region (Some (zero_region (length ys))) so) (r_out d)) (with_arrays (set_glob Region (Some (zero_region (length zs))) (arrays (r_obs d))) (r_obs d))),
     ls = repeat 0%Z (length ys) -> ms = repeat 0%Z (length zs) -> loc so Region = None -> prepared_for P di o oo xs ys zs w ls ms new /\ same_rest d new).
  { intros new E1 E2 LR. split; [|repeat split]. split.
    - split; [exact KI'|]. split; [|split; [|split; [exact MO|split; [exact MB|discriminate]]]].
      + split; [exact (proj1 KO')|]. intros a. cbn [new r_out with_arrays arrays set_glob loc glob]. rewrite E1. unfold upd. destruct (attr_eq_dec a Region) as [->|N].
        * cbn [content option_map]. right. split; [exact LR|]. rewrite zero_region_lemma. reflexivity.
        * pose proof (proj2 KO' a) as Q. destruct a; try exact Q. contradiction.
      + split; [exact DB|]. intros a. cbn [new r_obs with_arrays arrays set_glob glob]. rewrite E2, <- content_region with (lo := mo). unfold upd. destruct (attr_eq_dec a Region); [reflexivity|apply GB].
    - split; [exact GI|]. split; [|exact W]. intros a. cbn [new r_out with_arrays arrays set_glob glob]. rewrite E1, <- content_region with (lo := lo). unfold upd. destruct (attr_eq_dec a Region); [reflexivity|apply GO]. }
  destruct lo as [l|]; [destruct mo as [m|]|]; cbn [used_labels] in U; injection U as <- <-.
  - cbn [content option_map]. eexists. split; [reflexivity|]. split; [reflexivity|]. split; [|repeat split]. split.
    + split; [exact KI'|]. split; [exact KO'|]. split; [split; [exact DB|exact GB]|]. split; [exact MO|]. split; [exact MB|discriminate].
    + split; [exact GI|]. split; [exact GO|exact W].
  - cbn [content option_map]. eexists. split; [reflexivity|]. rewrite C1. cbn [bind]. rewrite C2. cbn [bind]. split; [reflexivity|]. apply Z; [reflexivity|reflexivity|]. rewrite LO. apply X. reflexivity.
  - cbn [content option_map]. eexists. split; [reflexivity|]. rewrite C1. cbn [bind]. rewrite C2. cbn [bind]. split; [destruct mo; reflexivity|]. apply Z; [reflexivity|reflexivity|].
    destruct (proj2 KO' Region) as (Q & _). exact Q.
Qed.

Lemma used_lengths di xs ys zs lo mo w ls ms : matching di xs ys lo zs mo w -> used_labels (length ys) (length zs) lo mo = (ls, ms) -> length ls = length ys /\ length ms = length zs.
Proof.
  intros (_ & _ & _ & L & L' & _) U. destruct lo as [l|]; [destruct mo as [m|]|]; cbn [used_labels] in U; injection U as <- <-; rewrite ?repeat_length; auto.
Qed.
Lemma kde_weights_lemma (ys : list cell) ls w j : length ls = length ys -> (forall v, w = Some v -> length v = length ys) -> kde_weights w (pointer ls j) = Ok (option_map (fun v => map Fin (members (combine v ls) j)) w).
Proof. intros L Lw. destruct w as [v|]; [|reflexivity]. cbn [kde_weights]. unfold take. rewrite take_members; [reflexivity|]. rewrite L. symmetry. apply Lw. reflexivity. Qed.
(** ** Estimates *)
Section Fixed.
Context (gkde : list cell -> option (list xnum) -> result (cell -> Qc)) (gkde1 : list Qc -> list xnum -> result (Qc -> Qc)).
Context (P di o oo : nat) (xs : list (list Qc)) (ys zs : list cell) (lo mo : option (list Z)) (w : option (list Qc)) (p q : nat -> cell -> Qc).
Hypothesis HP : 0 < P.
Hypothesis M : matching di xs ys lo zs mo w.
Context (ls ms : list Z).
Hypothesis U : used_labels (length ys) (length zs) lo mo = (ls, ms).
Hypothesis Es : estimated gkde ys ls w zs ms p q.
Context (K : nat).
Hypothesis HK : clusters ls K.

Lemma len_ls : length ls = length ys.
Proof. apply (used_lengths _ _ _ _ _ _ _ _ _ M U). Qed.
Lemma len_ms : length ms = length zs.
Proof. apply (used_lengths _ _ _ _ _ _ _ _ _ M U). Qed.
Lemma ls_nonempty : ls <> [].
Proof. intros E. pose proof len_ls as L. rewrite E in L. destruct M as (N & _). destruct ys; [contradiction|discriminate]. Qed.

Definition prepared (d : rdisc) : Prop := prepared_for P di o oo xs ys zs w ls ms d.
Lemma prepared_again d : prepared d -> exists d', all_global d = Ok d' /\ ensure_regions P d' = Ok d' /\ prepared d' /\ same_rest d d'.
Proof.
  intros ((KI & KO & KB & MO & MB & X) & _ & _ & W). destruct (keeps_gather P _ _ _ _ HP KI) as (si & Ei & KI' & GI & _). destruct (keeps_gather P _ _ _ _ HP KO) as (so & Eo & KO' & GO & LO).
  unfold all_global. rewrite Ei. cbn [bind]. rewrite Eo. cbn [bind]. eexists. split; [reflexivity|]. unfold ensure_regions. cbn [r_out r_obs r_in with_arrays arrays]. rewrite GO, (proj2 KB). cbn [content option_map].
  split; [reflexivity|]. split; [|repeat split]. split.
  - split; [exact KI'|]. split; [exact KO'|]. split; [exact KB|]. split; [exact MO|]. split; [exact MB|discriminate].
  - split; [exact GI|]. split; [exact GO|exact W].
Qed.

Definition some_if {A} (l : list A) (f : cell -> Qc) : option (cell -> Qc) := if 1 <? length l then Some f else None.
Lemma predict_kde_lemma d j : prepared d -> cluster_kde gkde (r_out d) (weights_init (r_out d)) ls j = Ok (some_if (members (combine ys ls) j) (p j)).
Proof.
  intros ((_ & _ & _ & MO & _ & _) & _ & GO & W). unfold cluster_kde, some_if. rewrite MO, GO, W, (members_length ys ls j len_ls). destruct (Nat.ltb_spec 1 (length (pointer ls j))) as [H|_]; [|reflexivity].
  assert (KW : kde_weights w (pointer ls j) = Ok (option_map (fun v => map Fin (members (combine v ls) j)) w)).
  { apply (kde_weights_lemma ys); [exact len_ls|]. apply M. }
  rewrite KW. cbn [bind content subscript rows]. unfold take. rewrite (take_members ys ls j len_ls). cbn [bind]. rewrite (proj1 Es); [reflexivity|]. rewrite (members_length ys ls j len_ls). lia.
Qed.
Lemma obs_kde_lemma d j : prepared d -> cluster_kde gkde (r_obs d) None ms j = Ok (some_if (members (combine zs ms) j) (q j)).
Proof.
  intros ((_ & _ & KB & _ & MB & _) & _ & _ & _). unfold cluster_kde, some_if. rewrite MB, (proj2 KB), (members_length zs ms j len_ms). destruct (Nat.ltb_spec 1 (length (pointer ms j))) as [H|_]; [|reflexivity].
  cbn [kde_weights bind content subscript rows]. unfold take. rewrite (take_members zs ms j len_ms). cbn [bind]. rewrite (proj1 (proj2 Es)); [reflexivity|]. rewrite (members_length zs ms j len_ms). lia.
Qed.
Lemma kdes_lemma d is : prepared d -> kdes gkde (r_out d) (r_obs d) ls ms is =
  Ok (map (fun j => some_if (members (combine ys ls) j) (p j)) is, map (fun j => some_if (members (combine zs ms) j) (q j)) is).
Proof. intros Q. induction is as [|i is IH]; [reflexivity|]. cbn [kdes]. rewrite (predict_kde_lemma d i Q). cbn [bind]. rewrite (obs_kde_lemma d i Q). cbn [bind]. rewrite IH. reflexivity. Qed.
Definition gen_of (d : rdisc) : generated :=
  mk_gen d (map (fun j => some_if (members (combine ys ls) j) (p j)) (seq 0 K)) (map (fun j => some_if (members (combine zs ms) j) (q j)) (seq 0 K)) K ls ms.
Lemma generate_from d1 d2 d : all_global d = Ok d1 -> ensure_regions P d1 = Ok d2 -> prepared d2 -> generate_output_kdes gkde P d = Ok (gen_of d2).
Proof.
  intros E1 E2 Q. unfold generate_output_kdes. rewrite E1. cbn [bind]. rewrite E2. cbn [bind]. destruct Q as ((A1 & A2 & A3 & A4 & A5 & A6) & A7 & A8 & A9).
  unfold region_of. rewrite A8. cbn [content option_map subscript bind rows]. rewrite labels_lemma. cbn [bind]. rewrite (proj2 A3). cbn [content option_map subscript bind rows]. rewrite labels_lemma. cbn [bind].
  rewrite A4. destruct (num_clusters_spec (V := cell) ls ls_nonempty) as (c & -> & C). rewrite (clusters_unique ls c K ls_nonempty C HK). cbn [bind].
  rewrite kdes_lemma; [reflexivity|]. exact (conj (conj A1 (conj A2 (conj A3 (conj A4 (conj A5 A6))))) (conj A7 (conj A8 A9))).
Qed.

(** ** Ratios *)
Definition ratios (j : nat) : option (list xnum) := if length (members (combine ys ls) j) =? 0 then None else Some (map (ratio p q j) (members (combine ys ls) j)).
Definition weight_to (k : nat) (e : cell * Z) : xnum := if ((0 <=? snd e) && (snd e <? Z.of_nat k))%Z then ratio p q (Z.to_nat (snd e)) (fst e) else Fin 0.
Lemma weight_step k : map (fun e : cell * Z => if Z.eqb (snd e) (Z.of_nat k) then ratio p q k (fst e) else weight_to k e) (combine ys ls) = map (weight_to (S k)) (combine ys ls).
Proof.
  apply map_ext. intros (y & l). unfold weight_to. cbn [fst snd]. destruct (Z.eqb_spec l (Z.of_nat k)) as [->|N].
  - rewrite (proj2 (Z.leb_le 0 _)), (proj2 (Z.ltb_lt _ _)) by lia. cbn [andb]. rewrite Nat2Z.id. reflexivity.
  - destruct (Z.leb_spec 0 l); cbn [andb]; [|reflexivity]. destruct (Z.ltb_spec l (Z.of_nat k)), (Z.ltb_spec l (Z.of_nat (S k))); try reflexivity; lia.
Qed.
Lemma weight_keep k : members (combine ys ls) k = [] -> map (weight_to k) (combine ys ls) = map (weight_to (S k)) (combine ys ls).
Proof.
  intros E. rewrite <- weight_step. apply map_ext_in. intros (y & l) H. cbn [fst snd]. destruct (Z.eqb_spec l (Z.of_nat k)) as [->|N]; [|reflexivity].
  exfalso. apply (in_members ys ls k len_ls); [eapply in_combine_r, H|exact E].
Qed.
Lemma invert_loop d : prepared d -> forall n k ws rs, k + n = K ->
  invert_clusters (r_out d) (gen_of d) (seq k n) (mk_inv (map (weight_to k) (combine ys ls)) ws rs (map (pointer ls) (seq 0 k))) =
  Ok (mk_inv (map (weight_to K) (combine ys ls)) (ws ++ map (fun j => option_map xmean (ratios j)) (seq k n)) (rs ++ map ratios (seq k n)) (map (pointer ls) (seq 0 K))).
Proof.
  intros Q. induction n as [|n IH]; intros k ws rs E.
  - cbn [seq invert_clusters map]. rewrite !app_nil_r. replace k with K by lia. reflexivity.
  - cbn [seq invert_clusters]. destruct Q as ((A1 & A2 & A3 & A4 & A5 & A6) & A7 & A8 & A9). rewrite A4, A8. cbn [content subscript bind rows g_regions gen_of]. unfold take. rewrite (take_members ys ls k len_ls). cbn [bind].
    assert (SP : map (pointer ls) (seq 0 k) ++ [pointer ls k] = map (pointer ls) (seq 0 (S k))) by (rewrite seq_S, map_app; reflexivity).
    rewrite <- (members_length ys ls k len_ls). destruct (Nat.ltb_spec 0 (length (members (combine ys ls) k))) as [H|H].
    + assert (N : members (combine ys ls) k <> []) by (intros X; rewrite X in H; cbn in H; lia).
      destruct (proj2 (proj2 Es) (Z.of_nat k) (members_in ys ls k len_ls N) ltac:(lia)) as (B1 & B2). rewrite Nat2Z.id in B1, B2.
      cbn [gen_of g_obs g_predict]. rewrite !nth_error_map, !nth_error_seq. destruct (Nat.ltb_spec k K) as [_|X]; [|lia]. cbn [option_map Nat.add]. unfold some_if.
      rewrite (proj2 (Nat.ltb_lt _ _) B1), (proj2 (Nat.ltb_lt _ _) B2). cbn [i_weights i_means i_ratios i_ptrs].
      rewrite (scatter_members k (fun v => xdivq (q k v) (p k v)) (weight_to k) ys ls len_ls). rewrite SP. change (fun e : cell * Z => if Z.eqb (snd e) (Z.of_nat k) then xdivq (q k (fst e)) (p k (fst e)) else weight_to k e) with (fun e : cell * Z => if Z.eqb (snd e) (Z.of_nat k) then ratio p q k (fst e) else weight_to k e). rewrite weight_step.
      fold (gen_of d). rewrite (IH (S k)) by lia. cbn [map]. assert (R : ratios k = Some (map (fun v => xdivq (q k v) (p k v)) (members (combine ys ls) k))).
      { unfold ratios. destruct (Nat.eqb_spec (length (members (combine ys ls) k)) 0); [lia|]. reflexivity. }
      rewrite !R, <- !app_assoc. reflexivity.
    + assert (N : members (combine ys ls) k = []) by (destruct (members (combine ys ls) k); [reflexivity|cbn in H; lia]). cbn [i_weights i_means i_ratios i_ptrs]. rewrite SP, (weight_keep k N), (IH (S k)) by lia.
      assert (R : ratios k = None) by (unfold ratios; rewrite N; reflexivity). cbn [map]. rewrite !R, <- !app_assoc. reflexivity.
Qed.
Lemma weight_all : map (weight_to K) (combine ys ls) = map (weight p q) (combine ys ls).
Proof.
  apply map_ext_in. intros (y & l) H. unfold weight_to, weight. cbn [fst snd]. apply in_combine_r in H. pose proof (proj1 HK l H) as B.
  destruct (Z.leb_spec 0 l); destruct (Z.ltb_spec l 0); destruct (Z.ltb_spec l (Z.of_nat K)); try lia; reflexivity.
Qed.
Lemma weight_none : map (weight_to 0) (combine ys ls) = repeat (Fin 0) (length ys).
Proof.
  assert (L : length (combine ys ls) = length ys) by (rewrite combine_length, len_ls; lia). rewrite <- L. clear L. induction (combine ys ls) as [|(y & l) r IH]; [reflexivity|]. cbn [map length repeat]. f_equal; [|exact IH].
  unfold weight_to. cbn [snd]. destruct (Z.leb_spec 0 l), (Z.ltb_spec l (Z.of_nat 0)); try reflexivity. lia.
Qed.
Definition solution : inverted := mk_inv (map (weight p q) (combine ys ls)) (map (fun j => option_map xmean (ratios j)) (seq 0 K)) (map ratios (seq 0 K)) (map (pointer ls) (seq 0 K)).
Lemma invert_from d1 d2 d : all_global d = Ok d1 -> ensure_regions P d1 = Ok d2 -> prepared d2 ->
  invert_disc gkde P d = Ok (mk_rdisc (set_weights (map (weight p q) (combine ys ls)) (r_in d2)) (r_out d2) (r_obs d2), solution).
Proof.
  intros E1 E2 Q. unfold invert_disc. rewrite (generate_from d1 d2 d E1 E2 Q). cbn [bind]. change (g_disc (gen_of d2)) with d2. change (g_num (gen_of d2)) with K. cbv zeta. pose proof Q as ((A1 & A2 & A3 & A4 & A5 & A6) & A7 & A8 & A9).
  rewrite (global_count P _ o ys (Some ls)); [|exact (proj1 A2)|exact A8|intros l [= <-]; apply len_ls]. cbn [bind]. rewrite <- weight_none. pose proof (invert_loop d2 Q K 0 [] [] eq_refl) as IL. change (map (pointer ls) (seq 0 0)) with (@nil (list nat)) in IL. rewrite IL. cbn [bind i_weights app]. rewrite weight_all. reflexivity.
Qed.

(** ** Marginals *)
Context (f : nat -> nat -> Qc -> Qc).
Hypothesis Ef : estimated_inputs gkde1 di xs ys ls p q f.
Lemma each_map {A B} (h : A -> result B) (g : A -> B) l : (forall x, In x l -> h x = Ok (g x)) -> each h l = Ok (map g l).
Proof. induction l as [|x l IH]; intros H; [reflexivity|]. cbn [each map]. rewrite (H x (or_introl eq_refl)). cbn [bind]. rewrite IH; [reflexivity|]. intros y Hy. apply H. right. exact Hy. Qed.
Lemma coordinates_lemma i l : (forall x, In x l -> i < length x) -> coordinates i (map point_row l) = Ok (map (axis i) l).
Proof.
  induction l as [|x l IH]; intros H; [reflexivity|]. cbn [map coordinates coordinate point_row]. rewrite nth_error_map. pose proof (H x (or_introl eq_refl)) as B.
  rewrite (nth_error_nth' x 0%Qc B). cbn [option_map bind]. rewrite IH; [reflexivity|]. intros y Hy. apply H. right. exact Hy.
Qed.
Lemma members_map {A B} (g : A -> B) (l : list A) k j : members (combine (map g l) k) j = map g (members (combine l k) j).
Proof. unfold members. revert k. induction l as [|x l IH]; intros [|z k]; try reflexivity. cbn [map combine filter snd]. destruct (Z.eqb z (Z.of_nat j)); cbn [map fst]; rewrite IH; reflexivity. Qed.
Lemma members_sub {A} (l : list A) k j x : In x (members (combine l k) j) -> In x l.
Proof. unfold members. intros H. apply in_map_iff in H. destruct H as ((y & z) & <- & H). apply filter_In in H. eapply in_combine_l, (proj1 H). Qed.
Definition marginal_row (i : nat) : list (option (Qc -> Qc)) := map (fun j => if length (members (combine ys ls) j) =? 0 then None else Some (f i j)) (seq 0 K).
Lemma marginals_lemma i : i < di -> each (marginal_kde gkde1 (Some (mk_arr (map point_row xs) [di])) solution i) (seq 0 K) = Ok (marginal_row i).
Proof.
  intros I. apply each_map. intros j Hj. apply in_seq in Hj. unfold marginal_kde, solution. cbn [i_ratios i_ptrs]. rewrite !nth_error_map, !nth_error_seq. destruct (Nat.ltb_spec j K) as [_|X]; [|lia].
  cbn [option_map Nat.add]. unfold ratios. destruct (Nat.eqb_spec (length (members (combine ys ls) j)) 0) as [E|E]; [reflexivity|]. cbn [subscript bind rows]. unfold take.
  assert (LX : length ls = length xs) by (rewrite len_ls; symmetry; apply M). rewrite take_members by (rewrite map_length; exact LX). cbn [bind]. rewrite members_map, coordinates_lemma.
  - cbn [bind]. rewrite Ef; [reflexivity|exact I|]. intros X. rewrite X in E. apply E. reflexivity.
  - intros x Hx. apply members_sub in Hx. rewrite (proj1 (proj2 (proj2 M)) x Hx). exact I.
Qed.
Definition the_measure : measure := mk_measure (map marginal_row (seq 0 di)) (map (fun j => (qn (length (pointer ms j)) / qn (length zs))%Qc) (seq 0 K)).
Lemma guard : ((length zs =? 0) && (0 <? K))%bool = false.
Proof.
  destruct (Nat.eqb_spec (length zs) 0) as [Z|_]; [|reflexivity]. destruct (Nat.ltb_spec 0 K) as [H|_]; [|reflexivity]. exfalso. destruct HK as (_ & [->|I]); [lia|].
  destruct (proj2 (proj2 Es) _ I ltac:(lia)) as (_ & B). rewrite (members_length zs ms _ len_ms) in B. pose proof (pointer_length ms (Z.to_nat (Z.of_nat K - 1))) as PL.
  assert (ms = []) by (apply length_zero_iff_nil; rewrite len_ms; exact Z). rewrite H0 in B. cbn in B. lia.
Qed.
Lemma kde_from d1 d2 d : all_global d = Ok d1 -> ensure_regions P d1 = Ok d2 -> prepared d2 ->
  exists d3, prepared d3 /\ same_rest d2 d3 /\
  invert_to_kde gkde gkde1 P d = Ok (mk_rdisc (set_updated the_measure (set_weights (map (weight p q) (combine ys ls)) (r_in d3))) (r_out d3) (r_obs d3)).
Proof.
  intros E1 E2 Q. destruct (prepared_again d2 Q) as (d3 & F1 & F2 & Q3 & SR). exists d3. split; [exact Q3|]. split; [exact SR|].
  unfold invert_to_kde. rewrite (generate_from d1 d2 d E1 E2 Q). cbn [bind gen_of g_disc g_num]. rewrite (invert_from d3 d3 d2 F1 F2 Q3). cbn [bind fst snd r_in r_out r_obs set_weights arrays].
  destruct Q3 as ((A1 & A2 & A3 & A4 & A5 & A6) & A7 & A8 & A9). rewrite (global_count P _ oo zs (Some ms)); [|exact (proj1 A3)|exact (proj2 A3)|intros l [= <-]; apply len_ms]. cbn [bind].
  unfold region_of. rewrite (proj2 A3). cbn [content option_map subscript bind rows]. rewrite labels_lemma. cbn [bind].
  rewrite guard.
  rewrite (A7 Values). cbn [content]. rewrite (each_map _ marginal_row).
  - cbn [bind]. rewrite (proj1 A1). reflexivity.
  - intros i Hi. apply in_seq in Hi. rewrite (proj1 A1) in Hi. apply marginals_lemma. lia.
Qed.
End Fixed.

(** ** Theorems *)
Lemma xsum_cases l : match xsum l with
  | NaN => In NaN l \/ (In PInf l /\ In NInf l)
  | PInf => ~ In NaN l /\ In PInf l /\ ~ In NInf l
  | NInf => ~ In NaN l /\ In NInf l /\ ~ In PInf l
  | Fin _ => ~ In NaN l /\ ~ In PInf l /\ ~ In NInf l end.
Proof.
  induction l as [|x l IH]; [cbn; tauto|]. change (xsum (x :: l)) with (xadd x (xsum l)).
  destruct x, (xsum l); cbn; intuition (try discriminate).
Qed.
Lemma xmean_mean l : is_mean l (xmean l).
Proof.
  split; [|split; [|split]].
  - intros v -> N. unfold xmean. rewrite xsum_fin, map_length. assert (Z : qn (length v) <> 0%Qc) by (apply qn_neq0; destruct v; [contradiction|cbn; lia]). rewrite xdivq_fin by exact Z. eexists. split; [reflexivity|]. field. exact Z.
  - intros H. pose proof (xsum_cases l) as C. unfold xmean. destruct (xsum l); tauto.
  - intros H1 H2 H3. pose proof (xsum_cases l) as C. unfold xmean. destruct (xsum l); tauto.
  - intros H1 H2 H3. pose proof (xsum_cases l) as C. unfold xmean. destruct (xsum l); tauto.
Qed.
Lemma prepared_stores P di o oo xs ys zs w ls ms d : prepared_for P di o oo xs ys zs w ls ms d -> stores P d di xs o ys (Some ls) oo zs (Some ms).
Proof. intros Q. apply Q. Qed.
Lemma weights_lemma gkde P di o oo xs ys zs lo mo w ls ms p q K d : 0 < P -> matching di xs ys lo zs mo w -> used_labels (length ys) (length zs) lo mo = (ls, ms) ->
  stores P d di xs o ys lo oo zs mo -> weights_init (r_out d) = w -> estimated gkde ys ls w zs ms p q -> clusters ls K ->
  exists d' inv, invert_disc gkde P d = Ok (d', inv) /\ sample_weights (r_in d') = Some (map (weight p q) (combine ys ls)) /\ i_weights inv = map (weight p q) (combine ys ls) /\
    length (i_means inv) = K /\ length (i_ratios inv) = K /\ length (i_ptrs inv) = K /\
    (forall j, j < K -> (exists ptr, nth_error (i_ptrs inv) j = Some ptr /\ positions ls j ptr) /\
      (members (combine ys ls) j = [] -> nth_error (i_ratios inv) j = Some None /\ nth_error (i_means inv) j = Some None) /\
      (members (combine ys ls) j <> [] -> exists m, nth_error (i_ratios inv) j = Some (Some (map (ratio p q j) (members (combine ys ls) j))) /\
         nth_error (i_means inv) j = Some (Some m) /\ is_mean (map (ratio p q j) (members (combine ys ls) j)) m)) /\
    stores P d' di xs o ys (Some ls) oo zs (Some ms) /\ updated (r_in d') = updated (r_in d).
Proof.
  intros HP M U St W Es HK. destruct (prepare P di o oo xs ys zs lo mo w ls ms d HP M U St W) as (d1 & d2 & E1 & E2 & Q & SR).
  rewrite (invert_from gkde P di o oo xs ys zs lo mo w p q HP M ls ms U Es K HK d1 d2 d E1 E2 Q). eexists _, _. split; [reflexivity|]. split; [reflexivity|]. split; [reflexivity|].
  cbn [solution i_means i_ratios i_ptrs]. rewrite !map_length, !seq_length. split; [reflexivity|]. split; [reflexivity|]. split; [reflexivity|]. split.
  - intros j J. rewrite !nth_error_map, !nth_error_seq. destruct (Nat.ltb_spec j K) as [_|X]; [|lia]. cbn [option_map Nat.add]. split; [exists (pointer ls j); split; [reflexivity|apply pointer_positions]|].
    unfold ratios. split; intros N.
    + rewrite N. split; reflexivity.
    + destruct (Nat.eqb_spec (length (members (combine ys ls) j)) 0) as [Z|_]; [apply length_zero_iff_nil in Z; contradiction|]. eexists. split; [reflexivity|]. split; [reflexivity|]. apply xmean_mean.
  - split; [exact (prepared_stores _ _ _ _ _ _ _ _ _ _ _ Q)|]. apply SR.
Qed.

Lemma add_clusters_lemma (g : nat -> Qc -> Qc) (s : nat -> Qc) x : forall js acc, add_clusters (map (fun j => Some (g j)) js) (map s js) x acc = Ok (acc + qsum (map (fun j => (g j x * s j)%Qc) js))%Qc.
Proof. induction js as [|j js IH]; intros acc; cbn [map add_clusters qsum fold_right]; [f_equal; ring|]. rewrite IH. f_equal. unfold qsum. ring. Qed.
Lemma add_clusters_gap x : forall row ws acc, length row = length ws -> In None row -> add_clusters row ws x acc = Raise PyTypeError.
Proof. induction row as [|[g|] row IH]; intros [|v ws] acc L H; try discriminate; try (destruct H; fail); cbn [add_clusters]; [|reflexivity]. destruct H as [H|H]; [discriminate|]. apply IH; [cbn in L; lia|exact H]. Qed.
Section Pdf.
Context (di K : nat) (ys : list cell) (ls ms : list Z) (zs : list cell) (f : nat -> nat -> Qc -> Qc).
Hypothesis Lm : length ms = length zs.
Lemma marginal_lemma r i x : updated r = Some (the_measure di ys zs ls ms K f) -> i < di -> (forall j, j < K -> members (combine ys ls) j <> []) -> marginal_pdf r i x = Ok (mixture ms K (f i) x).
Proof.
  intros E I N. unfold marginal_pdf. rewrite E. cbn [the_measure marginals shares]. rewrite nth_error_map, nth_error_seq. destruct (Nat.ltb_spec i di) as [_|X]; [|lia]. cbn [option_map Nat.add].
  assert (R : marginal_row ys ls K f i = map (fun j => Some (f i j)) (seq 0 K)).
  { apply map_ext_in. intros j Hj. apply in_seq in Hj. destruct (Nat.eqb_spec (length (members (combine ys ls) j)) 0) as [Z|_]; [|reflexivity]. apply length_zero_iff_nil in Z. exfalso. apply (N j); [lia|exact Z]. }
  rewrite R, add_clusters_lemma. f_equal. unfold mixture. rewrite Qcplus_0_l. f_equal. apply map_ext. intros j. unfold share. rewrite pointer_length, Lm. reflexivity.
Qed.
Lemma gap_lemma r i x j : updated r = Some (the_measure di ys zs ls ms K f) -> i < di -> j < K -> members (combine ys ls) j = [] -> marginal_pdf r i x = Raise PyTypeError.
Proof.
  intros E I J N. unfold marginal_pdf. rewrite E. cbn [the_measure marginals shares]. rewrite nth_error_map, nth_error_seq. destruct (Nat.ltb_spec i di) as [_|X]; [|lia]. cbn [option_map Nat.add].
  apply add_clusters_gap; [unfold marginal_row; rewrite !map_length; reflexivity|]. apply in_map_iff. exists j. rewrite N. split; [reflexivity|apply in_seq; lia].
Qed.
Lemma multiply_lemma r : updated r = Some (the_measure di ys zs ls ms K f) -> (forall j, j < K -> members (combine ys ls) j <> []) -> forall x i acc, i + length x <= di ->
  multiply r i x acc = Ok (acc * qprod (map (fun e => mixture ms K (f (fst e)) (snd e)) (combine (seq i (length x)) x)))%Qc.
Proof.
  intros E N. induction x as [|y x IH]; intros i acc L; cbn [multiply length seq combine map qprod fold_right fst snd] in *; [f_equal; ring|].
  rewrite (marginal_lemma r i y E) by (assumption || lia). cbn [bind]. rewrite IH by lia. f_equal. unfold qprod. ring.
Qed.
End Pdf.
Lemma kde_lemma gkde gkde1 P di o oo xs ys zs lo mo w ls ms p q K f d : 0 < P -> matching di xs ys lo zs mo w -> used_labels (length ys) (length zs) lo mo = (ls, ms) ->
  stores P d di xs o ys lo oo zs mo -> weights_init (r_out d) = w -> estimated gkde ys ls w zs ms p q -> clusters ls K -> estimated_inputs gkde1 di xs ys ls p q f ->
  exists d', invert_to_kde gkde gkde1 P d = Ok d' /\ sample_weights (r_in d') = Some (map (weight p q) (combine ys ls)) /\ updated (r_in d') = Some (the_measure di ys zs ls ms K f) /\
    stores P d' di xs o ys (Some ls) oo zs (Some ms) /\ weights_init (r_out d') = w.
Proof.
  intros HP M U St W Es HK Ef. destruct (prepare P di o oo xs ys zs lo mo w ls ms d HP M U St W) as (d1 & d2 & E1 & E2 & Q & SR).
  destruct (kde_from gkde gkde1 P di o oo xs ys zs lo mo w p q HP M ls ms U Es K HK f Ef d1 d2 d E1 E2 Q) as (d3 & Q3 & _ & ->).
  eexists. split; [reflexivity|]. split; [reflexivity|]. split; [reflexivity|]. split; [exact (prepared_stores _ _ _ _ _ _ _ _ _ _ _ Q3)|apply Q3].
Qed.
Lemma pdf_lemma gkde gkde1 P di o oo xs ys zs lo mo w ls ms p q K f d : 0 < P -> matching di xs ys lo zs mo w -> used_labels (length ys) (length zs) lo mo = (ls, ms) ->
  stores P d di xs o ys lo oo zs mo -> weights_init (r_out d) = w -> estimated gkde ys ls w zs ms p q -> clusters ls K -> estimated_inputs gkde1 di xs ys ls p q f ->
  (forall j, j < K -> members (combine ys ls) j <> []) ->
  exists d', invert_to_kde gkde gkde1 P d = Ok d' /\ sample_weights (r_in d') = Some (map (weight p q) (combine ys ls)) /\
    (forall i x, i < di -> marginal_pdf (r_in d') i x = Ok (mixture ms K (f i) x)) /\
    (forall x, length x = di -> pdf (r_in d') x = Ok (product ms K f x)) /\ (forall x, length x <> di -> pdf (r_in d') x = Raise DimNotMatching).
Proof.
  intros HP M U St W Es HK Ef N. destruct (kde_lemma gkde gkde1 P di o oo xs ys zs lo mo w ls ms p q K f d HP M U St W Es HK Ef) as (d' & E & SW & UP & St' & _). exists d'. split; [exact E|]. split; [exact SW|].
  assert (Lm : length ms = length zs) by apply (used_lengths _ _ _ _ _ _ _ _ _ M U). assert (D : dim (arrays (r_in d')) = di) by apply St'.
  split; [intros i x I; exact (marginal_lemma di K ys ls ms zs f Lm _ i x UP I N)|]. split; intros x L; unfold pdf; rewrite D.
  - rewrite (proj2 (Nat.eqb_eq _ _) L). rewrite (multiply_lemma di K ys ls ms zs f Lm _ UP N) by lia. unfold product. f_equal. ring.
  - rewrite (proj2 (Nat.eqb_neq _ _) L). reflexivity.
Qed.
Lemma pdf_gap_lemma gkde gkde1 P di o oo xs ys zs lo mo w ls ms p q K f d j : 0 < P -> matching di xs ys lo zs mo w -> used_labels (length ys) (length zs) lo mo = (ls, ms) ->
  stores P d di xs o ys lo oo zs mo -> weights_init (r_out d) = w -> estimated gkde ys ls w zs ms p q -> clusters ls K -> estimated_inputs gkde1 di xs ys ls p q f ->
  j < K -> members (combine ys ls) j = [] -> exists d', invert_to_kde gkde gkde1 P d = Ok d' /\ forall i x, i < di -> marginal_pdf (r_in d') i x = Raise PyTypeError.
Proof.
  intros HP M U St W Es HK Ef J N. destruct (kde_lemma gkde gkde1 P di o oo xs ys zs lo mo w ls ms p q K f d HP M U St W Es HK Ef) as (d' & E & SW & UP & St' & _). exists d'. split; [exact E|].
  intros i x I. exact (gap_lemma di K ys ls ms zs f (proj2 (used_lengths _ _ _ _ _ _ _ _ _ M U)) _ i x j UP I J N).
Qed.
Lemma same_lemma gkde gkde1 P P' di o oo xs ys zs lo mo w ls ms p q K f d d' : 0 < P -> 0 < P' -> matching di xs ys lo zs mo w -> used_labels (length ys) (length zs) lo mo = (ls, ms) ->
  stores P d di xs o ys lo oo zs mo -> stores P' d' di xs o ys lo oo zs mo -> weights_init (r_out d) = w -> weights_init (r_out d') = w ->
  estimated gkde ys ls w zs ms p q -> clusters ls K -> estimated_inputs gkde1 di xs ys ls p q f ->
  exists ws m, leaves (invert_to_kde gkde gkde1 P d) ws m /\ leaves (invert_to_kde gkde gkde1 P' d') ws m.
Proof.
  intros HP HP' M U St St' W W' Es HK Ef. destruct (kde_lemma gkde gkde1 P di o oo xs ys zs lo mo w ls ms p q K f d HP M U St W Es HK Ef) as (e & E & SW & UP & _).
  destruct (kde_lemma gkde gkde1 P' di o oo xs ys zs lo mo w ls ms p q K f d' HP' M U St' W' Es HK Ef) as (e' & E' & SW' & UP' & _). eexists _, _. split; [exists e|exists e']; split; eauto.
Qed.
Lemma again_lemma gkde gkde1 P di o oo xs ys zs lo mo w ls ms p q K f d : 0 < P -> matching di xs ys lo zs mo w -> used_labels (length ys) (length zs) lo mo = (ls, ms) ->
  stores P d di xs o ys lo oo zs mo -> weights_init (r_out d) = w -> estimated gkde ys ls w zs ms p q -> clusters ls K -> estimated_inputs gkde1 di xs ys ls p q f ->
  exists d' ws m, invert_to_kde gkde gkde1 P d = Ok d' /\ leaves (invert_to_kde gkde gkde1 P d) ws m /\ leaves (invert_to_kde gkde gkde1 P d') ws m.
Proof.
  intros HP M U St W Es HK Ef. destruct (kde_lemma gkde gkde1 P di o oo xs ys zs lo mo w ls ms p q K f d HP M U St W Es HK Ef) as (e & E & SW & UP & St' & W').
  destruct (used_lengths _ _ _ _ _ _ _ _ _ M U) as (L1 & L2). assert (M' : matching di xs ys (Some ls) zs (Some ms) w).
  { destruct M as (A & B & C & _ & _ & F). split; [exact A|]. split; [exact B|]. split; [exact C|]. split; [intros l [= <-]; exact L1|]. split; [intros l [= <-]; exact L2|exact F]. }
  destruct (kde_lemma gkde gkde1 P di o oo xs ys zs (Some ls) (Some ms) w ls ms p q K f e HP M' eq_refl St' W' Es HK Ef) as (e' & E' & SW' & UP' & _).
  eexists e, _, _. split; [exact E|]. split; [exists e|exists e']; split; eauto.
Qed.

(** Renumbering *)
Lemma members_perm {A} (l l' : list (A * Z)) j : Permutation l l' -> Permutation (members l j) (members l' j).
Proof. intros H. unfold members. apply Permutation_map. induction H; cbn [filter]; repeat (match goal with |- context [if ?b then _ else _] => destruct b end); try (constructor; assumption); try apply Permutation_refl; try assumption; try apply perm_swap. eapply Permutation_trans; eassumption. Qed.
Lemma combine_fst {A B C} (xs : list A) (ys : list B) (ls : list C) : length xs = length ys -> length ls = length ys ->
  combine ys ls = map (fun e => (snd (fst e), snd e)) (combine (combine xs ys) ls) /\ combine xs ls = map (fun e => (fst (fst e), snd e)) (combine (combine xs ys) ls) /\ ls = map snd (combine (combine xs ys) ls).
Proof.
  revert ys ls. induction xs as [|x xs IH]; intros [|y ys] [|l ls] E F; try discriminate; [repeat split|]. cbn [combine map fst snd]. destruct (IH ys ls) as (I1 & I2 & I3); [cbn in *; lia|cbn in *; lia|].
  rewrite <- I1, <- I2, <- I3. repeat split.
Qed.
Lemma members_pairs {A B} (L : list (A * B * Z)) j : members (map (fun e => (snd (fst e), snd e)) L) j = map snd (members L j) /\ members (map (fun e => (fst (fst e), snd e)) L) j = map fst (members L j).
Proof. unfold members. induction L as [|((x & y) & l) L (I1 & I2)]; [split; reflexivity|]. cbn [map filter fst snd]. destruct (Z.eqb l (Z.of_nat j)); cbn [map fst snd]; split; congruence. Qed.
Definition made {A} (r : result (A -> Qc)) : A -> Qc := match r with Ok f => f | Raise _ => fun _ => 0%Qc end.
Lemma alike_made {A} (r r' : result (A -> Qc)) f : r = Ok f -> alike r r' -> r' = Ok (made r') /\ forall x, f x = made r' x.
Proof. intros -> H. destruct r' as [g|]; [split; [reflexivity|exact H]|destruct H]. Qed.
Lemma add_clusters_ext (c : nat -> bool) (g g' : nat -> Qc -> Qc) (s : nat -> Qc) x : forall js acc, (forall j, In j js -> c j = false -> g j x = g' j x) ->
  add_clusters (map (fun j => if c j then None else Some (g j)) js) (map s js) x acc = add_clusters (map (fun j => if c j then None else Some (g' j)) js) (map s js) x acc.
Proof.
  induction js as [|j js IH]; intros acc H; [reflexivity|]. cbn [map add_clusters]. pose proof (H j (or_introl eq_refl)) as Hj. destruct (c j); [reflexivity|]. rewrite (Hj eq_refl). apply IH. intros k Hk. apply H. right. exact Hk.
Qed.
Lemma measure_alike di K ys ys' ls ls' ms zs f f' r r' : updated r = Some (the_measure di ys zs ls ms K f) -> updated r' = Some (the_measure di ys' zs ls' ms K f') ->
  (forall j, length (members (combine ys ls) j) = length (members (combine ys' ls') j)) -> (forall i j x, i < di -> members (combine ys ls) j <> [] -> f i j x = f' i j x) ->
  forall i x, marginal_pdf r i x = marginal_pdf r' i x.
Proof.
  intros U U' L F i x. unfold marginal_pdf. rewrite U, U'. cbn [the_measure marginals shares]. rewrite !nth_error_map, !nth_error_seq. destruct (Nat.ltb_spec i di) as [I|_]; [|reflexivity]. cbn [option_map Nat.add].
  unfold marginal_row. rewrite (map_ext (fun j => if length (members (combine ys' ls') j) =? 0 then None else Some (f' i j)) (fun j => if length (members (combine ys ls) j) =? 0 then None else Some (f' i j))) by (intros j; rewrite L; reflexivity).
  apply (add_clusters_ext (fun j => length (members (combine ys ls) j) =? 0) (f i) (f' i)). intros j _ N. apply F; [exact I|]. intros X. rewrite X in N. discriminate.
Qed.
Lemma multiply_ext r r' : (forall i x, marginal_pdf r i x = marginal_pdf r' i x) -> forall x i acc, multiply r i x acc = multiply r' i x acc.
Proof. intros H. induction x as [|y x IH]; intros i acc; [reflexivity|]. cbn [multiply]. rewrite H. destruct (marginal_pdf r' i y); [|reflexivity]. cbn [bind]. apply IH. Qed.
Lemma renumber_lemma gkde gkde1 P di o oo xs xs' ys ys' zs lo lo' mo ls ls' ms p q K f d d' : 0 < P -> order_free gkde -> order_free1 gkde1 ->
  matching di xs ys lo zs mo None -> matching di xs' ys' lo' zs mo None -> used_labels (length ys) (length zs) lo mo = (ls, ms) -> used_labels (length ys') (length zs) lo' mo = (ls', ms) ->
  Permutation (combine (combine xs ys) ls) (combine (combine xs' ys') ls') ->
  stores P d di xs o ys lo oo zs mo -> stores P d' di xs' o ys' lo' oo zs mo -> weights_init (r_out d) = None -> weights_init (r_out d') = None ->
  estimated gkde ys ls None zs ms p q -> clusters ls K -> estimated_inputs gkde1 di xs ys ls p q f ->
  exists e e' ws ws', invert_to_kde gkde gkde1 P d = Ok e /\ invert_to_kde gkde gkde1 P d' = Ok e' /\ sample_weights (r_in e) = Some ws /\ sample_weights (r_in e') = Some ws' /\
    Permutation (combine (combine xs ys) ws) (combine (combine xs' ys') ws') /\
    (forall i x, marginal_pdf (r_in e) i x = marginal_pdf (r_in e') i x) /\ (forall x, pdf (r_in e) x = pdf (r_in e') x).
Proof.
  intros HP OF OF1 M M' U U' PE St St' W W' Es HK Ef. destruct (used_lengths _ _ _ _ _ _ _ _ _ M U) as (L1 & L2). destruct (used_lengths _ _ _ _ _ _ _ _ _ M' U') as (L1' & _).
  pose proof M as (NE & LX & DX & M4 & M5 & M6). pose proof M' as (NE' & LX' & DX' & M4' & M5' & M6').
  set (L := combine (combine xs ys) ls) in *. set (L' := combine (combine xs' ys') ls') in *.
  destruct (combine_fst xs ys ls LX L1) as (C1 & C2 & C3). destruct (combine_fst xs' ys' ls' LX' L1') as (C1' & C2' & C3'). fold L in C1, C2, C3. fold L' in C1', C2', C3'.
  assert (PL : Permutation ls ls') by (rewrite C3, C3'; apply Permutation_map; exact PE).
  assert (PY : Permutation (combine ys ls) (combine ys' ls')) by (rewrite C1, C1'; apply Permutation_map; exact PE).
  assert (PM : forall j, Permutation (members (combine ys ls) j) (members (combine ys' ls') j)) by (intros j; apply members_perm, PY).
  assert (HK' : clusters ls' K).
  { destruct HK as (A & B). split; [intros l Hl; apply A; eapply Permutation_in; [apply Permutation_sym, PL|exact Hl]|]. destruct B as [B|B]; [left; exact B|right; eapply Permutation_in; eassumption]. }
  set (p' := fun j => made (gkde (members (combine ys' ls') j) None)).
  assert (Hp : forall j, 2 <= length (members (combine ys ls) j) -> gkde (members (combine ys' ls') j) None = Ok (p' j) /\ forall y, p j y = p' j y).
  { intros j Hj. apply (alike_made _ _ _ (proj1 Es j Hj)). cbn [option_map]. apply OF, PM. }
  assert (Two : forall j, members (combine ys ls) j <> [] -> 2 <= length (members (combine ys ls) j)).
  { intros j Hj. pose proof (proj1 (proj2 (proj2 Es) _ (members_in ys ls j L1 Hj) ltac:(lia))) as B. rewrite Nat2Z.id in B. exact B. }
  assert (Es' : estimated gkde ys' ls' None zs ms p' q).
  { destruct Es as (A & B & C). split; [|split; [exact B|]].
    - intros j Hj. cbn [option_map]. apply Hp. rewrite (Permutation_length (PM j)). exact Hj.
    - intros l Hl N. rewrite <- (Permutation_length (PM _)). apply C; [eapply Permutation_in; [apply Permutation_sym, PL|exact Hl]|exact N]. }
  assert (Hr : forall j y, members (combine ys ls) j <> [] -> ratio p' q j y = ratio p q j y) by (intros j y N; unfold ratio; rewrite (proj2 (Hp j (Two j N))); reflexivity).
  assert (N' : forall j, members (combine ys' ls') j <> [] -> members (combine ys ls) j <> []) by (intros j N X; apply N; pose proof (PM j) as Q; rewrite X in Q; apply Permutation_nil; exact Q).
  set (f' := fun i j => made (gkde1 (map (axis i) (members (combine xs' ls') j)) (map (ratio p' q j) (members (combine ys' ls') j)))).
  assert (Hf : forall i j, i < di -> members (combine ys ls) j <> [] -> gkde1 (map (axis i) (members (combine xs' ls') j)) (map (ratio p' q j) (members (combine ys' ls') j)) = Ok (f' i j) /\ forall x, f i j x = f' i j x).
  { intros i j I N. apply (alike_made _ _ _ (Ef i j I N)). rewrite (map_ext _ _ (fun y => Hr j y N)). rewrite C1', C2', C1, C2, !(proj1 (members_pairs _ j)), !(proj2 (members_pairs _ j)).
    pose proof (OF1 (map (fun e => (axis i (fst e), ratio p q j (snd e))) (members L j)) (map (fun e => (axis i (fst e), ratio p q j (snd e))) (members L' j)) (Permutation_map _ (members_perm L L' j PE))) as Q.
    rewrite !map_map in Q. cbn [fst snd] in Q. rewrite !map_map. exact Q. }
  assert (Ef' : estimated_inputs gkde1 di xs' ys' ls' p' q f') by (intros i j I N; apply Hf; [exact I|apply N', N]).
  destruct (kde_lemma gkde gkde1 P di o oo xs ys zs lo mo None ls ms p q K f d HP M U St W Es HK Ef) as (e & E & SW & UP & S1 & _).
  destruct (kde_lemma gkde gkde1 P di o oo xs' ys' zs lo' mo None ls' ms p' q K f' d' HP M' U' St' W' Es' HK' Ef') as (e' & E' & SW' & UP' & S1' & _).
  exists e, e'. eexists _, _. split; [exact E|]. split; [exact E'|]. split; [exact SW|]. split; [exact SW'|].
  assert (MA : forall i x, marginal_pdf (r_in e) i x = marginal_pdf (r_in e') i x).
  { apply (measure_alike di K ys ys' ls ls' ms zs f f' _ _ UP UP'); [intros j; apply Permutation_length, PM|]. intros i j x I N. apply (Hf i j I N). }
  split; [|split; [exact MA|]].
  - assert (WW : map (weight p' q) (combine ys' ls') = map (weight p q) (combine ys' ls')).
    { apply map_ext_in. intros (y & l) Hy. unfold weight. cbn [fst snd]. destruct (Z.ltb_spec l 0) as [_|G]; [reflexivity|]. apply Hr. apply N', (in_members ys' ls' _ L1'). apply in_combine_r in Hy. rewrite Z2Nat.id by lia. exact Hy. }
    rewrite WW. assert (CW : forall (a : list (list Qc)) b c, length a = length b -> length c = length b -> combine (combine a b) (map (weight p q) (combine b c)) = map (fun e => (fst e, weight p q (snd (fst e), snd e))) (combine (combine a b) c)).
    { clear. intros a. induction a as [|x a IH]; intros [|y b] [|l c] A B; try discriminate; [reflexivity|]. cbn [combine map fst snd]. rewrite IH by (cbn in *; lia). reflexivity. }
    rewrite (CW xs ys ls LX L1), (CW xs' ys' ls' LX' L1'). apply Permutation_map. exact PE.
  - intros x. unfold pdf. rewrite (proj1 (proj1 S1)), (proj1 (proj1 S1')). destruct (length x =? di); [|reflexivity]. apply multiply_ext. exact MA.
Qed.

(** Initial weights of the input set *)
Lemma input_weights_global w d : all_global (with_input_weights w d) = rmap (with_input_weights w) (all_global d).
Proof. unfold all_global, with_input_weights. cbn [r_in r_out r_obs arrays]. destruct (local_to_global (arrays (r_in d))); [|reflexivity]. cbn [bind]. destruct (local_to_global (arrays (r_out d))); reflexivity. Qed.
Lemma input_weights_regions P w d : ensure_regions P (with_input_weights w d) = rmap (with_input_weights w) (ensure_regions P d).
Proof.
  unfold ensure_regions, with_input_weights. cbn [r_in r_out r_obs]. destruct (glob (arrays (r_out d)) Region); [destruct (glob (arrays (r_obs d)) Region)|]; try reflexivity;
  (destruct (check_num P (arrays (r_out d))); [|reflexivity]; cbn [bind]; destruct (check_num P (arrays (r_obs d))); reflexivity).
Qed.
Lemma input_weights_generate gkde P w d : generate_output_kdes gkde P (with_input_weights w d) = rmap (fun g => mk_gen (with_input_weights w (g_disc g)) (g_predict g) (g_obs g) (g_num g) (g_regions g) (g_oregions g)) (generate_output_kdes gkde P d).
Proof.
  unfold generate_output_kdes. rewrite input_weights_global. destruct (all_global d) as [d1|]; [|reflexivity]. cbn [rmap bind]. rewrite input_weights_regions. destruct (ensure_regions P d1) as [d2|]; [|reflexivity]. cbn [rmap bind with_input_weights r_out r_obs].
  destruct (region_of (r_out d2)); [|reflexivity]. cbn [bind]. destruct (region_of (r_obs d2)); [|reflexivity]. cbn [bind]. destruct (num_clusters _ _); [|reflexivity]. cbn [bind]. destruct (kdes _ _ _ _ _ _); reflexivity.
Qed.
Lemma invert_clusters_disc out g d' is : forall st, invert_clusters out (mk_gen d' (g_predict g) (g_obs g) (g_num g) (g_regions g) (g_oregions g)) is st = invert_clusters out g is st.
Proof.
  induction is as [|i is IH]; intros st; [reflexivity|]. cbn [invert_clusters g_regions g_obs g_predict]. destruct (maps out) as [m|].
  - destruct (nth_error m i); [|reflexivity]. cbn [bind]. destruct (0 <? _); [|apply IH]. destruct (nth_error (g_obs g) i) as [[]|]; try reflexivity. destruct (nth_error (g_predict g) i) as [[]|]; try reflexivity. destruct (scatter _ _ _); [apply IH|reflexivity].
  - destruct (subscript _); [|reflexivity]. cbn [bind]. destruct (take _ _); [|reflexivity]. cbn [bind]. destruct (0 <? _); [|apply IH]. destruct (nth_error (g_obs g) i) as [[]|]; try reflexivity. destruct (nth_error (g_predict g) i) as [[]|]; try reflexivity. destruct (scatter _ _ _); [apply IH|reflexivity].
Qed.
Lemma input_weights_lemma gkde P w d : invert_disc gkde P (with_input_weights w d) = rmap (fun r => (with_input_weights w (fst r), snd r)) (invert_disc gkde P d).
Proof.
  unfold invert_disc. rewrite input_weights_generate. destruct (generate_output_kdes gkde P d) as [g|]; [|reflexivity]. cbn [rmap bind g_disc with_input_weights r_out g_num].
  destruct (check_num P (arrays (r_out (g_disc g)))); [|reflexivity]. cbn [bind]. rewrite invert_clusters_disc. destruct (invert_clusters _ _ _ _); reflexivity.
Qed.

(** Observations that are only distributed *)
Lemma list_sum_nth {A} (bs : list (list A)) : list_sum (map (fun r => length (nth r bs [])) (seq 0 (length bs))) = length (concat bs).
Proof. induction bs as [|b bs IH]; [reflexivity|]. cbn [length seq map list_sum fold_right concat nth]. rewrite app_length, <- IH. rewrite <- seq_shift, map_map. reflexivity. Qed.
Lemma distributed_count P s d xs : 0 < P -> distributed P s d xs -> check_num P s = Ok (length xs).
Proof.
  intros HP (D & G & L). rewrite (check_num_locals_only P s (fun r => length (nth r (array_split xs P) []))).
  - f_equal. pose proof (list_sum_nth (array_split xs P)) as Q. rewrite (array_split_length xs P HP), (array_split_concat xs P HP) in Q. exact Q.
  - exact G.
  - intros r Hr. assert (N : nth_error (array_split xs P) r = Some (nth r (array_split xs P) [])) by (apply nth_error_nth'; rewrite array_split_length; assumption). split.
    + exists Values, (split_arr P (mk_arr xs [d])), (mk_arr (nth r (array_split xs P) []) [d]). split; [apply L|]. unfold split_arr. rewrite nth_error_map. cbn [rows tail_shape]. rewrite N. reflexivity.
    + intros a bs b La B. rewrite L in La. destruct a; try discriminate. injection La as <-. unfold split_arr in B. rewrite nth_error_map in B. cbn [rows tail_shape] in B. rewrite N in B. injection B as <-. reflexivity.
Qed.
Lemma zero_members {A} (l : list A) : members (combine l (repeat 0%Z (length l))) 0 = l.
Proof. unfold members. induction l as [|x l IH]; [reflexivity|]. cbn [length repeat combine filter snd]. change (Z.eqb 0 (Z.of_nat 0)) with true. cbn [map fst]. rewrite IH. reflexivity. Qed.
Lemma zero_clusters n : 0 < n -> num_clusters (V := cell) None (repeat 0%Z n) = Ok 1.
Proof.
  intros H. assert (N : repeat 0%Z n <> []) by (destruct n; [lia|discriminate]). destruct (num_clusters_spec (V := cell) _ N) as (c & -> & C). f_equal. apply (clusters_unique _ c 1 N C). split.
  - intros l Hl. apply repeat_spec in Hl. lia.
  - right. destruct n; [lia|left; reflexivity].
Qed.
Lemma local_observations_lemma gkde P di o oo xs ys zs lo w p d : 0 < P -> keeps P (arrays (r_in d)) di (map point_row xs) None -> keeps P (arrays (r_out d)) o ys lo ->
  distributed P (arrays (r_obs d)) oo zs -> matching di xs ys lo zs None w ->
  maps (r_out d) = None -> maps (r_obs d) = None -> weights_init (r_out d) = w -> 2 <= length ys -> 2 <= length zs ->
  gkde ys (option_map (map Fin) w) = Ok p -> invert_disc gkde P d = Raise PyTypeError.
Proof.
  intros HP KI KO DO M MO MB W Ly Lz Ep. destruct (keeps_gather P _ _ _ _ HP KI) as (si & Ei & KI' & GI & _). destruct (keeps_gather P _ _ _ _ HP KO) as (so & Eo & KO' & GO & LO).
  pose proof M as (_ & _ & _ & Ml & _ & Mw). pose proof (distributed_count P _ _ _ HP DO) as CB. destruct DO as (_ & GB & _).
  unfold invert_disc, generate_output_kdes, all_global. rewrite Ei. cbn [bind]. rewrite Eo. cbn [bind]. unfold ensure_regions. cbn [r_out r_obs r_in with_arrays arrays]. rewrite GB.
  rewrite (global_count P so o ys lo (proj1 KO') GO Ml). cbn [bind]. rewrite CB. cbn [bind].
  set (d2 := mk_rdisc _ _ _). assert (E2 : (match glob so Region with Some _ => Ok d2 | None => Ok d2 end) = Ok d2) by (destruct (glob so Region); reflexivity). rewrite E2. clear E2. cbn [bind].
  unfold region_of. cbn [d2 r_out r_obs with_arrays arrays set_glob glob]. rewrite !upd_same. cbn [subscript bind]. rewrite !zero_region_lemma. cbn [rows]. rewrite !labels_lemma. cbn [bind with_arrays maps]. rewrite MO, zero_clusters by lia. cbn [bind seq kdes].
  assert (LZ : length (pointer (repeat 0%Z (length ys)) 0) = length ys) by (rewrite <- (members_length ys) by apply repeat_length; rewrite zero_members; reflexivity).
  assert (LZ' : length (pointer (repeat 0%Z (length zs)) 0) = length zs) by (rewrite <- (members_length zs) by apply repeat_length; rewrite zero_members; reflexivity).
  unfold cluster_kde. cbn [with_arrays maps arrays weights_init set_glob glob]. rewrite MO, MB, W, LZ, LZ'. destruct (Nat.ltb_spec 1 (length ys)) as [_|X]; [|lia]. destruct (Nat.ltb_spec 1 (length zs)) as [_|X]; [|lia].
  rewrite (kde_weights_lemma ys) by (apply repeat_length || exact Mw). cbn [bind]. rewrite !upd_other by discriminate. rewrite GO, GB. cbn [content subscript bind rows]. unfold take. rewrite take_members by apply repeat_length. cbn [bind]. rewrite zero_members.
  assert (WZ : option_map (fun v => map Fin (members (combine v (repeat 0%Z (length ys))) 0)) w = option_map (map Fin) w).
  { destruct w as [v|]; [|reflexivity]. cbn [option_map]. rewrite <- (Mw v eq_refl), zero_members. reflexivity. }
  rewrite WZ, Ep. reflexivity.
Qed.
