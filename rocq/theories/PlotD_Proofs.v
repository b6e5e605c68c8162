(** Proofs on plot_1d_marginal_densities. *)
From Coq Require Import String Ascii List Arith Bool QArith Qcanon Lia.
From Verif Require Import Err Num Ext NumPy Lists Sampling_Model Sampling_Proofs ChooseQoIs_Model PlotDomains_Model PlotDomains_Spec PlotDomains_Proofs Strings PlotP_Model PlotP_Spec PlotP_Proofs.
Import ListNotations.
Local Open Scope nat_scope.

Lemma linspace_grid a b n : is_grid a b n (linspace a b n).
Proof.
  split; [unfold linspace; rewrite map_length, seq_length; reflexivity|]. intros k K. apply linspace_nth. exact K.
Qed.

(** ** Ranges *)
Lemma fold_min_spec {A} (key : A -> Qc) l x : let m := fold_left (fun a b => if qltb (key b) a then key b else a) l x in
  (m <= x)%Qc /\ (forall y, In y l -> (m <= key y)%Qc) /\ (m = x \/ exists y, In y l /\ m = key y).
Proof.
  revert x. induction l as [|y l IH]; intros x m; cbn [fold_left] in m.
  - split; [apply Qcle_refl|]. split; [intros ? []|left; reflexivity].
  - specialize (IH (if qltb (key y) x then key y else x)). cbv zeta in IH. fold m in IH. destruct IH as (A1 & A2 & A3).
    assert (L : ((if qltb (key y) x then key y else x) <= x)%Qc /\ ((if qltb (key y) x then key y else x) <= key y)%Qc).
    { destruct (qltb (key y) x) eqn:E; [apply qltb_true in E; split; qc_lra|apply qltb_false in E; split; qc_lra]. }
    destruct L as [L1 L2]. split; [exact (Qcle_trans _ _ _ A1 L1)|]. split.
    + intros z [<-|Hz]; [exact (Qcle_trans _ _ _ A1 L2)|apply A2; exact Hz].
    + destruct A3 as [A3|(z & Hz & A3)]; [|right; exists z; split; [right; exact Hz|exact A3]].
      rewrite A3. destruct (qltb (key y) x); [right; exists y; split; [left; reflexivity|reflexivity]|left; reflexivity].
Qed.
Lemma fold_max_spec {A} (key : A -> Qc) l x : let m := fold_left (fun a b => if qltb a (key b) then key b else a) l x in
  (x <= m)%Qc /\ (forall y, In y l -> (key y <= m)%Qc) /\ (m = x \/ exists y, In y l /\ m = key y).
Proof.
  revert x. induction l as [|y l IH]; intros x m; cbn [fold_left] in m.
  - split; [apply Qcle_refl|]. split; [intros ? []|left; reflexivity].
  - specialize (IH (if qltb x (key y) then key y else x)). cbv zeta in IH. fold m in IH. destruct IH as (A1 & A2 & A3).
    assert (L : (x <= (if qltb x (key y) then key y else x))%Qc /\ (key y <= (if qltb x (key y) then key y else x))%Qc).
    { destruct (qltb x (key y)) eqn:E; [apply qltb_true in E; split; qc_lra|apply qltb_false in E; split; qc_lra]. }
    destruct L as [L1 L2]. split; [exact (Qcle_trans _ _ _ L1 A1)|]. split.
    + intros z [<-|Hz]; [exact (Qcle_trans _ _ _ L2 A1)|apply A2; exact Hz].
    + destruct A3 as [A3|(z & Hz & A3)]; [|right; exists z; split; [right; exact Hz|exact A3]].
      rewrite A3. destruct (qltb x (key y)); [right; exists y; split; [left; reflexivity|reflexivity]|left; reflexivity].
Qed.
Lemma columns_one rows i : (forall row, In row rows -> i < length row) -> exists v, columns rows [i] = Some v /\ length (concat v) = length rows /\
  (forall x, In x (concat v) <-> exists row, In row rows /\ nth_error row i = Some x).
Proof.
  induction rows as [|r rows IH]; intros H; cbn [columns].
  - exists []. split; [reflexivity|]. split; [reflexivity|]. intros x. split; [intros []|intros (? & [] & _)].
  - destruct (index_ok r i (H r (or_introl eq_refl))) as [y Ey]. destruct IH as (v & Ev & Lv & Sv); [intros; apply H; right; assumption|].
    assert (T : take_idx r [i] = Some [y]) by (cbn [take_idx]; rewrite Ey; reflexivity). rewrite T, Ev. exists ([y] :: v).
    split; [reflexivity|]. split; [cbn [concat app length]; rewrite Lv; reflexivity|]. intros x. cbn [concat app In]. rewrite Sv. split.
    + intros [<-|(row & R1 & R2)]; [exists r; auto|exists row; auto].
    + intros (row & [<-|R1] & R2); [left; congruence|right; exists row; auto].
Qed.
Lemma column_range_lemma i s : d_values s <> [] -> (forall row, In row (d_values s) -> i < length row) ->
  exists r, column_range i (Some s) = Ok r /\ least_value [s] i (fst r) /\ greatest_value [s] i (snd r).
Proof.
  intros N H. unfold column_range. cbn [attr bind]. destruct (columns_one _ i H) as (v & Ev & Lv & Sv).
  destruct (d_values s) as [|r0 rs] eqn:Ed; [congruence|]. rewrite Ev. cbn [index bind].
  destruct (concat v) as [|x l] eqn:Ec; [cbn [length] in Lv; discriminate|].
  assert (V : forall y, value_of [s] i y <-> In y (x :: l)).
  { intros y. rewrite Sv. split.
    - intros (s' & row & [<-|[]] & B & C). rewrite Ed in B. exists row. auto.
    - intros (row & A & B). exists s, row. rewrite Ed. split; [left; reflexivity|auto]. }
  eexists. split; [reflexivity|]. cbn [fst snd].
  pose proof (fold_min_spec (fun q : Qc => q) l x) as (A1 & A2 & A3). pose proof (fold_max_spec (fun q : Qc => q) l x) as (B1 & B2 & B3). cbv zeta in *. split; split.
  - apply V. destruct A3 as [A3|(y & Hy & A3)]; rewrite A3; [left; reflexivity|right; exact Hy].
  - intros w Hw. apply V in Hw. destruct Hw as [<-|Hw]; [exact A1|apply A2; exact Hw].
  - apply V. destruct B3 as [B3|(y & Hy & B3)]; rewrite B3; [left; reflexivity|right; exact Hy].
  - intros w Hw. apply V in Hw. destruct Hw as [<-|Hw]; [exact B1|apply B2; exact Hw].
Qed.
Lemma value_of_in sets i v : value_of sets i v <-> exists s, In s sets /\ value_of [s] i v.
Proof.
  split.
  - intros (s & row & A & B & C). exists s. split; [exact A|]. exists s, row. split; [left; reflexivity|auto].
  - intros (s & A & s' & row & [<-|[]] & B & C). exists s, row. auto.
Qed.
Lemma grid_lemma interval n sets i : sets <> [] -> (forall s, In s sets -> dset_ok interval i s) -> exists x, grid interval n (map Some sets) i = Ok x /\ points_of interval n sets i x.
Proof.
  intros N H. unfold grid. destruct interval as [[a b]|]; [eexists; split; [reflexivity|apply linspace_grid]|].
  assert (E : exists rs, each (column_range i) (map Some sets) = Ok rs /\ Forall2 (fun s r => least_value [s] i (fst r) /\ greatest_value [s] i (snd r)) sets rs).
  { assert (H' : forall s, In s sets -> dset_ok None i s) by exact H. clear N H. induction sets as [|s sets IH]; cbn [map each]; [eauto|].
    destruct (H' s (or_introl eq_refl)) as [_ D]. destruct (D eq_refl) as [D1 D2].
    destruct (column_range_lemma i s D1 D2) as (r & -> & Hr). cbn [bind]. destruct IH as (rs & -> & Hrs); [intros; apply H'; right; assumption|]. cbn [bind]. eauto. }
  destruct E as (rs & -> & F). cbn [bind]. destruct rs as [|r rest]; [inversion F; subst; congruence|].
  eexists. split; [reflexivity|]. cbn [points_of].
  pose proof (fold_min_spec (fun q : Qc * Qc => fst q) rest (fst r)) as (A1 & A2 & A3). pose proof (fold_max_spec (fun q : Qc * Qc => snd q) rest (snd r)) as (B1 & B2 & B3). cbv zeta in *.
  set (lo := fold_left _ rest (fst r)) in *. set (hi := fold_left _ rest (snd r)) in *. exists lo, hi.
  assert (LO : exists q, In q (r :: rest) /\ lo = fst q) by (destruct A3 as [A3|(q & Q1 & Q2)]; [exists r; split; [left; reflexivity|exact A3]|exists q; split; [right; exact Q1|exact Q2]]).
  assert (HI : exists q, In q (r :: rest) /\ hi = snd q) by (destruct B3 as [B3|(q & Q1 & Q2)]; [exists r; split; [left; reflexivity|exact B3]|exists q; split; [right; exact Q1|exact Q2]]).
  assert (LO2 : forall q, In q (r :: rest) -> (lo <= fst q)%Qc) by (intros q [<-|Q]; [exact A1|apply A2; exact Q]).
  assert (HI2 : forall q, In q (r :: rest) -> (snd q <= hi)%Qc) by (intros q [<-|Q]; [exact B1|apply B2; exact Q]).
  split; [|split].
  - split.
    + destruct LO as (q & Q & ->). destruct (forall2_in_r _ _ _ F q Q) as (s & Hs & (Vq & _) & _). apply value_of_in. exists s. auto.
    + intros w Hw. apply value_of_in in Hw. destruct Hw as (s & Hs & Hw). destruct (forall2_in_l _ _ _ F s Hs) as (q & Q & (_ & M) & _). exact (Qcle_trans _ _ _ (LO2 q Q) (M w Hw)).
  - split.
    + destruct HI as (q & Q & ->). destruct (forall2_in_r _ _ _ F q Q) as (s & Hs & _ & (Vq & _)). apply value_of_in. exists s. auto.
    + intros w Hw. apply value_of_in in Hw. destruct Hw as (s & Hs & Hw). destruct (forall2_in_l _ _ _ F s Hs) as (q & Q & _ & (_ & M)). exact (Qcle_trans _ _ _ (M w Hw) (HI2 q Q)).
  - assert (D : (Q2Qc (1 # 4) * (hi - lo) = (hi - lo) / qn 4)%Qc).
    { unfold Qcdiv. rewrite Qcmult_comm. f_equal. }
    rewrite D. apply linspace_grid.
Qed.
(** All samples lie between the first and the last point. *)
Lemma grid_covers_lemma num_points sets i x v : points_of None num_points sets i x -> value_of sets i v ->
  exists a b, nth_error x 0 = Some a /\ nth_error x 99 = Some b /\ length x = 100 /\ (a <= v)%Qc /\ (v <= b)%Qc.
Proof.
  intros (lo & hi & [L1 L2] & [G1 G2] & Lx & X) V. pose proof (L2 v V) as A. pose proof (G2 v V) as B. pose proof (L2 hi G1) as C.
  exists (lo - (hi - lo) / qn 4)%Qc, (hi + (hi - lo) / qn 4)%Qc. assert (Q : (0 <= (hi - lo) / qn 4)%Qc) by (apply qc_div_nonneg; [qc_lra|apply qn_pos; lia]).
  set (t := ((hi - lo) / qn 4)%Qc) in *. clearbody t.
  split; [rewrite X by lia; f_equal; rewrite qn_0; ring|]. split; [rewrite X by lia; f_equal; cbn [Nat.sub]; field; apply qn_neq0; lia|].
  split; [exact Lx|]. split; qc_lra.
Qed.

(** ** Labels *)
Lemma choose_lemma inputs args sets : Forall2 (stands_for inputs) args sets -> each (choose_set inputs) args = Ok (map Some sets).
Proof.
  induction 1 as [|a s args sets H _ IH]; [reflexivity|]. cbn [each map]. assert (E : choose_set inputs a = Ok (Some s)).
  { destruct H as [->|(i & o & -> & <-)]; reflexivity. }
  rewrite E. cbn [bind]. rewrite IH. reflexivity.
Qed.
Lemma choose_other_lemma inputs args : In DOther args -> each (choose_set inputs) args = Raise BadObject.
Proof.
  induction args as [|a args IH]; [intros []|]. intros [->|H]; cbn [each]; [reflexivity|]. rewrite IH by exact H. destruct a; reflexivity.
Qed.
Lemma x_label_lemma label sets i : sets <> [] -> (forall s, In s sets -> long_enough (d_labels s) i) -> exists l, x_label label (map Some sets) i = Ok l /\ axis_of label sets i l.
Proof.
  intros N H. unfold x_label, axis_of. destruct label as [t|]; [eauto|]. destruct sets as [|s sets]; [congruence|]. cbn [map nth_error index bind attr].
  specialize (H s (or_introl eq_refl)). destruct (d_labels s) as [ls|] eqn:E.
  - destruct (index_ok ls i (H ls eq_refl)) as [l El]. rewrite El. cbn [index]. exists l. split; [reflexivity|]. exists s. split; [reflexivity|]. rewrite E. exact El.
  - eexists. split; [reflexivity|]. exists s. split; [reflexivity|]. rewrite E. reflexivity.
Qed.
Lemma enum_nth {A} (l : list A) a k : nth_error (enum_from a l) k = option_map (fun x => (a + k, x)) (nth_error l k).
Proof. revert a k. induction l as [|x l IH]; intros a [|k]; cbn [enum_from nth_error option_map]; try reflexivity; [f_equal; f_equal; lia|]. rewrite IH. destruct (nth_error l k); cbn [option_map]; [f_equal; f_equal; lia|reflexivity]. Qed.
Lemma enum_length {A} (l : list A) a : length (enum_from a l) = length l.
Proof. revert a. induction l as [|x l IH]; intros a; [reflexivity|]. cbn [enum_from length]. rewrite IH. reflexivity. Qed.
Lemma enum_in {A} (l : list A) k x : In (k, x) (enum_from 0 l) -> nth_error l k = Some x.
Proof. intros H. apply In_nth_error in H. destruct H as [n H]. rewrite enum_nth in H. destruct (nth_error l n) eqn:E; [|discriminate]. cbn [option_map Nat.add] in H. injection H as <- <-. exact E. Qed.
Lemma legend_lemma given suffix extra sets i : (forall l, given = Some l -> length sets <= length l) -> (forall s, In s sets -> long_enough (d_labels s) i) ->
  exists r, legend given suffix extra (map Some sets) i = Ok r /\ forall k s, nth_error sets k = Some s -> exists l, nth_error r k = Some l /\
    forall l', legend_entry given suffix extra i k s l' <-> l' = l.
Proof.
  intros HG H. unfold legend, legend_entry. destruct given as [l|].
  - exists l. split; [reflexivity|]. intros k s Hk. assert (K : k < length l).
    { specialize (HG l eq_refl). assert (k < length sets) by (apply nth_error_Some; congruence). lia. }
    destruct (index_ok l k K) as [t Et]. exists t. split; [exact Et|]. intros l'. rewrite Et. split; congruence.
  - assert (T : forall ks, In ks (enum_from 0 (map Some sets)) -> exists y, default_label suffix extra i ks = Ok y).
    { intros [k o] Hk. apply enum_in in Hk. rewrite nth_error_map in Hk. destruct (nth_error sets k) as [s|] eqn:Es; [|discriminate]. cbn [option_map] in Hk. injection Hk as <-.
      specialize (H s (nth_error_In _ _ Es)). unfold default_label. cbn [snd fst attr bind]. destruct (d_labels s) as [ls|]; [|eauto].
      destruct (index_ok ls i (H ls eq_refl)) as [t ->]. cbn [index bind]. eauto. }
    destruct (each_total _ _ T) as [r Er]. exists r. split; [exact Er|]. apply each_forall2 in Er. intros k s Hk.
    assert (E : nth_error (enum_from 0 (map Some sets)) k = Some (k, Some s)) by (rewrite enum_nth, nth_error_map, Hk; reflexivity).
    destruct (forall2_nth _ _ _ _ _ Er E) as (l & El & D). exists l. split; [exact El|]. intros l'.
    unfold default_label in D. cbn [snd fst attr bind] in D. destruct (d_labels s) as [ls|]; [|split; congruence].
    destruct (nth_error ls i) as [t|] eqn:Et; [|discriminate]. cbn [index bind] in D. split; [intros (l0 & [= <-] & ->); congruence|intros ->; exists t; split; congruence].
Qed.

(** ** Curves *)
Lemma set_curves_lemma x i initials upd ini U I k s lu li : nth_error U k = Some lu -> nth_error I k = Some li ->
  (forall l', legend_entry upd " Updated" "" i k s l' <-> l' = lu) -> (forall l', legend_entry ini " Initial" " Initial" i k s l' <-> l' = li) ->
  exists l, set_curves x i initials U I (k, Some s) = Ok l /\ length l = num_curves initials s /\ forall c, In c l <-> is_curve x i initials upd ini k s c.
Proof.
  intros EU EI HU HI. unfold set_curves, num_curves, is_curve. cbn [attr bind]. rewrite EU, EI. cbn [index bind].
  assert (A1 : exists c1, match d_init s with Some f => if initials then Ok [{| e_dashed := false; e_label := li; e_y := f x i |}] else Ok [] | None => Ok [] end = Ok c1 /\
     length c1 = (match d_init s with Some _ => if initials then 1 else 0 | None => 0 end) /\
     forall c, In c c1 <-> e_dashed c = false /\ initials = true /\ (exists f, d_init s = Some f /\ e_y c = f x i) /\ legend_entry ini " Initial" " Initial" i k s (e_label c)).
  { destruct (d_init s) as [f|]; [destruct initials|].
    - eexists. split; [reflexivity|]. split; [reflexivity|]. intros c. split.
      + intros [<-|[]]. cbn [e_dashed e_label e_y]. split; [reflexivity|]. split; [reflexivity|]. split; [exists f; auto|apply HI; reflexivity].
      + intros (C1 & _ & (g & [= <-] & C2) & C3). left. apply HI in C3. destruct c as [cd cl cy]. cbn [e_dashed e_label e_y] in *. congruence.
    - eexists. split; [reflexivity|]. split; [reflexivity|]. intros c. split; [intros []|intros (_ & B & _); discriminate].
    - eexists. split; [reflexivity|]. split; [reflexivity|]. intros c. split; [intros []|intros (_ & _ & (g & B & _) & _); discriminate]. }
  assert (A2 : exists c2, match d_upd s with Some f => Ok [{| e_dashed := true; e_label := lu; e_y := f x i |}] | None => Ok [] end = Ok c2 /\
     length c2 = (match d_upd s with Some _ => 1 | None => 0 end) /\
     forall c, In c c2 <-> e_dashed c = true /\ (exists f, d_upd s = Some f /\ e_y c = f x i) /\ legend_entry upd " Updated" "" i k s (e_label c)).
  { destruct (d_upd s) as [f|].
    - eexists. split; [reflexivity|]. split; [reflexivity|]. intros c. split.
      + intros [<-|[]]. cbn [e_dashed e_label e_y]. split; [reflexivity|]. split; [exists f; auto|apply HU; reflexivity].
      + intros (C1 & (g & [= <-] & C2) & C3). left. apply HU in C3. destruct c as [cd cl cy]. cbn [e_dashed e_label e_y] in *. congruence.
    - eexists. split; [reflexivity|]. split; [reflexivity|]. intros c. split; [intros []|intros (_ & (g & B & _) & _); discriminate]. }
  destruct A1 as (c1 & -> & L1 & S1), A2 as (c2 & -> & L2 & S2). cbn [bind]. exists (c1 ++ c2). split; [reflexivity|]. split; [rewrite app_length, L1, L2; reflexivity|].
  intros c. rewrite in_app_iff, S1, S2. reflexivity.
Qed.
Lemma densities_lemma args sets i interval num_points label sets_label sets_label_initial initials inputs :
  Forall2 (stands_for inputs) args sets -> sets <> [] -> (forall s, In s sets -> dset_ok interval i s) ->
  (forall l, sets_label = Some l -> length sets <= length l) -> (forall l, sets_label_initial = Some l -> length sets <= length l) ->
  exists lab x cs, plot_1d_marginal_densities args i interval num_points label sets_label sets_label_initial initials inputs = Ok (lab, x, cs) /\
    axis_of label sets i lab /\ points_of interval num_points sets i x /\ curves_of x i initials sets_label sets_label_initial sets cs.
Proof.
  intros HA N HD HU HI. unfold plot_1d_marginal_densities. rewrite (choose_lemma _ _ _ HA). cbn [bind].
  assert (HL : forall s, In s sets -> long_enough (d_labels s) i) by (intros s Hs; apply (HD s Hs)).
  destruct (x_label_lemma label sets i N HL) as (lab & -> & Hlab). cbn [bind].
  destruct (legend_lemma sets_label " Updated" "" sets i HU HL) as (U & -> & SU). cbn [bind].
  destruct (legend_lemma sets_label_initial " Initial" " Initial" sets i HI HL) as (I & -> & SI). cbn [bind].
  destruct (grid_lemma interval num_points sets i N HD) as (x & -> & Hx). cbn [bind].
  destruct (each_total (set_curves x i initials U I) (enum_from 0 (map Some sets))) as [css Ec].
  { intros [k o] Hk. apply enum_in in Hk. rewrite nth_error_map in Hk. destruct (nth_error sets k) as [s|] eqn:Es; [|discriminate]. cbn [option_map] in Hk. injection Hk as <-.
    destruct (SU k s Es) as (lu & Eu & Su), (SI k s Es) as (li & Ei & Si).
    destruct (set_curves_lemma x i initials sets_label sets_label_initial U I k s lu li Eu Ei Su Si) as (l & El & _). eauto. }
  rewrite Ec. cbn [bind]. exists lab, x, (concat css). split; [reflexivity|]. split; [exact Hlab|]. split; [exact Hx|].
  apply each_forall2 in Ec. exists css. split; [reflexivity|]. split.
  - apply Forall2_length in Ec. rewrite enum_length, map_length in Ec. congruence.
  - intros k s Es. assert (E : nth_error (enum_from 0 (map Some sets)) k = Some (k, Some s)) by (rewrite enum_nth, nth_error_map, Es; reflexivity).
    destruct (forall2_nth _ _ _ _ _ Ec E) as (l & El & D). exists l. split; [exact El|].
    destruct (SU k s Es) as (lu & Eu & Su), (SI k s Es) as (li & Ei & Si).
    destruct (set_curves_lemma x i initials sets_label sets_label_initial U I k s lu li Eu Ei Su Si) as (l2 & El2 & P). rewrite El2 in D. injection D as <-. exact P.
Qed.
(** Names of curves *)
Lemma default_legend_lemma i k k' s s' l : d_labels s = None -> d_labels s' = None ->
  (legend_entry None " Updated" "" i k s l -> legend_entry None " Updated" "" i k' s' l -> k = k') /\
  (legend_entry None " Initial" " Initial" i k s l -> legend_entry None " Initial" " Initial" i k' s' l -> k = k') /\
  (legend_entry None " Updated" "" i k s l -> legend_entry None " Initial" " Initial" i k' s' l -> False).
Proof.
  intros A B. unfold legend_entry. rewrite A, B. split; [|split].
  - intros -> H. apply app_inj_l in H. apply app_inj_r in H. apply dec_inj. exact H.
  - intros -> H. apply app_inj_l in H. apply app_inj_r in H. apply dec_inj. exact H.
  - intros -> H. apply app_inj_l in H. apply dec_split in H; [|reflexivity..]. destruct H as (_ & _ & H). discriminate.
Qed.
Lemma same_labels_lemma i k k' s s' ls l : d_labels s = Some ls -> d_labels s' = Some ls ->
  (legend_entry None " Updated" "" i k s l <-> legend_entry None " Updated" "" i k' s' l).
Proof. intros A B. unfold legend_entry. rewrite A, B. reflexivity. Qed.
Lemma num_points_lemma args i n n' label u v initials inputs :
  plot_1d_marginal_densities args i None n label u v initials inputs = plot_1d_marginal_densities args i None n' label u v initials inputs.
Proof. reflexivity. Qed.
Lemma densities_other_lemma args i interval n label u v initials inputs : In DOther args ->
  plot_1d_marginal_densities args i interval n label u v initials inputs = Raise BadObject.
Proof. intros H. unfold plot_1d_marginal_densities. rewrite choose_other_lemma by exact H. reflexivity. Qed.
