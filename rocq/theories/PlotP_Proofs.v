From Coq Require Import String Ascii List Arith Bool QArith Qcanon Lia.
From Verif Require Import Err Num Ext NumPy Lists Sampling_Model Sampling_Proofs ChooseQoIs_Model PlotVoronoi2_Proofs PlotDomains_Model PlotDomains_Spec PlotDomains_Proofs Strings PlotP_Model PlotP_Spec.
Import ListNotations.
Local Open Scope nat_scope.

(** ** Bins *)
Lemma linspace_edges d n : linspace (fst d) (snd d) (n + 1) = edges d n.
Proof. unfold linspace, edges, edge. replace (n + 1 - 1) with n by lia. reflexivity. Qed.
Lemma edges_length d n : length (edges d n) = n + 1.
Proof. unfold edges. rewrite map_length, seq_length. reflexivity. Qed.
Lemma edges_nth d n k : k <= n -> nth_error (edges d n) k = Some (edge d n k).
Proof. intros H. unfold edges. rewrite nth_error_map, nth_error_seq. destruct (Nat.ltb_spec k (n + 1)); [reflexivity|lia]. Qed.
Lemma bin_width_eq d n k : bin_width d n k = ((snd d - fst d) / qn n)%Qc.
Proof. unfold bin_width, edge. rewrite qn_add, qn_1. ring. Qed.
Lemma bin_width_pos d n k : (fst d < snd d)%Qc -> 0 < n -> (0 < bin_width d n k)%Qc.
Proof. intros H N. rewrite bin_width_eq. apply qc_div_pos; [qc_lra|apply qn_pos; exact N]. Qed.
Lemma first_width_edges d n : 0 < n -> first_width (edges d n) = Ok (bin_width d n 0).
Proof. intros N. unfold edges. destruct n as [|n]; [lia|]. replace (S n + 1) with (S (S n)) by lia. reflexivity. Qed.
Lemma edges_cons d n : exists x r, edges d n = x :: r.
Proof. unfold edges. rewrite Nat.add_comm. cbn [Nat.add seq map]. eauto. Qed.

(** Point k of the curve lies over bin k. *)
Lemma x_range_in_bin d n k : (fst d < snd d)%Qc -> k < n ->
  exists u, nth_error (linspace (fst d) (snd d) n) k = Some u /\ (edge d n k <= u)%Qc /\ (u <= edge d n (k + 1))%Qc.
Proof.
  intros H K. eexists. split; [apply linspace_nth; exact K|]. unfold edge.
  assert (L : (0 < snd d - fst d)%Qc) by qc_lra. set (w := (snd d - fst d)%Qc) in *. clearbody w.
  destruct (Nat.eq_dec n 1) as [->|N1].
  - assert (k = 0) by lia. subst k. cbn [Nat.add Nat.sub]. rewrite qn_0, qn_1. split; [ring_simplify; apply Qcle_refl|].
    apply Qclt_le_weak. assert (E : (1 * (w / 1) = w)%Qc) by (field; discriminate). rewrite E. qc_lra.
  - assert (A : (qn k * (w / qn n) <= qn k * (w / qn (n - 1)))%Qc).
    { apply qc_mul_le_l; [apply qn_nonneg|]. apply qc_div_le; [apply qn_pos; lia|].
      assert (E : (w / qn (n - 1) * qn n = w + w / qn (n - 1))%Qc).
      { replace n with ((n - 1) + 1) at 2 by lia. rewrite qn_add, qn_1. field. apply qn_neq0. lia. }
      rewrite E. assert (0 < w / qn (n - 1))%Qc by (apply qc_div_pos; [exact L|apply qn_pos; lia]). generalize dependent (w / qn (n - 1))%Qc. intros; qc_lra. }
    assert (B : (qn k * (w / qn (n - 1)) <= qn (k + 1) * (w / qn n))%Qc).
    { assert (E1 : (qn k * (w / qn (n - 1)) = (qn k * w) / qn (n - 1))%Qc) by (field; apply qn_neq0; lia). rewrite E1.
      apply qc_div_le; [apply qn_pos; lia|].
      assert (E2 : (qn (k + 1) * (w / qn n) * qn (n - 1) = (w * (qn (k + 1) * qn (n - 1))) / qn n)%Qc) by (field; apply qn_neq0; lia). rewrite E2.
      apply qc_le_div; [apply qn_pos; lia|].
      assert (E3 : (qn k * w * qn n = w * qn (k * n))%Qc) by (rewrite qn_mul; ring). rewrite E3. rewrite <- qn_mul.
      apply qc_mul_le_l; [qc_lra|]. apply qn_le. nia. }
    split; qc_lra.
Qed.
Lemma some_eq {A} (a b : A) : Some a = Some b -> a = b.
Proof. congruence. Qed.
Lemma x_range_centre d n k : (fst d < snd d)%Qc -> k < n -> 2 <= n ->
  (nth_error (linspace (fst d) (snd d) n) k = Some ((edge d n k + edge d n (k + 1)) / qn 2)%Qc <-> 2 * k + 1 = n).
Proof.
  intros H K N. rewrite linspace_nth by exact K. unfold edge. assert (L : (snd d - fst d)%Qc <> 0%Qc) by (intros E; apply Qclt_minus_iff in H; change (snd d + - fst d)%Qc with (snd d - fst d)%Qc in H; rewrite E in H; apply (Qclt_not_eq _ _ H); reflexivity).
  assert (N1 : qn (n - 1) <> 0%Qc) by (apply qn_neq0; lia). assert (N0 : qn n <> 0%Qc) by (apply qn_neq0; lia).
  assert (T : qn 2 <> 0%Qc) by (apply qn_neq0; lia).
  assert (E : (fst d + qn k * ((snd d - fst d) / qn (n - 1)) - (fst d + qn k * ((snd d - fst d) / qn n) + (fst d + qn (k + 1) * ((snd d - fst d) / qn n))) / qn 2 =
     (snd d - fst d) * (qn (2 * k * n) - qn ((2 * k + 1) * (n - 1))) / (qn 2 * qn n * qn (n - 1)))%Qc).
  { rewrite !qn_mul, !qn_add, !qn_mul, !qn_1. replace (qn 2) with (1 + 1)%Qc by reflexivity. field. repeat split; try assumption; discriminate. }
  split.
  - intros F. apply some_eq in F. assert (Z : ((snd d - fst d) * (qn (2 * k * n) - qn ((2 * k + 1) * (n - 1))) / (qn 2 * qn n * qn (n - 1)) = 0)%Qc) by (rewrite <- E, F; ring).
    assert (Z2 : (qn (2 * k * n) - qn ((2 * k + 1) * (n - 1)) = 0)%Qc).
    { apply (f_equal (fun z => (z * (qn 2 * qn n * qn (n - 1)))%Qc)) in Z. rewrite qc_div_mul in Z.
      - destruct (Qcmult_integral _ _ (eq_trans Z (Qcmult_0_l _))) as [Q|Q]; [contradiction|exact Q].
      - intros Q. apply Qcmult_integral in Q. destruct Q as [Q|Q]; [|contradiction]. apply Qcmult_integral in Q. tauto. }
    assert (Z3 : qn (2 * k * n) = qn ((2 * k + 1) * (n - 1))) by (apply (f_equal (fun z => (z + qn ((2 * k + 1) * (n - 1)))%Qc)) in Z2; ring_simplify in Z2; exact Z2).
    apply qn_inj in Z3. nia.
  - intros F. f_equal. apply (f_equal (fun z => z)). assert (Z : (2 * k * n = (2 * k + 1) * (n - 1))%nat) by nia. rewrite Z in E.
    match type of E with (?a - ?b)%Qc = _ => assert (G : (a - b = 0)%Qc) by (rewrite E; unfold Qcdiv; ring) end.
    match type of G with (?a - ?b)%Qc = _ => transitivity (a - b + b)%Qc; [ring|]; rewrite G; ring end.
Qed.
Lemma heights d n m w : (fst d < snd d)%Qc -> 0 < n -> w = bin_width d n 0 ->
  map (fun p => xdivq p w) m = map Fin (map (fun p => (p / w)%Qc) m).
Proof.
  intros H N ->. rewrite map_map. apply map_ext. intros p. unfold xdivq. destruct (qeqb_spec (bin_width d n 0) 0%Qc) as [E|E]; [|reflexivity].
  pose proof (bin_width_pos d n 0 H N) as W. rewrite E in W. destruct (Qclt_not_eq _ _ W eq_refl).
Qed.

(** ** plot_1D_marginal_probs *)
Lemma param_label_ok l i : long_enough l i -> exists t, param_label l i = Ok t /\ param_axis l i t.
Proof.
  intros H. unfold param_label, param_axis. destruct l as [l|]; [|eexists; split; [reflexivity|rewrite Nat.add_1_r; reflexivity]]. specialize (H l eq_refl).
  destruct (nth_error l i) as [t|] eqn:E; [cbn [index]; exists t; split; reflexivity|]. apply nth_error_None in E. lia.
Qed.
Lemma index_ok {A} (l : list A) i : i < length l -> exists x, nth_error l i = Some x.
Proof. intros H. destruct (nth_error l i) as [t|] eqn:E; [eauto|]. apply nth_error_None in E. lia. Qed.
Lemma plot_1D_one_lemma s dom bins ref filename lab ext i m d : m_domain s = Some dom -> nth_error dom i = Some d -> (fst d < snd d)%Qc -> m <> [] ->
  nth_error bins i = Some (edges d (length m)) -> long_enough ref i -> long_enough lab i ->
  exists f, plot_1D_one s bins ref filename lab ext (i, m) = Ok f /\ curve_shows d m (c_x f) (c_y f) /\
    option_map fst (c_mark f) = match ref with Some r => nth_error r i | None => None end /\
    param_axis lab i (c_label f) /\
    axis_height ref f /\
    c_file f = append filename (append "_1D_" (append (dec i) ext)).
Proof.
  intros HD Hd L M HB HR HL. assert (N : 0 < length m) by (destruct m; [congruence|cbn [length]; lia]). unfold plot_1D_one, domain_row.
  rewrite HD, Hd. cbn [index bind]. rewrite HB. cbn [index bind].
  destruct (edges_cons d (length m)) as (e & r & E). rewrite E. rewrite <- E. clear e r E.
  rewrite edges_length. replace (length m + 1 - 1) with (length m) by lia. rewrite (first_width_edges d _ N). cbn [bind].
  rewrite (heights d (length m) m _ L N eq_refl). set (w := bin_width d (length m) 0). set (hs := map (fun p => (p / w)%Qc) m).
  assert (Wp : (0 < w)%Qc) by (apply bin_width_pos; assumption).
  assert (LX : length (linspace (fst d) (snd d) (length m)) = length m) by (unfold linspace; rewrite map_length, seq_length; reflexivity).
  rewrite LX, !map_length. unfold hs at 1. rewrite map_length, Nat.eqb_refl. cbn [negb].
  assert (HN : hs <> []) by (unfold hs; destruct m; [congruence|discriminate]).
  destruct (list_max_fin hs HN) as (t & Et & T1 & T2). rewrite Et.
  destruct (map Fin hs) as [|y0 ys] eqn:Ey; [destruct hs; [congruence|discriminate]|]. rewrite <- Ey.
  assert (HM : exists mk, (match ref with Some r => bind (index (nth_error r i)) (fun v => Ok (Some (v, xscale (Q2Qc (21 # 1000)) (Fin t)))) | None => Ok None end) = Ok mk /\
    option_map fst mk = match ref with Some r => nth_error r i | None => None end /\
    (ref <> None -> option_map snd mk = Some (Fin ((t + t * Q2Qc (5 # 100)) * Q2Qc (2 # 100))%Qc))).
  { destruct ref as [r|]; [|exists None; split; [reflexivity|split; [reflexivity|congruence]]]. destruct (index_ok r i (HR r eq_refl)) as [v Ev]. rewrite Ev. cbn [index bind].
    eexists. split; [reflexivity|]. split; [reflexivity|]. intros _. cbn [option_map snd xscale]. do 2 f_equal. qc_lra. }
  destruct HM as (mk & -> & HM & HT). cbn [bind]. destruct (param_label_ok lab i HL) as (tl & Etl & Atl). rewrite Etl. cbn [bind].
  eexists. split; [reflexivity|]. cbn [c_x c_y c_mark c_label c_top c_file]. split; [|split; [exact HM|split; [exact Atl|split; [|reflexivity]]]].
  - split; [exact LX|]. split; [unfold hs; rewrite !map_length; reflexivity|]. intros k p Hp.
    assert (K : k < length m) by (apply nth_error_Some; congruence). destruct (x_range_in_bin d (length m) k L K) as (u & Eu & U1 & U2).
    exists u, (p / w)%Qc. split; [exact Eu|]. split; [unfold hs; rewrite map_map; apply (map_nth_error (fun q => Fin (q / w)%Qc)); exact Hp|].
    split; [auto|]. unfold w. rewrite bin_width_eq, (bin_width_eq d (length m) k). apply qc_div_mul.
    rewrite <- (bin_width_eq d (length m) 0). apply Qclt_neq0. exact Wp.
  - exists t. cbn [c_y c_top c_mark]. split; [apply in_map; exact T2|]. split; [|split; [cbn [xscale]; f_equal; qc_lra|exact HT]].
    intros h Hh. apply in_map_iff in Hh. destruct Hh as (h' & <- & Hh). exists h'. split; [reflexivity|exact (T1 h' Hh)].
Qed.
Lemma each_shows {A B} (f : A -> result B) (R : A -> B -> Prop) l : (forall x, In x l -> exists y, f x = Ok y /\ R x y) -> exists r, each f l = Ok r /\ Forall2 R l r.
Proof.
  induction l as [|x l IH]; intros H; cbn [each]; [eauto|]. destruct (H x (or_introl eq_refl)) as (y & Ey & Ry). rewrite Ey. cbn [bind].
  destruct IH as (r & Er & Fr); [intros; apply H; right; assumption|]. rewrite Er. cbn [bind]. eauto.
Qed.
Lemma the_set_lemma a s : set_of a s -> the_set a = Ok s.
Proof. intros [-> | ->]; reflexivity. Qed.
Lemma nodup_files {A B K} (key : A -> K) (file : B -> string) (name : K -> string) (l : list A) (r : list B) :
  Forall2 (fun a b => file b = name (key a)) l r -> NoDup (map key l) -> (forall k k', name k = name k' -> k = k') -> NoDup (map file r).
Proof.
  intros H ND I. assert (E : map file r = map name (map key l)).
  { induction H as [|a b l r H H2 IH]; [reflexivity|]. cbn [map] in *. inversion ND; subst. rewrite H, IH by assumption. reflexivity. }
  rewrite E. apply FinFun.Injective_map_NoDup; [exact I|exact ND].
Qed.
Lemma forall2_and {A B} (R S : A -> B -> Prop) l r : Forall2 (fun a b => R a b /\ S a b) l r -> Forall2 R l r /\ Forall2 S l r.
Proof. induction 1 as [|a b l r [H1 H2] _ [I1 I2]]; split; constructor; assumption. Qed.
Lemma name_1D_inj filename ext i j : append filename (append "_1D_" (append (dec i) ext)) = append filename (append "_1D_" (append (dec j) ext)) -> i = j.
Proof. intros H. apply app_inj_l in H. apply app_inj_l in H. apply app_inj_r in H. apply dec_inj. exact H. Qed.
Lemma plot_1D_lemma marginals bins a s dom filename lam_ref lab ext : set_of a s -> m_domain s = Some dom ->
  (forall i m, In (i, m) marginals -> m <> [] /\ exists d, nth_error dom i = Some d /\ (fst d < snd d)%Qc /\ nth_error bins i = Some (edges d (length m))) ->
  (forall i m, In (i, m) marginals -> long_enough (own_or lam_ref (m_ref s)) i /\ long_enough lab i) -> NoDup (map fst marginals) ->
  exists figs, plot_1D_marginal_probs marginals bins a filename lam_ref lab ext = Ok figs /\
    Forall2 (shown_1D dom (own_or lam_ref (m_ref s)) lab) marginals figs /\ NoDup (map c_file figs).
Proof.
  intros HS HD HM HL ND. unfold plot_1D_marginal_probs. rewrite (the_set_lemma a s HS). cbn [bind].
  change (match lam_ref with Some r => Some r | None => m_ref s end) with (own_or lam_ref (m_ref s)).
  destruct (each_shows (plot_1D_one s bins (own_or lam_ref (m_ref s)) filename lab ext)
    (fun im f => shown_1D dom (own_or lam_ref (m_ref s)) lab im f /\ c_file f = append filename (append "_1D_" (append (dec (fst im)) ext))) marginals) as (figs & E & F).
  { intros [i m] H. destruct (HM i m H) as (M & d & Hd & L & HB). destruct (HL i m H) as [R1 R2].
    destruct (plot_1D_one_lemma s dom bins (own_or lam_ref (m_ref s)) filename lab ext i m d HD Hd L M HB R1 R2) as (f & Ef & A & B & C & D & G).
    exists f. split; [exact Ef|]. split; [|exact G]. exists d. auto. }
  exists figs. split; [exact E|]. apply forall2_and in F. destruct F as [F1 F2]. split; [exact F1|].
  apply (nodup_files fst c_file (fun i => append filename (append "_1D_" (append (dec i) ext))) marginals figs F2 ND). intros k k'. apply name_1D_inj.
Qed.
(** ** Images and contours *)
Lemma nth_seq_map {A} (f : nat -> A) n k : k < n -> nth_error (map f (seq 0 n)) k = Some (f k).
Proof. intros H. rewrite nth_error_map, nth_error_seq. destruct (Nat.ltb_spec k n); [reflexivity|lia]. Qed.
Lemma pixels_lemma di dj ni nj m : (fst di < snd di)%Qc -> (fst dj < snd dj)%Qc -> 0 < ni -> 0 < nj -> table ni nj m ->
  image_shows di dj ni nj m (di, dj) (map (map (fun p => xdivq p (bin_width di ni 0 * bin_width dj nj 0)%Qc)) (transpose nj 0%Qc m)).
Proof.
  intros Li Lj Ni Nj [T1 T2]. pose proof (bin_width_pos di ni 0 Li Ni) as Wi. pose proof (bin_width_pos dj nj 0 Lj Nj) as Wj.
  pose proof (qc_mul_pos _ _ Wi Wj) as W. apply Qclt_neq0 in W. unfold transpose. split; [|split].
  - rewrite !map_length, seq_length. reflexivity.
  - intros row H. apply in_map_iff in H. destruct H as (r & <- & H). apply in_map_iff in H. destruct H as (c & <- & _). rewrite !map_length. exact T1.
  - intros a b mrow p Ha Hb. assert (B : b < nj) by (rewrite <- (T2 mrow (nth_error_In _ _ Ha)); apply nth_error_Some; congruence).
    eexists. exists (p / (bin_width di ni 0 * bin_width dj nj 0))%Qc. split; [|split; [|split]].
    + rewrite map_map. apply (nth_seq_map (fun c => map (fun p => xdivq p (bin_width di ni 0 * bin_width dj nj 0)%Qc) (map (fun row => nth c row 0%Qc) m))). exact B.
    + rewrite map_map. rewrite (map_nth_error (fun row => xdivq (nth b row 0%Qc) (bin_width di ni 0 * bin_width dj nj 0)%Qc) a m Ha). f_equal.
      rewrite (nth_error_nth _ _ 0%Qc Hb). unfold xdivq. destruct (qeqb_spec (bin_width di ni 0 * bin_width dj nj 0)%Qc 0%Qc); [contradiction|reflexivity].
    + reflexivity.
    + rewrite (bin_width_eq di ni a), (bin_width_eq dj nj b), <- (bin_width_eq di ni 0), <- (bin_width_eq dj nj 0). apply qc_div_mul. exact W.
Qed.
Lemma mark_lemma ref i j : long_enough ref i -> long_enough ref j ->
  match ref with
  | Some r => bind (index (nth_error r i)) (fun x => bind (index (nth_error r j)) (fun y => Ok (Some (x, y))))
  | None => Ok None
  end = Ok (mark_of ref i j).
Proof.
  intros A B. unfold mark_of. destruct ref as [r|]; [|reflexivity]. destruct (index_ok r i (A r eq_refl)) as [x ->], (index_ok r j (B r eq_refl)) as [y ->]. reflexivity.
Qed.
Lemma plot_2D_one_lemma s dom bins ref filename lab ext im : m_domain s = Some dom -> item_ok dom bins ref lab 1 im ->
  exists f, plot_2D_one s bins ref filename lab ext im = Ok f /\ shown_2D dom ref lab im (g_extent f) (g_pixels f) (g_mark f) (g_labels f) /\
    g_file f = append filename (append "_2D_" (append (dec (fst (fst im))) (append "_" (append (dec (snd (fst im))) ext)))).
Proof.
  intros HD. destruct im as [[i j] [nj m]]. intros (di & dj & Di & Dj & Li & Lj & N1 & N2 & T & Bi & Bj & R1 & R2 & L1 & L2).
  unfold plot_2D_one, domain_row. rewrite Bi, Bj, HD, Di, Dj. cbn [index bind]. rewrite !first_width_edges by lia. cbn [bind].
  destruct (Nat.eqb_spec nj 0) as [E|_]; [lia|]. destruct (Nat.eqb_spec (length m) 0) as [E|_]; [lia|]. cbn [orb].
  rewrite (mark_lemma ref i j R1 R2). cbn [bind]. destruct (param_label_ok lab i L1) as (t1 & E1 & A1), (param_label_ok lab j L2) as (t2 & E2 & A2). rewrite E1, E2. cbn [bind].
  eexists. split; [reflexivity|]. cbn [g_extent g_pixels g_mark g_labels g_file fst snd]. split; [|reflexivity].
  exists di, dj. split; [exact Di|]. split; [exact Dj|]. split; [apply pixels_lemma; auto; lia|]. auto.
Qed.
Lemma middles_edges d n k : k < n -> nth_error (middles (edges d n)) k = Some ((edge d n k + edge d n (k + 1)) / qn 2)%Qc.
Proof.
  intros K. assert (G : forall l k a b, nth_error l k = Some a -> nth_error l (S k) = Some b -> nth_error (middles l) k = Some ((a + b) / qn 2)%Qc).
  { induction l as [|x l IH]; intros [|k'] a b; cbn [nth_error]; try discriminate.
    - intros [= <-] Hb. destruct l as [|y l]; [discriminate|]. cbn [nth_error] in Hb. injection Hb as <-. cbn [middles nth_error]. f_equal.
      replace (qn 2) with (1 + 1)%Qc by reflexivity. field. discriminate.
    - intros Ha Hb. destruct l as [|y l]; [destruct k'; discriminate|]. change (middles (x :: y :: l)) with ((x + (y - x) / qn 2)%Qc :: middles (y :: l)). cbn [nth_error]. apply IH; assumption. }
  apply G; [apply edges_nth; lia|]. rewrite edges_nth by lia. f_equal. f_equal. lia.
Qed.
Lemma middles_length l : length (middles l) = length l - 1.
Proof. induction l as [|x l IH]; [reflexivity|]. destruct l as [|y l]; [reflexivity|]. change (middles (x :: y :: l)) with ((x + (y - x) / qn 2)%Qc :: middles (y :: l)). cbn [length] in *. rewrite IH. lia. Qed.
Lemma surface_one_lemma dom bins ref lab filename ext im : item_ok dom bins ref lab 1 im ->
  exists f, surface_one bins filename ext im = Ok f /\ surface_shown dom im f /\
    u_file f = append filename (append "_surf_" (append (dec (fst (fst im))) (append "_" (append (dec (snd (fst im))) ext)))).
Proof.
  destruct im as [[i j] [nj m]]. intros (di & dj & Di & Dj & Li & Lj & N1 & N2 & T & Bi & Bj & _).
  unfold surface_one. rewrite Bi, Bj. cbn [index bind]. eexists. split; [reflexivity|]. cbn [u_file fst snd]. split; [|reflexivity].
  exists di, dj. cbn [u_x u_y u_z]. split; [exact Di|]. split; [exact Dj|]. split; [reflexivity|]. rewrite !middles_length, !edges_length. split; [lia|]. split; [lia|].
  split; intros k K; apply middles_edges; exact K.
Qed.
Lemma name_pair_inj p ext (k k' : nat * nat) : append p (append (dec (fst k)) (append "_" (append (dec (snd k)) ext))) = append p (append (dec (fst k')) (append "_" (append (dec (snd k')) ext))) -> k = k'.
Proof.
  intros H. apply app_inj_l in H. cbn [append] in H. apply dec_split in H; [|reflexivity..]. destruct H as (E1 & _ & H). apply app_inj_r in H. apply dec_inj in H.
  destruct k, k'. cbn [fst snd] in *. congruence.
Qed.
Lemma plot_2D_lemma marginals bins a s dom filename lam_ref surf lab ext : set_of a s -> m_domain s = Some dom ->
  (forall im, In im marginals -> item_ok dom bins (own_or lam_ref (m_ref s)) lab 1 im) -> NoDup (map fst marginals) ->
  exists images surfaces, plot_2D_marginal_probs marginals bins a filename lam_ref surf lab ext = Ok (images, surfaces) /\
    Forall2 (fun im f => shown_2D dom (own_or lam_ref (m_ref s)) lab im (g_extent f) (g_pixels f) (g_mark f) (g_labels f)) marginals images /\
    (if surf then Forall2 (surface_shown dom) marginals surfaces else surfaces = []) /\
    NoDup (map g_file images ++ map u_file surfaces).
Proof.
  intros HS HD HM ND. unfold plot_2D_marginal_probs. rewrite (the_set_lemma a s HS). cbn [bind].
  change (match lam_ref with Some r => Some r | None => m_ref s end) with (own_or lam_ref (m_ref s)).
  set (n2 := fun k : nat * nat => append (append filename "_2D_") (append (dec (fst k)) (append "_" (append (dec (snd k)) ext)))).
  set (ns := fun k : nat * nat => append (append filename "_surf_") (append (dec (fst k)) (append "_" (append (dec (snd k)) ext)))).
  destruct (each_shows (plot_2D_one s bins (own_or lam_ref (m_ref s)) filename lab ext)
    (fun im f => shown_2D dom (own_or lam_ref (m_ref s)) lab im (g_extent f) (g_pixels f) (g_mark f) (g_labels f) /\ g_file f = n2 (fst im)) marginals) as (images & E & F).
  { intros im H. destruct (plot_2D_one_lemma s dom bins (own_or lam_ref (m_ref s)) filename lab ext im HD (HM im H)) as (f & Ef & A & B). exists f. split; [exact Ef|]. split; [exact A|]. rewrite B. unfold n2. rewrite !app_assoc_s. reflexivity. }
  rewrite E. cbn [bind]. apply forall2_and in F. destruct F as [F1 F2].
  assert (SU : exists surfaces, (if surf then each (surface_one bins filename ext) marginals else Ok []) = Ok surfaces /\
     (if surf then Forall2 (surface_shown dom) marginals surfaces else surfaces = []) /\ (Forall2 (fun im f => u_file f = ns (fst im)) marginals surfaces \/ surfaces = [])).
  { destruct surf; [|eauto]. destruct (each_shows (surface_one bins filename ext) (fun im f => surface_shown dom im f /\ u_file f = ns (fst im)) marginals) as (su & E2 & G).
    { intros im H. destruct (surface_one_lemma dom bins (own_or lam_ref (m_ref s)) lab filename ext im (HM im H)) as (f & Ef & A & B). exists f. split; [exact Ef|]. split; [exact A|]. rewrite B. unfold ns. rewrite !app_assoc_s. reflexivity. }
    apply forall2_and in G. destruct G. exists su. auto. }
  destruct SU as (surfaces & -> & S1 & S2). cbn [bind]. exists images, surfaces. split; [reflexivity|]. split; [exact F1|]. split; [exact S1|].
  apply NoDup_app.
  - apply (nodup_files fst g_file n2 marginals images F2 ND). intros k k'. apply name_pair_inj.
  - destruct S2 as [S2| ->]; [|constructor]. apply (nodup_files fst u_file ns marginals surfaces S2 ND). intros k k'. apply name_pair_inj.
  - intros x Hx Hy. apply in_map_iff in Hx, Hy. destruct Hx as (f & <- & Hf), Hy as (g & Eg & Hg). destruct S2 as [S2| ->]; [|destruct Hg].
    destruct (forall2_in_r _ _ _ F2 f Hf) as (im & _ & A). destruct (forall2_in_r _ _ _ S2 g Hg) as (im' & _ & B). rewrite A, B in Eg. unfold n2, ns in Eg.
    rewrite !app_assoc_s in Eg. apply app_inj_l in Eg. discriminate.
Qed.
Lemma contours_lemma marginals bins a s dom filename lam_ref lam_refs plot_domain lab ext : set_of a s -> m_domain s = Some dom ->
  (forall im, In im marginals -> item_ok dom bins (own_or lam_ref (m_ref s)) lab 2 im) ->
  (forall im, In im marginals -> long_enough plot_domain (fst (fst im)) /\ long_enough plot_domain (snd (fst im))) ->
  (forall im q r, In im marginals -> lam_refs = Some q -> In r q -> fst (fst im) < length r /\ snd (fst im) < length r) -> NoDup (map fst marginals) ->
  exists figs, plot_2D_marginal_contours marginals bins a lam_ref lam_refs plot_domain lab filename ext = Ok figs /\
    Forall2 (shown_contour dom (own_or lam_ref (m_ref s)) lab lam_refs plot_domain) marginals figs /\ NoDup (map o_file figs).
Proof.
  intros HS HD HM HP HQ ND. unfold plot_2D_marginal_contours. rewrite (the_set_lemma a s HS). cbn [bind].
  change (match lam_ref with Some r => Some r | None => m_ref s end) with (own_or lam_ref (m_ref s)). set (ref := own_or lam_ref (m_ref s)) in *.
  set (nc := fun k : nat * nat => append (append filename "_2D_contours_") (append (dec (fst k)) (append "_" (append (dec (snd k)) ext)))).
  destruct (each_shows (contour_one s bins ref lam_refs plot_domain filename lab ext)
    (fun im f => shown_contour dom ref lab lam_refs plot_domain im f /\ o_file f = nc (fst im)) marginals) as (figs & E & F).
  { intros im H. pose proof (HM im H) as OK. pose proof (HP im H) as [P1 P2]. pose proof (HQ im) as Q. destruct im as [[i j] [nj m]].
    destruct OK as (di & dj & Di & Dj & Li & Lj & N1 & N2 & T & Bi & Bj & R1 & R2 & L1 & L2). cbn [fst snd] in *.
    unfold contour_one, domain_row. rewrite Bi, Bj, HD, Di, Dj. cbn [index bind]. rewrite !first_width_edges by lia. cbn [bind].
    destruct (Nat.eqb_spec nj 0) as [X|_]; [lia|]. destruct (Nat.eqb_spec (length m) 0) as [X|_]; [lia|].
    destruct (Nat.eqb_spec nj 1) as [X|_]; [lia|]. destruct (Nat.eqb_spec (length m) 1) as [X|_]; [lia|]. cbn [orb].
    assert (MK : exists mk, (match lam_refs with Some q => index (columns q [i; j]) | None => Ok [] end) = Ok mk /\
       match lam_refs with Some q => Forall2 (restricted 0 [i; j]) q mk | None => mk = [] end).
    { destruct lam_refs as [q|]; [|eauto]. assert (C : exists v, columns q [i; j] = Some v).
      { clear -Q H. assert (Q' : forall r, In r q -> i < length r /\ j < length r) by (intros r Hr; exact (Q q r H eq_refl Hr)). clear Q H.
        induction q as [|r q IH]; cbn [columns]; [eauto|]. destruct (Q' r (or_introl eq_refl)) as [A B]. destruct (take_pair r i j A B) as [x ->].
        destruct IH as [v ->]; [intros; apply Q'; right; assumption|]. eauto. }
      destruct C as [v C]. rewrite C. eexists. split; [reflexivity|]. apply columns_restricted. exact C. }
    destruct MK as (mk & -> & MK). cbn [bind]. rewrite (mark_lemma ref i j R1 R2). cbn [bind].
    destruct (param_label_ok lab i L1) as (t1 & E1 & A1), (param_label_ok lab j L2) as (t2 & E2 & A2). rewrite E1, E2. cbn [bind].
    assert (AX : exists ax, (match plot_domain with None => Ok (di, dj) | Some p => bind (index (nth_error p i)) (fun pi => bind (index (nth_error p j)) (fun pj => Ok (pi, pj))) end) = Ok ax /\
       Some ax = (let d := match plot_domain with Some p => p | None => dom end in match nth_error d i, nth_error d j with Some x, Some y => Some (x, y) | _, _ => None end)).
    { cbv zeta. destruct plot_domain as [p|].
      - destruct (index_ok p i (P1 p eq_refl)) as [x Ex], (index_ok p j (P2 p eq_refl)) as [y Ey]. rewrite Ex, Ey. cbn [index bind]. eexists. split; reflexivity.
      - rewrite Di, Dj. eexists. split; reflexivity. }
    destruct AX as (ax & -> & AX). cbn [bind]. eexists. split; [reflexivity|]. split; [|unfold nc; cbn [o_file fst snd]; rewrite !app_assoc_s; reflexivity].
    unfold shown_contour. cbn [o_extent o_heights o_mark o_labels o_marks o_axis fst snd]. split; [|split; [exact MK|exact AX]].
    exists di, dj. split; [exact Di|]. split; [exact Dj|]. split; [apply pixels_lemma; auto; lia|]. auto. }
  exists figs. split; [exact E|]. apply forall2_and in F. destruct F as [F1 F2]. split; [exact F1|].
  apply (nodup_files fst o_file nc marginals figs F2 ND). intros k k'. apply name_pair_inj.
Qed.
Lemma contour_flat_lemma s bins ref refs pd filename lab ext i j nj m f : nj <= 1 \/ length m <= 1 ->
  contour_one s bins ref refs pd filename lab ext ((i, j), (nj, m)) <> Ok f.
Proof.
  intros H E. unfold contour_one in E.
  destruct (index (nth_error bins i)) as [bi|]; [|discriminate]. cbn [bind] in E. destruct (first_width bi); [|discriminate]. cbn [bind] in E.
  destruct (index (nth_error bins j)) as [bj|]; [|discriminate]. cbn [bind] in E. destruct (first_width bj); [|discriminate]. cbn [bind] in E.
  destruct (domain_row s i); [|discriminate]. cbn [bind] in E. destruct (domain_row s j); [|discriminate]. cbn [bind] in E.
  destruct (Nat.eqb_spec nj 0), (Nat.eqb_spec (length m) 0), (Nat.eqb_spec nj 1), (Nat.eqb_spec (length m) 1); cbn [orb] in E; try discriminate; lia.
Qed.
(** The points of a figure in terms of the domain alone. *)
Lemma plot_1D_points marginals bins a s dom filename lam_ref lab ext figs i m d e f : set_of a s -> m_domain s = Some dom ->
  plot_1D_marginal_probs marginals bins a filename lam_ref lab ext = Ok figs -> In ((i, m), f) (combine marginals figs) ->
  nth_error dom i = Some d -> nth_error bins i = Some (edges e (length m)) -> c_x f = linspace (fst d) (snd d) (length m).
Proof.
  intros HS HD H HI Hd HB. unfold plot_1D_marginal_probs in H. rewrite (the_set_lemma a s HS) in H. cbn [bind] in H. apply each_forall2 in H.
  assert (O : exists r, plot_1D_one s bins r filename lab ext (i, m) = Ok f).
  { eexists. revert HI. induction H as [|x y l r Hxy _ IH]; cbn [combine]; [intros []|]. intros [[= -> ->]|HI]; [exact Hxy|exact (IH HI)]. }
  destruct O as [r O]. unfold plot_1D_one, domain_row in O. rewrite HD, Hd in O. cbn [index bind] in O. rewrite HB in O. cbn [index bind] in O.
  destruct (edges_cons e (length m)) as (x0 & rr & E). rewrite E in O. rewrite <- E in O. clear x0 rr E.
  rewrite edges_length in O. replace (length m + 1 - 1) with (length m) in O by lia.
  destruct (first_width _); [|discriminate]. cbn [bind] in O.
  destruct (negb _); [discriminate|]. destruct (map _ m) as [|y ys]; [discriminate|].
  match type of O with bind ?b _ = _ => destruct b as [mk|]; [|discriminate] end. cbn [bind] in O.
  destruct (param_label lab i) as [t|]; [|discriminate]. cbn [bind] in O. injection O as <-. reflexivity.
Qed.
Lemma plot_1D_centre_lemma marginals bins a s dom filename lam_ref lab ext figs i m d f k : set_of a s -> m_domain s = Some dom ->
  plot_1D_marginal_probs marginals bins a filename lam_ref lab ext = Ok figs -> In ((i, m), f) (combine marginals figs) ->
  nth_error dom i = Some d -> (fst d < snd d)%Qc -> nth_error bins i = Some (edges d (length m)) -> 2 <= length m -> k < length m ->
  (nth_error (c_x f) k = Some ((edge d (length m) k + edge d (length m) (k + 1)) / qn 2)%Qc <-> 2 * k + 1 = length m).
Proof.
  intros HS HD H HI Hd L HB N K. rewrite (plot_1D_points _ _ _ _ _ _ _ _ _ _ _ _ _ _ _ HS HD H HI Hd HB). apply x_range_centre; assumption.
Qed.
Lemma plot_1D_other_domain marginals bins a s dom filename lam_ref lab ext figs i m d e f : set_of a s -> m_domain s = Some dom ->
  plot_1D_marginal_probs marginals bins a filename lam_ref lab ext = Ok figs -> In ((i, m), f) (combine marginals figs) ->
  nth_error dom i = Some d -> nth_error bins i = Some (edges e (length m)) -> 2 <= length m ->
  nth_error (c_x f) 0 = Some (fst d) /\ nth_error (c_x f) (length m - 1) = Some (snd d).
Proof.
  intros HS HD H HI Hd HB N. rewrite (plot_1D_points _ _ _ _ _ _ _ _ _ _ _ _ _ _ _ HS HD H HI Hd HB). split; rewrite linspace_nth by lia; f_equal.
  - rewrite qn_0. ring.
  - field. apply qn_neq0. lia.
Qed.
Lemma contours_flat_lemma marginals bins a lam_ref lam_refs pd lab filename ext figs i j nj m : In ((i, j), (nj, m)) marginals -> nj <= 1 \/ length m <= 1 ->
  plot_2D_marginal_contours marginals bins a lam_ref lam_refs pd lab filename ext <> Ok figs.
Proof.
  intros HI HF H. unfold plot_2D_marginal_contours in H. destruct (the_set a) as [s|]; [|discriminate]. cbn [bind] in H. apply each_forall2 in H.
  destruct (forall2_in_l _ _ _ H _ HI) as (f & _ & E). exact (contour_flat_lemma _ _ _ _ _ _ _ _ _ _ _ _ _ HF E).
Qed.
Lemma image_empty_lemma marginals bins a filename lam_ref surf lab ext r i j nj m : In ((i, j), (nj, m)) marginals -> nj = 0 \/ length m = 0 ->
  plot_2D_marginal_probs marginals bins a filename lam_ref surf lab ext <> Ok r.
Proof.
  intros HI HF H. unfold plot_2D_marginal_probs in H. destruct (the_set a) as [s|]; [|discriminate]. cbn [bind] in H.
  destruct (each (plot_2D_one _ _ _ _ _ _) marginals) as [images|] eqn:E; [|discriminate]. clear H. apply each_forall2 in E.
  destruct (forall2_in_l _ _ _ E _ HI) as (f & _ & G). unfold plot_2D_one in G.
  assert (Z : ((nj =? 0) || (length m =? 0))%bool = true) by (destruct HF as [-> | ->]; [reflexivity|apply orb_true_r]). rewrite Z in G.
  destruct (index (nth_error bins i)) as [bi|]; [|discriminate]. cbn [bind] in G. destruct (first_width bi); [|discriminate]. cbn [bind] in G.
  destruct (index (nth_error bins j)) as [bj|]; [|discriminate]. cbn [bind] in G. destruct (first_width bj); [|discriminate]. cbn [bind] in G.
  destruct (domain_row s i); [|discriminate]. cbn [bind] in G. destruct (domain_row s j); discriminate.
Qed.
Lemma other_object_lemma bins filename lam_ref lab ext (m1 : list (nat * list Qc)) m2 surf refs pd :
  plot_1D_marginal_probs m1 bins MOther filename lam_ref lab ext = Raise BadObject /\
  plot_2D_marginal_probs m2 bins MOther filename lam_ref surf lab ext = Raise BadObject /\
  plot_2D_marginal_contours m2 bins MOther lam_ref refs pd lab filename ext = Raise BadObject.
Proof. repeat split. Qed.
