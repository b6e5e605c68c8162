From Coq Require Import List Arith Bool QArith Qcanon Lia Permutation.
From Verif Require Import Err Num Ext NumPy Lists Prob_Model Prob_Spec Prob_Proofs Query_Model Query_Spec Query_Proofs SimpleFun_Model SimpleFun_Spec SimpleFun_Proofs OutCells_Spec OutCells_Proofs OutGrid_Spec.
Import ListNotations.
Local Open Scope nat_scope.

(** ** One dimension *)
Definition inside1 (v : Qc) (p : Qc * Qc) : Prop := (fst p < v)%Qc /\ (v <= snd p)%Qc.
Definition nests (l m : list Qc) : Prop := breakpoints l /\ breakpoints m /\ (forall v, In v m -> In v l) /\ hd 0%Qc l = hd 0%Qc m /\ last l 0%Qc = last m 0%Qc.
Lemma corner1 l m p q v : nests l m -> In p (ivs l) -> In q (ivs m) -> inside1 v p -> inside1 v q -> inside1 (snd p) q.
Proof.
  intros ((_ & I) & _ & S & _) Hp Hq (A1 & A2) (B1 & B2). destruct p as [a b], q as [A B]. cbn [fst snd] in *. split; cbn [fst snd].
  - eapply Qclt_le_trans; eassumption.
  - apply ivs_consecutive in Hp. destruct Hp as (i & Ha & Hb). apply ivs_consecutive in Hq. destruct Hq as (j & _ & HB). apply nth_error_In in HB. apply S in HB. apply In_nth_error in HB. destruct HB as [n Hn].
    destruct (Nat.lt_trichotomy n (Datatypes.S i)) as [K|[K|K]].
    + exfalso. assert (LE : (B <= a)%Qc). { destruct (Nat.eq_dec n i) as [->|N]; [rewrite Hn in Ha; injection Ha as ->; apply Qcle_refl|]. apply Qclt_le_weak. apply (increasing_lt l I n i); [lia|exact Hn|exact Ha]. }
      apply (Qcle_not_lt v a); [eapply Qcle_trans; eassumption|exact A1].
    + subst n. rewrite Hn in Hb. injection Hb as ->. apply Qcle_refl.
    + apply Qclt_le_weak. apply (increasing_lt l I (Datatypes.S i) n); assumption.
Qed.
Lemma upper_inside l p : increasing l -> In p (ivs l) -> inside1 (snd p) p.
Proof. intros I Hp. destruct p as [a b]. apply ivs_consecutive in Hp. destruct Hp as (i & Ha & Hb). split; cbn [fst snd]; [apply (increasing_lt l I i (S i)); [lia|exact Ha|exact Hb]|apply Qcle_refl]. Qed.

(** ** Grids *)
Definition inside (x : list Qc) (c : list (Qc * Qc)) : Prop := Forall2 inside1 x c.
Definition grid (xi : list (list Qc)) : list (list (Qc * Qc)) := mesh_rows (map ivs xi).
Lemma corner xi yi c c' x : Forall2 nests xi yi -> Forall2 (@In _) c (map ivs xi) -> Forall2 (@In _) c' (map ivs yi) -> inside x c -> inside x c' -> inside (map snd c) c'.
Proof.
  intros H. revert c c' x. induction H as [|l m xi yi N H IH]; intros c c' x Hc Hc' X X'; cbn [map] in *.
  - inversion Hc; subst. inversion Hc'; subst. constructor.
  - inversion Hc as [|p ? d ? Hp Hd]; subst. inversion Hc' as [|q ? d' ? Hq Hd']; subst. inversion X as [|v ? x' ? V X1]; subst. inversion X' as [|? ? ? ? V' X1']; subst. cbn [map]. constructor; [exact (corner1 l m p q v N Hp Hq V V')|]. exact (IH d d' x' Hd Hd' X1 X1').
Qed.
Lemma uppers_inside xi c : (forall l, In l xi -> breakpoints l) -> Forall2 (@In _) c (map ivs xi) -> inside (map snd c) c.
Proof.
  revert c. induction xi as [|l xi IH]; intros c B Hc; cbn [map] in *; inversion Hc as [|p ? d ? Hp Hd]; subst; [constructor|]. cbn [map]. constructor; [apply (upper_inside l); [apply B; left; reflexivity|exact Hp]|]. apply IH; [intros k Hk; apply B; right; exact Hk|exact Hd].
Qed.
Lemma outer_same xi yi x : Forall2 nests xi yi -> in_outer_box xi x -> in_outer_box yi x.
Proof.
  intros H (L & K). apply Forall2_nth in H. destruct H as [LH H]. split; [congruence|]. intros j a m Ha Hm. destruct (nth_error xi j) as [l|] eqn:El; [|apply nth_error_None in El; apply nth_error_lt in Hm; lia].
  destruct (H j l m El Hm) as (_ & _ & _ & E1 & E2). rewrite <- E1, <- E2. exact (K j a l Ha El).
Qed.
Lemma outer_back xi yi x : Forall2 nests xi yi -> in_outer_box yi x -> in_outer_box xi x.
Proof.
  intros H (L & K). apply Forall2_nth in H. destruct H as [LH H]. split; [congruence|]. intros j a l Ha El. destruct (nth_error yi j) as [m|] eqn:Hm; [|apply nth_error_None in Hm; apply nth_error_lt in El; lia].
  destruct (H j l m El Hm) as (_ & _ & _ & E1 & E2). rewrite E1, E2. exact (K j a m Ha Hm).
Qed.

Section Grid.
Variables (d : nat) (xi : list (list Qc)).
Hypotheses (L : length xi = d) (D : 1 <= d) (B : forall l, In l xi -> breakpoints l).
Lemma map_ivs_ne : map ivs xi <> []. Proof. clear B. destruct xi; [cbn in L; lia|discriminate]. Qed.
Lemma xi_ne : xi <> []. Proof. clear B. destruct xi; [cbn in L; lia|discriminate]. Qed.
Lemma grid_In c : In c (grid xi) <-> Forall2 (@In _) c (map ivs xi).
Proof. apply mesh_rows_In. exact map_ivs_ne. Qed.
Lemma grid_NoDup : NoDup (grid xi).
Proof. apply mesh_rows_NoDup. intros l Hl. apply in_map_iff in Hl. destruct Hl as (k & <- & Hk). apply ivs_NoDup, B, Hk. Qed.
Lemma inside_box x c : inside x c <-> in_box x (map fst c) (map snd c).
Proof. rewrite in_box_pairs. reflexivity. Qed.
Lemma grid_outer x : in_outer_box xi x <-> exists c, In c (grid xi) /\ inside x c.
Proof.
  rewrite (grid_point xi x B). split; intros (c & Hc & X); exists c; (split; [apply (same_cells xi c xi_ne); exact Hc|apply inside_box; exact X]).
Qed.
Lemma grid_unique x c c' : In c (grid xi) -> In c' (grid xi) -> inside x c -> inside x c' -> c = c'.
Proof. intros Hc Hc' X X'. apply (grid_point_unique xi x c c' B); [apply grid_In; exact Hc|apply grid_In; exact Hc'|apply inside_box; exact X|apply inside_box; exact X']. Qed.
Lemma grid_index i j c : nth_error (grid xi) i = Some c -> nth_error (grid xi) j = Some c -> i = j.
Proof. intros Hi Hj. apply (proj1 (NoDup_nth_error (grid xi)) grid_NoDup); [apply nth_error_Some; congruence|congruence]. Qed.
Lemma grid_answer s x : cart_setup d xi = Ok s -> length x = d -> exists k e, rect_query s x 1 = Ok [(k, e)] /\
  ((exists c, nth_error (grid xi) k = Some c /\ inside x c) \/ (k = length (grid xi) /\ forall c, In c (grid xi) -> ~ inside x c)).
Proof.
  intros HS Lx. destruct (cart_setup_ok d xi L D B) as (s' & HS' & EL & ER & Ed & HR). rewrite HS in HS'. injection HS' as <-. fold (grid xi) in *.
  destruct (rect_query_first _ _ _ _ _ HR Lx) as (k & e & E & A). exists k, e. split; [exact E|]. rewrite map_length in A.
  assert (BC : forall i c, nth_error (grid xi) i = Some c -> (box_contains (map (map fst) (grid xi)) (map (map snd) (grid xi)) x i <-> inside x c)).
  { intros i c Hc. unfold box_contains. split.
    - intros (l & r & Hl & Hr & X). rewrite nth_error_map, Hc in Hl, Hr. injection Hl as <-. injection Hr as <-. apply inside_box. exact X.
    - intros X. exists (map fst c), (map snd c). rewrite !nth_error_map, Hc. split; [reflexivity|]. split; [reflexivity|]. apply inside_box. exact X. }
  destruct A as [((K & C & _) & _)|(-> & _ & N)].
  - left. destruct (nth_error (grid xi) k) as [c|] eqn:Ec; [|apply nth_error_None in Ec; lia]. exists c. split; [reflexivity|]. apply (BC k c Ec). exact C.
  - right. split; [reflexivity|]. intros c Hc X. apply In_nth_error in Hc. destruct Hc as [i Hi]. apply (N i); [apply nth_error_Some; congruence|]. apply (BC i c Hi). exact X.
Qed.
End Grid.

Section Nested.
Variables (d : nat) (xi yi : list (list Qc)) (s t : rset).
Hypotheses (L : length xi = d) (D : 1 <= d) (N : Forall2 nests xi yi) (HS : cart_setup d xi = Ok s) (HT : cart_setup d yi = Ok t).
Lemma Ly : length yi = d. Proof. rewrite <- L. symmetry. eapply Forall2_length. exact N. Qed.
Lemma Bx l : In l xi -> breakpoints l.
Proof. intros H. apply In_nth_error in H. destruct H as [j Hj]. apply Forall2_nth in N. destruct N as [LN K]. destruct (nth_error yi j) as [m|] eqn:Em; [|apply nth_error_None in Em; apply nth_error_lt in Hj; lia]. apply (K j l m Hj Em). Qed.
Lemma By m : In m yi -> breakpoints m.
Proof. intros H. apply In_nth_error in H. destruct H as [j Hj]. apply Forall2_nth in N. destruct N as [LN K]. destruct (nth_error xi j) as [l|] eqn:El; [|apply nth_error_None in El; apply nth_error_lt in Hj; lia]. apply (K j l m El Hj). Qed.
Definition found (x : list Qc) : nat := match rect_query t x 1 with Ok [(j, _)] => j | _ => length (grid yi) end.
Definition part_of (k : nat) : nat := match nth_error (grid xi) k with Some c => found (map snd c) | None => length (grid yi) end.
Lemma cell_length c : In c (grid xi) -> length c = d.
Proof. intros H. apply (grid_In d xi L D) in H. rewrite (Forall2_length _ _ _ H), map_length. exact L. Qed.
(** The old cell that contains a part *)
Lemma part_cell k c : nth_error (grid xi) k = Some c -> exists c', nth_error (grid yi) (part_of k) = Some c' /\ inside (map snd c) c'.
Proof.
  intros Hc. pose proof (nth_error_In _ _ Hc) as Ic. unfold part_of. rewrite Hc. unfold found.
  assert (Lc : length (map snd c) = d) by (rewrite map_length; apply cell_length; exact Ic).
  destruct (grid_answer d yi Ly D By t (map snd c) HT Lc) as (j & e & E & [(c' & Hc' & X)|(_ & NO)]); rewrite E; [exists c'; split; assumption|]. exfalso.
  assert (O : in_outer_box xi (map snd c)). { apply (grid_outer d xi L D Bx). exists c. split; [exact Ic|]. apply (uppers_inside xi); [exact Bx|apply (grid_In d xi L D); exact Ic]. }
  apply (outer_same xi yi _ N) in O. apply (grid_outer d yi Ly D By) in O. destruct O as (c' & Hc' & X). exact (NO c' Hc' X).
Qed.
Lemma part_query x k e j e' : length x = d -> rect_query s x 1 = Ok [(k, e)] -> rect_query t x 1 = Ok [(j, e')] -> j = part_of k /\ k <= length (grid xi).
Proof.
  intros Lx Ek Ej. destruct (grid_answer d xi L D Bx s x HS Lx) as (k0 & e0 & E0 & A). rewrite Ek in E0. injection E0 as <- <-.
  destruct (grid_answer d yi Ly D By t x HT Lx) as (j0 & e1 & E1 & A'). rewrite Ej in E1. injection E1 as <- <-.
  destruct A as [(c & Hc & X)|(-> & NO)].
  - split; [|apply Nat.lt_le_incl; apply nth_error_Some; congruence]. pose proof (nth_error_In _ _ Hc) as Ic. destruct (part_cell k c Hc) as (c' & Hc' & X').
    destruct A' as [(c2 & Hc2 & X2)|(_ & NO')].
    + pose proof (corner xi yi c c2 x N (proj1 (grid_In d xi L D c) Ic) (proj1 (grid_In d yi Ly D c2) (nth_error_In _ _ Hc2)) X X2) as X3.
      assert (c' = c2) as -> by (apply (grid_unique d yi Ly D By (map snd c)); [exact (nth_error_In _ _ Hc')|exact (nth_error_In _ _ Hc2)|exact X'|exact X3]). exact (grid_index yi By j (part_of k) c2 Hc2 Hc').
    + exfalso. assert (O : in_outer_box xi x) by (apply (grid_outer d xi L D Bx); exists c; split; assumption). apply (outer_same xi yi _ N) in O. apply (grid_outer d yi Ly D By) in O. destruct O as (c2 & Hc2 & X2). exact (NO' c2 Hc2 X2).
  - split; [|apply Nat.le_refl]. unfold part_of. assert (nth_error (grid xi) (length (grid xi)) = None) as -> by (apply nth_error_None; apply Nat.le_refl).
    destruct A' as [(c2 & Hc2 & X2)|(-> & _)]; [|reflexivity]. exfalso.
    assert (O : in_outer_box yi x) by (apply (grid_outer d yi Ly D By); exists c2; split; [exact (nth_error_In _ _ Hc2)|exact X2]). apply (outer_back xi yi _ N) in O. apply (grid_outer d xi L D Bx) in O. destruct O as (c & Hc & X). exact (NO c Hc X).
Qed.
Definition in1b (q p : Qc * Qc) : bool := (qltb (fst q) (snd p) && qleb (snd p) (snd q))%bool.
Lemma in1b_spec q p : in1b q p = true <-> inside1 (snd p) q.
Proof. unfold in1b, inside1. rewrite andb_true_iff, qltb_true, qleb_true. reflexivity. Qed.
Definition insideb (c' c : list (Qc * Qc)) : bool := forallb (fun qp => in1b (fst qp) (snd qp)) (combine c' c).
Lemma insideb_spec c' c : length c' = length c -> (insideb c' c = true <-> inside (map snd c) c').
Proof.
  unfold insideb, inside. revert c. induction c' as [|q c' IH]; intros [|p c] H; try discriminate H; cbn [combine forallb map fst snd]; [split; constructor|]. rewrite andb_true_iff, in1b_spec, (IH c) by (injection H as H; exact H). split.
  - intros [A1 A2]. constructor; assumption.
  - intros A. inversion A; subst. split; assumption.
Qed.
Lemma part_iff k c i c' : nth_error (grid xi) k = Some c -> nth_error (grid yi) i = Some c' -> (part_of k =? i) = insideb c' c.
Proof.
  intros Hc Hi. destruct (part_cell k c Hc) as (c2 & H2 & X2). pose proof (nth_error_In _ _ Hi) as Ii.
  assert (LL : length c' = length c). { rewrite (cell_length c (nth_error_In _ _ Hc)). apply (grid_In d yi Ly D) in Ii. rewrite (Forall2_length _ _ _ Ii), map_length. exact Ly. }
  destruct (Nat.eqb_spec (part_of k) i) as [<-|NE].
  - symmetry. apply (insideb_spec c' c LL). rewrite H2 in Hi. injection Hi as <-. exact X2.
  - destruct (insideb c' c) eqn:E; [|reflexivity]. exfalso. apply (insideb_spec c' c LL) in E. apply NE. assert (c2 = c') as -> by (apply (grid_unique d yi Ly D By (map snd c)); [exact (nth_error_In _ _ H2)|exact Ii|exact X2|exact E]). exact (grid_index yi By _ _ c' H2 Hi).
Qed.
(** How many parts a cell has *)
Definition inner (c' : list (Qc * Qc)) : list (list (Qc * Qc)) := map (fun lq => filter (in1b (snd lq)) (ivs (fst lq))) (combine xi c').
Lemma inner_In c' c : length c' = length xi -> (Forall2 (@In _) c (inner c') <-> Forall2 (@In _) c (map ivs xi) /\ insideb c' c = true).
Proof.
  unfold inner. clear. revert c' c. induction xi as [|l x IH]; intros [|q c'] c H; try discriminate H; cbn [combine map fst snd].
  - split; [intros K; inversion K; split; [constructor|reflexivity]|intros [K _]; exact K].
  - injection H as H. split.
    + intros K. inversion K as [|p ? e ? Hp He]; subst. apply filter_In in Hp. apply (IH c' e H) in He. destruct Hp as [P1 P2], He as [E1 E2]. split; [constructor; assumption|]. unfold insideb in *. cbn [combine forallb fst snd]. rewrite P2, E2. reflexivity.
    + intros [K I]. inversion K as [|p ? e ? Hp He]; subst. unfold insideb in I. cbn [combine forallb fst snd] in I. apply andb_true_iff in I. destruct I as [I1 I2]. constructor; [apply filter_In; split; assumption|]. apply (IH c' e H). split; assumption.
Qed.
Lemma part_count c' : In c' (grid yi) -> length (filter (insideb c') (grid xi)) = nat_prod (map (@length _) (inner c')).
Proof.
  intros Hc. assert (LL : length c' = length xi). { apply (grid_In d yi Ly D) in Hc. rewrite (Forall2_length _ _ _ Hc), map_length, L. exact Ly. }
  assert (NE : inner c' <> []). { intros E. apply (f_equal (@length _)) in E. unfold inner in E. rewrite map_length, combine_length, LL, Nat.min_id, L in E. cbn in E. lia. }
  rewrite <- (mesh_rows_length (inner c') NE). apply Permutation_length. apply NoDup_Permutation.
  - apply NoDup_filter. apply (grid_NoDup xi Bx).
  - apply mesh_rows_NoDup. intros l Hl. unfold inner in Hl. apply in_map_iff in Hl. destruct Hl as ([k q] & <- & Hk). apply NoDup_filter. apply ivs_NoDup. apply Bx. cbn. apply in_combine_l in Hk. exact Hk.
  - intros c. rewrite filter_In, (mesh_rows_In _ _ NE), (inner_In c' c LL), (grid_In d xi L D). reflexivity.
Qed.
Lemma sum_seq_list {A} (f : nat -> Qc) (h : A -> Qc) (M : list A) : (forall k c, nth_error M k = Some c -> f k = h c) -> qsum (map f (seq 0 (length M))) = qsum (map h M).
Proof.
  intros H. f_equal. apply nth_error_ext. intros k. rewrite !nth_error_map, nth_error_seq. destruct (nth_error M k) as [c|] eqn:E.
  - assert (K : k < length M) by (apply nth_error_Some; congruence). apply Nat.ltb_lt in K. rewrite K. cbn [option_map Nat.add]. f_equal. apply H. exact E.
  - apply nth_error_None in E. destruct (Nat.ltb_spec k (length M)); [lia|reflexivity].
Qed.
Lemma count_sum {A} (b : A -> bool) w (M : list A) : qsum (map (fun c => if b c then w else 0%Qc) M) = (qn (length (filter b M)) * w)%Qc.
Proof. induction M as [|c M IH]; cbn [map filter qsum length]; [rewrite qn_0; ring|]. rewrite IH. destruct (b c); cbn [length]; [rewrite qn_S|]; ring. Qed.
(** Uniform probabilities on both grids *)
Lemma uniform_subdivides m : 0 < length (grid xi) -> (forall c', In c' (grid yi) -> nat_prod (map (@length _) (inner c')) = m) -> length (grid xi) = m * length (grid yi) ->
  subdivides part_of (repeat (1 / qn (length (grid yi)))%Qc (length (grid yi)) ++ [0%Qc]) (repeat (1 / qn (length (grid xi)))%Qc (length (grid xi)) ++ [0%Qc]).
Proof.
  intros P CM EL. set (n' := length (grid xi)) in *. set (n := length (grid yi)) in *. split.
  - rewrite !app_length, !repeat_length. cbn [length]. intros k _. unfold part_of. destruct (nth_error (grid xi) k) as [c|] eqn:Ec; [|fold n; lia].
    destruct (part_cell k c Ec) as (c' & Hc' & _). unfold part_of in Hc'. rewrite Ec in Hc'. apply nth_error_lt in Hc'. fold n in Hc'. lia.
  - intros i p Hp. rewrite part_sum_seq, app_length, repeat_length. cbn [length]. rewrite seq_app, map_app, qsum_app. cbn [seq map qsum Nat.add].
    assert (Z : nth n' (repeat (1 / qn n')%Qc n' ++ [0%Qc]) 0%Qc = 0%Qc). { rewrite app_nth2 by (rewrite repeat_length; apply Nat.le_refl). rewrite repeat_length, Nat.sub_diag. reflexivity. }
    rewrite Z. replace (if part_of n' =? i then 0%Qc else 0%Qc) with 0%Qc by (destruct (part_of n' =? i); reflexivity).
    assert (W : forall k, k < n' -> nth k (repeat (1 / qn n')%Qc n' ++ [0%Qc]) 0%Qc = (1 / qn n')%Qc).
    { intros k K. rewrite app_nth1 by (rewrite repeat_length; exact K). clear -K. revert k K. generalize (1 / qn n')%Qc. intros w. induction n' as [|q IH]; intros [|k] K; try lia; [reflexivity|]. cbn. apply IH. lia. }
    destruct (Nat.ltb_spec i n) as [Hi|Hi].
    + rewrite nth_error_app1 in Hp by (rewrite repeat_length; exact Hi). apply nth_error_In in Hp. apply repeat_spec in Hp. subst p.
      destruct (nth_error (grid yi) i) as [c'|] eqn:Ec'; [|apply nth_error_None in Ec'; fold n in Ec'; lia].
      rewrite (qsum_map_ext _ (fun k => if part_of k =? i then (1 / qn n')%Qc else 0%Qc)) by (intros k Hk; apply in_seq in Hk; rewrite W by lia; reflexivity).
      unfold n' at 2. rewrite (sum_seq_list _ (fun c => if insideb c' c then (1 / qn n')%Qc else 0%Qc) (grid xi)) by (intros k c Hc; rewrite (part_iff k c i c' Hc Ec'); reflexivity).
      rewrite count_sum, (part_count c' (nth_error_In _ _ Ec')), (CM c' (nth_error_In _ _ Ec')), EL, qn_mul.
      assert (M0 : 0 < m) by (destruct m; [cbn in EL; lia|lia]). assert (N0 : 0 < n) by lia. field. split; apply qn_neq0; assumption.
    + assert (p = 0%Qc) as ->. { rewrite nth_error_app2 in Hp by (rewrite repeat_length; exact Hi). apply nth_error_In in Hp. destruct Hp as [<-|[]]. reflexivity. }
      rewrite qsum_map_zero; [ring|]. intros k Hk. apply in_seq in Hk. destruct (Nat.eqb_spec (part_of k) i) as [E|E]; [|reflexivity]. exfalso.
      destruct (nth_error (grid xi) k) as [c|] eqn:Ec; [|apply nth_error_None in Ec; fold n' in Ec; lia]. destruct (part_cell k c Ec) as (c' & Hc' & _). apply nth_error_lt in Hc'. fold n in Hc'. lia.
Qed.
End Nested.

(** ** Regular partitions *)
Lemma ivs_map f a k : ivs (map f (seq a (S k))) = map (fun i => (f i, f (S i))) (seq a k).
Proof.
  revert a. induction k as [|k IH]; intros a; [reflexivity|]. specialize (IH (S a)). cbn [seq map] in *. rewrite ivs_cons. f_equal. exact IH.
Qed.
Lemma linspace_pos lo hi n : 0 < n -> linspace lo hi n = map (fun i => lo + qn i * ((hi - lo) / qn n))%Qc (seq 0 (S n)).
Proof. destruct n; [lia|reflexivity]. Qed.
Lemma linspace_nests lo hi m n : 0 < m -> 0 < n -> (lo < hi)%Qc -> nests (linspace lo hi (m * n)) (linspace lo hi n).
Proof.
  intros M N H. assert (P : 0 < m * n) by (apply Nat.mul_pos_pos; assumption). split; [apply linspace_breakpoints; assumption|]. split; [apply linspace_breakpoints; assumption|]. split; [|rewrite !linspace_hd, !linspace_last by assumption; split; reflexivity].
  intros v Hv. apply In_nth_error in Hv. destruct Hv as [i Hi]. pose proof (nth_error_lt _ _ _ Hi) as Li. rewrite linspace_length in Li. rewrite linspace_nth in Hi by lia. injection Hi as <-.
  apply (nth_error_In _ (m * i)). rewrite linspace_nth by (try exact P; apply Nat.mul_le_mono_l; lia). f_equal. rewrite !qn_mul. field. split; apply qn_neq0; assumption.
Qed.
Lemma filter_map_length {A B} (f : A -> B) (b : B -> bool) l : length (filter b (map f l)) = length (filter (fun a => b (f a)) l).
Proof. induction l as [|a l IH]; [reflexivity|]. cbn [map filter]. destruct (b (f a)); cbn [length]; congruence. Qed.
Lemma range_count j m N : (j + 1) * m <= N -> length (filter (fun a => (j * m <=? a) && (a <? (j + 1) * m))%bool (seq 0 N)) = m.
Proof.
  intros H. transitivity (length (seq (j * m) m)); [|apply seq_length]. apply Permutation_length. apply NoDup_Permutation; [apply NoDup_filter, seq_NoDup|apply seq_NoDup|].
  intros a. rewrite filter_In, !in_seq, andb_true_iff, Nat.leb_le, Nat.ltb_lt. lia.
Qed.
Lemma count1 lo hi m n q : 0 < m -> 0 < n -> (lo < hi)%Qc -> In q (ivs (linspace lo hi n)) -> length (filter (in1b q) (ivs (linspace lo hi (m * n)))) = m.
Proof.
  intros M N H Hq. assert (P : 0 < m * n) by (apply Nat.mul_pos_pos; assumption). rewrite (linspace_pos lo hi n N), ivs_map in Hq. apply in_map_iff in Hq. destruct Hq as (j & <- & Hj). apply in_seq in Hj.
  rewrite (linspace_pos lo hi (m * n) P), ivs_map, filter_map_length. rewrite <- (range_count j m (m * n)) at 2 by nia. f_equal. apply filter_ext. intros a.
  set (h := ((hi - lo) / qn (m * n))%Qc). assert (Ph : (0 < h)%Qc) by (apply qc_div_pos; [qc_lra|apply qn_pos; exact P]).
  assert (E : ((hi - lo) / qn n)%Qc = (qn m * h)%Qc) by (unfold h; rewrite qn_mul; field; split; apply qn_neq0; assumption). rewrite E.
  unfold in1b. cbn [fst snd].
  assert (A : forall x y, (x < y)%nat -> (lo + qn x * h < lo + qn y * h)%Qc).
  { intros x y L. assert (K : (qn x < qn y)%Qc) by (apply qn_lt; exact L). assert (0 < (qn y - qn x) * h)%Qc by (apply qc_mul_pos; [revert K; generalize (qn x) (qn y); clear; intros; qc_lra|exact Ph]). replace (lo + qn y * h)%Qc with (lo + qn x * h + (qn y - qn x) * h)%Qc by ring. revert H0. generalize ((qn y - qn x) * h)%Qc (qn x * h)%Qc. clear. intros. qc_lra. }
  assert (A' : forall x y, (x <= y)%nat -> (lo + qn x * h <= lo + qn y * h)%Qc).
  { intros x y L. destruct (Nat.eq_dec x y) as [->|NE]; [apply Qcle_refl|]. apply Qclt_le_weak, A. lia. }
  replace (lo + qn j * (qn m * h))%Qc with (lo + qn (j * m) * h)%Qc by (rewrite qn_mul; ring). replace (lo + qn (S j) * (qn m * h))%Qc with (lo + qn ((j + 1) * m) * h)%Qc by (rewrite qn_mul, Nat.add_1_r; ring).
  f_equal.
  - destruct (Nat.leb_spec (j * m) a) as [K|K].
    + apply qltb_true. apply A. lia.
    + apply qltb_false. apply A'. lia.
  - destruct (Nat.ltb_spec a ((j + 1) * m)) as [K|K].
    + apply qleb_true. apply A'. lia.
    + apply qleb_false. apply A. lia.
Qed.
Lemma prod_pos l : (forall n, In n l -> 0 < n) -> 0 < nat_prod l.
Proof. unfold nat_prod. induction l as [|n l IH]; intros H; cbn [fold_right]; [lia|]. apply Nat.mul_pos_pos; [apply H; left; reflexivity|]. apply IH. intros k Hk. apply H. right. exact Hk. Qed.
Section RegularPair.
Variables (dim : nat) (Q size : list Qc) (ms cells : list nat).
Hypotheses (LQ : length Q = dim) (LS : length size = dim) (LM : length ms = dim) (LC : length cells = dim) (Hd : 1 <= dim)
  (Pos : forall s, In s size -> (0 < s)%Qc) (Mpos : forall m, In m ms -> 0 < m) (Cpos : forall n, In n cells -> 0 < n).
Lemma mult_length : length (multiplied ms cells) = dim.
Proof. unfold multiplied. rewrite map_length, combine_length. lia. Qed.
Lemma mult_nth j m n : nth_error ms j = Some m -> nth_error cells j = Some n -> nth_error (multiplied ms cells) j = Some (m * n).
Proof. intros A B. unfold multiplied. rewrite nth_error_map, nth_error_combine, A, B. reflexivity. Qed.
Lemma mult_pos n : In n (multiplied ms cells) -> 0 < n.
Proof. intros H. unfold multiplied in H. apply in_map_iff in H. destruct H as ((a, b) & <- & I). cbn. apply Nat.mul_pos_pos; [apply Mpos; apply in_combine_l in I; exact I|apply Cpos; apply in_combine_r in I; exact I]. Qed.
Lemma mult_prod : nat_prod (multiplied ms cells) = nat_prod ms * nat_prod cells.
Proof.
  assert (E : length ms = length cells) by congruence. clear -E. unfold multiplied, nat_prod. revert cells E. induction ms as [|m l IH]; intros [|n c] E; try discriminate E; [reflexivity|]. cbn [combine map fold_right fst snd]. rewrite (IH c) by (injection E as E; exact E). lia.
Qed.
Lemma edges_eq cs j c s n : nth_error Q j = Some c -> nth_error size j = Some s -> nth_error cs j = Some n -> nth_error (edges_of Q size cs) j = Some (linspace (vhalf_sub c s) (vhalf_add c s) n).
Proof. intros A B C. unfold edges_of. rewrite nth_error_map, !nth_error_combine, A, B, C. reflexivity. Qed.
Lemma edges_len cs : length cs = dim -> length (edges_of Q size cs) = dim.
Proof. intros E. unfold edges_of. rewrite map_length, !combine_length. lia. Qed.
Lemma at_nth {A} (l : list A) j : length l = dim -> j < dim -> exists a, nth_error l j = Some a.
Proof. intros E H. destruct (nth_error l j) as [a|] eqn:K; [exists a; reflexivity|]. apply nth_error_None in K. lia. Qed.
Lemma edges_nests : Forall2 nests (edges_of Q size (multiplied ms cells)) (edges_of Q size cells).
Proof.
  apply Forall2_nth. split; [rewrite (edges_len _ mult_length), (edges_len _ LC); reflexivity|]. intros j l m Hl Hm. assert (J : j < dim) by (apply nth_error_lt in Hm; rewrite (edges_len _ LC) in Hm; exact Hm).
  destruct (at_nth Q j LQ J) as [c Ec]. destruct (at_nth size j LS J) as [s Es]. destruct (at_nth ms j LM J) as [k Ek]. destruct (at_nth cells j LC J) as [n En].
  rewrite (edges_eq _ _ _ _ _ Ec Es (mult_nth j k n Ek En)) in Hl. rewrite (edges_eq _ _ _ _ _ Ec Es En) in Hm. injection Hl as <-. injection Hm as <-.
  apply linspace_nests; [apply Mpos; exact (nth_error_In _ _ Ek)|apply Cpos; exact (nth_error_In _ _ En)|]. apply side_pos. apply Pos. exact (nth_error_In _ _ Es).
Qed.
Lemma grid_size cs : length cs = dim -> (forall n, In n cs -> 0 < n) -> length (grid (edges_of Q size cs)) = nat_prod cs.
Proof.
  intros E P. unfold grid. rewrite mesh_rows_length.
  - f_equal. rewrite map_map. apply nth_error_ext. intros j. rewrite nth_error_map. destruct (nth_error (edges_of Q size cs) j) as [l|] eqn:El.
    + assert (J : j < dim) by (apply nth_error_lt in El; rewrite (edges_len _ E) in El; exact El). destruct (at_nth Q j LQ J) as [c Ec]. destruct (at_nth size j LS J) as [s Es]. destruct (at_nth cs j E J) as [n En].
      rewrite (edges_eq _ _ _ _ _ Ec Es En) in El. injection El as <-. rewrite En. cbn [option_map]. rewrite ivs_length, linspace_length. f_equal. lia.
    + apply nth_error_None in El. rewrite (edges_len _ E) in El. symmetry. apply nth_error_None. lia.
  - intros K. apply (f_equal (@length _)) in K. rewrite map_length, (edges_len _ E) in K. cbn in K. lia.
Qed.
Lemma inner_counts c' : In c' (grid (edges_of Q size cells)) -> map (@length _) (inner (edges_of Q size (multiplied ms cells)) c') = ms.
Proof.
  intros H. apply (grid_In dim _ (edges_len _ LC) Hd) in H. apply Forall2_nth in H. rewrite map_length, (edges_len _ LC) in H. destruct H as [Lc H]. unfold inner. rewrite map_map. apply nth_error_ext. intros j. rewrite nth_error_map, nth_error_combine.
  destruct (Nat.lt_ge_cases j dim) as [J|J].
  - destruct (at_nth Q j LQ J) as [c Ec]. destruct (at_nth size j LS J) as [s Es]. destruct (at_nth ms j LM J) as [k Ek]. destruct (at_nth cells j LC J) as [n En]. destruct (at_nth c' j Lc J) as [q Eq].
    rewrite (edges_eq _ _ _ _ _ Ec Es (mult_nth j k n Ek En)), Eq, Ek. cbn [option_map fst snd]. f_equal. apply count1; [apply Mpos; exact (nth_error_In _ _ Ek)|apply Cpos; exact (nth_error_In _ _ En)|apply side_pos; apply Pos; exact (nth_error_In _ _ Es)|].
    apply (H j q _ Eq). rewrite nth_error_map, (edges_eq _ _ _ _ _ Ec Es En). reflexivity.
  - assert (nth_error (edges_of Q size (multiplied ms cells)) j = None) as -> by (apply nth_error_None; rewrite (edges_len _ mult_length); exact J). symmetry. apply nth_error_None. lia.
Qed.
Lemma map_fin_inj (a b : list Qc) : map Fin a = map Fin b -> a = b.
Proof. revert b. induction a as [|x a IH]; intros [|y b] E; try discriminate E; [reflexivity|]. cbn [map] in E. injection E as -> E. f_equal. apply IH. exact E. Qed.
Lemma regular_nested_lemma s t pf pc : regular_partition dim Q size (multiplied ms cells) = Ok (s, map Fin pf) -> regular_partition dim Q size cells = Ok (t, map Fin pc) -> exists g,
  subdivides g pc pf /\ forall x k e j e', length x = dim -> rect_query s x 1 = Ok [(k, e)] -> rect_query t x 1 = Ok [(j, e')] -> j = g k /\ k < length pf.
Proof.
  intros E1 E2. destruct (regular_ok dim Q size (multiplied ms cells) LQ LS mult_length Hd Pos mult_pos) as (s' & R1 & C1 & _). destruct (regular_ok dim Q size cells LQ LS LC Hd Pos Cpos) as (t' & R2 & C2 & _).
  rewrite E1 in R1. injection R1 as <- R1. apply map_fin_inj in R1. subst pf. rewrite E2 in R2. injection R2 as <- R2. apply map_fin_inj in R2. subst pc.
  exists (part_of (edges_of Q size (multiplied ms cells)) (edges_of Q size cells) t).
  pose proof (grid_size _ mult_length mult_pos) as G1. pose proof (grid_size _ LC Cpos) as G2. split.
  - rewrite <- G1, <- G2. apply (uniform_subdivides dim _ _ s t (edges_len _ mult_length) Hd edges_nests C1 C2 (nat_prod ms)).
    + rewrite G1. apply prod_pos. exact mult_pos.
    + intros c' Hc'. rewrite (inner_counts c' Hc'). reflexivity.
    + rewrite G1, G2. exact mult_prod.
  - intros x k e j e' Lx Ek Ej. destruct (part_query dim _ _ s t (edges_len _ mult_length) Hd edges_nests C1 C2 x k e j e' Lx Ek Ej) as [P1 P2]. split; [exact P1|]. rewrite app_length, repeat_length, <- G1. cbn [length]. lia.
Qed.
Lemma found_map s t g outputs fptrs cptrs n : (forall x k e j e', length x = dim -> rect_query s x 1 = Ok [(k, e)] -> rect_query t x 1 = Ok [(j, e')] -> j = g k /\ k < n) ->
  (forall x, In x (concat outputs) -> length x = dim) -> found_in s outputs fptrs -> found_in t outputs cptrs -> cptrs = map (map g) fptrs /\ forall k, In k (concat fptrs) -> k < n.
Proof.
  clear LQ LS LM LC Hd. intros K LX F. revert cptrs LX. unfold found_in in *. induction F as [|b f bs fs Hb F IH]; intros cptrs LX C; inversion C as [|? c ? cs Hc C1]; subst; [split; [reflexivity|intros k []]|].
  assert (X : c = map g f /\ forall k, In k f -> k < n).
  { assert (LB : forall x, In x b -> length x = dim) by (intros x Hx; apply LX; cbn; apply in_or_app; left; exact Hx). clear -K Hb Hc LB. revert c Hc LB. induction Hb as [|x k xs ks (e & Ek) Hb IH]; intros c Hc LB; inversion Hc as [|? j ? js (e' & Ej) Hc1]; subst; [split; [reflexivity|intros k []]|].
    destruct (IH js Hc1) as [E1 E2]; [intros y Hy; apply LB; right; exact Hy|]. destruct (K x k e j e' (LB x (or_introl eq_refl)) Ek Ej) as [-> Lk]. subst js. split; [reflexivity|]. intros i [<-|Hi]; [exact Lk|apply E2; exact Hi]. }
  destruct X as [-> X]. destruct (IH cs) as [-> Y]; [intros x Hx; apply LX; cbn; apply in_or_app; right; exact Hx|exact C1|]. split; [reflexivity|]. intros k Hk. cbn in Hk. apply in_app_or in Hk. destruct Hk as [Hk|Hk]; [apply X; exact Hk|apply Y; exact Hk].
Qed.
Lemma regular_finer_lemma s t pf pc outputs fptrs cptrs vols F C : regular_partition dim Q size (multiplied ms cells) = Ok (s, map Fin pf) -> regular_partition dim Q size cells = Ok (t, map Fin pc) ->
  (forall x, In x (concat outputs) -> length x = dim) -> found_in s outputs fptrs -> found_in t outputs cptrs -> same_lengths fptrs vols -> nonneg (concat vols) ->
  prob pf fptrs vols = Ok F -> prob pc cptrs vols = Ok C -> forall i p, nth_error pc i = Some p ->
  (in_cell (concat cptrs) (concat F) i <= in_cell (concat cptrs) (concat C) i)%Qc /\
  ((forall k, k < nat_prod (multiplied ms cells) -> (0 < in_cell (concat fptrs) (concat vols) k)%Qc) -> in_cell (concat cptrs) (concat F) i = p /\ in_cell (concat cptrs) (concat C) i = p).
Proof.
  intros E1 E2 LX F1 F2 S NV EF EC i p Ep. destruct (regular_nested_lemma s t pf pc E1 E2) as (g & SD & K). destruct (found_map s t g outputs fptrs cptrs _ K LX F1 F2) as [EP BP].
  destruct (regular_ok dim Q size (multiplied ms cells) LQ LS mult_length Hd Pos mult_pos) as (s' & R1 & _). rewrite E1 in R1. injection R1 as _ R1. apply map_fin_inj in R1.
  assert (NF : nonneg pf). { rewrite R1. intros x Hx. apply in_app_or in Hx. destruct Hx as [Hx|[<-|[]]]; [|apply Qcle_refl]. apply repeat_spec in Hx. subst x. unfold Qcdiv. rewrite Qcmult_1_l. apply Qclt_le_weak, qc_inv_pos, qn_pos, prod_pos. exact mult_pos. }
  assert (EI : in_cell (concat cptrs) (concat F) i = in_parts g (concat fptrs) (concat F) i) by (rewrite EP, concat_map_map', <- parts_coarse; reflexivity). rewrite EI. split.
  - eapply finer_le; eassumption.
  - intros All. apply (finer_keeps g pc pf fptrs cptrs vols F C S NV NF BP SD EP EF EC i p Ep). intros k q Hk _ Pq. apply All.
    pose proof (nth_error_lt _ _ _ Hk) as Lk. rewrite R1, app_length, repeat_length in Lk. cbn [length] in Lk. destruct (Nat.eq_dec k (nat_prod (multiplied ms cells))) as [->|NE]; [|lia]. exfalso.
    rewrite R1, nth_error_app2, repeat_length, Nat.sub_diag in Hk by (rewrite repeat_length; apply Nat.le_refl). injection Hk as <-. revert Pq. apply Qcle_not_lt, Qcle_refl.
Qed.
Lemma regular_loses_lemma s t pf pc outputs fptrs cptrs vols F : regular_partition dim Q size (multiplied ms cells) = Ok (s, map Fin pf) -> regular_partition dim Q size cells = Ok (t, map Fin pc) ->
  (forall x, In x (concat outputs) -> length x = dim) -> found_in s outputs fptrs -> found_in t outputs cptrs -> same_lengths fptrs vols ->
  prob pf fptrs vols = Ok F -> forall k, k < nat_prod (multiplied ms cells) -> in_cell (concat fptrs) (concat vols) k = 0%Qc ->
  exists i p, nth_error pc i = Some p /\ (in_cell (concat cptrs) (concat F) i <= p - 1 / qn (nat_prod (multiplied ms cells)))%Qc.
Proof.
  intros E1 E2 LX F1 F2 S EF k Hk Z. destruct (regular_nested_lemma s t pf pc E1 E2) as (g & SD & K). destruct (found_map s t g outputs fptrs cptrs _ K LX F1 F2) as [EP BP].
  destruct (regular_ok dim Q size (multiplied ms cells) LQ LS mult_length Hd Pos mult_pos) as (s' & R1 & _). rewrite E1 in R1. injection R1 as _ R1. apply map_fin_inj in R1.
  assert (PV : (0 < 1 / qn (nat_prod (multiplied ms cells)))%Qc) by (unfold Qcdiv; rewrite Qcmult_1_l; apply qc_inv_pos, qn_pos, prod_pos, mult_pos).
  assert (NF : nonneg pf). { rewrite R1. intros x Hx. apply in_app_or in Hx. destruct Hx as [Hx|[<-|[]]]; [|apply Qcle_refl]. apply repeat_spec in Hx. subst x. apply Qclt_le_weak. exact PV. }
  assert (Lk : k < length pf) by (rewrite R1, app_length, repeat_length; lia).
  assert (Ek : nth_error pf k = Some (1 / qn (nat_prod (multiplied ms cells)))%Qc) by (rewrite R1, nth_error_app1 by (rewrite repeat_length; exact Hk); apply nth_error_repeat; exact Hk).
  destruct (nth_error pc (g k)) as [p|] eqn:Ep; [|apply nth_error_None in Ep; pose proof (proj1 SD k Lk); lia].
  exists (g k), p. split; [exact Ep|]. rewrite EP, concat_map_map', <- parts_coarse. apply (finer_loses g pc pf fptrs vols F S NF BP SD EF (g k) p k); [exact Ep|exact Ek|reflexivity|exact PV|exact Z].
Qed.
End RegularPair.
