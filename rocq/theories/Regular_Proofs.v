From Coq Require Import List Arith Bool QArith Qcanon Lia Permutation.
From Verif Require Import Err Num Ext NumPy Lists Show Query_Model Query_Spec Query_Proofs Volume_Model Volume_Spec Volume_Proofs
  Util_Spec Util_Proofs SampleSet_Spec Inverse3_Proofs Sampling_Model Sampling_Spec Sampling_Proofs Regular_Spec.
Import ListNotations.
Local Open Scope nat_scope.

(** ** Powers *)
Lemma pow_nonneg a n : (0 <= a)%Qc -> (0 <= a ^ n)%Qc.
Proof. intros H. induction n as [|n IH]; cbn [Qcpower]; [discriminate|]. apply qc_mul_nonneg; assumption. Qed.
Lemma pow_le a b n : (0 <= a)%Qc -> (a <= b)%Qc -> (a ^ n <= b ^ n)%Qc.
Proof.
  intros A B. induction n as [|n IH]; cbn [Qcpower]; [apply Qcle_refl|]. pose proof (pow_nonneg a n A) as P. apply (Qcle_trans _ (a * b ^ n)%Qc).
  - apply qc_mul_le_l; assumption.
  - apply Qcmult_le_compat_r; [exact B|]. exact (Qcle_trans _ _ _ P IH).
Qed.
Lemma pow_lt a b n : 0 < n -> (0 <= a)%Qc -> (a < b)%Qc -> (a ^ n < b ^ n)%Qc.
Proof.
  intros N A B. destruct n as [|n]; [lia|]. cbn [Qcpower]. pose proof (pow_le a b n A (Qclt_le_weak _ _ B)) as M.
  assert (Pb : (0 < b ^ n)%Qc) by (clear -A B; induction n as [|n IH]; cbn [Qcpower]; [reflexivity|apply qc_mul_pos; [qc_lra|exact IH]]).
  apply (Qcle_lt_trans _ (a * b ^ n)%Qc); [apply qc_mul_le_l; assumption|]. apply Qcmult_lt_compat_r; assumption.
Qed.
Lemma pow_le_iff a b n : 0 < n -> (0 <= a)%Qc -> (0 <= b)%Qc -> ((a ^ n <= b ^ n)%Qc <-> (a <= b)%Qc).
Proof.
  intros N A B. split; [|intros; apply pow_le; assumption]. intros H. destruct (Qclt_le_dec b a) as [L|L]; [|exact L].
  exfalso. exact (Qclt_not_le _ _ (pow_lt b a n N B L) H).
Qed.

(** ** One direction *)
Definition hw (ab : Qc * Qc) (n : nat) : Qc := ((snd ab - fst ab) / qn (2 * n))%Qc.
Lemma half_width a b n : 0 < n -> (hw (a, b) n + hw (a, b) n = (b - a) / qn n)%Qc.
Proof. intros N. unfold hw. cbn [fst snd]. rewrite qn_mul. replace (qn 2) with (1 + 1)%Qc by reflexivity. field. split; first [apply qn_neq0; exact N | discriminate]. Qed.
Lemma hw_pos a b n : (a < b)%Qc -> 0 < n -> (0 < hw (a, b) n)%Qc.
Proof. intros H N. apply qc_div_pos; [cbn [fst snd]; qc_lra|apply qn_pos; lia]. Qed.
Lemma hw_all a b n : 0 < n -> b = (a + qn (2 * n) * hw (a, b) n)%Qc.
Proof. intros N. unfold hw. cbn [fst snd]. field. apply qn_neq0. lia. Qed.
Lemma mid_eq a b n k : 0 < n -> 1 <= k -> midpoint a b n k = (a + qn (2 * k - 1) * hw (a, b) n)%Qc.
Proof.
  intros N K. unfold midpoint. rewrite <- (half_width a b n N). set (h := hw (a, b) n). clearbody h.
  assert (E : (qn (2 * k - 1) = qn k + qn k - 1)%Qc).
  { assert (F : qn (2 * k - 1 + 1) = (qn k + qn k)%Qc) by (rewrite <- qn_add; f_equal; lia). rewrite qn_add, qn_1 in F. rewrite <- F. ring. }
  rewrite E. transitivity (a + (qn k + qn k - (Q2Qc (1 # 2) + Q2Qc (1 # 2))) * h)%Qc; [ring|]. rewrite half_double. reflexivity.
Qed.
Lemma midp_eq a h j k : j <= k -> Nat.Odd j -> Nat.Odd k -> midp (a + qn j * h)%Qc (a + qn k * h)%Qc = (a + qn ((j + k) / 2) * h)%Qc.
Proof.
  intros L [i ->] [m ->]. assert (E : (2 * i + 1 + (2 * m + 1)) / 2 = i + m + 1) by (replace (2 * i + 1 + (2 * m + 1)) with ((i + m + 1) * 2) by lia; apply Nat.div_mul; lia).
  rewrite E. unfold midp, half. rewrite !qn_add, !qn_mul, !qn_1. replace (qn 2) with (1 + 1)%Qc by reflexivity.
  transitivity ((a + (qn i + qn m + 1) * h) * (Q2Qc (1 # 2) + Q2Qc (1 # 2)))%Qc; [ring|]. rewrite half_double. ring.
Qed.
Lemma mult_le a h j k : (0 < h)%Qc -> ((a + qn j * h <= a + qn k * h)%Qc <-> j <= k).
Proof.
  intros H. split.
  - intros L. destruct (le_lt_dec j k) as [|G]; [assumption|]. exfalso. assert (G2 : (qn (k + 1) <= qn j)%Qc) by (apply qn_le; lia). rewrite qn_add, qn_1 in G2.
    assert (M : ((qn k + 1) * h <= qn j * h)%Qc) by (apply Qcmult_le_compat_r; [exact G2|apply Qclt_le_weak; exact H]).
    assert (E : ((qn k + 1) * h = qn k * h + h)%Qc) by ring. rewrite E in M. revert M L. generalize (qn k * h)%Qc (qn j * h)%Qc. intros u v M L. qc_lra.
  - intros L. assert (M : (qn j * h <= qn k * h)%Qc) by (apply Qcmult_le_compat_r; [apply qn_le; exact L|apply Qclt_le_weak; exact H]).
    revert M. generalize (qn k * h)%Qc (qn j * h)%Qc. intros u v M. qc_lra.
Qed.
Lemma mult_lt a h j k : (0 < h)%Qc -> j < k -> (a + qn j * h < a + qn k * h)%Qc.
Proof. intros H L. destruct (Qclt_le_dec (a + qn j * h) (a + qn k * h)) as [G|G]; [exact G|]. apply mult_le in G; [lia|exact H]. Qed.
Lemma odd_pred k : 1 <= k -> Nat.Odd (2 * k - 1).
Proof. intros H. exists (k - 1). lia. Qed.
(** x in the domain is nearest to the midpoint of cell k iff it lies in the cell. *)
Lemma nearest_midpoint a b n k x : (a < b)%Qc -> 1 <= k <= n -> (a <= x)%Qc -> (x <= b)%Qc ->
  ((forall u, In u (map (midpoint a b n) (seq 1 n)) -> (qabs (x - midpoint a b n k) <= qabs (x - u))%Qc) <->
   (midpoint a b n k - hw (a, b) n <= x)%Qc /\ (x <= midpoint a b n k + hw (a, b) n)%Qc).
Proof.
  intros H K X1 X2. assert (N : 0 < n) by lia. pose proof (hw_pos a b n H N) as P. pose proof (hw_all a b n N) as B. assert (ME : forall m, 1 <= m -> midpoint a b n m = (a + qn (2 * m - 1) * hw (a, b) n)%Qc) by (intros m Hm; apply mid_eq; assumption). rewrite (ME k) by lia. set (h := hw (a, b) n) in *. clearbody h.
  assert (ED : (a + qn (2 * k - 1) * h - h = a + qn (2 * k - 2) * h)%Qc) by (replace (2 * k - 1) with (2 * k - 2 + 1) by lia; rewrite qn_add, qn_1; ring).
  assert (EU : (a + qn (2 * k - 1) * h + h = a + qn (2 * k) * h)%Qc) by (replace (2 * k) with (2 * k - 1 + 1) at 2 by lia; rewrite qn_add, qn_1; ring).
  rewrite ED, EU. split.
  - intros C. split.
    + destruct (Nat.eq_dec k 1) as [->|K1]; [change (2 * 1 - 2) with 0; rewrite qn_0; ring_simplify; exact X1|].
      assert (I : In (midpoint a b n (k - 1)) (map (midpoint a b n) (seq 1 n))) by (apply in_map, in_seq; lia). specialize (C _ I).
      rewrite (ME (k - 1)) in C by lia.
      apply closer_right in C; [|apply mult_lt; [exact P|lia]]. rewrite midp_eq in C; [|lia|apply odd_pred; lia|apply odd_pred; lia].
      replace ((2 * (k - 1) - 1 + (2 * k - 1)) / 2) with (2 * k - 2) in C; [exact C|]. replace (2 * (k - 1) - 1 + (2 * k - 1)) with ((2 * k - 2) * 2) by lia. symmetry. apply Nat.div_mul. lia.
    + destruct (Nat.eq_dec k n) as [->|K1]; [rewrite <- B; exact X2|].
      assert (I : In (midpoint a b n (k + 1)) (map (midpoint a b n) (seq 1 n))) by (apply in_map, in_seq; lia). specialize (C _ I).
      rewrite (ME (k + 1)) in C by lia.
      apply closer_left in C; [|apply mult_lt; [exact P|lia]]. rewrite midp_eq in C; [|lia|apply odd_pred; lia|apply odd_pred; lia].
      replace ((2 * k - 1 + (2 * (k + 1) - 1)) / 2) with (2 * k) in C; [exact C|]. replace (2 * k - 1 + (2 * (k + 1) - 1)) with ((2 * k) * 2) by lia. symmetry. apply Nat.div_mul. lia.
  - intros [C1 C2] u Hu. apply in_map_iff in Hu. destruct Hu as (j & <- & Hj). apply in_seq in Hj. rewrite (ME j) by lia.
    destruct (Nat.lt_trichotomy j k) as [L|[->|L]]; [|apply Qcle_refl|].
    + apply closer_right; [apply mult_lt; [exact P|lia]|]. rewrite midp_eq; [|lia|apply odd_pred; lia|apply odd_pred; lia].
      apply (Qcle_trans _ (a + qn (2 * k - 2) * h)%Qc); [apply mult_le; [exact P|]|exact C1].
      replace (2 * j - 1 + (2 * k - 1)) with ((j + k - 1) * 2) by lia. rewrite Nat.div_mul by lia. lia.
    + apply closer_left; [apply mult_lt; [exact P|lia]|]. rewrite midp_eq; [|lia|apply odd_pred; lia|apply odd_pred; lia].
      apply (Qcle_trans _ (a + qn (2 * k) * h)%Qc); [exact C2|apply mult_le; [exact P|]].
      replace (2 * k - 1 + (2 * j - 1)) with ((j + k - 1) * 2) by lia. rewrite Nat.div_mul by lia. lia.
Qed.

(** ** All directions *)
Lemma pdist_cons p x v xs vs : pdist p (x :: xs) (v :: vs) = (qabs (x - v) ^ p + pdist p xs vs)%Qc.
Proof. reflexivity. Qed.
Lemma nearest_product p ls x v : 0 < p -> length x = length ls -> In v (combinations ls) ->
  ((forall w, In w (combinations ls) -> (pdist p x v <= pdist p x w)%Qc) <->
   forall j l y u, nth_error ls j = Some l -> nth_error x j = Some y -> nth_error v j = Some u -> forall u', In u' l -> (qabs (y - u) <= qabs (y - u'))%Qc).
Proof.
  intros Hp. revert x v. induction ls as [|l ls IH]; intros [|x xs] v Hx Hv; try discriminate.
  - cbn [combinations] in Hv. destruct Hv as [<-|[]]. split; [intros _ [|j] ? ? ? E; discriminate|]. intros _ w [<-|[]]. apply Qcle_refl.
  - cbn [combinations] in Hv. apply in_flat_map in Hv. destruct Hv as (u & Hu & Hv). apply in_map_iff in Hv. destruct Hv as (vs & <- & Hv).
    assert (Lx : length xs = length ls) by (cbn [length] in Hx; lia). specialize (IH xs vs Lx Hv). split.
    + intros C. assert (C1 : forall u', In u' l -> (qabs (x - u) <= qabs (x - u'))%Qc).
      { intros u' Hu'. specialize (C (u' :: vs)). rewrite !pdist_cons in C. apply (pow_le_iff _ _ p Hp (qabs_nonneg _) (qabs_nonneg _)).
        assert (I : In (u' :: vs) (combinations (l :: ls))) by (cbn [combinations]; apply in_flat_map; exists u'; split; [exact Hu'|apply in_map; exact Hv]).
        specialize (C I). revert C. generalize (qabs (x - u) ^ p)%Qc (qabs (x - u') ^ p)%Qc (pdist p xs vs). intros; qc_lra. }
      assert (C2 : forall w, In w (combinations ls) -> (pdist p xs vs <= pdist p xs w)%Qc).
      { intros w Hw. specialize (C (u :: w)). rewrite !pdist_cons in C.
        assert (I : In (u :: w) (combinations (l :: ls))) by (cbn [combinations]; apply in_flat_map; exists u; split; [exact Hu|apply in_map; exact Hw]).
        specialize (C I). revert C. generalize (qabs (x - u) ^ p)%Qc (pdist p xs vs) (pdist p xs w). intros; qc_lra. }
      intros [|j] l0 y u0; cbn [nth_error]; [intros [= <-] [= <-] [= <-]; exact C1|]. apply (proj1 IH C2).
    + intros C w Hw. cbn [combinations] in Hw. apply in_flat_map in Hw. destruct Hw as (u' & Hu' & Hw). apply in_map_iff in Hw. destruct Hw as (ws & <- & Hw).
      rewrite !pdist_cons. pose proof (C 0 l x u eq_refl eq_refl eq_refl u' Hu') as C1. apply (pow_le_iff _ _ p Hp (qabs_nonneg _) (qabs_nonneg _)) in C1.
      assert (C2 : (pdist p xs vs <= pdist p xs ws)%Qc) by (apply (proj2 IH); [intros j; exact (C (S j))|exact Hw]).
      revert C1 C2. generalize (qabs (x - u) ^ p)%Qc (qabs (x - u') ^ p)%Qc (pdist p xs vs) (pdist p xs ws). intros; qc_lra.
Qed.
Lemma midpoints_length domain ns : length domain = length ns -> length (midpoints domain ns) = length ns.
Proof. revert ns. induction domain as [|[a b] d IH]; intros [|n ns] L; try discriminate; [reflexivity|]. cbn [midpoints length] in *. rewrite IH; lia. Qed.
Lemma in_cell_box domain ns x v : length domain = length ns -> (forall n, In n ns -> 0 < n) -> (forall ab, In ab domain -> (fst ab < snd ab)%Qc) ->
  inside_closed domain x -> Forall2 (@In Qc) v (midpoints domain ns) ->
  ((forall j l y u, nth_error (midpoints domain ns) j = Some l -> nth_error x j = Some y -> nth_error v j = Some u -> forall u', In u' l -> (qabs (y - u) <= qabs (y - u'))%Qc) <->
   inside_closed (cell_box domain ns v) x).
Proof.
  intros L P D. revert ns x v L P. induction domain as [|[a b] d IH]; intros [|n ns] x v L P X V; try discriminate.
  - inversion X; subst. cbn [midpoints] in *. split; [constructor|intros _ [|j] ? ? ? E; discriminate].
  - inversion X as [|ab y d' xs Xy Xs]; subst. cbn [midpoints] in *. inversion V as [|u l vs ls Hu Hv]; subst. cbn [fst snd] in Xy.
    assert (Ld : length d = length ns) by (cbn [length] in L; lia). specialize (IH (fun ab H => D ab (or_intror H)) ns xs vs Ld (fun m H => P m (or_intror H)) Xs Hv).
    apply in_map_iff in Hu. destruct Hu as (k & <- & Hk). apply in_seq in Hk.
    assert (Hab : (a < b)%Qc) by (apply (D (a, b)); left; reflexivity).
    pose proof (nearest_midpoint a b n k y Hab ltac:(lia) (proj1 Xy) (proj2 Xy)) as NM. unfold hw in NM. cbn [fst snd] in NM.
    unfold cell_box. cbn [combine map fst snd]. split.
    + intros C. constructor; [cbn [fst snd]; apply NM; intros u' Hu'; exact (C 0 _ y _ eq_refl eq_refl eq_refl u' Hu')|].
      apply (proj1 IH). intros j. exact (C (S j)).
    + intros C. inversion C as [|? ? ? ? C1 C2]; subst. cbn [fst snd] in C1. intros [|j] l y' u'; cbn [nth_error].
      * intros [= <-] [= <-] [= <-]. apply NM. exact C1.
      * apply (proj2 IH C2).
Qed.
Lemma regular_cells_lemma p domain ns x i v : 0 < p -> length domain = length ns -> (forall n, In n ns -> 0 < n) -> (forall ab, In ab domain -> (fst ab < snd ab)%Qc) ->
  inside_closed domain x -> nth_error (regular_values domain ns) i = Some v ->
  (nearest (pdist p) (regular_values domain ns) x i <-> inside_closed (cell_box domain ns v) x).
Proof.
  intros Hp L P D X Hi. rewrite (regular_lemma domain ns L P) in *. unfold grid in *.
  assert (Hv : In v (combinations (midpoints domain ns))) by (apply nth_error_In in Hi; exact Hi).
  assert (Lx : length x = length (midpoints domain ns)) by (rewrite (midpoints_length _ _ L), <- L; apply Forall2_length in X; congruence).
  rewrite <- (in_cell_box domain ns x v L P D X) by (apply combinations_row; exact Hv).
  rewrite <- (nearest_product p (midpoints domain ns) x v Hp Lx Hv). unfold nearest. split.
  - intros (v' & E & C) w Hw. rewrite Hi in E. injection E as <-. apply C. exact Hw.
  - intros C. exists v. split; [exact Hi|exact C].
Qed.
Lemma cell_volume_lemma domain ns v : length domain = length ns -> length v = length ns -> (forall n, In n ns -> 0 < n) ->
  (box_volume (cell_box domain ns v) * qn (fold_right Nat.mul 1%nat ns) = box_volume domain)%Qc.
Proof.
  revert ns v. induction domain as [|[a b] d IH]; intros [|n ns] [|y v] L Lv P; try discriminate; [apply Qcmult_1_l|].
  unfold cell_box. cbn [combine map box_volume fst snd fold_right]. rewrite (qn_mul n).
  change (map _ (combine (combine d ns) v)) with (cell_box d ns v). rewrite <- (IH ns v) by (cbn [length] in *; try lia; intros; apply P; right; assumption).
  assert (N : 0 < n) by (apply P; left; reflexivity). pose proof (half_width a b n N) as W. unfold hw in W. cbn [fst snd] in W.
  assert (E : (y + (b - a) / qn (2 * n) - (y - (b - a) / qn (2 * n)) = (b - a) / qn n)%Qc) by (rewrite <- W; ring). rewrite E.
  transitivity (((b - a) / qn n * qn n) * (box_volume (cell_box d ns v) * qn (fold_right Nat.mul 1%nat ns)))%Qc; [ring|].
  rewrite qc_div_mul by (apply qn_neq0; exact N). reflexivity.
Qed.
Lemma box_volume_pos d : (forall ab, In ab d -> (fst ab < snd ab)%Qc) -> (0 < box_volume d)%Qc.
Proof.
  induction d as [|ab d IH]; intros H; cbn [box_volume]; [reflexivity|]. apply qc_mul_pos; [|apply IH; intros; apply H; right; assumption].
  specialize (H ab (or_introl eq_refl)). qc_lra.
Qed.
Lemma prod_pos ns : (forall n, In n ns -> 0 < n) -> 0 < fold_right Nat.mul 1 ns.
Proof. induction ns as [|n ns IH]; intros H; cbn [fold_right]; [lia|]. apply Nat.mul_pos_pos; [apply H; left; reflexivity|apply IH; intros; apply H; right; assumption]. Qed.
Lemma mc_exact_lemma domain ns i v : length domain = length ns -> (forall n, In n ns -> 0 < n) -> (forall ab, In ab domain -> (fst ab < snd ab)%Qc) ->
  nth_error (regular_values domain ns) i = Some v ->
  nth_error (estimate_volume_mc (length (regular_values domain ns))) i = Some (Fin (box_volume (cell_box domain ns v) / box_volume domain)%Qc).
Proof.
  intros L P D Hi. assert (I : i < length (regular_values domain ns)) by (apply nth_error_Some; congruence).
  unfold estimate_volume_mc. rewrite nth_error_repeat by exact I. f_equal. rewrite (regular_count_lemma domain ns L P) in *. set (N := fold_right Nat.mul 1%nat ns) in *.
  assert (Lv : length v = length ns).
  { rewrite (regular_lemma domain ns L P) in Hi. unfold grid in Hi. apply nth_error_In in Hi. apply combinations_width in Hi. rewrite Hi. apply midpoints_length. exact L. }
  pose proof (prod_pos ns P) as NP. fold N in NP. unfold xdivq. destruct (qeqb_spec (qn N) 0%Qc) as [E|_]; [exfalso; exact (qn_neq0 N NP E)|]. f_equal.
  pose proof (cell_volume_lemma domain ns v L Lv P) as V. fold N in V. pose proof (box_volume_pos domain D) as B. apply Qclt_neq0 in B. rewrite <- V in *. set (c := box_volume (cell_box domain ns v)) in *.
  assert (C0 : c <> 0%Qc) by (intros E; apply B; rewrite E; ring). field. split; [apply qn_neq0; exact NP|exact C0].
Qed.

(** ** p = inf *)
Lemma sup_cases x v : supdist x v = 0%Qc \/ exists e, In e (combine x v) /\ supdist x v = qabs (fst e - snd e).
Proof.
  unfold supdist. induction (combine x v) as [|e l IH]; cbn [fold_right]; [left; reflexivity|].
  destruct (qltb _ _); [right; exists e; split; [left; reflexivity|reflexivity]|]. destruct IH as [IH|(e' & H & IH)]; [left; exact IH|right; exists e'; split; [right; exact H|exact IH]].
Qed.
Lemma sup_ge x v : (0 <= supdist x v)%Qc /\ forall e, In e (combine x v) -> (qabs (fst e - snd e) <= supdist x v)%Qc.
Proof.
  unfold supdist. induction (combine x v) as [|e l [I0 IH]]; cbn [fold_right]; [split; [apply Qcle_refl|intros ? []]|].
  destruct (qltb _ _) eqn:E; [apply qltb_true in E|apply qltb_false in E]; (split; [try apply qabs_nonneg; try exact I0|]); intros e' [<-|H]; try apply Qcle_refl; try exact E.
  - exact (Qcle_trans _ _ _ (IH e' H) (Qclt_le_weak _ _ E)).
  - apply IH. exact H.
Qed.
Lemma sup_mono x v w : length v = length w -> (forall j y u u', nth_error x j = Some y -> nth_error v j = Some u -> nth_error w j = Some u' -> (qabs (y - u) <= qabs (y - u'))%Qc) ->
  (supdist x v <= supdist x w)%Qc.
Proof.
  intros L H. destruct (sup_ge x w) as [G0 G]. destruct (sup_cases x v) as [-> | (e & He & ->)]; [exact G0|].
  apply In_nth_error in He. destruct He as [j He]. destruct e as [y u].
  assert (E1 : nth_error x j = Some y /\ nth_error v j = Some u).
  { clear -He. revert v j He. induction x as [|a x IH]; intros [|b v] [|j] He; cbn [combine nth_error] in *; try discriminate; [injection He as -> ->; auto|]. apply IH. exact He. }
  destruct E1 as [E1 E2]. destruct (nth_error w j) as [u'|] eqn:E3; [|apply nth_error_None in E3; assert (j < length v) by (apply nth_error_Some; congruence); lia].
  apply (Qcle_trans _ (qabs (y - u'))); [exact (H j y u u' E1 E2 E3)|]. apply (G (y, u')).
  clear -E1 E3. revert w j E1 E3. induction x as [|a x IH]; intros [|b w] [|j] E1 E3; cbn [combine nth_error] in *; try discriminate; [injection E1 as ->; injection E3 as ->; left; reflexivity|right; eapply IH; eassumption].
Qed.
Lemma regular_sup_lemma domain ns x i v : length domain = length ns -> (forall n, In n ns -> 0 < n) -> (forall ab, In ab domain -> (fst ab < snd ab)%Qc) ->
  inside_closed domain x -> nth_error (regular_values domain ns) i = Some v ->
  inside_closed (cell_box domain ns v) x -> nearest supdist (regular_values domain ns) x i.
Proof.
  intros L P D X Hi C. rewrite (regular_lemma domain ns L P) in *. unfold grid in *. exists v. split; [exact Hi|].
  assert (Hv : In v (combinations (midpoints domain ns))) by (apply nth_error_In in Hi; exact Hi).
  intros w Hw. apply sup_mono; [rewrite (combinations_width _ _ Hv), (combinations_width _ _ Hw); reflexivity|].
  intros j y u u' E1 E2 E3. apply combinations_row in Hv, Hw. pose proof (proj2 (in_cell_box domain ns x v L P D X Hv) C) as C'.
  destruct (nth_error (midpoints domain ns) j) as [l|] eqn:E4.
  - apply (C' j l y u E4 E1 E2). clear -Hw E3 E4. revert j E3 E4. induction Hw as [|a la w ls Ha Hw IH]; intros [|j] E3 E4; cbn [nth_error] in *; try discriminate; [injection E3 as <-; injection E4 as <-; exact Ha|eapply IH; eassumption].
  - apply nth_error_None in E4. apply Forall2_length in Hw. assert (j < length w) by (apply nth_error_Some; congruence). lia.
Qed.

(** ** The boxes cover the domain *)
Lemma has_nearest (f : list Qc -> list Qc -> Qc) vals x : vals <> [] -> exists i, nearest f vals x i.
Proof.
  induction vals as [|v vals IH]; [intros H; contradiction|]. intros _. destruct vals as [|w vals].
  - exists 0, v. split; [reflexivity|]. intros u [<-|[]]. apply Qcle_refl.
  - destruct IH as (i & u & E & M); [discriminate|]. destruct (Qclt_le_dec (f x u) (f x v)) as [L|L].
    + exists (S i), u. split; [exact E|]. intros z [<-|Hz]; [apply Qclt_le_weak; exact L|apply M; exact Hz].
    + exists 0, v. split; [reflexivity|]. intros z [<-|Hz]; [apply Qcle_refl|exact (Qcle_trans _ _ _ L (M z Hz))].
Qed.
Lemma regular_cover_lemma domain ns x : length domain = length ns -> (forall n, In n ns -> 0 < n) -> (forall ab, In ab domain -> (fst ab < snd ab)%Qc) ->
  inside_closed domain x -> exists i v, nth_error (regular_values domain ns) i = Some v /\ inside_closed (cell_box domain ns v) x.
Proof.
  intros L P D X. destruct (has_nearest (pdist 1) (regular_values domain ns) x) as [i Hi].
  - intros E. pose proof (regular_count_lemma domain ns L P) as C. rewrite E in C. cbn [length] in C. pose proof (prod_pos ns P). lia.
  - pose proof Hi as (v & E & _). exists i, v. split; [exact E|]. apply (regular_cells_lemma 1 domain ns x i v); auto.
Qed.

(** ** One dimension: the exact volumes *)
Lemma nth_seq a n i : i < n -> nth_error (seq a n) i = Some (a + i).
Proof. intros H. rewrite Lists.nth_error_seq. apply Nat.ltb_lt in H. rewrite H. reflexivity. Qed.
Lemma map_same {A B} (f : A -> B) c n : map f (repeat c n) = repeat (f c) n.
Proof. induction n as [|n IH]; [reflexivity|]. cbn [repeat map]. f_equal. exact IH. Qed.
Lemma nodup_map_in {A B} (f : A -> B) l : (forall x y, In x l -> In y l -> f x = f y -> x = y) -> NoDup l -> NoDup (map f l).
Proof.
  intros F N. induction N as [|x l X N IH]; cbn [map]; constructor; [|apply IH; intros; apply F; try right; assumption].
  intros H. apply in_map_iff in H. destruct H as (y & E & Hy). rewrite (F y x) in Hy; [exact (X Hy)|right; exact Hy|left; reflexivity|exact E].
Qed.
Lemma mid_inj a b n j k : (a < b)%Qc -> 1 <= j <= n -> 1 <= k <= n -> midpoint a b n j = midpoint a b n k -> j = k.
Proof.
  intros H J K. rewrite !mid_eq by lia. intros E. pose proof (hw_pos a b n H ltac:(lia)) as P. pose proof (proj1 (mult_le a _ (2 * j - 1) (2 * k - 1) P)) as A.
  pose proof (proj1 (mult_le a _ (2 * k - 1) (2 * j - 1) P)) as B. rewrite E in A, B. specialize (A (Qcle_refl _)). specialize (B (Qcle_refl _)). lia.
Qed.
Lemma mid_range a b n k : (a < b)%Qc -> 1 <= k <= n -> (a <= midpoint a b n k - hw (a, b) n)%Qc /\ (midpoint a b n k + hw (a, b) n <= b)%Qc.
Proof.
  intros H K. assert (N : 0 < n) by lia. pose proof (hw_pos a b n H N) as P. pose proof (hw_all a b n N) as B. rewrite mid_eq by lia. set (h := hw (a, b) n) in *. clearbody h.
  assert (ED : (a + qn (2 * k - 1) * h - h = a + qn (2 * k - 2) * h)%Qc) by (replace (2 * k - 1) with (2 * k - 2 + 1) by lia; rewrite qn_add, qn_1; ring).
  assert (EU : (a + qn (2 * k - 1) * h + h = a + qn (2 * k) * h)%Qc) by (replace (2 * k) with (2 * k - 1 + 1) at 2 by lia; rewrite qn_add, qn_1; ring).
  rewrite ED, EU. split.
  - pose proof (proj2 (mult_le a h 0 (2 * k - 2) P) ltac:(lia)) as M. rewrite qn_0 in M. ring_simplify (a + 0 * h)%Qc in M. exact M.
  - rewrite B. apply mult_le; [exact P|lia].
Qed.
Lemma regular_1D a b n : 0 < n -> concat (regular_values [(a, b)] [n]) = map (midpoint a b n) (seq 1 n).
Proof.
  intros N. rewrite regular_lemma by (cbn; try reflexivity; intros m [<-|[]]; exact N). unfold grid. cbn [midpoints]. generalize (map (midpoint a b n) (seq 1 n)). intros l.
  induction l as [|y l IH]; [reflexivity|]. cbn [combinations flat_map map] in *. cbn [app concat]. f_equal. exact IH.
Qed.
Lemma regular_1D_volumes_lemma (argsort : list Qc -> list nat) a b n : 2 <= n -> (a < b)%Qc ->
  is_argsort (concat (regular_values [(a, b)] [n])) (argsort (concat (regular_values [(a, b)] [n]))) ->
  exact_volume_1D argsort a b (concat (regular_values [(a, b)] [n])) = Ok (estimate_volume_mc n).
Proof.
  intros N H A. rewrite (regular_1D a b n ltac:(lia)) in *. set (S0 := map (midpoint a b n) (seq 1 n)) in *.
  assert (Ls : length S0 = n) by (unfold S0; rewrite map_length, seq_length; reflexivity).
  assert (ND : NoDup S0).
  { unfold S0. apply nodup_map_in; [|apply seq_NoDup]. intros j k J K. apply in_seq in J, K. apply mid_inj; [exact H|lia|lia]. }
  assert (B : forall w, In w S0 -> (a <= w)%Qc /\ (w <= b)%Qc).
  { intros w Hw. apply in_map_iff in Hw. destruct Hw as (k & <- & Hk). apply in_seq in Hk. pose proof (mid_range a b n k H ltac:(lia)) as [M1 M2]. pose proof (hw_pos a b n H ltac:(lia)) as HP. revert M1 M2 HP. generalize (hw (a, b) n) (midpoint a b n k). intros h0 m0 M1 M2 HP. split; qc_lra. }
  destruct (exact_1D_distinct argsort a b S0 A ND ltac:(lia) H B) as (vs & E & L & V). rewrite E. f_equal.
  assert (X : vs = repeat (1 / qn n)%Qc n).
  { apply nth_error_ext. intros i. destruct (lt_dec i n) as [I|I].
    2: { rewrite !(proj2 (nth_error_None _ _)); [reflexivity| |]; rewrite ?repeat_length; lia. }
    rewrite nth_error_repeat by exact I.
    assert (F : nth_error S0 i = Some (midpoint a b n (1 + i))) by (unfold S0; rewrite nth_error_map, nth_seq by exact I; reflexivity).
    destruct (V i _ F) as (l & r & LR & IV & ->). f_equal. clear V.
    pose proof (hw_pos a b n H ltac:(lia)) as HP. pose proof (mid_range a b n (1 + i) H ltac:(lia)) as [M1 M2].
    assert (IV' : forall x, (l <= x)%Qc /\ (x <= r)%Qc <-> (midpoint a b n (1 + i) - hw (a, b) n <= x)%Qc /\ (x <= midpoint a b n (1 + i) + hw (a, b) n)%Qc).
    { intros x. rewrite <- IV. unfold voronoi_interval. split.
      - intros (X1 & X2 & X3). apply (nearest_midpoint a b n (1 + i) x H ltac:(lia) X1 X2). exact X3.
      - intros [X1 X2]. assert (Xa : (a <= x)%Qc) by (eapply Qcle_trans; eassumption). assert (Xb : (x <= b)%Qc) by (eapply Qcle_trans; eassumption).
        split; [exact Xa|]. split; [exact Xb|]. apply (nearest_midpoint a b n (1 + i) x H ltac:(lia) Xa Xb). split; assumption. }
    set (m := midpoint a b n (1 + i)) in *. clearbody m. pose proof (half_width a b n ltac:(lia)) as HW. set (h := hw (a, b) n) in *. clearbody h.
    assert (l = (m - h)%Qc).
    { apply Qcle_antisym.
      - apply (proj2 (IV' (m - h)%Qc)). split; [apply Qcle_refl|qc_lra].
      - apply (proj1 (IV' l)). split; [apply Qcle_refl|exact LR]. }
    assert (r = (m + h)%Qc).
    { apply Qcle_antisym.
      - apply (proj1 (IV' r)). split; [exact LR|apply Qcle_refl].
      - apply (proj2 (IV' (m + h)%Qc)). split; [qc_lra|apply Qcle_refl]. }
    subst l r. replace (m + h - (m - h))%Qc with (h + h)%Qc by ring. rewrite HW. field. split; [apply qn_neq0; lia|]. intros Z. apply (Qclt_not_le _ _ H). qc_lra. }
  rewrite X. unfold estimate_volume_mc. transitivity (repeat (Fin (1 / qn n)%Qc) n); [apply map_same|]. f_equal. unfold xdivq. destruct (qeqb_spec (qn n) 0%Qc) as [Z|_]; [exfalso; apply (qn_neq0 n ltac:(lia) Z)|reflexivity].
Qed.

(** ** The same partition as boxes *)
Lemma increasing_map f m k : (forall j, f j < f (S j))%Qc -> increasing (map f (seq k m)).
Proof. intros H. revert k. induction m as [|m IH]; intros k; [exact I|]. destruct m as [|m]; [exact I|]. cbn [seq map increasing]. split; [apply H|apply (IH (S k))]. Qed.
Lemma breaks_ok domain ns l : (forall n, In n ns -> 0 < n) -> (forall ab, In ab domain -> (fst ab < snd ab)%Qc) -> In l (breaks domain ns) -> breakpoints l.
Proof.
  intros P D Hl. apply in_map_iff in Hl. destruct Hl as ([[a b] n] & <- & He). cbn [fst snd]. assert (N : 0 < n) by (apply P; eapply in_combine_r; exact He).
  assert (AB : (a < b)%Qc) by (apply (D (a, b)); eapply in_combine_l; exact He). split; [rewrite map_length, seq_length; lia|].
  apply increasing_map. intros j. apply mult_lt; [|lia]. apply qc_div_pos; [qc_lra|apply qn_pos; lia].
Qed.
Lemma breaks_cell domain ns l r : length domain = length ns -> (forall n, In n ns -> 0 < n) -> (forall ab, In ab domain -> (fst ab < snd ab)%Qc) ->
  grid_cell (breaks domain ns) l r -> (box_fraction domain l r * qn (fold_right Nat.mul 1%nat ns) = 1)%Qc.
Proof.
  intros L P D. revert ns l r L P. induction domain as [|[a b] d IH]; intros [|n ns] l r L P (L1 & L2 & C); try discriminate.
  - destruct l; [|discriminate]. destruct r; [|discriminate]. apply Qcmult_1_l.
  - destruct l as [|y l]; [discriminate|]. destruct r as [|z r]; [discriminate|]. unfold box_fraction. cbn [combine map qprod fst snd fold_right]. rewrite (qn_mul n).
    change (qprod (map _ _)) with (box_fraction d l r). assert (N : 0 < n) by (apply P; left; reflexivity). assert (AB : (a < b)%Qc) by (apply (D (a, b)); left; reflexivity).
    assert (T : (box_fraction d l r * qn (fold_right Nat.mul 1%nat ns) = 1)%Qc).
    { apply IH; [intros; apply D; right; assumption|cbn [length] in L; lia|intros; apply P; right; assumption|]. split; [cbn [length breaks combine map] in L1; unfold breaks in *; cbn [combine map length] in L1; lia|].
      split; [unfold breaks in *; cbn [combine map length] in L2; lia|]. intros j. exact (C (S j)). }
    destruct (C 0 _ y z eq_refl eq_refl eq_refl) as (m & E1 & E2). cbn [fst snd] in E1, E2. rewrite nth_error_map in E1, E2.
    assert (M : S m < n + 1) by (destruct (nth_error (seq 0 (n + 1)) (S m)) eqn:F; [|discriminate]; assert (S m < length (seq 0 (n + 1))) by (apply nth_error_Some; congruence); rewrite seq_length in *; assumption).
    rewrite nth_seq in E1, E2 by lia. cbn [option_map] in E1, E2.
    assert (Y : (z - y = (b - a) / qn n)%Qc).
    { assert (F1 : y = (a + qn (0 + m) * ((b - a) / qn n))%Qc) by congruence. assert (F2 : z = (a + qn (0 + S m) * ((b - a) / qn n))%Qc) by congruence. rewrite F1, F2.
      replace (0 + S m) with (m + 1) by lia. replace (0 + m) with m by lia. rewrite qn_add, qn_1. ring. }
    rewrite Y. transitivity (((b - a) / qn n / (b - a) * qn n) * (box_fraction d l r * qn (fold_right Nat.mul 1%nat ns)))%Qc; [ring|]. rewrite T.
    field. split; first [apply qn_neq0; exact N | intros Z; apply (Qclt_not_le _ _ AB); qc_lra].
Qed.
Lemma qsum_same c n : qsum (repeat c n) = (qn n * c)%Qc.
Proof. induction n as [|n IH]; [rewrite qn_0; cbn [repeat qsum]; ring|]. cbn [repeat]. change (qsum (c :: repeat c n)) with (c + qsum (repeat c n))%Qc. rewrite IH. replace (S n) with (n + 1) by lia. rewrite qn_add, qn_1. ring. Qed.
Lemma all_same {A} (c : A) l : (forall y, In y l -> y = c) -> l = repeat c (length l).
Proof. induction l as [|y l IH]; intros H; [reflexivity|]. cbn [length repeat]. rewrite (H y (or_introl eq_refl)). f_equal. apply IH. intros; apply H; right; assumption. Qed.
Lemma regular_boxes_lemma domain ns : length domain = length ns -> (forall n, In n ns -> 0 < n) -> (forall ab, In ab domain -> (fst ab < snd ab)%Qc) -> domain <> [] ->
  exists s, cart_setup (length domain) (breaks domain ns) = Ok s /\
    exact_volume_lebesgue domain s = Some (repeat (1 / qn (length (regular_values domain ns)))%Qc (length (regular_values domain ns)) ++ [0%Qc]).
Proof.
  intros L P D NE. rewrite (regular_count_lemma domain ns L P). set (N := fold_right Nat.mul 1%nat ns). pose proof (prod_pos ns P) as NP. fold N in NP.
  assert (Lb : length (breaks domain ns) = length domain) by (unfold breaks; rewrite map_length, combine_length; lia).
  assert (L1 : 1 <= length domain) by (destruct domain; [contradiction|cbn [length]; lia]).
  destruct (cart_partition (length domain) (breaks domain ns) Lb L1 (fun l H => breaks_ok domain ns l P D H)) as (s & E & Hn & G & _).
  exists s. split; [exact E|].
  destruct (cart_setup_ok (length domain) (breaks domain ns) Lb L1 (fun l H => breaks_ok domain ns l P D H)) as (s' & E' & _ & _ & Rd & RS).
  rewrite E in E'. injection E' as <-. apply rect_setup_ok in RS. destruct RS as (_ & EL & ER & LL & Hn' & _). rewrite <- EL, <- ER in LL. rewrite <- ER in Hn'.
  assert (NN : nat_prod (map (fun l => length l - 1) (breaks domain ns)) = N).
  { unfold N. clear -L. revert ns L. induction domain as [|ab d IH]; intros [|n ns] L; try discriminate; [reflexivity|]. unfold breaks, nat_prod in *. cbn [combine map fold_right fst snd].
    rewrite map_length, seq_length, IH by (cbn [length] in L; lia). f_equal. lia. }
  rewrite NN in Hn. assert (LR : length (combine (lefts s) (rights s)) = N) by (rewrite combine_length; lia).
  assert (V : map (fun lr => box_fraction domain (fst lr) (snd lr)) (combine (lefts s) (rights s)) = repeat (1 / qn N)%Qc N).
  { rewrite <- LR at 2. rewrite <- (map_length (fun lr => box_fraction domain (fst lr) (snd lr))). apply all_same. intros y Hy. apply in_map_iff in Hy. destruct Hy as ([l r] & <- & Hlr). cbn [fst snd].
    apply In_nth_error in Hlr. destruct Hlr as [i Hi].
    assert (C : (box_fraction domain l r * qn N = 1)%Qc).
    { apply breaks_cell; [exact L|exact P|exact D|]. apply G. exists i. clear -Hi. revert i Hi. generalize (rights s). induction (lefts s) as [|x ls IH]; intros [|z rs] [|i] Hi; cbn [combine nth_error] in *; try discriminate; [injection Hi as -> ->; auto|apply IH; exact Hi]. }
    rewrite <- C. field. apply qn_neq0. exact NP. }
  unfold exact_volume_lebesgue. rewrite Rd, Nat.eqb_refl. cbn [andb].
  assert (F : forallb (fun p => negb (qeqb (fst p) (snd p))) domain = true).
  { apply forallb_forall. intros ab Hab. destruct (qeqb_spec (fst ab) (snd ab)) as [Q|]; [|reflexivity]. exfalso. specialize (D ab Hab). rewrite Q in D. exact (Qclt_not_eq _ _ D eq_refl). }
  rewrite F, V. cbv zeta. do 3 f_equal. rewrite qsum_same. field. apply qn_neq0. exact NP.
Qed.

(** ** p = inf has larger sets of nearest samples *)
Definition inf_domain : list (Qc * Qc) := [(0%Qc, Q2Qc (10 # 1)); (0%Qc, Q2Qc (2 # 1))].
Definition inf_point : list Qc := [0%Qc; Q2Qc (1 # 4)].
Lemma regular_sup_witness : exists domain ns x i v, length domain = length ns /\ (forall n, In n ns -> 0 < n) /\ (forall ab, In ab domain -> (fst ab < snd ab)%Qc) /\
  inside_closed domain x /\ nth_error (regular_values domain ns) i = Some v /\ nearest supdist (regular_values domain ns) x i /\ ~ inside_closed (cell_box domain ns v) x.
Proof.
  exists inf_domain, [1; 2], inf_point, 1, [Q2Qc (5 # 1); Q2Qc (3 # 2)]. split; [reflexivity|]. split; [intros n [<-|[<-|[]]]; lia|].
  split; [intros ab [<-|[<-|[]]]; reflexivity|]. split; [repeat constructor; discriminate|].
  assert (E : regular_values inf_domain [1; 2] = [[Q2Qc (5 # 1); Q2Qc (1 # 2)]; [Q2Qc (5 # 1); Q2Qc (3 # 2)]]) by qc_compute. rewrite E. split; [reflexivity|]. split.
  - eexists. split; [reflexivity|]. intros w [<-|[<-|[]]]; vm_compute; discriminate.
  - intros C. inversion C as [|? ? ? ? _ C2]; subst. inversion C2 as [|? ? ? ? [C3 _] _]; subst. vm_compute in C3. apply C3. reflexivity.
Qed.
