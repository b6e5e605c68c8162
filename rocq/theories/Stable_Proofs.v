From Coq Require Import List Arith Bool QArith Qcanon Lia.
From Verif Require Import Err Num NumPy Lists SampleSet_Model SampleSet_Spec Prob_Spec Prob_Proofs Disc_Model Workflow_Model Workflow_Spec Workflow_Proofs ErrTrue2_Proofs Stable_Spec.
Import ListNotations.
Local Open Scope nat_scope.

(** The solution as a list of shares. *)
Definition shares (c : list nat) (v p : list Qc) : list Qc := map (fun cv => (snd cv * (nth (fst cv) p 0 / total_in (combine c v) (fst cv)))%Qc) (combine c v).
Lemma solution_shares (c : cell -> nat) p xs v : solution c p (combine xs v) = shares (map c xs) v p.
Proof.
  unfold solution, shares.
  assert (E : combine (map c xs) v = map (fun yw => (c (fst yw), snd yw)) (combine xs v)) by (revert v; induction xs as [|x xs IH]; intros [|a v]; try reflexivity; cbn; rewrite IH; reflexivity).
  rewrite E, map_map. reflexivity.
Qed.

Section Shares.
Context (c : list nat) (v : list Qc) (NV : nonneg v).
Notation T := (total_in (combine c v)).
Lemma T_nonneg i : (0 <= T i)%Qc.
Proof. apply total_in_nonneg. intros [k x] H. apply NV. exact (in_combine_r _ _ _ _ H). Qed.
Lemma T_inv i : (0 <= / T i)%Qc.
Proof.
  pose proof (T_nonneg i) as H. apply Qcle_lt_or_eq in H. destruct H as [H|H].
  - replace (/ T i)%Qc with (1 / T i)%Qc by (unfold Qcdiv; ring). apply qc_div_nonneg; [discriminate|exact H].
  - rewrite <- H. discriminate.
Qed.
Lemma shares_nth p k a : nth_error (shares c v p) k = Some a <-> exists i x, nth_error (combine c v) k = Some (i, x) /\ a = (x * (nth i p 0 / T i))%Qc.
Proof.
  unfold shares. rewrite nth_error_map. destruct (nth_error (combine c v) k) as [[i x]|]; cbn [option_map fst snd]; split.
  - intros [= <-]. exists i, x. auto.
  - intros (i' & x' & [= <- <-] & ->). reflexivity.
  - discriminate.
  - intros (i' & x' & H & _). discriminate.
Qed.
Lemma nth_combined a b p p' i : length p = length p' -> nth i (combined a b p p') 0%Qc = (a * nth i p 0 + b * nth i p' 0)%Qc.
Proof. unfold combined. revert p' i. induction p as [|x p IH]; intros [|y p'] [|i] L; try discriminate; cbn [combine map nth fst snd]; try ring. apply IH. injection L as L. exact L. Qed.
Lemma shares_linear a b p p' : length p = length p' -> shares c v (combined a b p p') = combined a b (shares c v p) (shares c v p').
Proof.
  intros L. unfold shares. generalize T. intros T0. unfold combined at 2. induction (combine c v) as [|[i x] l IH]; [reflexivity|]. cbn [map combine fst snd]. rewrite nth_combined by exact L. f_equal; [unfold Qcdiv; ring|exact IH].
Qed.
Lemma shares_below p p' : below p p' -> length p = length p' -> below (shares c v p) (shares c v p').
Proof.
  intros B L k a b Ha Hb. apply shares_nth in Ha, Hb. destruct Ha as (i & x & H & ->). destruct Hb as (i' & x' & H' & ->). rewrite H in H'. injection H' as <- <-.
  assert (Hx : (0 <= x)%Qc) by (apply NV; apply nth_error_In in H; exact (in_combine_r _ _ _ _ H)).
  rewrite (Qcmult_comm x), (Qcmult_comm x (nth i p' 0%Qc / T i)%Qc). apply Qcmult_le_compat_r; [|exact Hx]. unfold Qcdiv. apply Qcmult_le_compat_r; [|apply T_inv].
  destruct (Nat.ltb_spec i (length p)) as [Hi|Hi].
  - apply (B i); apply nth_error_nth'; lia.
  - rewrite !nth_overflow by lia. apply Qcle_refl.
Qed.
Lemma shares_scaled s : (s <> 0)%Qc -> forall p, shares c (scaled s v) p = shares c v p.
Proof.
  intros Hs p. unfold shares. assert (ET : forall i, total_in (combine c (scaled s v)) i = (s * T i)%Qc).
  { intros i. unfold total_in, scaled. clear NV. revert v. induction c as [|k c' IH]; intros [|x v']; cbn [map combine filter qsum fst]; try ring. destruct (k =? i); cbn [map snd qsum]; rewrite IH; ring. }
  assert (EC : combine c (scaled s v) = map (fun cv => (fst cv, (s * snd cv)%Qc)) (combine c v)) by (unfold scaled; clear; revert v; induction c as [|k c' IH]; intros [|x v']; try reflexivity; cbn; rewrite IH; reflexivity).
  rewrite (map_ext _ (fun cv => (snd cv * (nth (fst cv) p 0 / (s * T (fst cv))))%Qc)) by (intros cv; rewrite ET; reflexivity).
  rewrite EC, map_map. apply map_ext. intros [i x]. cbn [fst snd]. destruct (Qc_eq_dec (T i) 0%Qc) as [E|N].
  - rewrite E, Qcmult_0_r. unfold Qcdiv. replace (/ 0)%Qc with 0%Qc by reflexivity. ring.
  - field. auto.
Qed.
Lemma qabs_mul_pos x y : (0 <= x)%Qc -> qabs (x * y) = (x * qabs y)%Qc.
Proof. intros Hx. rewrite qabs_mul, (qabs_pos_eq x Hx). reflexivity. Qed.
Lemma apart_shares p p' : length p = length p' -> (forall i, In i c -> i < length p) -> length c = length v ->
  apart (shares c v p) (shares c v p') = qsum (map (fun i => (T i / T i * qabs (nth i p 0 - nth i p' 0))%Qc) (seq 0 (length p))).
Proof.
  intros L B LC. unfold apart, shares.
  assert (E : map (fun ab => qabs (fst ab - snd ab)%Qc) (combine (map (fun cv => (snd cv * (nth (fst cv) p 0 / T (fst cv)))%Qc) (combine c v)) (map (fun cv => (snd cv * (nth (fst cv) p' 0 / T (fst cv)))%Qc) (combine c v))) =
              map snd (map (fun cv => (fst cv, (snd cv * (/ T (fst cv) * qabs (nth (fst cv) p 0 - nth (fst cv) p' 0)))%Qc)) (combine c v))).
  { rewrite map_map. cbn [snd]. assert (G : forall l : list (nat * Qc), (forall e, In e l -> (0 <= snd e)%Qc) -> map (fun ab => qabs (fst ab - snd ab)%Qc) (combine (map (fun cv => (snd cv * (nth (fst cv) p 0 / T (fst cv)))%Qc) l) (map (fun cv => (snd cv * (nth (fst cv) p' 0 / T (fst cv)))%Qc) l)) =
       map (fun cv => (snd cv * (/ T (fst cv) * qabs (nth (fst cv) p 0 - nth (fst cv) p' 0)))%Qc) l).
    { induction l as [|[i x] l IH]; intros H; [reflexivity|]. cbn [map combine fst snd]. f_equal; [|apply IH; intros e He; apply H; right; exact He].
      assert (Hx : (0 <= x)%Qc) by (apply (H (i, x)); left; reflexivity).
      replace (x * (nth i p 0 / T i) - x * (nth i p' 0 / T i))%Qc with (x * (/ T i * (nth i p 0 - nth i p' 0)))%Qc by (unfold Qcdiv; ring). rewrite qabs_mul_pos by exact Hx. rewrite qabs_mul_pos by apply T_inv. reflexivity. }
    apply G. intros [i x] He. cbn. apply NV. exact (in_combine_r _ _ _ _ He). }
  rewrite E, (total_in_split _ (length p)).
  - apply f_equal, map_ext. intros i. unfold Qcdiv. assert (G : forall l : list (nat * Qc), total_in (map (fun cv => (fst cv, (snd cv * (/ T (fst cv) * qabs (nth (fst cv) p 0 - nth (fst cv) p' 0)))%Qc)) l) i = (total_in l i * (/ T i * qabs (nth i p 0 - nth i p' 0)))%Qc).
    { unfold total_in at 1 3. induction l as [|[k x] l IH]; [cbn [map filter qsum]; ring|]. cbn [map filter fst]. destruct (Nat.eqb_spec k i) as [->|N]; [|exact IH]. cbn [map snd qsum]. rewrite IH. ring. }
    rewrite G. ring.
  - intros e He. apply in_map_iff in He. destruct He as ([i x] & <- & He). cbn. apply B. exact (in_combine_l _ _ _ _ He).
Qed.
Lemma apart_seq p p' : length p = length p' -> apart p p' = qsum (map (fun i => qabs (nth i p 0 - nth i p' 0)%Qc) (seq 0 (length p))).
Proof.
  intros L. unfold apart. f_equal. assert (G : forall s, map (fun ab => qabs (fst ab - snd ab)%Qc) (combine p p') = map (fun i => qabs (nth (i - s) p 0 - nth (i - s) p' 0)%Qc) (seq s (length p))).
  { revert p' L. induction p as [|x p IH]; intros [|y p'] L s; try discriminate; [reflexivity|]. cbn [combine map length seq fst snd]. rewrite Nat.sub_diag. f_equal. injection L as L. rewrite (IH p' L (S s)). apply map_ext_in. intros i Hi. apply in_seq in Hi. replace (i - s) with (S (i - S s)) by lia. reflexivity. }
  rewrite (G 0). apply map_ext. intros i. rewrite Nat.sub_0_r. reflexivity.
Qed.
Lemma shares_apart p p' : length p = length p' -> (forall i, In i c -> i < length p) -> length c = length v ->
  (apart (shares c v p) (shares c v p') <= apart p p')%Qc /\
  ((forall i a b, nth_error p i = Some a -> nth_error p' i = Some b -> a <> b -> has_volume c v i) -> apart (shares c v p) (shares c v p') = apart p p').
Proof.
  intros L B LC. rewrite apart_shares, apart_seq by assumption. split.
  - apply qsum_map_le. intros i _. set (x := qabs _). assert (Hx : (0 <= x)%Qc) by apply qabs_nonneg. destruct (Qc_eq_dec (T i) 0%Qc) as [E|N].
    + rewrite E. unfold Qcdiv. replace (0 * / 0 * x)%Qc with 0%Qc by ring. exact Hx.
    + replace (T i / T i * x)%Qc with x by (field; exact N). apply Qcle_refl.
  - intros H. apply f_equal, map_ext_in. intros i Hi. apply in_seq in Hi. destruct (Qc_eq_dec (nth i p 0%Qc) (nth i p' 0%Qc)) as [E|N].
    + rewrite E. replace (nth i p' 0 - nth i p' 0)%Qc with 0%Qc by ring. change (qabs 0) with 0%Qc. ring.
    + assert (HV : has_volume c v i) by (apply (H i (nth i p 0%Qc) (nth i p' 0%Qc)); [apply nth_error_nth'; lia|apply nth_error_nth'; lia|exact N]). unfold has_volume in HV. field. intros Z. rewrite Z in HV. discriminate.
Qed.
End Shares.

(** ** Finer samples *)
Lemma total_in_map_fst (f : nat -> nat) (l : list (nat * Qc)) i n : (forall e, In e l -> fst e < n) ->
  total_in (map (fun e => (f (fst e), snd e)) l) i = total_in (map (fun k => (f k, total_in l k)) (seq 0 n)) i.
Proof.
  intros B. transitivity (qsum (map snd (filter (fun e => f (fst e) =? i) l))).
  - unfold total_in. f_equal. clear B. induction l as [|[k x] l IH]; [reflexivity|]. cbn. destruct (f k =? i); cbn; rewrite IH; reflexivity.
  - rewrite (total_in_split (filter (fun e => f (fst e) =? i) l) n) by (intros e He; apply filter_In in He; apply B, He).
    unfold total_in at 2. assert (G : forall ks, qsum (map (total_in (filter (fun e => f (fst e) =? i) l)) ks) = qsum (map snd (filter (fun s => fst s =? i) (map (fun k => (f k, total_in l k)) ks)))); [|apply G].
    induction ks as [|k ks IH]; [reflexivity|]. cbn [map filter fst qsum]. rewrite IH. destruct (Nat.eqb_spec (f k) i) as [E|N]; cbn [map snd qsum].
    + f_equal. unfold total_in. do 2 f_equal. clear -E. induction l as [|[k0 x] l IH]; [reflexivity|]. cbn. destruct (Nat.eqb_spec (f k0) i) as [E1|N1]; cbn; destruct (Nat.eqb_spec k0 k) as [->|N2]; rewrite ?IH; try reflexivity. congruence.
    + replace (total_in (filter (fun e => f (fst e) =? i) l) k) with 0%Qc; [ring|]. unfold total_in. replace (filter (fun s => fst s =? k) (filter (fun e => f (fst e) =? i) l)) with (@nil (nat * Qc)); [reflexivity|]. symmetry. clear -N. induction l as [|[k0 x] l IH]; [reflexivity|]. cbn. destruct (Nat.eqb_spec (f k0) i) as [E1|N1]; cbn; [|exact IH]. destruct (Nat.eqb_spec k0 k) as [->|N2]; [congruence|exact IH].
Qed.
Lemma shares_parts c v p part c' u k a : length c = length v -> length part = length u -> length c' = length u ->
  (forall j i, nth_error part j = Some i -> nth_error c i = nth_error c' j /\ i < length c) ->
  (forall i, i < length c -> nth_error v i = Some (parts_of part u i)) ->
  nth_error (shares c v p) k = Some a -> parts_of part (shares c' u p) k = a.
Proof.
  intros L1 L2 L3 HC HV Ha.
  assert (EC : combine c' u = map (fun e => (nth (fst e) c 0, snd e)) (combine part u)).
  { apply nth_error_ext. intros j. rewrite nth_error_map. destruct (nth_error (combine part u) j) as [[i x]|] eqn:E.
    - cbn [option_map fst snd]. assert (E1 := f_equal (option_map fst) E). assert (E2 := f_equal (option_map snd) E). rewrite <- nth_error_map in E1, E2. rewrite map_fst_combine in E1 by exact L2. rewrite map_snd_combine in E2 by exact L2. cbn in E1, E2.
      destruct (HC j i E1) as [HC1 HC2]. rewrite (nth_error_nth' c 0 HC2) in HC1. revert HC1 E2. clear. revert u j. generalize (nth i c 0). intros m. induction c' as [|y c'' IH]; intros [|z u] [|j] H1 H2; try discriminate; cbn in *; [congruence|apply IH; congruence].
    - cbn [option_map]. apply nth_error_None. apply nth_error_None in E. rewrite combine_length in *. lia. }
  assert (BP : forall e, In e (combine part u) -> fst e < length c).
  { intros [i x] He. apply in_combine_l in He. apply In_nth_error in He. destruct He as (j & Hj). apply (HC j i Hj). }
  assert (ET : forall i, total_in (combine c' u) i = total_in (combine c v) i).
  { intros i. rewrite EC, (total_in_map_fst (fun k0 => nth k0 c 0) (combine part u) i (length c) BP). f_equal. apply nth_error_ext. intros j. rewrite nth_error_map, nth_error_seq. destruct (Nat.ltb_spec j (length c)) as [Lj|Lj]; cbn [option_map plus].
    - symmetry. pose proof (nth_error_nth' c 0 Lj) as N1. pose proof (HV j Lj) as N2. unfold parts_of in N2. revert N1 N2. clear. revert v j. generalize (total_in (combine part u)). intros F v j. generalize (nth j c 0) (F j). revert v j. induction c as [|y c0 IH]; intros [|z v] [|j] m w H1 H2; try discriminate; cbn in *; [congruence|apply IH; congruence].
    - symmetry. apply nth_error_None. rewrite combine_length. lia. }
  apply shares_nth in Ha. destruct Ha as (i & x & Hk & ->).
  assert (E1 := f_equal (option_map fst) Hk). assert (E2 := f_equal (option_map snd) Hk). rewrite <- nth_error_map in E1, E2. rewrite map_fst_combine in E1 by exact L1. rewrite map_snd_combine in E2 by exact L1. cbn in E1, E2.
  assert (Lk : k < length c) by (apply nth_error_Some; congruence). rewrite (HV k Lk) in E2. injection E2 as <-. assert (Nk : nth k c 0 = i) by (apply nth_error_nth; exact E1).
  unfold parts_of, shares. set (TT := total_in (combine c' u)) in *. rewrite EC.
  assert (G : forall l : list (nat * Qc), total_in (combine (map fst l) (map (fun cv => (snd cv * (nth (fst cv) p 0 / TT (fst cv)))%Qc) (map (fun e => (nth (fst e) c 0, snd e)) l))) k = (total_in l k * (nth i p 0 / TT i))%Qc).
  { unfold total_in. induction l as [|[m y] l IH]; [cbn [map combine filter qsum]; ring|]. cbn [map combine fst snd filter]. destruct (Nat.eqb_spec m k) as [->|N]; [|exact IH]. cbn [map snd qsum]. rewrite IH, Nk. ring. }
  specialize (G (combine part u)). rewrite map_fst_combine in G by exact L2. rewrite G, ET. reflexivity.
Qed.
