From Coq Require Import List Arith Bool QArith Qcanon Lia.
From Verif Require Import Err Num Ext Lists Volume_Model Query_Model Query_Proofs SimpleFun_Model SimpleFun_Proofs Bounds_Model Bounds_Spec Bounds_Proofs
  SimpleInputs_Model SimpleInputs_Spec.
Import ListNotations.
Local Open Scope nat_scope.
Local Open Scope err_scope.

(** *** Normal distributions *)
Lemma index_pairs_same Q : forall std, length Q = length std -> index_pairs Q std = Ok (combine Q std).
Proof.
  induction Q as [|q Q IH]; intros [|s std] L; simpl in L; try discriminate; [reflexivity|].
  cbn [index_pairs combine]. rewrite IH by lia. reflexivity.
Qed.
Lemma index_pairs_short Q : forall std, length std < length Q -> index_pairs Q std = Raise PyIndexError.
Proof.
  induction Q as [|q Q IH]; intros [|s std] L; simpl in L; try lia; [reflexivity|].
  cbn [index_pairs]. rewrite IH by lia. reflexivity.
Qed.
Lemma check_type_means v data d l : data_dim data = Some d -> ~ is_array data -> (forall q, v <> NNpInt q) -> means v d l ->
  check_type v data = Ok l.
Proof.
  intros D A N M. destruct data; cbn in D; try discriminate; injection D as <-;
    try (exfalso; apply A; eexists; eexists; reflexivity);
    destruct v as [q|q|m|m|]; cbn in *; try contradiction; try (exfalso; apply (N q); reflexivity);
    try (subst; reflexivity); destruct M as [-> L]; try rewrite L, Nat.eqb_refl; reflexivity.
Qed.
Lemma means_length v d l : means v d l -> length l = d.
Proof. destruct v; cbn; intros H; try contradiction; [subst; apply repeat_length|subst; apply repeat_length| |]; destruct H as [-> H]; exact H. Qed.
Lemma intended_length data Q d c : intended_reference data Q d c -> length c = d.
Proof. intros [H|(_ & _ & H)]; [eapply means_length; exact H|exact H]. Qed.
Lemma intended_given data Q d c : intended_reference data Q d c -> means (given_or_inferred Q data) d c.
Proof.
  intros [H|(-> & R & L)].
  - destruct Q; cbn in *; try contradiction; exact H.
  - destruct data; cbn in *; try discriminate; subst ref; split; auto.
Qed.
Lemma normal_sets data Q std d c s : data_dim data = Some d -> ~ is_array data ->
  (forall q, Q <> NNpInt q) -> (forall q, std <> NNpInt q) ->
  intended_reference data Q d c -> means std d s -> normal_parameters data Q std = Ok (combine c s).
Proof.
  intros D A NQ NS HQ HS. unfold normal_parameters.
  assert (NG : forall q, given_or_inferred Q data <> NNpInt q).
  { intros q E. destruct Q; cbn in E; try discriminate; [apply (NQ q0); reflexivity|].
    destruct data; cbn in E; try discriminate; destruct ref; discriminate. }
  rewrite (check_type_means _ data d c D A NG (intended_given _ _ _ _ HQ)). cbn [bind].
  rewrite (check_type_means _ data d s D A NS HS). cbn [bind].
  assert (Lc := intended_length _ _ _ _ HQ). assert (Ls := means_length _ _ _ HS).
  rewrite Lc, Ls, Nat.ltb_irrefl. apply index_pairs_same. congruence.
Qed.

(** Arrays as data, or numpy integers: wrong. *)
Lemma normal_array_number cols vs c q : length c = cols -> 2 <= cols ->
  normal_parameters (DArray cols vs) (NArr c) (NNum q) = Raise PyIndexError.
Proof.
  intros L H. unfold normal_parameters. cbn. destruct c as [|a [|b c]]; cbn in L; try lia. reflexivity.
Qed.
Lemma normal_array_list cols vs c s : length s = cols -> cols <> 1 ->
  normal_parameters (DArray cols vs) (NArr c) (NList s) = Raise DimNotMatching.
Proof. intros L H. unfold normal_parameters. cbn. rewrite L. destruct (Nat.eqb_spec cols 1); [contradiction|reflexivity]. Qed.
Lemma normal_array_list_Q cols vs c std : length c = cols -> cols <> 1 ->
  normal_parameters (DArray cols vs) (NList c) std = Raise DimNotMatching.
Proof. intros L H. unfold normal_parameters. cbn. rewrite L. destruct (Nat.eqb_spec cols 1); [contradiction|reflexivity]. Qed.
Lemma normal_npint data d c q : data_dim data = Some d -> length c = d -> 2 <= d ->
  normal_parameters data (NArr c) (NNpInt q) = Raise PyIndexError.
Proof.
  intros D L H. unfold normal_parameters. cbn [given_or_inferred check_type bind].
  destruct c as [|a [|b c]]; cbn in L; try lia. cbn [length Nat.ltb Nat.leb]. reflexivity.
Qed.
Lemma normal_wrong_length data c s : length c = length s -> normal_parameters data (NArr c) (NArr s) = Ok (combine c s).
Proof.
  intros L. unfold normal_parameters. cbn [given_or_inferred check_type bind].
  rewrite L, Nat.ltb_irrefl. apply index_pairs_same. exact L.
Qed.
Lemma normal_array_ok cols vs c s : length c = cols -> length s = cols ->
  normal_parameters (DArray cols vs) (NArr c) (NArr s) = Ok (combine c s).
Proof. intros. apply normal_wrong_length. congruence. Qed.

(** *** Rectangles *)
Lemma check_inputs_given data d v l : data_dim data = Some d -> means v d l -> check_inputs data v = Ok (d, data_rows data, v).
Proof.
  intros D M. destruct data; cbn in D; try discriminate; injection D as <-; destruct v; cbn in M; try contradiction; reflexivity.
Qed.
Lemma given_idem Q data d c : means Q d c -> given_or_inferred Q data = Q.
Proof. destruct Q; cbn; intros H; try contradiction; reflexivity. Qed.
Lemma center_means v d l : means v d l -> center_of v d = Ok l.
Proof. destruct v; cbn; intros H; try contradiction; try (subst; reflexivity); destruct H as [-> ->]; rewrite Nat.eqb_refl; reflexivity. Qed.
Lemma not_nonpositive s : all_positive s -> existsb (fun s => qleb s 0) s = false.
Proof.
  intros H. destruct (existsb _ s) eqn:E; [|reflexivity]. apply existsb_exists in E. destruct E as (x & Hx & Hx').
  apply qleb_true in Hx'. specialize (H x Hx). exfalso. exact (Qclt_not_le _ _ H Hx').
Qed.
Lemma sizes_means v d l : means v d l -> all_positive l -> rect_sizes v d = Ok l.
Proof.
  intros M P. unfold rect_sizes. destruct v; cbn in M; try contradiction; cbn [bind]; try (subst; rewrite not_nonpositive by exact P; reflexivity);
    destruct M as [-> L]; rewrite not_nonpositive by exact P; reflexivity.
Qed.
Lemma sizes_nonpositive v d l x : means v d l -> In x l -> (x <= 0)%Qc -> rect_sizes v d = Raise WrongArgumentType.
Proof.
  intros M I X. assert (E : existsb (fun s => qleb s 0) l = true).
  { apply existsb_exists. exists x. split; [exact I|]. apply qleb_true. exact X. }
  unfold rect_sizes. destruct v; cbn in M; try contradiction; cbn [bind];
    try (subst l; rewrite E; reflexivity); destruct M as [-> L]; rewrite E; reflexivity.
Qed.

Lemma uniform_rectangle_ok data Q size d c s ub up : data_dim data = Some d -> intended_reference data Q d c -> means size d s ->
  (forall l, size <> NList l) -> all_positive s ->
  uniform_rectangle data Q size ub up = Ok (map (rect_point three_halves s c) ub, map (rect_point 1%Qc s c) up).
Proof.
  intros D HQ HS NL P. assert (HG := intended_given _ _ _ _ HQ). unfold uniform_rectangle.
  rewrite (check_inputs_given data d _ c D HG). cbn [bind]. rewrite (sizes_means size d s HS P). cbn [bind].
  assert (match size with NList _ => Raise PyTypeError | _ => Ok tt end = Ok tt) as ->.
  { destruct size; try reflexivity. exfalso. apply (NL l). reflexivity. }
  cbn [bind]. rewrite (center_means _ _ _ HG). cbn [bind]. rewrite (means_length _ _ _ HS), Nat.eqb_refl. reflexivity.
Qed.
Lemma uniform_rectangle_list data Q d c s ub up : data_dim data = Some d -> intended_reference data Q d c -> length s = d ->
  all_positive s -> uniform_rectangle data Q (NList s) ub up = Raise PyTypeError.
Proof.
  intros D HQ HS P. assert (HG := intended_given _ _ _ _ HQ). unfold uniform_rectangle.
  rewrite (check_inputs_given data d _ c D HG). cbn [bind]. rewrite (sizes_means (NList s) d s (conj eq_refl HS) P). reflexivity.
Qed.
Lemma regular_rectangle_eq data Q size d c s cells : data_dim data = Some d -> intended_reference data Q d c -> means size d s ->
  all_positive s ->
  regular_rectangle data Q size cells = regular_partition d c s (match cells with inl n => repeat n d | inr l => l end).
Proof.
  intros D HQ HS P. assert (HG := intended_given _ _ _ _ HQ). unfold regular_rectangle.
  rewrite (check_inputs_given data d _ c D HG). cbn [bind]. rewrite (sizes_means size d s HS P). cbn [bind].
  rewrite (center_means _ _ _ HG). reflexivity.
Qed.

(** The points. *)
Lemma rect_point_in_box k s : (0 < k)%Qc -> all_positive s -> forall c u, length c = length s ->
  in_box (unit_cube (length s)) u -> in_box (centered_box (k * half)%Qc c s) (rect_point k s c u).
Proof.
  intros K. induction s as [|x s IH]; intros P [|y c] u L U; simpl in L; try discriminate.
  - inversion U. subst. constructor.
  - inversion U as [|p v d' u' [V1 V2] U']. subst. cbn in V1, V2. constructor.
    + cbn. assert (X : (0 < x)%Qc) by (apply P; left; reflexivity). assert (KX := qc_mul_pos _ _ K X).
      assert (H1 : (k * x * 0 <= k * x * v)%Qc) by (apply qc_mul_le_l; [apply Qclt_le_weak; exact KX|exact V1]).
      assert (H2 : (k * x * v <= k * x * 1)%Qc) by (apply qc_mul_le_l; [apply Qclt_le_weak; exact KX|exact V2]).
      assert (E1 : (k * x * (v - half) = k * x * v - half * (k * x))%Qc) by ring.
      assert (E2 : (k * half * x = half * (k * x))%Qc) by ring. rewrite E1, E2. pose proof (half_twice (k * x)) as HT.
      rewrite Qcmult_1_r in H2. rewrite Qcmult_0_r in H1. split; qc_lra.
    + apply IH; [intros z Hz; apply P; right; exact Hz|lia|exact U'].
Qed.
Lemma rect_point_onto k s : (0 < k)%Qc -> all_positive s -> forall c x, length c = length s ->
  in_box (centered_box (k * half)%Qc c s) x -> exists u, in_box (unit_cube (length s)) u /\ rect_point k s c u = x.
Proof.
  intros K. induction s as [|a s IH]; intros P [|y c] x L B; simpl in L; try discriminate.
  - inversion B. subst. exists []. split; [constructor|reflexivity].
  - inversion B as [|p v d' x' [V1 V2] B']. subst. cbn in V1, V2.
    destruct (IH ltac:(intros z Hz; apply P; right; exact Hz) c x' ltac:(lia) B') as (u & U & E).
    assert (X : (0 < a)%Qc) by (apply P; left; reflexivity). assert (KX := qc_mul_pos _ _ K X).
    assert (E2 : (k * half * a = half * (k * a))%Qc) by ring. rewrite E2 in V1, V2. pose proof (half_twice (k * a)) as HT.
    exists ((v - y) / (k * a) + half :: u)%Qc. split.
    + constructor; [|exact U]. cbn.
      assert (HH : (half + half = 1)%Qc) by (apply Qc_is_canon; vm_compute; reflexivity).
      assert (A1 : (- half <= (v - y) / (k * a))%Qc) by (apply qc_le_div; [exact KX|]; assert ((- half * (k * a) = - (half * (k * a)))%Qc) as -> by ring; qc_lra).
      assert (A2 : ((v - y) / (k * a) <= half)%Qc) by (apply qc_div_le; [exact KX|]; qc_lra).
      set (w := ((v - y) / (k * a))%Qc) in *. clearbody w. clear -A1 A2 HH. generalize dependent half. intros h A1 A2 HH. split; qc_lra.
    + unfold rect_point in *. cbn [combine map fst snd]. f_equal; [|exact E].
      assert (((v - y) / (k * a) + half - half = (v - y) / (k * a))%Qc) as -> by ring.
      rewrite Qcmult_comm, qc_div_mul by (apply Qclt_neq0; exact KX). ring.
Qed.

(** *** Scaled sizes *)
Lemma scaled_eq d r l f scale : Forall (fun x => length x = length r) l -> length r = d -> means scale d f ->
  scaled_sizes (r :: l) scale = Ok (NArr (scaled_sides (combine (col_min r l) (col_max r l)) f)) /\
  length (scaled_sides (combine (col_min r l) (col_max r l)) f) = d.
Proof.
  intros F L M. destruct (col_min_spec l r F) as (L1 & _ & _). destruct (col_max_spec l r F) as (L2 & _ & _).
  unfold scaled_sizes. unfold pt in *.
  assert (LB : length (combine (col_min r l) (col_max r l)) = d) by (rewrite combine_length, L1, L2, Nat.min_id; exact L).
  assert (Lf := means_length _ _ _ M).
  rewrite map_length, LB, (center_means _ _ _ M). cbn [bind]. unfold scaled_sides. split.
  - f_equal. f_equal. generalize dependent (combine (col_min r l) (col_max r l)). intros b _. revert f M Lf.
    clear. intros f _ _. revert f. induction b as [|p b IH]; intros [|x f]; cbn; try reflexivity. f_equal. apply IH.
  - rewrite map_length, combine_length, LB, Lf. apply Nat.min_id.
Qed.
Lemma scaled_common data Q scale d c f : data_dim data = Some d -> intended_reference data Q d c -> means scale d f ->
  data_rows data <> [] -> Forall (fun x => length x = d) (data_rows data) ->
  exists b, smallest_box b (data_rows data) /\ length (scaled_sides b f) = d /\
    (forall ub up, uniform_rectangle_scaled data Q scale ub up = uniform_rectangle data Q (NArr (scaled_sides b f)) ub up) /\
    (forall cells, regular_rectangle_scaled data Q scale cells = regular_rectangle data Q (NArr (scaled_sides b f)) cells).
Proof.
  intros D HQ HS NE F. assert (HG := intended_given _ _ _ _ HQ). destruct (data_rows data) as [|r l] eqn:R; [congruence|].
  assert (Lr : length r = d) by (inversion F; assumption).
  assert (F' : Forall (fun x => length x = length r) l) by (inversion F; subst; assumption).
  exists (combine (col_min r l) (col_max r l)). destruct (scaled_eq d r l f scale F' Lr HS) as [E EL].
  split; [apply computed_box; exact F'|]. split; [exact EL|].
  split; intros; unfold uniform_rectangle_scaled, regular_rectangle_scaled;
    rewrite (check_inputs_given data d _ c D HG); cbn [bind]; rewrite R, E; cbn [bind].
  - unfold uniform_rectangle. rewrite (given_idem _ data d c HG). reflexivity.
  - unfold regular_rectangle. rewrite (given_idem _ data d c HG). reflexivity.
Qed.
Lemma scaled_support data Q scale d c f ub up : data_dim data = Some d -> intended_reference data Q d c -> means scale d f ->
  data_rows data <> [] -> Forall (fun x => length x = d) (data_rows data) ->
  exists b, smallest_box b (data_rows data) /\
   ((all_positive (scaled_sides b f) -> uniform_rectangle_scaled data Q scale ub up =
       Ok (map (rect_point three_halves (scaled_sides b f) c) ub, map (rect_point 1%Qc (scaled_sides b f) c) up)) /\
    (~ all_positive (scaled_sides b f) -> uniform_rectangle_scaled data Q scale ub up = Raise WrongArgumentType)).
Proof.
  intros D HQ HS NE F. destruct (scaled_common data Q scale d c f D HQ HS NE F) as (b & B & L & E & _).
  exists b. split; [exact B|]. rewrite E. split.
  - intros P. apply (uniform_rectangle_ok data Q (NArr (scaled_sides b f)) d c _ ub up D HQ (conj eq_refl L)); [discriminate|exact P].
  - intros NP. assert (X : exists x, In x (scaled_sides b f) /\ (x <= 0)%Qc).
    { destruct (existsb (fun s => qleb s 0) (scaled_sides b f)) eqn:Ex.
      - apply existsb_exists in Ex. destruct Ex as (x & I & X). exists x. split; [exact I|apply qleb_true; exact X].
      - exfalso. apply NP. intros x I. destruct (qleb x 0) eqn:Q0; [|apply qleb_false; exact Q0].
        assert (existsb (fun s => qleb s 0) (scaled_sides b f) = true) by (apply existsb_exists; exists x; split; assumption). congruence. }
    destruct X as (x & I & X). unfold uniform_rectangle.
    rewrite (check_inputs_given data d _ c D (intended_given _ _ _ _ HQ)). cbn [bind].
    rewrite (sizes_nonpositive (NArr (scaled_sides b f)) d _ x (conj eq_refl L) I X). reflexivity.
Qed.
Lemma scaled_no_rows data Q scale d c ub up cells : data_dim data = Some d -> intended_reference data Q d c -> data_rows data = [] ->
  uniform_rectangle_scaled data Q scale ub up = Raise PyValueError /\ regular_rectangle_scaled data Q scale cells = Raise PyValueError.
Proof.
  intros D HQ R. unfold uniform_rectangle_scaled, regular_rectangle_scaled.
  rewrite (check_inputs_given data d _ c D (intended_given _ _ _ _ HQ)), R. split; reflexivity.
Qed.
Lemma smallest_constant b rows v j x : smallest_box b rows -> rows <> [] -> (forall r, In r rows -> nth_error r j = Some v) ->
  nth_error b j = Some x -> (snd x - fst x = 0)%Qc.
Proof.
  intros [B1 B2] NE C Hj.
  assert (Lb : forall r, In r rows -> length r = length b).
  { intros r Hr. symmetry. eapply Forall2_length. apply B1. exact Hr. }
  set (c := map (fun i => if fst i =? j then (v, v) else snd i) (combine (seq 0 (length b)) b)).
  assert (Nc : forall i p, nth_error c i = Some p -> exists q, nth_error b i = Some q /\ p = (if i =? j then (v, v) else q)).
  { intros i p H. unfold c in H. rewrite nth_error_map_eq in H.
    destruct (nth_error (combine (seq 0 (length b)) b) i) as [[k q]|] eqn:E; [|discriminate]. cbn in H. injection H as <-.
    assert (nth_error (seq 0 (length b)) i = Some k /\ nth_error b i = Some q) as [A1 A2].
    { clear -E. revert E. generalize (seq 0 (length b)) as l. revert b. induction i as [|i IH]; intros [|y b] [|z l] E; cbn in *; try discriminate.
      - injection E as <- <-. split; reflexivity.
      - apply IH. exact E. }
    exists q. split; [exact A2|]. assert (k = i) as ->.
    { assert (i < length b) by (apply nth_error_Some; congruence). rewrite nth_error_seq in A1. destruct (Nat.ltb_spec i (length b)); [injection A1 as <-; lia|lia]. }
    reflexivity. }
  assert (Lc : length c = length b) by (unfold c; rewrite map_length, combine_length, seq_length; apply Nat.min_id).
  assert (Hc : forall r, In r rows -> in_box c r).
  { intros r Hr. assert (Hb := B1 r Hr). unfold in_box in *. 
    assert (G : forall i p y, nth_error c i = Some p -> nth_error r i = Some y -> (fst p <= y)%Qc /\ (y <= snd p)%Qc).
    { intros i p y Hp Hy. destruct (Nc i p Hp) as (q & Hq & ->). destruct (Nat.eqb_spec i j) as [->|].
      - assert (y = v) as -> by (specialize (C r Hr); congruence). cbn. split; apply Qcle_refl.
      - apply (Forall2_nth_error _ b r i q y Hb Hq Hy). }
    assert (L : length c = length r) by (rewrite Lc; symmetry; apply Lb; exact Hr). revert G L. clearbody c. clear.
    revert r. induction c as [|p c IH]; intros [|y r] G L; cbn in L; try discriminate; constructor.
    - apply (G 0); reflexivity.
    - apply IH; [|lia]. intros i. apply (G (S i)). }
  specialize (B2 c Hc).
  assert (Hcj : nth_error c j = Some (v, v)).
  { destruct (nth_error c j) as [p|] eqn:E.
    - destruct (Nc j p E) as (q & _ & ->). rewrite Nat.eqb_refl. reflexivity.
    - apply nth_error_None in E. assert (j < length b) by (apply nth_error_Some; congruence). lia. }
  destruct (Forall2_nth_error _ b c j x (v, v) B2 Hj Hcj) as [A1 A2]. cbn in A1, A2.
  destruct rows as [|r rows]; [congruence|]. assert (Hr := C r (or_introl eq_refl)).
  destruct (Forall2_nth_error _ b r j x v (B1 r (or_introl eq_refl)) Hj Hr) as [A3 A4].
  assert (E1 : fst x = v) by (apply Qcle_antisym; assumption). assert (E2 : snd x = v) by (apply Qcle_antisym; assumption).
  rewrite E1, E2. ring.
Qed.
Lemma scaled_constant data Q scale d c f j v ub up : data_dim data = Some d -> intended_reference data Q d c -> means scale d f ->
  data_rows data <> [] -> Forall (fun x => length x = d) (data_rows data) -> j < d ->
  (forall r, In r (data_rows data) -> nth_error r j = Some v) ->
  uniform_rectangle_scaled data Q scale ub up = Raise WrongArgumentType.
Proof.
  intros D HQ HS NE F Hj C. destruct (scaled_support data Q scale d c f ub up D HQ HS NE F) as (b & B & _ & H).
  apply H. intros P. assert (Lb : length b = d).
  { destruct (data_rows data) as [|r l] eqn:R; [congruence|]. destruct B as [B _]. specialize (B r (or_introl eq_refl)).
    apply Forall2_length in B. inversion F. congruence. }
  destruct (nth_error b j) as [x|] eqn:X; [|apply nth_error_None in X; lia].
  destruct (nth_error f j) as [y|] eqn:Y; [|apply nth_error_None in Y; rewrite (means_length _ _ _ HS) in Y; lia].
  assert (Z := smallest_constant b _ v j x B NE C X).
  assert (I : In ((snd x - fst x) * y)%Qc (scaled_sides b f)).
  { unfold scaled_sides. apply in_map_iff. exists (x, y). split; [reflexivity|].
    clear -X Y. revert f b X Y. induction j as [|j IH]; intros [|b f] [|a l] X Y; cbn in *; try discriminate.
    - injection X as ->. injection Y as ->. left. reflexivity.
    - right. apply IH; assumption. }
  specialize (P _ I). rewrite Z in P. assert ((0 * y = 0)%Qc) as E by ring. rewrite E in P. exact (Qclt_not_eq _ _ P eq_refl).
Qed.

(** *** Rejected arguments *)
Lemma rectangle_rejects data Q size ub up cells :
  (data = DOther \/ (Q = NNone /\ data_reference data = None)) ->
  uniform_rectangle data Q size ub up = Raise WrongArgumentType /\ regular_rectangle data Q size cells = Raise WrongArgumentType.
Proof.
  intros [->|[-> R]].
  - split; reflexivity.
  - unfold uniform_rectangle, regular_rectangle. destruct data; cbn in R; try subst ref; split; reflexivity.
Qed.
Lemma rectangle_rejects_size data Q size d c ub up cells : data_dim data = Some d -> intended_reference data Q d c ->
  (size = NNone \/ exists s x, means size d s /\ In x s /\ (x <= 0)%Qc) ->
  uniform_rectangle data Q size ub up = Raise WrongArgumentType /\ regular_rectangle data Q size cells = Raise WrongArgumentType.
Proof.
  intros D HQ H. unfold uniform_rectangle, regular_rectangle.
  rewrite (check_inputs_given data d _ c D (intended_given _ _ _ _ HQ)). cbn [bind].
  destruct H as [->|(s & x & M & I & X)]; [split; reflexivity|]. rewrite (sizes_nonpositive size d s x M I X). split; reflexivity.
Qed.

(** *** Rectangles given as boxes *)
Lemma map_nth_seq (a : list Qc) n : length a = n -> map (fun j => nth j a 0%Qc) (seq 0 n) = a.
Proof.
  intros <-. induction a as [|x a IH]; [reflexivity|]. cbn [length seq map nth]. f_equal.
  rewrite <- seq_shift, map_map. exact IH.
Qed.
Lemma corner_arguments data d a b : data_dim data = Some d -> length a = d -> length b = d ->
  domain_arguments data [a; b] = Ok (NArr (domain_center a b), NArr (domain_lengths a b)).
Proof.
  intros D La Lb. assert (check_inputs_no_reference data = Ok d) as E by (destruct data; cbn in *; congruence).
  unfold domain_arguments. rewrite E. cbn [bind]. unfold orient. cbn [hd]. rewrite La, Nat.eqb_refl. f_equal. f_equal.
  - f_equal. unfold col_mean, domain_center. cbn [hd map length].
    rewrite <- La in Lb. clear -Lb. revert b Lb. induction a as [|x a IH]; intros [|y b] L; cbn in L; try discriminate; [reflexivity|].
    cbn [length seq map combine fst snd nth]. f_equal.
    + f_equal. unfold qsum. cbn. ring.
    + rewrite <- seq_shift, map_map. apply IH. lia.
  - f_equal. cbn [col_min col_max]. unfold domain_lengths. rewrite <- La in Lb. clear -Lb.
    revert b Lb. induction a as [|x a IH]; intros [|y b] L; cbn in L; try discriminate; [reflexivity|]. cbn. f_equal. apply IH. lia.
Qed.
Lemma transpose_pairs (a b : list Qc) : a <> [] -> length a = length b ->
  transpose_rows (map (fun p => [fst p; snd p]) (combine a b)) = [a; b].
Proof.
  intros NE L. unfold transpose_rows.
  assert (length (hd [] (map (fun p : Qc * Qc => [fst p; snd p]) (combine a b))) = 2) as ->.
  { destruct a, b; cbn in *; congruence. }
  cbn [seq map]. f_equal; [|f_equal]; rewrite map_map; cbn [nth]; clear NE; revert b L;
    induction a as [|x a IH]; intros [|y b] L; cbn in L; try discriminate; try reflexivity; cbn; f_equal; apply IH; lia.
Qed.
Lemma rows_arguments data d a b : data_dim data = Some d -> length a = d -> length b = d -> d <> 2 -> 1 <= d ->
  domain_arguments data (map (fun p => [fst p; snd p]) (combine a b)) = domain_arguments data [a; b].
Proof.
  intros D La Lb N2 N1. assert (check_inputs_no_reference data = Ok d) as E by (destruct data; cbn in *; congruence).
  unfold domain_arguments. rewrite E. cbn [bind]. unfold orient at 1 2.
  assert (length (hd [] (map (fun p : Qc * Qc => [fst p; snd p]) (combine a b))) = 2) as ->.
  { destruct a, b; cbn in *; try lia; reflexivity. }
  destruct (Nat.eqb_spec 2 d); [congruence|]. rewrite transpose_pairs; [|intros ->; cbn in La; lia|congruence].
  cbn [hd]. rewrite La, Nat.eqb_refl. reflexivity.
Qed.
Lemma lengths_positive a b : length a = length b -> (forall j x y, nth_error a j = Some x -> nth_error b j = Some y -> x <> y) ->
  all_positive (domain_lengths a b).
Proof.
  unfold domain_lengths. revert b. induction a as [|x a IH]; intros [|y b] L H z Hz; cbn in L; try discriminate; [destruct Hz|].
  cbn in Hz. destruct Hz as [<-|Hz].
  - assert (N := H 0 x y eq_refl eq_refl). unfold qmax, qmin. destruct (qleb_spec x y) as [l|n].
    + apply Qcle_lt_or_eq in l. destruct l as [l|l]; [qc_lra|contradiction].
    + apply Qcnot_le_lt in n. qc_lra.
  - apply (IH b); [lia| |exact Hz]. intros j. apply (H (S j)).
Qed.
Lemma centered_is_box c s : centered_box half c s = box_of c s.
Proof. reflexivity. Qed.
Lemma domain_support data d a b ub up : data_dim data = Some d -> length a = d -> length b = d ->
  (forall j x y, nth_error a j = Some x -> nth_error b j = Some y -> x <> y) ->
  exists c s, uniform_rectangle_domain data [a; b] ub up = Ok (map (rect_point three_halves s c) ub, map (rect_point 1%Qc s c) up) /\
    length c = d /\ length s = d /\ all_positive s /\ centered_box half c s = corner_box a b /\
    forall cells, regular_rectangle_domain data [a; b] cells = regular_partition d c s (match cells with inl n => repeat n d | inr l => l end).
Proof.
  intros D La Lb H. exists (domain_center a b), (domain_lengths a b).
  assert (P : all_positive (domain_lengths a b)) by (apply lengths_positive; [congruence|exact H]).
  assert (Lc : length (domain_center a b) = d) by (unfold domain_center; rewrite map_length, combine_length, La, Lb; apply Nat.min_id).
  assert (Ll : length (domain_lengths a b) = d) by (unfold domain_lengths; rewrite map_length, combine_length, La, Lb; apply Nat.min_id).
  unfold uniform_rectangle_domain, regular_rectangle_domain. rewrite (corner_arguments data d a b D La Lb). cbn [bind fst snd].
  split; [apply (uniform_rectangle_ok data _ _ d _ _ ub up D); [left; split; auto|split; auto|discriminate|exact P]|].
  split; [exact Lc|]. split; [exact Ll|]. split; [exact P|]. split.
  - rewrite centered_is_box. apply domain_box. congruence.
  - intros cells. apply (regular_rectangle_eq data _ _ d _ _ cells D); [left; split; auto|split; auto|exact P].
Qed.

(** *** Combined statements *)
Lemma rectangle_support data Q size d c s ub up : data_dim data = Some d -> intended_reference data Q d c -> means size d s ->
  (forall l, size <> NList l) -> all_positive s ->
  exists bins pts, uniform_rectangle data Q size ub up = Ok (bins, pts) /\ length bins = length ub /\ length pts = length up /\
    ((forall u, In u up -> in_box (unit_cube d) u) -> forall x, In x pts -> in_box (centered_box (Q2Qc (1 # 2)) c s) x) /\
    ((forall u, In u ub -> in_box (unit_cube d) u) -> forall x, In x bins -> in_box (centered_box (Q2Qc (3 # 4)) c s) x).
Proof.
  intros D HQ HS NL P. exists (map (rect_point three_halves s c) ub), (map (rect_point 1%Qc s c) up).
  assert (Ls := means_length _ _ _ HS). assert (Lc := intended_length _ _ _ _ HQ).
  split; [apply (uniform_rectangle_ok data Q size d c s ub up); assumption|]. rewrite !map_length.
  split; [reflexivity|]. split; [reflexivity|]. split; intros U x Hx; apply in_map_iff in Hx; destruct Hx as (u & <- & Hu).
  - assert (E : (1 * half = Q2Qc (1 # 2))%Qc) by (apply Qc_is_canon; reflexivity). rewrite <- E.
    apply rect_point_in_box; [reflexivity|exact P|congruence|rewrite Ls; apply U; exact Hu].
  - assert (E : (three_halves * half = Q2Qc (3 # 4))%Qc) by (apply Qc_is_canon; reflexivity). rewrite <- E.
    apply rect_point_in_box; [reflexivity|exact P|congruence|rewrite Ls; apply U; exact Hu].
Qed.
Lemma rectangle_onto data Q size d c s ub x : data_dim data = Some d -> intended_reference data Q d c -> means size d s ->
  (forall l, size <> NList l) -> all_positive s -> in_box (centered_box (Q2Qc (1 # 2)) c s) x ->
  exists u bins, in_box (unit_cube d) u /\ uniform_rectangle data Q size ub [u] = Ok (bins, [x]).
Proof.
  intros D HQ HS NL P B. assert (Ls := means_length _ _ _ HS). assert (Lc := intended_length _ _ _ _ HQ).
  assert (E : (1 * half = Q2Qc (1 # 2))%Qc) by (apply Qc_is_canon; reflexivity). rewrite <- E in B.
  destruct (rect_point_onto 1%Qc s ltac:(reflexivity) P c x ltac:(congruence) B) as (u & U & X).
  exists u, (map (rect_point three_halves s c) ub). split; [rewrite <- Ls; exact U|].
  rewrite (uniform_rectangle_ok data Q size d c s ub [u]) by assumption. cbn [map]. rewrite X. reflexivity.
Qed.
Lemma scaled_as_size data Q scale d c f : data_dim data = Some d -> intended_reference data Q d c -> means scale d f ->
  data_rows data <> [] -> Forall (fun x => length x = d) (data_rows data) ->
  exists b, smallest_box b (data_rows data) /\ means (NArr (scaled_sides b f)) d (scaled_sides b f) /\
    (forall ub up, uniform_rectangle_scaled data Q scale ub up = uniform_rectangle data Q (NArr (scaled_sides b f)) ub up) /\
    (forall cells, regular_rectangle_scaled data Q scale cells = regular_rectangle data Q (NArr (scaled_sides b f)) cells).
Proof.
  intros D HQ HS NE F. destruct (scaled_common data Q scale d c f D HQ HS NE F) as (b & B & L & E & E'). exists b.
  split; [exact B|]. split; [split; [reflexivity|exact L]|]. split; assumption.
Qed.
Lemma scaled_constant_both data Q scale d c f j v ub up cells : data_dim data = Some d -> intended_reference data Q d c -> means scale d f ->
  data_rows data <> [] -> Forall (fun x => length x = d) (data_rows data) -> j < d ->
  (forall r, In r (data_rows data) -> nth_error r j = Some v) ->
  uniform_rectangle_scaled data Q scale ub up = Raise WrongArgumentType /\
  regular_rectangle_scaled data Q scale cells = Raise WrongArgumentType.
Proof.
  intros D HQ HS NE F Hj C. split; [eapply scaled_constant; eassumption|].
  destruct (scaled_common data Q scale d c f D HQ HS NE F) as (b & B & L & E & E'). rewrite E'.
  assert (Lb : length b = d).
  { destruct (data_rows data) as [|r l] eqn:R; [congruence|]. destruct B as [B _]. specialize (B r (or_introl eq_refl)).
    apply Forall2_length in B. inversion F. congruence. }
  destruct (nth_error b j) as [x|] eqn:X; [|apply nth_error_None in X; lia].
  destruct (nth_error f j) as [y|] eqn:Y; [|apply nth_error_None in Y; rewrite (means_length _ _ _ HS) in Y; lia].
  assert (Z := smallest_constant b _ v j x B NE C X).
  refine (proj2 (rectangle_rejects_size data Q _ d c [] [] cells D HQ (or_intror (ex_intro _ (scaled_sides b f) (ex_intro _ 0%Qc _))))).
  split; [split; [reflexivity|exact L]|]. split; [|apply Qcle_refl].
  assert ((0 = (snd x - fst x) * y)%Qc) as -> by (rewrite Z; ring).
  unfold scaled_sides. apply in_map_iff. exists (x, y). split; [reflexivity|].
  clear -X Y. revert f b X Y. induction j as [|j IH]; intros [|b f] [|a l] X Y; cbn in *; try discriminate.
  - injection X as ->. injection Y as ->. left. reflexivity.
  - right. apply IH; assumption.
Qed.
Lemma domain_support_box data d a b ub up : data_dim data = Some d -> length a = d -> length b = d ->
  (forall j x y, nth_error a j = Some x -> nth_error b j = Some y -> x <> y) ->
  exists bins pts, uniform_rectangle_domain data [a; b] ub up = Ok (bins, pts) /\ length pts = length up /\
    ((forall u, In u up -> in_box (unit_cube d) u) -> forall x, In x pts -> in_box (corner_box a b) x) /\
    forall x, in_box (corner_box a b) x -> exists u bins', in_box (unit_cube d) u /\ uniform_rectangle_domain data [a; b] ub [u] = Ok (bins', [x]).
Proof.
  intros D La Lb H. pose proof (corner_arguments data d a b D La Lb) as CA.
  destruct (domain_support data d a b ub up D La Lb H) as (c & s & E & Lc & Ls & P & CB & _).
  assert (G : forall up, uniform_rectangle_domain data [a; b] ub up = uniform_rectangle data (NArr (domain_center a b)) (NArr (domain_lengths a b)) ub up).
  { intros up'. unfold uniform_rectangle_domain. rewrite CA. reflexivity. }
  assert (P' : all_positive (domain_lengths a b)) by (apply lengths_positive; [congruence|exact H]).
  assert (Lc' : length (domain_center a b) = d) by (unfold domain_center; rewrite map_length, combine_length, La, Lb; apply Nat.min_id).
  assert (Ll' : length (domain_lengths a b) = d) by (unfold domain_lengths; rewrite map_length, combine_length, La, Lb; apply Nat.min_id).
  assert (CB' : centered_box (Q2Qc (1 # 2)) (domain_center a b) (domain_lengths a b) = corner_box a b) by (apply domain_box; congruence).
  assert (IR : intended_reference data (NArr (domain_center a b)) d (domain_center a b)) by (left; split; auto).
  assert (MS : means (NArr (domain_lengths a b)) d (domain_lengths a b)) by (split; auto).
  destruct (rectangle_support data _ _ d _ _ ub up D IR MS ltac:(discriminate) P') as (bins & pts & E1 & _ & E2 & E3 & _).
  exists bins, pts. rewrite G. split; [exact E1|]. split; [exact E2|]. rewrite CB' in E3. split; [exact E3|].
  intros x Hx. rewrite <- CB' in Hx. destruct (rectangle_onto data _ _ d _ _ ub x D IR MS ltac:(discriminate) P' Hx) as (u & bs & U & E4).
  exists u, bs. rewrite G. split; assumption.
Qed.
Lemma domain_regular data d a b cells : data_dim data = Some d -> length a = d -> length b = d ->
  (forall j x y, nth_error a j = Some x -> nth_error b j = Some y -> x <> y) ->
  exists c s, length c = d /\ length s = d /\ all_positive s /\ centered_box (Q2Qc (1 # 2)) c s = corner_box a b /\
    regular_rectangle_domain data [a; b] cells = regular_rectangle data (NArr c) (NArr s) cells.
Proof.
  intros D La Lb H. exists (domain_center a b), (domain_lengths a b).
  unfold regular_rectangle_domain. rewrite (corner_arguments data d a b D La Lb).
  split; [unfold domain_center; rewrite map_length, combine_length, La, Lb; apply Nat.min_id|].
  split; [unfold domain_lengths; rewrite map_length, combine_length, La, Lb; apply Nat.min_id|].
  split; [apply lengths_positive; [congruence|exact H]|]. split; [|reflexivity].
  apply domain_box. congruence.
Qed.
Lemma domain_rows data d a b : data_dim data = Some d -> length a = d -> length b = d -> d <> 2 -> 1 <= d ->
  (forall ub up, uniform_rectangle_domain data (map (fun p => [fst p; snd p]) (combine a b)) ub up = uniform_rectangle_domain data [a; b] ub up) /\
  (forall cells, regular_rectangle_domain data (map (fun p => [fst p; snd p]) (combine a b)) cells = regular_rectangle_domain data [a; b] cells).
Proof.
  intros D La Lb N2 N1. unfold uniform_rectangle_domain, regular_rectangle_domain. rewrite (rows_arguments data d a b D La Lb N2 N1).
  split; reflexivity.
Qed.
