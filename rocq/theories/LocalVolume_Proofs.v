From Coq Require Import List Arith Bool QArith Qcanon Lia.
From Verif Require Import Err Num NumPy Ext Lists Show Query_Proofs LocalVolume_Model LocalVolume_Spec.
Import ListNotations.
Local Open Scope nat_scope.

Section Cells.
Variables (samples : list pt) (ball : nat -> nat -> list pt) (ptr : Qc -> pt -> nat).
Notation H := (hits samples ball ptr).
Notation count := (cell_count samples ball ptr).
Notation rounds := (rounds samples ball ptr).

Lemma pow_pos k : 1 <= 10 ^ k.
Proof. induction k; simpl; lia. Qed.
Lemma pow_big k : k < 10 ^ k.
Proof. induction k as [|k IH]; [simpl; lia|]. cbn [Nat.pow]. lia. Qed.

(** The loop from round k on. *)
Lemma rounds_stop f nloc nmax i r : forall k, nmax <= f + 10 * 10 ^ k -> 1 <= k ->
  (forall j, 1 <= j < k -> H i r (10 * 10 ^ j) < nloc /\ 10 * 10 ^ j < nmax) ->
  exists k', stops_at (H i r) nloc nmax k' /\
    rounds f nloc nmax i r (H i r (10 * 10 ^ k)) (10 * 10 ^ k) = (H i r (10 * 10 ^ k'), 10 * 10 ^ k').
Proof.
  induction f as [|f IH]; intros k F K J; cbn [LocalVolume_Model.rounds].
  - exists k. split; [|reflexivity]. split; [exact K|]. split; [right; simpl in F; lia|exact J].
  - destruct (Nat.ltb_spec (H i r (10 * 10 ^ k)) nloc) as [A|A]; cbn [andb].
    + destruct (Nat.ltb_spec (10 * 10 ^ k) nmax) as [B|B].
      * replace (10 * 10 ^ k * 10) with (10 * 10 ^ S k) by (cbn [Nat.pow]; lia). apply IH; [|lia|].
        -- pose proof (pow_pos k). cbn [Nat.pow]. lia.
        -- intros j Hj. destruct (Nat.eq_dec j k) as [->|N]; [split; assumption|apply J; lia].
      * exists k. split; [|reflexivity]. split; [exact K|]. split; [right; exact B|exact J].
    + exists k. split; [|reflexivity]. split; [exact K|]. split; [left; exact A|exact J].
Qed.
Lemma count_stops nloc nmax i r : 0 < nloc -> 10 < nmax ->
  exists k, stops_at (H i r) nloc nmax k /\ count nloc nmax i r = (H i r (10 * 10 ^ k), 10 * 10 ^ k).
Proof.
  intros L M. unfold cell_count. destruct nmax as [|f]; [lia|]. cbn [LocalVolume_Model.rounds].
  destruct (Nat.ltb_spec 0 nloc); [|lia]. destruct (Nat.ltb_spec 10 (S f)); [|lia]. cbn [andb].
  change (10 * 10) with (10 * 10 ^ 1). apply rounds_stop; [|lia|intros; lia]. change (10 ^ 1) with 10. lia.
Qed.
Lemma count_none nloc nmax i r : nloc = 0 \/ nmax <= 10 -> count nloc nmax i r = (0, 10).
Proof.
  intros A. unfold cell_count. destruct nmax as [|f]; [reflexivity|]. cbn [LocalVolume_Model.rounds].
  destruct A as [->|A]; [reflexivity|]. destruct (Nat.ltb_spec 10 (S f)); [lia|]. rewrite andb_false_r. reflexivity.
Qed.
(** The stopping round is unique. *)
Lemma stops_unique Hf nloc nmax k k' : stops_at Hf nloc nmax k -> stops_at Hf nloc nmax k' -> k = k'.
Proof.
  intros (K & S & J) (K' & S' & J'). destruct (lt_eq_lt_dec k k') as [[L|E]|L]; [|exact E|].
  - destruct (J' k ltac:(lia)). lia.
  - destruct (J k' ltac:(lia)). lia.
Qed.
Lemma drawn_bound Hf nloc nmax k : 10 < nmax -> stops_at Hf nloc nmax k -> 10 * 10 ^ k < 10 * nmax.
Proof.
  intros M (K & Hs & J). destruct k as [|k]; [lia|]. destruct k as [|k]; [simpl; lia|].
  destruct (J (Datatypes.S k) ltac:(lia)) as [_ B]. change (10 ^ S (S k)) with (10 * 10 ^ S k). lia.
Qed.

(** Volumes. *)
Lemma cell_volume_ge g dim nloc nmax i r : (0 <= r)%Qc -> (0 < g)%Qc -> (0 <= cell_volume samples ball ptr g dim nloc nmax i r)%Qc.
Proof.
  intros R G. unfold cell_volume. assert (T : 0 < snd (count nloc nmax i r)).
  { destruct nloc as [|n]; [rewrite count_none by (left; reflexivity); simpl; lia|].
    destruct (le_lt_dec nmax 10); [rewrite count_none by (right; assumption); simpl; lia|].
    destruct (count_stops (S n) nmax i r) as (k & _ & ->); [lia|lia|]. pose proof (pow_pos k). simpl; lia. }
  apply qc_div_nonneg; [|apply qn_pos; exact T]. apply qc_mul_nonneg; [|apply qn_nonneg].
  apply qc_mul_nonneg; [|apply Qclt_le_weak; exact G]. clear T. induction dim; simpl; [apply qleb_true; reflexivity|].
  apply qc_mul_nonneg; assumption.
Qed.
Lemma blocks_concat P (f : nat -> Qc) : 0 < P ->
  concat (map (map f) (array_split (seq 0 (length samples)) P)) = map f (seq 0 (length samples)).
Proof. intros HP. rewrite <- concat_map, array_split_concat by exact HP. reflexivity. Qed.

Definition volume_of g dim nloc nmax (radii : list Qc) (i : nat) : Qc :=
  cell_volume samples ball ptr g dim nloc nmax i (nth i radii 0%Qc).
Lemma local_volumes_eq P g dim nloc nmax radii : 0 < P ->
  let vs := map (volume_of g dim nloc nmax radii) (seq 0 (length samples)) in
  local_volumes samples ball ptr P g dim nloc nmax radii =
  (map (fun v => xdivq v (qsum vs)) vs, array_split (map (fun v => xdivq v (qsum vs)) vs) P).
Proof.
  intros HP. unfold local_volumes. rewrite (blocks_concat P (fun i => cell_volume samples ball ptr g dim nloc nmax i (nth i radii 0%Qc)) HP).
  fold (volume_of g dim nloc nmax radii). cbn zeta. f_equal.
  rewrite !array_split_map. reflexivity.
Qed.
Lemma normalize_weights (vs : list Qc) : (forall x, In x vs -> (0 <= x)%Qc) -> qsum vs <> 0%Qc ->
  exists v, map (fun x => xdivq x (qsum vs)) vs = map Fin v /\ normalized_weights v vs.
Proof.
  intros NN Z. exists (map (fun x => x / qsum vs)%Qc vs). split.
  - rewrite map_map. apply map_ext. intros x. apply xdivq_fin. exact Z.
  - assert (P : (0 < qsum vs)%Qc).
    { assert (A := qsum_nonneg vs NN). apply Qcle_lt_or_eq in A. destruct A; [assumption|congruence]. }
    split.
    + rewrite qsum_map_div, map_id. field. exact Z.
    + split; [|split; [apply map_length|]].
      * intros x Hx. apply in_map_iff in Hx. destruct Hx as (y & <- & Hy). apply qc_div_nonneg; [apply NN; exact Hy|exact P].
      * intros i a x Ha Hx. rewrite nth_error_map_eq, Hx in Ha. injection Ha as <-. apply qc_div_mul. exact Z.
Qed.
End Cells.

(** The weight of cell i according to the specification. *)
Definition cell_weight samples ball ptr (dim nloc nmax : nat) (radii : list Qc) (i : nat) : Qc :=
  let c := cell_count samples ball ptr nloc nmax i (nth i radii 0%Qc) in (nth i radii 0 ^ dim * (qn (fst c) / qn (snd c)))%Qc.

Lemma qsum_scale g (l m : list Qc) : l = map (fun x => g * x)%Qc m -> qsum l = (g * qsum m)%Qc.
Proof. intros ->. apply (eq_trans (qsum_map_mul g (fun x => x) m)). rewrite map_id. reflexivity. Qed.

Section Main.
Variables (samples : list pt) (ball : nat -> nat -> list pt) (ptr : Qc -> pt -> nat).
Variables (P : nat) (g : Qc) (dim nloc nmax : nat) (stored : option (list Qc)) (fresh est : list Qc).
Hypothesis HP : 0 < P.
Hypothesis Hg : (0 < g)%Qc.
Hypothesis Lest : length est = length samples.
Hypothesis Hest : forall x, In x est -> (0 <= x)%Qc.
Let radii := repair_radii est (first_radii stored fresh).
Hypothesis Lr : length (first_radii stored fresh) = length samples.

Lemma radii_length : length radii = length samples.
Proof. unfold radii, repair_radii. rewrite map_length, combine_length, Lest, Lr. apply Nat.min_id. Qed.
Lemma radii_nonneg i : (0 <= nth i radii 0)%Qc.
Proof.
  destruct (lt_dec i (length radii)) as [L|L].
  - assert (I := nth_In radii 0%Qc L). remember (nth i radii 0%Qc) as y eqn:Ey. clear Ey. apply in_map_iff in I. destruct I as ([e x] & E & I).
    cbn in E. rewrite <- E. apply in_combine_l in I. destruct (qleb_spec x 0); [apply Hest; exact I|].
    apply Qclt_le_weak, Qcnot_le_lt. assumption.
  - rewrite nth_overflow by lia. apply Qcle_refl.
Qed.
Notation V := (map (volume_of samples ball ptr g dim nloc nmax radii) (seq 0 (length samples))).
Notation W := (map (cell_weight samples ball ptr dim nloc nmax radii) (seq 0 (length samples))).
Lemma volumes_weights : V = map (fun x => g * x)%Qc W.
Proof.
  rewrite map_map. apply map_ext. intros i. unfold volume_of, cell_volume, cell_weight. unfold Qcdiv. ring.
Qed.
Lemma V_nonneg x : In x V -> (0 <= x)%Qc.
Proof.
  intros I. apply in_map_iff in I. destruct I as (i & <- & _). apply cell_volume_ge; [apply radii_nonneg|exact Hg].
Qed.
Lemma W_nonneg x : In x W -> (0 <= x)%Qc.
Proof.
  intros I. assert (I' : In (g * x)%Qc V) by (rewrite volumes_weights; apply (in_map (fun x => g * x)%Qc); exact I).
  apply V_nonneg in I'. destruct (qleb_spec 0 x) as [|N]; [assumption|]. exfalso. apply Qcnot_le_lt in N.
  assert (A : (0 < g * - x)%Qc) by (apply qc_mul_pos; [exact Hg|qc_lra]). assert ((g * - x = - (g * x))%Qc) as E by ring. rewrite E in A. qc_lra.
Qed.

Lemma estimate_ok : (exists i, i < length samples /\ cell_weight samples ball ptr dim nloc nmax radii i <> 0%Qc) ->
  exists v, estimate_local_volume samples ball ptr P g dim nloc nmax stored fresh est =
    (stored_after stored fresh, (map Fin v, array_split (map Fin v) P)) /\ normalized_weights v W.
Proof.
  intros (i & Li & Ni). unfold estimate_local_volume. fold radii. rewrite (local_volumes_eq samples ball ptr P g dim nloc nmax radii HP).
  assert (SW : qsum W <> 0%Qc).
  { intros Z. assert (A := qsum_zero_nonneg W W_nonneg Z). apply Ni. apply A. apply in_map. apply in_seq. lia. }
  assert (SV : qsum V = (g * qsum W)%Qc) by (apply qsum_scale, volumes_weights).
  assert (g <> 0)%Qc by (apply Qclt_neq0; exact Hg).
  assert (SV0 : qsum V <> 0%Qc).
  { rewrite SV. intros Z. apply Qcmult_integral in Z. destruct Z; contradiction. }
  destruct (normalize_weights V V_nonneg SV0) as (v & E & (N1 & N2 & N3 & N4)).
  exists v. rewrite E. split; [reflexivity|]. split; [exact N1|]. split; [exact N2|]. split; [rewrite N3, !map_length; reflexivity|].
  intros j a x Ha Hx. assert (HV : nth_error V j = Some (g * x)%Qc).
  { rewrite volumes_weights, nth_error_map_eq. rewrite Hx. reflexivity. }
  specialize (N4 j a _ Ha HV). rewrite SV in N4.
  assert (E2 : (g * (a * qsum W) = g * x)%Qc) by (rewrite <- N4; ring).
  apply (f_equal (fun z => / g * z)%Qc) in E2. rewrite !Qcmult_assoc in E2. rewrite Qcmult_inv_l in E2 by assumption.
  rewrite !Qcmult_1_l in E2. exact E2.
Qed.
Lemma estimate_nan : (forall i, i < length samples -> cell_weight samples ball ptr dim nloc nmax radii i = 0%Qc) ->
  estimate_local_volume samples ball ptr P g dim nloc nmax stored fresh est =
    (stored_after stored fresh, (repeat NaN (length samples), array_split (repeat NaN (length samples)) P)).
Proof.
  intros Z. unfold estimate_local_volume. fold radii. rewrite (local_volumes_eq samples ball ptr P g dim nloc nmax radii HP).
  assert (E : V = repeat 0%Qc (length samples)).
  { rewrite volumes_weights, map_map. transitivity (map (fun _ : nat => 0%Qc) (seq 0 (length samples))).
    - apply map_ext_in. intros i Hi. apply in_seq in Hi. rewrite Z by lia. ring.
    - generalize 0. generalize (length samples) as n. induction n as [|n IH]; intros a; [reflexivity|]. cbn [seq map repeat]. rewrite IH. reflexivity. }
  rewrite E. assert (S0 : qsum (repeat 0%Qc (length samples)) = 0%Qc).
  { clear. induction (length samples) as [|n IH]; [reflexivity|]. cbn [repeat]. change (0 + qsum (repeat 0%Qc n) = 0)%Qc. rewrite IH. apply Qcplus_0_l. }
  rewrite S0. assert (E2 : map (fun v => xdivq v 0) (repeat 0%Qc (length samples)) = repeat NaN (length samples)).
  { clear. induction (length samples) as [|n IH]; [reflexivity|]. cbn [repeat map]. f_equal. exact IH. }
  rewrite E2. reflexivity.
Qed.
Lemma estimate_limit_nan : nloc = 0 \/ nmax <= 10 ->
  estimate_local_volume samples ball ptr P g dim nloc nmax stored fresh est =
    (stored_after stored fresh, (repeat NaN (length samples), array_split (repeat NaN (length samples)) P)).
Proof.
  intros A. apply estimate_nan. intros i Hi. unfold cell_weight. rewrite count_none by exact A. cbn [fst snd]. rewrite qn_0. unfold Qcdiv. ring.
Qed.
End Main.

Lemma estimate_processes samples ball ptr P P' g dim nloc nmax stored fresh est : 0 < P -> 0 < P' ->
  fst (snd (estimate_local_volume samples ball ptr P g dim nloc nmax stored fresh est)) =
  fst (snd (estimate_local_volume samples ball ptr P' g dim nloc nmax stored fresh est)) /\
  snd (snd (estimate_local_volume samples ball ptr P g dim nloc nmax stored fresh est)) =
  array_split (fst (snd (estimate_local_volume samples ball ptr P g dim nloc nmax stored fresh est))) P.
Proof.
  intros A B. unfold estimate_local_volume. cbn [snd].
  rewrite (local_volumes_eq samples ball ptr P) by exact A. rewrite (local_volumes_eq samples ball ptr P') by exact B. split; reflexivity.
Qed.

(** More points than the limit. *)
Lemma over_limit samples ball ptr nloc nmax i r : 0 < nloc -> 10 < nmax -> nmax < 100 -> snd (cell_count samples ball ptr nloc nmax i r) = 100.
Proof.
  intros A B C. destruct (count_stops samples ball ptr nloc nmax i r A B) as (k & S & ->). cbn [snd].
  destruct k as [|[|k]].
  - destruct S; lia.
  - reflexivity.
  - destruct S as (_ & _ & J). destruct (J 1 ltac:(lia)) as [_ D]. change (10 * 10 ^ 1) with 100 in D. lia.
Qed.

(** *** The statements *)
Lemma radii_used stored fresh est i e : nth_error est i = Some e ->
  match stored with
  | Some r => forall x, nth_error r i = Some x -> nth_error (repair_radii est (first_radii stored fresh)) i = Some (intended_radius (Some x) 0 e)
  | None => forall x, nth_error fresh i = Some x -> nth_error (repair_radii est (first_radii stored fresh)) i = Some (intended_radius None x e)
  end.
Proof.
  assert (C : forall (l m : list Qc) j a b, nth_error l j = Some a -> nth_error m j = Some b -> nth_error (combine l m) j = Some (a, b)).
  { induction l as [|y l IH]; intros [|z m] [|j] a b A B; cbn in *; try discriminate; [congruence|]. apply IH; assumption. }
  assert (N : forall x, (if qleb x 0 then e else x) = (if qltb 0 x then x else e)).
  { intros x. unfold qltb, qleb. destruct (Qle_bool x (Q2Qc 0)) eqn:Z; cbn in Z |- *; rewrite ?Z; reflexivity. }
  intros E. destruct stored as [r|]; intros x X; unfold repair_radii, first_radii; rewrite nth_error_map_eq.
  - rewrite (C est r i e x E X). cbn. f_equal. apply N.
  - rewrite (C est _ i e (Q2Qc (3 # 2) * x)%Qc E); [cbn; f_equal; apply N|]. rewrite nth_error_map_eq, X. reflexivity.
Qed.
Lemma choose_rounds samples ball ptr nloc nmax radii : 0 < nloc -> 10 < nmax -> forall num, exists ks, length ks = num /\
  forall i k, nth_error ks i = Some k -> stops_at (hits samples ball ptr i (nth i radii 0%Qc)) nloc nmax k /\
    cell_count samples ball ptr nloc nmax i (nth i radii 0%Qc) = (hits samples ball ptr i (nth i radii 0%Qc) (10 * 10 ^ k), 10 * 10 ^ k).
Proof.
  intros A B. induction num as [|n (ks & L & F)].
  - exists []. split; [reflexivity|]. intros [|i] k; discriminate.
  - destruct (count_stops samples ball ptr nloc nmax n (nth n radii 0%Qc) A B) as (k & S & E).
    exists (ks ++ [k]). split; [rewrite app_length, L; cbn; lia|]. intros i k' Hk. destruct (lt_dec i n) as [Hi|Hi].
    + rewrite nth_error_app1 in Hk by lia. apply F. exact Hk.
    + rewrite nth_error_app2 in Hk by lia. destruct (i - length ks) as [|m] eqn:Em; [|destruct m; discriminate].
      cbn in Hk. injection Hk as <-. assert (i = n) as -> by lia. split; assumption.
Qed.
Lemma estimate_main samples ball ptr P g dim nloc nmax stored fresh est : 0 < P -> (0 < g)%Qc -> 0 < nloc -> 10 < nmax ->
  length est = length samples -> (forall x, In x est -> (0 <= x)%Qc) -> length (first_radii stored fresh) = length samples ->
  let radii := repair_radii est (first_radii stored fresh) in
  let H i := hits samples ball ptr i (nth i radii 0%Qc) in
  (exists i, i < length samples /\ nth i radii 0%Qc <> 0%Qc /\ forall k, stops_at (H i) nloc nmax k -> 0 < H i (10 * 10 ^ k)) ->
  exists v ks, length ks = length samples /\ (forall i k, nth_error ks i = Some k -> stops_at (H i) nloc nmax k) /\
    estimate_local_volume samples ball ptr P g dim nloc nmax stored fresh est =
      (stored_after stored fresh, (map Fin v, array_split (map Fin v) P)) /\
    normalized_weights v (weights H dim radii ks).
Proof.
  intros HP Hg A B Le He Lf radii H (i & Li & Ri & Hi).
  destruct (choose_rounds samples ball ptr nloc nmax radii A B (length samples)) as (ks & Lk & F).
  assert (WE : map (cell_weight samples ball ptr dim nloc nmax radii) (seq 0 (length samples)) = weights H dim radii ks).
  { unfold weights. rewrite Lk. apply map_ext_in. intros j Hj. apply in_seq in Hj.
    assert (K : nth_error ks j = Some (nth j ks 0)) by (apply nth_error_nth'; lia).
    destruct (F j _ K) as [_ E]. unfold cell_weight. rewrite E. reflexivity. }
  destruct (estimate_ok samples ball ptr P g dim nloc nmax stored fresh est HP Hg Le He Lf) as (v & E & N).
  { exists i. split; [exact Li|]. assert (K : nth_error ks i = Some (nth i ks 0)) by (apply nth_error_nth'; lia).
    destruct (F i _ K) as [S E]. unfold cell_weight. fold radii. rewrite E. cbn [fst snd]. specialize (Hi _ S).
    intros Z. apply Qcmult_integral in Z. destruct Z as [Z|Z].
    - clear -Z Ri. induction dim as [|d IH]; cbn in Z; [discriminate (f_equal this Z)|]. apply Qcmult_integral in Z. destruct Z; [contradiction|apply IH; assumption].
    - revert Z. apply Qclt_neq0, qc_div_pos; apply qn_pos; [exact Hi|]. pose proof (pow_pos (nth i ks 0)). lia. }
  exists v, ks. split; [exact Lk|]. split; [intros j k Hk; apply F; exact Hk|]. split; [exact E|]. fold radii in N. rewrite WE in N. exact N.
Qed.
Lemma drawn_at_most samples ball ptr nloc nmax i r : 0 < nloc -> 10 < nmax -> snd (cell_count samples ball ptr nloc nmax i r) < 10 * nmax.
Proof.
  intros A B. destruct (count_stops samples ball ptr nloc nmax i r A B) as (k & S & ->). cbn [snd]. eapply drawn_bound; eassumption.
Qed.
Lemma around_scaled s r b : scaled_point s r b (around s r b).
Proof.
  unfold scaled_point, around. split; [rewrite map_length, combine_length; reflexivity|].
  revert b. induction s as [|a s IH]; intros [|c b] [|d] u v A B; cbn in *; try discriminate; [congruence|]. apply IH; assumption.
Qed.
Lemma scaled_unique s r b x y : scaled_point s r b x -> scaled_point s r b y -> x = y.
Proof.
  intros [Lx X] [Ly Y]. apply nth_error_ext. intros d.
  destruct (nth_error s d) as [u|] eqn:S; [destruct (nth_error b d) as [v|] eqn:B|].
  - rewrite (X d u v S B), (Y d u v S B). reflexivity.
  - apply nth_error_None in B. rewrite (proj2 (nth_error_None x d)), (proj2 (nth_error_None y d)) by lia. reflexivity.
  - apply nth_error_None in S. rewrite (proj2 (nth_error_None x d)), (proj2 (nth_error_None y d)) by lia. reflexivity.
Qed.
Lemma filter_positions {A} (f : A -> bool) (l : list A) : exists idx, NoDup idx /\ length idx = length (filter f l) /\
  forall j, In j idx <-> exists a, nth_error l j = Some a /\ f a = true.
Proof.
  induction l as [|a l (idx & N & L & E)].
  - exists []. split; [constructor|]. split; [reflexivity|]. intros j. split; [intros []|]. intros (x & X & _). destruct j; discriminate.
  - assert (NS : NoDup (map S idx)). { apply FinFun.Injective_map_NoDup; [intros x y; congruence|exact N]. }
    assert (ES : forall j, In (S j) (map S idx) <-> exists x, nth_error l j = Some x /\ f x = true).
    { intros j. rewrite in_map_iff. rewrite <- E. split; [intros (k & K & I); injection K as ->; exact I|]. intros I. exists j. split; [reflexivity|exact I]. }
    assert (Z : ~ In 0 (map S idx)) by (rewrite in_map_iff; intros (k & K & _); discriminate).
    cbn [filter]. destruct (f a) eqn:Fa.
    + exists (0 :: map S idx). split; [constructor; assumption|]. split; [cbn; rewrite map_length, L; reflexivity|].
      intros [|j]; cbn [nth_error].
      * split; [intros _; exists a; split; [reflexivity|exact Fa]|intros _; left; reflexivity].
      * rewrite <- ES. split; [intros [X|X]; [discriminate|exact X]|intros X; right; exact X].
    + exists (map S idx). split; [exact NS|]. split; [rewrite map_length; exact L|].
      intros [|j]; cbn [nth_error].
      * split; [intros X; contradiction|]. intros (x & X & Y). injection X as <-. congruence.
      * apply ES.
Qed.
Lemma filter_twice {A} (f g : A -> bool) (l : list A) : filter f (filter g l) = filter (fun x => g x && f x) l.
Proof. induction l as [|a l IH]; [reflexivity|]. cbn. destruct (g a); cbn; [destruct (f a)|]; rewrite IH; reflexivity. Qed.
Lemma filter_map_len {A B} (f : B -> bool) (h : A -> B) (l : list A) : length (filter f (map h l)) = length (filter (fun a => f (h a)) l).
Proof. induction l as [|a l IH]; [reflexivity|]. cbn. destruct (f (h a)); cbn; rewrite IH; reflexivity. Qed.
Lemma hits_count samples ball ptr i r n : counts_hits (nth i samples []) r (ball i n) (ptr r) i (hits samples ball ptr i r n).
Proof.
  unfold counts_hits, hits. rewrite filter_twice, filter_map_len.
  destruct (filter_positions (fun a => in_unit_cube (around (nth i samples []) r a) && (ptr r (around (nth i samples []) r a) =? i)) (ball i n))
    as (idx & N & L & E).
  exists idx. split; [exact N|]. split; [exact L|]. intros j. rewrite E. clear. split.
  - intros (b & B & T). apply andb_prop in T. destruct T as [T U]. exists b, (around (nth i samples []) r b).
    split; [exact B|]. split; [apply around_scaled|]. split; [|apply Nat.eqb_eq; exact U].
    intros v V. unfold in_unit_cube in T. rewrite forallb_forall in T. specialize (T v V). apply andb_prop in T.
    destruct T as [T1 T2]. split; apply qleb_true; assumption.
  - intros (b & x & B & X & C & O). exists b. split; [exact B|]. rewrite <- (scaled_unique _ _ _ _ _ X (around_scaled _ r b)).
    apply andb_true_intro. split; [|apply Nat.eqb_eq; exact O]. apply forallb_forall. intros v V. specialize (C v V).
    apply andb_true_intro. split; apply qleb_true; apply C.
Qed.
