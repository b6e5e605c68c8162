From Coq Require Import List Arith Bool QArith Qcanon Lia.
From Verif Require Import Err Num NumPy Lists SampleSet_Model SampleSet_Spec Prob_Spec Disc_Model Workflow_Model Workflow_Spec Workflow_Proofs DataUnif_Model DataUnif_Spec DataUnif_Proofs.
Import ListNotations.
Local Open Scope nat_scope.

(** ** Sums by output *)
Lemma qsum_zeros {A} (l : list A) (f : A -> Qc) : (forall x, In x l -> f x = 0%Qc) -> qsum (map f l) = 0%Qc.
Proof. induction l as [|a l IH]; intros H; [reflexivity|]. cbn [map]. change (qsum (f a :: map f l)) with (f a + qsum (map f l))%Qc. rewrite (H a (or_introl eq_refl)), IH by (intros; apply H; right; assumption). ring. Qed.
Lemma qsum_once (ks : list cell) k (c : Qc) (f : cell -> Qc) : NoDup ks -> In k ks ->
  qsum (map (fun y => if cell_dec k y then (c + f y)%Qc else f y) ks) = (c + qsum (map f ks))%Qc.
Proof.
  induction ks as [|a ks IH]; intros N I; [destruct I|]. inversion N as [|? ? Na Nk]; subst. cbn [map].
  change (qsum (?x :: ?r)) with (x + qsum r)%Qc. change (qsum (f a :: map f ks)) with (f a + qsum (map f ks))%Qc. destruct (cell_dec k a) as [->|E].
  - assert (Z : map (fun y => if cell_dec a y then (c + f y)%Qc else f y) ks = map f ks).
    { apply map_ext_in. intros y Hy. destruct (cell_dec a y) as [->|_]; [contradiction|reflexivity]. }
    rewrite Z. ring.
  - destruct I as [->|I]; [contradiction|]. rewrite (IH Nk I). ring.
Qed.
Lemma qsum_groups {A} (key : A -> cell) (f : A -> Qc) (ks : list cell) l : NoDup ks -> (forall x, In x l -> In (key x) ks) ->
  qsum (map f l) = qsum (map (fun y => qsum (map f (filter (fun x => if cell_dec (key x) y then true else false) l))) ks).
Proof.
  intros N. induction l as [|a l IH]; intros I; [cbn [filter map]; symmetry; apply qsum_zeros; reflexivity|].
  cbn [map]. change (qsum (f a :: map f l)) with (f a + qsum (map f l))%Qc. rewrite IH by (intros; apply I; right; assumption).
  rewrite <- (qsum_once ks (key a) (f a) _ N (I a (or_introl eq_refl))). f_equal. apply map_ext. intros y. cbn [filter]. destruct (cell_dec (key a) y); reflexivity.
Qed.
Lemma qsum_scale {A} (c : Qc) (f : A -> Qc) l : qsum (map (fun x => (c * f x)%Qc) l) = (c * qsum (map f l))%Qc.
Proof. induction l as [|a l IH]; [cbn; ring|]. cbn [map]. change (qsum (?x :: ?r)) with (x + qsum r)%Qc. rewrite IH. ring. Qed.
Lemma qsum_const {A} (c : Qc) (l : list A) : qsum (map (fun _ => c) l) = (c * qn (length l))%Qc.
Proof. induction l as [|a l IH]; [change (qn (length (@nil A))) with 0%Qc; cbn; ring|]. cbn [map length]. change (qsum (?x :: ?r)) with (x + qsum r)%Qc. rewrite IH, qn_S. ring. Qed.
Lemma with_pos g l x u : all_positive (map snd l) -> In (x, u) l -> (0 < volume_with g l (g x))%Qc.
Proof.
  intros P I. unfold volume_with. induction l as [|(y, w) l IH]; [destruct I|]. cbn [filter fst].
  assert (Z : (0 <= qsum (map snd (filter (fun xv => if cell_dec (g (fst xv)) (g x) then true else false) l)))%Qc).
  { apply qsum_nonneg. intros z Hz. apply in_map_iff in Hz. destruct Hz as (e & <- & He). apply filter_In in He. apply Qclt_le_weak. apply P. right. apply in_map. apply He. }
  pose proof (P w (or_introl eq_refl)) as Pw. destruct I as [[= -> ->]|I].
  - destruct (cell_dec (g x) (g x)); [|contradiction]. cbn [map snd]. change (qsum (?a :: ?r)) with (a + qsum r)%Qc. qc_lra.
  - specialize (IH (fun z Hz => P z (or_intror Hz)) I). destruct (cell_dec (g y) (g x)); [|exact IH]. cbn [map snd]. change (qsum (?a :: ?r)) with (a + qsum r)%Qc. qc_lra.
Qed.
Lemma keys_combine {A B C} (g : A -> C) (xs : list A) (v : list B) : length v = length xs -> map (fun xv => g (fst xv)) (combine xs v) = map g xs.
Proof. revert v. induction xs as [|x xs IH]; intros [|w v] L; try discriminate; [reflexivity|]. cbn [combine map fst]. f_equal. apply IH. injection L as L. exact L. Qed.
Lemma snd_combine {A B} (xs : list A) (v : list B) : length v = length xs -> map snd (combine xs v) = v.
Proof. revert v. induction xs as [|x xs IH]; intros [|w v] L; try discriminate; [reflexivity|]. cbn [combine map snd]. f_equal. apply IH. injection L as L. exact L. Qed.

Lemma shared_total g l : all_positive (map snd l) -> l <> [] ->
  qsum (shared_evenly g l) = (qn (different (map (fun xv => g (fst xv)) l)) / qn (length l))%Qc.
Proof.
  intros P NL. unfold shared_evenly. set (key := fun xv : cell * Qc => g (fst xv)). set (ks := nodup cell_dec (map key l)).
  rewrite (qsum_groups key _ ks) by (try apply NoDup_nodup; intros x Hx; apply nodup_In, in_map, Hx).
  assert (E : map (fun y => qsum (map (fun xv => (1 / qn (length l) * (snd xv / volume_with g l (g (fst xv))))%Qc) (filter (fun x => if cell_dec (key x) y then true else false) l))) ks = map (fun _ => (1 / qn (length l))%Qc) ks).
  { apply map_ext_in. intros y Hy. apply nodup_In, in_map_iff in Hy. destruct Hy as ((x, u) & <- & Hx).
    assert (E : map (fun xv => (1 / qn (length l) * (snd xv / volume_with g l (g (fst xv))))%Qc) (filter (fun z => if cell_dec (key z) (key (x, u)) then true else false) l) =
      map (fun xv => ((1 / qn (length l) / volume_with g l (g x)) * snd xv)%Qc) (filter (fun z => if cell_dec (key z) (key (x, u)) then true else false) l)).
    { apply map_ext_in. intros z Hz. apply filter_In in Hz. destruct Hz as (_ & Hz). unfold key in Hz. cbn [fst] in Hz. destruct (cell_dec (g (fst z)) (g x)) as [->|]; [|discriminate]. unfold Qcdiv. ring. }
    rewrite E, qsum_scale. change (qsum (map snd (filter (fun z => if cell_dec (key z) (key (x, u)) then true else false) l))) with (volume_with g l (g x)).
    pose proof (with_pos g l x u P Hx) as V. assert (volume_with g l (g x) <> 0%Qc) by (intros Z; rewrite Z in V; discriminate). field. split; [|assumption].
    intros Z. assert (Q : (0 < qn (length l))%Qc) by (apply qn_pos; destruct l; [contradiction|cbn; lia]). rewrite Z in Q. discriminate. }
  rewrite E, qsum_const. unfold different. fold key. fold ks. unfold Qcdiv. ring.
Qed.
Lemma with_single g l x u : NoDup (map (fun xv => g (fst xv)) l) -> In (x, u) l -> volume_with g l (g x) = u.
Proof.
  intros N I. unfold volume_with. induction l as [|(y, w) l IH]; [destruct I|]. cbn [map fst] in N. inversion N as [|? ? Ny Nl]; subst. cbn [filter fst].
  destruct (cell_dec (g y) (g x)) as [E|E].
  - assert (Z : filter (fun xv => if cell_dec (g (fst xv)) (g x) then true else false) l = []).
    { destruct (filter _ l) as [|e r] eqn:Fe; [reflexivity|]. exfalso. assert (He : In e (e :: r)) by (left; reflexivity). rewrite <- Fe in He. apply filter_In in He. destruct He as (He & K).
      destruct (cell_dec (g (fst e)) (g x)) as [K'|]; [|discriminate]. apply Ny. rewrite E, <- K'. apply (in_map (fun xv => g (fst xv))). exact He. }
    rewrite Z. cbn [map snd]. change (qsum [w]) with (w + 0)%Qc. destruct I as [[= -> ->]|I]; [ring|]. exfalso. apply Ny. rewrite E. apply (in_map (fun xv => g (fst xv)) l (x, u)). exact I.
  - destruct I as [[= -> ->]|I]; [contradiction|]. apply IH; assumption.
Qed.
Lemma shared_even g l : all_positive (map snd l) -> NoDup (map (fun xv => g (fst xv)) l) -> shared_evenly g l = repeat (1 / qn (length l))%Qc (length l).
Proof.
  intros P N. unfold shared_evenly. assert (E : map (fun xv => (1 / qn (length l) * (snd xv / volume_with g l (g (fst xv))))%Qc) l = map (fun _ => (1 / qn (length l))%Qc) l).
  { apply map_ext_in. intros (x, u) Hx. cbn [fst snd]. rewrite (with_single g l x u N Hx). assert (U : (0 < u)%Qc) by (apply P; apply (in_map snd l (x, u)); exact Hx).
    assert (u <> 0%Qc) by (intros Z; rewrite Z in U; discriminate). assert (Q : (0 < qn (length l))%Qc) by (apply qn_pos; destruct l; [destruct Hx|cbn; lia]).
    field. split; [intros Z; rewrite Z in Q; discriminate|assumption]. }
  rewrite E. generalize (1 / qn (length l))%Qc as c. clear. induction l as [|a l IH]; intros c; [reflexivity|]. cbn [map length repeat]. f_equal. apply IH.
Qed.
Lemma different_lt ys : ~ NoDup ys -> different ys < length ys.
Proof.
  intros N. unfold different. induction ys as [|y ys IH]; [exfalso; apply N; constructor|]. cbn [nodup]. pose proof (NoDup_incl_length (NoDup_nodup cell_dec ys) (l' := ys)) as L.
  assert (L' : length (nodup cell_dec ys) <= length ys) by (apply L; intros z Hz; apply nodup_In in Hz; exact Hz).
  destruct (in_dec cell_dec y ys) as [I|I]; cbn [length]; [lia|]. apply -> Nat.succ_lt_mono. apply IH. intros K. apply N. constructor; assumption.
Qed.

Section Posed.
Context (nn : list cell -> cell -> nat) (P d o : nat) (g : cell -> cell) (model : arr cell -> arr cell) (w : volumes_by) (before : bool) (k : given_as) (dom : option (list (Qc * Qc))) (xs : list cell)
  (S : sampled P d o g model w before xs) (F : finds_equal nn) (A : all_positive (volume_list w (length xs))).
Lemma volumes_length : length (volume_list w (length xs)) = length xs.
Proof. destruct S as (_ & _ & _ & W & _). apply volume_list_length. intros u Hu. apply (W u Hu). Qed.
Let l := combine xs (volume_list w (length xs)).
Lemma l_length : length l = length xs.
Proof. unfold l. rewrite combine_length, volumes_length. apply Nat.min_id. Qed.
Lemma l_positive : all_positive (map snd l).
Proof. unfold l. rewrite snd_combine by exact volumes_length. exact A. Qed.
Lemma l_keys : map (fun xv => g (fst xv)) l = map g xs.
Proof. unfold l. apply keys_combine. exact volumes_length. Qed.
Lemma xs_some : 0 < length xs.
Proof. destruct S as (_ & _ & NX & _). destruct xs; [contradiction|cbn; lia]. Qed.
Lemma data_even : NoDup (map g xs) -> global_probabilities (solve_data_samples nn P model w before k (values_set d dom xs)) = Some (map Num (repeat (1 / qn (length xs))%Qc (length xs))).
Proof.
  intros N. destruct (solve_data_lemma nn P d o g model w before k dom xs S F) as (E & _). rewrite E. fold l. rewrite (shared_even g l l_positive) by (rewrite l_keys; exact N). rewrite l_length. reflexivity.
Qed.
Lemma data_total : exists q, global_probabilities (solve_data_samples nn P model w before k (values_set d dom xs)) = Some (map Num q) /\ length q = length xs /\ qsum q = (qn (different (map g xs)) / qn (length xs))%Qc.
Proof.
  destruct (solve_data_lemma nn P d o g model w before k dom xs S F) as (E & _). exists (shared_evenly g l). split; [exact E|]. split; [unfold shared_evenly; rewrite map_length; exact l_length|].
  rewrite shared_total; [rewrite l_keys, l_length; reflexivity|exact l_positive|]. intros Z. pose proof l_length as L. rewrite Z in L. pose proof xs_some. cbn in L. lia.
Qed.
Lemma data_repeated : ~ NoDup (map g xs) -> exists q, global_probabilities (solve_data_samples nn P model w before k (values_set d dom xs)) = Some (map Num q) /\ (qsum q < 1)%Qc /\ exists p, In p q /\ p <> (1 / qn (length xs))%Qc.
Proof.
  intros N. destruct data_total as (q & E & L & T). exists q. split; [exact E|]. pose proof xs_some as X. assert (Qp : (0 < qn (length xs))%Qc) by (apply qn_pos; exact X).
  assert (Lt : (qsum q < 1)%Qc).
  { rewrite T. pose proof (different_lt _ N) as D. rewrite map_length in D. apply qn_lt in D. apply Qcnot_le_lt. intros C.
    pose proof (Qcmult_le_compat_r _ _ _ C (Qclt_le_weak _ _ Qp)) as M. assert (E1 : (qn (different (map g xs)) / qn (length xs) * qn (length xs))%Qc = qn (different (map g xs))) by (field; intros Z; rewrite Z in Qp; discriminate).
    rewrite E1, Qcmult_1_l in M. apply (Qclt_not_le _ _ D). exact M. }
  split; [exact Lt|]. destruct (Forall_Exists_dec (fun p => p = (1 / qn (length xs))%Qc) (fun p => Qc_eq_dec p _) q) as [H|H].
  - exfalso. rewrite Forall_forall in H. assert (Eq : qsum q = 1%Qc); [|rewrite Eq in Lt; discriminate].
    transitivity (qsum (map (fun _ => (1 / qn (length xs))%Qc) q)).
    + f_equal. rewrite <- (map_id q) at 1. apply map_ext_in. exact H.
    + rewrite qsum_const, L. field. intros Z. rewrite Z in Qp. discriminate.
  - apply Exists_exists in H. exact H.
Qed.
End Posed.
