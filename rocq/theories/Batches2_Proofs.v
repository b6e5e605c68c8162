From Coq Require Import List Arith Bool QArith Qcanon Lia Permutation.
From Verif Require Import Err Num NumPy Lists SampleSet_Model SampleSet_Spec SampleSet_Proofs Prob_Model Prob_Spec Prob_Proofs
  Disc_Model Disc_Spec Disc_Proofs Workflow_Model Workflow_Spec Workflow_Proofs DataUnif_Proofs Batches_Model Batches_Spec Batches_Proofs.
Import ListNotations.
Local Open Scope nat_scope.
Local Open Scope err_scope.

(** ** Block sizes *)
Lemma joined_length {A} (X Y : list (list A)) P : length X = P -> length Y = P -> length (joined X Y) = P.
Proof. intros LX LY. unfold joined. rewrite map_length, combine_length, LX, LY. apply Nat.min_id. Qed.
Lemma joined_nth {A} (X Y : list (list A)) r : length X = length Y -> nth r (joined X Y) [] = nth r X [] ++ nth r Y [].
Proof. unfold joined. revert Y r. induction X as [|x X IH]; intros [|y Y] [|r] L; try discriminate; try reflexivity. cbn [combine map nth]. apply IH. injection L as L. exact L. Qed.
Lemma size_sum n1 n2 P r : 0 < P -> one_batch_fits P n1 n2 ->
  n1 / P + (if r <? n1 mod P then 1 else 0) + (n2 / P + (if r <? n2 mod P then 1 else 0)) = (n1 + n2) / P + (if r <? (n1 + n2) mod P then 1 else 0).
Proof.
  intros HP F. pose proof (Nat.div_mod n1 P ltac:(lia)) as E1. pose proof (Nat.div_mod n2 P ltac:(lia)) as E2. destruct F as [Z|Z]; rewrite Z in *.
  - assert (E : n1 + n2 = n1 / P * P + n2) by nia. rewrite E, Nat.div_add_l by lia. rewrite (Nat.add_comm (n1 / P * P)), Nat.mod_add by lia. cbn. lia.
  - assert (E : n1 + n2 = n2 / P * P + n1) by nia. rewrite E, Nat.div_add_l by lia. rewrite (Nat.add_comm (n2 / P * P)), Nat.mod_add by lia. destruct (r <? n1 mod P); cbn; lia.
Qed.
Lemma size_differ n1 n2 P : 0 < P -> ~ one_batch_fits P n1 n2 ->
  exists r, r < P /\ n1 / P + (if r <? n1 mod P then 1 else 0) + (n2 / P + (if r <? n2 mod P then 1 else 0)) <> (n1 + n2) / P + (if r <? (n1 + n2) mod P then 1 else 0).
Proof.
  intros HP F. assert (A : n1 mod P <> 0 /\ n2 mod P <> 0) by (split; intros Z; apply F; [left|right]; exact Z). destruct A as (A & B).
  pose proof (Nat.mod_upper_bound n1 P ltac:(lia)) as A1. pose proof (Nat.mod_upper_bound n2 P ltac:(lia)) as B1.
  pose proof (Nat.div_mod n1 P ltac:(lia)) as E1. pose proof (Nat.div_mod n2 P ltac:(lia)) as E2. set (a := n1 mod P) in *. set (b := n2 mod P) in *. set (q1 := n1 / P) in *. set (q2 := n2 / P) in *.
  destruct (Nat.lt_ge_cases (a + b) P) as [H|H].
  - assert (D : (n1 + n2) / P = q1 + q2) by (symmetry; apply (Nat.div_unique _ _ _ (a + b)); nia). assert (M : (n1 + n2) mod P = a + b) by (symmetry; apply (Nat.mod_unique _ _ (q1 + q2)); nia).
    exists 0. split; [exact HP|]. rewrite D, M. destruct (Nat.ltb_spec 0 a), (Nat.ltb_spec 0 b), (Nat.ltb_spec 0 (a + b)); lia.
  - assert (D : (n1 + n2) / P = q1 + q2 + 1) by (symmetry; apply (Nat.div_unique _ _ _ (a + b - P)); nia).
    exists (P - 1). split; [lia|]. rewrite D. destruct (Nat.ltb_spec (P - 1) a), (Nat.ltb_spec (P - 1) b); destruct (P - 1 <? (n1 + n2) mod P); lia.
Qed.
Lemma same_lengths_nth {A B} (X : list (list A)) (Y : list (list B)) : length X = length Y -> (forall r, r < length X -> length (nth r X []) = length (nth r Y [])) -> same_lengths X Y.
Proof.
  unfold same_lengths. revert Y. induction X as [|x X IH]; intros [|y Y] L H; try discriminate; constructor.
  - apply (H 0). cbn. lia.
  - apply IH; [injection L as L; exact L|]. intros r Hr. apply (H (S r)). cbn. lia.
Qed.
Lemma same_lengths_at {A B} (X : list (list A)) (Y : list (list B)) : same_lengths X Y -> forall r, length (nth r X []) = length (nth r Y []).
Proof. intros H. induction H as [|x y X Y E H IH]; intros [|r]; try reflexivity; [exact E|apply IH]. Qed.
Lemma zip_same {A} p (v : list (list A)) z : zip_blocks p v = Ok z -> same_lengths p v.
Proof.
  unfold same_lengths. revert v z. induction p as [|x p IH]; intros [|y v] z E; try discriminate; [constructor|]. cbn [zip_blocks] in E. destruct (Nat.eqb_spec (length x) (length y)) as [L|]; [|discriminate].
  destruct (zip_blocks p v) as [r|] eqn:R; [|discriminate]. constructor; [exact L|]. eapply IH. exact R.
Qed.

Lemma zip_raise {A} p (v : list (list A)) e : zip_blocks p v = Raise e -> e = PyIndexError.
Proof.
  revert v. induction p as [|x p IH]; intros [|y v] E; try discriminate; try (injection E as <-; reflexivity). cbn [zip_blocks] in E.
  destruct (length x =? length y); [|injection E as <-; reflexivity]. destruct (zip_blocks p v) eqn:R; [discriminate|]. injection E as <-. eapply IH. exact R.
Qed.

(** ** The answers *)
Lemma map_map2 {A B C} (f : A -> B) (h : B -> C) (X : list (list A)) : map (map h) (map (map f) X) = map (map (fun x => h (f x))) X.
Proof. rewrite map_map. apply map_ext. intros l. apply map_map. Qed.
Lemma even_concat c B : concat (even_blocks c B) = repeat c (length (concat B)).
Proof. unfold even_blocks. induction B as [|b B IH]; [reflexivity|]. cbn [map concat]. rewrite IH, app_length, repeat_app. reflexivity. Qed.
Lemma combine_repeat {A B} (l : list A) (c : B) : combine l (repeat c (length l)) = map (fun x => (x, c)) l.
Proof. induction l as [|a l IH]; [reflexivity|]. cbn [length repeat combine map]. f_equal. exact IH. Qed.
Lemma combine_self {A B} (f : A -> B) l : combine l (map f l) = map (fun x => (x, f x)) l.
Proof. induction l as [|a l IH]; [reflexivity|]. cbn [map combine]. f_equal. exact IH. Qed.
Lemma filter_perm {A} (p : A -> bool) l m : Permutation l m -> Permutation (filter p l) (filter p m).
Proof.
  induction 1 as [|x l m _ IH|x y l|l m n _ IH1 _ IH2]; [constructor| | |eapply perm_trans; eassumption].
  - cbn [filter]. destruct (p x); [constructor|]; exact IH.
  - cbn [filter]. destruct (p x), (p y); try apply Permutation_refl. apply perm_swap.
Qed.
Lemma total_perm s t i : Permutation s t -> total_in s i = total_in t i.
Proof. intros H. unfold total_in. apply qsum_perm. apply Permutation_map. apply filter_perm. exact H. Qed.
Lemma solution_perm c probs xs zs u : Permutation zs xs ->
  Permutation (combine zs (solution c probs (combine zs (repeat u (length zs))))) (combine xs (solution c probs (combine xs (repeat u (length xs))))).
Proof.
  intros H. rewrite !combine_repeat. unfold solution. rewrite !map_map. cbn [fst snd].
  rewrite !combine_self.
  assert (E : forall i, total_in (map (fun x => (c x, u)) zs) i = total_in (map (fun x => (c x, u)) xs) i) by (intros i; apply total_perm, Permutation_map, H).
  assert (E' : map (fun x => (x, (u * (nth (c x) probs 0 / total_in (map (fun x0 => (c x0, u)) zs) (c x)))%Qc)) zs = map (fun x => (x, (u * (nth (c x) probs 0 / total_in (map (fun x0 => (c x0, u)) xs) (c x)))%Qc)) zs).
  { apply map_ext. intros x. rewrite E. reflexivity. }
  rewrite E'. apply Permutation_map. exact H.
Qed.

Section Run.
Context (nn : list cell -> cell -> nat) (P d o : nat) (g : cell -> cell) (model : arr cell -> arr cell) (dom1 dom2 dom' : option (list (Qc * Qc))) (xs1 xs2 ys : list cell) (probs : list Qc)
  (T : two_batches P d o g model dom1 dom2 xs1 xs2 ys probs).
Let B := joined (array_split xs1 P) (array_split xs2 P).
Let zs := concat B.
Lemma HP : 0 < P. Proof. apply T. Qed.
Lemma B_length : length B = P.
Proof. pose proof HP. unfold B. apply joined_length; apply array_split_length; assumption. Qed.
Lemma zs_perm : Permutation zs (xs1 ++ xs2).
Proof. pose proof HP. unfold zs, B, joined. rewrite perm_concat_blocks by (rewrite !array_split_length by assumption; reflexivity). rewrite !array_split_concat by assumption. apply Permutation_refl. Qed.
Lemma zs_length : length zs = length xs1 + length xs2.
Proof. rewrite (Permutation_length zs_perm), app_length. reflexivity. Qed.
Lemma zs_some : zs <> [].
Proof. intros Z. destruct T as (_ & _ & N & _). apply N. apply Permutation_nil. rewrite <- Z. exact zs_perm. Qed.
Let u := (1 / qn (length zs))%Qc.
Lemma u_nonneg : nonneg (repeat u (length zs)).
Proof. intros y Hy. apply repeat_spec in Hy. subst y. apply qc_div_nonneg; [discriminate|]. apply qn_pos. pose proof zs_some. destruct zs; [contradiction|cbn; lia]. Qed.
Let ptrs := map (map (nn ys)) (map (map g) B).
(** The answer when the blocks of pointers and volumes have the same sizes. *)
Lemma answer V : same_lengths ptrs V -> concat V = repeat u (length zs) ->
  exists Q, prob probs ptrs (if existsb (qltb 0) probs then V else []) = Ok Q /\ concat Q = solution (fun x => nn ys (g x)) probs (combine zs (repeat u (length zs))).
Proof.
  intros SL CV. destruct T as (_ & _ & _ & _ & _ & NP & _). destruct (prob_concat probs ptrs V SL) as (Q & E & _ & CQ). exists Q. split.
  - destruct (existsb (qltb 0) probs) eqn:X; [exact E|]. unfold prob in *. rewrite X in *. exact E.
  - rewrite CQ, CV. unfold ptrs. rewrite map_map2. rewrite <- concat_map. fold zs. apply solution_share; [rewrite repeat_length; reflexivity|exact NP|exact u_nonneg].
Qed.
Lemma local_sizes : same_lengths ptrs (even_blocks u B).
Proof. unfold same_lengths, ptrs, even_blocks. rewrite map_map2. generalize B as l. intros l. induction l as [|b l IH]; constructor; [rewrite map_length, repeat_length; reflexivity|exact IH]. Qed.
Lemma ptrs_nth r : length (nth r ptrs []) = length (nth r B []).
Proof. unfold ptrs. rewrite map_map2. generalize B as l. intros l. revert r. induction l as [|b l IH]; intros [|r]; try reflexivity; cbn [map nth]; [apply map_length|apply IH]. Qed.
Lemma block_size r : r < P -> length (nth r B []) = length xs1 / P + (if r <? length xs1 mod P then 1 else 0) + (length xs2 / P + (if r <? length xs2 mod P then 1 else 0)).
Proof. intros R. pose proof HP. unfold B. rewrite joined_nth by (rewrite !array_split_length by assumption; reflexivity). rewrite app_length, !array_split_nth_length by exact R. reflexivity. Qed.
Lemma volume_size r : r < P -> length (nth r (array_split (repeat u (length zs)) P) []) = (length xs1 + length xs2) / P + (if r <? (length xs1 + length xs2) mod P then 1 else 0).
Proof. intros R. rewrite array_split_nth_length by exact R. rewrite repeat_length, zs_length. reflexivity. Qed.
Lemma global_sizes : same_lengths ptrs (array_split (repeat u (length zs)) P) <-> one_batch_fits P (length xs1) (length xs2).
Proof.
  pose proof HP as H0. split.
  - intros S. destruct (Nat.eq_dec (length xs1 mod P) 0) as [Z|Z1]; [left; exact Z|]. destruct (Nat.eq_dec (length xs2 mod P) 0) as [Z|Z2]; [right; exact Z|].
    exfalso. destruct (size_differ (length xs1) (length xs2) P H0) as (r & R & D); [intros [F|F]; contradiction|]. apply D. rewrite <- block_size, <- volume_size by exact R. rewrite <- ptrs_nth. apply same_lengths_at. exact S.
  - intros F. apply same_lengths_nth; [unfold ptrs; rewrite !map_length, B_length, array_split_length by exact H0; reflexivity|]. intros r R. unfold ptrs in R. rewrite !map_length, B_length in R. rewrite ptrs_nth, block_size, volume_size by exact R. apply size_sum; assumption.
Qed.
Definition finished (inp o1 pr : sset cell) (Q : list (list Qc)) : disc cell := ready (set_loc Probabilities (Some (map vec_arr Q)) (set_glob Probabilities (Some (vec_arr (concat Q))) inp)) o1 pr ptrs.
Lemma run_eq globalize setter : exists inp o1 pr, glob inp Values = Some (mk_arr zs [d]) /\
  solve_batches nn P model globalize setter (values_set d dom1 xs1) (values_set d dom2 xs2) (probability_set o dom' ys probs) =
  do Q <- prob probs ptrs (if existsb (qltb 0) probs then (if globalize then array_split (repeat u (length zs)) P else even_blocks u B) else []) ; Ok (finished inp o1 pr Q).
Proof.
  destruct T as (H0 & M & _ & NY & Lp & NP & C). destruct (batches_lemma P d o g model dom1 dom2 xs1 xs2 H0 M C) as (inp & out & E & Hi & Ho). fold B in Hi, Ho.
  pose proof (probability_gives o dom' ys probs Lp) as G. pose proof zs_some as NZ.
  assert (Co : check_num P out = Ok (length zs)) by (rewrite (valid_count _ _ _ (merged_valid _ _ _ Ho)), <- concat_map, map_length; reflexivity).
  assert (Lo : loc out Values = Some (blocks_of o (map (map g) B))) by (apply (proj2 (proj2 Ho) Values)).
  unfold solve_batches. rewrite E. cbn [bind base d_in need]. destruct globalize.
  - destruct (mc_global_merged P d B inp NZ Hi) as (inp1 & -> & H1). cbn [bind]. fold zs in H1. exists inp1, out, (grown o ys (probability_set o dom' ys probs)). split; [rewrite (proj1 (proj2 H1)); reflexivity|].
    change (with_in (Some inp1) (base inp out)) with (base inp1 out). rewrite (define_blocks nn P setter o ys probs _ (map (map g) B) inp1 out G Lo (proj1 Ho)). cbn [bind]. fold ptrs.
    rewrite (prob_blocks nn P o ys probs _ ptrs (array_split (repeat u (length zs)) P) inp1 out (length zs) G NY Co); [reflexivity| | |].
    + apply (holds_count _ _ _ _ _ _ H1). intros v [= <-]. apply repeat_length.
    + rewrite (proj2 (proj2 H1)). discriminate.
    + rewrite (proj2 (proj2 H1)). cbn [expected option_map volume_list]. unfold vec_arr. rewrite split_rows, array_split_map, map_map. reflexivity.
  - rewrite (mc_local_merged P d B inp B_length NZ Hi). cbn [bind]. fold zs u. set (inp1 := set_loc Volumes _ inp). exists inp1, out, (grown o ys (probability_set o dom' ys probs)). split; [apply (proj1 (proj2 Hi) Values)|].
    change (with_in (Some inp1) (base inp out)) with (base inp1 out). rewrite (define_blocks nn P setter o ys probs _ (map (map g) B) inp1 out G Lo (proj1 Ho)). cbn [bind]. fold ptrs.
    rewrite (prob_blocks nn P o ys probs _ ptrs (even_blocks u B) inp1 out (length zs) G NY Co); [reflexivity| | |].
    + apply (valid_count P). destruct (merged_valid _ _ _ Hi) as (V1 & V2). split; [exact V1|exact V2].
    + cbn [inp1 set_loc loc]. rewrite upd_other by discriminate. rewrite (proj2 (proj2 Hi)). discriminate.
    + cbn [inp1 set_loc loc]. apply upd_same.
Qed.
Lemma batches_solution globalize setter P' before setter' dom : 0 < P' -> (globalize = true -> one_batch_fits P (length xs1) (length xs2)) ->
  exists zs q q', sample_of (solve_batches nn P model globalize setter (values_set d dom1 xs1) (values_set d dom2 xs2) (probability_set o dom' ys probs)) = Some zs /\
    global_probabilities (solve_batches nn P model globalize setter (values_set d dom1 xs1) (values_set d dom2 xs2) (probability_set o dom' ys probs)) = Some (map Num q) /\
    global_probabilities (solve nn P' model MonteCarlo before setter' (values_set d dom (xs1 ++ xs2)) (probability_set o dom' ys probs)) = Some (map Num q') /\
    Permutation (combine zs q) (combine (xs1 ++ xs2) q').
Proof.
  intros HP' F. destruct (run_eq globalize setter) as (inp & o1 & pr & G & ->).
  assert (A : exists Q, prob probs ptrs (if existsb (qltb 0) probs then (if globalize then array_split (repeat u (length zs)) P else even_blocks u B) else []) = Ok Q /\ concat Q = solution (fun x => nn ys (g x)) probs (combine zs (repeat u (length zs)))).
  { apply answer; destruct globalize.
    - apply global_sizes. apply F. reflexivity.
    - exact local_sizes.
    - apply array_split_concat. exact HP.
    - apply even_concat. }
  destruct A as (Q & -> & CQ). cbn [bind]. destruct T as (H0 & M & NX & NY & Lp & NP & C).
  destruct (solve_lemma nn P' d o g model MonteCarlo before setter' dom dom' (xs1 ++ xs2) ys probs HP' M NX NY Lp NP) as (E & _); [discriminate|reflexivity|].
  exists zs, (concat Q), (solution (fun x => nn ys (g x)) probs (combine (xs1 ++ xs2) (volume_list MonteCarlo (length (xs1 ++ xs2))))).
  split; [cbn [finished sample_of ready d_in set_loc set_glob glob]; rewrite upd_other by discriminate; rewrite G; reflexivity|].
  split; [cbn [finished global_probabilities ready d_in set_loc set_glob glob]; rewrite upd_same; reflexivity|]. split; [exact E|].
  rewrite CQ. cbn [volume_list]. replace (1 / qn (length (xs1 ++ xs2)))%Qc with u by (unfold u; rewrite (Permutation_length zs_perm); reflexivity). apply solution_perm. exact zs_perm.
Qed.
Lemma batches_raise setter : ~ one_batch_fits P (length xs1) (length xs2) -> (exists p, In p probs /\ (0 < p)%Qc) ->
  solve_batches nn P model true setter (values_set d dom1 xs1) (values_set d dom2 xs2) (probability_set o dom' ys probs) = Raise PyIndexError.
Proof.
  intros NF (p & Hp & Pp). destruct (run_eq true setter) as (inp & o1 & pr & _ & ->).
  assert (X : existsb (qltb 0) probs = true) by (apply existsb_exists; exists p; split; [exact Hp|]; destruct (qltb_spec 0%Qc p); [reflexivity|contradiction]).
  unfold prob. rewrite X. destruct (zip_blocks ptrs (array_split (repeat u (length zs)) P)) as [z|e] eqn:Z.
  - exfalso. apply NF, global_sizes. eapply zip_same. exact Z.
  - rewrite (zip_raise _ _ _ Z). reflexivity.
Qed.
End Run.
