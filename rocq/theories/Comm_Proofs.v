From Coq Require Import List Arith Bool QArith Qcanon Lia.
From Verif Require Import Err Num NumPy Lists Comm_Model Comm_Spec.
Import ListNotations.
Local Open Scope nat_scope.

Lemma one_process_call c : mpi [c] = Some [fallback c] <-> replaceable c.
Proof.
  destruct c as [v|v|op v|v|v| |s r|op s r|b|s r]; cbn; try (split; intros; [exact I|reflexivity]).
  - split.
    + destruct v as [|q|l|l]; cbn; try discriminate; destruct l as [|x [|y l]]; cbn; try discriminate; intros _; [right|left]; eexists; reflexivity.
    + intros [[x ->]|[q ->]]; reflexivity.
  - rewrite Nat.eqb_refl, Nat.mul_1_r, app_nil_r, !andb_true_r. cbn. split.
    + destruct (length r =? length s); cbn; [|discriminate]. intros E. injection E as ->. reflexivity.
    + intros ->. rewrite Nat.eqb_refl. reflexivity.
  - assert (O : same_op op op = true) by (destruct op; reflexivity). rewrite O. cbn. rewrite Nat.eqb_refl, !andb_true_r. cbn. split.
    + destruct (length r =? length s); cbn; [|discriminate]. intros E. injection E as ->. reflexivity.
    + intros ->. rewrite Nat.eqb_refl. reflexivity.
  - rewrite Nat.eqb_refl. cbn. split; intros; [exact I|reflexivity].
  - rewrite Nat.eqb_refl, Nat.mul_1_r. cbn. split.
    + destruct (length s =? length r) eqn:E; [|discriminate]. apply Nat.eqb_eq in E. rewrite <- E, firstn_all. intros F. injection F as ->. reflexivity.
    + intros ->. rewrite Nat.eqb_refl, firstn_all. reflexivity.
Qed.

Lemma map_ret {A} (ps : list (prog A)) outs : ps = map Ret outs -> forall c k, ~ In (Call c k) ps.
Proof. intros -> c k H. apply in_map_iff in H. destruct H as (x & E & _). discriminate. Qed.
Lemma ret_inj {A} (a b : list A) : map Ret a = map Ret b -> a = b.
Proof. revert b. induction a as [|x a IH]; intros [|y b] H; cbn in H; try discriminate; [reflexivity|]. injection H as -> H. f_equal. apply IH, H. Qed.
Lemma call_inj {A} (a b : list (call * (val -> prog A))) :
  map (fun e => Call (fst e) (snd e)) a = map (fun e => Call (fst e) (snd e)) b -> a = b.
Proof.
  revert b. induction a as [|[x f] a IH]; intros [|[y g] b] H; cbn in H; try discriminate; [reflexivity|]. injection H as -> -> H. f_equal. apply IH, H.
Qed.
Lemma no_ret {A} (ps : list (call * (val -> prog A))) a : ~ In (Ret a) (map (fun e => Call (fst e) (snd e)) ps).
Proof. intros H. apply in_map_iff in H. destruct H as (x & E & _). discriminate. Qed.
Lemma runs_deterministic {A} (ps : list (prog A)) o o' : runs ps o -> runs ps o' -> o = o'.
Proof.
  intros H. revert o'. induction H as [outs|ps replies out NE L M R IH|ps M|ps a c k Ha Hc]; intros o' H'.
  - remember (map Ret outs) as qs eqn:E. destruct H' as [outs'|qs replies out' NE L M R|qs M|qs a c k Ha Hc].
    + apply ret_inj in E. congruence.
    + destruct qs as [|q qs]; [contradiction|]. destruct outs; discriminate.
    + destruct qs as [|q qs]; [|destruct outs; discriminate]. destruct outs; [|discriminate]. cbn in M. discriminate.
    + exfalso. eapply map_ret; eassumption.
  - remember (map (fun e => Call (fst e) (snd e)) ps) as qs eqn:E. destruct H' as [outs'|qs replies' out' NE' L' M' R'|qs M'|qs a c k Ha Hc].
    + destruct ps; [contradiction|]. destruct outs'; discriminate.
    + apply call_inj in E. subst qs. rewrite M in M'. injection M' as <-. apply IH. exact R'.
    + apply call_inj in E. subst qs. congruence.
    + subst qs. exfalso. eapply no_ret; eassumption.
  - remember (map (fun e => Call (fst e) (snd e)) ps) as qs eqn:E. destruct H' as [outs'|qs replies' out' NE' L' M' R'|qs M'|qs a c k Ha Hc].
    + destruct ps; [cbn in M; discriminate|]. destruct outs'; discriminate.
    + apply call_inj in E. subst qs. congruence.
    + reflexivity.
    + reflexivity.
  - destruct H' as [outs'|qs replies' out' NE' L' M' R'|qs M'|qs a' c' k' Ha' Hc'].
    + exfalso. eapply map_ret; [reflexivity|eassumption].
    + exfalso. eapply no_ret; eassumption.
    + reflexivity.
    + reflexivity.
Qed.

Lemma runs_iff {A} (ps : list (prog A)) o0 : runs ps o0 -> forall o, runs ps o <-> o = o0.
Proof. intros R o. split; [intros R'; exact (runs_deterministic _ _ _ R' R)|intros ->; exact R]. Qed.
Lemma fallback_runs {A} (p : prog A) : only_replaceable p -> runs [p] (Some [serial p]).
Proof.
  induction 1 as [a|c k R S IH]; [apply (runs_end [a])|].
  apply (runs_call [(c, k)] [fallback c]); [discriminate|reflexivity| |exact IH]. apply one_process_call. exact R.
Qed.
Lemma fallback_only {A} (p : prog A) o : only_replaceable p -> runs [p] o -> o = Some [serial p].
Proof. intros R H. exact (runs_deterministic _ _ _ H (fallback_runs p R)). Qed.
Lemma fallback_iff {A} (p : prog A) o : only_replaceable p -> (runs [p] o <-> o = Some [serial p]).
Proof. intros R. split; [apply fallback_only; exact R|]. intros ->. apply fallback_runs. exact R. Qed.

(** *** The package's programs *)
Lemma reduce_copy_replaceable op a : only_replaceable (reduce_copy op a).
Proof. constructor; [reflexivity|constructor]. Qed.
Lemma global_values_replaceable a : only_replaceable (global_values 1 a).
Proof. constructor. Qed.
Lemma search_best_replaceable combs search best : only_replaceable (search_best 1 0 combs search best).
Proof.
  unfold search_best. rewrite array_split_1. constructor; [left; eexists; reflexivity|].
  constructor; [exact I|]. constructor; [exact I|]. constructor; [exact I|]. constructor.
Qed.

(** *** On several processes *)
Lemma collect_map {A B} (f : call -> option B) (g : A -> call) (h : A -> B) (l : list A) : (forall x, f (g x) = Some (h x)) -> collect f (map g l) = Some (map h l).
Proof. intros H. induction l as [|x l IH]; [reflexivity|]. cbn. rewrite H, IH. reflexivity. Qed.
Lemma all_equal_map {A} (n : nat) (f : A -> nat) (l : list A) : (forall x, In x l -> f x = n) -> all_equal n (map f l) = true.
Proof. intros H. apply forallb_forall. intros m Hm. apply in_map_iff in Hm. destruct Hm as (x & <- & Hx). apply Nat.eqb_eq, H, Hx. Qed.

Lemma op_arr_length op a b : length a = length b -> length (op_arr op a b) = length a.
Proof. intros E. unfold op_arr. rewrite map_length, combine_length. lia. Qed.
Lemma op_arr_nth a b j : length a = length b -> nth j (op_arr Sum a b) 0%Qc = (nth j a 0 + nth j b 0)%Qc.
Proof.
  unfold op_arr. revert b j. induction a as [|x a IH]; intros [|y b] j H; try discriminate; destruct j as [|j]; cbn; try ring.
  rewrite IH by (injection H; auto). reflexivity.
Qed.
Lemma fold_op_nth bs a j : (forall b, In b bs -> length b = length a) ->
  length (fold_left (op_arr Sum) bs a) = length a /\ nth j (fold_left (op_arr Sum) bs a) 0%Qc = (nth j a 0 + qsum (map (fun b => nth j b 0%Qc) bs))%Qc.
Proof.
  revert a. induction bs as [|b bs IH]; intros a H; [cbn; split; [reflexivity|ring]|]. cbn [fold_left map].
  assert (E : length a = length b) by (symmetry; apply H; left; reflexivity).
  destruct (IH (op_arr Sum a b)) as [L N]. { intros b' Hb'. rewrite op_arr_length by exact E. apply H. right. exact Hb'. }
  rewrite L, N, op_arr_length, op_arr_nth by exact E. split; [reflexivity|]. cbn. ring.
Qed.
Lemma combine_repeat {A B} (l : list A) (b : B) : combine l (repeat b (length l)) = map (fun a => (a, b)) l.
Proof. induction l as [|x l IH]; [reflexivity|]. cbn. rewrite IH. reflexivity. Qed.
Lemma fst_combine {A B} (ps : list A) (rs : list B) : length rs = length ps -> map fst (combine ps rs) = ps.
Proof. revert rs. induction ps as [|p ps IH]; intros [|r rs] H; try discriminate; [reflexivity|]. cbn. f_equal. apply IH. injection H; auto. Qed.

(** One call of all processes, written as functions of the process. *)
Lemma runs_step {A I} (ranks : list I) (c : I -> call) (k : I -> val -> prog A) (r : I -> val) out : ranks <> [] ->
  mpi (map c ranks) = Some (map r ranks) -> runs (map (fun i => k i (r i)) ranks) out -> runs (map (fun i => Call (c i) (k i)) ranks) out.
Proof.
  intros NE M R.
  replace (map (fun i => Call (c i) (k i)) ranks) with (map (fun e : call * (val -> prog A) => Call (fst e) (snd e)) (map (fun i => (c i, k i)) ranks)) by (rewrite map_map; reflexivity).
  apply (runs_call _ (map r ranks)).
  - intros E. apply map_eq_nil in E. contradiction.
  - rewrite !map_length. reflexivity.
  - rewrite map_map. exact M.
  - replace (map (fun e : call * (val -> prog A) * val => snd (fst e) (snd e)) (combine (map (fun i => (c i, k i)) ranks) (map r ranks)))
      with (map (fun i => k i (r i)) ranks); [exact R|].
    clear. induction ranks as [|i l IH]; [reflexivity|]. cbn. rewrite IH. reflexivity.
Qed.
Lemma repeat_map {A B} (b : B) (l : list A) : repeat b (length l) = map (fun _ => b) l.
Proof. induction l as [|x l IH]; [reflexivity|]. cbn. rewrite IH. reflexivity. Qed.

Lemma nth_map_seq {B} (f : nat -> B) n j d : j < n -> nth j (map f (seq 0 n)) d = f j.
Proof. intros H. apply nth_error_nth. rewrite nth_error_map, (nth_error_nth' _ 0), seq_nth by (rewrite ?seq_length; exact H). reflexivity. Qed.
Lemma reduce_sum_runs bs n : bs <> [] -> (forall b, In b bs -> length b = n) ->
  runs (map (reduce_copy Sum) bs) (Some (map (fun _ => VArr (column_sums bs n)) bs)).
Proof.
  intros NE H. unfold reduce_copy. apply (runs_step bs (fun b => Allreduce_buf Sum b b) (fun _ r => Ret r) (fun _ => VArr (column_sums bs n))); [exact NE| |].
  - destruct bs as [|b bs]; [contradiction|]. cbn [map mpi].
    change (Allreduce_buf Sum b b :: map (fun b0 => Allreduce_buf Sum b0 b0) bs) with (map (fun b0 => Allreduce_buf Sum b0 b0) (b :: bs)).
    rewrite (collect_map _ (fun b0 => Allreduce_buf Sum b0 b0) (fun b0 => (b0, b0))) by reflexivity.
    rewrite !map_map. cbn [fst snd].
    rewrite all_equal_map by (intros x Hx; rewrite (H x Hx), (H b); [reflexivity|left; reflexivity]). cbn [andb map tl].
    rewrite map_map. cbn [fst]. rewrite map_id. f_equal.
    change (VArr (column_sums (b :: bs) n) :: map (fun _ => VArr (column_sums (b :: bs) n)) bs) with (map (fun _ : list Qc => VArr (column_sums (b :: bs) n)) (b :: bs)).
    replace (length (Allreduce_buf Sum b b :: map (fun b0 => Allreduce_buf Sum b0 b0) bs)) with (length (b :: bs)) by (cbn; rewrite map_length; reflexivity).
    rewrite (repeat_map _ (b :: bs)). apply map_ext. intros _. f_equal. unfold column_sums.
    assert (Hb : forall b', In b' bs -> length b' = length b) by (intros b' Hb'; rewrite (H b'), (H b); [reflexivity|left; reflexivity|right; exact Hb']).
    assert (Lb : length b = n) by (apply H; left; reflexivity).
    apply (nth_ext _ _ 0%Qc 0%Qc); [rewrite map_length, seq_length, (proj1 (fold_op_nth bs b 0 Hb)); exact Lb|].
    intros j Hj. rewrite (proj1 (fold_op_nth bs b 0 Hb)), Lb in Hj.
    rewrite (nth_map_seq _ n j _ Hj), (proj2 (fold_op_nth bs b j Hb)). reflexivity.
  - assert (E : map (fun _ : list Qc => @Ret val (VArr (column_sums bs n))) bs = map Ret (map (fun _ => VArr (column_sums bs n)) bs)) by (rewrite map_map; reflexivity).
    rewrite E. apply runs_end.
Qed.
Lemma flat_arrays bs : flat_map (fun x => match x with VArr a => a | _ => [] end) (map VArr bs) = concat bs.
Proof. induction bs as [|b bs IH]; [reflexivity|]. cbn. rewrite IH. reflexivity. Qed.
Lemma global_values_runs bs : bs <> [] ->
  runs (map (global_values (length bs)) bs) (Some (map (fun _ => VArr (concat bs)) bs)).
Proof.
  intros NE. unfold global_values. destruct (Nat.eqb_spec (length bs) 1) as [E|E].
  - destruct bs as [|b [|b' bs]]; try discriminate. cbn. rewrite app_nil_r. apply (runs_end [VArr b]).
  - apply (runs_step bs (fun b => Allgather_obj (VArr b)) (fun _ r => Ret (hstack r)) (fun _ => VList (map VArr bs))); [exact NE| |].
    + destruct bs as [|b bs]; [contradiction|]. cbn [map mpi].
      change (Allgather_obj (VArr b) :: map (fun b0 => Allgather_obj (VArr b0)) bs) with (map (fun b0 => Allgather_obj (VArr b0)) (b :: bs)).
      rewrite (collect_map _ (fun b0 => Allgather_obj (VArr b0)) VArr) by reflexivity. rewrite map_length.
      rewrite repeat_map. reflexivity.
    + cbn [hstack]. rewrite flat_arrays.
      assert (F : map (fun _ : list Qc => @Ret val (VArr (concat bs))) bs = map Ret (map (fun _ => VArr (concat bs)) bs)) by (rewrite map_map; reflexivity).
      rewrite F. apply runs_end.
Qed.
Lemma zero_first {B} (f : nat -> B) P : 0 < P -> map f (seq 0 P) = f 0 :: map f (seq 1 (P - 1)).
Proof. intros H. destruct P as [|P]; [lia|]. cbn. rewrite Nat.sub_0_r. reflexivity. Qed.
Lemma mpi_gather {I} (f : I -> val) (l : list I) : l <> [] ->
  mpi (map (fun x => Gather_obj (f x)) l) = Some (VList (map f l) :: repeat VNone (length l - 1)).
Proof.
  destruct l as [|x l]; [contradiction|]. intros _. cbn [map mpi collect]. rewrite (collect_map _ _ f) by reflexivity.
  cbn [length]. rewrite map_length. reflexivity.
Qed.
Lemma search_best_runs P combs search best : 0 < P ->
  runs (map (fun r => search_best P r combs search best) (seq 0 P))
    (Some (repeat (best (VList (map (fun b => search (VList b)) (array_split combs P)))) P)).
Proof.
  intros HP. set (parts := array_split combs P). assert (LP : length parts = P) by (apply array_split_length; lia).
  set (mine := fun r => VList (nth r parts [])). set (final := best (VList (map (fun b => search (VList b)) parts))).
  assert (NE : seq 0 P <> []) by (destruct P; [lia|discriminate]).
  assert (PM : forall B (g : val -> B), map (fun r => g (mine r)) (seq 0 P) = map (fun b => g (VList b)) parts).
  { intros B g. unfold mine. rewrite <- LP. clear. generalize parts as l. intros l.
    assert (G : forall n, map (fun r => g (VList (nth (r - n) l []))) (seq n (length l)) = map (fun b => g (VList b)) l).
    { induction l as [|x l IH]; intros n; [reflexivity|]. cbn [length seq map]. rewrite Nat.sub_diag. f_equal.
      rewrite <- (IH (S n)). apply map_ext_in. intros r Hr. apply in_seq in Hr. replace (r - n) with (S (r - S n)) by lia. reflexivity. }
    rewrite <- (G 0). apply map_ext. intros r. rewrite Nat.sub_0_r. reflexivity. }
  unfold search_best. fold parts.
  apply (runs_step (seq 0 P) _ (fun rank m => _) mine); [exact NE| |].
  - rewrite zero_first by exact HP. cbn [mpi Nat.eqb].
    match goal with |- context [collect ?f (?x :: ?l)] =>
      assert (C : exists vs, collect f (x :: l) = Some vs) by (cbn [collect]; rewrite (collect_map f _ (fun rank => if rank =? 0 then VList (map VList parts) else VNone)) by reflexivity; eexists; reflexivity) end.
    destruct C as [vs ->]. cbn [length]. rewrite !map_length, seq_length, LP. replace (S (P - 1)) with P by lia. rewrite Nat.eqb_refl. f_equal.
    symmetry. exact (PM val (fun v => v)).
  - apply (runs_step (seq 0 P) (fun _ => Barrier) (fun rank _ => _) (fun _ => VNone)); [exact NE| |].
    + rewrite zero_first by exact HP. cbn [mpi collect]. rewrite (collect_map _ (fun _ => Barrier) (fun _ => tt)) by reflexivity.
      cbn [length]. rewrite map_length, <- (repeat_map VNone (seq 0 P)), !seq_length. replace (S (P - 1)) with P by lia. reflexivity.
    + apply (runs_step (seq 0 P) (fun rank => Gather_obj (search (mine rank))) (fun rank all => _) (fun rank => if rank =? 0 then VList (map (fun b => search (VList b)) parts) else VNone)); [exact NE| |].
      * rewrite (mpi_gather (fun rank => search (mine rank)) (seq 0 P) NE).
        rewrite (PM val search), seq_length, (zero_first _ P HP). cbn [Nat.eqb]. f_equal. f_equal.
        rewrite <- (seq_length (P - 1) 1) at 1. rewrite (repeat_map VNone (seq 1 (P - 1))). apply map_ext_in. intros r Hr. apply in_seq in Hr.
        destruct r; [lia|reflexivity].
      * apply (runs_step (seq 0 P) (fun rank => Bcast_obj (if rank =? 0 then best (if rank =? 0 then VList (map (fun b => search (VList b)) parts) else VNone)
            else if rank =? 0 then VList (map (fun b => search (VList b)) parts) else VNone)) (fun rank r => Ret r) (fun _ => final)); [exact NE| |].
        -- rewrite zero_first by exact HP. cbn [mpi Nat.eqb collect].
           match goal with |- context [collect ?f (map ?g ?l)] => assert (C : exists vs, collect f (map g l) = Some vs) by (eexists; apply (collect_map f g (fun rank => match g rank with Bcast_obj v => v | _ => VNone end)); reflexivity) end.
           destruct C as [vs ->]. cbn [length]. rewrite map_length, seq_length. replace (S (P - 1)) with P by lia.
           rewrite <- (repeat_map final (seq 0 P)), seq_length. reflexivity.
        -- assert (E : map (fun _ : nat => @Ret val final) (seq 0 P) = map Ret (repeat final P)).
           { rewrite <- (repeat_map (@Ret val final) (seq 0 P)), seq_length. symmetry. generalize final as z. intros z. clear. induction P as [|P IH]; [reflexivity|]. cbn [repeat map]. rewrite IH. reflexivity. }
           rewrite E. apply runs_end.
Qed.
Lemma not_replaceable_differs c : ~ replaceable c -> mpi [c] <> Some [fallback c].
Proof. intros H E. apply H, one_process_call, E. Qed.

(** The maximum, numbers, and processes that do not fit together *)
Lemma op_num_max a b : (op_num Max a b = a \/ op_num Max a b = b) /\ (a <= op_num Max a b)%Qc /\ (b <= op_num Max a b)%Qc.
Proof.
  cbn. split; [apply qmax_cases|]. split; [apply qmax_ge_l | apply qmax_ge_r].
Qed.
Lemma op_arr_max_nth a b j : length a = length b -> j < length a -> nth j (op_arr Max a b) 0%Qc = op_num Max (nth j a 0%Qc) (nth j b 0%Qc).
Proof.
  unfold op_arr. revert b j. induction a as [|x a IH]; intros [|y b] j H Hj; try discriminate; [cbn in Hj; lia|]. destruct j as [|j]; cbn [combine map nth fst snd]; [reflexivity|]. apply IH; [injection H; auto | cbn in Hj; lia].
Qed.
Lemma fold_max_nth bs a j : (forall b, In b bs -> length b = length a) -> j < length a ->
  length (fold_left (op_arr Max) bs a) = length a /\ largest (nth j (fold_left (op_arr Max) bs a) 0%Qc) (nth j a 0%Qc :: map (fun b => nth j b 0%Qc) bs).
Proof.
  revert a. induction bs as [|b bs IH]; intros a H Hj.
  - cbn. split; [reflexivity|]. split; [left; reflexivity|]. intros x [<-|[]]. apply Qcle_refl.
  - cbn [fold_left map]. assert (E : length a = length b) by (symmetry; apply H; left; reflexivity).
    destruct (IH (op_arr Max a b)) as [L [N1 N2]]; [intros b' Hb'; rewrite op_arr_length by exact E; apply H; right; exact Hb' | rewrite op_arr_length by exact E; exact Hj|].
    rewrite op_arr_max_nth in N1, N2 by assumption. rewrite op_arr_length in L by exact E. split; [exact L|]. destruct (op_num_max (nth j a 0%Qc) (nth j b 0%Qc)) as (M1 & M2 & M3). split.
    + destruct N1 as [N1|N1]; [destruct M1 as [M1|M1]; rewrite M1 in N1; [left; exact N1 | right; left; exact N1] | right; right; exact N1].
    + intros x [<-|[<-|Hx]]; [eapply Qcle_trans; [exact M2 | apply N2; left; reflexivity] | eapply Qcle_trans; [exact M3 | apply N2; left; reflexivity] | apply N2; right; exact Hx].
Qed.
Lemma reduce_runs op bs n : bs <> [] -> (forall b, In b bs -> length b = n) ->
  runs (map (reduce_copy op) bs) (Some (map (fun _ => VArr (fold_left (op_arr op) (tl bs) (hd [] bs))) bs)).
Proof.
  intros NE H. unfold reduce_copy. apply (runs_step bs (fun b => Allreduce_buf op b b) (fun _ r => Ret r) (fun _ => VArr (fold_left (op_arr op) (tl bs) (hd [] bs)))); [exact NE| |].
  - destruct bs as [|b bs]; [contradiction|]. cbn [map mpi].
    change (Allreduce_buf op b b :: map (fun b0 => Allreduce_buf op b0 b0) bs) with (map (fun b0 => Allreduce_buf op b0 b0) (b :: bs)).
    rewrite (collect_map _ (fun b0 => Allreduce_buf op b0 b0) (fun b0 => (b0, b0))) by (destruct op; reflexivity).
    rewrite !map_map. cbn [fst snd].
    rewrite all_equal_map by (intros x Hx; rewrite (H x Hx), (H b); [reflexivity|left; reflexivity]). cbn [andb map tl hd].
    rewrite map_map. cbn [fst]. rewrite map_id. f_equal. cbn [length repeat]. rewrite map_length. f_equal. apply repeat_map.
  - rewrite <- (map_map (fun _ : list Qc => VArr (fold_left (op_arr op) (tl bs) (hd [] bs))) Ret). constructor.
Qed.
Lemma reduce_max_lemma : forall bs n, bs <> [] -> (forall b, In b bs -> length b = n) -> exists out,
  length out = n /\ (forall j, j < n -> largest (nth j out 0%Qc) (map (fun b => nth j b 0%Qc) bs)) /\
  forall o, runs (map (reduce_copy Max) bs) o <-> o = Some (map (fun _ => VArr out) bs).
Proof.
  intros bs n NE H. exists (fold_left (op_arr Max) (tl bs) (hd [] bs)). destruct bs as [|b bs]; [contradiction|]. cbn [tl hd].
  assert (Lb : length b = n) by (apply H; left; reflexivity). assert (Hb : forall b', In b' bs -> length b' = length b) by (intros b' Hb'; rewrite Lb; apply H; right; exact Hb').
  split; [|split].
  - clear - Lb Hb. revert b Lb Hb. induction bs as [|c bs IH]; intros b Lb Hb; [exact Lb|]. cbn [fold_left]. assert (E : length b = length c) by (symmetry; apply Hb; left; reflexivity). apply IH; rewrite op_arr_length by exact E; [exact Lb|]. intros b' Hb'. apply Hb. right. exact Hb'.
  - intros j Hj. apply fold_max_nth; [exact Hb | lia].
  - apply runs_iff. exact (reduce_runs Max (b :: bs) n NE H).
Qed.
Lemma fold_numbers op q qs : fold_option (reduce_obj op) (VNum q) (map VNum qs) = Some (VNum (fold_left (op_num op) qs q)).
Proof. revert q. induction qs as [|x qs IH]; intro q; [reflexivity|]. cbn. apply IH. Qed.
Lemma reduce_number_runs op q qs : runs (map (reduce_number op) (q :: qs)) (Some (map (fun _ => VNum (fold_left (op_num op) qs q)) (q :: qs))).
Proof.
  unfold reduce_number. apply (runs_step (q :: qs) (fun x => Allreduce_obj op (VNum x)) (fun _ r => Ret r) (fun _ => VNum (fold_left (op_num op) qs q))); [discriminate| |].
  - cbn [map mpi]. rewrite (collect_map _ (fun x => Allreduce_obj op (VNum x)) VNum) by (destruct op; reflexivity). rewrite fold_numbers. cbn [option_map length repeat]. rewrite map_length. do 2 f_equal. apply repeat_map.
  - rewrite <- (map_map (fun _ : Qc => VNum (fold_left (op_num op) qs q)) Ret). constructor.
Qed.
Lemma fold_sum qs q : fold_left (op_num Sum) qs q = (q + qsum qs)%Qc.
Proof. revert q. induction qs as [|x qs IH]; intro q; cbn [fold_left]; [cbn; ring|]. rewrite IH. cbn. ring. Qed.
Lemma fold_largest qs q : largest (fold_left (op_num Max) qs q) (q :: qs).
Proof.
  revert q. induction qs as [|x qs IH]; intro q; cbn [fold_left]; [split; [left; reflexivity | intros x [<-|[]]; apply Qcle_refl]|].
  destruct (IH (op_num Max q x)) as [N1 N2]. destruct (op_num_max q x) as (M1 & M2 & M3). split.
  - destruct N1 as [N1|N1]; [rewrite <- N1; destruct M1 as [M1|M1]; [left; symmetry; exact M1 | right; left; symmetry; exact M1] | right; right; exact N1].
  - intros y [<-|[<-|Hy]]; [eapply Qcle_trans; [exact M2 | apply N2; left; reflexivity] | eapply Qcle_trans; [exact M3 | apply N2; left; reflexivity] | apply N2; right; exact Hy].
Qed.
Lemma reduce_number_lemma : forall qs, qs <> [] ->
  (forall o, runs (map (reduce_number Sum) qs) o <-> o = Some (map (fun _ => VNum (qsum qs)) qs)) /\
  exists m, largest m qs /\ forall o, runs (map (reduce_number Max) qs) o <-> o = Some (map (fun _ => VNum m) qs).
Proof.
  intros [|q qs] NE; [contradiction|]. split.
  - apply runs_iff. pose proof (reduce_number_runs Sum q qs) as R. rewrite fold_sum in R. exact R.
  - exists (fold_left (op_num Max) qs q). split; [apply fold_largest|]. apply runs_iff. apply reduce_number_runs.
Qed.
Lemma all_equal_false n l m : In m l -> m <> n -> all_equal n l = false.
Proof. intros I N. unfold all_equal. destruct (forallb _ l) eqn:E; [|reflexivity]. rewrite forallb_forall in E. specialize (E m I). apply Nat.eqb_eq in E. contradiction. Qed.
Lemma reduce_misfit_lemma : forall op bs b c, In b bs -> In c bs -> length b <> length c -> forall o, runs (map (reduce_copy op) bs) o <-> o = None.
Proof.
  intros op bs b c Ib Ic N. apply runs_iff. unfold reduce_copy.
  replace (map (fun a => Call (Allreduce_buf op a a) (fun r => Ret r)) bs) with (map (fun e : call * (val -> prog val) => Call (fst e) (snd e)) (map (fun a => (Allreduce_buf op a a, fun r => Ret r)) bs)) by (rewrite map_map; reflexivity).
  apply runs_fail. rewrite map_map. cbn [fst]. destruct bs as [|a bs]; [contradiction|]. cbn [map mpi].
  change (Allreduce_buf op a a :: map (fun b0 => Allreduce_buf op b0 b0) bs) with (map (fun b0 => Allreduce_buf op b0 b0) (a :: bs)).
  rewrite (collect_map _ (fun b0 => Allreduce_buf op b0 b0) (fun b0 => (b0, b0))) by (destruct op; reflexivity). rewrite !map_map. cbn [fst snd].
  destruct (Nat.eq_dec (length b) (length a)) as [E|E].
  - rewrite (all_equal_false (length a) _ (length c)); [reflexivity | apply in_map_iff; exists c; split; [reflexivity|exact Ic] | congruence].
  - rewrite (all_equal_false (length a) _ (length b)); [reflexivity | apply in_map_iff; exists b; split; [reflexivity|exact Ib] | exact E].
Qed.
Lemma reduce_other_op_lemma : forall q r a b,
  (forall o, runs [reduce_number Sum q; reduce_number Max r] o <-> o = None) /\ (forall o, runs [reduce_copy Sum a; reduce_copy Max b] o <-> o = None).
Proof.
  intros q r a b. split; apply runs_iff.
  - exact (runs_fail [(Allreduce_obj Sum (VNum q), fun r => Ret r); (Allreduce_obj Max (VNum r), fun r => Ret r)] eq_refl).
  - exact (runs_fail [(Allreduce_buf Sum a a, fun r => Ret r); (Allreduce_buf Max b b, fun r => Ret r)] eq_refl).
Qed.
Lemma reduce_number_replaceable op q : only_replaceable (reduce_number op q).
Proof. constructor; [exact I | constructor]. Qed.
Lemma fold_lists l ls : fold_option (reduce_obj Sum) (VList l) (map VList ls) = Some (VList (l ++ concat ls)).
Proof. revert l. induction ls as [|x ls IH]; intro l; [cbn; rewrite app_nil_r; reflexivity|]. cbn [map fold_option reduce_obj concat]. rewrite IH, <- app_assoc. reflexivity. Qed.
Lemma reduce_lists_lemma : forall ls, ls <> [] -> mpi (map (fun l => Allreduce_obj Sum (VList l)) ls) = Some (map (fun _ => VList (concat ls)) ls) /\
  (2 <= length ls -> mpi (map (fun l => Allreduce_obj Max (VList l)) ls) = None).
Proof.
  intros [|l ls] NE; [contradiction|]. split.
  - cbn [map mpi]. rewrite (collect_map _ (fun x => Allreduce_obj Sum (VList x)) VList) by reflexivity. rewrite fold_lists. cbn [option_map length repeat concat]. rewrite map_length. do 2 f_equal. apply repeat_map.
  - intro H. cbn [map mpi]. rewrite (collect_map _ (fun x => Allreduce_obj Max (VList x)) VList) by reflexivity. destruct ls as [|m ls]; [cbn in H; lia | reflexivity].
Qed.

Lemma version_old {A} (p : prog A) : serial_version true p = Ok (serial p).
Proof. induction p as [a|c k IH]; [reflexivity|]. cbn [serial_version serial]. destruct c; apply IH. Qed.
Lemma version_new {A} (p : prog A) : (no_scatter p -> serial_version false p = Ok (serial p)) /\ (~ no_scatter p -> serial_version false p = Raise PyAttributeError).
Proof.
  induction p as [a|c k IH]; [split; [reflexivity|intros H; destruct H; constructor]|].
  assert (D : (exists v, c = Scatter_obj v) \/ forall v, c <> Scatter_obj v) by (destruct c; ((right; intros ? E; discriminate E) || (left; eexists; reflexivity))).
  destruct D as [(v & ->)|D].
  - split; [|reflexivity]. intros H. exfalso. assert (X : forall (q : prog A), no_scatter q -> q = Call (Scatter_obj v) k -> False) by (intros q Hq; destruct Hq as [a|c k' N _]; [discriminate|intros [= E _]; exact (N v E)]). exact (X _ H eq_refl).
  - destruct (IH (fallback c)) as (Y & N).
    assert (E : serial_version false (Call c k) = serial_version false (k (fallback c))) by (cbn [serial_version]; destruct c; try reflexivity; exfalso; eapply D; reflexivity).
    rewrite E. split.
    + intros H. apply Y. assert (X : forall (q : prog A), no_scatter q -> q = Call c k -> no_scatter (k (fallback c))) by (intros q Hq; destruct Hq as [a|c' k' _ Hk]; [discriminate|intros Eq; injection Eq; intros -> ->; exact Hk]). exact (X _ H eq_refl).
    + intros H. apply N. intros H2. apply H. constructor; assumption.
Qed.
Lemma package_versions op a combs search best : serial_version false (reduce_copy op a) = Ok (serial (reduce_copy op a)) /\
  serial_version false (global_values 1 a) = Ok (serial (global_values 1 a)) /\ (forall q, serial_version false (reduce_number op q) = Ok (serial (reduce_number op q))) /\
  serial_version false (search_best 1 0 combs search best) = Raise PyAttributeError.
Proof. do 3 (split; [reflexivity|]). reflexivity. Qed.
