From Coq Require Import List Arith Bool Lia Permutation Sorted QArith Qcanon.
From Verif Require Import Err Num Ext Show Lists Post_Spec Sampling_Model ChooseQoIs_Model ChooseQoIs_Spec ChooseQoIs_Proofs ChooseAvg_Proofs.
Import ListNotations.
Local Open Scope nat_scope.

(** A stable argsort. *)
Definition before (a b : xnum) : bool := match b with NaN => true | _ => match a with NaN => false | _ => xleb a b end end.
Fixpoint ins (e : xnum * nat) (l : list (xnum * nat)) : list (xnum * nat) :=
  match l with [] => [e] | f :: r => if before (fst e) (fst f) then e :: l else f :: ins e r end.
Definition isort (l : list xnum) : list nat := map snd (fold_right ins [] (combine l (seq 0 (length l)))).
Lemma before_spec a b : before a b = true <-> sorts_before a b.
Proof. destruct a, b; simpl; split; intros; try reflexivity; try discriminate; try contradiction; try exact I; assumption. Qed.
Lemma before_total a b : before a b = false -> sorts_before b a.
Proof. destruct a, b; simpl; intro H; try discriminate; try reflexivity; try exact I. apply qleb_false in H. apply qleb_true, Qclt_le_weak, H. Qed.
Lemma before_trans a b c : sorts_before a b -> sorts_before b c -> sorts_before a c.
Proof. destruct a, b, c; simpl; intros; try reflexivity; try exact I; try discriminate; try contradiction. rewrite qleb_true in *. eapply Qcle_trans; eassumption. Qed.
Lemma ins_perm e l : Permutation (ins e l) (e :: l).
Proof. induction l as [|f l IH]; cbn [ins]; [constructor; constructor|]. destruct (before (fst e) (fst f)); [apply Permutation_refl|]. eapply Permutation_trans; [apply perm_skip, IH | apply perm_swap]. Qed.
Definition le_key (e f : xnum * nat) : Prop := sorts_before (fst e) (fst f).
Lemma ins_sorted e l : StronglySorted le_key l -> StronglySorted le_key (ins e l).
Proof.
  induction 1 as [|f l S IH F]; cbn [ins]; [repeat constructor|]. destruct (before (fst e) (fst f)) eqn:B.
  - apply before_spec in B. constructor; [constructor; assumption|]. constructor; [exact B|]. rewrite Forall_forall in *. intros x Ix. eapply before_trans; [exact B | exact (F x Ix)].
  - constructor; [exact IH|]. rewrite Forall_forall in *. intros x Ix. apply (Permutation_in _ (ins_perm e l)) in Ix. destruct Ix as [<-|Ix]; [exact (before_total _ _ B) | exact (F x Ix)].
Qed.
Lemma ss_nth {A} (R : A -> A -> Prop) l : StronglySorted R l -> forall i j a b, i < j -> nth_error l i = Some a -> nth_error l j = Some b -> R a b.
Proof.
  induction 1 as [|x l S IH F]; intros i j a b L Ha Hb; [destruct i; discriminate|]. destruct j as [|j]; [lia|]. destruct i as [|i]; cbn [nth_error] in *.
  - injection Ha as <-. rewrite Forall_forall in F. apply F, (nth_error_In _ _ Hb).
  - apply (IH i j a b); [lia | assumption | assumption].
Qed.
Lemma isort_good : good_sort isort.
Proof.
  intro l. set (c := combine l (seq 0 (length l))). assert (P : Permutation (fold_right ins [] c) c).
  { induction c as [|e c IH]; [constructor|]. cbn [fold_right]. eapply Permutation_trans; [apply ins_perm | apply perm_skip, IH]. }
  assert (S : StronglySorted le_key (fold_right ins [] c)) by (clear P; induction c as [|e c IH]; [constructor | apply ins_sorted, IH]).
  assert (C : forall e, In e c -> nth_error l (snd e) = Some (fst e)).
  { intros [x i] I. destruct (In_nth_error _ _ I) as [k Hk]. unfold c in Hk. rewrite Query_Proofs.nth_error_combine in Hk. rewrite nth_error_seq in Hk. destruct (nth_error l k) as [y|] eqn:E; [|discriminate].
    destruct (k <? length l); [|discriminate]. injection Hk as <- <-. exact E. }
  split.
  - unfold isort. fold c. eapply Permutation_trans; [apply Permutation_map, P|]. unfold c. rewrite Volume_Proofs.combine_snd by (rewrite seq_length; reflexivity). apply Permutation_refl.
  - intros i j a b x y Lij Ha Hb Hx Hy. unfold isort in Ha, Hb. fold c in Ha, Hb. rewrite nth_error_map in Ha, Hb.
    destruct (nth_error (fold_right ins [] c) i) as [e|] eqn:Ei; [|discriminate]. destruct (nth_error (fold_right ins [] c) j) as [f|] eqn:Ej; [|discriminate]. injection Ha as <-. injection Hb as <-.
    pose proof (C e (Permutation_in _ P (nth_error_In _ _ Ei))) as Ce. pose proof (C f (Permutation_in _ P (nth_error_In _ _ Ej))) as Cf. rewrite Hx in Ce. injection Ce as ->. rewrite Hy in Cf. injection Cf as ->.
    exact (ss_nth _ _ S i j e f Lij Ei Ej).
Qed.
Definition set_list (l : list nat) : list nat := nodup Nat.eq_dec l.
Lemma set_list_good : set_order set_list.
Proof. intro l. split; [apply NoDup_nodup | intro x; apply nodup_In]. Qed.

(** A criterion: inf for sets with both 0 and 1, otherwise the sum of the indices. *)
Definition mu_ex (c : list nat) : xnum := if existsb (Nat.eqb 0) c && existsb (Nat.eqb 1) c then PInf else Fin (qn (list_sum c)).
Lemma existsb_perm x c c' : Permutation c c' -> existsb (Nat.eqb x) c = existsb (Nat.eqb x) c'.
Proof. induction 1; simpl; try congruence. destruct (x =? x0), (x =? y); reflexivity. Qed.
Lemma list_sum_perm c c' : Permutation c c' -> list_sum c = list_sum c'.
Proof. induction 1; simpl in *; lia. Qed.
Lemma mu_ex_criterion : set_criterion mu_ex.
Proof.
  split.
  - intros c c' P. unfold mu_ex. rewrite (existsb_perm 0 _ _ P), (existsb_perm 1 _ _ P), (list_sum_perm _ _ P). reflexivity.
  - intro c. unfold mu_ex. destruct (_ && _); discriminate.
Qed.
Lemma mu_ex_hereditary : hereditary mu_ex.
Proof.
  intros c c' _ _ I _ H E. apply H. unfold mu_ex in E |- *. destruct (existsb (Nat.eqb 0) c' && existsb (Nat.eqb 1) c') eqn:B; [|discriminate].
  apply andb_true_iff in B. destruct B as [B0 B1]. rewrite existsb_exists in B0, B1. destruct B0 as (a & Ia & Ea). destruct B1 as (b & Ib & Eb).
  replace (existsb (Nat.eqb 0) c) with true by (symmetry; apply existsb_exists; exists a; split; [apply I, Ia | exact Ea]).
  replace (existsb (Nat.eqb 1) c) with true by (symmetry; apply existsb_exists; exists b; split; [apply I, Ib | exact Eb]). reflexivity.
Qed.
Definition sv_ex (c : list nat) : list nat := c ++ c.
Definition eval_ex (c : list nat) : result (xnum * list nat) := Ok (mu_ex c, sv_ex c).
Definition show_rows (rows : list (xnum * list nat)) := map (fun r => (xshow (fst r), snd r)) rows.
Lemma show_rows_inj a b : show_rows a = show_rows b -> a = b.
Proof.
  revert b. induction a as [|[x c] a IH]; intros [|[y d] b] H; simpl in H; try discriminate; [reflexivity|].
  injection H as H1 H2 H3. f_equal; [f_equal; [apply xshow_inj; exact H1 | exact H2] | apply IH; exact H3].
Qed.
Ltac rows_compute := apply (ok_eq show_rows _ _ show_rows_inj); vm_compute; reflexivity.
Lemma choose_ex : chooseOptQoIs 0 eval_ex isort 2 3 2 4 [0; 1; 2; 3] =
  Ok [(Fin (qn 2), [0; 2]); (Fin (qn 3), [0; 3]); (Fin (qn 3), [1; 2])].
Proof. rows_compute. Qed.
Lemma large_ex : match chooseOptQoIs_large 0 eval_ex isort set_list 2 2 2 3 PInf [3; 0; 2; 1] with
  | Ok out => map show_rows out = map show_rows [[(Fin (qn 2), [0; 2]); (Fin (qn 3), [0; 3])]; [(Fin (qn 5), [0; 2; 3]); (Fin (qn 6), [1; 2; 3])]]
  | Raise _ => False end.
Proof. vm_compute. reflexivity. Qed.

(** Two processes, two QoIs, one center: the returned array mixes the values of
    both sets. *)
Definition mu_one (c : list nat) : xnum := Fin (qn (list_sum c)).
Lemma mu_one_criterion : set_criterion mu_one.
Proof. split; [intros c c' P; unfold mu_one; rewrite (list_sum_perm _ _ P); reflexivity | discriminate]. Qed.
Definition sv_one (c : list nat) : list nat := match c with [0] => [10; 11] | _ => [20; 21] end.
Lemma aligned_refuted_lemma : exists eval srt mu sv qois rows svs,
  NoDup qois /\ good_sort srt /\ set_criterion mu /\ (forall c, set_of 1 qois c -> eval c = Ok (mu c, sv c) /\ length (sv c) = 2) /\
  chooseOptQoIs_verbose 0 eval srt 2 1 1 2 qois = Ok (rows, svs) /\ ~ aligned sv rows svs.
Proof.
  exists (fun c => Ok (mu_one c, sv_one c)), isort, mu_one, sv_one, [0; 1], [(mu_one [0], [0])], [[10; 20]].
  split; [repeat constructor; simpl; intuition discriminate|]. split; [exact isort_good|]. split; [exact mu_one_criterion|].
  split; [intros c (L & _ & I); split; [reflexivity|]; destruct c as [|[|x] [|? ?]]; try discriminate; reflexivity|]. split.
  - match goal with |- ?l = Ok (?r, ?s) => apply (ok_eq (fun x => (show_rows (fst x), snd x))) end.
    + intros [a b] [a' b'] H. cbn [fst snd] in H. injection H as H1 H2. f_equal; [apply show_rows_inj, H1 | exact H2].
    + vm_compute. reflexivity.
  - intros [_ A]. specialize (A 0 _ _ eq_refl ltac:(discriminate)). cbn in A. discriminate.
Qed.

(** Three pairs of equal value: only one of them is in the table of the best
    three. *)
Definition mu_tie (c : list nat) : xnum := Fin 1.
Lemma tie_refuted_lemma : exists eval srt ord mu sv good best svs,
  good_sort srt /\ set_order ord /\ set_criterion mu /\ (forall c, eval c = Ok (mu c, sv c)) /\
  find_good_sets 0 eval srt ord 1 3 2 2 PInf [[0]; [1]; [2]] [0; 1; 2] = Ok (good, best, svs) /\
  good = [[0; 1]; [0; 2]; [1; 2]] /\ map snd best = [[0; 1]].
Proof.
  exists (fun c => Ok (mu_tie c, c)), isort, set_list, mu_tie, (fun c => c). eexists _, [(Fin 1, [0; 1])], _. split; [exact isort_good|]. split; [exact set_list_good|].
  split; [split; [reflexivity | discriminate]|]. split; [reflexivity|]. split; [vm_compute; reflexivity|]. split; reflexivity.
Qed.
Lemma good_ex : match find_good_sets 0 eval_ex isort set_list 2 2 3 6 (Fin (qn 7)) [[0; 2]; [1; 2]; [0; 1]] [3; 4; 0; 2; 1] with
  | Ok (good, best, _) => good = [[0; 2; 3]; [1; 2; 3]; [0; 2; 4]] /\ show_rows best = show_rows [(Fin (qn 5), [0; 2; 3]); (Fin (qn 6), [1; 2; 3])]
  | Raise _ => False end.
Proof. vm_compute. split; reflexivity. Qed.

(** One QoI with gradient zero at the first center: its condition number there is
    counted as 1 instead of inf. *)
Lemma condnum_single_refuted_lemma : exists singvals h out, (forall s x, In s singvals -> In x s -> (0 <= x)%Qc) /\
  calculate_avg_condnum (Some (1, 2)) singvals = Ok (h, out) /\ out <> map (map Fin) singvals /\
  forall conds, Forall2 is_condnum singvals conds -> ~ is_hmean conds h.
Proof.
  exists [[0%Qc]; [1%Qc]], (Fin 1), [[Fin 1]; [Fin 1]]. split; [|split; [|split]].
  - intros s x [<-|[<-|[]]] [<-|[]]; discriminate.
  - apply (ok_eq (fun r => (xshow (fst r), map (map xshow) (snd r)))).
    + intros [a b] [a' b'] H. cbn [fst snd] in H. injection H as H1 H2. assert (a = a') by (apply xshow_inj; assumption || (unfold xshow; destruct a, a'; simpl in *; congruence)). f_equal; [assumption|].
      clear -H2. revert b' H2. induction b as [|x b IH]; intros [|y b'] H; simpl in H; try discriminate; [reflexivity|]. injection H as H1 H2. f_equal; [apply xlist_eq, H1 | apply IH, H2].
    + vm_compute. reflexivity.
  - intro H. injection H as H. discriminate.
  - intros conds F [_ H]. inversion F as [|? x ? l [C1 _] F1]; subst. inversion F1 as [|? y ? l2 [_ C2] F2]; subst. inversion F2; subst.
    assert (x = PInf) by (apply C1; reflexivity). assert (y = Fin (1 / 1)%Qc) by (apply C2; discriminate). subst.
    destruct H as (q & E & Q); [exists (Fin (1 / 1)%Qc); split; [right; left; reflexivity | discriminate]|]. injection E as <-. vm_compute in Q. discriminate.
Qed.
Lemma condnum_ex : exists q out, calculate_avg_condnum (Some (2, 3)) [[qn 4; qn 2]; [qn 3; 0%Qc]; [qn 9; qn 3]] = Ok (Fin q, out) /\ q = Q2Qc (18 # 5).
Proof. eexists _, _. split; [vm_compute; reflexivity | qc_compute]. Qed.
Lemma measure_ex : exists q out, calculate_avg_measure (Some (2, 3)) [[qn 4; qn 2]; [qn 3; 0%Qc]] None = Ok (Fin q, out) /\ q = Q2Qc (1 # 4).
Proof. eexists _, _. split; [vm_compute; reflexivity | qc_compute]. Qed.
(** Rows (3,4) and (1,0): volume 4, norms 5 and 1; and a degenerate center. *)
Definition centers_ex : list (Qc * list (Qc * Qc)) := [(qn 4, [(1%Qc, qn 5); (qn 5, 1%Qc)]); (0%Qc, [(1%Qc, 1%Qc); (1%Qc, 1%Qc)])].
Lemma skew_ex : (forall c, In c centers_ex -> geometric c) /\ exists q, calculate_avg_skewness (Some (2, 2)) centers_ex = Ok (Fin q) /\ q = Q2Qc (5 # 2).
Proof.
  split.
  - intros c [<-|[<-|[]]]; (split; [discriminate|]); cbn [fst snd]; (split; [discriminate|]).
    + intros e [<-|[<-|[]]]; cbn [fst snd]; (split; [discriminate | split; [discriminate | discriminate]]).
    + intros e [<-|[<-|[]]]; cbn [fst snd]; (split; [discriminate | split; [discriminate | discriminate]]).
  - eexists. split; [vm_compute; reflexivity | qc_compute].
Qed.
