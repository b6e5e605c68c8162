(** Concrete cases for Error_Props and the proofs of the refutations. *)
From Coq Require Import ZArith List Arith Lia Bool QArith Qcanon Permutation.
From Verif Require Import Err Num Ext NumPy Show Lists Volume_Spec Error_Model Error_Spec Error_Proofs ModelError_Proofs.
Import ListNotations.
Local Open Scope nat_scope.

Definition xs3 : list Qc := [Q2Qc (5 # 10); Q2Qc (9 # 10); Q2Qc (1 # 10)].
Lemma xs3_nodup : NoDup xs3.
Proof. unfold xs3. repeat constructor; simpl; intro H; repeat destruct H as [H|H]; try easy; apply (f_equal this) in H; vm_compute in H; discriminate. Qed.
Lemma xs3_lt a b : a < 3 -> b < 3 -> nth a [1; 2; 0] 0 < nth b [1; 2; 0] 0 -> (nth a xs3 0 < nth b xs3 0)%Qc.
Proof.
  intros Ha Hb. destruct a as [|[|[|a]]]; [| | |lia]; (destruct b as [|[|[|b]]]; [| | |lia]); simpl; intro H; try lia; vm_compute; reflexivity.
Qed.
Lemma xs3_argsort p : is_argsort xs3 p -> p = [2; 0; 1].
Proof.
  intros [P S]. pose proof (Permutation_length P) as L. simpl in L.
  destruct p as [|a [|b [|c [|d p]]]]; try discriminate.
  assert (R : forall x, In x [a; b; c] -> x < 3) by (intros x Hx; apply (Permutation_in _ P) in Hx; simpl in Hx; lia).
  assert (Ra : a < 3) by (apply R; simpl; auto). assert (Rb : b < 3) by (apply R; simpl; auto). assert (Rc : c < 3) by (apply R; simpl; auto).
  assert (N : NoDup [a; b; c]) by (apply (Permutation_NoDup (Permutation_sym P)); repeat constructor; simpl; lia).
  assert (a <> b /\ b <> c) as [Nab Nbc].
  { inversion N as [|? ? N1 N2]; subst. inversion N2 as [|? ? N3 _]; subst. simpl in *. split; intro; subst; tauto. }
  assert (Sab : ~ nth b [1; 2; 0] 0 < nth a [1; 2; 0] 0).
  { intro H. apply (Qcle_not_lt _ _ (S 0 1 a b (Nat.lt_0_succ 0) eq_refl eq_refl)). apply xs3_lt; assumption. }
  assert (Sbc : ~ nth c [1; 2; 0] 0 < nth b [1; 2; 0] 0).
  { intro H. apply (Qcle_not_lt _ _ (S 1 2 b c (Nat.lt_succ_diag_r 1) eq_refl eq_refl)). apply xs3_lt; assumption. }
  clear - Ra Rb Rc Nab Nbc Sab Sbc.
  destruct a as [|[|[|a]]]; [| | |lia]; (destruct b as [|[|[|b]]]; [| | |lia]); try congruence; simpl in Sab; try lia;
  (destruct c as [|[|[|c]]]; [| | |lia]); try congruence; simpl in Sbc; try lia; reflexivity.
Qed.
Lemma connectivity_refuted_lemma argsort : (forall l, is_argsort l (argsort l)) -> exists x io nei,
  NoDup x /\ length io = length x /\ connectivity_1D argsort x io = Ok nei /\
  (exists p q l e, adjacent x p q /\ nth_error nei p = Some l /\ nth_error io q = Some e /\ ~ In e l) /\
  (exists p q l e, ~ adjacent x p q /\ nth_error nei p = Some l /\ nth_error io q = Some e /\ In e l /\ NoDup io).
Proof.
  intro H. exists xs3, [0; 1; 2]. unfold connectivity_1D. rewrite (xs3_argsort _ (H xs3)).
  eexists. split; [exact xs3_nodup|]. split; [reflexivity|]. split; [reflexivity|].
  split.
  - exists 0, 1, [2], 1. split.
    + split; [lia|]. exists (Q2Qc (5 # 10)), (Q2Qc (9 # 10)). split; [reflexivity|]. split; [reflexivity|].
      intros c Hc. simpl in Hc. destruct Hc as [<-|[<-|[<-|[]]]]; split; intros [A B]; vm_compute in A, B; discriminate.
    + repeat split. simpl. lia.
  - exists 1, 2, [2], 2. split.
    + intros (_ & a & b & Ha & Hb & Hn). simpl in Ha, Hb. injection Ha as <-. injection Hb as <-.
      apply (proj2 (Hn (Q2Qc (5 # 10)) (or_introl eq_refl))). split; vm_compute; reflexivity.
    + repeat split; [simpl; auto|]. repeat constructor; simpl; lia.
Qed.

(** Three increasing samples. *)
Definition xs_sorted : list Qc := [Q2Qc (1 # 10); Q2Qc (5 # 10); Q2Qc (9 # 10)].

(** Events 1 0 0 1 on a line: event 0 has no interior cell. *)
Definition io4 := [1; 0; 0; 1].
Definition nei4 := [[0]; [0; 1]; [0; 1]; [0]].
Definition ones4 : list Qc := [1; 1; 1; 1]%Qc.
Definition ups_of (r : result (list xnum * list xnum * (dict * dict))) : list xnum := match r with Ok (u, _, _) => u | _ => [] end.
Definition lows_of (r : result (list xnum * list xnum * (dict * dict))) : list xnum := match r with Ok (_, l, _) => l | _ => [] end.
Lemma contour_history_refuted_lemma : exists io nei vols probs q ups lows BC ups' lows' BC',
  neighbour_table io nei /\ length vols = length io /\ all_positive vols /\
  contour_events io vols probs (boundary_sets io nei) = Ok (ups, lows, BC) /\
  contour_events io vols probs (ask_all io vols probs [q] (boundary_sets io nei)) = Ok (ups', lows', BC') /\
  nth_error ups 0 = Some NaN /\ nth_error ups' 0 = Some PInf /\
  nth_error lows 0 = Some NaN /\ nth_error lows' 0 = Some (Fin (- (1))%Qc).
Proof.
  set (q := AskRegion [[(true, 1); (false, 2)]]). set (pr := [1; 0]%Qc).
  assert (T : neighbour_table io4 nei4).
  { split; [reflexivity|]. intros l Hl. simpl in Hl. repeat (destruct Hl as [<-|Hl]; [repeat constructor; simpl; lia|]). destruct Hl. }
  assert (A : ups_of (contour_events io4 ones4 pr (boundary_sets io4 nei4)) = [NaN; Fin 0%Qc]) by qc_compute.
  assert (B : lows_of (contour_events io4 ones4 pr (boundary_sets io4 nei4)) = [NaN; Fin 0%Qc]) by qc_compute.
  assert (C : ups_of (contour_events io4 ones4 pr (ask_all io4 ones4 pr [q] (boundary_sets io4 nei4))) = [PInf; Fin 0%Qc]) by qc_compute.
  assert (D : lows_of (contour_events io4 ones4 pr (ask_all io4 ones4 pr [q] (boundary_sets io4 nei4))) = [Fin (- (1))%Qc; Fin 0%Qc]) by qc_compute.
  exists io4, nei4, ones4, pr, q.
  destruct (contour_events io4 ones4 pr (boundary_sets io4 nei4)) as [[[ups lows] BC]|]; [|discriminate].
  destruct (contour_events io4 ones4 pr (ask_all io4 ones4 pr [q] (boundary_sets io4 nei4))) as [[[ups' lows'] BC']|]; [|discriminate].
  exists ups, lows, BC, ups', lows', BC'. simpl in A, B, C, D. subst.
  split; [exact T|]. split; [reflexivity|].
  split; [intros x Hx; simpl in Hx; repeat (destruct Hx as [<-|Hx]; [vm_compute; reflexivity|]); destruct Hx|].
  repeat split; reflexivity.
Qed.

(** Events 0 0 0 1 0 1 1 1 on a line: cell 4 is isolated in its event. *)
Definition io8 := [0; 0; 0; 1; 0; 1; 1; 1].
Definition nei8 := [[0]; [0]; [0; 1]; [0]; [1]; [0; 1]; [1]; [1]].
Lemma table8 : neighbour_table io8 nei8.
Proof. split; [reflexivity|]. intros l Hl. simpl in Hl. repeat (destruct Hl as [<-|Hl]; [repeat constructor; simpl; lia|]). destruct Hl. Qed.
(** These are the neighbours computed by the code for eight increasing samples. *)
Example nei8_computed : connectivity_1D (fun l => seq 0 (length l)) (map qn (seq 0 8)) io8 = Ok nei8.
Proof. reflexivity. Qed.
Lemma event_not_enclosed_lemma : exists (io : list nat) nei i k, neighbour_table io nei /\ nth_error io k = Some i /\ ~ In k (lookup (snd (boundary_sets io nei)) i).
Proof. exists io8, nei8, 0, 4. split; [exact table8|]. split; [reflexivity|]. vm_compute. intuition discriminate. Qed.
Definition region8 : list (list (bool * nat)) := [[(false, 0); (false, 1); (false, 2); (false, 3)]; [(true, 4); (false, 5); (false, 6); (false, 7)]].
Lemma region_bracket_refuted_lemma : exists io nei probs blocks u l, neighbour_table io nei /\ fst (region_bounds io probs blocks (boundary_sets io nei)) = Some (u, l) /\ (u < 0)%Qc /\ (l < 0)%Qc.
Proof.
  destruct (fst (region_bounds io8 [1; 0]%Qc region8 (boundary_sets io8 nei8))) as [[u l]|] eqn:E; [|vm_compute in E; discriminate].
  exists io8, nei8, [1; 0]%Qc, region8, u, l. split; [exact table8|]. split; [exact E|].
  assert (A : Some u = option_map fst (fst (region_bounds io8 [1; 0]%Qc region8 (boundary_sets io8 nei8)))) by (rewrite E; reflexivity).
  assert (B : Some l = option_map snd (fst (region_bounds io8 [1; 0]%Qc region8 (boundary_sets io8 nei8)))) by (rewrite E; reflexivity).
  vm_compute in A, B. injection A as ->. injection B as ->. split; vm_compute; reflexivity.
Qed.

(** Five cells on a line, events 0 0 0 1 1, with interior cells 0, 1 and 4. *)
Definition io5 := [0; 0; 0; 1; 1].
Definition nei5 := [[0]; [0]; [0; 1]; [0; 1]; [1]].
Lemma table5 : neighbour_table io5 nei5.
Proof. split; [reflexivity|]. intros l Hl. simpl in Hl. repeat (destruct Hl as [<-|Hl]; [repeat constructor; simpl; lia|]). destruct Hl. Qed.
Lemma connected5 i : connected_event io5 nei5 i.
Proof.
  intros k Hk. destruct k as [|[|[|[|[|k]]]]]; simpl in Hk; try (injection Hk as <-); try (destruct k; discriminate);
  (eexists; split; [reflexivity|simpl; auto]).
Qed.
Definition ones5 : list Qc := [1; 1; 1; 1; 1]%Qc.
Lemma ones5_pos : all_positive ones5.
Proof. intros x Hx; simpl in Hx; repeat (destruct Hx as [<-|Hx]; [vm_compute; reflexivity|]); destruct Hx. Qed.
Lemma sorted_case : is_argsort xs_sorted [0; 1; 2] /\ connectivity_1D (fun _ => [0; 1; 2]) xs_sorted [7; 8; 9] = Ok [[8]; [7; 9]; [8]].
Proof.
  split; [|reflexivity]. split; [apply Permutation_refl|]. intros i j a b Hij Ha Hb.
  destruct i as [|[|[|i]]]; [| | |destruct i; discriminate]; (destruct j as [|[|[|j]]]; [| | |destruct j; discriminate]); try lia;
  simpl in Ha, Hb; injection Ha as <-; injection Hb as <-; vm_compute; discriminate.
Qed.
Definition pts_ex : list (list (nat * nat * nat)) := [[(0, 0, 0); (0, 0, 1)]; [(1, 1, 1); (1, 0, 0); (1, 1, 0)]].
Lemma pts_case : all_present [Q2Qc (1 # 2); Q2Qc (1 # 2)] (concat pts_ex) /\
  map (fun r => sample_set_region [5%Z; 6%Z; 5%Z] r [Q2Qc (1 # 2); Q2Qc (1 # 2)] pts_ex) [5%Z; 6%Z] = [Ok (Q2Qc (-1 # 12)); Ok (Q2Qc (1 # 12))].
Proof.
  split.
  - intros i p Hi _. destruct i as [|[|i]]; [| |destruct i; discriminate].
    + split; [exists (0, 0, 0)|exists (0, 0, 0)]; split; simpl; auto.
    + split; [exists (1, 1, 1)|exists (1, 1, 1)]; split; simpl; auto.
  - simpl map. f_equal; [|f_equal]; qc_compute.
Qed.
