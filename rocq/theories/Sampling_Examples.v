From Coq Require Import List Arith Lia Bool QArith Qcanon.
From Verif Require Import Err Num Ext Show NumPy Sampling_Model Sampling_Spec Sampling_Proofs.
Import ListNotations.
Local Open Scope nat_scope.

Definition q14 := Q2Qc (1 # 4). Definition q34 := Q2Qc (3 # 4). Definition q12 := Q2Qc (1 # 2).
(** The two ranks draw different Latin hypercubes. *)
Definition two_draws (r : nat) : list (list Qc) := if r =? 0 then [[q14]; [q34]] else [[q34]; [q14]].
Lemma stratum_dec a b n k y : (qleb (a + qn k * ((b - a) / qn n)) y && qltb y (a + qn (k + 1) * ((b - a) / qn n)))%Qc = true <-> in_stratum a b n k y.
Proof. unfold in_stratum. rewrite andb_true_iff, qleb_true, qltb_true. tauto. Qed.
Lemma not_stratum a b n k y : (qleb (a + qn k * ((b - a) / qn n)) y && qltb y (a + qn (k + 1) * ((b - a) / qn n)))%Qc = false -> ~ in_stratum a b n k y.
Proof. intros H C. apply stratum_dec in C. congruence. Qed.
Lemma two_draws_latin r : latin [(0%Qc, 1%Qc)] 2 (two_draws r).
Proof.
  unfold two_draws. destruct (r =? 0); (split; [reflexivity|]); intros [|[|j]] ab k Hj Hk; try discriminate; injection Hj as <-;
  destruct k as [|[|k]]; try lia; cbn [fst snd].
  - exists 0, [q14]. split; [reflexivity|]. split; [apply stratum_dec; vm_compute; reflexivity|].
    intros [|[|r']] row' H S; try reflexivity; try (destruct r'; discriminate). injection H as <-. exfalso. revert S. apply not_stratum. vm_compute. reflexivity.
  - exists 1, [q34]. split; [reflexivity|]. split; [apply stratum_dec; vm_compute; reflexivity|].
    intros [|[|r']] row' H S; try reflexivity; try (destruct r'; discriminate). injection H as <-. exfalso. revert S. apply not_stratum. vm_compute. reflexivity.
  - exists 1, [q14]. split; [reflexivity|]. split; [apply stratum_dec; vm_compute; reflexivity|].
    intros [|[|r']] row' H S; try reflexivity; try (destruct r'; discriminate). injection H as <-. exfalso. revert S. apply not_stratum. vm_compute. reflexivity.
  - exists 0, [q34]. split; [reflexivity|]. split; [apply stratum_dec; vm_compute; reflexivity|].
    intros [|[|r']] row' H S; try reflexivity; try (destruct r'; discriminate). injection H as <-. exfalso. revert S. apply not_stratum. vm_compute. reflexivity.
Qed.
Lemma lhs_refuted_lemma : (forall r, latin (unit_cube 1) 2 (two_draws r)) /\ ~ latin [(0%Qc, 1%Qc)] 2 (lhs_values [(0%Qc, 1%Qc)] two_draws 2).
Proof.
  split; [exact two_draws_latin|]. intros [_ H].
  assert (E : lhs_values [(0%Qc, 1%Qc)] two_draws 2 = [[q14]; [q14]]) by qc_compute. rewrite E in H.
  destruct (H 0 (0%Qc, 1%Qc) 1 eq_refl ltac:(lia)) as (r & row & H1 & H2 & _). revert H2. apply not_stratum.
  destruct r as [|[|r]]; [injection H1 as <- | injection H1 as <- | destruct r; discriminate]; vm_compute; reflexivity.
Qed.
(** f(x) = 2x: after set_values the model still runs at the old samples. *)
Definition double_all (l : list Qc) : list Qc := map (fun x => (x + x)%Qc) l.
Lemma stale_ex : exists s1 o1 v1 s2 o2, compute_qoi double_all 2 true (mk_in (Some [qn 1; qn 2; qn 3]) None) = Ok (s1, o1, Some v1) /\ v1 = [qn 2; qn 4; qn 6] /\
  compute_qoi double_all 2 true (set_in_values s1 [qn 10; qn 20; qn 30]) = Ok (s2, o2, Some v1) /\ in_values s2 = Some [qn 1; qn 2; qn 3].
Proof.
  eexists _, _, _, _, _. split; [reflexivity|]. split; [qc_compute|]. split; reflexivity.
Qed.
(** One sample at 0 of Q(x) = x. *)
Lemma surrogate1_refuted_lemma : generate_for_input_set (fun _ => 0) 1 1 1 [[qn 0]] [affine [[qn 1]] [qn 0] [qn 0]] (Some [[[qn 1]]]) [[[qn 1]]] = Ok [[[(- qn 1)%Qc]]] /\
  affine [[qn 1]] [qn 0] [qn 1] = [qn 1].
Proof.
  split; [|qc_compute]. unfold generate_for_input_set, surrogate_row, lookup. cbn [Nat.eqb orb negb mapM bind nth_error]. do 3 f_equal.
Qed.
