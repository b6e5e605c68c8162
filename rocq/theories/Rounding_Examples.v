(** A concrete rounding to [prec] binary digits, and concrete orders of addition. *)
From Coq Require Import List Arith Bool ZArith QArith Qcanon Qabs Qround Qpower Lia Lqa Permutation.
From Verif Require Import Err Num Prob_Model Prob_Spec Rounding_Model Rounding_Spec.
Import ListNotations.

(** The exponent e with 2^(prec-1) <= |x| / 2^e < 2^prec. *)
Definition exponent0 (prec : Z) (x : Q) : Z := Z.log2 (Z.abs (Qnum x)) - Z.log2 (Zpos (Qden x)) - prec.
Definition two_to (e : Z) : Q := Qpower (2 # 1) e.
Definition exponent (prec : Z) (x : Q) : Z :=
  let e := exponent0 prec x in if Qle_bool (two_to prec) (Qabs (x / two_to e)) then (e + 1)%Z else e.
(** Round to the nearest number with prec digits. *)
Definition round_q (prec : Z) (x : Q) : Q :=
  if Qeq_bool x 0 then 0 else let e := exponent prec x in inject_Z (Qfloor (x / two_to e + (1 # 2))) * two_to e.
Definition round_to (prec : Z) (x : Qc) : Qc := Q2Qc (round_q prec (this x)).
Local Open Scope Q_scope.
Lemma two_pos e : 0 < two_to e.
Proof. unfold two_to. apply Qpower_0_lt. reflexivity. Qed.
Lemma two_nz e : ~ two_to e == 0.
Proof. intros H. pose proof (two_pos e). rewrite H in H0. discriminate. Qed.
Lemma two_add a b : two_to (a + b) == two_to a * two_to b.
Proof. apply Qpower_plus. discriminate. Qed.
Lemma two_Z k : (0 <= k)%Z -> two_to k == inject_Z (2 ^ k).
Proof. intros H. unfold two_to. change (2 # 1) with (inject_Z 2). symmetry. apply Zpower_Qpower. exact H. Qed.
Lemma exponent0_large prec x : ~ x == 0 -> two_to (prec - 1) <= Qabs (x / two_to (exponent0 prec x)).
Proof.
  intros NZ. unfold exponent0. destruct x as [n d]. cbn [Qnum Qden].
  assert (n <> 0)%Z as Hn by (intros ->; apply NZ; reflexivity). set (a := Z.log2 (Z.abs n)). set (b := Z.log2 (Zpos d)). set (e := (a - b - prec)%Z).
  assert (A0 : (0 <= a)%Z) by apply Z.log2_nonneg. assert (B0 : (0 <= b)%Z) by apply Z.log2_nonneg.
  assert (A : (2 ^ a <= Z.abs n)%Z) by (apply Z.log2_spec; lia). assert (B : (Zpos d < 2 ^ (b + 1))%Z) by (apply Z.log2_spec; lia).
  unfold Qdiv. rewrite Qabs_Qmult. assert (I : Qabs (/ two_to e) == / two_to e) by (apply Qabs_pos; apply Qlt_le_weak, Qinv_lt_0_compat, two_pos). rewrite I.
  apply Qle_shift_div_l; [apply two_pos|]. rewrite <- two_add. unfold e. replace (prec - 1 + (a - b - prec))%Z with (a - (b + 1))%Z by lia.
  assert (X : two_to (a - (b + 1)) == two_to a / two_to (b + 1)). { unfold two_to, Qdiv. rewrite <- Qpower_opp, <- Qpower_plus by discriminate. reflexivity. }
  rewrite X. apply Qle_shift_div_r; [apply two_pos|]. rewrite !two_Z by lia. unfold Qabs, Qle, Qmult, inject_Z. cbn [Qnum Qden]. rewrite Pos.mul_1_r, Z.mul_1_r. nia.
Qed.
Lemma exponent_large prec x : ~ x == 0 -> two_to (prec - 1) <= Qabs (x / two_to (exponent prec x)).
Proof.
  intros NZ. unfold exponent. destruct (Qle_bool _ _) eqn:E; [|apply exponent0_large; exact NZ]. apply Qle_bool_iff in E. rewrite two_add.
  assert (X : x / (two_to (exponent0 prec x) * two_to 1) == (x / two_to (exponent0 prec x)) * (1 # 2)). { change (two_to 1) with (2 # 1). field. apply two_nz. }
  rewrite X, Qabs_Qmult. change (Qabs (1 # 2)) with (1 # 2).
  assert (Y : two_to (prec - 1) == two_to prec * (1 # 2)). { replace prec with ((prec - 1) + 1)%Z at 2 by lia. rewrite two_add. change (two_to 1) with (2 # 1). ring. }
  rewrite Y. lra.
Qed.
Lemma floor_near y : Qabs (inject_Z (Qfloor (y + (1 # 2))) - y) <= 1 # 2.
Proof. pose proof (Qfloor_le (y + (1 # 2))). pose proof (Qlt_floor (y + (1 # 2))) as H1. rewrite inject_Z_plus in H1. change (inject_Z 1) with 1 in H1. apply Qabs_Qle_condition. split; lra. Qed.
Lemma round_q_error prec x : Qabs (round_q prec x - x) <= two_to (- prec) * Qabs x.
Proof.
  unfold round_q. destruct (Qeq_bool x 0) eqn:E.
  - apply Qeq_bool_eq in E. rewrite E. change (Qabs 0) with 0. rewrite Qmult_0_r. apply Qle_refl.
  - assert (NZ : ~ x == 0) by (intros H; apply Qeq_eq_bool in H; congruence). pose proof (exponent_large prec x NZ) as L. cbv zeta. set (e := exponent prec x) in *. set (y := x / two_to e) in *.
    assert (Ex : x == y * two_to e) by (unfold y; field; apply two_nz). pose proof (floor_near y) as F. set (m := inject_Z _) in *.
    assert (T : m * two_to e - x == (m - y) * two_to e) by (rewrite Ex at 1; ring). rewrite T. rewrite Ex at 1. rewrite !Qabs_Qmult.
    assert (P : Qabs (two_to e) == two_to e) by (apply Qabs_pos, Qlt_le_weak, two_pos). rewrite P, Qmult_assoc. apply Qmult_le_compat_r; [|apply Qlt_le_weak, two_pos].
    eapply Qle_trans; [exact F|]. assert (H : two_to (- prec) * two_to (prec - 1) == 1 # 2). { rewrite <- two_add. replace (- prec + (prec - 1))%Z with (-1)%Z by lia. reflexivity. }
    rewrite <- H. rewrite (Qmult_comm (two_to (- prec)) (Qabs y)), (Qmult_comm (two_to (- prec))). apply Qmult_le_compat_r; [exact L|apply Qlt_le_weak, two_pos].
Qed.
Lemma this_qabs x : this (qabs x) == Qabs (this x).
Proof.
  unfold qabs. destruct (qleb_spec 0%Qc x) as [H|H].
  - symmetry. apply Qabs_pos. exact H.
  - apply Qcnot_le_lt in H. rewrite this_opp. symmetry. apply Qabs_neg. apply Qlt_le_weak. exact H.
Qed.
(** The unit of rounding for prec digits; prec = 53 for numbers of 64 bits. *)
Definition unit_of (prec : Z) : Qc := Q2Qc (two_to (- prec)).
Lemma round_to_rounding prec : (0 < prec)%Z -> rounding (unit_of prec) (round_to prec).
Proof.
  intros HP. split; [|split].
  - unfold unit_of, Qcle. rewrite (this_Q2Qc (two_to (- prec))). apply Qlt_le_weak, two_pos.
  - unfold unit_of, Qclt. rewrite (this_Q2Qc (two_to (- prec))). change (this 1) with 1. unfold two_to. rewrite Qpower_opp. fold (two_to prec). rewrite two_Z by lia.
    pose proof (Z.pow_gt_1 2 prec ltac:(lia)) as [G _]. specialize (G HP). apply Qlt_shift_inv_r; [change 0 with (inject_Z 0); rewrite <- Zlt_Qlt; lia|]. rewrite Qmult_1_l. change 1 with (inject_Z 1). rewrite <- Zlt_Qlt. exact G.
  - intros x. unfold Qcle. rewrite this_qabs, this_mul, this_qabs, this_sub. unfold round_to, unit_of. rewrite !this_Q2Qc. apply round_q_error.
Qed.

(** Adding from left to right, and by halves. *)
Definition left_sum (rnd : Qc -> Qc) (l : list Qc) : Qc := match l with [] => 0%Qc | x :: r => fold_left (fun a b => rnd (a + b)%Qc) r x end.
Lemma left_sum_adds rnd : adds rnd (left_sum rnd).
Proof.
  intros [|x l]; [constructor|]. cbn [left_sum]. assert (G : forall l k s, k <> [] -> sums rnd k s -> sums rnd (k ++ l) (fold_left (fun a b => rnd (a + b)%Qc) l s)).
  { clear. induction l as [|y l IH]; intros k s Nk H; cbn [fold_left]; [rewrite app_nil_r; exact H|].
    replace (k ++ y :: l) with ((k ++ [y]) ++ l) by (rewrite <- app_assoc; reflexivity). apply IH; [destruct k; discriminate|].
    eapply sum_two; [exact Nk| |apply Permutation_refl|exact H|constructor]. discriminate. }
  apply (G l [x] x); [discriminate|constructor].
Qed.
Definition third : Qc := Q2Qc (1 # 3).
Definition rounding_ptrs : list (list nat) := [[0; 1]; [0; 0]]%nat.
Definition rounding_vols : list (list Qc) := [[third; third]; [Q2Qc (1 # 7); Q2Qc (2 # 7)]].
Definition rounding_probs : list Qc := [Q2Qc (3 # 10); Q2Qc (7 # 10)].
Lemma rounding_vols_nonneg : nonneg (concat rounding_vols).
Proof. intros x [<-|[<-|[<-|[<-|[]]]]]; discriminate. Qed.
Definition shown (r : result (list (list Qc))) : list (list Q) := match r with Ok l => map (map this) l | Raise _ => [] end.
(** With 8 digits *)
Lemma rounding_shown : shown (prob_fl (round_to 8) (left_sum (round_to 8)) (left_sum (round_to 8)) rounding_probs rounding_ptrs rounding_vols) =
  [[135 # 1024; 179 # 256]; [231 # 4096; 231 # 2048]]%Q /\
  shown (prob rounding_probs rounding_ptrs rounding_vols) = [[21 # 160; 7 # 10]; [9 # 160; 9 # 80]]%Q.
Proof. split; vm_compute; reflexivity. Qed.
