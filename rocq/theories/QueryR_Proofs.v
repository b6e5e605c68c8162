From Coq Require Import List Arith Bool Lia Reals Lra QArith Qcanon Qreals.
From Verif Require Import Err Num Ext Query_Model Query_Spec Query_Proofs QueryR_Spec.
Import ListNotations.

Definition decide (p : norm_name) : point -> Qc -> bool := match p with One => norm1_lt | Two => norm2_lt | Inf => norminf_lt end.

Lemma real_plus a b : real (a + b)%Qc = (real a + real b)%R.
Proof. unfold real. rewrite <- Q2R_plus. apply Qeq_eqR. apply Qred_correct. Qed.
Lemma real_mult a b : real (a * b)%Qc = (real a * real b)%R.
Proof. unfold real. rewrite <- Q2R_mult. apply Qeq_eqR. apply Qred_correct. Qed.
Lemma real_opp a : real (- a)%Qc = (- real a)%R.
Proof. unfold real. rewrite <- Q2R_opp. apply Qeq_eqR. apply Qred_correct. Qed.
Lemma real_minus a b : real (a - b)%Qc = (real a - real b)%R.
Proof. unfold Qcminus. rewrite real_plus, real_opp. reflexivity. Qed.
Lemma real_0 : real 0%Qc = 0%R.
Proof. unfold real, Q2R. simpl. lra. Qed.
Lemma real_lt a b : (a < b)%Qc <-> (real a < real b)%R.
Proof. split; intro H; [apply Qlt_Rlt | apply Rlt_Qlt]; exact H. Qed.
Lemma real_le a b : (a <= b)%Qc <-> (real a <= real b)%R.
Proof. split; intro H; [apply Qle_Rle | apply Rle_Qle]; exact H. Qed.
Lemma real_abs a : real (qabs a) = Rabs (real a).
Proof.
  unfold qabs. destruct (qleb 0 a) eqn:E.
  - apply qleb_true in E. apply real_le in E. rewrite real_0 in E. rewrite Rabs_right; [reflexivity | lra].
  - apply qleb_false in E. apply real_lt in E. rewrite real_0 in E. rewrite real_opp. rewrite Rabs_left; [reflexivity | exact E].
Qed.
Lemma real_max a b : real (qmax a b) = Rmax (real a) (real b).
Proof.
  unfold qmax. destruct (qleb a b) eqn:E.
  - apply qleb_true in E. apply real_le in E. rewrite Rmax_right; [reflexivity | exact E].
  - rewrite Rmax_left; [reflexivity|]. destruct (Rle_dec (real b) (real a)) as [H|H]; [exact H|].
    assert (H' : (real a <= real b)%R) by lra. apply real_le in H'. apply qleb_true in H'. congruence.
Qed.
Lemma real_sum l : real (qsum l) = rsum (map real l).
Proof. induction l as [|a l IH]; [apply real_0|]. cbn [qsum fold_right map rsum]. rewrite real_plus. f_equal. exact IH. Qed.
Lemma squares_nonneg (v : list R) : (0 <= rsum (map (fun c => c * c) v))%R.
Proof. induction v as [|a v IH]; cbn [map rsum fold_right]; [lra|]. pose proof (Rle_0_sqr a) as S1. unfold Rsqr in S1. unfold rsum in IH. lra. Qed.

Lemma decide_norm p v r : decide p v r = true <-> (norm p (map real v) < real r)%R.
Proof.
  destruct p; cbn [decide norm].
  - unfold norm1_lt. rewrite qltb_true, real_lt, real_sum, !map_map.
    replace (map (fun x => real (qabs x)) v) with (map (fun x => Rabs (real x)) v) by (apply map_ext; intro; symmetry; apply real_abs). reflexivity.
  - unfold norm2_lt. rewrite andb_true_iff, !qltb_true, !real_lt, real_0, real_sum, real_mult, !map_map.
    replace (map (fun x => real (x * x)%Qc) v) with (map (fun x => real x * real x)%R v) by (apply map_ext; intro; symmetry; apply real_mult).
    pose proof (squares_nonneg (map real v)) as N. rewrite map_map in N. set (s := rsum (map (fun x => real x * real x)%R v)) in *.
    split.
    + intros [P L]. rewrite <- (sqrt_square (real r)) by lra. apply sqrt_lt_1; [exact N | nra | exact L].
    + intro L. pose proof (sqrt_pos s) as Q. split; [lra|]. rewrite <- (sqrt_sqrt s N). nra.
  - unfold norminf_lt. rewrite qltb_true, real_lt. replace (real (fold_right qmax 0%Qc (map qabs v))) with (fold_right Rmax 0%R (map Rabs (map real v))); [reflexivity|].
    induction v as [|a v IH]; cbn [map fold_right]; [symmetry; apply real_0|]. rewrite real_max, real_abs, <- IH. reflexivity.
Qed.

Lemma ball_norm_lemma : forall p d cs rs s x, ball_setup d cs rs = Ok s -> length x = d ->
  exists i dist, ball_query (decide p) s x 1 = Ok [(i, dist)] /\
    cell_answer (length cs) (fun i => exists c r, nth_error cs i = Some c /\ nth_error rs i = Some r /\ in_ball p x c r) i dist.
Proof.
  intros p d cs rs s x HS HX. destruct (ball_query_first (decide p) d cs rs s x HS HX) as (i & dist & E & A).
  exists i, dist. split; [exact E|].
  assert (W : forall j, ball_contains (fun v r => decide p v r = true) cs rs x j <-> exists c r, nth_error cs j = Some c /\ nth_error rs j = Some r /\ in_ball p x c r).
  { intro j. unfold ball_contains, in_ball. split; intros (c & r & Hc & Hr & H); exists c, r; (split; [exact Hc|]); (split; [exact Hr|]).
    - apply decide_norm in H. rewrite map_map in H. erewrite map_ext; [exact H|]. intro e. symmetry. apply real_minus.
    - apply decide_norm. rewrite map_map. erewrite map_ext; [exact H|]. intro e. apply real_minus. }
  destruct A as [[(A1 & A2 & A3) A4]|(A1 & A2 & A3)]; [left | right].
  - split; [|exact A4]. split; [exact A1|]. split; [apply W; exact A2|]. intros j Hj K. apply (A3 j Hj). apply W. exact K.
  - split; [exact A1|]. split; [exact A2|]. intros j Hj K. apply (A3 j Hj). apply W. exact K.
Qed.
