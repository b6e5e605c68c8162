From Coq Require Import List Arith Bool Lia Reals Lra Permutation.
From Verif Require Import Err GradientR_Model GradientR_Proofs ChooseQoIs_Model ChooseQoIs_Spec ChooseQoIs_Proofs UniqueVecs_Model UniqueVecs_Spec.
Import ListNotations.
Local Open Scope R_scope.

(** ** norms and cosines *)
Lemma rsum_total l : rsum l = total l.
Proof. induction l as [|x l IH]; [reflexivity|]. cbn [total]. rewrite <- IH. reflexivity. Qed.
Lemma rdot_inner a b : rdot a b = inner a b.
Proof. revert b. induction a as [|x a IH]; intros [|y b]; try reflexivity. cbn [inner]. rewrite <- IH. reflexivity. Qed.
Lemma norm_length v : norm v = vlength v.
Proof.
  unfold norm, vlength. f_equal. induction v as [|x v IH]; [reflexivity|]. cbn [inner]. rewrite <- IH. reflexivity.
Qed.
Lemma inner_self_nonneg a : 0 <= inner a a.
Proof. induction a as [|x a IH]; simpl; [lra|]. pose proof (Rle_0_sqr x). unfold Rsqr in *. lra. Qed.
Lemma vlength_zero a : vlength a = 0 <-> forall x, In x a -> x = 0.
Proof.
  unfold vlength. split.
  - intro H. apply sqrt_eq_0 in H; [|apply inner_self_nonneg]. induction a as [|x a IH]; intros y I; [contradiction|].
    simpl in H. pose proof (inner_self_nonneg a) as P. pose proof (Rle_0_sqr x) as Q. unfold Rsqr in Q. assert (x * x = 0) by lra. assert (inner a a = 0) by lra.
    destruct I as [<-|I]; [|exact (IH H1 y I)]. apply Rmult_integral in H0. tauto.
  - intro H. replace (inner a a) with 0; [apply sqrt_0|]. induction a as [|x a IH]; [reflexivity|]. simpl. rewrite (H x (or_introl eq_refl)), <- IH by (intros; apply H; right; assumption). ring.
Qed.
Lemma inner_zero_l a b : (forall x, In x a -> x = 0) -> inner a b = 0.
Proof. revert b. induction a as [|x a IH]; intros [|y b] H; simpl; try reflexivity. rewrite (H x (or_introl eq_refl)), IH by (intros; apply H; right; assumption). ring. Qed.
Lemma inner_comm a b : inner a b = inner b a.
Proof. revert b. induction a as [|x a IH]; intros [|y b]; simpl; try reflexivity. rewrite IH. ring. Qed.
Lemma inner_scale c d a b : inner (map (fun x => x / c) a) (map (fun x => x / d) b) = inner a b * (/ c * / d).
Proof. revert b. induction a as [|x a IH]; intros [|y b]; simpl; try ring. rewrite IH. unfold Rdiv. ring. Qed.
Lemma nsum_some l : nsum (map Some l) = Some (total l).
Proof. induction l as [|x l IH]; [reflexivity|]. cbn [map total]. unfold nsum in *. cbn [fold_right]. rewrite IH. reflexivity. Qed.
Lemma ndot_some a b : ndot (map Some a) (map Some b) = Some (inner a b).
Proof.
  unfold ndot. revert b. induction a as [|x a IH]; intros [|y b]; try reflexivity.
  cbn [map combine fst snd inner]. unfold nsum in *. cbn [fold_right]. rewrite IH. reflexivity.
Qed.
Lemma unit_vec_some v : unit_vec v = map Some (map (fun x => x / (if Req_EM_T (vlength v) 0 then 1 else vlength v)) v).
Proof.
  unfold unit_vec. rewrite map_map, norm_length. apply map_ext. intro x. unfold ndiv.
  destruct (Req_EM_T (vlength v) 0) as [Z|N].
  - destruct (Req_EM_T 1 0); [lra | reflexivity].
  - destruct (Req_EM_T (vlength v) 0); [contradiction | reflexivity].
Qed.
Lemma unit_inner a b : ndot (unit_vec a) (unit_vec b) = Some (cosine a b).
Proof.
  rewrite !unit_vec_some, ndot_some, inner_scale. f_equal. unfold cosine.
  destruct (Req_EM_T (vlength a) 0) as [Za|Na].
  - rewrite inner_zero_l by (apply vlength_zero, Za). ring.
  - destruct (Req_EM_T (vlength b) 0) as [Zb|Nb].
    + rewrite inner_comm, inner_zero_l by (apply vlength_zero, Zb). ring.
    + field. split; assumption.
Qed.
Lemma cosine_comm a b : cosine a b = cosine b a.
Proof.
  unfold cosine. destruct (Req_EM_T (vlength a) 0), (Req_EM_T (vlength b) 0); try reflexivity.
  rewrite inner_comm, (Rmult_comm (vlength b)). reflexivity.
Qed.
Lemma average_cosine_comm jac i j : average_cosine jac i j = average_cosine jac j i.
Proof. unfold average_cosine. do 2 f_equal. apply map_ext. intro m. apply cosine_comm. Qed.
Lemma too_similar_spec jac o tol i j : (i < o)%nat -> (j < o)%nat -> exists b, too_similar jac o tol i j = Ok b /\ (b = true <-> similar jac tol i j).
Proof.
  intros Hi Hj. unfold too_similar. replace ((o <=? i)%nat || (o <=? j)%nat) with false.
  - rewrite (map_ext (fun m => ndot (unit_vec (nth i m [])) (unit_vec (nth j m []))) (fun m => Some (cosine (nth i m []) (nth j m [])))) by (intro m; apply unit_inner).
    rewrite <- map_map with (g := Some), nsum_some.
    eexists. split; [reflexivity|]. unfold similar, average_cosine, gradient.
    unfold is_true_R. destruct (Rlt_dec tol _); split; intro H; try assumption; try reflexivity; try discriminate; contradiction.
  - symmetry. apply orb_false_iff. split; apply Nat.leb_gt; assumption.
Qed.
Lemma zero_somewhere_spec jac i : zero_somewhere jac i = true <-> vanishes jac i.
Proof.
  unfold zero_somewhere, vanishes. rewrite existsb_exists. split.
  - intros (m & I & H). exists m. split; [exact I|]. unfold is_true_R in H. destruct (Req_EM_T (norm (nth i m [])) 0) as [E|]; [|discriminate]. rewrite norm_length in E. apply vlength_zero. exact E.
  - intros (m & I & H). exists m. split; [exact I|]. unfold is_true_R. destruct (Req_EM_T (norm (nth i m [])) 0) as [E|N]; [reflexivity|]. exfalso. apply N. rewrite norm_length. apply vlength_zero. exact H.
Qed.

(** ** the loop *)
Section Loop.
Variable test : nat -> nat -> result bool.
Variable sim : nat -> nat -> Prop.
Definition tested (qs : list nat) := forall i j, In i qs -> In j qs -> exists b, test i j = Ok b /\ (b = true <-> sim i j).
Lemma pair_loop_app ps ps' reps : pair_loop test (ps ++ ps') reps = bind (pair_loop test ps reps) (fun r => pair_loop test ps' r).
Proof.
  revert reps. induction ps as [|[i j] ps IH]; intro reps; cbn [app pair_loop]; [reflexivity|]. destruct (_ || _); [apply IH|]. destruct (test i j); [|reflexivity]. cbn [bind]. apply IH.
Qed.
(** One row of pairs (x, y), y in l. *)
Lemma row_loop x l reps : (forall y, In y l -> exists b, test x y = Ok b /\ (b = true <-> sim x y)) -> exists reps', pair_loop test (map (fun y => (x, y)) l) reps = Ok reps' /\
  (In x reps -> reps' = reps) /\ (forall y, In y reps -> In y reps') /\
  (forall y, In y reps' -> In y reps \/ (In y l /\ ~ In x reps /\ sim x y)) /\
  (~ In x reps -> ~ In x l -> forall y, In y l -> sim x y -> In y reps').
Proof.
  revert reps. induction l as [|y l IH]; intros reps T; cbn [map pair_loop].
  - exists reps. split; [reflexivity|]. repeat split; auto. intros _ _ y [].
  - assert (T' : forall y, In y l -> exists b, test x y = Ok b /\ (b = true <-> sim x y)) by (intros; apply T; right; assumption).
    destruct (mem reps x || mem reps y) eqn:E; unfold mem in E; rewrite E.
    + destruct (IH reps T') as (reps' & E' & A & B & C & D). exists reps'. split; [exact E'|]. split; [exact A|]. split; [exact B|]. split.
      * intros z Iz. destruct (C z Iz) as [?|(? & ? & ?)]; [left; assumption | right; split; [right; assumption | split; assumption]].
      * intros Nx Nl z [<-|Iz] S; [|apply D; auto; intro; apply Nl; right; assumption]. apply B. apply orb_true_iff in E. destruct E as [E|E]; [apply (mem_true reps x) in E; contradiction | apply (mem_true reps y), E].
    + apply orb_false_iff in E. destruct E as [Ex Ey]. apply (mem_false reps x) in Ex. apply (mem_false reps y) in Ey.
      destruct (T y (or_introl eq_refl)) as (b & Eb & Hb). rewrite Eb. cbn [bind]. destruct b.
      * destruct (IH (reps ++ [y]) T') as (reps' & E' & A & B & C & D). exists reps'. split; [exact E'|]. split; [intro; contradiction|]. split; [intros z Iz; apply B, in_or_app; left; exact Iz|]. split.
        -- intros z Iz. destruct (C z Iz) as [I|(I1 & I2 & I3)].
           ++ apply in_app_or in I. destruct I as [I|[<-|[]]]; [left; exact I | right; split; [left; reflexivity | split; [exact Ex | apply Hb; reflexivity]]].
           ++ right. split; [right; exact I1|]. split; [exact Ex | exact I3].
        -- intros _ Nl z [<-|Iz] S; [apply B, in_or_app; right; left; reflexivity|]. apply D; [|intro; apply Nl; right; assumption | exact Iz | exact S].
           intro I. apply in_app_or in I. destruct I as [I|[I|[]]]; [contradiction|]. apply Nl. left. exact I.
      * destruct (IH reps T') as (reps' & E' & A & B & C & D). exists reps'. split; [exact E'|]. split; [exact A|]. split; [exact B|]. split.
        -- intros z Iz. destruct (C z Iz) as [?|(? & ? & ?)]; [left; assumption | right; split; [right; assumption | split; assumption]].
        -- intros _ Nl z [<-|Iz] S; [|apply D; auto; intro; apply Nl; right; assumption]. apply Hb in S. discriminate.
Qed.
Lemma loop_lemma qs : NoDup qs -> tested qs -> forall reps, exists reps', pair_loop test (pairs qs) reps = Ok reps' /\
  (forall y, In y reps -> In y reps') /\
  (forall y, In y reps' -> In y reps \/ (In y qs /\ exists x, In x qs /\ ~ In x reps' /\ sim x y)) /\
  (forall a b l1 l2 l3, qs = l1 ++ a :: l2 ++ b :: l3 -> ~ In a reps' -> ~ In b reps' -> ~ sim a b).
Proof.
  induction qs as [|x qs IH]; intros N T reps; cbn [pairs].
  - exists reps. split; [reflexivity|]. split; [auto|]. split; [auto|]. intros a b [|? ?] l2 l3 E; discriminate.
  - inversion N as [|? ? Nx Nq]; subst. rewrite pair_loop_app.
    destruct (row_loop x qs reps) as (r1 & E1 & A1 & B1 & C1 & D1); [intros y Iy; apply T; [left; reflexivity | right; exact Iy]|]. rewrite E1. cbn [bind].
    destruct (IH Nq) with (reps := r1) as (r2 & E2 & B2 & C2 & D2); [intros i j Hi Hj; apply T; right; assumption|].
    assert (X : In x r2 -> In x reps).
    { intro I. destruct (C2 x I) as [I1|(I1 & _)]; [|contradiction]. destruct (C1 x I1) as [?|(? & _)]; [assumption | contradiction]. }
    exists r2. split; [exact E2|]. split; [intros y Iy; apply B2, B1, Iy|]. split.
    + intros y Iy. destruct (C2 y Iy) as [I1|(I1 & z & Iz & Nz & S)].
      * destruct (C1 y I1) as [?|(Iq & Nr & S)]; [left; assumption|]. right. split; [right; exact Iq|]. exists x. split; [left; reflexivity|]. split; [intro; apply Nr, X; assumption | exact S].
      * right. split; [right; exact I1|]. exists z. split; [right; exact Iz|]. split; assumption.
    + intros a b l1 l2 l3 E Na Nb S. destruct l1 as [|c l1]; injection E as -> E.
      * apply Nb, B2. apply D1; [intro I; apply Na, B2, B1, I | exact Nx | rewrite E; apply in_or_app; right; left; reflexivity | exact S].
      * exact (D2 a b l1 l2 l3 E Na Nb S).
Qed.
End Loop.

Lemma two_splits {A} (a b : A) l : In a l -> In b l -> a <> b -> (exists l1 l2 l3, l = l1 ++ a :: l2 ++ b :: l3) \/ (exists l1 l2 l3, l = l1 ++ b :: l2 ++ a :: l3).
Proof.
  intros Ia Ib N. destruct (in_split _ _ Ia) as (l1 & l2 & ->). apply in_app_or in Ib. destruct Ib as [Ib|[E|Ib]].
  - right. destruct (in_split _ _ Ib) as (m1 & m2 & ->). exists m1, m2, l2. rewrite <- app_assoc. reflexivity.
  - congruence.
  - left. destruct (in_split _ _ Ib) as (m1 & m2 & ->). exists l1, m1, m2. reflexivity.
Qed.
Lemma set_diff_in a b x : In x (set_diff a b) <-> In x a /\ ~ In x b.
Proof. unfold set_diff. rewrite filter_In, negb_true_iff. change (existsb (Nat.eqb x) b) with (mem b x). rewrite mem_false. tauto. Qed.

Lemma unique_lemma : forall ord jac o tol qois remove_zeros, set_order ord ->
  (forall i, In i (match qois with Some q => q | None => seq 0 o end) -> (i < o)%nat) ->
  exists kept, find_unique_vecs ord (Some jac) o tol qois remove_zeros = Ok kept /\
    maximal_dissimilar jac tol remove_zeros (match qois with Some q => q | None => seq 0 o end) kept.
Proof.
  intros ord jac o tol qois rz O H. unfold find_unique_vecs. set (q := match qois with Some q => q | None => seq 0 o end) in *.
  set (indz := if rz then filter (zero_somewhere jac) (seq 0 o) else []). set (qs := ord (set_diff q indz)).
  assert (QS : forall x, In x qs <-> In x q /\ ~ In x indz) by (intro x; unfold qs; rewrite (proj2 (O _) x); apply set_diff_in).
  assert (IZ : forall x, In x q -> (In x indz <-> rz = true /\ vanishes jac x)).
  { intros x Ix. unfold indz. destruct rz; [|split; [intros [] | intros [? _]; discriminate]]. rewrite filter_In, zero_somewhere_spec, in_seq. split; [intros [_ V]; split; [reflexivity | exact V]|].
    intros [_ V]. split; [|exact V]. specialize (H x Ix). lia. }
  destruct (loop_lemma (too_similar jac o tol) (similar jac tol) qs) with (reps := @nil nat) as (reps & E & _ & C & D).
  - apply O.
  - intros i j Hi Hj. apply QS in Hi. apply QS in Hj. apply too_similar_spec; apply H; tauto.
  - rewrite E. cbn [bind]. eexists. split; [reflexivity|]. set (kept := ord (set_diff qs reps)).
    assert (KS : forall x, In x kept <-> In x qs /\ ~ In x reps) by (intro x; unfold kept; rewrite (proj2 (O _) x); apply set_diff_in).
    split; [apply O|]. split; [intros x Ix; apply KS in Ix; destruct Ix as [Ix _]; apply QS in Ix; tauto|]. split; [|split].
    + intros -> i Ii V. apply KS in Ii. destruct Ii as [Ii _]. apply QS in Ii. destruct Ii as [Iq Nz]. apply Nz, IZ; [exact Iq | split; [reflexivity | exact V]].
    + intros i j Ii Ij Nij S. apply KS in Ii. apply KS in Ij. destruct (two_splits i j qs (proj1 Ii) (proj1 Ij) Nij) as [(l1 & l2 & l3 & El)|(l1 & l2 & l3 & El)].
      * exact (D i j l1 l2 l3 El (proj2 Ii) (proj2 Ij) S).
      * apply (D j i l1 l2 l3 El (proj2 Ij) (proj2 Ii)). unfold similar in *. rewrite average_cosine_comm. exact S.
    + intros j Ij Nj. destruct (in_dec Nat.eq_dec j indz) as [Z|NZ]; [left; apply IZ; assumption|]. right.
      assert (Jq : In j qs) by (apply QS; split; assumption). destruct (in_dec Nat.eq_dec j reps) as [R|NR]; [|exfalso; apply Nj, KS; split; assumption].
      destruct (C j R) as [[]|(_ & x & Ix & Nx & S)]. exists x. split; [apply KS; split; assumption | exact S].
Qed.
