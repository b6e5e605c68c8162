From Coq Require Import ZArith List Arith Bool Reals Lra Lia Psatz.
From Verif Require Import Err CompareR_Model MarginalDist_Model MarginalDist_Proofs Smooth_Model Smooth_Spec Smooth_Proofs Smooth2_Model Smooth2_Spec.
Import ListNotations.
Local Open Scope R_scope.

Lemma sum_to_scal n c f : sum_to n (fun k => c * f k) = c * sum_to n f.
Proof. induction n as [|n IH]; cbn [sum_to]; [ring|]. rewrite IH. ring. Qed.
Lemma padded2_nested ax nx ay ny f i j : padded2 ax nx ay ny f i j = padded ax nx (fun i' => padded ay ny (f i') j) i.
Proof. unfold padded2, padded. destruct (Nat.leb ax i), (Nat.ltb i (ax + nx)), (Nat.leb ay j), (Nat.ltb j (ay + ny)); reflexivity. Qed.
Lemma padded_prod a nx f c j : padded a nx (fun i => f i * c) j = padded a nx f j * c.
Proof. unfold padded. destruct (Nat.leb a j), (Nat.ltb j (a + nx)); ring. Qed.
Lemma padded_ext a nx f g j : (forall i, (i < nx)%nat -> f i = g i) -> padded a nx f j = padded a nx g j.
Proof. intro H. unfold padded. destruct (Nat.leb_spec a j); [|reflexivity]. destruct (Nat.ltb_spec j (a + nx)); [apply H; lia | reflexivity]. Qed.
Lemma kernel2_prod nx ny sx sy dx dy i j : kernel2 nx ny sx sy dx dy i j = kernel nx sx dx i * kernel ny sy dy j.
Proof. unfold kernel2, kernel. rewrite <- exp_plus. reflexivity. Qed.
Lemma shifted_kernel N M ax nx ay ny (K L : nat -> R) i j :
  fftshift_1 M (fftshift_0 N (padded2 ax nx ay ny (fun i j => K i * L j))) i j = fftshift N (padded ax nx K) i * fftshift M (padded ay ny L) j.
Proof.
  unfold fftshift_1, fftshift_0, fftshift. set (i' := ((i + (N - N / 2)) mod N)%nat). set (j' := ((j + (M - M / 2)) mod M)%nat). unfold padded2, padded.
  destruct (Nat.leb ax i'), (Nat.ltb i' (ax + nx)), (Nat.leb ay j'), (Nat.ltb j' (ay + ny)); cbn [andb]; ring.
Qed.
Lemma weight_ext nx a K f g n : (forall i, (i < nx)%nat -> f i = g i) -> weight nx a K f n = weight nx a K g n.
Proof. intro H. unfold weight. apply sum_to_ext. intros k _. f_equal. apply padded_ext. exact H. Qed.
Lemma weight_scal nx a K f c n : weight nx a K (fun i => f i * c) n = weight nx a K f n * c.
Proof. unfold weight. rewrite Rmult_comm, <- sum_to_scal. apply sum_to_ext. intros k _. rewrite padded_prod. ring. Qed.
Lemma circular_ext N a b c n : (forall j, b j = c j) -> circular N a b n = circular N a c n.
Proof. intro H. unfold circular. apply sum_to_ext. intros j _. rewrite H. reflexivity. Qed.
Lemma circular2_weight nx ax ny ay K L f n m : (n < nx)%nat -> (m < ny)%nat ->
  circular2 (nx + 2 * ax) (ny + 2 * ay) (fftshift_1 (ny + 2 * ay) (fftshift_0 (nx + 2 * ax) (padded2 ax nx ay ny (fun i j => K i * L j)))) (padded2 ax nx ay ny f) (ax + n) (ay + m)
  = weight nx ax K (fun i => weight ny ay L (f i) m) n.
Proof.
  intros Hn Hm. rewrite <- (circular_weight nx ax K (fun i => weight ny ay L (f i) m) n Hn). unfold circular2, circular at 1. apply sum_to_ext. intros i _.
  set (i' := ((ax + n + (nx + 2 * ax) - i) mod (nx + 2 * ax))%nat).
  rewrite (sum_to_ext _ _ (fun j => fftshift (nx + 2 * ax) (padded ax nx K) i * (fftshift (ny + 2 * ay) (padded ay ny L) j * padded2 ax nx ay ny f i' ((ay + m + (ny + 2 * ay) - j) mod (ny + 2 * ay))%nat))).
  2:{ intros j _. rewrite shifted_kernel. ring. }
  rewrite sum_to_scal. f_equal. unfold padded at 2. destruct (Nat.leb ax i') eqn:A, (Nat.ltb i' (ax + nx)) eqn:B.
  - rewrite <- (circular_weight ny ay L (f (i' - ax)%nat) m Hm). unfold circular. apply sum_to_ext. intros j _. f_equal. rewrite padded2_nested. unfold padded at 1. rewrite A, B. reflexivity.
  - apply sum_to_zero. intros j _. rewrite padded2_nested. unfold padded at 2. rewrite A, B. ring.
  - apply sum_to_zero. intros j _. rewrite padded2_nested. unfold padded at 2. rewrite A. ring.
  - apply sum_to_zero. intros j _. rewrite padded2_nested. unfold padded at 2. rewrite A. ring.
Qed.
(** The sum that is normalized. *)
Definition weight2 nx ny sx sy dx dy marg n m : R :=
  weight nx (padding sx dx) (kernel nx sx dx) (fun i => weight ny (padding sy dy) (kernel ny sy dy) (fun j => nth j (nth i marg []) 0) m) n.
Definition total2 nx ny sx sy dx dy marg : R := sum_to nx (fun n => sum_to ny (fun m => weight2 nx ny sx sy dx dy marg n m)).
Lemma table_fits nx ny (marg : list (list R)) : table nx ny marg -> fits nx (length marg) && forallb (fun row => fits ny (length row)) marg = true.
Proof.
  intros (L & R). apply andb_true_intro. unfold fits. rewrite L, Nat.eqb_refl. split; [reflexivity|]. apply forallb_forall. intros row I. rewrite (R row I), Nat.eqb_refl. reflexivity.
Qed.
Lemma stored_table nx ny marg i j : table nx ny marg -> (i < nx)%nat -> stored_at nx ny marg i j = nth j (nth i marg []) 0.
Proof. intros (L & R) Hi. unfold stored_at. rewrite L, Nat.eqb_refl. rewrite (R (nth i marg [])) by (apply nth_In; lia). rewrite Nat.eqb_refl. reflexivity. Qed.
Lemma smooth2_eq nx ny sx sy dx dy marg : table nx ny marg ->
  smooth_2D nx ny sx sy dx dy marg = Ok (map (fun n => map (fun m => if Req_EM_T (total2 nx ny sx sy dx dy marg) 0 then None else Some (weight2 nx ny sx sy dx dy marg n m / total2 nx ny sx sy dx dy marg)) (seq 0 ny)) (seq 0 nx)).
Proof.
  intro T. unfold smooth_2D. rewrite (table_fits nx ny marg T). f_equal.
  set (s := map _ (seq 0 nx)).
  assert (s = map (fun n => map (weight2 nx ny sx sy dx dy marg n) (seq 0 ny)) (seq 0 nx)) as Es.
  { unfold s. apply map_ext_in. intros n Hn. apply in_seq in Hn. apply map_ext_in. intros m Hm. apply in_seq in Hm.
    transitivity (circular2 (nx + 2 * padding sx dx) (ny + 2 * padding sy dy) (fftshift_1 (ny + 2 * padding sy dy) (fftshift_0 (nx + 2 * padding sx dx) (padded2 (padding sx dx) nx (padding sy dy) ny (fun i j => kernel nx sx dx i * kernel ny sy dy j)))) (padded2 (padding sx dx) nx (padding sy dy) ny (stored_at nx ny marg)) (padding sx dx + n) (padding sy dy + m)).
    - unfold circular2. apply sum_to_ext. intros i _. apply sum_to_ext. intros j _. f_equal. unfold fftshift_1, fftshift_0, fftshift, padded2. destruct (_ && _ && _ && _); [apply kernel2_prod | reflexivity].
    - rewrite circular2_weight by lia. unfold weight2. apply weight_ext. intros i Hi. apply weight_ext. intros j Hj. apply stored_table; assumption. }
  assert (rsum (map rsum s) = total2 nx ny sx sy dx dy marg) as Et. { rewrite Es, map_map, rsum_map_seq. apply sum_to_ext. intros n _. apply rsum_map_seq. }
  rewrite Et, Es, map_map. apply map_ext. intro n. rewrite map_map. reflexivity.
Qed.
Lemma smooth2_lemma : forall nx ny sx sy dx dy marg, (2 <= nx)%nat -> (2 <= ny)%nat -> 0 < sx -> 0 < sy -> 0 < dx -> 0 < dy -> table nx ny marg -> marginal2_ok marg ->
  exists t, smooth_2D nx ny sx sy dx dy marg = Ok t /\ probability_table nx ny t.
Proof.
  intros nx ny sx sy dx dy marg H2x H2y _ _ _ _ T (P & row0 & x & Ir & Ix & Px). rewrite smooth2_eq by exact T.
  set (w := weight2 nx ny sx sy dx dy marg). set (t := total2 nx ny sx sy dx dy marg).
  assert (forall i j, (i < nx)%nat -> (j < ny)%nat -> 0 <= nth j (nth i marg []) 0) as Hm.
  { intros i j Hi Hj. apply (P (nth i marg [])); apply nth_In; [rewrite (proj1 T); exact Hi | rewrite (proj2 T); [exact Hj | apply nth_In; rewrite (proj1 T); exact Hi]]. }
  assert (forall i m, (i < nx)%nat -> 0 <= weight ny (padding sy dy) (kernel ny sy dy) (fun j => nth j (nth i marg []) 0) m) as Wy by (intros i m Hi; apply weight_ge0; [apply kernel_pos | intros; apply Hm; assumption]).
  assert (forall n m, 0 <= w n m) as W0 by (intros n m; apply weight_ge0; [apply kernel_pos | intros; apply Wy; assumption]).
  apply (In_nth _ _ []) in Ir. destruct Ir as (i0 & Hi0 & Ei0). rewrite (proj1 T) in Hi0. apply (In_nth _ _ 0) in Ix. destruct Ix as (j0 & Hj0 & Ej0). rewrite <- Ei0 in Hj0, Ej0. rewrite (proj2 T) in Hj0 by (apply nth_In; rewrite (proj1 T); exact Hi0).
  destruct (weight_pos ny (padding sy dy) (kernel ny sy dy) (fun j => nth j (nth i0 marg []) 0) j0 H2y (kernel_pos ny sy dy)) as (m0 & Hm0 & Wm0); [intros; apply Hm; assumption | exact Hj0 | rewrite Ej0; exact Px|].
  destruct (weight_pos nx (padding sx dx) (kernel nx sx dx) (fun i => weight ny (padding sy dy) (kernel ny sy dy) (fun j => nth j (nth i marg []) 0) m0) i0 H2x (kernel_pos nx sx dx)) as (n0 & Hn0 & Wn0); [intros; apply Wy; assumption | exact Hi0 | exact Wm0|].
  assert (0 < t) as Pt.
  { unfold t, total2. apply (sum_to_pos nx _ n0); [intros n _; apply sum_to_ge0; intros; apply W0 | exact Hn0|]. apply (sum_to_pos ny _ m0); [intros; apply W0 | exact Hm0 | exact Wn0]. }
  eexists. split; [reflexivity|]. exists (map (fun n => map (fun m => w n m / t) (seq 0 ny)) (seq 0 nx)). split; [|split; [|split]].
  - rewrite map_map. apply map_ext. intro n. rewrite map_map. apply map_ext. intro m. destruct (Req_EM_T t 0) as [E|_]; [lra | reflexivity].
  - split; [rewrite map_length, seq_length; reflexivity|]. intros row I. apply in_map_iff in I. destruct I as (n & <- & _). rewrite map_length, seq_length. reflexivity.
  - intros row y I Iy. apply in_map_iff in I. destruct I as (n & <- & _). apply in_map_iff in Iy. destruct Iy as (m & <- & _). apply Rmult_le_pos; [apply W0 | left; apply Rinv_0_lt_compat; exact Pt].
  - rewrite map_map, rsum_map_seq. rewrite (sum_to_ext nx _ (fun n => / t * sum_to ny (w n))). { rewrite sum_to_scal. change (/ t * t = 1). field. lra. }
    intros n _. rewrite rsum_map_seq, <- sum_to_scal. apply sum_to_ext. intros m _. unfold Rdiv. ring.
Qed.
Lemma independent_nth p q i j : (i < length p)%nat -> (j < length q)%nat -> nth j (nth i (independent p q) []) 0 = nth i p 0 * nth j q 0.
Proof.
  intros Hi Hj. unfold independent. rewrite (nth_indep _ [] (map (Rmult 0) q)) by (rewrite map_length; exact Hi). rewrite (map_nth (fun x => map (Rmult x) q)).
  rewrite (nth_indep _ 0 (nth i p 0 * 0)) by (rewrite map_length; exact Hj). rewrite (map_nth (Rmult (nth i p 0))). reflexivity.
Qed.
Lemma independent_table p q : table (length p) (length q) (independent p q).
Proof. split; [apply map_length|]. intros row I. apply in_map_iff in I. destruct I as (x & <- & _). apply map_length. Qed.
Lemma some_map_inj {A} (p q : list A) : map Some p = map Some q -> p = q.
Proof. revert q. induction p as [|x p IH]; intros [|y q] H; try discriminate; [reflexivity|]. cbn in H. injection H as -> H. rewrite (IH q H). reflexivity. Qed.
(** Smoothing acts on independent variables separately. *)
Lemma independent_lemma : forall sx sy dx dy p q p' q',
  smooth_1D (length p) sx dx p = Ok (map Some p') -> smooth_1D (length q) sy dy q = Ok (map Some q') -> p <> [] -> q <> [] ->
  smooth_2D (length p) (length q) sx sy dx dy (independent p q) = Ok (map (map Some) (independent p' q')).
Proof.
  intros sx sy dx dy p q p' q' Ep Eq Np Nq. rewrite smooth2_eq by apply independent_table. rewrite smooth_eq in Ep by reflexivity. rewrite smooth_eq in Eq by reflexivity. cbv zeta in Ep, Eq. injection Ep as Ep. injection Eq as Eq.
  set (wp := weight (length p) (padding sx dx) (kernel (length p) sx dx) (fun j => nth j p 0)) in *. set (wq := weight (length q) (padding sy dy) (kernel (length q) sy dy) (fun j => nth j q 0)) in *.
  assert (0 < length p)%nat as Lp by (destruct p; [contradiction | cbn; lia]). assert (0 < length q)%nat as Lq by (destruct q; [contradiction | cbn; lia]).
  assert (sum_to (length p) wp <> 0) as Tp. { intro Z. destruct (Req_EM_T (sum_to (length p) wp) 0) as [_|D]; [|exact (D Z)]. destruct (length p); [lia|]. cbn in Ep. destruct p'; discriminate. }
  assert (sum_to (length q) wq <> 0) as Tq. { intro Z. destruct (Req_EM_T (sum_to (length q) wq) 0) as [_|D]; [|exact (D Z)]. destruct (length q); [lia|]. cbn in Eq. destruct q'; discriminate. }
  assert (forall n m, weight2 (length p) (length q) sx sy dx dy (independent p q) n m = wp n * wq m) as W.
  { intros n m. unfold weight2. rewrite (weight_ext _ _ _ _ (fun i => nth i p 0 * wq m)); [apply weight_scal|]. intros i Hi. unfold wq. rewrite (weight_ext _ _ _ _ (fun j => nth j q 0 * nth i p 0)); [rewrite weight_scal; ring|]. intros j Hj. rewrite independent_nth by assumption. ring. }
  assert (total2 (length p) (length q) sx sy dx dy (independent p q) = sum_to (length p) wp * sum_to (length q) wq) as T.
  { unfold total2. rewrite (sum_to_ext _ _ (fun n => sum_to (length q) wq * wp n)); [rewrite sum_to_scal; ring|]. intros n _. rewrite (sum_to_ext _ _ (fun m => wp n * wq m)) by (intros; apply W). rewrite sum_to_scal. ring. }
  assert (p' = map (fun n => wp n / sum_to (length p) wp) (seq 0 (length p))) as ->. { apply some_map_inj. rewrite <- Ep, map_map. apply map_ext. intro n. destruct (Req_EM_T (sum_to (length p) wp) 0); [contradiction | reflexivity]. }
  assert (q' = map (fun n => wq n / sum_to (length q) wq) (seq 0 (length q))) as ->. { apply some_map_inj. rewrite <- Eq, map_map. apply map_ext. intro n. destruct (Req_EM_T (sum_to (length q) wq) 0); [contradiction | reflexivity]. }
  f_equal. unfold independent in *. rewrite !map_map. apply map_ext. intro n. rewrite !map_map. apply map_ext. intro m. rewrite T, W. destruct (Req_EM_T (sum_to (length p) wp * sum_to (length q) wq) 0) as [Z|_]; [apply Rmult_integral in Z; tauto|]. f_equal. field. split; assumption.
Qed.
Lemma one_column_lemma : forall nx sx sy dx dy marg, 0 < sy -> 0 < dy -> table nx 1 marg -> smooth_2D nx 1 sx sy dx dy marg = Ok (repeat [None] nx).
Proof.
  intros nx sx sy dx dy marg Hs Hd T. rewrite smooth2_eq by exact T. pose proof (padding_pos sy dy Hs Hd) as Ha.
  assert (forall f, weight 1 (padding sy dy) (kernel 1 sy dy) f 0 = 0) as E.
  { intro f. unfold weight. cbn [sum_to]. set (a := padding sy dy) in *. replace ((a + 0 + (1 - 1 / 2) + (1 + 2 * a - 0)) mod (1 + 2 * a))%nat with (a + 1)%nat.
    - unfold padded. replace (Nat.ltb (a + 1) (a + 1)) with false by (symmetry; apply Nat.ltb_irrefl). destruct (Nat.leb a (a + 1)); ring.
    - change (1 / 2)%nat with 0%nat. replace (a + 0 + (1 - 0) + (1 + 2 * a - 0))%nat with (a + 1 + 1 * (1 + 2 * a))%nat by lia. rewrite Nat.mod_add by lia. rewrite Nat.mod_small by lia. reflexivity. }
  assert (total2 nx 1 sx sy dx dy marg = 0) as Z.
  { unfold total2. apply sum_to_zero. intros n _. apply sum_to_zero. intros m Hm. assert (m = 0)%nat as -> by lia. unfold weight2, weight at 1. apply sum_to_zero. intros k _. unfold padded. destruct (Nat.leb _ _); [|ring]. destruct (Nat.ltb _ _); [rewrite E; ring | ring]. }
  rewrite Z. f_equal. cbn [seq map]. destruct (Req_EM_T 0 0) as [_|D]; [|lra]. rewrite <- (seq_length nx 0) at 2. generalize (seq 0 nx). intro l. induction l as [|a l IH]; [reflexivity|]. cbn. rewrite IH. reflexivity.
Qed.
Lemma moved_lemma : forall q r m n sx sy dx dy, (1 <= q)%nat -> (1 <= r)%nat -> (1 <= m)%nat -> (1 <= n)%nat -> (m < 2 * q + 1)%nat -> (n < 2 * r + 1)%nat -> 0 < sx -> 0 < sy -> 0 < dx -> 0 < dy ->
  exists u v, smooth_2D (2 * q + 1) (2 * r + 1) sx sy dx dy (independent (unit_mass (2 * q + 1) m) (unit_mass (2 * r + 1) n)) = Ok (map (map Some) (independent u v)) /\
    peak_at u (m - 1) /\ peak_at v (n - 1).
Proof.
  intros q r m n sx sy dx dy Hq Hr Hm Hn Lm Ln Sx Sy Dx Dy. destruct (odd_lemma q m sx dx Hq Hm Lm Sx Dx) as (u & Eu & Pu). destruct (odd_lemma r n sy dy Hr Hn Ln Sy Dy) as (v & Ev & Pv).
  exists u, v. split; [|split; assumption]. destruct (unit_ok (2 * q + 1) m Lm) as (_ & L1). destruct (unit_ok (2 * r + 1) n Ln) as (_ & L2). rewrite <- L1 in Eu at 1. rewrite <- L2 in Ev at 1.
  pose proof (independent_lemma sx sy dx dy _ _ u v Eu Ev) as H. rewrite L1, L2 in H. apply H; intro Z; [rewrite Z in L1; cbn in L1; lia | rewrite Z in L2; cbn in L2; lia].
Qed.

(** Marginals of one row or one column are repeated, other shapes are refused. *)
Lemma smooth2_ext nx ny sx sy dx dy marg marg' :
  fits nx (length marg) && forallb (fun row => fits ny (length row)) marg = fits nx (length marg') && forallb (fun row => fits ny (length row)) marg' ->
  (forall i j, (i < nx)%nat -> (j < ny)%nat -> stored_at nx ny marg i j = stored_at nx ny marg' i j) ->
  smooth_2D nx ny sx sy dx dy marg = smooth_2D nx ny sx sy dx dy marg'.
Proof.
  intros F E. unfold smooth_2D. destruct (fits nx (length marg) && _), (fits nx (length marg') && _); try discriminate F; [|reflexivity]. cbv zeta.
  set (s := map _ (seq 0 nx)). set (s' := map _ (seq 0 nx)).
  assert (s = s') as ->; [|reflexivity]. subst s s'. apply map_ext. intro n. apply map_ext. intro m. unfold circular2. apply sum_to_ext. intros i _. apply sum_to_ext. intros j _. f_equal.
  unfold padded2. destruct (Nat.leb _ _ && Nat.ltb _ _ && Nat.leb _ _ && Nat.ltb _ _) eqn:B; [|reflexivity]. rewrite !andb_true_iff, !Nat.leb_le, !Nat.ltb_lt in B. apply E; lia.
Qed.
Lemma forallb_repeat {A} (f : A -> bool) x n : (0 < n)%nat -> forallb f (repeat x n) = f x.
Proof. destruct n as [|n]; [lia|]. intros _. cbn. destruct (f x) eqn:E; [|reflexivity]. cbn. induction n as [|n IH]; [reflexivity|]. cbn. rewrite E. exact IH. Qed.
Lemma nth_repeat' {A} (x d : A) n i : (i < n)%nat -> nth i (repeat x n) d = x.
Proof. revert i. induction n as [|n IH]; intros [|i] H; try lia; [reflexivity|]. cbn. apply IH. lia. Qed.
Lemma one_row_lemma : forall nx ny sx sy dx dy row, (0 < nx)%nat -> smooth_2D nx ny sx sy dx dy [row] = smooth_2D nx ny sx sy dx dy (repeat row nx).
Proof.
  intros nx ny sx sy dx dy row H. apply smooth2_ext.
  - rewrite forallb_repeat by exact H. rewrite repeat_length. assert (fits nx nx = true) as -> by (unfold fits; rewrite Nat.eqb_refl; reflexivity). assert (fits nx (length [row]) = true) as -> by (unfold fits; cbn [length]; rewrite Nat.eqb_refl; apply orb_true_r). cbn [forallb]. rewrite andb_true_r. reflexivity.
  - intros i j Hi Hj. unfold stored_at. rewrite repeat_length, Nat.eqb_refl. rewrite (nth_repeat' row) by exact Hi. cbn [length]. destruct (Nat.eqb_spec 1 nx) as [E|E]; [|reflexivity]. replace i with 0%nat by lia. reflexivity.
Qed.
Lemma one_col_lemma : forall nx ny sx sy dx dy col, (0 < ny)%nat -> smooth_2D nx ny sx sy dx dy (map (fun x => [x]) col) = smooth_2D nx ny sx sy dx dy (map (fun x => repeat x ny) col).
Proof.
  intros nx ny sx sy dx dy col H. apply smooth2_ext.
  - rewrite !map_length. f_equal. induction col as [|x col IH]; [reflexivity|]. cbn [map forallb]. rewrite repeat_length, IH. f_equal. unfold fits. cbn [length]. rewrite !Nat.eqb_refl, orb_true_r. reflexivity.
  - intros i j Hi Hj. unfold stored_at. rewrite !map_length. set (k := if Nat.eqb (length col) nx then i else 0%nat). clearbody k. revert k. induction col as [|x col IH]; intros [|k]; cbn [map nth]; try reflexivity; [|apply IH].
    rewrite repeat_length, Nat.eqb_refl, nth_repeat' by exact Hj. cbn [length]. destruct (Nat.eqb_spec 1 ny) as [E|E]; [|reflexivity]. replace j with 0%nat by lia. reflexivity.
Qed.
Lemma refused_lemma : forall nx ny sx sy dx dy marg, smooth_2D nx ny sx sy dx dy marg = Raise PyValueError <->
  ~ ((length marg = nx \/ length marg = 1%nat) /\ forall row, In row marg -> length row = ny \/ length row = 1%nat).
Proof.
  assert (forall n l, fits n l = true <-> l = n \/ l = 1%nat) as Fi. { intros n l. unfold fits. rewrite orb_true_iff, !Nat.eqb_eq. tauto. }
  intros nx ny sx sy dx dy marg. unfold smooth_2D. destruct (fits nx (length marg) && forallb (fun row => fits ny (length row)) marg) eqn:E.
  - split; [discriminate|]. intro N. exfalso. apply N. apply andb_true_iff in E. destruct E as [E1 E2]. split; [apply Fi, E1|]. rewrite forallb_forall in E2. intros row Hr. apply Fi, E2, Hr.
  - split; [|reflexivity]. intros _ [N1 N2]. apply Fi in N1. rewrite N1 in E. cbn in E. rewrite (proj2 (forallb_forall _ _)) in E; [discriminate E|]. intros row Hr. apply Fi, N2, Hr.
Qed.
