From Coq Require Import ZArith List Arith Bool Reals Lra Lia Psatz.
From Verif Require Import Err CompareR_Model MarginalDist_Model MarginalDist_Proofs Smooth_Model Smooth_Spec.
Import ListNotations.
Local Open Scope R_scope.

Lemma sum_to_ext n f g : (forall k, (k < n)%nat -> f k = g k) -> sum_to n f = sum_to n g.
Proof. induction n as [|n IH]; intro H; [reflexivity|]. cbn. rewrite IH by (intros; apply H; lia). rewrite H by lia. reflexivity. Qed.
Lemma sum_to_add n m f : sum_to (n + m) f = sum_to n f + sum_to m (fun k => f (n + k)%nat).
Proof. induction m as [|m IH]; [rewrite Nat.add_0_r; cbn; ring|]. rewrite Nat.add_succ_r. cbn. rewrite IH. ring. Qed.
Lemma sum_to_zero n f : (forall k, (k < n)%nat -> f k = 0) -> sum_to n f = 0.
Proof. induction n as [|n IH]; intro H; [reflexivity|]. cbn. rewrite IH by (intros; apply H; lia). rewrite H by lia. ring. Qed.
Lemma sum_to_ge0 n f : (forall k, (k < n)%nat -> 0 <= f k) -> 0 <= sum_to n f.
Proof. induction n as [|n IH]; intro H; [cbn; lra|]. cbn. assert (0 <= sum_to n f) by (apply IH; intros; apply H; lia). assert (0 <= f n) by (apply H; lia). lra. Qed.
Lemma sum_to_pos n f k : (forall k, (k < n)%nat -> 0 <= f k) -> (k < n)%nat -> 0 < f k -> 0 < sum_to n f.
Proof.
  induction n as [|n IH]; intros H Hk P; [lia|]. cbn. assert (0 <= f n) by (apply H; lia). destruct (Nat.eq_dec k n) as [->|D].
  - assert (0 <= sum_to n f) by (apply sum_to_ge0; intros; apply H; lia). lra.
  - assert (0 < sum_to n f) by (apply IH; [intros; apply H; lia | lia | exact P]). lra.
Qed.
Lemma sum_to_single n f k : (k < n)%nat -> (forall j, (j < n)%nat -> j <> k -> f j = 0) -> sum_to n f = f k.
Proof.
  induction n as [|n IH]; intros Hk H; [lia|]. cbn. destruct (Nat.eq_dec k n) as [->|D].
  - rewrite sum_to_zero; [ring|]. intros j Hj. apply H; lia.
  - rewrite IH; [rewrite (H n) by lia; ring | lia | intros; apply H; lia].
Qed.
Lemma rotate N s G : (s <= N)%nat -> (0 < N)%nat -> sum_to N G = sum_to N (fun i => G ((i + s) mod N)%nat).
Proof.
  intros Hs HN. assert (N = s + (N - s))%nat as E by lia. rewrite E at 1. rewrite sum_to_add. assert (N = (N - s) + s)%nat as E2 by lia. rewrite E2 at 2. rewrite sum_to_add.
  rewrite Rplus_comm. f_equal; apply sum_to_ext; intros k Hk; f_equal.
  - rewrite Nat.mod_small by lia. lia.
  - replace (N - s + k + s)%nat with (k + 1 * N)%nat by lia. rewrite Nat.mod_add by lia. rewrite Nat.mod_small by lia. reflexivity.
Qed.
Lemma padded_sum a nx K H : sum_to (nx + 2 * a) (fun i => padded a nx K i * H i) = sum_to nx (fun k => K k * H (a + k)%nat).
Proof.
  replace (nx + 2 * a)%nat with (a + (nx + a))%nat by lia. rewrite sum_to_add, sum_to_zero, Rplus_0_l.
  - rewrite sum_to_add. rewrite (sum_to_zero a), Rplus_0_r.
    + apply sum_to_ext. intros k Hk. unfold padded. replace (Nat.leb a (a + k)) with true by (symmetry; apply Nat.leb_le; lia). replace (Nat.ltb (a + k) (a + nx)) with true by (symmetry; apply Nat.ltb_lt; lia). do 2 f_equal. lia.
    + intros k Hk. unfold padded. replace (Nat.ltb (a + (nx + k)) (a + nx)) with false by (symmetry; apply Nat.ltb_ge; lia). destruct (Nat.leb a (a + (nx + k))); ring.
  - intros k Hk. unfold padded. replace (Nat.leb a k) with false by (symmetry; apply Nat.leb_gt; lia). ring.
Qed.
(** The sum that is normalized, as a sum over the entries of the kernel. *)
Definition weight (nx a : nat) (K m : nat -> R) (n : nat) : R :=
  sum_to nx (fun k => K k * padded a nx m ((a + n + (nx - nx / 2) + (nx + 2 * a - k)) mod (nx + 2 * a))%nat).
Lemma circular_weight nx a K m n : (n < nx)%nat -> circular (nx + 2 * a) (fftshift (nx + 2 * a) (padded a nx K)) (padded a nx m) (a + n) = weight nx a K m n.
Proof.
  intro Hn. set (N := (nx + 2 * a)%nat). assert (0 < N)%nat as HN by (unfold N; lia). unfold circular. assert (N / 2 = a + nx / 2)%nat as EN. { unfold N. replace (nx + 2 * a)%nat with (nx + a * 2)%nat by lia. rewrite Nat.div_add by lia. lia. }
  assert (nx / 2 <= nx)%nat as H2 by (apply Nat.div_le_upper_bound; lia).
  rewrite (rotate N (N / 2)) by (rewrite ?EN; unfold N; lia).
  rewrite (sum_to_ext N _ (fun i => padded a nx K i * padded a nx m ((a + n + N - (i + N / 2) mod N) mod N)%nat)).
  2:{ intros i Hi. f_equal. unfold fftshift. f_equal. rewrite Nat.add_mod_idemp_l by lia. replace (i + N / 2 + (N - N / 2))%nat with (i + 1 * N)%nat by (rewrite EN; unfold N; lia). rewrite Nat.mod_add by lia. apply Nat.mod_small. exact Hi. }
  unfold N at 1. rewrite (padded_sum a nx K (fun i => padded a nx m ((a + n + N - (i + N / 2) mod N) mod N)%nat)). unfold weight. fold N. apply sum_to_ext. intros k Hk. do 2 f_equal. rewrite EN.
  destruct (lt_dec (a + k + (a + nx / 2)) N) as [C|C].
  - rewrite (Nat.mod_small (a + k + (a + nx / 2))) by exact C. replace (a + n + (nx - nx / 2) + (N - k))%nat with (a + n + N - (a + k + (a + nx / 2)) + 1 * N)%nat by (unfold N in *; lia). rewrite Nat.mod_add by lia. reflexivity.
  - replace (a + k + (a + nx / 2))%nat with (a + k + (a + nx / 2) - N + 1 * N)%nat by lia. rewrite Nat.mod_add by lia. rewrite (Nat.mod_small (a + k + (a + nx / 2) - N)) by (unfold N in *; lia). f_equal. unfold N in *; lia.
Qed.
Lemma padded_ge0 a nx m j : (forall i, (i < nx)%nat -> 0 <= m i) -> 0 <= padded a nx m j.
Proof. intro H. unfold padded. destruct (Nat.leb_spec a j); [|lra]. destruct (Nat.ltb_spec j (a + nx)); [apply H; lia | lra]. Qed.
Lemma padded_at a nx m i : (i < nx)%nat -> padded a nx m (a + i) = m i.
Proof. intro H. unfold padded. replace (Nat.leb a (a + i)) with true by (symmetry; apply Nat.leb_le; lia). replace (Nat.ltb (a + i) (a + nx)) with true by (symmetry; apply Nat.ltb_lt; lia). f_equal. lia. Qed.
Lemma weight_ge0 nx a K m n : (forall k, 0 < K k) -> (forall i, (i < nx)%nat -> 0 <= m i) -> 0 <= weight nx a K m n.
Proof. intros HK Hm. apply sum_to_ge0. intros k _. apply Rmult_le_pos; [left; apply HK | apply padded_ge0; exact Hm]. Qed.
Lemma weight_pos nx a K m j : (2 <= nx)%nat -> (forall k, 0 < K k) -> (forall i, (i < nx)%nat -> 0 <= m i) -> (j < nx)%nat -> 0 < m j -> exists n, (n < nx)%nat /\ 0 < weight nx a K m n.
Proof.
  intros H2 HK Hm Hj Pj. set (h := (nx - nx / 2)%nat). assert (1 <= nx / 2)%nat as A1 by (apply Nat.div_le_lower_bound; lia). assert (nx / 2 <= nx)%nat as A2 by (apply Nat.div_le_upper_bound; lia).
  assert (exists n k, n < nx /\ k < nx /\ n + h = j + k)%nat as (n & k & Hn & Hk & E). { destruct (le_dec h j); [exists (j - h)%nat, 0%nat | exists 0%nat, (h - j)%nat]; unfold h in *; lia. }
  exists n. split; [exact Hn|]. unfold weight. apply (sum_to_pos nx _ k); [|exact Hk|].
  - intros i _. apply Rmult_le_pos; [left; apply HK | apply padded_ge0; exact Hm].
  - apply Rmult_lt_0_compat; [apply HK|]. fold h. replace (a + n + h + (nx + 2 * a - k))%nat with (a + j + 1 * (nx + 2 * a))%nat by lia. rewrite Nat.mod_add by lia. rewrite Nat.mod_small by lia. rewrite padded_at by exact Hj. exact Pj.
Qed.
Lemma padding_pos sigma dx : 0 < sigma -> 0 < dx -> (1 <= padding sigma dx)%nat.
Proof.
  intros Hs Hd. unfold padding, ceil_nat. assert (0 < 3 * sigma / dx) as P by (apply Rdiv_lt_0_compat; lra). destruct (archimed (- (3 * sigma / dx))) as (_ & U). assert (IZR (up (- (3 * sigma / dx))) < 1) as V by lra. apply lt_IZR in V. lia.
Qed.
Lemma rsum_map_seq n f : rsum (map f (seq 0 n)) = sum_to n f.
Proof. induction n as [|n IH]; [reflexivity|]. rewrite seq_S, map_app, rsum_app, IH. cbn. ring. Qed.
Lemma kernel_pos nx sigma dx k : 0 < kernel nx sigma dx k.
Proof. apply exp_pos. Qed.
(** The result in terms of the weights. *)
Lemma smooth_eq nx sigma dx marg : length marg = nx ->
  smooth_1D nx sigma dx marg = Ok (map (fun n => let t := sum_to nx (weight nx (padding sigma dx) (kernel nx sigma dx) (fun j => nth j marg 0)) in
     if Req_EM_T t 0 then None else Some (weight nx (padding sigma dx) (kernel nx sigma dx) (fun j => nth j marg 0) n / t)) (seq 0 nx)).
Proof.
  intro L. unfold smooth_1D. rewrite L, Nat.eqb_refl. cbn [orb]. f_equal. rewrite map_map.
  set (s := map (fun n => circular (nx + 2 * padding sigma dx) _ _ (padding sigma dx + n)) (seq 0 nx)).
  assert (rsum s = sum_to nx (weight nx (padding sigma dx) (kernel nx sigma dx) (fun j => nth j marg 0))) as E. { unfold s. rewrite rsum_map_seq. apply sum_to_ext. intros k Hk. apply circular_weight. exact Hk. }
  apply map_ext_in. intros n Hn. apply in_seq in Hn. rewrite E. rewrite circular_weight by lia. reflexivity.
Qed.
Lemma rsum_div t l : rsum (map (fun x => x / t) l) = rsum l / t.
Proof. unfold rsum. induction l as [|x l IH]; cbn [map fold_right]; [unfold Rdiv; ring|]. rewrite IH. unfold Rdiv. ring. Qed.
Lemma smooth_lemma : forall nx sigma dx marg, (2 <= nx)%nat -> 0 < sigma -> 0 < dx -> length marg = nx -> marginal_ok marg ->
  exists l, smooth_1D nx sigma dx marg = Ok l /\ probability_vector nx l.
Proof.
  intros nx sigma dx marg H2 Hs Hd L (P & x & Ix & Px). set (m := fun j => nth j marg 0). set (a := padding sigma dx). set (w := weight nx a (kernel nx sigma dx) m).
  assert (forall i, (i < nx)%nat -> 0 <= m i) as Hm by (intros i Hi; apply P, nth_In; lia).
  apply (In_nth _ _ 0) in Ix. destruct Ix as (j & Hj & Ej). rewrite L in Hj.
  assert (forall n, 0 <= w n) as W0 by (intro n; apply weight_ge0; [apply kernel_pos | exact Hm]).
  destruct (weight_pos nx a (kernel nx sigma dx) m j H2 (kernel_pos nx sigma dx) Hm Hj) as (n0 & Hn0 & Wp). { unfold m. rewrite Ej. exact Px. }
  assert (0 < sum_to nx w) as T by (apply (sum_to_pos nx w n0); [intros; apply W0 | exact Hn0 | exact Wp]).
  eexists. split; [apply smooth_eq; exact L|]. exists (map (fun n => w n / sum_to nx w) (seq 0 nx)). split; [|split; [|split]].
  - rewrite map_map. apply map_ext. intro n. fold m a w. cbv zeta. destruct (Req_EM_T (sum_to nx w) 0) as [E|_]; [lra | reflexivity].
  - rewrite map_length, seq_length. reflexivity.
  - intros y I. apply in_map_iff in I. destruct I as (n & <- & _). apply Rmult_le_pos; [apply W0 | left; apply Rinv_0_lt_compat; exact T].
  - rewrite <- (map_map w (fun x => x / sum_to nx w)). rewrite rsum_div, rsum_map_seq. field. lra.
Qed.
Lemma one_bin_lemma : forall sigma dx x, 0 < sigma -> 0 < dx -> smooth_1D 1 sigma dx [x] = Ok [None].
Proof.
  intros sigma dx x Hs Hd. rewrite smooth_eq by reflexivity. cbn [seq map]. cbv zeta. pose proof (padding_pos sigma dx Hs Hd) as Ha.
  assert (sum_to 1 (weight 1 (padding sigma dx) (kernel 1 sigma dx) (fun j => nth j [x] 0)) = 0) as E.
  { cbn [sum_to]. unfold weight. cbn [sum_to]. set (a := padding sigma dx) in *. replace ((a + 0 + (1 - 1 / 2) + (1 + 2 * a - 0)) mod (1 + 2 * a))%nat with (a + 1)%nat.
    - unfold padded. replace (Nat.ltb (a + 1) (a + 1)) with false by (symmetry; apply Nat.ltb_irrefl). destruct (Nat.leb a (a + 1)); ring.
    - change (1 / 2)%nat with 0%nat. replace (a + 0 + (1 - 0) + (1 + 2 * a - 0))%nat with (a + 1 + 1 * (1 + 2 * a))%nat by lia. rewrite Nat.mod_add by lia. rewrite Nat.mod_small by lia. reflexivity. }
  destruct (Req_EM_T (sum_to 1 (weight 1 (padding sigma dx) (kernel 1 sigma dx) (fun j => nth j [x] 0))) 0) as [_|D]; [reflexivity | contradiction].
Qed.
Lemma length_lemma : forall nx sigma dx marg, length marg <> nx -> length marg <> 1%nat -> smooth_1D nx sigma dx marg = Raise PyValueError.
Proof. intros nx sigma dx marg H1 H2. unfold smooth_1D. apply Nat.eqb_neq in H1, H2. rewrite H1, H2. reflexivity. Qed.
(** ** A unit mass *)
Lemma unit_nth nx m j : (j < nx)%nat -> nth j (unit_mass nx m) 0 = if Nat.eqb j m then 1 else 0.
Proof.
  intro H. unfold unit_mass. rewrite (nth_indep _ 0 (if Nat.eqb 0 m then 1 else 0)) by (rewrite map_length, seq_length; exact H). rewrite (map_nth (fun j => if Nat.eqb j m then 1 else 0) (seq 0 nx) 0%nat). rewrite seq_nth by exact H. reflexivity.
Qed.
Section Unit.
Context (nx a m : nat) (K : nat -> R) (Hm : (m < nx)%nat) (Ha : (1 <= a)%nat).
Let u := fun j => nth j (unit_mass nx m) 0.
Lemma padded_unit j : padded a nx u j = if Nat.eqb j (a + m) then 1 else 0.
Proof.
  unfold padded. destruct (Nat.leb_spec a j) as [A|A].
  - destruct (Nat.ltb_spec j (a + nx)) as [B|B].
    + unfold u. rewrite unit_nth by lia. destruct (Nat.eqb_spec (j - a) m), (Nat.eqb_spec j (a + m)); try reflexivity; lia.
    + destruct (Nat.eqb_spec j (a + m)); [lia | reflexivity].
  - destruct (Nat.eqb_spec j (a + m)); [lia | reflexivity].
Qed.
Lemma weight_unit n : (n < nx)%nat ->
  (forall k, (k < nx)%nat -> (n + (nx - nx / 2) = m + k)%nat -> weight nx a K u n = K k) /\
  (weight nx a K u n = 0 \/ exists k, (k < nx)%nat /\ weight nx a K u n = K k /\
     ((n + (nx - nx / 2) = m + k)%nat \/ (n + (nx - nx / 2) = m + k + (nx + 2 * a))%nat \/ (n + (nx - nx / 2) + (nx + 2 * a) = m + k)%nat)).
Proof.
  intro Hn. set (N := (nx + 2 * a)%nat). set (h := (nx - nx / 2)%nat). assert (h <= nx)%nat as Hh by (unfold h; lia). assert (nx + 2 * a = N)%nat as EN by reflexivity. assert (nx - nx / 2 = h)%nat as Eh by reflexivity. clearbody h N.
  assert (forall k, (k < nx)%nat -> (a + n + h + (N - k)) mod N = a + m <-> n + h = m + k \/ n + h = m + k + N \/ n + h + N = m + k)%nat as IDX.
  { intros k Hk. split.
    - intro E. pose proof (Nat.div_mod (a + n + h + (N - k)) N ltac:(lia)) as D. rewrite E in D. generalize dependent ((a + n + h + (N - k)) / N)%nat. intros t D. assert (t = 0 \/ t = 1 \/ t = 2 \/ 3 <= t)%nat as [->|[->|[->|T]]] by lia; [lia | lia | lia|]. assert (N * 3 <= N * t)%nat by (apply Nat.mul_le_mono_l; exact T). lia.
    - intros [E|[E|E]].
      + replace (a + n + h + (N - k))%nat with (a + m + 1 * N)%nat by lia. rewrite Nat.mod_add by lia. apply Nat.mod_small. lia.
      + replace (a + n + h + (N - k))%nat with (a + m + 2 * N)%nat by lia. rewrite Nat.mod_add by lia. apply Nat.mod_small. lia.
      + replace (a + n + h + (N - k))%nat with (a + m)%nat by lia. apply Nat.mod_small. lia. }
  assert (weight nx a K u n = sum_to nx (fun k => if Nat.eqb ((a + n + h + (N - k)) mod N) (a + m) then K k else 0)) as W.
  { unfold weight. rewrite EN, Eh. apply sum_to_ext. intros k _. rewrite padded_unit. destruct (Nat.eqb _ _); ring. }
  assert (forall k, (k < nx)%nat -> (n + h = m + k \/ n + h = m + k + N \/ n + h + N = m + k)%nat -> weight nx a K u n = K k) as ONE.
  { intros k Hk E. rewrite W, (sum_to_single nx _ k); [|exact Hk|].
    - apply IDX in E; [|exact Hk]. rewrite E, Nat.eqb_refl. reflexivity.
    - intros j Hj D. destruct (Nat.eqb_spec ((a + n + h + (N - j)) mod N) (a + m)) as [F|F]; [|reflexivity]. exfalso. apply IDX in F; [|exact Hj]. lia. }
  split; [intros k Hk E; apply ONE; [exact Hk | left; exact E]|].
  assert ((exists k, k < nx /\ (n + h = m + k \/ n + h = m + k + N \/ n + h + N = m + k)) \/ forall k, k < nx -> ~ (n + h = m + k \/ n + h = m + k + N \/ n + h + N = m + k))%nat as [(k & Hk & E)|NO].
  { destruct (le_dec m (n + h)) as [A|A].
    - destruct (lt_dec (n + h - m) nx) as [B|B]; [left; exists (n + h - m)%nat; lia|]. destruct (le_dec N (n + h - m)) as [C|C]; [left; exists (n + h - m - N)%nat; lia | right; intros k Hk; lia].
    - destruct (lt_dec (n + h + N - m) nx) as [B|B]; [left; exists (n + h + N - m)%nat; lia | right; intros k Hk; lia]. }
  - right. exists k. split; [exact Hk|]. split; [apply ONE; assumption | exact E].
  - left. rewrite W. apply sum_to_zero. intros k Hk. destruct (Nat.eqb_spec ((a + n + h + (N - k)) mod N) (a + m)) as [F|F]; [|reflexivity]. exfalso. apply IDX in F; [|exact Hk]. exact (NO k Hk F).
Qed.
End Unit.
Lemma x_kernel_eq nx dx k : (2 <= nx)%nat -> (k < nx)%nat -> x_kernel nx dx k = INR nx * dx / 2 * ((2 * INR k - INR (nx - 1)) / INR (nx - 1)).
Proof.
  intros H2 Hk. unfold x_kernel. rewrite linspace_eq by exact H2. set (F := fun k => - (INR nx * dx / 2) + INR k * ((INR nx * dx / 2 - - (INR nx * dx / 2)) / INR (nx - 1))).
  rewrite (nth_indep _ 0 (F 0%nat)) by (rewrite map_length, seq_length; exact Hk). rewrite map_nth, seq_nth by exact Hk. unfold F. cbn [Nat.add]. field. apply not_0_INR. lia.
Qed.
Lemma kernel_lt nx sigma dx k l : (2 <= nx)%nat -> (k < nx)%nat -> (l < nx)%nat -> 0 < sigma -> 0 < dx -> Rsqr (2 * INR l - INR (nx - 1)) < Rsqr (2 * INR k - INR (nx - 1)) -> kernel nx sigma dx k < kernel nx sigma dx l.
Proof.
  intros H2 Hk Hl Hs Hd H. unfold kernel. apply exp_increasing. apply Ropp_lt_contravar. rewrite !x_kernel_eq by assumption. assert (0 < INR (nx - 1)) as P by (apply lt_0_INR; lia). assert (0 < INR nx) as Q by (apply lt_0_INR; lia).
  set (c := INR nx * dx / 2 / INR (nx - 1) / sigma). assert (0 < c) as C. { unfold c. repeat apply Rdiv_lt_0_compat; try lra. apply Rmult_lt_0_compat; lra. }
  replace (INR nx * dx / 2 * ((2 * INR l - INR (nx - 1)) / INR (nx - 1)) / sigma) with (c * (2 * INR l - INR (nx - 1))) by (unfold c; field; lra).
  replace (INR nx * dx / 2 * ((2 * INR k - INR (nx - 1)) / INR (nx - 1)) / sigma) with (c * (2 * INR k - INR (nx - 1))) by (unfold c; field; lra).
  rewrite !Rsqr_mult. apply Rmult_lt_compat_l; [|exact H]. apply Rlt_0_sqr. lra.
Qed.
Lemma kernel_eq nx sigma dx k l : (2 <= nx)%nat -> (k < nx)%nat -> (l < nx)%nat -> (k + l = nx - 1)%nat -> kernel nx sigma dx k = kernel nx sigma dx l.
Proof.
  intros H2 Hk Hl E. unfold kernel. f_equal. f_equal. rewrite !x_kernel_eq by assumption. assert (INR (nx - 1) = INR k + INR l) as F by (rewrite <- plus_INR; f_equal; lia). rewrite F.
  rewrite <- (Rsqr_neg (INR nx * dx / 2 * ((2 * INR k - (INR k + INR l)) / (INR k + INR l)) / sigma)) || idtac.
  replace (INR nx * dx / 2 * ((2 * INR k - (INR k + INR l)) / (INR k + INR l)) / sigma) with (- (INR nx * dx / 2 * ((2 * INR l - (INR k + INR l)) / (INR k + INR l)) / sigma)) by (unfold Rdiv; ring).
  symmetry. apply Rsqr_neg.
Qed.
Lemma unit_ok nx m : (m < nx)%nat -> marginal_ok (unit_mass nx m) /\ length (unit_mass nx m) = nx.
Proof.
  intro H. split; [|unfold unit_mass; rewrite map_length, seq_length; reflexivity]. split.
  - intros x I. apply in_map_iff in I. destruct I as (j & <- & _). destruct (Nat.eqb j m); lra.
  - exists 1. split; [|lra]. apply in_map_iff. exists m. rewrite Nat.eqb_refl. split; [reflexivity | apply in_seq; lia].
Qed.
(** The result for a unit mass is proportional to the weights. *)
Lemma unit_result nx sigma dx m : (2 <= nx)%nat -> (m < nx)%nat -> 0 < sigma -> 0 < dx ->
  exists t p, 0 < t /\ smooth_1D nx sigma dx (unit_mass nx m) = Ok (map Some p) /\ length p = nx /\
    forall n, (n < nx)%nat -> nth_error p n = Some (weight nx (padding sigma dx) (kernel nx sigma dx) (fun j => nth j (unit_mass nx m) 0) n / t).
Proof.
  intros H2 Hm Hs Hd. destruct (unit_ok nx m Hm) as (U & L). set (w := weight nx (padding sigma dx) (kernel nx sigma dx) (fun j => nth j (unit_mass nx m) 0)).
  assert (0 < sum_to nx w) as T.
  { assert (forall i, (i < nx)%nat -> 0 <= nth i (unit_mass nx m) 0) as P by (intros i Hi; apply (proj1 U), nth_In; lia).
    destruct (weight_pos nx (padding sigma dx) (kernel nx sigma dx) (fun j => nth j (unit_mass nx m) 0) m H2 (kernel_pos nx sigma dx) P Hm) as (n0 & Hn0 & Wp). { rewrite unit_nth, Nat.eqb_refl by exact Hm. lra. }
    apply (sum_to_pos nx w n0); [intros; apply weight_ge0; [apply kernel_pos | exact P] | exact Hn0 | exact Wp]. }
  exists (sum_to nx w), (map (fun n => w n / sum_to nx w) (seq 0 nx)). split; [exact T|]. split; [|split].
  - rewrite smooth_eq by exact L. f_equal. rewrite map_map. apply map_ext. intro n. cbv zeta. fold w. destruct (Req_EM_T (sum_to nx w) 0) as [E|_]; [lra | reflexivity].
  - rewrite map_length, seq_length. reflexivity.
  - intros n Hn. apply (map_nth_error (fun n => w n / sum_to nx w)). rewrite (nth_error_nth' _ 0%nat) by (rewrite seq_length; exact Hn). rewrite seq_nth by exact Hn. reflexivity.
Qed.
Lemma nth_error_lt {A} (l : list A) i x : nth_error l i = Some x -> (i < length l)%nat.
Proof. intro H. apply nth_error_Some. congruence. Qed.
Lemma odd_lemma : forall q m sigma dx, (1 <= q)%nat -> (1 <= m)%nat -> (m < 2 * q + 1)%nat -> 0 < sigma -> 0 < dx ->
  exists p, smooth_1D (2 * q + 1) sigma dx (unit_mass (2 * q + 1) m) = Ok (map Some p) /\ peak_at p (m - 1).
Proof.
  intros q m sigma dx Hq Hm1 Hm Hs Hd. set (nx := (2 * q + 1)%nat) in *. destruct (unit_result nx sigma dx m) as (t & p & T & E & L & H); [unfold nx; lia | exact Hm | exact Hs | exact Hd|]. exists p. split; [exact E|].
  pose proof (padding_pos sigma dx Hs Hd) as Ha. assert (nx - nx / 2 = q + 1)%nat as Eh. { unfold nx. replace (2 * q + 1)%nat with (1 + q * 2)%nat at 2 by lia. rewrite Nat.div_add by lia. cbn. lia. }
  set (w := weight nx (padding sigma dx) (kernel nx sigma dx) (fun j => nth j (unit_mass nx m) 0)) in *.
  assert (w (m - 1)%nat = kernel nx sigma dx q) as W. { apply (weight_unit nx (padding sigma dx) m (kernel nx sigma dx) Hm Ha (m - 1)); rewrite ?Eh; unfold nx in *; lia. }
  exists (kernel nx sigma dx q / t). split; [rewrite H by lia; rewrite W; reflexivity|]. intros i y Hi Di. assert (i < nx)%nat as Li by (rewrite <- L; exact (nth_error_lt _ _ _ Hi)). rewrite H in Hi by exact Li. injection Hi as <-.
  apply Rmult_lt_compat_r; [apply Rinv_0_lt_compat; exact T|]. destruct (weight_unit nx (padding sigma dx) m (kernel nx sigma dx) Hm Ha i Li) as (_ & [Z|(k & Hk & Wk & F)]).
  - fold w in Z. rewrite Z. apply kernel_pos.
  - fold w in Wk. rewrite Wk. apply kernel_lt; [unfold nx; lia | exact Hk | unfold nx; lia | exact Hs | exact Hd|]. rewrite Eh in F. assert (k <> q) as Dk by (unfold nx in *; lia).
    replace (2 * INR q - INR (nx - 1)) with 0. 2:{ unfold nx. replace (2 * q + 1 - 1)%nat with (2 * q)%nat by lia. rewrite mult_INR. cbn. ring. }
    rewrite Rsqr_0. apply Rlt_0_sqr. unfold nx. replace (2 * q + 1 - 1)%nat with (2 * q)%nat by lia. rewrite mult_INR. cbn [INR]. intro Z. assert (INR k = INR q) as Y by lra. apply INR_eq in Y. contradiction.
Qed.
Lemma even_lemma : forall q m sigma dx, (1 <= q)%nat -> (1 <= m)%nat -> (m < 2 * q)%nat -> 0 < sigma -> 0 < dx ->
  exists p, smooth_1D (2 * q) sigma dx (unit_mass (2 * q) m) = Ok (map Some p) /\ double_peak_at p (m - 1).
Proof.
  intros q m sigma dx Hq Hm1 Hm Hs Hd. set (nx := (2 * q)%nat) in *. destruct (unit_result nx sigma dx m) as (t & p & T & E & L & H); [unfold nx; lia | exact Hm | exact Hs | exact Hd|]. exists p. split; [exact E|].
  pose proof (padding_pos sigma dx Hs Hd) as Ha. assert (nx - nx / 2 = q)%nat as Eh. { unfold nx. replace (2 * q)%nat with (q * 2)%nat by lia. rewrite Nat.div_mul by lia. lia. }
  set (w := weight nx (padding sigma dx) (kernel nx sigma dx) (fun j => nth j (unit_mass nx m) 0)) in *.
  assert (w (m - 1)%nat = kernel nx sigma dx (q - 1)) as W1. { apply (weight_unit nx (padding sigma dx) m (kernel nx sigma dx) Hm Ha (m - 1)); rewrite ?Eh; unfold nx in *; lia. }
  assert (w m = kernel nx sigma dx q) as W2. { apply (weight_unit nx (padding sigma dx) m (kernel nx sigma dx) Hm Ha m); rewrite ?Eh; unfold nx in *; lia. }
  assert (kernel nx sigma dx (q - 1) = kernel nx sigma dx q) as KE by (apply kernel_eq; unfold nx; lia).
  exists (kernel nx sigma dx q / t). split; [rewrite H by lia; rewrite W1, KE; reflexivity|]. replace (S (m - 1)) with m by lia. split; [rewrite H by lia; rewrite W2; reflexivity|].
  intros i y Hi Di Di2. assert (i < nx)%nat as Li by (rewrite <- L; exact (nth_error_lt _ _ _ Hi)). rewrite H in Hi by exact Li. injection Hi as <-.
  apply Rmult_lt_compat_r; [apply Rinv_0_lt_compat; exact T|]. destruct (weight_unit nx (padding sigma dx) m (kernel nx sigma dx) Hm Ha i Li) as (_ & [Z|(k & Hk & Wk & F)]).
  - fold w in Z. rewrite Z. apply kernel_pos.
  - fold w in Wk. rewrite Wk. apply kernel_lt; [unfold nx; lia | exact Hk | unfold nx; lia | exact Hs | exact Hd|]. rewrite Eh in F. assert (k <> q /\ k <> q - 1)%nat as (Dk & Dk2) by (unfold nx in *; lia).
    assert (INR (nx - 1) = 2 * INR q - 1) as EN. { unfold nx. rewrite minus_INR by lia. rewrite mult_INR. cbn. ring. } rewrite EN. replace (2 * INR q - (2 * INR q - 1)) with 1 by ring. rewrite Rsqr_1.
    destruct (lt_dec k q) as [C|C].
    + assert (INR k + 2 <= INR q) as B. { replace 2 with (INR 2) by reflexivity. rewrite <- plus_INR. apply le_INR. lia. } unfold Rsqr. nra.
    + assert (INR q + 1 <= INR k) as B. { replace 1 with (INR 1) by reflexivity. rewrite <- plus_INR. apply le_INR. lia. } unfold Rsqr. nra.
Qed.
