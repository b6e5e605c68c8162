From Coq Require Import List Arith Lia QArith Qcanon Lqa Bool.
From Verif Require Import Num NumPy Lists Layout_Model Layout_Proofs Voronoi2_Model Voronoi2_Spec.
Import ListNotations.
Local Open Scope Qc_scope.

(** ** arithmetic *)
Lemma mul_nonneg (a b : Qc) : 0 <= a -> 0 <= b -> 0 <= a * b.
Proof. intros. qc_nra. Qed.
Lemma sq_nonneg (a : Qc) : 0 <= a * a.
Proof. qc_nra. Qed.
Lemma double_nonneg (a : Qc) : 0 <= (1 + 1) * ((1 + 1) * a) -> 0 <= a.
Proof. intro H. qc_lra. Qed.
Lemma le_of_diff (a b c : Qc) : b - a = c -> 0 <= c -> a <= b.
Proof. intros E H. qc_lra. Qed.
Lemma sub_nonneg (a b : Qc) : a <= b -> 0 <= b - a.
Proof. intro H. qc_lra. Qed.
Lemma add_nonneg (a b : Qc) : 0 <= a -> 0 <= b -> 0 <= a + b.
Proof. intros. qc_lra. Qed.
Lemma div_mul (a b : Qc) : b <> 0 -> a / b * b = a.
Proof. intro. field. assumption. Qed.

(** Where the segment from s to p leaves an interval *)
Lemma exit_time l r s p : l < s -> s < r -> exists t, 0 <= t /\ t <= 1 /\
  (forall u, 0 <= u -> u <= t -> l <= s + u * (p - s) /\ s + u * (p - s) <= r) /\
  ((l <= p /\ p <= r /\ t = 1) \/ (p < l /\ s + t * (p - s) = l /\ t < 1) \/ (r < p /\ s + t * (p - s) = r /\ t < 1)).
Proof.
  intros Hl Hr. destruct (qltb_spec p l) as [A|A]; [|destruct (qltb_spec r p) as [B|B]].
  - assert (s - p <> 0) as N by (intro; qc_lra).
    pose proof (div_mul (s - l) (s - p) N) as E. remember ((s - l) / (s - p)) as t eqn:Et. clear Et.
    assert (0 <= t) by (qc_nra). assert (t < 1) by (qc_nra).
    exists t. split; [assumption|]. split; [qc_lra|]. split.
    + intros u U0 U1. split; [|qc_nra]. assert (0 <= (t - u) * (s - p)) by (apply mul_nonneg; qc_lra). qc_nra.
    + right. left. split; [assumption|]. split; [|assumption]. qc_nra.
  - assert (p - s <> 0) as N by (intro; qc_lra).
    pose proof (div_mul (r - s) (p - s) N) as E. remember ((r - s) / (p - s)) as t eqn:Et. clear Et.
    assert (0 <= t) by (qc_nra). assert (t < 1) by (qc_nra).
    exists t. split; [assumption|]. split; [qc_lra|]. split.
    + intros u U0 U1. split; [qc_nra|]. assert (0 <= (t - u) * (p - s)) by (apply mul_nonneg; qc_lra). qc_nra.
    + right. right. split; [assumption|]. split; [|assumption]. qc_nra.
  - apply Qcnot_lt_le in A. apply Qcnot_lt_le in B. exists 1. split; [qc_lra|]. split; [qc_lra|]. split; [|left; split; [assumption | split; [assumption | reflexivity]]].
    intros u U0 U1. assert (0 <= u * (p - l)) by (apply mul_nonneg; qc_lra). assert (0 <= u * (r - p)) by (apply mul_nonneg; qc_lra).
    assert (0 <= (1 - u) * (s - l)) by (apply mul_nonneg; qc_lra). assert (0 <= (1 - u) * (r - s)) by (apply mul_nonneg; qc_lra).
    split; qc_nra.
Qed.

(** ** distances *)
Definition on_segment (s p : point) (t : Qc) : point := (fst s + t * (fst p - fst s), snd s + t * (snd p - snd s)).
Lemma dist2_refl s : dist2 s s = 0.
Proof. unfold dist2. ring. Qed.
Lemma dist2_nonneg p q : 0 <= dist2 p q.
Proof. unfold dist2. pose proof (sq_nonneg (fst p - fst q)). pose proof (sq_nonneg (snd p - snd q)). qc_lra. Qed.
Lemma cell_convex pts s p t : 0 <= t -> t <= 1 -> in_cell pts s p -> in_cell pts s (on_segment s p t).
Proof.
  intros T0 T1 H r Ir. apply (le_of_diff _ _ ((1 - t) * dist2 s r + t * (dist2 p r - dist2 p s))).
  - unfold dist2, on_segment. cbn [fst snd]. ring.
  - apply add_nonneg; apply mul_nonneg; [apply sub_nonneg, T1 | apply dist2_nonneg | exact T0 | apply sub_nonneg, H, Ir].
Qed.

(** ** reflections *)
Definition mirror (dom : box) (k : side) (q : point) : point :=
  match k with
  | West => (mirror_lo (fst dom) (fst q), snd q) | East => (mirror_hi (fst dom) (fst q), snd q)
  | South => (fst q, mirror_lo (snd dom) (snd q)) | North => (fst q, mirror_hi (snd dom) (snd q))
  end.
Lemma mirror_gap dom k q p : dist2 p (mirror dom k q) - dist2 p q = (1 + 1) * ((1 + 1) * (gap dom k p * gap dom k q)).
Proof. destruct dom as [[a b] [c d]], k; unfold mirror, dist2, gap, mirror_lo, mirror_hi; cbn [fst snd]; ring. Qed.
Lemma mirror_gap_self dom k q : gap dom k (mirror dom k q) = - gap dom k q.
Proof. destruct dom as [[a b] [c d]], k; unfold mirror, gap, mirror_lo, mirror_hi; cbn [fst snd]; ring. Qed.
Definition is_near (dom : box) (ratio : Qc) (k : side) (q : point) : bool :=
  match k with
  | West => near_lo (fst dom) ratio (fst q) | East => near_hi (fst dom) ratio (fst q)
  | South => near_lo (snd dom) ratio (snd q) | North => near_hi (snd dom) ratio (snd q)
  end.
Lemma is_near_spec dom ratio k q : is_near dom ratio k q = true <-> close_to dom ratio k q.
Proof.
  destruct dom as [[a b] [c d]], k; unfold is_near, near_lo, near_hi, close_to, gap, width; cbn [fst snd]; rewrite qltb_true; split; intro; qc_lra.
Qed.
Lemma in_extended dom ratio vals r : In r (extended dom ratio vals) <->
  In r vals \/ exists k q, In q vals /\ close_to dom ratio k q /\ r = mirror dom k q.
Proof.
  destruct dom as [dx dy]. unfold extended. rewrite !in_app_iff, !in_map_iff. split.
  - intros [H|[H|[H|[H|H]]]]; [left; exact H|..]; right;
      destruct H as (q & <- & H); apply filter_In in H; destruct H as [I H].
    + exists West, q. split; [exact I|]. split; [apply is_near_spec; exact H | reflexivity].
    + exists East, q. split; [exact I|]. split; [apply is_near_spec; exact H | reflexivity].
    + exists South, q. split; [exact I|]. split; [apply is_near_spec; exact H | reflexivity].
    + exists North, q. split; [exact I|]. split; [apply is_near_spec; exact H | reflexivity].
  - intros [H|(k & q & I & H & ->)]; [left; exact H|]. apply is_near_spec in H. right.
    destruct k; [left | right; left | right; right; left | right; right; right];
      exists q; (split; [reflexivity | apply filter_In; split; assumption]).
Qed.

(** Inside the domain the added points change no cell. *)
Lemma cell_inside dom ratio vals s p : (forall q, In q vals -> inside dom q) -> in_domain dom p ->
  (in_cell (extended dom ratio vals) s p <-> in_cell vals s p).
Proof.
  intros HI D. split; intros H r I.
  - apply H, in_extended. left. exact I.
  - apply in_extended in I. destruct I as [I|(k & q & I & _ & ->)]; [apply H, I|].
    apply Qcle_trans with (dist2 p q); [apply H, I|].
    apply (le_of_diff _ _ _ (mirror_gap dom k q p)).
    pose proof (mul_nonneg (gap dom k p) (gap dom k q) (D k) ltac:(apply Qclt_le_weak, HI, I)). qc_lra.
Qed.
Lemma in_domain_alt dom p : in_domain dom p <->
  fst (fst dom) <= fst p /\ fst p <= snd (fst dom) /\ fst (snd dom) <= snd p /\ snd p <= snd (snd dom).
Proof.
  unfold in_domain. split.
  - intro H. pose proof (H West). pose proof (H East). pose proof (H South). pose proof (H North). cbn [gap] in *. split; [qc_lra|]. split; [qc_lra|]. split; qc_lra.
  - intros (A & B & C & D) []; cbn [gap]; qc_lra.
Qed.

Section Reach.
Variables (dom : box) (ratio : Qc) (vals : list point).
Hypothesis HI : forall q, In q vals -> inside dom q.
Hypothesis HR : forall k q b, In q vals -> on_side dom k b -> in_cell vals q b -> close_to dom ratio k q.

Lemma beyond_side k s p t : In s vals -> 0 <= t -> t <= 1 -> in_cell (extended dom ratio vals) s p ->
  in_domain dom (on_segment s p t) -> gap dom k (on_segment s p t) = 0 -> 0 <= gap dom k p.
Proof.
  intros I T0 T1 H D G.
  assert (in_cell vals s (on_segment s p t)) as C by (apply (cell_inside dom ratio vals); [exact HI | exact D | apply cell_convex; assumption]).
  assert (close_to dom ratio k s) as N by (apply (HR k s (on_segment s p t)); [exact I | split; assumption | exact C]).
  assert (dist2 p s <= dist2 p (mirror dom k s)) as L by (apply H, in_extended; right; exists k, s; split; [exact I | split; [exact N | reflexivity]]).
  pose proof (mirror_gap dom k s p) as E. pose proof (HI s I k) as P.
  assert (0 <= gap dom k p * gap dom k s) as M by (apply double_nonneg; rewrite <- E; apply sub_nonneg, L).
  apply Qcnot_lt_le. intro F. assert (gap dom k p * gap dom k s < 0) as Q by (clear - F P; qc_nra).
  apply (Qclt_not_le _ _ Q M).
Qed.
Lemma cell_in_domain s p : In s vals -> in_cell (extended dom ratio vals) s p -> in_domain dom p.
Proof.
  intros I H. apply in_domain_alt.
  pose proof (HI s I West) as A1. pose proof (HI s I East) as A2. pose proof (HI s I South) as A3. pose proof (HI s I North) as A4. cbn [gap] in A1, A2, A3, A4.
  destruct (exit_time (fst (fst dom)) (snd (fst dom)) (fst s) (fst p)) as (t & T0 & T1 & Tu & Tc); [qc_lra | qc_lra|].
  destruct (exit_time (fst (snd dom)) (snd (snd dom)) (snd s) (snd p)) as (v & V0 & V1 & Vu & Vc); [qc_lra | qc_lra|].
  assert (forall u, 0 <= u -> u <= t -> u <= v -> in_domain dom (on_segment s p u)) as Din.
  { intros u U0 Ut Uv. apply in_domain_alt. destruct (Tu u U0 Ut). destruct (Vu u U0 Uv). cbn [on_segment fst snd]. tauto. }
  destruct (qleb_spec t v) as [L|L]; [|apply Qcnot_le_lt, Qclt_le_weak in L].
  - assert (in_domain dom (on_segment s p t)) as D by (apply Din; [exact T0 | apply Qcle_refl | exact L]).
    destruct Tc as [(X1 & X2 & Et)|[(X & E & Lt)|(X & E & Lt)]].
    + destruct Vc as [(Y1 & Y2 & Ev)|[(Y & E & Lt)|(Y & E & Lt)]]; [tauto|..]; exfalso; qc_lra.
    + exfalso. assert (0 <= gap dom West p) as G by (apply (beyond_side West s p t); [exact I | exact T0 | exact T1 | exact H | exact D | cbn [gap on_segment fst snd]; qc_lra]). cbn [gap] in G. qc_lra.
    + exfalso. assert (0 <= gap dom East p) as G by (apply (beyond_side East s p t); [exact I | exact T0 | exact T1 | exact H | exact D | cbn [gap on_segment fst snd]; qc_lra]). cbn [gap] in G. qc_lra.
  - assert (in_domain dom (on_segment s p v)) as D by (apply Din; [exact V0 | exact L | apply Qcle_refl]).
    destruct Vc as [(X1 & X2 & Et)|[(X & E & Lt)|(X & E & Lt)]].
    + destruct Tc as [(Y1 & Y2 & Ev)|[(Y & E & Lt)|(Y & E & Lt)]]; [tauto|..]; exfalso; qc_lra.
    + exfalso. assert (0 <= gap dom South p) as G by (apply (beyond_side South s p v); [exact I | exact V0 | exact V1 | exact H | exact D | cbn [gap on_segment fst snd]; qc_lra]). cbn [gap] in G. qc_lra.
    + exfalso. assert (0 <= gap dom North p) as G by (apply (beyond_side North s p v); [exact I | exact V0 | exact V1 | exact H | exact D | cbn [gap on_segment fst snd]; qc_lra]). cbn [gap] in G. qc_lra.
Qed.
Lemma cell_eq s p : In s vals -> (in_cell (extended dom ratio vals) s p <-> in_domain dom p /\ in_cell vals s p).
Proof.
  intro I. split.
  - intro H. assert (in_domain dom p) as D by (exact (cell_in_domain s p I H)). split; [exact D|]. apply (cell_inside dom ratio vals s p HI D), H.
  - intros [D H]. apply (cell_inside dom ratio vals s p HI D), H.
Qed.
End Reach.

(** ** areas *)
Lemma simplex_area t : is_triangle_area t (simplex_volume t).
Proof.
  destruct t as [[[x1 y1] [x2 y2]] [x3 y3]]. unfold is_triangle_area, simplex_volume. cbn [fst snd].
  set (d := (x2 - x1) * (y3 - y1) - (x3 - x1) * (y2 - y1)).
  assert (x1 * (y2 - y3) + x2 * (y3 - y1) + x3 * (y1 - y2) = d) as -> by (unfold d; ring).
  destruct (qleb_spec 0 d) as [L|L]; [|apply Qcnot_le_lt in L]; (split; [qc_lra|]); [left | right]; qc_lra.
Qed.
Lemma total_area_eq ts : forall acc, exists a, total_area ts a /\ fold_left (fun v t => v + simplex_volume t) ts acc = acc + a.
Proof.
  induction ts as [|t ts IH]; intro acc.
  - exists 0. split; [reflexivity|]. cbn [fold_left]. ring.
  - destruct (IH (acc + simplex_volume t)) as (a & A & E). exists (simplex_volume t + a). split.
    + exists (simplex_volume t), a. split; [apply simplex_area | split; [exact A | reflexivity]].
    + cbn [fold_left]. rewrite E. ring.
Qed.
Lemma region_area ts : total_area ts (region_volume (Some ts)).
Proof. destruct (total_area_eq ts 0) as (a & A & E). unfold region_volume. rewrite E. replace (0 + a) with a by ring. exact A. Qed.
Lemma tiles_ext ts A B : (forall p, A p <-> B p) -> tiles ts A -> tiles ts B.
Proof. intros E [H1 H2]. split; [|exact H2]. intro p. rewrite <- E. apply H1. Qed.

Definition qabs (x : Qc) : Qc := if qleb 0 x then x else - x.
Lemma qabs_bounds x : - qabs x <= x /\ x <= qabs x /\ 0 <= qabs x.
Proof. unfold qabs. destruct (qleb_spec 0 x) as [L|L]; [|apply Qcnot_le_lt in L]; (split; [|split]); qc_lra. Qed.
Definition reach1 (t : triangle) : Qc :=
  let '(a, b, c) := t in qabs (fst a) + qabs (fst b) + qabs (fst c) + (qabs (snd a) + qabs (snd b) + qabs (snd c)).
Lemma convex3 u v w a b c : 0 <= u -> 0 <= v -> 0 <= w -> u + v + w = 1 ->
  - (qabs a + qabs b + qabs c) <= u * a + v * b + w * c /\ u * a + v * b + w * c <= qabs a + qabs b + qabs c.
Proof.
  intros U V W E. destruct (qabs_bounds a) as (A1 & A2 & A3). destruct (qabs_bounds b) as (B1 & B2 & B3). destruct (qabs_bounds c) as (C1 & C2 & C3).
  revert A1 A2 A3 B1 B2 B3 C1 C2 C3. generalize (qabs a) (qabs b) (qabs c). intros x y z A1 A2 A3 B1 B2 B3 C1 C2 C3.
  assert (forall u a x, 0 <= u -> u <= 1 -> - x <= a -> a <= x -> 0 <= x -> - x <= u * a /\ u * a <= x) as H.
  { clear. intros u a x U0 U1 A B X. pose proof (mul_nonneg u (x - a) U0 ltac:(qc_lra)). pose proof (mul_nonneg u (a + x) U0 ltac:(qc_lra)). pose proof (mul_nonneg (1 - u) x ltac:(qc_lra) X). split; qc_nra. }
  destruct (H u a x); try assumption; [qc_lra|]. destruct (H v b y); try assumption; [qc_lra|]. destruct (H w c z); try assumption; [qc_lra|].
  split; qc_lra.
Qed.
Lemma reach1_spec t p : in_triangle t p -> - reach1 t <= fst p /\ fst p <= reach1 t /\ - reach1 t <= snd p /\ snd p <= reach1 t.
Proof.
  destruct t as [[a b] c]. intros (u & v & w & U & V & W & E & -> & ->). unfold reach1.
  pose proof (convex3 u v w (fst a) (fst b) (fst c) U V W E) as [X1 X2]. pose proof (convex3 u v w (snd a) (snd b) (snd c) U V W E) as [Y1 Y2].
  destruct (qabs_bounds (fst a)) as (_ & _ & A). destruct (qabs_bounds (fst b)) as (_ & _ & B). destruct (qabs_bounds (fst c)) as (_ & _ & C).
  destruct (qabs_bounds (snd a)) as (_ & _ & A'). destruct (qabs_bounds (snd b)) as (_ & _ & B'). destruct (qabs_bounds (snd c)) as (_ & _ & C').
  split; [qc_lra|]. split; [qc_lra|]. split; qc_lra.
Qed.
Lemma reach1_nonneg t : 0 <= reach1 t.
Proof.
  destruct t as [[a b] c]. unfold reach1.
  destruct (qabs_bounds (fst a)) as (_ & _ & A). destruct (qabs_bounds (fst b)) as (_ & _ & B). destruct (qabs_bounds (fst c)) as (_ & _ & C).
  destruct (qabs_bounds (snd a)) as (_ & _ & A'). destruct (qabs_bounds (snd b)) as (_ & _ & B'). destruct (qabs_bounds (snd c)) as (_ & _ & C'). qc_lra.
Qed.
Lemma tiles_bounded ts A : tiles ts A -> ~ unbounded A.
Proof.
  intros [H _] U. destruct (U (qsum (map reach1 ts))) as (p & Ap & O). apply H in Ap. destruct Ap as (t & I & T).
  apply reach1_spec in T. assert (reach1 t <= qsum (map reach1 ts)) as L.
  { clear - I. induction ts as [|x ts IH]; [contradiction|]. cbn [map qsum].
    assert (0 <= qsum (map reach1 ts)) as N.
    { clear. induction ts as [|y ts IH]; [apply Qcle_refl|]. cbn [map qsum]. apply add_nonneg; [apply reach1_nonneg | exact IH]. }
    destruct I as [->|I].
    - clear IH. revert N. generalize (reach1 t) (qsum (map reach1 ts)). intros. qc_lra.
    - specialize (IH I). pose proof (reach1_nonneg x) as R. clear N. revert IH R. generalize (reach1 t) (reach1 x) (qsum (map reach1 ts)). intros. qc_lra. }
  clear - T O L. revert T O L. generalize (reach1 t) (qsum (map reach1 ts)). intros z m (T1 & T2 & T3 & T4) [O|[O|[O|O]]] L; qc_lra.
Qed.

(** ** the volumes *)
Lemma extended_nth dom ratio vals i q : nth_error vals i = Some q -> nth_error (extended dom ratio vals) i = Some q.
Proof.
  intro H. unfold extended. destruct dom. rewrite nth_error_app1; [exact H|]. apply nth_error_Some. rewrite H. discriminate.
Qed.
Lemma exact_lemma : forall simplices P dom ratio (vals : list point), (0 < P)%nat -> (forall q, In q vals -> inside dom q) ->
  (forall k q b, In q vals -> on_side dom k b -> in_cell vals q b -> close_to dom ratio k q) ->
  diagram_of simplices (extended dom ratio vals) ->
  exists vols, exact_volume_2D simplices P dom ratio vals = Some vols /\ length vols = length vals /\
    forall i q, nth_error vals i = Some q ->
      exists a, has_area (fun p => in_domain dom p /\ in_cell vals q p) a /\
        nth_error vols i = Some (a / (width dom West * width dom South)).
Proof.
  intros simplices P dom ratio vals HP HI HR HD. eexists. split; [apply strided_volumes_eq, HP|]. split; [rewrite map_length, seq_length; reflexivity|].
  intros i q Hq. pose proof (nth_error_In _ _ Hq) as I. specialize (HD i q (extended_nth dom ratio vals i q Hq)).
  assert (i < @length point vals)%nat as Hi by (apply nth_error_Some; rewrite Hq; discriminate).
  destruct (simplices (extended dom ratio vals) i) as [ts|] eqn:Es.
  - exists (region_volume (Some ts)). split.
    + exists ts. split; [|apply region_area]. apply tiles_ext with (2 := HD). intro p. apply cell_eq; assumption.
    + rewrite nth_error_map, nth_error_seq, (proj2 (Nat.ltb_lt _ _) Hi). cbn [option_map]. rewrite Nat.add_0_l, Es. reflexivity.
  - exfalso. destruct (HD (qabs (fst (fst dom)) + qabs (snd (fst dom)) + (qabs (fst (snd dom)) + qabs (snd (snd dom))))) as (p & Cp & O).
    apply (cell_in_domain dom ratio vals HI HR q p I) in Cp. apply in_domain_alt in Cp. destruct Cp as (A & B & C & D).
    destruct (qabs_bounds (fst (fst dom))) as (? & ? & ?). destruct (qabs_bounds (snd (fst dom))) as (? & ? & ?).
    destruct (qabs_bounds (fst (snd dom))) as (? & ? & ?). destruct (qabs_bounds (snd (snd dom))) as (? & ? & ?).
    destruct O as [O|[O|[O|O]]]; qc_lra.
Qed.
Lemma wide_ratio dom ratio k q : inside dom q -> 1 <= ratio -> close_to dom ratio k q.
Proof.
  intros I R. pose proof (I West). pose proof (I East). pose proof (I South). pose proof (I North). unfold close_to.
  assert (0 < width dom k /\ gap dom k q < width dom k) as [W G] by (destruct k; cbn [gap width] in *; split; qc_lra).
  pose proof (mul_nonneg (ratio - 1) (width dom k) ltac:(qc_lra) ltac:(qc_lra)). qc_lra.
Qed.

(** ** no sample close to a side *)
Lemma extended_gap dom ratio vals k g r : (forall q, In q vals -> inside dom q) ->
  (forall q, In q vals -> ~ close_to dom ratio k q) -> (forall q, In q vals -> g <= gap dom k q) ->
  In r (extended dom ratio vals) -> g <= gap dom k r.
Proof.
  intros HI HN HG I. apply in_extended in I. destruct I as [I|(m & q & I & C & ->)]; [apply HG, I|].
  apply Qcle_trans with (1 := HG q I). pose proof (HI q I) as J. pose proof (J West). pose proof (J East). pose proof (J South). pose proof (J North).
  destruct dom as [[a b] [c d]].
  destruct k, m; cbn [mirror gap fst snd mirror_lo mirror_hi] in *; try (exfalso; apply (HN q I C)); unfold mirror_lo, mirror_hi; cbn [fst snd]; qc_lra.
Qed.
(** the point at distance u beyond s, away from side k *)
Definition outward (k : side) (s : point) (u : Qc) : point :=
  match k with West => (fst s - u, snd s) | East => (fst s + u, snd s) | South => (fst s, snd s - u) | North => (fst s, snd s + u) end.
Lemma outward_cell dom pts k s u : 0 <= u -> (forall r, In r pts -> gap dom k s <= gap dom k r) -> in_cell pts s (outward k s u).
Proof.
  intros U H r I. specialize (H r I). apply (le_of_diff _ _ (dist2 s r + (1 + 1) * (u * (gap dom k r - gap dom k s)))).
  - destruct dom as [[a b] [c d]], k; unfold outward, dist2, gap; cbn [fst snd]; ring.
  - pose proof (dist2_nonneg s r). pose proof (mul_nonneg u (gap dom k r - gap dom k s) U ltac:(qc_lra)). qc_lra.
Qed.
Lemma extreme_unbounded dom pts k s : (forall r, In r pts -> gap dom k s <= gap dom k r) -> unbounded (in_cell pts s).
Proof.
  intros H m. destruct (qabs_bounds m) as (M1 & M2 & M3). destruct (qabs_bounds (fst s)) as (X1 & X2 & X3). destruct (qabs_bounds (snd s)) as (Y1 & Y2 & Y3).
  exists (outward k s (qabs m + qabs (fst s) + qabs (snd s) + 1)). split.
  - apply (outward_cell dom); [qc_lra | exact H].
  - destruct k; cbn [outward fst snd]; [right; left | left | right; right; right | right; right; left]; qc_lra.
Qed.
Lemma no_points_lemma : forall simplices P dom ratio (vals : list point) k i s, (0 < P)%nat -> (forall q, In q vals -> inside dom q) ->
  diagram_of simplices (extended dom ratio vals) -> (forall q, In q vals -> ~ close_to dom ratio k q) ->
  nth_error vals i = Some s -> (forall q, In q vals -> gap dom k s <= gap dom k q) ->
  exists vols, exact_volume_2D simplices P dom ratio vals = Some vols /\ nth_error vols i = Some 0.
Proof.
  intros simplices P dom ratio vals k i s HP HI HD HN Hs HG. eexists. split; [apply strided_volumes_eq, HP|].
  assert (i < @length point vals)%nat as Hi by (apply nth_error_Some; rewrite Hs; discriminate).
  rewrite nth_error_map, nth_error_seq, (proj2 (Nat.ltb_lt _ _) Hi). cbn [option_map]. rewrite Nat.add_0_l. f_equal.
  specialize (HD i s (extended_nth dom ratio vals i s Hs)).
  destruct (simplices (extended dom ratio vals) i) as [ts|]; [|cbn [region_volume]; unfold Qcdiv; ring].
  exfalso. apply (tiles_bounded _ _ HD). apply (extreme_unbounded dom _ k). intros r I. apply (extended_gap dom ratio vals k _ r HI HN HG I).
Qed.
(** every sample has room *)
Lemma room (s : point) pts : exists e, 0 < e /\
  forall p, - e <= fst p - fst s -> fst p - fst s <= e -> - e <= snd p - snd s -> snd p - snd s <= e ->
    forall r, In r pts -> dist2 p s <= dist2 p r.
Proof.
  induction pts as [|r pts IH].
  - exists 1. split; [reflexivity|]. intros. contradiction.
  - destruct IH as (e & E & H).
    set (dx := fst r - fst s). set (dy := snd r - snd s).
    assert (exists f, 0 < f /\ forall p, - f <= fst p - fst s -> fst p - fst s <= f -> - f <= snd p - snd s -> snd p - snd s <= f -> dist2 p s <= dist2 p r) as (f & F & G).
    { assert (forall p, dist2 p r - dist2 p s = dx * dx + dy * dy - (1 + 1) * ((fst p - fst s) * dx + (snd p - snd s) * dy)) as ID by (intro p; unfold dist2, dx, dy; ring).
      destruct (qabs_bounds dx) as (A1 & A2 & A3). destruct (qabs_bounds dy) as (B1 & B2 & B3).
      destruct (qeqb_spec (qabs dx + qabs dy) 0) as [Z|NZ].
      - exists 1. split; [reflexivity|]. intros p P1 P2 P3 P4. apply (le_of_diff _ _ _ (ID p)).
        assert (dx = 0) as -> by qc_lra. assert (dy = 0) as -> by qc_lra. apply Qcle_trans with 0; [apply Qcle_refl|].
        replace (0 * 0 + 0 * 0 - (1 + 1) * ((fst p - fst s) * 0 + (snd p - snd s) * 0)) with 0 by ring. apply Qcle_refl.
      - set (n := qabs dx + qabs dy) in *. assert (0 < n) as N0 by (apply Qcnot_le_lt; intro; apply NZ; unfold n in *; qc_lra).
        assert (dx * dx + dy * dy <> 0) as Q0.
        { intro Q. apply NZ. pose proof (sq_nonneg dx). pose proof (sq_nonneg dy). assert (dx * dx = 0) as QX by qc_lra. assert (dy * dy = 0) as QY by qc_lra.
          apply Qcmult_integral in QX. apply Qcmult_integral in QY. assert (dx = 0) as DX by tauto. assert (dy = 0) as DY by tauto. unfold n. rewrite DX, DY. reflexivity. }
        assert (0 < dx * dx + dy * dy) as QP by (pose proof (sq_nonneg dx); pose proof (sq_nonneg dy); apply Qcnot_le_lt; intro; apply Q0; qc_lra).
        assert (exists f, 0 < f /\ (1 + 1) * (f * n) = dx * dx + dy * dy) as (f & F & FE).
        { exists ((dx * dx + dy * dy) / ((1 + 1) * n)). split; [apply qc_div_pos; [exact QP | qc_lra]|]. field. split; [exact NZ | discriminate]. }
        exists f. split; [exact F|]. intros p P1 P2 P3 P4. apply (le_of_diff _ _ _ (ID p)). rewrite <- FE.
        assert (forall a b c x, 0 <= c -> - c <= a -> a <= c -> - x <= b -> b <= x -> 0 <= x -> 0 <= c * x - a * b) as K.
        { clear. intros a b c x C A1 A2 B1 B2 X. pose proof (mul_nonneg (c - a) (x + b) ltac:(qc_lra) ltac:(qc_lra)). pose proof (mul_nonneg (c + a) (x - b) ltac:(qc_lra) ltac:(qc_lra)).
          assert ((1 + 1) * (c * x - a * b) = (c - a) * (x + b) + (c + a) * (x - b)) by ring. qc_lra. }
        pose proof (K (fst p - fst s) dx f (qabs dx) ltac:(qc_lra) P1 P2 A1 A2 A3) as K1. pose proof (K (snd p - snd s) dy f (qabs dy) ltac:(qc_lra) P3 P4 B1 B2 B3) as K2.
        assert ((1 + 1) * (f * n) - (1 + 1) * ((fst p - fst s) * dx + (snd p - snd s) * dy) = (1 + 1) * ((f * qabs dx - (fst p - fst s) * dx) + (f * qabs dy - (snd p - snd s) * dy))) as -> by (unfold n; ring).
        clear - K1 K2. revert K1 K2. generalize (f * qabs dx - (fst p - fst s) * dx) (f * qabs dy - (snd p - snd s) * dy). intros. qc_lra. }
    destruct (qleb_spec e f) as [L|L]; [|apply Qcnot_le_lt in L].
    + exists e. split; [exact E|]. intros p P1 P2 P3 P4 q [<-|I]; [apply G; qc_lra | apply H; assumption].
    + exists f. split; [exact F|]. intros p P1 P2 P3 P4 q [<-|I]; [apply G; assumption | apply H; try assumption; qc_lra].
Qed.

Lemma both_pos a b : 0 < a -> 0 < b -> exists f, 0 < f /\ f <= a /\ f <= b.
Proof.
  intros A B. destruct (qleb_spec a b) as [L|L]; [exists a | exists b; apply Qcnot_le_lt, Qclt_le_weak in L]; (split; [assumption|]); split; first [apply Qcle_refl | assumption].
Qed.
Lemma cell_room_lemma : forall dom vals s, inside dom s -> exists e, 0 < e /\
  forall p, - e <= fst p - fst s -> fst p - fst s <= e -> - e <= snd p - snd s -> snd p - snd s <= e ->
    in_domain dom p /\ in_cell vals s p.
Proof.
  intros dom vals s I. destruct (room s vals) as (e & E & H).
  pose proof (I West) as W. pose proof (I East) as Ea. pose proof (I South) as So. pose proof (I North) as No.
  destruct (both_pos _ _ W Ea) as (g & G & G1 & G2). destruct (both_pos _ _ So No) as (h & Hh & H1 & H2).
  destruct (both_pos _ _ G Hh) as (k & K & K1 & K2). destruct (both_pos _ _ E K) as (f & F & F1 & F2).
  exists f. split; [exact F|]. intros p P1 P2 P3 P4. split.
  - apply in_domain_alt. cbn [gap] in G1, G2, H1, H2. split; [qc_lra|]. split; [qc_lra|]. split; qc_lra.
  - intros r Ir. apply H; try exact Ir; qc_lra.
Qed.

(** ** the added points are new *)
Lemma NoDup_map_inj {A B} (f : A -> B) l : (forall x y, f x = f y -> x = y) -> NoDup l -> NoDup (map f l).
Proof. intros H N. induction N as [|x l I N IH]; cbn [map]; constructor; [|exact IH]. intro J. apply in_map_iff in J. destruct J as (y & E & J). apply H in E. congruence. Qed.
Lemma NoDup_app_disj {A} (l m : list A) : NoDup l -> NoDup m -> (forall x, In x l -> ~ In x m) -> NoDup (l ++ m).
Proof. intros N M D. induction N as [|x l I N IH]; [exact M|]. cbn [app]. constructor; [rewrite in_app_iff; intros [J|J]; [contradiction | exact (D x (or_introl eq_refl) J)]|]. apply IH. intros y J. apply D. right. exact J. Qed.
Lemma mirror_inj dom k p q : mirror dom k p = mirror dom k q -> p = q.
Proof.
  destruct dom as [[a b] [c d]], p as [px py], q as [qx qy], k; unfold mirror, mirror_lo, mirror_hi; cbn [fst snd]; intro E; pose proof (f_equal fst E) as E1; pose proof (f_equal snd E) as E2; cbn [fst snd] in E1, E2; clear E; f_equal; qc_lra.
Qed.
Lemma extended_distinct_lemma : forall dom ratio vals, (forall q, In q vals -> inside dom q) -> NoDup vals -> NoDup (extended dom ratio vals).
Proof.
  intros dom ratio vals HI N.
  assert (extended dom ratio vals = vals ++ map (mirror dom West) (filter (is_near dom ratio West) vals) ++ map (mirror dom East) (filter (is_near dom ratio East) vals)
    ++ map (mirror dom South) (filter (is_near dom ratio South) vals) ++ map (mirror dom North) (filter (is_near dom ratio North) vals)) as -> by (destruct dom; reflexivity).
  assert (forall k, NoDup (map (mirror dom k) (filter (is_near dom ratio k) vals))) as NM by (intro k; apply NoDup_map_inj; [apply mirror_inj | apply NoDup_filter, N]).
  assert (forall k x, In x (map (mirror dom k) (filter (is_near dom ratio k) vals)) -> exists q, inside dom q /\ x = mirror dom k q) as IM.
  { intros k x I. apply in_map_iff in I. destruct I as (q & <- & I). apply filter_In in I. exists q. split; [apply HI; tauto | reflexivity]. }
  assert (forall k m x, k <> m -> In x (map (mirror dom k) (filter (is_near dom ratio k) vals)) -> ~ In x (map (mirror dom m) (filter (is_near dom ratio m) vals))) as DM.
  { intros k m x NE I J. apply IM in I. apply IM in J. destruct I as (q & Q & ->). destruct J as (r & R & E).
    pose proof (Q West). pose proof (Q East). pose proof (Q South). pose proof (Q North). pose proof (R West). pose proof (R East). pose proof (R South). pose proof (R North).
    clear - NE E H H0 H1 H2 H3 H4 H5 H6. destruct dom as [[a b] [c d]], q as [qx qy], r as [rx ry].
    destruct k, m; try (exfalso; apply NE; reflexivity); unfold mirror, mirror_lo, mirror_hi in E; cbn [gap fst snd] in *; pose proof (f_equal fst E) as E1; pose proof (f_equal snd E) as E2; cbn [fst snd] in E1, E2; clear E; qc_lra. }
  assert (forall k x, In x vals -> ~ In x (map (mirror dom k) (filter (is_near dom ratio k) vals))) as DV.
  { intros k x I J. apply IM in J. destruct J as (q & Q & ->). specialize (HI _ I k). rewrite mirror_gap_self in HI. specialize (Q k). qc_lra. }
  repeat (apply NoDup_app_disj; [solve [apply NM | exact N] | | intros x I J; repeat (rewrite in_app_iff in J; destruct J as [J|J]); [..|]; solve [apply (DV _ x I J) | revert J; apply DM with (2 := I); discriminate]]).
  apply NM.
Qed.
Lemma nearest_exists (p : point) vals : vals <> [] -> exists q, In q vals /\ in_cell vals q p.
Proof.
  induction vals as [|v vals IH]; [contradiction|]. intros _. destruct vals as [|w vals].
  - exists v. split; [left; reflexivity|]. intros r [<-|[]]. apply Qcle_refl.
  - destruct IH as (q & I & H); [discriminate|]. destruct (qleb_spec (dist2 p v) (dist2 p q)) as [L|L]; [|apply Qcnot_le_lt, Qclt_le_weak in L].
    + exists v. split; [left; reflexivity|]. intros r [<-|J]; [apply Qcle_refl|]. apply Qcle_trans with (1 := L). apply H, J.
    + exists q. split; [right; exact I|]. intros r [<-|J]; [exact L | apply H, J].
Qed.
Lemma extended_acceptable_lemma : forall dom ratio vals, vals <> [] -> NoDup vals -> (forall q, In q vals -> inside dom q) ->
  (forall k q b, In q vals -> on_side dom k b -> in_cell vals q b -> close_to dom ratio k q) ->
  acceptable (extended dom ratio vals).
Proof.
  intros dom ratio vals NE N HI HR.
  assert (forall k, 0 < width dom k) as W.
  { destruct vals as [|v vals]; [contradiction|]. pose proof (HI v (or_introl eq_refl)) as I. pose proof (I West). pose proof (I East). pose proof (I South). pose proof (I North).
    intros []; cbn [gap width] in *; qc_lra. }
  pose proof (W West) as WW. pose proof (W South) as WS. cbn [width] in WW, WS.
  destruct (nearest_exists (fst (fst dom), fst (snd dom)) vals NE) as (q & I & C).
  destruct (nearest_exists (snd (fst dom), snd (snd dom)) vals NE) as (r & J & D).
  assert (in_domain dom (fst (fst dom), fst (snd dom))) as K1 by (apply in_domain_alt; cbn [fst snd]; split; [apply Qcle_refl|]; split; [qc_lra|]; split; [apply Qcle_refl | qc_lra]).
  assert (in_domain dom (snd (fst dom), snd (snd dom))) as K2 by (apply in_domain_alt; cbn [fst snd]; split; [qc_lra|]; split; [apply Qcle_refl|]; split; [qc_lra | apply Qcle_refl]).
  assert (In (mirror dom West q) (extended dom ratio vals)) as M1.
  { apply in_extended. right. exists West, q. split; [exact I|]. split; [|reflexivity]. apply (HR West q (fst (fst dom), fst (snd dom)) I); [split; [exact K1 | cbn [gap fst snd]; ring] | exact C]. }
  assert (In (mirror dom South q) (extended dom ratio vals)) as M2.
  { apply in_extended. right. exists South, q. split; [exact I|]. split; [|reflexivity]. apply (HR South q (fst (fst dom), fst (snd dom)) I); [split; [exact K1 | cbn [gap fst snd]; ring] | exact C]. }
  assert (In (mirror dom East r) (extended dom ratio vals)) as M3.
  { apply in_extended. right. exists East, r. split; [exact J|]. split; [|reflexivity]. apply (HR East r (snd (fst dom), snd (snd dom)) J); [split; [exact K2 | cbn [gap fst snd]; ring] | exact D]. }
  assert (In q (extended dom ratio vals)) as M0 by (apply in_extended; left; exact I).
  pose proof (HI q I) as Q. pose proof (HI r J) as R. pose proof (Q West) as Q1. pose proof (Q East) as Q2. pose proof (Q South) as Q3. pose proof (Q North) as Q4. pose proof (R East) as R2.
  split; [apply extended_distinct_lemma; assumption|]. split.
  - change 4%nat with (length [q; mirror dom West q; mirror dom South q; mirror dom East r]). apply NoDup_incl_length; [|intros x [<-|[<-|[<-|[<-|[]]]]]; assumption].
    clear - Q1 Q2 Q3 Q4 R2. destruct dom as [[a b] [c d]], q as [qx qy], r as [rx ry]. cbn [gap fst snd] in *. unfold mirror, mirror_lo, mirror_hi; cbn [fst snd].
    repeat constructor; cbn [In]; intro X; repeat (destruct X as [X|X]); try (pose proof (f_equal fst X) as X1; pose proof (f_equal snd X) as X2; cbn [fst snd] in X1, X2; clear X; qc_lra); contradiction.
  - exists q, (mirror dom West q), (mirror dom South q). split; [exact M0|]. split; [exact M1|]. split; [exact M2|].
    unfold collinear. clear - Q1 Q3. destruct dom as [[a b] [c d]], q as [qx qy]. cbn [gap fst snd] in *. unfold mirror, mirror_lo, mirror_hi; cbn [fst snd]. intro X.
    assert ((qx - a) * (qy - c) = 0) as Z by qc_lra. apply Qcmult_integral in Z. destruct Z; qc_lra.
Qed.
