From Coq Require Import ZArith List Arith Bool Reals Lra Lia Psatz Permutation.
From Verif Require Import Err Polygons_Model Polygons_Spec.
Import ListNotations.
Local Open Scope R_scope.

(** ** Geometry *)
Lemma sum_side a b l : sum_of (side a b) l = (fst b - fst a) * (sum_of snd l - INR (length l) * snd a) - (snd b - snd a) * (sum_of fst l - INR (length l) * fst a).
Proof.
  induction l as [|q l IH]; [cbn; ring|]. change (sum_of (side a b) (q :: l)) with (side a b q + sum_of (side a b) l). change (sum_of snd (q :: l)) with (snd q + sum_of snd l). change (sum_of fst (q :: l)) with (fst q + sum_of fst l).
  rewrite IH. change (length (q :: l)) with (S (length l)). rewrite S_INR. unfold side. ring.
Qed.
Lemma side_center a b l : l <> [] -> side a b (center l) * INR (length l) = sum_of (side a b) l.
Proof.
  intro N. rewrite sum_side. assert (INR (length l) <> 0) as H by (apply not_0_INR; destruct l; [contradiction | discriminate]). unfold side, center. cbn [fst snd]. field. exact H.
Qed.
Lemma sum_of_le0 f l : (forall q, In q l -> f q <= 0) -> sum_of f l <= 0.
Proof. induction l as [|q l IH]; intro H; [cbn; lra|]. cbn. assert (f q <= 0) by (apply H; left; reflexivity). assert (sum_of f l <= 0) by (apply IH; intros; apply H; right; assumption). unfold sum_of in *. lra. Qed.
Lemma sum_of_lt0 f l : (forall q, In q l -> f q <= 0) -> (exists q, In q l /\ f q < 0) -> sum_of f l < 0.
Proof.
  induction l as [|q l IH]; intros H (x & I & L); [destruct I|]. cbn. assert (f q <= 0) by (apply H; left; reflexivity). destruct I as [<-|I].
  - assert (sum_of f l <= 0) by (apply sum_of_le0; intros; apply H; right; assumption). unfold sum_of in *. lra.
  - assert (sum_of f l < 0) by (apply IH; [intros; apply H; right; assumption | exists x; auto]). unfold sum_of in *. lra.
Qed.
Lemma sum_of_opp f l : sum_of (fun q => - f q) l = - sum_of f l.
Proof. induction l as [|q l IH]; cbn; [ring|]. unfold sum_of in *. rewrite IH. ring. Qed.
(** The mean of the points is strictly on the inner side of a hull edge. *)
Lemma center_side l a b : hull_edge l a b ->
  ((forall q, In q l -> side a b q <= 0) /\ side a b (center l) < 0) \/ ((forall q, In q l -> 0 <= side a b q) /\ 0 < side a b (center l)).
Proof.
  intros (H & x & Ix & Nx). assert (l <> []) as NE by (destruct l; [destruct Ix | discriminate]). pose proof (side_center a b l NE) as E. assert (0 < INR (length l)) as P by (apply lt_0_INR; destruct l; [contradiction | cbn; lia]). destruct H as [H|H]; [left | right]; (split; [exact H|]).
  - assert (sum_of (side a b) l < 0) as L. { apply sum_of_lt0; [exact H|]. exists x. split; [exact Ix|]. specialize (H x Ix). lra. } rewrite <- E in L. nra.
  - assert (sum_of (fun q => - side a b q) l < 0) as L. { apply sum_of_lt0; [intros q Iq; specialize (H q Iq); lra|]. exists x. split; [exact Ix|]. specialize (H x Ix). lra. } rewrite sum_of_opp, <- E in L. nra.
Qed.
Lemma len_pos a b : a <> b -> 0 < sqrt (pdot (psub b a) (psub b a)).
Proof.
  intro N. apply sqrt_lt_R0. unfold pdot, psub. cbn [fst snd]. destruct (Req_EM_T (fst b - fst a) 0) as [E|E].
  - destruct (Req_EM_T (snd b - snd a) 0) as [F|F]; [exfalso; apply N; destruct a, b; cbn in *; f_equal; lra|]. pose proof (Rlt_0_sqr _ F) as G. pose proof (Rle_0_sqr (fst b - fst a)). unfold Rsqr in *. lra.
  - pose proof (Rlt_0_sqr _ E) as G. pose proof (Rle_0_sqr (snd b - snd a)). unfold Rsqr in *. lra.
Qed.
Lemma geometry l a b w r : a <> b -> In a l -> In b l -> hull_edge l a b -> 0 <= r -> (forall q, In q l -> dist2 w a <= dist2 w q) -> (forall q, In q l -> dist2 w b <= dist2 w q) ->
  exists f, far_point (center l) r a b w = Some f /\ dist2 f w = r * r /\ (forall q, In q l -> dist2 f a <= dist2 f q) /\ (forall q, In q l -> dist2 f b <= dist2 f q).
Proof.
  intros N Ia Ib HE Hr Ca Cb. pose proof (len_pos a b N) as LP. unfold far_point. set (len := sqrt (pdot (psub b a) (psub b a))) in *. assert (len * len = pdot (psub b a) (psub b a)) as LL. { unfold len. apply sqrt_sqrt. unfold pdot, psub. cbn [fst snd]. pose proof (Rle_0_sqr (fst b - fst a)). pose proof (Rle_0_sqr (snd b - snd a)). unfold Rsqr in *. lra. }
  destruct (Req_EM_T len 0) as [Z|_]; [lra|]. cbv zeta. set (s := sign _).
  assert (pdot (psub ((fst a + fst b) / 2, (snd a + snd b) / 2) (center l)) (- (snd (psub b a) / len), fst (psub b a) / len) = - side a b (center l) / len) as PD. { unfold pdot, psub, side. cbn [fst snd]. field. lra. }
  eexists. split; [reflexivity|].
  assert (s * s = 1 /\ forall q, In q l -> s * side a b q <= 0) as (SS & SQ).
  { unfold s. rewrite PD. unfold sign. destruct (center_side l a b HE) as [(H & C)|(H & C)].
    - assert (0 < - side a b (center l) / len) as P by (apply Rdiv_lt_0_compat; lra). destruct (Rlt_dec 0 (- side a b (center l) / len)); [|contradiction]. split; [ring|]. intros q Iq. specialize (H q Iq). lra.
    - assert (- side a b (center l) / len < 0) as P. { unfold Rdiv. assert (0 < / len) by (apply Rinv_0_lt_compat; lra). nra. } destruct (Rlt_dec 0 (- side a b (center l) / len)); [lra|]. destruct (Rlt_dec (- side a b (center l) / len) 0); [|contradiction]. split; [ring|]. intros q Iq. specialize (H q Iq). lra. }
  set (u := (fst (psub b a) / len)). set (t := (snd (psub b a) / len)).
  assert (u * u + t * t = 1) as UU. { unfold u, t. transitivity (pdot (psub b a) (psub b a) / (len * len)); [unfold pdot; field; lra|]. rewrite LL. field. rewrite <- LL. nra. }
  cbn [fst snd].
  assert (forall q, dist2 (fst w + s * - t * r, snd w + s * u * r) q = dist2 w q + r * r + 2 * (s * r) * (u * (snd w - snd q) - t * (fst w - fst q))) as DQ.
  { intro q. unfold dist2, Rsqr. cbn [fst snd]. replace (r * r) with (r * r * ((s * s) * (u * u + t * t))) by (rewrite SS, UU; ring). ring. }
  assert (forall q, In q l -> 0 <= - (s * r) * (u * (snd q - snd a) - t * (fst q - fst a))) as PQ.
  { intros q Iq. replace (- (s * r) * (u * (snd q - snd a) - t * (fst q - fst a))) with (r / len * - (s * side a b q)). 2:{ unfold u, t, side, psub. cbn [fst snd]. field. lra. } apply Rmult_le_pos; [apply Rmult_le_pos; [exact Hr | left; apply Rinv_0_lt_compat; exact LP]|]. specialize (SQ q Iq). lra. }
  assert (u * (snd b - snd a) - t * (fst b - fst a) = 0) as AB by (unfold u, t, psub; cbn [fst snd]; field; lra).
  split; [|split].
  - rewrite DQ. unfold dist2, Rsqr. ring.
  - intros q Iq. rewrite !DQ. specialize (Ca q Iq). specialize (PQ q Iq). assert (s * r * (u * (snd w - snd a) - t * (fst w - fst a)) = s * r * (u * (snd w - snd q) - t * (fst w - fst q)) + s * r * (u * (snd q - snd a) - t * (fst q - fst a))) as K by ring. lra.
  - intros q Iq. rewrite !DQ. specialize (Cb q Iq). specialize (PQ q Iq). assert (s * r * (u * (snd w - snd b) - t * (fst w - fst b)) = s * r * (u * (snd w - snd q) - t * (fst w - fst q)) + s * r * (u * (snd q - snd a) - t * (fst q - fst a)) - s * r * (u * (snd b - snd a) - t * (fst b - fst a))) as K by ring. rewrite AB in K. lra.
Qed.
Lemma hull_sym l a b : hull_edge l a b -> hull_edge l b a.
Proof.
  assert (forall q, side b a q = - side a b q) as E by (intro q; unfold side; ring). intros (H & x & Ix & Nx). split; [|exists x; split; [exact Ix | rewrite E; lra]]. destruct H as [H|H]; [right | left]; intros q Iq; rewrite E; specialize (H q Iq); lra.
Qed.
Lemma ridge_sym v i j z1 z2 : ridge_ok v i j z1 z2 -> ridge_ok v j i z1 z2.
Proof.
  intros (a & b & Ea & Eb & N & H1 & H2). exists b, a. split; [exact Eb|]. split; [exact Ea|]. split; [congruence|]. split.
  - intros z Hz P. destruct (H1 z Hz P) as (w & Ew & C1 & C2). exists w. auto.
  - intro Z. destruct (H2 Z) as (F & HE). split; [exact F | apply hull_sym; exact HE].
Qed.
Lemma in_cell_eq v w i p : nth_error (v_points v) i = Some p -> in_cell v w i -> forall q, In q (v_points v) -> dist2 w p <= dist2 w q.
Proof. intros E (p' & E' & H). rewrite E in E'. injection E' as <-. exact H. Qed.
(** ** Radius *)
Lemma fold_max x l : x <= fold_right Rmax x l.
Proof. induction l as [|y l IH]; cbn; [lra|]. eapply Rle_trans; [exact IH | apply Rmax_r]. Qed.
Lemma fold_min x l : fold_right Rmin x l <= x.
Proof. induction l as [|y l IH]; cbn; [lra|]. eapply Rle_trans; [apply Rmin_r | exact IH]. Qed.
Lemma ptp_ge0 l : 0 <= ptp l.
Proof. unfold ptp. destruct (coordinates l) as [|x r]; [lra|]. pose proof (fold_max x r). pose proof (fold_min x r). lra. Qed.
(** ** Lists *)
Lemma take_all_some {A} (l : list A) idx : (forall i, In i idx -> (i < length l)%nat) -> exists r, take_all l idx = Some r /\ length r = length idx /\ forall x, In x r -> In x l.
Proof.
  induction idx as [|i idx IH]; intro H; [exists []; split; [reflexivity | split; [reflexivity | intros x []]]|]. destruct IH as (r & E & L & I); [intros; apply H; right; assumption|]. assert (i < length l)%nat as Hi by (apply H; left; reflexivity). apply nth_error_Some in Hi. cbn. destruct (nth_error l i) as [x|] eqn:F; [|contradiction]. rewrite E. exists (x :: r). split; [reflexivity|]. split; [cbn; rewrite L; reflexivity|]. intros y [<-|Hy]; [eapply nth_error_In; exact F | apply I; exact Hy].
Qed.
Lemma take_all_map {A} (d : A) (l : list A) idx r : take_all l idx = Some r -> r = map (fun i => nth i l d) idx.
Proof.
  revert r. induction idx as [|i idx IH]; intros r H; cbn in H; [injection H as <-; reflexivity|]. destruct (nth_error l i) as [x|] eqn:F; [|discriminate]. destruct (take_all l idx) as [r'|]; [|discriminate]. injection H as <-. cbn. rewrite <- (IH r' eq_refl). f_equal. symmetry. apply nth_error_nth. exact F.
Qed.
Lemma map_nth_seq_nat (l : list nat) : map (fun i => nth i l 0%nat) (seq 0 (length l)) = l.
Proof.
  induction l as [|x l IH]; [reflexivity|]. cbn [length seq map]. f_equal. rewrite <- seq_shift, map_map. exact IH.
Qed.
Lemma reorder_perm (l : list nat) p r : Permutation p (seq 0 (length l)) -> take_all l p = Some r -> Permutation r l.
Proof. intros P E. rewrite (take_all_map 0%nat l p r E). eapply Permutation_trans; [apply Permutation_map; exact P|]. rewrite map_nth_seq_nat. apply Permutation_refl. Qed.
Lemma nth_error_ext_app {A} (l m : list A) k x : nth_error l k = Some x -> nth_error (l ++ m) k = Some x.
Proof. intro H. rewrite nth_error_app1; [exact H | apply nth_error_Some; congruence]. Qed.
Lemma nth_error_last {A} (l : list A) x : nth_error (l ++ [x]) (length l) = Some x.
Proof. rewrite nth_error_app2 by lia. rewrite Nat.sub_diag. reflexivity. Qed.

Lemma all_ridges_in v p j vs : In (j, vs) (all_ridges v p) <-> In ((p, j), vs) (combine (v_ridge_points v) (v_ridge_vertices v)) \/ In ((j, p), vs) (combine (v_ridge_points v) (v_ridge_vertices v)).
Proof.
  unfold all_ridges. rewrite in_concat. split.
  - intros (x & Ix & I). apply in_map_iff in Ix. destruct Ix as (((p1, p2), vs') & <- & Ir). apply in_app_iff in I. destruct I as [I|I].
    + destruct (Nat.eqb_spec p1 p) as [->|]; [|destruct I]. destruct I as [E|[]]. injection E as -> ->. left. exact Ir.
    + destruct (Nat.eqb_spec p2 p) as [->|]; [|destruct I]. destruct I as [E|[]]. injection E as -> ->. right. exact Ir.
  - intros [I|I]; eexists; (split; [apply in_map_iff; eexists; split; [reflexivity | exact I]|]); cbv beta iota; rewrite Nat.eqb_refl; apply in_app_iff; [left | right]; left; reflexivity.
Qed.

(** ** The loops *)
Section Loops.
Context (order : list (option pt) -> list nat) (v : vor) (radius : R) (HC : contract v) (HR : 0 <= radius) (HO : orders order).
Let c := center (v_points v).
(** f is the end of the infinite ridge of i and j with finite end w. *)
Definition is_far i j w (f : pt) : Prop := dist2 f w = radius * radius /\ in_cell v f i /\ in_cell v f j.
Definition infinite_in (rs : list (nat * (Z * Z))) (j : nat) (w : pt) : Prop :=
  exists z1 z2 f, In (j, (z1, z2)) rs /\ ((z1 < 0)%Z /\ f = z2 \/ (z2 < 0)%Z /\ f = z1) /\ (0 <= f)%Z /\ nth_error (v_vertices v) (Z.to_nat f) = Some w.
Lemma ridge_step_lemma i st j z1 z2 : ridge_ok v i j z1 z2 ->
  (((0 <= z1)%Z /\ (0 <= z2)%Z) /\ ridge_step v c radius i st (j, (z1, z2)) = Ok st) \/
  (exists fz w f, ((z1 < 0)%Z /\ fz = z2 \/ (z2 < 0)%Z /\ fz = z1) /\ (0 <= fz)%Z /\ nth_error (v_vertices v) (Z.to_nat fz) = Some w /\ is_far i j w f /\
     ridge_step v c radius i st (j, (z1, z2)) = Ok (fst st ++ [length (snd st)], snd st ++ [Some f])).
Proof.
  intros (a & b & Ea & Eb & N & H1 & H2). destruct (Z_lt_le_dec z2 0) as [A2|A2].
  - right. destruct (H2 (or_intror A2)) as ([F|F] & HE); [|lia]. destruct (H1 z1 (or_introl eq_refl) F) as (w & Ew & Ci & Cj).
    destruct (geometry (v_points v) a b w radius N (nth_error_In _ _ Ea) (nth_error_In _ _ Eb) HE HR (in_cell_eq v w i a Ea Ci) (in_cell_eq v w j b Eb Cj)) as (f & Ef & D & Fa & Fb).
    exists z1, w, f. split; [right; auto|]. split; [exact F|]. split; [exact Ew|]. split; [split; [exact D | split; [exists a; auto | exists b; auto]]|].
    unfold ridge_step. cbn [fst snd]. replace (z2 <? 0)%Z with true by (symmetry; apply Z.ltb_lt; exact A2). replace (0 <=? z2)%Z with false by (symmetry; apply Z.leb_gt; exact A2). rewrite Ea, Eb. unfold py_nth. replace (0 <=? z1)%Z with true by (symmetry; apply Z.leb_le; exact F). rewrite Ew. fold c in Ef. rewrite Ef. reflexivity.
  - destruct (Z_lt_le_dec z1 0) as [A1|A1].
    + right. destruct (H2 (or_introl A1)) as (_ & HE). destruct (H1 z2 (or_intror eq_refl) A2) as (w & Ew & Ci & Cj).
      destruct (geometry (v_points v) a b w radius N (nth_error_In _ _ Ea) (nth_error_In _ _ Eb) HE HR (in_cell_eq v w i a Ea Ci) (in_cell_eq v w j b Eb Cj)) as (f & Ef & D & Fa & Fb).
      exists z2, w, f. split; [left; auto|]. split; [exact A2|]. split; [exact Ew|]. split; [split; [exact D | split; [exists a; auto | exists b; auto]]|].
      unfold ridge_step. cbn [fst snd]. replace (z2 <? 0)%Z with false by (symmetry; apply Z.ltb_ge; exact A2). replace (0 <=? z1)%Z with false by (symmetry; apply Z.leb_gt; exact A1). rewrite Ea, Eb. unfold py_nth. replace (0 <=? z2)%Z with true by (symmetry; apply Z.leb_le; exact A2). rewrite Ew. fold c in Ef. rewrite Ef. reflexivity.
    + left. split; [auto|]. unfold ridge_step. cbn [fst snd]. replace (z2 <? 0)%Z with false by (symmetry; apply Z.ltb_ge; exact A2). replace (0 <=? z1)%Z with true by (symmetry; apply Z.leb_le; exact A1). reflexivity.
Qed.
Lemma ridge_loop_lemma i rs : forall reg verts, (forall j z1 z2, In (j, (z1, z2)) rs -> ridge_ok v i j z1 z2) ->
  exists fs, ridge_loop v c radius i (reg, verts) rs = Ok (reg ++ seq (length verts) (length fs), verts ++ map Some fs) /\
    (forall f, In f fs -> exists j w, infinite_in rs j w /\ is_far i j w f) /\ (forall j w, infinite_in rs j w -> exists f, In f fs /\ is_far i j w f).
Proof.
  induction rs as [|(j & z1 & z2) rs IH]; intros reg verts H.
  - exists []. cbn. rewrite !app_nil_r. split; [reflexivity|]. split; [intros f [] | intros j w (z1 & z2 & f & [] & _)].
  - assert (forall j z1 z2, In (j, (z1, z2)) rs -> ridge_ok v i j z1 z2) as H' by (intros; apply H; right; assumption).
    cbn [ridge_loop]. destruct (ridge_step_lemma i (reg, verts) j z1 z2 (H j z1 z2 (or_introl eq_refl))) as [((P1 & P2) & E)|(fz & w & f & Cz & Pz & Ew & Ff & E)]; rewrite E; cbn [fst snd].
    + destruct (IH reg verts H') as (fs & L & A & B). exists fs. split; [exact L|]. split.
      * intros f If. destruct (A f If) as (j' & w & (a & b & g & I & R) & F). exists j', w. split; [|exact F]. exists a, b, g. split; [right; exact I | exact R].
      * intros j' w (a & b & g & [I|I] & R & Q); [injection I as <- <- <-; exfalso; lia|]. apply B. exists a, b, g. auto.
    + destruct (IH (reg ++ [length verts]) (verts ++ [Some f]) H') as (fs & L & A & B). exists (f :: fs). split; [|split].
      * rewrite L. rewrite app_length. cbn [length seq map]. rewrite Nat.add_1_r. rewrite <- !app_assoc. reflexivity.
      * intros g [<-|Ig].
        -- exists j, w. split; [|exact Ff]. exists z1, z2, fz. split; [left; reflexivity | auto].
        -- destruct (A g Ig) as (j' & w' & (a & b & h & I & R) & F). exists j', w'. split; [|exact F]. exists a, b, h. split; [right; exact I | exact R].
      * intros j' w' (a & b & g & [I|I] & R & Pg & Eg).
        -- injection I as <- <- <-. assert (g = fz) as -> by lia. rewrite Ew in Eg. injection Eg as <-. exists f. split; [left; reflexivity | exact Ff].
        -- destruct (B j' w') as (h & Ih & Fh); [exists a, b, g; auto|]. exists h. split; [right; exact Ih | exact Fh].
Qed.
(** What is known about the polygon of point i, for the final list of vertices. *)
Definition good_region (i : nat) (reg0 : list Z) (verts : list (option pt)) (reg : list nat) : Prop :=
  (forallb (fun z => (0 <=? z)%Z) reg0 = true /\ reg = map Z.to_nat reg0) \/
  (forallb (fun z => (0 <=? z)%Z) reg0 = false /\ exists new, Permutation reg (map Z.to_nat (filter (fun z => (0 <=? z)%Z) reg0) ++ new) /\
     (forall k, In k new -> exists f j w, nth_error verts k = Some (Some f) /\ infinite_in (all_ridges v i) j w /\ is_far i j w f) /\
     (forall j w, infinite_in (all_ridges v i) j w -> exists k f, In k new /\ nth_error verts k = Some (Some f) /\ is_far i j w f)).
Lemma good_extend i reg0 verts extra reg : good_region i reg0 verts reg -> good_region i reg0 (verts ++ extra) reg.
Proof.
  intros [H|(E & new & P & A & B)]; [left; exact H|]. right. split; [exact E|]. exists new. split; [exact P|]. split.
  - intros k Ik. destruct (A k Ik) as (f & j & w & Hf & R). exists f, j, w. split; [apply nth_error_ext_app; exact Hf | exact R].
  - intros j w I. destruct (B j w I) as (k & f & Ik & Hf & R). exists k, f. split; [exact Ik|]. split; [apply nth_error_ext_app; exact Hf | exact R].
Qed.
Lemma region_step_lemma i r verts : nth_error (v_point_region v) i = Some r -> (length (v_vertices v) <= length verts)%nat ->
  exists reg0 reg fs, nth_error (v_regions v) r = Some reg0 /\ region_step order v c radius i r verts = Ok (reg, verts ++ map Some fs) /\ good_region i reg0 (verts ++ map Some fs) reg.
Proof.
  intros Hi LV. destruct HC as (_ & C2 & C3). destruct (C2 i r Hi) as (reg0 & E0 & RV & RI). exists reg0. unfold region_step. rewrite E0.
  destruct (forallb (fun z => (0 <=? z)%Z) reg0) eqn:FB.
  - exists (map Z.to_nat reg0), []. cbn [map]. rewrite app_nil_r. split; [reflexivity|]. split; [reflexivity|]. left. auto.
  - assert (exists z, In z reg0 /\ (z < 0)%Z) as Inf.
    { clear -FB. induction reg0 as [|z l IH]; [discriminate|]. cbn in FB. apply andb_false_iff in FB. destruct FB as [F|F]; [exists z; split; [left; reflexivity | apply Z.leb_gt; exact F]|]. destruct (IH F) as (x & I & L). exists x. split; [right; exact I | exact L]. }
    destruct (RI Inf) as (j0 & vs0 & R0). apply all_ridges_in in R0.
    assert (forall j z1 z2, In (j, (z1, z2)) (all_ridges v i) -> ridge_ok v i j z1 z2) as RK. { intros j z1 z2 I. apply all_ridges_in in I. destruct I as [I|I]; [apply C3; exact I | apply ridge_sym, C3; exact I]. }
    set (fin := map Z.to_nat (filter (fun z => (0 <=? z)%Z) reg0)). destruct (ridge_loop_lemma i (all_ridges v i) fin verts RK) as (fs & L & A & B).
    assert (forall k, In k (fin ++ seq (length verts) (length fs)) -> (k < length (verts ++ map Some fs))%nat) as Bk.
    { intros k Ik. rewrite app_length, map_length. apply in_app_iff in Ik. destruct Ik as [Ik|Ik]; [|apply in_seq in Ik; lia]. apply in_map_iff in Ik. destruct Ik as (z & <- & Iz). apply filter_In in Iz. destruct Iz as (Iz & Pz). apply Z.leb_le in Pz. destruct (RV z Iz Pz) as (w & Ew & _). assert (Z.to_nat z < length (v_vertices v))%nat by (apply nth_error_Some; congruence). lia. }
    destruct (take_all_some (verts ++ map Some fs) _ Bk) as (vs & Evs & Lvs & _).
    assert (forall k, In k (order vs) -> (k < length (fin ++ seq (length verts) (length fs)))%nat) as Bo. { intros k Ik. apply (Permutation_in _ (HO vs)) in Ik. apply in_seq in Ik. lia. }
    destruct (take_all_some (fin ++ seq (length verts) (length fs)) _ Bo) as (reg & Er & _ & _).
    exists reg, fs. split; [reflexivity|]. split.
    + destruct (all_ridges v i) as [|x l] eqn:AR; [destruct R0|]. rewrite L, Evs, Er. reflexivity.
    + right. split; [exact FB|]. exists (seq (length verts) (length fs)). fold fin. split; [|split].
      * apply (reorder_perm _ (order vs)); [rewrite <- Lvs; apply HO | exact Er].
      * intros k Ik. apply in_seq in Ik. assert (k - length verts < length fs)%nat as Lk by lia. apply nth_error_Some in Lk. destruct (nth_error fs (k - length verts)) as [f|] eqn:Ef; [|contradiction]. destruct (A f (nth_error_In _ _ Ef)) as (j & w & I & F). exists f, j, w. split; [|auto]. rewrite nth_error_app2 by lia. rewrite nth_error_map, Ef. reflexivity.
      * intros j w I. destruct (B j w I) as (f & If & F). apply In_nth_error in If. destruct If as (n & En). assert (n < length fs)%nat by (apply nth_error_Some; congruence). exists (length verts + n)%nat, f. split; [apply in_seq; lia|]. split; [|exact F]. rewrite nth_error_app2 by lia. replace (length verts + n - length verts)%nat with n by lia. rewrite nth_error_map, En. reflexivity.
Qed.
Lemma region_loop_lemma rs : forall i verts, (forall k r, nth_error rs k = Some r -> nth_error (v_point_region v) (i + k) = Some r) -> (length (v_vertices v) <= length verts)%nat ->
  exists regs fs, region_loop order v c radius i rs verts = Ok (regs, verts ++ map Some fs) /\ length regs = length rs /\
    forall k r reg, nth_error rs k = Some r -> nth_error regs k = Some reg -> exists reg0, nth_error (v_regions v) r = Some reg0 /\ good_region (i + k) reg0 (verts ++ map Some fs) reg.
Proof.
  induction rs as [|r rs IH]; intros i verts H LV.
  - exists [], []. cbn. rewrite app_nil_r. split; [reflexivity|]. split; [reflexivity|]. intros [|k]; discriminate.
  - destruct (region_step_lemma i r verts) as (reg0 & reg & fs & E0 & E & G); [specialize (H 0%nat r eq_refl); rewrite Nat.add_0_r in H; exact H | exact LV|].
    destruct (IH (S i) (verts ++ map Some fs)) as (regs & fs' & E' & L' & G'). { intros k x Hk. replace (S i + k)%nat with (i + S k)%nat by lia. apply H. exact Hk. } { rewrite app_length. lia. }
    exists (reg :: regs), (fs ++ fs'). cbn [region_loop]. rewrite E, E'. rewrite map_app, app_assoc. split; [reflexivity|]. split; [cbn; rewrite L'; reflexivity|]. intros [|k] x y Hx Hy; cbn in Hx, Hy.
    + injection Hx as <-. injection Hy as <-. exists reg0. split; [exact E0|]. rewrite Nat.add_0_r. apply good_extend. exact G.
    + replace (i + S k)%nat with (S i + k)%nat by lia. apply (G' k x y Hx Hy).
Qed.
End Loops.
Lemma infinite_ridge_iff v i j w : infinite_in v (all_ridges v i) j w <-> infinite_ridge v i j w.
Proof. unfold infinite_in, infinite_ridge. split; intros (z1 & z2 & f & I & R); exists z1, z2, f; (split; [apply all_ridges_in; exact I | exact R]). Qed.
Lemma radius_ge0 v radius : (forall r, radius = Some r -> 0 <= r) -> 0 <= the_radius v radius.
Proof. intro H. unfold the_radius. destruct radius as [r|]; [apply H; reflexivity | apply ptp_ge0]. Qed.
Lemma main_lemma order v radius : contract v -> orders order -> (forall r, radius = Some r -> 0 <= r) ->
  exists regs fs, finite_polygons order v radius = Ok (regs, map Some (v_vertices v) ++ map Some fs) /\ length regs = length (v_points v) /\
    forall i reg, nth_error regs i = Some reg -> exists r reg0, nth_error (v_point_region v) i = Some r /\ nth_error (v_regions v) r = Some reg0 /\ good_region v (the_radius v radius) i reg0 (map Some (v_vertices v) ++ map Some fs) reg.
Proof.
  intros HC HO HR. destruct (region_loop_lemma order v (the_radius v radius) HC (radius_ge0 v radius HR) HO (v_point_region v) 0 (map Some (v_vertices v))) as (regs & fs & E & L & G); [intros k r H; exact H | rewrite map_length; lia|].
  exists regs, fs. split; [exact E|]. split; [rewrite L; apply HC|]. intros i reg Hi. assert (i < length (v_point_region v))%nat as Hl by (rewrite <- L; apply nth_error_Some; congruence). apply nth_error_Some in Hl. destruct (nth_error (v_point_region v) i) as [r|] eqn:Er; [|contradiction]. destruct (G i r reg Er Hi) as (reg0 & E0 & GR). exists r, reg0. auto.
Qed.
Lemma cells_lemma : forall order v radius, contract v -> orders order -> (forall r, radius = Some r -> 0 <= r) ->
  exists regs verts, finite_polygons order v radius = Ok (regs, verts) /\ length regs = length (v_points v) /\
    (exists extra, verts = map Some (v_vertices v) ++ map Some extra) /\ forall i reg, nth_error regs i = Some reg -> polygon_in_cell v verts i reg.
Proof.
  intros order v radius HC HO HR. destruct (main_lemma order v radius HC HO HR) as (regs & fs & E & L & G). exists regs, (map Some (v_vertices v) ++ map Some fs). split; [exact E|]. split; [exact L|]. split; [exists fs; reflexivity|].
  intros i reg Hi k Ik. destruct (G i reg Hi) as (r & reg0 & Er & E0 & GR). destruct HC as (_ & C2 & _). destruct (C2 i r Er) as (reg0' & E0' & RV & _). rewrite E0 in E0'. injection E0' as <-.
  assert (forall z, In z reg0 -> (0 <= z)%Z -> exists w, nth_error (map Some (v_vertices v) ++ map Some fs) (Z.to_nat z) = Some (Some w) /\ in_cell v w i) as FIN. { intros z Iz Pz. destruct (RV z Iz Pz) as (w & Ew & C). exists w. split; [|exact C]. apply nth_error_ext_app. rewrite nth_error_map, Ew. reflexivity. }
  destruct GR as [(FB & ->)|(FB & new & P & A & _)].
  - apply in_map_iff in Ik. destruct Ik as (z & <- & Iz). rewrite forallb_forall in FB. apply FIN; [exact Iz | apply Z.leb_le, FB, Iz].
  - apply (Permutation_in _ P) in Ik. apply in_app_iff in Ik. destruct Ik as [Ik|Ik].
    + apply in_map_iff in Ik. destruct Ik as (z & <- & Iz). apply filter_In in Iz. destruct Iz as (Iz & Pz). apply FIN; [exact Iz | apply Z.leb_le, Pz].
    + destruct (A k Ik) as (f & j & w & Ef & _ & _ & Ci & _). exists f. auto.
Qed.
Lemma finite_lemma : forall order v radius regs verts i r reg0, contract v -> orders order -> (forall r, radius = Some r -> 0 <= r) -> finite_polygons order v radius = Ok (regs, verts) ->
  nth_error (v_point_region v) i = Some r -> nth_error (v_regions v) r = Some reg0 -> (forall z, In z reg0 -> (0 <= z)%Z) -> nth_error regs i = Some (map Z.to_nat reg0).
Proof.
  intros order v radius regs verts i r reg0 HC HO HR E Er E0 P. destruct (main_lemma order v radius HC HO HR) as (regs' & fs & E' & L & G). rewrite E in E'. injection E' as <- _.
  assert (i < length regs)%nat as Li by (rewrite L, <- (proj1 HC); apply nth_error_Some; congruence). apply nth_error_Some in Li. destruct (nth_error regs i) as [reg|] eqn:Ei; [|contradiction]. destruct (G i reg Ei) as (r' & reg0' & Er' & E0' & [(_ & ->)|(FB & _)]); rewrite Er in Er'; injection Er' as <-; rewrite E0 in E0'; injection E0' as <-; [reflexivity|]. exfalso.
  assert (forallb (fun z => (0 <=? z)%Z) reg0 = true) by (apply forallb_forall; intros z Iz; apply Z.leb_le, P, Iz). congruence.
Qed.
Lemma infinite_lemma : forall order v radius regs verts i r reg0 reg, contract v -> orders order -> (forall r, radius = Some r -> 0 <= r) -> finite_polygons order v radius = Ok (regs, verts) ->
  nth_error (v_point_region v) i = Some r -> nth_error (v_regions v) r = Some reg0 -> (exists z, In z reg0 /\ (z < 0)%Z) -> nth_error regs i = Some reg ->
  exists new, Permutation reg (map Z.to_nat (filter (fun z => (0 <=? z)%Z) reg0) ++ new) /\
    (forall k, In k new -> exists f j w, nth_error verts k = Some (Some f) /\ infinite_ridge v i j w /\ dist2 f w = Rsqr (the_radius v radius) /\ in_cell v f i /\ in_cell v f j) /\
    (forall j w, infinite_ridge v i j w -> exists k f, In k new /\ nth_error verts k = Some (Some f) /\ dist2 f w = Rsqr (the_radius v radius) /\ in_cell v f i /\ in_cell v f j).
Proof.
  intros order v radius regs verts i r reg0 reg HC HO HR E Er E0 (z & Iz & Nz) Ei. destruct (main_lemma order v radius HC HO HR) as (regs' & fs & E' & L & G). rewrite E in E'. injection E' as <- ->.
  destruct (G i reg Ei) as (r' & reg0' & Er' & E0' & [(FB & _)|(FB & new & P & A & B)]); rewrite Er in Er'; injection Er' as <-; rewrite E0 in E0'; injection E0' as <-.
  - exfalso. rewrite forallb_forall in FB. specialize (FB z Iz). apply Z.leb_le in FB. lia.
  - exists new. split; [exact P|]. split.
    + intros k Ik. destruct (A k Ik) as (f & j & w & Ef & I & D & Ci & Cj). exists f, j, w. split; [exact Ef|]. split; [apply infinite_ridge_iff; exact I|]. auto.
    + intros j w I. apply infinite_ridge_iff in I. destruct (B j w I) as (k & f & Ik & Ef & D & Ci & Cj). exists k, f. auto.
Qed.
