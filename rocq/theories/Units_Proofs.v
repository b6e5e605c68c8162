From Coq Require Import List Arith Bool QArith Qcanon Lia.
From Verif Require Import Err Num Ext NumPy Lists SampleSet_Spec Query_Model Query_Spec Query_Proofs Bounds_Model Bounds_Proofs SimpleInputs_Model SimpleFun_Model SimpleFun_Spec SimpleFun_Proofs OutGrid_Spec OutGrid_Proofs Units_Spec.
Import ListNotations.
Local Open Scope nat_scope.

(** ** Functions applied coordinate by coordinate *)
Definition zapp {A B} (F : list (A -> B)) (v : list A) : list B := map (fun t => fst t (snd t)) (combine F v).
Definition zmap {A B} (F : list (A -> B)) (ls : list (list A)) : list (list B) := map (fun t => map (fst t) (snd t)) (combine F ls).
Lemma zapp_cons {A B} (f : A -> B) F x v : zapp (f :: F) (x :: v) = f x :: zapp F v.
Proof. reflexivity. Qed.
Lemma grid_rest_zmap {A B} (F : list (A -> B)) ls : length F = length ls -> grid_rest (zmap F ls) = map (zapp F) (grid_rest ls).
Proof.
  revert F. induction ls as [|l r IH]; intros [|f F] E; try discriminate E; [reflexivity|]. injection E as E. change (zmap (f :: F) (l :: r)) with (map f l :: zmap F r). cbn [grid_rest]. rewrite (IH F E). clear.
  induction (grid_rest r) as [|t ts IH]; [reflexivity|]. cbn [map flat_map]. rewrite map_app, IH, !map_map. f_equal.
Qed.
Lemma mesh_rows_zmap {A B} (F : list (A -> B)) ls : length F = length ls -> mesh_rows (zmap F ls) = map (zapp F) (mesh_rows ls).
Proof.
  destruct ls as [|l0 [|l1 r]]; destruct F as [|f [|f1 F]]; intros E; try discriminate E; [reflexivity| |].
  - cbn. rewrite !map_map. reflexivity.
  - injection E as E. change (zmap (f :: f1 :: F) (l0 :: l1 :: r)) with (map f l0 :: map f1 l1 :: zmap F r). cbn [mesh_rows]. rewrite (grid_rest_zmap F r E). clear.
    induction (grid_rest r) as [|t ts IH]; [reflexivity|]. cbn [map flat_map]. rewrite map_app, IH. f_equal. clear. induction l0 as [|x l IH]; [reflexivity|]. cbn [map flat_map]. rewrite map_app, IH, !map_map. reflexivity.
Qed.
Lemma lowers_map f (l : list Qc) : lowers (map f l) = map f (lowers l).
Proof. unfold lowers. induction l as [|x [|y l] IH]; [reflexivity|reflexivity|]. change (removelast (map f (x :: y :: l))) with (f x :: removelast (map f (y :: l))). rewrite IH. reflexivity. Qed.
Lemma uppers_map f (l : list Qc) : uppers (map f l) = map f (uppers l).
Proof. destruct l; reflexivity. Qed.
Lemma zmap_side (side : list Qc -> list Qc) F ls : (forall f l, side (map f l) = map f (side l)) -> map side (zmap F ls) = zmap F (map side ls).
Proof. intros H. unfold zmap. revert ls. induction F as [|f F IH]; intros [|l ls]; try reflexivity. cbn [combine map fst snd]. rewrite H, IH. reflexivity. Qed.
Definition rising (f : Qc -> Qc) : Prop := forall x y, (x < y)%Qc -> (f x < f y)%Qc.
Lemma rising_ltb f x y : rising f -> qltb (f x) (f y) = qltb x y.
Proof.
  intros R. destruct (qltb x y) eqn:E.
  - apply qltb_true. apply R. apply qltb_true. exact E.
  - apply qltb_false in E. apply qltb_false. destruct (Qcle_lt_or_eq _ _ E) as [L|L]; [apply Qclt_le_weak, R; exact L|rewrite L; apply Qcle_refl].
Qed.
Lemma rising_leb f x y : rising f -> qleb (f x) (f y) = qleb x y.
Proof.
  intros R. destruct (qleb x y) eqn:E.
  - apply qleb_true in E. apply qleb_true. destruct (Qcle_lt_or_eq _ _ E) as [L|L]; [apply Qclt_le_weak, R; exact L|rewrite L; apply Qcle_refl].
  - apply qleb_false in E. apply qleb_false. apply R. exact E.
Qed.
Lemma in_rec_zapp F x l r : (forall f, In f F -> rising f) -> length F = length x -> in_rec (zapp F x) (zapp F l) (zapp F r) = in_rec x l r.
Proof.
  intros R E. unfold in_rec. f_equal.
  - clear l. revert x r E. induction F as [|f F IH]; intros [|y x] r E; try discriminate E; [reflexivity|]. destruct r as [|q r]; [reflexivity|]. rewrite !zapp_cons. cbn [combine forallb fst snd]. rewrite (rising_leb f) by (apply R; left; reflexivity). f_equal. apply IH; [intros g Hg; apply R; right; exact Hg|injection E as E; exact E].
  - clear r. revert x l E. induction F as [|f F IH]; intros [|y x] r E; try discriminate E; [reflexivity|]. destruct r as [|q r]; [reflexivity|]. rewrite !zapp_cons. cbn [combine forallb fst snd]. rewrite (rising_ltb f) by (apply R; left; reflexivity). f_equal. apply IH; [intros g Hg; apply R; right; exact Hg|injection E as E; exact E].
Qed.
Lemma cart_rows d xi s : cart_setup d xi = Ok s -> rdim s = d /\ lefts s = mesh_rows (map lowers xi) /\ rights s = mesh_rows (map uppers xi).
Proof.
  unfold cart_setup. destruct (negb (length xi =? d)); [discriminate|]. destruct (outer_axis (map uppers xi)) as [[|q o]|]; try discriminate. unfold rect_setup. destruct (negb (length _ =? length _)); [discriminate|]. destruct (negb (forallb _ _)); [discriminate|]. intros E. injection E as <-. cbn. repeat split.
Qed.
Lemma query_zapp d F xi s s' x k : length F = d -> length xi = d -> (forall f, In f F -> rising f) -> cart_setup d xi = Ok s -> cart_setup d (zmap F xi) = Ok s' -> length x = d -> rect_query s' (zapp F x) k = rect_query s x k.
Proof.
  intros LF LX R E1 E2 Lx. destruct (cart_rows _ _ _ E1) as (D1 & A1 & B1). destruct (cart_rows _ _ _ E2) as (D2 & A2 & B2). unfold rect_query. rewrite D1, D2.
  assert (length (zapp F x) = d) as -> by (unfold zapp; rewrite map_length, combine_length; lia). rewrite Lx, Nat.eqb_refl. cbn [negb]. do 2 f_equal.
  rewrite A1, A2, B1, B2, (zmap_side lowers F xi lowers_map), (zmap_side uppers F xi uppers_map), !mesh_rows_zmap by (rewrite map_length; lia).
  set (ls := mesh_rows (map lowers xi)). set (rs := mesh_rows (map uppers xi)). clearbody ls rs. revert rs. induction ls as [|l ls IH]; intros [|r rs]; try reflexivity. cbn [map combine fst snd]. rewrite IH. f_equal. apply in_rec_zapp; [exact R|lia].
Qed.
(** ** Units *)
Definition unit_fun (t : Qc * Qc) (x : Qc) : Qc := (fst t * x + snd t)%Qc.
Lemma unit_rising t : (0 < fst t)%Qc -> rising (unit_fun t).
Proof. intros P x y L. unfold unit_fun. assert (0 < fst t * (y - x))%Qc by (apply qc_mul_pos; [exact P|clear -L; qc_lra]). replace (fst t * y + snd t)%Qc with (fst t * x + snd t + fst t * (y - x))%Qc by ring. revert H. generalize (fst t * (y - x))%Qc (fst t * x)%Qc. clear. intros. qc_lra. Qed.
Lemma in_units_zapp a b v : in_units a b v = zapp (map unit_fun (combine a b)) v.
Proof. unfold in_units, zapp. generalize (combine a b). intros ab. revert v. induction ab as [|t ab IH]; intros [|x v]; try reflexivity. cbn [map combine fst snd]. rewrite IH. reflexivity. Qed.
Lemma linspace_units t c s n : linspace (vhalf_sub (unit_fun t c) (fst t * s)) (vhalf_add (unit_fun t c) (fst t * s)) n = map (unit_fun t) (linspace (vhalf_sub c s) (vhalf_add c s) n).
Proof.
  destruct n as [|n].
  - cbn. unfold unit_fun, vhalf_sub. f_equal. ring.
  - unfold linspace. rewrite map_map. apply map_ext. intros i. unfold unit_fun, vhalf_sub, vhalf_add, Qcdiv. ring.
Qed.
Lemma edges_units a b Q size cells : length a = length b -> edges_of (in_units a b Q) (length_in_units a size) cells = zmap (map unit_fun (combine a b)) (edges_of Q size cells).
Proof.
  unfold edges_of, in_units, length_in_units, zmap. revert b Q size cells. induction a as [|x a IH]; intros [|y b] Q size cells E; try discriminate E; [reflexivity|]. destruct Q as [|c Q]; [reflexivity|]. destruct size as [|s size]; [reflexivity|]. destruct cells as [|n cells]; [reflexivity|].
  cbn [combine map fst snd]. injection E as E. rewrite (IH b Q size cells E). f_equal. apply (linspace_units (x, y)).
Qed.
Section Units.
Variables (dim : nat) (a b Q size : list Qc) (cells : list nat).
Hypotheses (LA : length a = dim) (LB : length b = dim) (LQ : length Q = dim) (LS : length size = dim) (LC : length cells = dim) (Hd : 1 <= dim)
  (Apos : forall u, In u a -> (0 < u)%Qc) (Pos : forall s, In s size -> (0 < s)%Qc) (Cpos : forall n, In n cells -> 0 < n).
Lemma units_lemma s P : regular_partition dim Q size cells = Ok (s, P) -> exists s', regular_partition dim (in_units a b Q) (length_in_units a size) cells = Ok (s', P) /\
  forall x k, length x = dim -> rect_query s' (in_units a b x) k = rect_query s x k.
Proof.
  intros E. destruct (regular_ok dim Q size cells LQ LS LC Hd Pos Cpos) as (s0 & R1 & C1 & _). rewrite E in R1. injection R1 as <- ->.
  destruct (regular_ok dim (in_units a b Q) (length_in_units a size) cells) as (s' & R2 & C2 & _); [unfold in_units; rewrite map_length, !combine_length; lia|unfold length_in_units; rewrite map_length, combine_length; lia|exact LC|exact Hd| |exact Cpos|].
  { intros q Hq. unfold length_in_units in Hq. apply in_map_iff in Hq. destruct Hq as ((u, v) & <- & I). cbn [fst snd]. apply qc_mul_pos; [apply Apos; apply in_combine_l in I; exact I|apply Pos; apply in_combine_r in I; exact I]. }
  exists s'. split; [exact R2|]. intros x k Lx. rewrite in_units_zapp. rewrite edges_units in C2 by congruence. apply (query_zapp dim _ (edges_of Q size cells)); [rewrite map_length, combine_length; lia|unfold edges_of; rewrite map_length, !combine_length; lia| |exact C1|exact C2|exact Lx].
  intros f Hf. apply in_map_iff in Hf. destruct Hf as ((u, v) & <- & I). apply unit_rising. apply Apos. apply in_combine_l in I. exact I.
Qed.
End Units.
Lemma units_found dim a b s s' outputs ptrs : (forall x k, length x = dim -> rect_query s' (in_units a b x) k = rect_query s x k) -> (forall x, In x (concat outputs) -> length x = dim) ->
  found_in s outputs ptrs -> found_in s' (map (map (in_units a b)) outputs) ptrs.
Proof.
  intros H LX F. unfold found_in in *. induction F as [|xs ks o p HX F IH]; [constructor|]. cbn [map]. constructor.
  - assert (LB : forall x, In x xs -> length x = dim) by (intros x Hx; apply LX; cbn; apply in_or_app; left; exact Hx). clear -H HX LB. induction HX as [|x k l m (e & E) HX IH]; [constructor|]. cbn [map]. constructor; [exists e; rewrite H; [exact E|apply LB; left; reflexivity]|]. apply IH. intros y Hy. apply LB. right. exact Hy.
  - apply IH. intros x Hx. apply LX. cbn. apply in_or_app. right. exact Hx.
Qed.
(** ** Domains *)
Lemma domain_center_units a b lo hi : length a = length b -> length a = length lo -> length lo = length hi -> domain_center (in_units a b lo) (in_units a b hi) = in_units a b (domain_center lo hi).
Proof.
  unfold domain_center, in_units. revert b lo hi. induction a as [|x a IH]; intros [|y b] [|l lo] [|h hi] E1 E2 E3; try discriminate; [reflexivity|]. cbn [combine map fst snd]. injection E1 as E1. injection E2 as E2. injection E3 as E3. rewrite IH by assumption. f_equal. assert (qn 2 = 1 + 1)%Qc as -> by (apply Qc_is_canon; reflexivity). field. discriminate.
Qed.
Lemma qmax_rising f x y : rising f -> qmax (f x) (f y) = f (qmax x y).
Proof. intros R. unfold qmax. rewrite (rising_leb f x y R). destruct (qleb x y); reflexivity. Qed.
Lemma qmin_rising f x y : rising f -> qmin (f x) (f y) = f (qmin x y).
Proof. intros R. unfold qmin. rewrite (rising_leb f x y R). destruct (qleb x y); reflexivity. Qed.
Lemma domain_lengths_units a b lo hi : length a = length b -> (forall u, In u a -> (0 < u)%Qc) -> domain_lengths (in_units a b lo) (in_units a b hi) = length_in_units a (domain_lengths lo hi).
Proof.
  unfold domain_lengths, in_units, length_in_units. revert b lo hi. induction a as [|x a IH]; intros [|y b] lo hi E P; try discriminate; [reflexivity|]. destruct lo as [|l lo]; [reflexivity|]. destruct hi as [|h hi]; [reflexivity|]. cbn [combine map fst snd]. injection E as E. rewrite IH by (try exact E; intros u Hu; apply P; right; exact Hu). f_equal.
  pose proof (unit_rising (x, y) (P x (or_introl eq_refl))) as R. change (x * l + y)%Qc with (unit_fun (x, y) l). change (x * h + y)%Qc with (unit_fun (x, y) h). rewrite (qmax_rising _ l h R), (qmin_rising _ l h R). unfold unit_fun. cbn [fst snd]. ring.
Qed.
(** ** Voronoi cells *)
Lemma distance2_units u b x y : length b = length x -> length x = length y -> distance2 (in_units (repeat u (length b)) b x) (in_units (repeat u (length b)) b y) = (u * u * distance2 x y)%Qc.
Proof.
  unfold distance2, in_units. revert x y. induction b as [|c b IH]; intros [|p x] [|q y] E1 E2; try discriminate; [cbn; ring|]. cbn [length repeat combine map fst snd qsum]. injection E1 as E1. injection E2 as E2. rewrite (IH x y E1 E2). ring.
Qed.
Lemma common_factor_lemma u b l x i : (0 < u)%Qc -> length x = length b -> (forall v, In v l -> length v = length b) ->
  nearest distance2 l x i <-> nearest distance2 (map (in_units (repeat u (length b)) b) l) (in_units (repeat u (length b)) b x) i.
Proof.
  intros U LX LV. assert (UU : (0 < u * u)%Qc) by (apply qc_mul_pos; exact U). assert (D : forall v, In v l -> distance2 (in_units (repeat u (length b)) b x) (in_units (repeat u (length b)) b v) = (u * u * distance2 x v)%Qc) by (intros v Hv; apply distance2_units; [symmetry; exact LX|rewrite LX; symmetry; apply LV; exact Hv]).
  split.
  - intros (v & Ev & H). exists (in_units (repeat u (length b)) b v). split; [rewrite nth_error_map, Ev; reflexivity|]. intros w Hw. apply in_map_iff in Hw. destruct Hw as (w' & <- & Hw). rewrite (D v (nth_error_In _ _ Ev)), (D w' Hw). rewrite !(Qcmult_comm (u * u)). apply Qcmult_le_compat_r; [apply H; exact Hw|apply Qclt_le_weak; exact UU].
  - intros (v' & Ev & H). rewrite nth_error_map in Ev. destruct (nth_error l i) as [v|] eqn:E; [|discriminate Ev]. injection Ev as <-. exists v. split; [exact E|]. intros w Hw. specialize (H _ (in_map _ _ _ Hw)). rewrite (D v (nth_error_In _ _ E)), (D w Hw) in H. apply Qcmult_lt_0_le_reg_r with (u * u)%Qc; [exact UU|]. rewrite !(Qcmult_comm _ (u * u)). exact H.
Qed.
(** ** Drawn bins and boxes around the data *)
Lemma rect_point_units k a b size Q u : length a = length b -> rect_point k (length_in_units a size) (in_units a b Q) u = in_units a b (rect_point k size Q u).
Proof.
  unfold rect_point, length_in_units, in_units. revert b size Q u. induction a as [|x a IH]; intros [|y b] size Q u E; try discriminate; [reflexivity|]. destruct size as [|s size]; [reflexivity|]. destruct Q as [|q Q]; [reflexivity|]. destruct u as [|w u]; [reflexivity|]. cbn [combine map fst snd]. injection E as E. rewrite (IH b size Q u E). f_equal. ring.
Qed.
Lemma zapp_pairs F (h : Qc -> Qc -> Qc) x y : (forall f, In f F -> forall p q, h (f p) (f q) = f (h p q)) -> map (fun p => h (fst p) (snd p)) (combine (zapp F x) (zapp F y)) = zapp F (map (fun p => h (fst p) (snd p)) (combine x y)).
Proof.
  revert x y. induction F as [|f F IH]; intros x y H; [reflexivity|]. destruct x as [|p x]; [reflexivity|]. destruct y as [|q y]; [reflexivity|]. rewrite !zapp_cons. cbn [combine map fst snd]. rewrite zapp_cons, IH by (intros g Hg; apply H; right; exact Hg). f_equal. apply H. left. reflexivity.
Qed.
Lemma col_min_zapp F l : (forall f, In f F -> rising f) -> forall r, col_min (zapp F r) (map (zapp F) l) = zapp F (col_min r l).
Proof.
  intros R. induction l as [|x l IH]; intros r; [reflexivity|]. cbn [map col_min]. rewrite (zapp_pairs F qmin) by (intros f Hf p q; apply qmin_rising; apply R; exact Hf). apply IH.
Qed.
Lemma col_max_zapp F l : (forall f, In f F -> rising f) -> forall r, col_max (zapp F r) (map (zapp F) l) = zapp F (col_max r l).
Proof.
  intros R. induction l as [|x l IH]; intros r; [reflexivity|]. cbn [map col_max]. rewrite (zapp_pairs F qmax) by (intros f Hf p q; apply qmax_rising; apply R; exact Hf). apply IH.
Qed.
Lemma range_units a b lo hi : length a = length b -> map (fun p => snd p - fst p)%Qc (combine (in_units a b lo) (in_units a b hi)) = length_in_units a (map (fun p => snd p - fst p)%Qc (combine lo hi)).
Proof.
  unfold in_units, length_in_units. revert b lo hi. induction a as [|x a IH]; intros [|y b] lo hi E; try discriminate; [reflexivity|]. destruct lo as [|l lo]; [reflexivity|]. destruct hi as [|h hi]; [reflexivity|]. cbn [combine map fst snd]. injection E as E. rewrite (IH b lo hi E). f_equal. ring.
Qed.
Lemma scaled_units a b vs scale sz : length a = length b -> (forall u, In u a -> (0 < u)%Qc) -> (forall v, In v vs -> length v = length a) ->
  scaled_sizes vs scale = Ok (NArr sz) -> scaled_sizes (map (in_units a b) vs) scale = Ok (NArr (length_in_units a sz)).
Proof.
  intros E P LV. destruct vs as [|r l]; [discriminate|]. unfold scaled_sizes. cbn [map].
  assert (R : forall f, In f (map unit_fun (combine a b)) -> rising f) by (intros f Hf; apply in_map_iff in Hf; destruct Hf as ((u, v) & <- & I); apply unit_rising; apply P; apply in_combine_l in I; exact I).
  rewrite in_units_zapp, (map_ext _ _ (in_units_zapp a b)), (col_min_zapp _ l R), (col_max_zapp _ l R), <- !in_units_zapp, (range_units a b _ _ E).
  assert (Lr : length r = length a) by (apply LV; left; reflexivity). assert (FL : Forall (fun x => length x = length r) l) by (apply Forall_forall; intros x Hx; rewrite Lr; apply LV; right; exact Hx).
  set (rg := map (fun p => snd p - fst p)%Qc (combine (col_min r l) (col_max r l))). assert (LR : length rg = length a) by (unfold rg; rewrite map_length, combine_length, (proj1 (col_min_spec l r FL)), (proj1 (col_max_spec l r FL)); lia).
  assert (length (length_in_units a rg) = length rg) as -> by (unfold length_in_units; rewrite map_length, combine_length; lia).
  destruct (center_of scale (length rg)) as [s|]; [|discriminate]. cbn [bind]. intros H. injection H as <-. do 2 f_equal. clearbody rg. clear. unfold length_in_units. revert rg s. induction a as [|x a IH]; intros rg s; [reflexivity|]. destruct rg as [|g rg]; [reflexivity|]. destruct s as [|q s]; [reflexivity|]. cbn [combine map fst snd]. rewrite IH. f_equal. ring.
Qed.
