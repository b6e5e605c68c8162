(** Proofs about Gradient_Model. *)
From Coq Require Import List Arith Bool QArith Qcanon Lia.
From Verif Require Import Num Err Ext NumPy Lists Util_Model SampleSet_Proofs Query_Proofs Inverse_Proofs Gradient_Model Gradient_Spec.
Import ListNotations.
Local Open Scope nat_scope.
Local Open Scope err_scope.

(** ** Blocks of equal size *)
Lemma flat_map_ext_in {A B} (f g : A -> list B) l : (forall x, In x l -> f x = g x) -> flat_map f l = flat_map g l.
Proof. induction l as [|x l IH]; intro H; simpl; [reflexivity|]. rewrite H by (left; reflexivity). f_equal. apply IH. intros; apply H; right; assumption. Qed.
Lemma flat_map_len {A B} (f : A -> list B) l k : (forall x, In x l -> length (f x) = k) -> length (flat_map f l) = length l * k.
Proof. induction l as [|x l IH]; intro H; simpl; [reflexivity|]. rewrite app_length, IH, H; [reflexivity | left; reflexivity | intros; apply H; right; assumption]. Qed.
Lemma nth_error_blocks {A B} (f : A -> list B) l k c j x : (forall y, In y l -> length (f y) = k) -> j < k -> nth_error l c = Some x ->
  nth_error (flat_map f l) (c * k + j) = nth_error (f x) j.
Proof.
  revert c; induction l as [|y l IH]; intros [|c] H J E; simpl in *; try discriminate.
  - injection E as ->. apply nth_error_app1. rewrite H by (left; reflexivity). exact J.
  - rewrite nth_error_app2; rewrite H by (left; reflexivity); [|lia]. replace (k + c * k + j - k) with (c * k + j) by lia.
    apply IH; [intros; apply H; right; assumption | exact J | exact E].
Qed.
Lemma combine_app_eq {A B} (a1 a2 : list A) (b1 b2 : list B) : length a1 = length b1 ->
  combine (a1 ++ a2) (b1 ++ b2) = combine a1 b1 ++ combine a2 b2.
Proof. revert b1; induction a1 as [|x a1 IH]; intros [|y b1] H; simpl in *; try discriminate; [reflexivity|]. f_equal. apply IH. lia. Qed.
Lemma combine_blocks {A B C} (f : A -> list B) (g : A -> list C) l : (forall x, In x l -> length (f x) = length (g x)) ->
  combine (flat_map f l) (flat_map g l) = flat_map (fun x => combine (f x) (g x)) l.
Proof.
  induction l as [|x l IH]; intro H; simpl; [reflexivity|]. rewrite combine_app_eq by (apply H; left; reflexivity).
  f_equal. apply IH. intros; apply H; right; assumption.
Qed.
Lemma map_flat_map {A B C} (h : B -> C) (f : A -> list B) l : map h (flat_map f l) = flat_map (fun x => map h (f x)) l.
Proof. induction l as [|x l IH]; simpl; [reflexivity|]. rewrite map_app, IH. reflexivity. Qed.
Lemma flat_map_map {A B C} (h : A -> B) (f : B -> list C) l : flat_map f (map h l) = flat_map (fun x => f (h x)) l.
Proof. induction l as [|x l IH]; simpl; [reflexivity|]. rewrite IH. reflexivity. Qed.
Lemma np_tile_blocks {A B} (t : list A) (l : list B) : np_tile t (length l) = flat_map (fun _ => t) l.
Proof. unfold np_tile. induction l as [|x l IH]; simpl; [reflexivity|]. rewrite IH. reflexivity. Qed.
Lemma repeat_seq {A} (x : A) n s : repeat x n = map (fun _ => x) (seq s n).
Proof. revert s; induction n as [|n IH]; intro s; simpl; [reflexivity|]. f_equal. apply IH. Qed.
Lemma combine_maps {A B C} (f : A -> B) (g : A -> C) l : combine (map f l) (map g l) = map (fun x => (f x, g x)) l.
Proof. induction l as [|x l IH]; simpl; [reflexivity|]. f_equal. exact IH. Qed.
Lemma flat_map_nth {A B} (F : A -> list B) d l : flat_map (fun c => F (nth c l d)) (seq 0 (length l)) = flat_map F l.
Proof.
  transitivity (flat_map F (map (fun i => nth i l d) (seq 0 (length l)))); [symmetry; apply flat_map_map|]. rewrite map_nth_seq. reflexivity.
Qed.
Lemma take_idx_fun {A} (l : list A) (h : nat -> A) idx : (forall i, In i idx -> nth_error l i = Some (h i)) -> take_idx l idx = Some (map h idx).
Proof.
  induction idx as [|i is IH]; intro H; simpl; [reflexivity|]. rewrite H by (left; reflexivity). rewrite IH; [reflexivity|].
  intros; apply H; right; assumption.
Qed.
Lemma flat_map_concat {A B C} (f : A -> list B) (g : B -> list C) l : flat_map g (flat_map f l) = flat_map (fun x => flat_map g (f x)) l.
Proof. induction l as [|x l IH]; simpl; [reflexivity|]. rewrite flat_map_app, IH. reflexivity. Qed.

(** ** Reshaping *)
Lemma reshape_blocks {X} (F : X -> nat -> nat -> xnum) o d (cs : list X) :
  reshape_grad o d (length cs) (flat_map (fun x => map (fun b => map (fun a => F x a b) (seq 0 o)) (seq 0 d)) cs) =
  map (fun x => map (fun a => map (fun b => F x a b) (seq 0 d)) (seq 0 o)) cs.
Proof.
  unfold reshape_grad. set (m := flat_map _ cs).
  apply nth_error_ext. intro c. rewrite !nth_error_map_eq, nth_error_seq.
  destruct (Nat.ltb_spec c (length cs)) as [Hc|Hc];
    [|rewrite (proj2 (nth_error_None cs c)) by exact Hc; reflexivity].
  destruct (nth_error cs c) as [x|] eqn:Ec; [|apply nth_error_None in Ec; lia].
  simpl. f_equal. apply map_seq_ext. intros a Ha. apply map_seq_ext. intros b Hb.
  apply nth_error_nth.
  replace (a + o * (b + d * c)) with ((c * d + b) * o + a) by lia.
  replace (concat m) with (flat_map (fun r : list xnum => r) m) by (rewrite flat_map_concat_map, map_id; reflexivity).
  rewrite (nth_error_blocks _ m o (c * d + b) a (map (fun a => F x a b) (seq 0 o))).
  - rewrite nth_error_map_eq, nth_error_seq. destruct (Nat.ltb_spec a o); [reflexivity | lia].
  - intros y Hy. apply in_flat_map in Hy. destruct Hy as (z & _ & Hy). apply in_map_iff in Hy. destruct Hy as (b' & <- & _). rewrite map_length, seq_length. reflexivity.
  - lia.
  - unfold m. rewrite (nth_error_blocks _ cs d c b x); [| intros; rewrite map_length, seq_length; reflexivity | lia | exact Ec].
    rewrite nth_error_map_eq, nth_error_seq. destruct (Nat.ltb_spec b d); [reflexivity | lia].
Qed.

(** ** Stencil points *)
Lemma radii_bcast d r : good_radii d r -> 0 < d -> bcast_radii d r = Ok (map (radius r) (seq 0 d)).
Proof.
  intros [L _] D. unfold bcast_radii. destruct (Nat.eqb_spec (length r) d) as [E|E].
  - f_equal. subst d. destruct r as [|h [|k r]]; [reflexivity | reflexivity|].
    symmetry. apply (map_nth_seq 0%Qc (h :: k :: r)).
  - destruct L as [L|L]; [contradiction|]. destruct r as [|h [|k r]]; try discriminate. f_equal. apply repeat_seq.
Qed.
Lemma eye_rows d (h : nat -> Qc) : eye_scaled d (map h (seq 0 d)) =
  map (fun b => map (fun k => if k =? b then h b else 0%Qc) (seq 0 d)) (seq 0 d).
Proof.
  unfold eye_scaled. apply map_seq_ext. intros b _. rewrite combine_map_r, map_map.
  replace (combine (seq 0 d) (seq 0 d)) with (map (fun k : nat => (k, k)) (seq 0 d)) by (rewrite <- (combine_maps (fun k => k) (fun k => k)), map_id; reflexivity).
  rewrite map_map. apply map_ext. intro k. simpl. rewrite Nat.eqb_sym. destruct (Nat.eqb_spec k b) as [->|]; ring.
Qed.
Lemma row_add_moved d x b h : length x = d -> row_add x (map (fun k => if k =? b then h else 0%Qc) (seq 0 d)) = moved x b h.
Proof.
  intro L. unfold row_add, moved. rewrite <- (map_nth_seq 0%Qc x) at 1. rewrite L, combine_maps, map_map. reflexivity.
Qed.
Lemma moved_length x b h : length (moved x b h) = length x.
Proof. unfold moved. rewrite map_length, seq_length. reflexivity. Qed.
Lemma moved_nth x b h k : k < length x -> nth k (moved x b h) 0%Qc = (nth k x 0 + (if k =? b then h else 0))%Qc.
Proof.
  intro K. apply nth_error_nth. unfold moved. rewrite nth_error_map_eq, nth_error_seq. destruct (Nat.ltb_spec k (length x)); [reflexivity | lia].
Qed.

Lemma mat_add_blocks d T cs : length T = d ->
  mat_add (np_repeat cs d) (np_tile T (length cs)) = flat_map (fun x => map (row_add x) T) cs.
Proof.
  intro L. unfold mat_add, np_repeat. rewrite np_tile_blocks. rewrite combine_blocks by (intros; rewrite repeat_length; symmetry; exact L).
  rewrite map_flat_map. apply flat_map_ext_in. intros x _. subst d.
  induction T as [|t T IH]; simpl; [reflexivity|]. f_equal. exact IH.
Qed.

Lemma ffd_points_lemma d cs r : points d cs -> good_radii d r -> 0 < d ->
  pick_ffd_points d (Some cs) r = Ok (cs ++ flat_map (fun x => map (fun b => moved x b (radius r b)) (seq 0 d)) cs).
Proof.
  intros P R D. unfold pick_ffd_points. rewrite radii_bcast by assumption. cbn [bind]. f_equal. f_equal.
  rewrite eye_rows, mat_add_blocks by (rewrite map_length, seq_length; reflexivity).
  apply flat_map_ext_in. intros x Hx. rewrite map_map. apply map_ext. intro b. apply row_add_moved, P, Hx.
Qed.
Lemma cfd_points_lemma d cs r : points d cs -> good_radii d r -> 0 < d ->
  pick_cfd_points d (Some cs) r = Ok (cs ++ flat_map (fun x => map (fun b => moved x b (radius r b)) (seq 0 d)
                                                   ++ map (fun b => moved x b (- radius r b)%Qc) (seq 0 d)) cs).
Proof.
  intros P R D. unfold pick_cfd_points. rewrite radii_bcast by assumption. cbn [bind]. f_equal. f_equal.
  rewrite eye_rows. unfold mat_neg. rewrite map_map.
  rewrite mat_add_blocks by (rewrite app_length, !map_length, seq_length; lia).
  apply flat_map_ext_in. intros x Hx. rewrite map_app, !map_map. f_equal; apply map_ext; intro b.
  - apply row_add_moved, P, Hx.
  - rewrite map_map. rewrite <- (row_add_moved d) by apply P, Hx. f_equal. apply map_ext. intro k. destruct (k =? b); ring.
Qed.

(** ** The stencil radii are recovered *)
Lemma radii_found d cs r rest G : points d cs -> cs <> [] -> 
  (forall x, In x cs -> exists tl, G x = map (fun b => moved x b (radius r b)) (seq 0 d) ++ tl) ->
  rest = flat_map G cs ->
  cluster_radii d (length cs) (cs ++ rest) = Ok (map (radius r) (seq 0 d)).
Proof.
  intros P N HG ->. unfold cluster_radii. destruct cs as [|x0 cs]; [congruence|].
  change ((x0 :: cs) ++ flat_map G (x0 :: cs)) with (x0 :: (cs ++ flat_map G (x0 :: cs))) at 1. cbn iota.
  change (x0 :: cs ++ flat_map G (x0 :: cs)) with ((x0 :: cs) ++ flat_map G (x0 :: cs)).
  rewrite skipn_app, skipn_all, Nat.sub_diag. cbn [app skipn flat_map].
  destruct (HG x0 (or_introl eq_refl)) as [tl ->]. rewrite <- app_assoc, firstn_app.
  assert (Lm : length (map (fun b => moved x0 b (radius r b)) (seq 0 d)) = d) by (rewrite map_length, seq_length; reflexivity).
  rewrite Lm, Nat.sub_diag, firstn_O, app_nil_r. rewrite firstn_all2 by lia. rewrite Lm, Nat.min_id. f_equal.
  apply map_seq_ext. intros k Hk. 
  assert (L0 : length x0 = d) by (apply P; left; reflexivity).
  erewrite (nth_error_nth (map _ _)) by (rewrite nth_error_map_eq, nth_error_seq; destruct (Nat.ltb_spec k d); [reflexivity | lia]).
  simpl plus. rewrite moved_nth by lia. rewrite Nat.eqb_refl. ring.
Qed.

Lemma clean_outputs mf o f x : clean_data mf (outputs o f x) = outputs o f x.
Proof. unfold clean_data, outputs. rewrite !map_map. apply map_ext. reflexivity. Qed.
Lemma clean_all mf o f l : map (clean_data mf) (map (outputs o f) l) = map (outputs o f) l.
Proof. rewrite map_map. apply map_ext. intro. apply clean_outputs. Qed.

Lemma quot_outputs w o f g x y h : h <> 0%Qc ->
  quot_row w ((outputs o f x, outputs o g y), repeat h o) = map (fun a => Fin ((f a x - g a y) * (w / h))%Qc) (seq 0 o).
Proof.
  intro H. unfold quot_row, outputs. cbn [fst snd]. rewrite combine_maps, (repeat_seq h o 0), combine_maps, map_map.
  apply map_ext. intro a. cbn [fst snd]. rewrite xdivq_fin by exact H. reflexivity.
Qed.

Lemma good_radius d r b : good_radii d r -> b < d -> radius r b <> 0%Qc.
Proof.
  intros [L H] B. unfold radius. destruct r as [|h [|k r]].
  - destruct L as [L|L]; simpl in L; lia.
  - apply H. left; reflexivity.
  - destruct L as [L|L]; [|discriminate]. apply H. apply nth_In. lia.
Qed.

Lemma firstn_exact {A} (l m : list A) n : n = length l -> firstn n (l ++ m) = l.
Proof. intros ->. rewrite firstn_app, Nat.sub_diag, firstn_O, app_nil_r. apply firstn_all. Qed.
Lemma skipn_exact {A} (l m : list A) n : n = length l -> skipn n (l ++ m) = m.
Proof. intros ->. rewrite skipn_app, Nat.sub_diag, skipn_all. reflexivity. Qed.

(** ** Forward differences *)
Definition ffd_value (f : qoi) (r : list Qc) (x : list Qc) (a b : nat) : Qc :=
  ((f a (moved x b (radius r b)) - f a x) / radius r b)%Qc.
Definition cfd_value (f : qoi) (r : list Qc) (x : list Qc) (a b : nat) : Qc :=
  ((f a (moved x b (radius r b)) - f a (moved x b (- radius r b))) / (qn 2 * radius r b))%Qc.

Definition tensor_of (o d : nat) (V : list Qc -> nat -> nat -> Qc) (cs : list (list Qc)) : list (list (list xnum)) :=
  map (fun x => map (fun a => map (fun b => Fin (V x a b)) (seq 0 d)) (seq 0 o)) cs.

Lemma ffd_run mf d o f cs r nrm : points d cs -> good_radii d r -> 0 < d -> cs <> [] ->
  exists pts, pick_ffd_points d (Some cs) r = Ok pts /\
  calculate_gradients_ffd mf d o (Some pts) (Some (map (outputs o f) pts)) nrm =
  Ok (mk_grad cs ((if nrm then normalize_tensor else (fun t => t)) (tensor_of o d (ffd_value f r) cs))
              (map (outputs o f) cs) (map (outputs o f) pts)).
Proof.
  intros P R D N. set (B := fun x => map (fun b => moved x b (radius r b)) (seq 0 d)).
  exists (cs ++ flat_map B cs). split; [apply ffd_points_lemma; assumption|].
  assert (LB : forall x, In x cs -> length (B x) = d) by (intros; unfold B; rewrite map_length, seq_length; reflexivity).
  assert (LL : length (cs ++ flat_map B cs) = length cs * (d + 1)) by (rewrite app_length, (flat_map_len B cs d LB); lia).
  unfold calculate_gradients_ffd. rewrite map_length, Nat.eqb_refl. cbn [negb].
  rewrite LL, Nat.div_mul by lia.
  rewrite (radii_found d cs r _ B P N (fun x _ => ex_intro _ [] (eq_sym (app_nil_r _))) eq_refl). cbn [bind].
  rewrite Nat.eqb_refl. cbn [negb]. rewrite clean_all, map_app.
  rewrite (skipn_exact (map _ cs)) by (rewrite map_length; reflexivity).
  rewrite (firstn_exact (map _ cs)) by (rewrite map_length; reflexivity). rewrite (firstn_exact cs) by reflexivity.
  assert (GM : map (quot_row 1%Qc) (combine (combine (map (outputs o f) (flat_map B cs)) (np_repeat (map (outputs o f) cs) d))
                 (radii_mat o (length cs) (map (radius r) (seq 0 d)))) =
               flat_map (fun x => map (fun b => map (fun a => Fin (ffd_value f r x a b)) (seq 0 o)) (seq 0 d)) cs).
  { unfold np_repeat, radii_mat. rewrite map_flat_map, flat_map_map, np_tile_blocks.
    rewrite combine_blocks by (intros; rewrite map_length, LB, repeat_length by assumption; reflexivity).
    rewrite combine_blocks by (intros; rewrite combine_length, !map_length, LB, repeat_length, seq_length by assumption; lia).
    rewrite map_flat_map. apply flat_map_ext_in. intros x Hx. unfold B.
    rewrite !map_map, (repeat_seq _ d 0), combine_maps, combine_maps, map_map.
    apply map_seq_ext. intros b Hb. rewrite quot_outputs by (apply (good_radius d); [exact R | lia]).
    apply map_ext. intro a. f_equal. unfold ffd_value. field. apply (good_radius d); [exact R | lia]. }
  rewrite GM, (reshape_blocks (fun x a b => Fin (ffd_value f r x a b))).
  destruct nrm; reflexivity.
Qed.

(** ** Centered differences *)
Lemma arange_steps s n : 0 < s -> arange 0 (s * n) s = map (fun c => s * c) (seq 0 n).
Proof.
  intro S. unfold arange. replace ((s * n - 0 + s - 1) / s) with n.
  - apply map_ext. intro. lia.
  - apply Nat.div_unique with (r := s - 1); lia.
Qed.
Lemma arange_one n : arange 0 n 1 = seq 0 n.
Proof. unfold arange. rewrite Nat.div_1_r. replace (n - 0 + 1 - 1) with n by lia. rewrite <- (map_id (seq 0 n)) at 2. apply map_ext. intro. lia. Qed.
Lemma combine_add_blocks d (l : list nat) : map (fun p => fst p + snd p) (combine (np_repeat l d) (np_tile (seq 0 d) (length l))) =
  flat_map (fun s => map (fun b => s + b) (seq 0 d)) l.
Proof.
  unfold np_repeat. rewrite np_tile_blocks, combine_blocks by (intros; rewrite repeat_length, seq_length; reflexivity).
  rewrite map_flat_map. apply flat_map_ext_in. intros s _. rewrite (repeat_seq s d 0).
  rewrite <- (map_id (seq 0 d)) at 2. rewrite combine_maps, map_map. reflexivity.
Qed.

Lemma cfd_run mf d o f cs r nrm : points d cs -> good_radii d r -> 0 < d -> cs <> [] ->
  exists pts, pick_cfd_points d (Some cs) r = Ok pts /\ 
  calculate_gradients_cfd mf d o (Some pts) (Some (map (outputs o f) pts)) nrm =
  Ok (mk_grad cs ((if nrm then normalize_tensor else (fun t => t)) (tensor_of o d (cfd_value f r) cs))
              (firstn (length cs) (skipn (length cs) (map (outputs o f) pts))) (map (outputs o f) pts)).
Proof.
  intros P R D N. 
  set (U := fun x => map (fun b => moved x b (radius r b)) (seq 0 d)).
  set (W := fun x => map (fun b => moved x b (- radius r b)%Qc) (seq 0 d)).
  set (B := fun x => U x ++ W x).
  exists (cs ++ flat_map B cs). split; [apply cfd_points_lemma; assumption|].
  assert (LB : forall x, In x cs -> length (B x) = 2 * d) by (intros; unfold B, U, W; rewrite app_length, !map_length, seq_length; lia).
  assert (LL : length (cs ++ flat_map B cs) = length cs * (2 * d + 1)) by (rewrite app_length, (flat_map_len B cs (2 * d) LB); lia).
  unfold calculate_gradients_cfd. rewrite map_length, Nat.eqb_refl. cbn [negb].
  rewrite LL, Nat.div_mul by lia.
  rewrite (radii_found d cs r _ B P N (fun x _ => ex_intro _ (W x) eq_refl) eq_refl). cbn [bind].
  rewrite map_app. rewrite (skipn_exact (map _ cs)) by (rewrite map_length; reflexivity).
  rewrite (firstn_exact (map _ cs)) by (rewrite map_length; reflexivity). rewrite (firstn_exact cs) by reflexivity. rewrite clean_all.
  rewrite arange_steps by lia. rewrite arange_one.
  replace (np_tile (seq 0 d) (length cs)) with (np_tile (seq 0 d) (length (map (fun c => 2 * d * c) (seq 0 (length cs)))))
    by (rewrite map_length, seq_length; reflexivity).
  rewrite combine_add_blocks, flat_map_map.
  set (g := outputs o f). set (dat := map g (flat_map B cs)).
  assert (Nth : forall c x j, nth_error cs c = Some x -> j < 2 * d -> nth_error dat (2 * d * c + j) = option_map g (nth_error (B x) j)).
  { intros c x j Ec Hj. unfold dat. rewrite nth_error_map_eq. f_equal. replace (2 * d * c + j) with (c * (2 * d) + j) by lia.
    apply nth_error_blocks; assumption. }
  assert (TU : take_idx dat (flat_map (fun c => map (fun b => 2 * d * c + b) (seq 0 d)) (seq 0 (length cs))) =
               Some (flat_map (fun x => map g (U x)) cs)).
  { rewrite (take_idx_fun dat (fun i => nth i dat [])).
    - f_equal. rewrite map_flat_map. rewrite <- (flat_map_nth (fun x => map g (U x)) [] cs). apply flat_map_ext_in. intros c Hc.
      apply in_seq in Hc. rewrite map_map. unfold U. rewrite map_map. apply map_seq_ext. intros b Hb. simpl in Hb.
      apply nth_error_nth. rewrite (Nth c (nth c cs [])) by (try (apply nth_error_nth'); lia).
      unfold B, U. rewrite nth_error_app1 by (rewrite map_length, seq_length; lia).
      rewrite nth_error_map_eq, nth_error_seq. destruct (Nat.ltb_spec b d); [reflexivity | lia].
    - intros i Hi. apply nth_error_nth'. apply in_flat_map in Hi. destruct Hi as (c & Hc & Hi). apply in_seq in Hc.
      apply in_map_iff in Hi. destruct Hi as (b & <- & Hb). apply in_seq in Hb.
      unfold dat. rewrite map_length, (flat_map_len B cs (2 * d) LB). nia. }
  assert (TW : take_idx dat (map (fun i => i + d) (flat_map (fun c => map (fun b => 2 * d * c + b) (seq 0 d)) (seq 0 (length cs)))) =
               Some (flat_map (fun x => map g (W x)) cs)).
  { rewrite map_flat_map. rewrite (take_idx_fun dat (fun i => nth i dat [])).
    - f_equal. rewrite map_flat_map. rewrite <- (flat_map_nth (fun x => map g (W x)) [] cs). apply flat_map_ext_in. intros c Hc.
      apply in_seq in Hc. rewrite !map_map. unfold W. rewrite map_map. apply map_seq_ext. intros b Hb. simpl in Hb.
      apply nth_error_nth. replace (2 * d * c + b + d) with (2 * d * c + (d + b)) by lia.
      rewrite (Nth c (nth c cs [])) by (try (apply nth_error_nth'); lia).
      unfold B, U, W. rewrite nth_error_app2 by (rewrite map_length, seq_length; lia). rewrite map_length, seq_length.
      replace (d + b - d) with b by lia.
      rewrite nth_error_map_eq, nth_error_seq. destruct (Nat.ltb_spec b d); [reflexivity | lia].
    - intros i Hi. apply nth_error_nth'. apply in_flat_map in Hi. destruct Hi as (c & Hc & Hi). apply in_seq in Hc.
      apply in_map_iff in Hi. destruct Hi as (b & <- & Hb). apply in_map_iff in Hb. destruct Hb as (b' & <- & Hb). apply in_seq in Hb.
      unfold dat. rewrite map_length, (flat_map_len B cs (2 * d) LB). nia. }
  rewrite TU, TW. cbn iota.
  assert (GM : map (quot_row (Q2Qc (1 # 2))) (combine (combine (flat_map (fun x => map g (U x)) cs) (flat_map (fun x => map g (W x)) cs))
                 (radii_mat o (length cs) (map (radius r) (seq 0 d)))) =
               flat_map (fun x => map (fun b => map (fun a => Fin (cfd_value f r x a b)) (seq 0 o)) (seq 0 d)) cs).
  { unfold radii_mat. rewrite np_tile_blocks.
    rewrite combine_blocks by (intros; unfold U, W; rewrite !map_length; reflexivity).
    rewrite combine_blocks by (intros; unfold U, W; rewrite combine_length, !map_length, !seq_length; lia).
    rewrite map_flat_map. apply flat_map_ext_in. intros x Hx. unfold U, W.
    rewrite !map_map, combine_maps, combine_maps, map_map.
    apply map_seq_ext. intros b Hb. unfold g. rewrite quot_outputs by (apply (good_radius d); [exact R | lia]).
    apply map_ext. intro a. f_equal. unfold cfd_value.
    assert (H0 : radius r b <> 0%Qc) by (apply (good_radius d); [exact R | lia]).
    replace (Q2Qc (1 # 2)) with (/ qn 2)%Qc by (apply Qc_is_canon; vm_compute; reflexivity). 
    field. split; [exact H0 | discriminate]. }
  rewrite GM, (reshape_blocks (fun x a b => Fin (cfd_value f r x a b))).
  destruct nrm; reflexivity.
Qed.

(** ** Statements about the entries *)
Lemma tensor_entry o d V cs c x a b : nth_error cs c = Some x -> a < o -> b < d ->
  entry (tensor_of o d V cs) c a b = Some (Fin (V x a b)).
Proof.
  intros E A B. unfold entry, tensor_of. rewrite nth_error_map_eq, E. cbn [option_map].
  rewrite nth_error_map_eq, nth_error_seq. destruct (Nat.ltb_spec a o); [|lia]. cbn [option_map].
  rewrite nth_error_map_eq, nth_error_seq. destruct (Nat.ltb_spec b d); [reflexivity | lia].
Qed.
Lemma tensor_shape o d V cs : has_shape (tensor_of o d V cs) (length cs) o d.
Proof.
  split; [apply map_length|]. intros m Hm. apply in_map_iff in Hm. destruct Hm as (x & <- & _). split; [rewrite map_length; apply seq_length|].
  intros v Hv. apply in_map_iff in Hv. destruct Hv as (a & <- & _). rewrite map_length; apply seq_length.
Qed.

Lemma ffd_lemma : forall mf d o f cs r, points d cs -> good_radii d r -> 0 < d -> cs <> [] ->
  exists pts g, pick_ffd_points d (Some cs) r = Ok pts /\
    calculate_gradients_ffd mf d o (Some pts) (Some (map (outputs o f) pts)) false = Ok g /\
    g_in g = cs /\ has_shape (g_jac g) (length cs) o d /\
    forall c x a b, nth_error cs c = Some x -> a < o -> b < d ->
      entry (g_jac g) c a b = Some (Fin ((f a (moved x b (radius r b)) - f a x) / radius r b)%Qc).
Proof.
  intros mf d o f cs r P R D N. destruct (ffd_run mf d o f cs r false P R D N) as (pts & E1 & E2).
  exists pts. eexists. split; [exact E1|]. split; [exact E2|]. split; [reflexivity|]. split; [apply tensor_shape|].
  intros. apply (tensor_entry o d (ffd_value f r)); assumption.
Qed.
Lemma cfd_lemma : forall mf d o f cs r, points d cs -> good_radii d r -> 0 < d -> cs <> [] ->
  exists pts g, pick_cfd_points d (Some cs) r = Ok pts /\
    calculate_gradients_cfd mf d o (Some pts) (Some (map (outputs o f) pts)) false = Ok g /\
    g_in g = cs /\ has_shape (g_jac g) (length cs) o d /\
    forall c x a b, nth_error cs c = Some x -> a < o -> b < d ->
      entry (g_jac g) c a b =
      Some (Fin ((f a (moved x b (radius r b)) - f a (moved x b (- radius r b))) / (qn 2 * radius r b))%Qc).
Proof.
  intros mf d o f cs r P R D N. destruct (cfd_run mf d o f cs r false P R D N) as (pts & E1 & E2).
  exists pts. eexists. split; [exact E1|]. split; [exact E2|]. split; [reflexivity|]. split; [apply tensor_shape|].
  intros. apply (tensor_entry o d (cfd_value f r)); assumption.
Qed.

(** ** Exactness *)
Lemma qsum_delta d b (g : nat -> Qc) h : b < d ->
  qsum (map (fun i => g i * (if i =? b then h else 0)) (seq 0 d))%Qc = (g b * h)%Qc.
Proof.
  intro B. rewrite <- (qsum_ind_seq d b (g b * h)%Qc B). apply qsum_map_ext. intros i _. rewrite Nat.eqb_sym.
  destruct (Nat.eqb_spec b i) as [->|]; unfold ind; [reflexivity | ring].
Qed.
Lemma affine_moved d c A a x b h : length x = d -> b < d ->
  affine d c A a (moved x b h) = (affine d c A a x + A a b * h)%Qc.
Proof.
  intros L B. unfold affine. rewrite <- (qsum_delta d b (A a) h B).
  rewrite (qsum_map_ext (fun i => A a i * nth i (moved x b h) 0)%Qc (fun i => A a i * nth i x 0 + A a i * (if i =? b then h else 0))%Qc).
  - rewrite qsum_map_add. ring.
  - intros i Hi. apply in_seq in Hi. rewrite moved_nth by lia. ring.
Qed.
Lemma quadratic_moved d c A Q a x b h : length x = d -> b < d ->
  quadratic d c A Q a (moved x b h) =
  (quadratic d c A Q a x + h * quadratic_partial d A Q a b x + h * h * Q a b b)%Qc.
Proof.
  intros L B. pose proof (affine_moved d c A a x b h L B) as EA. unfold affine in EA.
  unfold quadratic, quadratic_partial. rewrite EA. clear EA.
  set (dl := fun i => if i =? b then h else 0%Qc).
  set (X := fun i => nth i x 0%Qc).
  assert (In1 : forall i, i < d -> qsum (map (fun j => Q a i j * nth i (moved x b h) 0 * nth j (moved x b h) 0) (seq 0 d))%Qc =
    ((X i + dl i) * (qsum (map (fun j => Q a i j * X j) (seq 0 d)) + Q a i b * h))%Qc).
  { intros i Hi. rewrite <- (qsum_delta d b (Q a i) h B). rewrite <- qsum_map_add, <- qsum_map_mul.
    apply qsum_map_ext. intros j Hj. apply in_seq in Hj. rewrite !moved_nth by lia. unfold X, dl. ring. }
  rewrite (qsum_map_ext (fun i => qsum (map (fun j => Q a i j * nth i (moved x b h) 0 * nth j (moved x b h) 0) (seq 0 d)))%Qc
            (fun i => X i * qsum (map (fun j => Q a i j * X j) (seq 0 d)) + h * (Q a i b * X i) +
            (qsum (map (fun j => Q a i j * X j) (seq 0 d)) + Q a i b * h) * dl i)%Qc)
    by (intros i Hi; apply in_seq in Hi; rewrite In1 by lia; ring).
  rewrite !qsum_map_add, qsum_map_mul.
  unfold dl. rewrite (qsum_delta d b (fun i => qsum (map (fun j => Q a i j * X j) (seq 0 d)) + Q a i b * h)%Qc h B).
  rewrite (qsum_map_ext (fun i => qsum (map (fun j => Q a i j * nth i x 0 * nth j x 0) (seq 0 d)))%Qc
            (fun i => X i * qsum (map (fun j => Q a i j * X j) (seq 0 d)))%Qc)
    by (intros i _; rewrite <- qsum_map_mul; apply qsum_map_ext; intros; unfold X; ring).
  rewrite (qsum_map_ext (fun j => (Q a b j + Q a j b) * nth j x 0)%Qc (fun j => Q a b j * X j + Q a j b * X j)%Qc)
    by (intros; unfold X; ring).
  rewrite qsum_map_add. ring.
Qed.

Lemma ffd_affine_lemma : forall mf d o c0 A cs r, points d cs -> good_radii d r -> 0 < d -> cs <> [] ->
  exists pts g, pick_ffd_points d (Some cs) r = Ok pts /\
    calculate_gradients_ffd mf d o (Some pts) (Some (map (outputs o (affine d c0 A)) pts)) false = Ok g /\
    g_in g = cs /\ has_shape (g_jac g) (length cs) o d /\
    forall c a b, c < length cs -> a < o -> b < d -> entry (g_jac g) c a b = Some (Fin (A a b)).
Proof.
  intros mf d o c0 A cs r P R D N. destruct (ffd_lemma mf d o (affine d c0 A) cs r P R D N) as (pts & g & E1 & E2 & E3 & E4 & H).
  exists pts, g. repeat (split; [assumption|]). intros c a b Hc Ha Hb.
  destruct (nth_error cs c) as [x|] eqn:Ec; [|apply nth_error_None in Ec; lia].
  rewrite (H c x a b Ec Ha Hb). do 2 f_equal. rewrite affine_moved by (try exact Hb; apply P; eapply nth_error_In, Ec).
  pose proof (good_radius d r b R Hb). field. assumption.
Qed.
Lemma cfd_quadratic_lemma : forall mf d o c0 A Q cs r, points d cs -> good_radii d r -> 0 < d -> cs <> [] ->
  exists pts g, pick_cfd_points d (Some cs) r = Ok pts /\
    calculate_gradients_cfd mf d o (Some pts) (Some (map (outputs o (quadratic d c0 A Q)) pts)) false = Ok g /\
    g_in g = cs /\ has_shape (g_jac g) (length cs) o d /\
    forall c x a b, nth_error cs c = Some x -> a < o -> b < d ->
      entry (g_jac g) c a b = Some (Fin (quadratic_partial d A Q a b x)).
Proof.
  intros mf d o c0 A Q cs r P R D N. destruct (cfd_lemma mf d o (quadratic d c0 A Q) cs r P R D N) as (pts & g & E1 & E2 & E3 & E4 & H).
  exists pts, g. repeat (split; [assumption|]). intros c x a b Hc Ha Hb.
  rewrite (H c x a b Hc Ha Hb). do 2 f_equal. rewrite !quadratic_moved by (try exact Hb; apply P; eapply nth_error_In, Hc).
  pose proof (good_radius d r b R Hb). replace (qn 2) with (1 + 1)%Qc by (apply Qc_is_canon; vm_compute; reflexivity).
  field. split; [assumption | discriminate].
Qed.

(** The partial derivative used in the statement is the one of the polynomial. *)
Lemma quadratic_partial_lemma : forall d c A Q a x b h, length x = d -> b < d ->
  quadratic d c A Q a (moved x b h) =
  (quadratic d c A Q a x + h * quadratic_partial d A Q a b x + h * h * Q a b b)%Qc.
Proof. intros. apply quadratic_moved; assumption. Qed.

(** ** Normalization *)
Lemma normalize_fin v : exists w, normalize_row (map Fin v) = map Fin w /\ normalized_of v w.
Proof.
  assert (E : xsum (map xabs (map Fin v)) = Fin (norm1 v)) by (rewrite map_map; change (fun x => xabs (Fin x)) with (fun x => Fin (qabs x)); rewrite <- (map_map qabs Fin); apply xsum_fin).
  unfold normalize_row. rewrite E. cbn [xeqb].
  destruct (qeqb_spec (norm1 v) 0%Qc) as [Z|Z].
  - exists v. split.
    + rewrite map_map. apply map_ext. intro x. simpl. rewrite xdivq_fin by discriminate. f_equal. field. discriminate.
    + split; [reflexivity|]. left. split; [exact Z | reflexivity].
  - exists (map (fun x => x / norm1 v)%Qc v). split.
    + rewrite !map_map. apply map_ext. intro x. cbn [xdiv]. apply xdivq_fin, Z.
    + split; [apply map_length|]. right. split; [exact Z|].
      assert (Pos : (0 < norm1 v)%Qc).
      { destruct (Qcle_lt_or_eq 0%Qc (norm1 v)) as [L|L]; [|exact L | congruence].
        apply qsum_nonneg. intros x Hx. apply in_map_iff in Hx. destruct Hx as (y & <- & _). apply qabs_nonneg. }
      split.
      * unfold norm1 at 1. rewrite map_map.
        rewrite (map_ext _ (fun x => qabs x / norm1 v)%Qc).
        -- rewrite qsum_map_div. fold (norm1 v). field. exact Z.
        -- intro x. unfold Qcdiv. rewrite qabs_mul. f_equal. apply qabs_pos_eq. apply Qclt_le_weak, qc_inv_pos, Pos.
      * rewrite map_map. rewrite <- (map_id v) at 1. apply map_ext. intro x. field. exact Z.
Qed.
Lemma normalize_entry o d V cs c x a : nth_error cs c = Some x -> a < o ->
  exists w, row_of (normalize_tensor (tensor_of o d V cs)) c a = Some (map Fin w) /\ normalized_of (map (V x a) (seq 0 d)) w.
Proof.
  intros E A. unfold row_of, normalize_tensor, tensor_of. rewrite !nth_error_map_eq, E. cbn [option_map].
  rewrite !nth_error_map_eq, nth_error_seq. destruct (Nat.ltb_spec a o); [|lia]. cbn [option_map]. simpl plus.
  destruct (normalize_fin (map (V x a) (seq 0 d))) as (w & Ew & Hw). exists w. split; [|exact Hw].
  f_equal. rewrite <- Ew, map_map. reflexivity.
Qed.
Lemma ffd_normalized_lemma : forall mf d o f cs r, points d cs -> good_radii d r -> 0 < d -> cs <> [] ->
  exists pts g, pick_ffd_points d (Some cs) r = Ok pts /\
    calculate_gradients_ffd mf d o (Some pts) (Some (map (outputs o f) pts)) true = Ok g /\
    g_in g = cs /\
    forall c x a, nth_error cs c = Some x -> a < o ->
      exists w, row_of (g_jac g) c a = Some (map Fin w) /\
        normalized_of (map (fun b => (f a (moved x b (radius r b)) - f a x) / radius r b)%Qc (seq 0 d)) w.
Proof.
  intros mf d o f cs r P R D N. destruct (ffd_run mf d o f cs r true P R D N) as (pts & E1 & E2).
  exists pts. eexists. split; [exact E1|]. split; [exact E2|]. split; [reflexivity|].
  intros. apply (normalize_entry o d (ffd_value f r)); assumption.
Qed.
Lemma cfd_normalized_lemma : forall mf d o f cs r, points d cs -> good_radii d r -> 0 < d -> cs <> [] ->
  exists pts g, pick_cfd_points d (Some cs) r = Ok pts /\
    calculate_gradients_cfd mf d o (Some pts) (Some (map (outputs o f) pts)) true = Ok g /\
    g_in g = cs /\
    forall c x a, nth_error cs c = Some x -> a < o ->
      exists w, row_of (g_jac g) c a = Some (map Fin w) /\
        normalized_of (map (fun b => (f a (moved x b (radius r b)) - f a (moved x b (- radius r b))) / (qn 2 * radius r b))%Qc (seq 0 d)) w.
Proof.
  intros mf d o f cs r P R D N. destruct (cfd_run mf d o f cs r true P R D N) as (pts & E1 & E2).
  exists pts. eexists. split; [exact E1|]. split; [exact E2|]. split; [reflexivity|].
  intros. apply (normalize_entry o d (cfd_value f r)); assumption.
Qed.

(** ** Output values of the centers *)
Lemma ffd_center_values_lemma : forall mf d o f cs r nrm, points d cs -> good_radii d r -> 0 < d -> cs <> [] ->
  exists pts g, pick_ffd_points d (Some cs) r = Ok pts /\
    calculate_gradients_ffd mf d o (Some pts) (Some (map (outputs o f) pts)) nrm = Ok g /\
    g_out g = map (outputs o f) cs.
Proof.
  intros mf d o f cs r nrm P R D N. destruct (ffd_run mf d o f cs r nrm P R D N) as (pts & E1 & E2).
  exists pts. eexists. split; [exact E1|]. split; [exact E2|]. reflexivity.
Qed.
Lemma cfd_center_values_actual : forall mf d o f cs r nrm x0, points d cs -> good_radii d r -> 0 < d -> nth_error cs 0 = Some x0 ->
  exists pts g, pick_cfd_points d (Some cs) r = Ok pts /\
    calculate_gradients_cfd mf d o (Some pts) (Some (map (outputs o f) pts)) nrm = Ok g /\
    nth_error (g_out g) 0 = Some (outputs o f (moved x0 0 (radius r 0))).
Proof.
  intros mf d o f cs r nrm x0 P R D E. assert (N : cs <> []) by (intros ->; discriminate).
  destruct (cfd_run mf d o f cs r nrm P R D N) as (pts & E1 & E2).
  exists pts. eexists. split; [exact E1|]. split; [exact E2|]. cbn [g_out].
  rewrite cfd_points_lemma in E1 by assumption. injection E1 as <-.
  rewrite map_app, skipn_exact by (rewrite map_length; reflexivity).
  destruct cs as [|y cs]; [discriminate|]. simpl in E. injection E as ->. destruct d as [|d]; [lia|]. reflexivity.
Qed.
Lemma cfd_center_values_refuted : ~ (forall mf d o f cs r nrm pts g, points d cs -> good_radii d r -> 0 < d ->
  pick_cfd_points d (Some cs) r = Ok pts ->
  calculate_gradients_cfd mf d o (Some pts) (Some (map (outputs o f) pts)) nrm = Ok g ->
  g_out g = map (outputs o f) cs).
Proof.
  intro H.
  assert (P : points 1 [[0%Qc]]) by (intros x [<-|[]]; reflexivity).
  assert (R : good_radii 1 [1%Qc]) by (split; [left; reflexivity | intros h [<-|[]]; discriminate]).
  destruct (cfd_center_values_actual 0%Qc 1 1 (fun _ x => nth 0 x 0%Qc) [[0%Qc]] [1%Qc] false [0%Qc] P R ltac:(lia) eq_refl)
    as (pts & g & E1 & E2 & E3).
  rewrite (H _ _ _ _ _ _ _ _ _ P R ltac:(lia) E1 E2) in E3. apply (f_equal (fun o => match o with Some [Fin q] => qeqb q 0 | _ => false end)) in E3.
  vm_compute in E3. discriminate.
Qed.

(** ** The caller's data *)
Lemma ffd_data_lemma : forall mf d o ss dd nrm g,
  calculate_gradients_ffd mf d o (Some ss) (Some dd) nrm = Ok g -> g_data g = map (clean_data mf) dd.
Proof.
  intros mf d o ss dd nrm g E. unfold calculate_gradients_ffd in E. destruct (negb _); [discriminate|].
  destruct (cluster_radii _ _ _); [|discriminate]. cbn [bind] in E. destruct (negb _); [discriminate|]. injection E as <-. reflexivity.
Qed.
Lemma cfd_data_lemma : forall mf d o ss dd nrm g,
  calculate_gradients_cfd mf d o (Some ss) (Some dd) nrm = Ok g ->
  g_data g = firstn (length ss / (2 * d + 1)) dd ++ map (clean_data mf) (skipn (length ss / (2 * d + 1)) dd).
Proof.
  intros mf d o ss dd nrm g E. unfold calculate_gradients_cfd in E. destruct (negb _); [discriminate|].
  destruct (cluster_radii _ _ _); [|discriminate]. cbn [bind] in E. 
  destruct (take_idx _ _) in E; [|discriminate]. destruct (take_idx _ _) in E; [|discriminate]. injection E as <-. reflexivity.
Qed.
Lemma clean_finite mf dd : all_finite dd -> map (clean_data mf) dd = dd.
Proof.
  intro F. rewrite <- (map_id dd) at 2. apply map_ext_in. intros r Hr. unfold clean_data. rewrite map_map.
  rewrite <- (map_id r) at 2. apply map_ext_in. intros x Hx. destruct (F r Hr x Hx) as [q ->]. reflexivity.
Qed.
Lemma data_kept_lemma : forall mf d o ss dd nrm g, all_finite dd ->
  calculate_gradients_ffd mf d o (Some ss) (Some dd) nrm = Ok g \/ calculate_gradients_cfd mf d o (Some ss) (Some dd) nrm = Ok g ->
  g_data g = dd.
Proof.
  intros mf d o ss dd nrm g F [E|E].
  - rewrite (ffd_data_lemma _ _ _ _ _ _ _ E). apply clean_finite, F.
  - rewrite (cfd_data_lemma _ _ _ _ _ _ _ E). rewrite clean_finite; [apply firstn_skipn|].
    intros r Hr. apply F. rewrite <- (firstn_skipn (length ss / (2 * d + 1)) dd). apply in_or_app. right. exact Hr.
Qed.
Lemma data_kept_refuted : ~ (forall mf d o ss dd nrm g,
  calculate_gradients_ffd mf d o (Some ss) (Some dd) nrm = Ok g -> g_data g = dd).
Proof.
  intro H.
  assert (E := ffd_data_lemma 0%Qc 1 1 [[0%Qc]; [1%Qc]] [[Fin 0%Qc]; [NaN]] false).
  destruct (calculate_gradients_ffd 0%Qc 1 1 (Some [[0%Qc]; [1%Qc]]) (Some [[Fin 0%Qc]; [NaN]]) false) as [g|] eqn:Eg; [|vm_compute in Eg; discriminate].
  specialize (E g Eg). rewrite (H _ _ _ _ _ _ _ Eg) in E. vm_compute in E. discriminate.
Qed.

(** ** sample_lp_ball *)
Lemma inside_in_box d x : length d = length x -> inside d x = true <-> in_box d x.
Proof.
  revert x; induction d as [|(lo, hi) d IH]; intros [|v x] L; simpl in L; try discriminate.
  - split; [constructor | reflexivity].
  - unfold inside in *. cbn [combine forallb fst snd]. rewrite !andb_true_iff, (IH x) by lia. rewrite !qleb_true. unfold in_box. split.
    + intros [H1 H2]. constructor; [exact H1 | exact H2].
    + intro H. inversion H; subst. split; assumption.
Qed.
Lemma fill_cluster_spec dom m bs c : fill_cluster dom m bs = Some c ->
  (dom = None -> forall b r, bs = b :: r -> length b = m) ->
  length c = m /\ (forall x, In x c -> exists b, In b bs /\ In x b) /\
  (forall d, dom = Some d -> forall x, In x c -> inside d x = true).
Proof.
  intros E HN. induction bs as [|b bs IH]; simpl in E; [discriminate|]. destruct dom as [d|].
  - destruct (Nat.leb_spec m (length (filter (inside d) b))) as [L|L].
    + injection E as <-.
      assert (Sub : forall x, In x (if m <? length (filter (inside d) b) then firstn m (filter (inside d) b) else filter (inside d) b) -> In x (filter (inside d) b)).
      { intros x Hx. destruct (m <? _); [|exact Hx]. rewrite <- (firstn_skipn m (filter (inside d) b)). apply in_or_app. left. exact Hx. }
      split; [|split].
      * destruct (Nat.ltb_spec m (length (filter (inside d) b))); [apply firstn_length_le; lia | lia].
      * intros x Hx. exists b. split; [left; reflexivity|]. apply Sub, filter_In in Hx. apply Hx.
      * intros d' Ed x Hx. injection Ed as <-. apply Sub, filter_In in Hx. apply Hx.
    + destruct (IH E) as (H1 & H2 & H3); [intros; discriminate|]. split; [exact H1|]. split; [|exact H3].
      intros x Hx. destruct (H2 x Hx) as (b' & Hb & Hx'). exists b'. split; [right; exact Hb | exact Hx'].
  - injection E as <-. split; [apply (HN eq_refl b bs eq_refl)|]. split; [|intros; discriminate].
    intros x Hx. exists b. split; [left; reflexivity | exact Hx].
Qed.
Lemma fill_clusters_spec dom m : forall cs draws r, fill_clusters dom m cs draws = Some r ->
  (dom = None -> forall bs b rest, In bs draws -> bs = b :: rest -> length b = m) ->
  length r = length cs * m /\ forall k, k < length cs -> exists bs, nth_error draws k = Some bs /\
    length (firstn m (skipn (k * m) r)) = m /\
    forall x, In x (firstn m (skipn (k * m) r)) -> (exists b, In b bs /\ In x b) /\ (forall d, dom = Some d -> inside d x = true).
Proof.
  induction cs as [|c0 cs IH]; intros draws r E HN; simpl in E.
  - injection E as <-. split; [reflexivity|]. intros k Hk. simpl in Hk. lia.
  - destruct draws as [|bs draws]; [discriminate|]. destruct (fill_cluster dom m bs) as [c|] eqn:Ec; [|discriminate].
    destruct (fill_clusters dom m cs draws) as [r'|] eqn:Er; [|discriminate]. injection E as <-.
    destruct (fill_cluster_spec dom m bs c Ec) as (L1 & S1 & D1); [intros Hd b rest Eb; apply (HN Hd bs b rest); [left; reflexivity | exact Eb]|].
    destruct (IH draws r' Er) as (L2 & H2); [intros Hd b0 b rest Hb; apply (HN Hd); right; exact Hb|].
    split; [rewrite app_length, L1, L2; reflexivity|]. intros [|k] Hk.
    + exists bs. split; [reflexivity|]. simpl Nat.mul. cbn [skipn]. rewrite firstn_exact by (symmetry; exact L1). split; [exact L1|].
      intros x Hx. split; [apply S1, Hx | intros d Hd; apply (D1 d Hd), Hx].
    + simpl in Hk. destruct (H2 k ltac:(lia)) as (bs' & E1 & E2 & E3). exists bs'. split; [exact E1|].
      replace (S k * m) with (length c + k * m) by lia. rewrite skipn_app, skipn_all2 by lia.
      replace (length c + k * m - length c) with (k * m) by lia. cbn [app]. split; [exact E2 | exact E3].
Qed.
Lemma sample_lp_ball_lemma : forall (Ball : list Qc -> list Qc -> Prop) dom m cs draws vals,
  (dom = None -> forall bs b rest, In bs draws -> bs = b :: rest -> length b = m) ->
  (forall k c bs b x, nth_error cs k = Some c -> nth_error draws k = Some bs -> In b bs -> In x b -> length x = length c /\ Ball c x) ->
  (forall d c, dom = Some d -> In c cs -> length c = length d) ->
  sample_lp_ball dom m (Some cs) draws = Ok (Some vals) ->
  length vals = length cs * (m + 1) /\ firstn (length cs) vals = cs /\
  forall k c, nth_error cs k = Some c ->
    length (cluster (length cs) m k vals) = m /\
    forall x, In x (cluster (length cs) m k vals) -> Ball c x /\ (forall d, dom = Some d -> in_box d x).
Proof.
  intros Ball dom m cs draws vals HN HB HD E. unfold sample_lp_ball in E.
  destruct ((m =? 0) && negb (length cs =? 0)); [discriminate|]. injection E as E.
  destruct (fill_clusters dom m cs draws) as [r|] eqn:Er; [|discriminate]. injection E as <-.
  destruct (fill_clusters_spec dom m cs draws r Er HN) as (L & H).
  split; [rewrite app_length, L; lia|]. split; [apply firstn_exact; reflexivity|]. intros k c Ek.
  destruct (H k (nth_error_lt _ _ _ Ek)) as (bs & E1 & E2 & E3). unfold cluster.
  assert (Es : skipn (length cs + k * m) (cs ++ r) = skipn (k * m) r).
  { rewrite skipn_app, skipn_all2 by lia. replace (length cs + k * m - length cs) with (k * m) by lia. reflexivity. }
  rewrite Es.
  split; [exact E2|]. intros x Hx. destruct (E3 x Hx) as ((b & Hb & Hxb) & Hd).
  destruct (HB k c bs b x Ek E1 Hb Hxb) as [Lx Bx]. split; [exact Bx|]. intros d Ed. apply inside_in_box; [|apply Hd, Ed].
  rewrite Lx. symmetry. apply (HD d c Ed). eapply nth_error_In, Ek.
Qed.
(** Termination: the loop stops as soon as one batch has enough points in the domain. *)
Lemma fill_clusters_total dom m : forall cs draws, length draws = length cs ->
  (forall bs, In bs draws -> exists b, In b bs /\ forall d, dom = Some d -> m <= length (filter (inside d) b)) ->
  exists r, fill_clusters dom m cs draws = Some r.
Proof.
  assert (One : forall bs, (exists b, In b bs /\ forall d, dom = Some d -> m <= length (filter (inside d) b)) -> exists c, fill_cluster dom m bs = Some c).
  { induction bs as [|b bs IH]; intros (b' & Hb & Hd); [contradiction|]. simpl. destruct dom as [d|]; [|eauto].
    destruct (Nat.leb_spec m (length (filter (inside d) b))) as [L|L]; [eauto|]. apply IH. exists b'. split; [|exact Hd].
    destruct Hb as [<-|Hb]; [specialize (Hd d eq_refl); lia | exact Hb]. }
  induction cs as [|c cs IH]; intros [|bs draws] L H; simpl in *; try discriminate; [eauto|].
  destruct (One bs (H bs (or_introl eq_refl))) as [c' ->]. destruct (IH draws ltac:(lia) ltac:(intros; apply H; right; assumption)) as [r ->]. eauto.
Qed.
Lemma sample_lp_ball_total_lemma : forall dom m cs draws, 0 < m -> length draws = length cs ->
  (forall bs, In bs draws -> exists b, In b bs /\
     (forall d, dom = Some d -> exists good, length good = m /\ incl good b /\ NoDup good /\ forall x, In x good -> length x = length d /\ in_box d x)) ->
  exists vals, sample_lp_ball dom m (Some cs) draws = Ok (Some vals).
Proof.
  intros dom m cs draws M L H. unfold sample_lp_ball. destruct (Nat.eqb_spec m 0); [lia|]. cbn [andb].
  destruct (fill_clusters_total dom m cs draws L) as [r ->]; [|eexists; reflexivity].
  intros bs Hbs. destruct (H bs Hbs) as (b & Hb & Hg). exists b. split; [exact Hb|]. intros d Ed.
  destruct (Hg d Ed) as (good & Lg & Inc & ND & Hx). rewrite <- Lg. apply NoDup_incl_length; [exact ND|].
  intros x Hin. apply filter_In. split; [apply Inc, Hin|]. destruct (Hx x Hin) as [E1 E2]. apply inside_in_box; [symmetry; exact E1 | exact E2].
Qed.
Lemma sample_lp_ball_empty_lemma : forall dom cs draws, cs <> [] -> sample_lp_ball dom 0 (Some cs) draws = Raise PyNameError.
Proof. intros dom [|c cs] draws N; [congruence | reflexivity]. Qed.
