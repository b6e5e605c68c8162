From Coq Require Import List Arith QArith Qcanon Lia.
From Verif Require Import Num Lists Normalize_Model Normalize_Spec.
Import ListNotations.
Local Open Scope nat_scope.

Lemma read_other f h r q : buf q <> buf r -> read (inplace f h r) q = read h q.
Proof. intro N. unfold read, inplace. destruct (Nat.eqb_spec (buf q) (buf r)); [contradiction | reflexivity]. Qed.

Lemma read_same f h r : read (inplace f h r) r = map f (read h r).
Proof.
  unfold read, inplace. rewrite Nat.eqb_refl. set (l := h (buf r)). set (o := off r). set (n := len r).
  destruct (Nat.le_gt_cases o (length l)) as [Ho|Ho].
  - rewrite skipn_app. rewrite firstn_length, (Nat.min_l o) by lia. rewrite Nat.sub_diag. simpl.
    rewrite skipn_all2 by (rewrite firstn_length; lia). simpl.
    rewrite firstn_app. rewrite map_length, firstn_length, skipn_length.
    rewrite (firstn_all2 (n := n) (map f (firstn n (skipn o l)))) by (rewrite map_length, firstn_length; lia).
    destruct (Nat.le_gt_cases n (length l - o)) as [Hn|Hn].
    + replace (n - Nat.min n (length l - o)) with 0 by lia. simpl. apply app_nil_r.
    + rewrite (skipn_all2 (n := o + n)) by lia. rewrite firstn_nil. apply app_nil_r.
  - rewrite (skipn_all2 (n := o + n) l) by lia. rewrite (skipn_all2 (n := o) l) by lia.
    rewrite firstn_nil. simpl. rewrite app_nil_r. rewrite skipn_all2 by (rewrite firstn_length; lia).
    rewrite firstn_nil. reflexivity.
Qed.

Lemma fields_set_field s f r g : fields (set_field s f r) g = if fld_eq_dec g f then Some r else fields s g.
Proof. reflexivity. Qed.

(** A step on field f: f's contents change by [k], nothing else does. *)
Definition step_ok (k : vec -> vec) (step : nset -> fld -> nset) : Prop :=
  forall s f, separate s ->
    separate (step s f) /\
    contents (step s f) f = option_map (map k) (contents s f) /\
    (forall g, g <> f -> contents (step s f) g = contents s g) /\
    dom (step s f) = dom s /\ dom_original (step s f) = dom_original s.

Lemma alloc_ok s f r l : separate s -> fields s f = Some r ->
  separate (alloc s f l) /\ contents (alloc s f l) f = Some l /\
  (forall g, g <> f -> contents (alloc s f l) g = contents s g).
Proof.
  intros [S1 S2] F. repeat split.
  - intros g g' q q' N G G'. simpl in G, G'.
    destruct (fld_eq_dec g f) as [->|Hg], (fld_eq_dec g' f) as [->|Hg'].
    + congruence.
    + injection G as <-. simpl. apply S2 in G'. lia.
    + injection G' as <-. simpl. apply S2 in G. lia.
    + eapply S1; [|exact G|exact G']. exact N.
  - intros g q G. simpl in G. simpl. destruct (fld_eq_dec g f) as [->|Hg].
    + injection G as <-. simpl. lia.
    + apply S2 in G. lia.
  - unfold contents. simpl. destruct (fld_eq_dec f f) as [_|]; [|congruence]. simpl. unfold read. simpl.
    rewrite Nat.eqb_refl. simpl. rewrite firstn_all. reflexivity.
  - intros g Hg. unfold contents. simpl. destruct (fld_eq_dec g f); [congruence|].
    destruct (fields s g) as [q|] eqn:G; [|reflexivity]. simpl. unfold read. simpl.
    destruct (Nat.eqb_spec (buf q) (next s)) as [E|_]; [|reflexivity]. apply S2 in G. lia.
Qed.

Lemma inplace_ok k s f r : separate s -> fields s f = Some r ->
  let s1 := set_mem s (inplace k (mem s) r) in
  separate s1 /\ contents s1 f = option_map (map k) (contents s f) /\
  (forall g, g <> f -> contents s1 g = contents s g).
Proof.
  intros [S1 S2] F s1. repeat split; auto.
  - unfold contents. simpl. rewrite F. simpl. rewrite read_same. reflexivity.
  - intros g Hg. unfold contents. simpl. destruct (fields s g) as [q|] eqn:G; [|reflexivity]. simpl.
    rewrite read_other; [reflexivity|]. eapply S1; eauto.
Qed.

Lemma rescale1_ok d : step_ok (fun v => map2 Qcmult v (widths d)) (rescale1 d).
Proof.
  intros s f S. unfold rescale1. destruct (fields s f) as [r|] eqn:F.
  - destruct (inplace_ok (fun v => map2 Qcmult v (widths d)) s f r S F) as (A & B & C). repeat split; auto; apply A.
  - repeat split; auto; try apply S. unfold contents. rewrite F. reflexivity.
Qed.

Lemma unscale1_ok d : step_ok (fun v => map2 Qcdiv v (widths d)) (unscale1 d).
Proof.
  intros s f S. unfold unscale1. destruct (fields s f) as [r|] eqn:F.
  - destruct (alloc_ok s f r (map (fun v => map2 Qcdiv v (widths d)) (read (mem s) r)) S F) as (A & B & C).
    repeat split; auto; try apply A. rewrite B. unfold contents. rewrite F. reflexivity.
  - repeat split; auto; try apply S. unfold contents. rewrite F. reflexivity.
Qed.

Lemma unshift1_ok d : step_ok (fun v => map2 Qcplus (map2 Qcmult v (widths d)) (lows d)) (unshift1 d).
Proof.
  intros s f S. unfold unshift1. destruct (fields s f) as [r|] eqn:F.
  - destruct (alloc_ok s f r (map (fun v => map2 Qcplus (map2 Qcmult v (widths d)) (lows d)) (read (mem s) r)) S F) as (A & B & C).
    repeat split; auto; try apply A. rewrite B. unfold contents. rewrite F. reflexivity.
  - repeat split; auto; try apply S. unfold contents. rewrite F. reflexivity.
Qed.

Lemma shift1_ok d : step_ok (fun v => map2 Qcdiv (map2 Qcminus v (lows d)) (widths d)) (shift1 d).
Proof.
  intros s f S. unfold shift1. destruct (fields s f) as [r|] eqn:F.
  - destruct (inplace_ok (fun v => map2 Qcminus v (lows d)) s f r S F) as (A & B & C).
    set (s1 := set_mem s _) in *.
    assert (F1 : fields s1 f = Some r) by exact F.
    destruct (alloc_ok s1 f r (map (fun v => map2 Qcdiv v (widths d)) (read (mem s1) r)) A F1) as (A' & B' & C').
    repeat split; try apply A'.
    + rewrite B'. unfold contents in *. rewrite F in *. rewrite F1 in B. simpl in *. injection B as B. rewrite B.
      rewrite map_map. reflexivity.
    + intros g Hg. rewrite C' by exact Hg. apply C, Hg.
  - repeat split; auto; try apply S. unfold contents. rewrite F. reflexivity.
Qed.

Lemma fold_ok k step l : step_ok k step -> NoDup l -> forall s, separate s ->
  let s' := fold_left step l s in
  separate s' /\ (forall f, In f l -> contents s' f = option_map (map k) (contents s f)) /\
  (forall f, ~ In f l -> contents s' f = contents s f) /\
  dom s' = dom s /\ dom_original s' = dom_original s.
Proof.
  intros H N. induction l as [|f l IH]; intros s S; simpl.
  - repeat split; auto; try apply S; try contradiction.
  - inversion N as [|? ? Nf Nl]; subst. destruct (H s f S) as (A & B & C & D1 & D2).
    destruct (IH Nl (step s f) A) as (A' & B' & C' & D1' & D2'). repeat split.
    + apply A'.
    + apply A'.
    + intros g [<-|Hg]; [rewrite C' by exact Nf; exact B|].
      rewrite B' by exact Hg. rewrite C; [reflexivity | intro E; subst; contradiction].
    + intros g Hg. rewrite C' by (intro X; apply Hg; right; exact X). apply C. intro E; subst; apply Hg; left; reflexivity.
    + congruence.
    + congruence.
Qed.

Lemma nodup_rescale : NoDup rescale_list. Proof. repeat constructor; simpl; intuition discriminate. Qed.
Lemma nodup_shift : NoDup shift_list. Proof. repeat constructor; simpl; intuition discriminate. Qed.

Definition fwd d f := if is_gradient f then fun v => map2 Qcmult v (widths d)
                      else fun v => map2 Qcdiv (map2 Qcminus v (lows d)) (widths d).
Definition bwd d f := if is_gradient f then fun v => map2 Qcdiv v (widths d)
                      else fun v => map2 Qcplus (map2 Qcmult v (widths d)) (lows d).

Lemma in_lists f : if is_gradient f then In f rescale_list /\ ~ In f shift_list else ~ In f rescale_list /\ In f shift_list.
Proof. destruct f; simpl; intuition discriminate. Qed.

Lemma normalize_ok s d : separate s -> dom s = Some d ->
  separate (normalize_domain s) /\
  (forall f, contents (normalize_domain s) f = option_map (map (fwd d f)) (contents s f)) /\
  dom_original (normalize_domain s) = Some d /\ dom (normalize_domain s) = Some (map (fun _ => (0, 1)%Qc) d).
Proof.
  intros S D. unfold normalize_domain. rewrite D.
  destruct (fold_ok _ _ _ (rescale1_ok d) nodup_rescale s S) as (A & B & C & _).
  set (s1 := fold_left (rescale1 d) rescale_list s) in *.
  destruct (fold_ok _ _ _ (shift1_ok d) nodup_shift s1 A) as (A' & B' & C' & _).
  set (s2 := fold_left (shift1 d) shift_list s1) in *.
  repeat split; try apply A'.
  intro f. change (contents s2 f = option_map (map (fwd d f)) (contents s f)).
  pose proof (in_lists f) as I. unfold fwd. destruct (is_gradient f); destruct I as [I1 I2].
  - rewrite C' by exact I2. apply B, I1.
  - rewrite B' by exact I2. rewrite C by exact I1. reflexivity.
Qed.

Lemma undo_ok s d d0 : separate s -> dom s = Some d0 -> dom_original s = Some d ->
  separate (undo_normalize_domain s) /\
  (forall f, contents (undo_normalize_domain s) f = option_map (map (bwd d f)) (contents s f)) /\
  dom_original (undo_normalize_domain s) = None /\ dom (undo_normalize_domain s) = Some d.
Proof.
  intros S D D0. unfold undo_normalize_domain. rewrite D, D0.
  destruct (fold_ok _ _ _ (unscale1_ok d) nodup_rescale s S) as (A & B & C & _).
  set (s1 := fold_left (unscale1 d) rescale_list s) in *.
  destruct (fold_ok _ _ _ (unshift1_ok d) nodup_shift s1 A) as (A' & B' & C' & _).
  set (s2 := fold_left (unshift1 d) shift_list s1) in *.
  repeat split; try apply A'.
  intro f. change (contents s2 f = option_map (map (bwd d f)) (contents s f)).
  pose proof (in_lists f) as I. unfold bwd. destruct (is_gradient f); destruct I as [I1 I2].
  - rewrite C' by exact I2. apply B, I1.
  - rewrite B' by exact I2. rewrite C by exact I1. reflexivity.
Qed.

Lemma map2_length f a b : length a = length b -> length (map2 f a b) = length b.
Proof. intro L. unfold map2. rewrite map_length, combine_length. lia. Qed.

Lemma bwd_fwd d f v : nondegenerate d -> length v = length d -> bwd d f (fwd d f v) = v.
Proof.
  intros N L. unfold bwd, fwd, widths, lows. destruct (is_gradient f); unfold map2;
  revert v L; induction N as [|[a b] d Hab N IH]; intros [|x v] L; simpl in *; try discriminate; try reflexivity;
  f_equal; try (apply IH; lia); assert (b - a <> 0)%Qc by (intro E; apply Qclt_not_eq in Hab; apply Hab; symmetry;
    rewrite <- (Qcplus_0_l a), <- E; ring); field; assumption.
Qed.

Lemma fwd_unit d f v : nondegenerate d -> length v = length d -> is_gradient f = false ->
  unit_coordinates d v (fwd d f v).
Proof.
  intros N L G. unfold fwd. rewrite G. repeat split; auto.
  - rewrite map2_length; unfold widths, lows; rewrite ?map_length; auto. rewrite map2_length; rewrite ?map_length; auto.
  - unfold widths, lows, map2. revert v L. induction N as [|[a b] d Hab N IH]; intros [|x v] L i a0 b0 x0 y0 Hd Hv Hw; simpl in *; try discriminate.
    + destruct i; discriminate.
    + destruct i as [|i]; simpl in *.
      * injection Hd as <- <-. injection Hv as <-. injection Hw as <-.
        apply qc_div_mul. intro E. apply Qclt_not_eq in Hab. apply Hab. symmetry.
        rewrite <- (Qcplus_0_l a), <- E. ring.
      * eapply IH; eauto.
Qed.

Lemma fwd_grad d f v : length v = length d -> is_gradient f = true -> scaled_gradient d v (fwd d f v).
Proof.
  intros L G. unfold fwd. rewrite G. repeat split; auto.
  - rewrite map2_length; unfold widths; rewrite ?map_length; auto.
  - unfold widths, map2. revert v L. induction d as [|[a b] d IH]; intros [|x v] L i a0 b0 x0 y0 Hd Hv Hw; simpl in *; try discriminate.
    + destruct i; discriminate.
    + destruct i as [|i]; simpl in *.
      * injection Hd as <- <-. injection Hv as <-. injection Hw as <-. reflexivity.
      * eapply IH; eauto.
Qed.

Lemma normalize_undo_restores s d : separate s -> dom s = Some d -> well_shaped s d -> nondegenerate d ->
  (forall f, contents (undo_normalize_domain (normalize_domain s)) f = contents s f) /\
  dom (undo_normalize_domain (normalize_domain s)) = Some d.
Proof.
  intros S D W N. destruct (normalize_ok s d S D) as (S1 & C1 & O1 & D1).
  destruct (undo_ok _ _ _ S1 D1 O1) as (_ & C2 & _ & D2). split; [|exact D2].
  intro f. rewrite C2, C1. destruct (contents s f) as [l|] eqn:E; [|reflexivity]. simpl. f_equal.
  rewrite map_map. rewrite <- (map_id l) at 2. apply map_ext_in. intros v Hv.
  apply bwd_fwd; [exact N | eapply W; eauto].
Qed.

Lemma normalize_unit s d f l : separate s -> dom s = Some d -> well_shaped s d -> nondegenerate d ->
  contents s f = Some l ->
  exists l', contents (normalize_domain s) f = Some l' /\
    Forall2 (if is_gradient f then scaled_gradient d else unit_coordinates d) l l'.
Proof.
  intros S D W N E. destruct (normalize_ok s d S D) as (_ & C1 & _ & _).
  exists (map (fwd d f) l). split; [rewrite C1, E; reflexivity|].
  assert (W' : forall v, In v l -> length v = length d) by (intros v Hv; eapply W; eauto).
  clear E C1. induction l as [|v l IH]; simpl; constructor.
  - destruct (is_gradient f) eqn:G; [apply fwd_grad | apply fwd_unit]; auto; apply W'; left; reflexivity.
  - apply IH. intros w Hw. apply W'. right. exact Hw.
Qed.

(** a point of the box has unit coordinates between 0 and 1 *)
Lemma unit_in_box d v w : nondegenerate d -> unit_coordinates d v w ->
  (forall i a b x, nth_error d i = Some (a, b) -> nth_error v i = Some x -> (a <= x <= b)%Qc) ->
  forall y, In y w -> (0 <= y <= 1)%Qc.
Proof.
  intros N (L1 & L2 & U) B y Hy. apply In_nth_error in Hy. destruct Hy as [i Hi].
  assert (Hid : i < length d). { rewrite <- L2. apply nth_error_Some. congruence. }
  destruct (nth_error d i) as [[a b]|] eqn:Ed; [|apply nth_error_None in Ed; lia].
  destruct (nth_error v i) as [x|] eqn:Ev; [|apply nth_error_None in Ev; lia].
  specialize (U i a b x y Ed Ev Hi). specialize (B i a b x Ed Ev).
  unfold nondegenerate in N. rewrite Forall_forall in N. specialize (N (a, b) (nth_error_In _ _ Ed)). simpl in N.
  assert (W : (0 < b - a)%Qc) by qc_lra.
  split.
  - apply Qcnot_lt_le. intro H. assert (y * (b - a) < 0)%Qc by qc_nra. qc_lra.
  - apply Qcnot_lt_le. intro H. assert (b - a < y * (b - a))%Qc by qc_nra. qc_lra.
Qed.

(** *** aliased local values: the state right after global_to_local, where the
    local values are a window of the global array's buffer *)
Definition alias_state : nset :=
  mk_nset (fun b => if b =? 0 then [[qn 3]] else []) 1
          (fun f => match f with Val => Some (mk_ref 0 0 1) | ValL => Some (mk_ref 0 0 1) | _ => None end)
          (Some [(1, qn 2 + 1)%Qc]) None.

Lemma alias_witness :
  exists s d, dom s = Some d /\ nondegenerate d /\ well_shaped s d /\
    fields s Val = fields s ValL /\ contents s ValL = Some [[qn 3]] /\
    contents (undo_normalize_domain (normalize_domain s)) Val = Some [[qn 3]] /\
    contents (undo_normalize_domain (normalize_domain s)) ValL = Some [[qn 2]].
Proof.
  exists alias_state, [(1, qn 2 + 1)%Qc]. repeat split.
  - constructor; [reflexivity | constructor].
  - intros f l v E Hv. destruct f; simpl in E; try discriminate; injection E as <-; destruct Hv as [<-|[]]; reflexivity.
Qed.

(** the array the caller passed to set_values is changed *)
Definition plain_state : nset :=
  mk_nset (fun b => if b =? 0 then [[qn 3]] else []) 1
          (fun f => match f with Val => Some (mk_ref 0 0 1) | _ => None end)
          (Some [(1, qn 2 + 1)%Qc]) None.

Lemma caller_witness :
  exists s d r, dom s = Some d /\ separate s /\ fields s Val = Some r /\
    read (mem s) r = [[qn 3]] /\ read (mem (normalize_domain s)) r = [[qn 2]].
Proof.
  exists plain_state, [(1, qn 2 + 1)%Qc], (mk_ref 0 0 1). repeat split.
  - intros f g r q N F G. destruct f, g; simpl in *; try discriminate; congruence.
  - intros f r F. destruct f; simpl in F; try discriminate. injection F as <-. simpl. lia.
Qed.

(** normalizing twice: the second call forgets the original domain *)
Lemma normalize_twice s d : separate s -> dom s = Some d ->
  dom (undo_normalize_domain (normalize_domain (normalize_domain s))) = Some (map (fun _ => (0, 1)%Qc) d) /\
  dom_original (undo_normalize_domain (normalize_domain (normalize_domain s))) = None.
Proof.
  intros S D. destruct (normalize_ok s d S D) as (S1 & _ & O1 & D1).
  destruct (normalize_ok _ _ S1 D1) as (S2 & _ & O2 & D2).
  destruct (undo_ok _ _ _ S2 D2 O2) as (_ & _ & O3 & D3). auto.
Qed.
