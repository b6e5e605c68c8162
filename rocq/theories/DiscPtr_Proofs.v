From Coq Require Import List Arith Bool QArith Qcanon Permutation Lia.
From Verif Require Import Err Num NumPy Lists SampleSet_Model SampleSet_Spec SampleSet_Proofs Prob_Model Disc_Model Disc_Spec Disc_Proofs.
Import ListNotations.
Local Open Scope nat_scope.

Section Pointers.
Context {R : Type}.
Implicit Types (s t u : sset R) (d e : disc R).
Variable nn : list R -> R -> nat.
Variable P : nat.
Hypothesis HP : 0 < P.

(** *** C60 *)
Definition Agr k (g : bool) d := agree (global_ptr k d) (local_ptr k d) /\ (global_ptr k d <> None -> g = true).

Lemma io_ptr_fields g d d' : set_io_ptr nn P g d = Ok d' -> exists p,
  io_loc d' = Some p /\ io d' = (if g then Some (concat p) else io d) /\
  ii d' = ii d /\ ii_loc d' = ii_loc d /\ oo d' = oo d /\ oo_loc d' = oo_loc d.
Proof. unfold set_io_ptr. intro H. repeat inv_bind H. injection H as <-. simpl. eexists. repeat split. Qed.
Lemma ii_ptr_fields g d d' : set_ii_ptr nn P g d = Ok d' -> exists p,
  ii_loc d' = Some p /\ ii d' = (if g then Some (concat p) else ii d) /\
  io d' = io d /\ io_loc d' = io_loc d /\ oo d' = oo d /\ oo_loc d' = oo_loc d.
Proof. unfold set_ii_ptr. intro H. repeat inv_bind H. injection H as <-. simpl. eexists. repeat split. Qed.
Lemma oo_ptr_fields g d d' : set_oo_ptr nn P g d = Ok d' -> exists p,
  oo_loc d' = Some p /\ oo d' = (if g then Some (concat p) else oo d) /\
  io d' = io d /\ io_loc d' = io_loc d /\ ii d' = ii d /\ ii_loc d' = ii_loc d.
Proof. unfold set_oo_ptr. intro H. repeat inv_bind H. injection H as <-. simpl. eexists. repeat split. Qed.

(** What a step does to one pointer. *)
Lemma step_pointer k o d d' : dstep nn P o d = Ok d' ->
  (makes_global k o = false -> only_local k o = false -> global_ptr k d' = global_ptr k d /\ local_ptr k d' = local_ptr k d) /\
  (only_local k o = true -> global_ptr k d' = global_ptr k d) /\
  (makes_global k o = true ->
     (global_ptr k d' = option_map (@concat nat) (local_ptr k d')) \/
     (global_ptr k d' = global_ptr k d /\ local_ptr k d' = local_ptr k d)).
Proof.
  destruct o as [s|s|s|s|s|s|g|g|g|]; simpl; intro H;
    try (injection H as <-; destruct k; simpl; repeat split; (discriminate || reflexivity)).
  - (* OProb *) unfold done in H. destruct (snd _) eqn:E; [discriminate|]. injection H as <-.
    unfold set_probability in *. destruct (_ && _); [|discriminate].
    destruct (d_out d) as [out|]; [|discriminate].
    assert (Z : forall d', set_io_ptr nn P false (with_prob (Some s) d) = Ok d' ->
      io d' = io d /\ ii d' = ii d /\ ii_loc d' = ii_loc d /\ oo d' = oo d /\ oo_loc d' = oo_loc d).
    { intros d' H'. destruct (io_ptr_fields _ _ _ H') as (p & _ & A1 & A2 & A3 & A4 & A5). simpl in *. auto. }
    destruct (loc out Values) as [bs|], (glob s Values) as [x|]; simpl in *;
      try (destruct k; simpl; repeat split; (discriminate || reflexivity)).
    destruct (set_io_ptr nn P false (with_prob (Some s) d)) as [d2|]; [|discriminate]. simpl.
    destruct (Z d2 eq_refl) as (A1 & A2 & A3 & A4 & A5). destruct k; simpl; repeat split; intros; auto; discriminate.
  - (* OEin *) unfold set_emulated_input in H. destruct (same_dim _ _); [|discriminate]. injection H as <-.
    destruct k; simpl; repeat split; (discriminate || reflexivity).
  - unfold set_emulated_output in H. destruct (_ && _); [|discriminate]. injection H as <-.
    destruct k; simpl; repeat split; (discriminate || reflexivity).
  - destruct (io_ptr_fields _ _ _ H) as (p & A0 & A1 & A2 & A3 & A4 & A5).
    destruct k, g; simpl; repeat split; intros; auto; try discriminate. left. rewrite A0, A1. reflexivity.
  - destruct (ii_ptr_fields _ _ _ H) as (p & A0 & A1 & A2 & A3 & A4 & A5).
    destruct k, g; simpl; repeat split; intros; auto; try discriminate. left. rewrite A0, A1. reflexivity.
  - destruct (oo_ptr_fields _ _ _ H) as (p & A0 & A1 & A2 & A3 & A4 & A5).
    destruct k, g; simpl; repeat split; intros; auto; try discriminate. left. rewrite A0, A1. reflexivity.
  - injection H as <-. destruct k; simpl; (repeat split; intros; try discriminate);
      unfold fill; [destruct (io_loc d), (io d) | destruct (ii_loc d), (ii d) | destruct (oo_loc d), (oo d)]; simpl; auto.
Qed.

Lemma step_agr k g o d d' : negb (only_local k o && g) = true -> Agr k g d -> dstep nn P o d = Ok d' ->
  Agr k (g || makes_global k o) d'.
Proof.
  intros B [A G] H. destruct (step_pointer k o d d' H) as (S1 & S2 & S3).
  destruct (makes_global k o) eqn:M.
  - rewrite orb_true_r. split; [|reflexivity]. destruct (S3 eq_refl) as [E|[E1 E2]].
    + intros x bs Hx Hb. rewrite Hb in E. simpl in E. congruence.
    + rewrite E1, E2. exact A.
  - rewrite orb_false_r. destruct (only_local k o) eqn:L.
    + simpl in B. destruct g; [discriminate|].
      assert (N : global_ptr k d' = None).
      { rewrite S2 by reflexivity. destruct (global_ptr k d); [specialize (G ltac:(discriminate)); discriminate | reflexivity]. }
      split; [intros x bs Hx; congruence | congruence].
    + destruct (S1 eq_refl eq_refl) as [E1 E2]. split; [rewrite E1, E2; exact A | rewrite E1; exact G].
Qed.

Lemma run_agr k ops : forall g d d', no_late_local k g ops = true -> Agr k g d -> drun nn P ops d = Ok d' ->
  agree (global_ptr k d') (local_ptr k d').
Proof.
  induction ops as [|o ops IH]; intros g d d' B A H; simpl in H.
  - injection H as <-. exact (proj1 A).
  - simpl in B. apply andb_true_iff in B. destruct B as [B1 B2]. inv_bind H.
    eapply IH; [exact B2 | | exact H]. eapply step_agr; eauto.
Qed.

Lemma pointers_agree_lemma k ops d d' : no_pointers d -> no_late_local k false ops = true ->
  drun nn P ops d = Ok d' -> agree (global_ptr k d') (local_ptr k d').
Proof.
  intros N B H. destruct (N k) as [N1 N2]. eapply run_agr; eauto. split; [intros x bs Hx; congruence | congruence].
Qed.

(** *** Trees and queries on consistent sets *)
Lemma set_kdtree_good s n : good_set P s n -> exists s1 v,
  set_kdtree s = Ok s1 /\ glob s Values = Some v /\ glob s1 Values = Some v /\ kd s1 = Some v /\ tail_shape v = [dim s] /\
  (forall a, a <> KdtreeValues -> glob s1 a = glob s a) /\ loc s1 = loc s /\ dim s1 = dim s /\ good_set P s1 n.
Proof.
  intros [[(HA & v & GV & TV) HL] TC]. unfold set_kdtree. rewrite GV.
  eexists. exists v. split; [reflexivity|]. split; [reflexivity|]. simpl. rewrite upd_other by discriminate.
  split; [exact GV|]. split; [reflexivity|]. split; [exact TV|].
  split; [intros a Ha; apply upd_other, Ha|]. split; [reflexivity|]. split; [reflexivity|].
  split.
  - split.
    + split.
      * intros a x Gx. simpl in Gx. destruct (attr_eq_dec a KdtreeValues) as [->|Ha].
        -- rewrite upd_same in Gx. injection Gx as <-. exact (HA Values v GV).
        -- rewrite upd_other in Gx by exact Ha. exact (HA a x Gx).
      * exists v. simpl. rewrite upd_other by discriminate. auto.
    + intros L x Gx. simpl in L, Gx. rewrite upd_other in Gx by discriminate. exact (HL L x Gx).
  - right. simpl. rewrite upd_other by discriminate. symmetry. exact GV.
Qed.

Definition shapes_ok (bs : list (arr R)) (v : arr R) : Prop := forall b, In b bs -> tail_shape b = tail_shape v.
Definition ptrs_of (v : arr R) (bs : list (arr R)) : list (list nat) := map (fun b => map (nn (rows v)) (rows b)) bs.

(** s1 is s after a query: the same up to the tree. *)
Definition queried s s1 : Prop :=
  (forall a, a <> KdtreeValues -> glob s1 a = glob s a) /\ loc s1 = loc s /\ dim s1 = dim s.

Lemma query_blocks_ok s n v bs : good_set P s n -> glob s Values = Some v -> shapes_ok bs v ->
  exists s1, query_blocks nn P bs s = Ok (ptrs_of v bs, s1) /\ queried s s1 /\ good_set P s1 n.
Proof.
  intros G GV S. unfold query_blocks.
  assert (F : forallb (fun b => if shape_eq_dec (tail_shape b) (tail_shape v) then true else false) bs = true).
  { apply forallb_forall. intros b Hb. rewrite (S b Hb). destruct shape_eq_dec; congruence. }
  destruct (kd s) as [t|] eqn:K.
  - rewrite (ready_count P s n (proj1 G)). simpl. rewrite K. simpl.
    destruct (proj2 G) as [E|E]; [congruence|]. rewrite K, GV in E. injection E as ->. rewrite F.
    exists s. split; [reflexivity|]. split; [repeat split|]. exact G.
  - destruct (set_kdtree_good s n G) as (s1 & v' & E & GV' & GV1 & K1 & _ & O & L & D & G1).
    rewrite GV in GV'. injection GV' as <-. rewrite E. simpl. rewrite K1. simpl. rewrite F.
    exists s1. split; [reflexivity|]. split; [|exact G1]. unfold queried. auto.
Qed.

Lemma query_blocks_inv s n bs p s1 : good_set P s n -> query_blocks nn P bs s = Ok (p, s1) ->
  exists v, glob s Values = Some v /\ shapes_ok bs v /\ p = ptrs_of v bs /\ queried s s1 /\ good_set P s1 n.
Proof.
  intros G H. destruct (proj2 (proj1 (proj1 G))) as (v & GV & _).
  assert (S : shapes_ok bs v).
  { unfold query_blocks in H. inv_bind H. inv_bind H. apply need_ok in E0.
    assert (x0 = v) as ->.
    { destruct (kd s) as [t|] eqn:K.
      - inv_bind E. injection E as <-. destruct (proj2 G) as [E|E]; congruence.
      - unfold set_kdtree in E. rewrite GV in E. injection E as <-. simpl in E0. congruence. }
    destruct (forallb _ bs) eqn:F; [|discriminate]. rewrite forallb_forall in F.
    intros b Hb. specialize (F b Hb). destruct shape_eq_dec; congruence. }
  destruct (query_blocks_ok s n v bs G GV S) as (s1' & E & Q & G1). rewrite E in H. injection H as <- <-.
  exists v. auto.
Qed.

Lemma localized_good s n : good_set P s n -> exists s1 bs,
  localized P s = Ok s1 /\ loc s1 Values = Some bs /\ glob s1 = glob s /\ dim s1 = dim s /\ good_set P s1 n.
Proof.
  intros [Rd TC]. destruct (proj2 (proj1 Rd)) as (v & GV & _).
  destruct (localized_blocks P s n v HP Rd GV) as (s1 & bs & E & L & _ & _ & _ & _ & Eg & Ed & Ek & R1).
  exists s1, bs. split; [exact E|]. split; [exact L|]. split; [exact Eg|]. split; [exact Ed|]. split; [exact R1|].
  destruct TC as [TC|TC]; [left | right]; congruence.
Qed.
Lemma localized_id s bs : loc s Values = Some bs -> localized P s = Ok s.
Proof. unfold localized. intros ->. reflexivity. Qed.

(** *** C65: the pointers belong to the sets *)
Definition cur (from to : option (sset R)) (l : option (list (list nat))) : Prop :=
  forall p, l = Some p -> exists s t bs v,
    from = Some s /\ to = Some t /\ loc s Values = Some bs /\ glob t Values = Some v /\ shapes_ok bs v /\ p = ptrs_of v bs.

Lemma cur_none f x : cur f x None.
Proof. intros p H. discriminate. Qed.

(** the target may have been queried, the source localized *)
Lemma cur_queried f t t1 l : queried t t1 -> cur f (Some t) l -> cur f (Some t1) l.
Proof.
  intros (Q & _ & _) C p Hp. destruct (C p Hp) as (s & t' & bs & v & Ef & [= <-] & L & G & S & E).
  exists s, t1, bs, v. repeat split; auto. rewrite Q by discriminate. exact G.
Qed.
Lemma cur_localized s s1 o l : localized P s = Ok s1 -> cur (Some s) o l -> cur (Some s1) o l.
Proof.
  intros E C p Hp. destruct (C p Hp) as (s' & t' & bs & v & [= <-] & Et & L & G & S & Ep).
  rewrite (localized_id s bs L) in E. injection E as <-. exists s, t', bs, v. auto 10.
Qed.

Record Inv (o i : bool) (d : disc R) : Prop := mk_inv {
  I_in : good_place P (d_in d); I_out : good_place P (d_out d); I_prob : good_place P (d_prob d);
  I_ein : good_place P (d_ein d); I_eout : good_place P (d_eout d);
  I_io : cur (d_out d) (d_prob d) (io_loc d); I_ii : cur (d_ein d) (d_in d) (ii_loc d);
  I_o : io_loc d <> None -> o = true; I_i : ii_loc d <> None -> i = true }.

Lemma good_some s n : good_set P s n -> good_place P (Some s).
Proof. intros G t [= <-]. eauto. Qed.

(** the three pointer computations *)
Lemma ptr_parts from to s1 q (g : bool) :
  good_place P from -> good_place P to ->
  bind (need from) (fun s => bind (localized P s) (fun s1 => bind (need to) (fun t =>
    bind (loc_values s1) (fun bs => bind (query_blocks nn P bs t) (fun q => Ok (s1, q)))))) = Ok (s1, q) ->
  exists s n t m bs v, from = Some s /\ to = Some t /\ good_set P s n /\ good_set P t m /\
    localized P s = Ok s1 /\ good_set P s1 n /\ loc s1 Values = Some bs /\ glob t Values = Some v /\ shapes_ok bs v /\
    fst q = ptrs_of v bs /\ queried t (snd q) /\ good_set P (snd q) m.
Proof.
  intros Gf Gt H. inv_bind H. inv_bind H. inv_bind H. inv_bind H. inv_bind H. injection H as -> ->.
  apply need_ok in E. apply need_ok in E1. rename x into s, x1 into t, x2 into bs.
  destruct (Gf s E) as (n & G1). destruct (Gt t E1) as (m & G2).
  destruct (localized_good s n G1) as (s1' & bs' & L1 & L2 & _ & _ & G1').
  rewrite E0 in L1. injection L1 as <-. unfold loc_values in E2. rewrite L2 in E2. injection E2 as ->.
  destruct q as [p t1].
  destruct (query_blocks_inv t m bs p t1 G2 E3) as (v & GV & S & Ep & Q & G2').
  exists s, n, t, m, bs, v. auto 20.
Qed.

Lemma set_io_parts g d d' : set_io_ptr nn P g d = Ok d' -> exists s1 q,
  bind (need (d_out d)) (fun s => bind (localized P s) (fun s1 => bind (need (d_prob d)) (fun t =>
    bind (loc_values s1) (fun bs => bind (query_blocks nn P bs t) (fun q => Ok (s1, q)))))) = Ok (s1, q) /\
  d' = with_io (if g then Some (concat (fst q)) else io d) (Some (fst q)) (with_prob (Some (snd q)) (with_out (Some s1) d)).
Proof.
  unfold set_io_ptr. intro H. inv_bind H. inv_bind H. inv_bind H. inv_bind H. inv_bind H. injection H as <-.
  exists x0, x3. rewrite E. simpl. rewrite E0. simpl. rewrite E1. simpl. rewrite E2. simpl. rewrite E3. simpl. auto.
Qed.
Lemma set_ii_parts g d d' : set_ii_ptr nn P g d = Ok d' -> exists s1 q,
  bind (need (d_ein d)) (fun s => bind (localized P s) (fun s1 => bind (need (d_in d)) (fun t =>
    bind (loc_values s1) (fun bs => bind (query_blocks nn P bs t) (fun q => Ok (s1, q)))))) = Ok (s1, q) /\
  d' = with_ii (if g then Some (concat (fst q)) else ii d) (Some (fst q)) (with_in (Some (snd q)) (with_ein (Some s1) d)).
Proof.
  unfold set_ii_ptr. intro H. inv_bind H. inv_bind H. inv_bind H. inv_bind H. inv_bind H. injection H as <-.
  exists x0, x3. rewrite E. simpl. rewrite E0. simpl. rewrite E1. simpl. rewrite E2. simpl. rewrite E3. simpl. auto.
Qed.
Lemma set_oo_parts g d d' : set_oo_ptr nn P g d = Ok d' -> exists s1 q,
  bind (need (d_eout d)) (fun s => bind (localized P s) (fun s1 => bind (need (d_prob d)) (fun t =>
    bind (loc_values s1) (fun bs => bind (query_blocks nn P bs t) (fun q => Ok (s1, q)))))) = Ok (s1, q) /\
  d' = with_oo (if g then Some (concat (fst q)) else oo d) (Some (fst q)) (with_prob (Some (snd q)) (with_eout (Some s1) d)).
Proof.
  unfold set_oo_ptr. intro H. inv_bind H. inv_bind H. inv_bind H. inv_bind H. inv_bind H. injection H as <-.
  exists x0, x3. rewrite E. simpl. rewrite E0. simpl. rewrite E1. simpl. rewrite E2. simpl. rewrite E3. simpl. auto.
Qed.

(** set_io_ptr re-establishes the io part whatever it was before *)
Lemma io_ptr_inv g o i d d' :
  good_place P (d_in d) -> good_place P (d_out d) -> good_place P (d_prob d) -> good_place P (d_ein d) -> good_place P (d_eout d) ->
  cur (d_ein d) (d_in d) (ii_loc d) -> (ii_loc d <> None -> i = true) ->
  set_io_ptr nn P g d = Ok d' -> o = true -> Inv o i d'.
Proof.
  intros G1 G2 G3 G4 G5 C I H ->. destruct (set_io_parts _ _ _ H) as (s1 & q & E & ->).
  destruct (ptr_parts _ _ _ _ g G2 G3 E) as (s & n & t & m & bs & v & Eo & Ep & Gs & Gt & L & Gs1 & Lb & GV & S & Eq & Q & Gq).
  constructor; simpl; auto; try (eapply good_some; eassumption).
  intros p [= <-]. exists s1, (snd q), bs, v. repeat split; auto.
  destruct Q as (Q & _). rewrite Q by discriminate. exact GV.
Qed.

Lemma step_inv op o i d d' : Inv o i d -> good_argument P op -> dstep nn P op d = Ok d' ->
  match op with
  | OOut _ => o = false -> Inv o i d'
  | OIn _ | OEin _ => i = false -> Inv o i d'
  | OProb _ | OIoPtr _ => Inv true i d'
  | OIiPtr _ => Inv o true d'
  | _ => Inv o i d'
  end.
Proof.
  intros [G1 G2 G3 G4 G5 C1 C2 I1 I2] A H.
  assert (Nio : o = false -> io_loc d = None).
  { intros ->. destruct (io_loc d); [specialize (I1 ltac:(discriminate)); discriminate | reflexivity]. }
  assert (Nii : i = false -> ii_loc d = None).
  { intros ->. destruct (ii_loc d); [specialize (I2 ltac:(discriminate)); discriminate | reflexivity]. }
  destruct op as [s|s|s|s|s|s|g|g|g|]; simpl in A, H.
  - injection H as <-. destruct A as (n & A). intro Z. constructor; simpl; auto; [eapply good_some; eauto|].
    rewrite (Nii Z). apply cur_none.
  - injection H as <-. destruct A as (n & A). intro Z. constructor; simpl; auto; [eapply good_some; eauto|].
    rewrite (Nio Z). apply cur_none.
  - destruct A as (n & A). unfold done in H. destruct (snd _) eqn:E; [discriminate|]. injection H as <-.
    unfold set_probability in *. destruct (_ && _); [|discriminate].
    destruct (d_out d) as [out|] eqn:Eo; [|discriminate].
    destruct (proj2 (proj1 (proj1 A))) as (v & GV & _). rewrite GV in *.
    destruct (loc out Values) as [bs|] eqn:Lo.
    + destruct (set_io_ptr nn P false (with_prob (Some s) d)) as [d2|] eqn:E2; [|discriminate]. simpl.
      eapply io_ptr_inv; [.. | exact E2 | reflexivity]; simpl; auto; try (rewrite Eo; exact G2). eapply good_some; eauto.
    + simpl. constructor; simpl; auto; [rewrite Eo; exact G2 | eapply good_some; eauto|].
      rewrite Eo. intros p Hp. destruct (C1 p Hp) as (s' & _ & bs & _ & [= <-] & _ & L & _). congruence.
  - destruct A as (n & A). unfold done, set_emulated_input in H. destruct (same_dim _ _); [|discriminate]. injection H as <-.
    intro Z. constructor; simpl; auto; [eapply good_some; eauto|]. rewrite (Nii Z). apply cur_none.
  - destruct A as (n & A). unfold done, set_emulated_output in H. destruct (_ && _); [|discriminate]. injection H as <-.
    constructor; simpl; auto. eapply good_some; eauto.
  - injection H as <-. constructor; simpl; auto.
  - eapply io_ptr_inv; [.. | exact H | reflexivity]; auto.
  - destruct (set_ii_parts _ _ _ H) as (s1 & q & E & ->).
    destruct (ptr_parts _ _ _ _ g G4 G1 E) as (s & n & t & m & bs & v & Eo & Ep & Gs & Gt & L & Gs1 & Lb & GV & S & Eq & Q & Gq).
    constructor; simpl; auto; try (eapply good_some; eassumption).
    intros p [= <-]. exists s1, (snd q), bs, v. repeat split; auto. rewrite (proj1 Q) by discriminate. exact GV.
  - destruct (set_oo_parts _ _ _ H) as (s1 & q & E & ->).
    destruct (ptr_parts _ _ _ _ g G5 G3 E) as (s & n & t & m & bs & v & Eo & Ep & Gs & Gt & L & Gs1 & Lb & GV & S & Eq & Q & Gq).
    constructor; simpl; auto; try (eapply good_some; eassumption).
    rewrite Ep in C1. eapply cur_queried; eassumption.
  - injection H as <-. constructor; simpl; auto.
Qed.

Lemma run_inv ops : forall o i d d', no_late_replacement o i ops = true -> Forall (good_argument P) ops -> Inv o i d ->
  drun nn P ops d = Ok d' -> exists o' i', Inv o' i' d'.
Proof.
  induction ops as [|op ops IH]; intros o i d d' B F I H; simpl in H.
  - injection H as <-. eauto.
  - inv_bind H. inversion F as [|? ? F1 F2]; subst. pose proof (step_inv op o i d x I F1 E) as S.
    destruct op; simpl in B; try (eapply IH; [exact B | exact F2 | exact S | exact H]);
      apply andb_true_iff in B; destruct B as [B1 B2]; apply negb_true_iff in B1;
      (eapply IH; [exact B2 | exact F2 | exact (S B1) | exact H]).
Qed.

Lemma no_pointers_inv d : no_pointers d -> good_sets P d -> Inv false false d.
Proof.
  intros N G. destruct (N Io) as [_ N1]. destruct (N Ii) as [_ N2]. simpl in N1, N2.
  constructor; try (apply G; simpl; auto 10); try (rewrite N1; try apply cur_none; congruence); rewrite N2; try apply cur_none; congruence.
Qed.
End Pointers.
