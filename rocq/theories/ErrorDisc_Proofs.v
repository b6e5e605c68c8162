From Coq Require Import List Arith Bool QArith Qcanon Lia.
From Verif Require Import Err Num Ext NumPy Lists SampleSet_Model SampleSet_Spec SampleSet_Proofs Prob_Model Prob_Spec
  Disc_Model Disc_Spec Disc_Proofs Workflow_Model Workflow_Proofs Volume_Model Volume_Spec Volume_Proofs Error_Model Error_Spec Error_Proofs
  ErrorDisc_Model ErrorDisc_Spec.
Import ListNotations.
Local Open Scope nat_scope.
Local Open Scope err_scope.

(** ** Sets in step *)
Section Sets.
Context (P : nat) (HP : 0 < P).
Implicit Types (s : sset cell).

Lemma blocks_eq (bs : list (arr cell)) x : map rows bs = array_split (rows x) P -> (forall b, In b bs -> tail_shape b = tail_shape x) -> bs = split_arr P x.
Proof.
  intros E T. unfold split_arr. rewrite <- E, map_map. rewrite <- (map_id bs) at 1. apply map_ext_in. intros b Hb. rewrite <- (T b Hb). destruct b; reflexivity.
Qed.
Lemma in_step_loc s n a bs : in_step P s n -> loc s a = Some bs -> exists x, glob s a = Some x /\ bs = split_arr P x.
Proof. intros (_ & _ & L) H. destruct (L a bs H) as (x & G & E & T). exists x. split; [exact G|]. apply blocks_eq; assumption. Qed.
Lemma split_in_step x : map rows (split_arr P x) = array_split (rows x) P /\ forall b : arr cell, In b (split_arr P x) -> tail_shape b = tail_shape x.
Proof. split; [apply split_arr_rows|]. intros b. apply split_arr_tail. Qed.

(** the same data, apart from the tree *)
Definition same_data s s' : Prop := dim s' = dim s /\ forall a, a <> KdtreeValues -> glob s' a = glob s a.
Lemma same_refl s : same_data s s.
Proof. split; auto. Qed.
Lemma same_trans s s' s'' : same_data s s' -> same_data s' s'' -> same_data s s''.
Proof. intros [D G] [D' G']. split; [congruence|]. intros a N. rewrite G' by exact N. apply G. exact N. Qed.

Lemma count_in_step s n : in_step P s n -> check_num P s = Ok n.
Proof. intros (V & _ & _). apply valid_count. exact V. Qed.
Lemma g2l_in_step s n : in_step P s n -> exists s1, global_to_local P s = Ok s1 /\ in_step P s1 n /\ same_data s s1 /\
  kd s1 = kd s /\ forall a x, glob s a = Some x -> loc s1 a = Some (split_arr P x).
Proof.
  intros H. unfold global_to_local. rewrite (count_in_step s n H). cbn [bind]. eexists. split; [reflexivity|].
  destruct H as (V & T & L). split; [|split; [split; auto|split; [reflexivity|intros a x G; cbn [loc]; rewrite G; reflexivity]]].
  split; [exact V|]. split; [exact T|]. cbn [loc glob]. intros a bs E. destruct (glob s a) as [x|] eqn:G.
  - injection E as <-. exists x. split; [reflexivity|]. apply split_in_step.
  - destruct (L a bs E) as (x & Gx & _). congruence.
Qed.
Lemma localized_in_step s n x : in_step P s n -> glob s Values = Some x -> exists s1, localized P s = Ok s1 /\ in_step P s1 n /\ same_data s s1 /\
  loc s1 Values = Some (split_arr P x).
Proof.
  intros H G. unfold localized. destruct (loc s Values) as [bs|] eqn:L.
  - exists s. split; [reflexivity|]. split; [exact H|]. split; [apply same_refl|]. destruct (in_step_loc s n Values bs H L) as (y & Gy & ->). congruence.
  - destruct (g2l_in_step s n H) as (s1 & -> & I & S0 & _ & A). exists s1. auto.
Qed.
Lemma l2g_in_step s n : in_step P s n -> exists s1, local_to_global s = Ok s1 /\ in_step P s1 n /\ same_data s s1 /\ loc s1 = loc s.
Proof.
  intros H. destruct (gather_attrs_total all_attrs s) as [s1 E].
  - intros a bs _ La. destruct (in_step_loc s n a bs H La) as (x & _ & ->). exists x. apply gather_split. exact HP.
  - exists s1. split; [exact E|]. destruct (local_to_global_spec _ _ E) as (D & L & _ & K & _ & _ & I).
    assert (G : forall a, glob s1 a = glob s a).
    { intros a. specialize (I a). destruct (loc s a) as [bs|] eqn:La; [|exact I]. destruct (in_step_loc s n a bs H La) as (x & Gx & ->).
      destruct I as (g & Hg & ->). rewrite gather_split in Hg by exact HP. congruence. }
    destruct H as ((A & v & GV & TV) & T & LL). split; [|split; [split; auto|exact L]].
    split; [split; [intros a x; rewrite G; apply A|exists v; rewrite G, D; auto]|]. split; [unfold tree_current; rewrite K, !G; exact T|].
    intros a bs. rewrite L, G. apply LL.
Qed.
Lemma set_glob_in_step s n a x : in_step P s n -> a <> Values -> a <> KdtreeValues -> loc s a = None -> length (rows x) = n -> in_step P (set_glob a (Some x) s) n.
Proof.
  intros ((A & v & GV & TV) & T & L) N N' La Lx. split; [split|split].
  - intros b y. cbn [set_glob glob]. unfold upd. destruct (attr_eq_dec b a) as [->|_]; [intros [= <-]; exact Lx|apply A].
  - exists v. cbn [set_glob glob dim]. rewrite upd_other by congruence. auto.
  - unfold tree_current. cbn [set_glob glob kd]. rewrite !upd_other by congruence. exact T.
  - cbn [set_glob glob loc]. intros b bs Hb. destruct (L b bs Hb) as (y & Gy & R0). exists y. split; [|exact R0]. rewrite upd_other; [exact Gy|]. intros ->. congruence.
Qed.
(** a queried set *)
Lemma query_in_step nn s n ys d bs : in_step P s n -> glob s Values = Some (mk_arr ys [d]) -> (forall b, In b bs -> tail_shape b = [d]) ->
  exists s1, query_blocks nn P bs s = Ok (map (fun b => map (nn ys) (rows b)) bs, s1) /\ in_step P s1 n /\ same_data s s1 /\ loc s1 = loc s.
Proof.
  intros H GV T. pose proof (count_in_step s n H) as C. destruct H as ((A & v & GV' & TV) & (TC & KV) & L).
  assert (X : exists s1, (match kd s with None => set_kdtree s | Some _ => do _ <- check_num P s ; Ok s end) = Ok s1 /\ kd s1 = Some (mk_arr ys [d]) /\
            in_step P s1 n /\ same_data s s1 /\ loc s1 = loc s).
  { destruct (kd s) as [t|] eqn:K.
    - rewrite C. cbn [bind]. exists s. split; [reflexivity|]. destruct TC as [E|E]; [congruence|]. split; [congruence|]. split; [|split; [apply same_refl|reflexivity]].
      split; [split; [exact A|exists v; auto]|]. split; [split; [right; congruence|exact KV]|exact L].
    - unfold set_kdtree. rewrite GV. eexists. split; [reflexivity|]. split; [reflexivity|]. split; [|split; [|reflexivity]].
      + split; [split|split; [split|]].
        * intros a x. cbn [glob]. unfold upd. destruct (attr_eq_dec a KdtreeValues); [intros [= <-]; apply (A Values _ GV)|apply A].
        * exists v. cbn [glob dim]. rewrite upd_other by discriminate. auto.
        * right. cbn [kd glob]. rewrite upd_other by discriminate. congruence.
        * right. cbn [glob]. rewrite upd_same, upd_other by discriminate. congruence.
        * cbn [loc glob]. intros a bs0 Hb. destruct (L a bs0 Hb) as (y & Gy & R1 & R2). unfold upd. destruct (attr_eq_dec a KdtreeValues) as [->|_]; [|exists y; auto].
          destruct KV as [E|E]; [congruence|]. exists y. split; [congruence|auto].
      + split; [reflexivity|]. intros a N. cbn [glob]. apply upd_other. exact N. }
  destruct X as (s1 & E & K & I & S0 & L1). unfold query_blocks. rewrite E. cbn [bind]. rewrite K. cbn [need bind rows tail_shape].
  rewrite (proj2 (forallb_forall _ bs)).
  - exists s1. auto.
  - intros b Hb. rewrite (T b Hb). destruct (shape_eq_dec [d] [d]); congruence.
Qed.

(** ** Sets of points *)
Lemma points_data d s s1 xs : points_are P d s xs -> in_step P s1 (length xs) -> same_data s s1 -> points_are P d s1 xs.
Proof. intros (I & D & G) I1 (D1 & G1). split; [exact I1|]. split; [congruence|]. rewrite G1 by discriminate. exact G. Qed.
Lemma points_localized d s xs : points_are P d s xs -> exists s1, localized P s = Ok s1 /\ points_are P d s1 xs /\ same_data s s1 /\
  loc s1 Values = Some (split_arr P (mk_arr xs [d])).
Proof.
  intros H. destruct (localized_in_step s (length xs) _ (proj1 H) (proj2 (proj2 H))) as (s1 & E & I & S0 & L). exists s1.
  split; [exact E|]. split; [eapply points_data; eassumption|auto].
Qed.
(** the pointer of one set into another *)
Lemma points_query nn d s xs t ys : points_are P d s xs -> points_are P d t ys -> loc s Values = Some (split_arr P (mk_arr xs [d])) ->
  exists t1, query_blocks nn P (split_arr P (mk_arr xs [d])) t = Ok (array_split (map (nn ys) xs) P, t1) /\ points_are P d t1 ys /\ same_data t t1 /\ loc t1 = loc t.
Proof.
  intros _ (I & D & G) _. destruct (query_in_step nn t (length ys) ys d (split_arr P (mk_arr xs [d])) I G) as (t1 & E & I1 & S0 & L).
  - intros b Hb. apply split_arr_tail in Hb. exact Hb.
  - rewrite E, blocks_ptrs. exists t1. split; [reflexivity|]. split; [eapply points_data; [split; [exact I|split; [exact D|exact G]]|exact I1|exact S0]|auto].
Qed.
Lemma io_points nn g d out zs pr ys dd : d_out dd = Some out -> points_are P d out zs -> d_prob dd = Some pr -> points_are P d pr ys ->
  exists out1 pr1, set_io_ptr nn P g dd = Ok (with_io (if g then Some (map (nn ys) zs) else io dd) (Some (array_split (map (nn ys) zs) P)) (with_prob (Some pr1) (with_out (Some out1) dd))) /\
    points_are P d out1 zs /\ same_data out out1 /\ points_are P d pr1 ys /\ same_data pr pr1 /\ (forall bs, loc out Values = Some bs -> out1 = out) /\ loc pr1 = loc pr.
Proof.
  intros Eo Ho Ep Hp. destruct (points_localized d out zs Ho) as (out1 & E1 & H1 & S1 & L1). destruct (points_query nn d out1 zs pr ys H1 Hp L1) as (pr1 & E2 & H2 & S2 & LL).
  exists out1, pr1. unfold set_io_ptr. rewrite Eo. cbn [need bind]. rewrite E1. cbn [bind]. rewrite Ep. cbn [need bind]. unfold loc_values. rewrite L1. cbn [bind]. rewrite E2. cbn [bind fst snd].
  rewrite array_split_concat by exact HP. split; [reflexivity|]. do 4 (split; [assumption|]). split; [|exact LL]. intros bs L. unfold localized in E1. rewrite L in E1. congruence.
Qed.
Lemma ii_points nn g d em ps inp xs dd : d_ein dd = Some em -> points_are P d em ps -> d_in dd = Some inp -> points_are P d inp xs ->
  exists em1 inp1, set_ii_ptr nn P g dd = Ok (with_ii (if g then Some (map (nn xs) ps) else ii dd) (Some (array_split (map (nn xs) ps) P)) (with_in (Some inp1) (with_ein (Some em1) dd))) /\
    points_are P d em1 ps /\ same_data em em1 /\ points_are P d inp1 xs /\ same_data inp inp1 /\ loc inp1 = loc inp.
Proof.
  intros Eo Ho Ep Hp. destruct (points_localized d em ps Ho) as (out1 & E1 & H1 & S1 & L1). destruct (points_query nn d out1 ps inp xs H1 Hp L1) as (pr1 & E2 & H2 & S2 & LL).
  exists out1, pr1. unfold set_ii_ptr. rewrite Eo. cbn [need bind]. rewrite E1. cbn [bind]. rewrite Ep. cbn [need bind]. unfold loc_values. rewrite L1. cbn [bind]. rewrite E2. cbn [bind fst snd].
  rewrite array_split_concat by exact HP. auto 10.
Qed.
End Sets.
