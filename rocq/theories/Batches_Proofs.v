From Coq Require Import List Arith Bool QArith Qcanon Lia Permutation.
From Verif Require Import Err Num NumPy Lists SampleSet_Model SampleSet_Spec SampleSet_Proofs Prob_Model Prob_Spec Prob_Proofs
  Disc_Model Disc_Spec Disc_Proofs Workflow_Model Workflow_Spec Workflow_Proofs DataUnif_Proofs Batches_Model Batches_Spec.
Import ListNotations.
Local Open Scope nat_scope.
Local Open Scope err_scope.

(** ** A set with any blocks *)
Definition blocks_of (d : nat) (B : list (list cell)) : list (arr cell) := map (fun b => mk_arr b [d]) B.
Definition merged (d : nat) (B : list (list cell)) (s : sset cell) : Prop :=
  dim s = d /\ (forall a, glob s a = expected d (concat B) None a) /\ forall a, loc s a = match a with Values => Some (blocks_of d B) | _ => None end.
Lemma merged_valid d B s : merged d B s -> valid_set s (length (concat B)).
Proof.
  intros (D & G & _). split.
  - intros a x E. rewrite G in E. destruct a; try discriminate. injection E as <-. reflexivity.
  - exists (mk_arr (concat B) [d]). rewrite G, D. split; reflexivity.
Qed.
Definition joined {A} (X Y : list (list A)) : list (list A) := map (fun p => fst p ++ snd p) (combine X Y).
Lemma joined_map {A B} (f : A -> B) X Y : joined (map (map f) X) (map (map f) Y) = map (map f) (joined X Y).
Proof. unfold joined. revert Y. induction X as [|x X IH]; intros [|y Y]; try reflexivity. cbn [map combine fst snd]. rewrite map_app. f_equal. apply IH. Qed.
Lemma concat_blocks_join d X Y : length X = length Y -> concat_blocks (blocks_of d X) (blocks_of d Y) = Ok (blocks_of d (joined X Y)).
Proof.
  revert Y. induction X as [|x X IH]; intros [|y Y] L; try discriminate; [reflexivity|]. cbn [blocks_of map concat_blocks]. unfold concat_arr. cbn [tail_shape rows].
  destruct (shape_eq_dec [d] [d]); [|contradiction]. cbn [bind]. fold (blocks_of d X). fold (blocks_of d Y). rewrite IH by (injection L as L; exact L). reflexivity.
Qed.
Lemma rows_blocks d B : map rows (blocks_of d B) = B.
Proof. unfold blocks_of. rewrite map_map. cbn [rows]. apply map_id. Qed.
Lemma merge_holds P d xs ys s t : 0 < P -> holds P d xs None true s -> holds P d ys None true t -> compatible_domains s t ->
  exists u, merge P s t = Ok u /\ merged d (joined (array_split xs P) (array_split ys P)) u.
Proof.
  intros HP (Ds & _ & Ls) (Dt & _ & Lt) C. unfold merge. rewrite Ds, Dt, Nat.eqb_refl. cbn [negb].
  assert (Edom : match domain s, domain t with Some d, Some e => if allclose d e then Ok tt else Raise DomainNotMatching | _, _ => Ok tt end = Ok tt).
  { destruct (domain s) as [dd|] eqn:D1; [|reflexivity]. destruct (domain t) as [e|] eqn:D2; [|reflexivity].
    rewrite (proj2 (allclose_spec dd e (proj1 (C dd e D1 D2)))) by (apply C; assumption). reflexivity. }
  rewrite Edom. cbn [bind]. unfold localized. rewrite Ls, Lt. cbn [expected option_map bind]. unfold loc_values. rewrite Ls, Lt. cbn [expected option_map bind].
  rewrite !split_rows. fold (blocks_of d (array_split xs P)). fold (blocks_of d (array_split ys P)). set (J := joined (array_split xs P) (array_split ys P)).
  rewrite concat_blocks_join by (rewrite !array_split_length by exact HP; reflexivity). fold J. cbn [bind]. unfold set_values_local. cbn [dim].
  assert (A : forallb (fun b => if shape_eq_dec (tail_shape b) [d] then true else false) (blocks_of d J) = true).
  { apply forallb_forall. intros b Hb. apply in_map_iff in Hb. destruct Hb as (r & <- & _). cbn [tail_shape]. destruct (shape_eq_dec [d] [d]); [reflexivity|contradiction]. }
  rewrite A. cbn [bind]. set (m0 := set_loc Values _ _).
  assert (HLm : forall a, loc m0 a = if attr_eq_dec a Values then Some (blocks_of d J) else None) by reflexivity.
  assert (Hz : get_global_values (blocks_of d J) = Ok (mk_arr (concat J) [d])).
  { rewrite (gather_same _ [d]); [rewrite rows_blocks; reflexivity| |].
    - assert (LJ : length (blocks_of d J) = P) by (unfold blocks_of, J, joined; rewrite !map_length, combine_length, !array_split_length by exact HP; apply Nat.min_id). intros E. rewrite E in LJ. cbn in LJ. lia.
    - intros b Hb. apply in_map_iff in Hb. destruct Hb as (r & <- & _). reflexivity. }
  destruct (gather_attrs_total all_attrs m0) as [u Hu]. { intros a bs _ L. rewrite HLm in L. destruct (attr_eq_dec a Values); [|discriminate]. injection L as <-. eauto. }
  exists u. split; [exact Hu|]. destruct (local_to_global_spec _ _ Hu) as (U1 & U2 & _ & _ & _ & _ & U7). split; [exact U1|]. split.
  - intros a. specialize (U7 a). rewrite HLm in U7. destruct (attr_eq_dec a Values) as [->|N]; [destruct U7 as (y & Hy & ->); rewrite Hz in Hy; injection Hy as <-; reflexivity|]. rewrite U7. destruct a; try reflexivity. contradiction.
  - intros a. rewrite U2, HLm. destruct (attr_eq_dec a Values) as [->|N]; [reflexivity|]. destruct a; try reflexivity. contradiction.
Qed.
Lemma localized_domain P (s s1 : sset cell) : localized P s = Ok s1 -> domain s1 = domain s.
Proof. unfold localized. destruct (loc s Values); [intros [= <-]; reflexivity|]. intros E. destruct (g2l_inv _ _ _ E) as (n & _ & _ & _ & _ & D & _). exact D. Qed.
Lemma qoi_domains model P s e s1 o1 : qoi model P true s = Ok e -> d_in e = Some s1 -> d_out e = Some o1 -> domain s1 = domain s /\ domain o1 = None.
Proof.
  unfold qoi. destruct (localized P s) as [s2|] eqn:El; [cbn [bind]|discriminate]. destruct (loc_values s2) as [bs|]; [cbn [bind]|discriminate].
  cbv zeta. destruct (map model bs) as [|b r]; [discriminate|]. destruct (forallb _ (b :: r)); [|discriminate].
  unfold set_values_local. destruct (forallb _ (map two_d (b :: r))); [cbn [bind]|discriminate].
  destruct (local_to_global s2) as [s3|] eqn:E3; [cbn [bind]|discriminate]. destruct (local_to_global (set_loc _ _ _)) as [o2|] eqn:E; [cbn [bind]|discriminate].
  unfold new_disc. destruct (check_nums P _); [cbn [bind]|discriminate]. intros [= <-] [= <-] [= <-].
  destruct (local_to_global_spec _ _ E) as (_ & _ & _ & _ & K & _). destruct (local_to_global_spec _ _ E3) as (_ & _ & _ & _ & K3 & _).
  rewrite K, K3, (localized_domain _ _ _ El). split; reflexivity.
Qed.
Lemma batches_lemma P d o g model dom1 dom2 xs1 xs2 : 0 < P -> row_model d o g model -> compatible_domains (values_set d dom1 xs1) (values_set d dom2 xs2) ->
  let B := joined (array_split xs1 P) (array_split xs2 P) in
  exists inp out, batches P model (values_set d dom1 xs1) (values_set d dom2 xs2) = Ok (base inp out) /\ merged d B inp /\ merged o (map (map g) B) out.
Proof.
  intros HP M C. cbv zeta. unfold batches.
  destruct (qoi_global P d o g model xs1 None false _ HP M (values_holds P d dom1 xs1)) as (s1 & o1 & E1 & Hs1 & Ho1); [intros ? [=]|].
  destruct (qoi_global P d o g model xs2 None false _ HP M (values_holds P d dom2 xs2)) as (s2 & o2 & E2 & Hs2 & Ho2); [intros ? [=]|].
  destruct (qoi_domains _ _ _ _ _ _ E1 eq_refl eq_refl) as (D1 & Q1). destruct (qoi_domains _ _ _ _ _ _ E2 eq_refl eq_refl) as (D2 & Q2).
  rewrite E1, E2. cbn [bind d_in d_out]. unfold merge_opt. cbn [need bind].
  destruct (merge_holds P d xs1 xs2 s1 s2 HP Hs1 Hs2) as (mi & -> & Hi). { intros a b Ea Eb. rewrite D1 in Ea. rewrite D2 in Eb. apply C; assumption. }
  destruct (merge_holds P o _ _ o1 o2 HP Ho1 Ho2) as (mo & -> & Ho). { intros a b Ea Eb. rewrite Q1 in Ea. discriminate. }
  cbn [bind]. rewrite !array_split_map, joined_map in Ho. exists mi, mo. split; [|split; assumption]. unfold new_disc, check_nums. cbn [d_out d_in need bind].
  rewrite (valid_count _ _ _ (merged_valid _ _ _ Ho)), (valid_count _ _ _ (merged_valid _ _ _ Hi)). cbn [bind]. rewrite (proj1 (proj2 Ho)), (proj1 (proj2 Hi)). cbn [expected].
  rewrite <- concat_map, map_length, Nat.eqb_refl. reflexivity.
Qed.

(** ** Volumes *)
Lemma check_num_local_wide s r n d x : glob s Values = Some (mk_arr x [d]) -> dim s = d -> local_rows s r n -> check_num_local (R := cell) s r = Ok (Some n).
Proof.
  intros G D [(a & bs & b & L & B) H]. unfold check_num_local.
  destruct (scan_none (map (local_length s r) all_attrs)) as [[F E] | [(m & H1 & H2 & E) | (k & m & H1 & H2 & H3 & E)]]; rewrite E; cbn [bind].
  - exfalso. rewrite Forall_forall in F. assert (In (Some (length (rows b))) (map (local_length s r) all_attrs)) as X by (apply llens_In; eauto 6). specialize (F _ X). discriminate.
  - unfold check_width. rewrite G. cbn [tail_shape]. rewrite D, Nat.eqb_refl. cbn [bind]. f_equal. f_equal. apply llens_In in H1. destruct H1 as (a' & bs' & b' & L' & B' & <-). apply (H a' bs' b'); assumption.
  - exfalso. apply llens_In in H1. apply llens_In in H2. destruct H1 as (a1 & bs1 & b1 & L1 & B1 & <-), H2 as (a2 & bs2 & b2 & L2 & B2 & <-). apply H3. rewrite (H a1 bs1 b1 L1 B1), (H a2 bs2 b2 L2 B2). reflexivity.
Qed.
Definition even_blocks (c : Qc) (B : list (list cell)) : list (list Qc) := map (fun b => repeat c (length b)) B.
Lemma mc_local_merged P d B s : length B = P -> concat B <> [] -> merged d B s ->
  estimate_mc P false s = Ok (set_loc Volumes (Some (map vec_arr (even_blocks (1 / qn (length (concat B)))%Qc B))) s).
Proof.
  intros LB NE H. unfold estimate_mc. rewrite (valid_count _ _ _ (merged_valid _ _ _ H)). cbn [bind]. set (c := (1 / qn (length (concat B)))%Qc).
  rewrite (each_rank_map _ (fun r => vec_arr (repeat c (length (nth r B []))))).
  - cbn [bind]. do 3 f_equal. unfold even_blocks. rewrite map_map. rewrite <- LB. transitivity (map (fun b => vec_arr (repeat c (length b))) (map (fun r => nth r B []) (seq 0 (length B)))); [rewrite map_map; reflexivity|]. rewrite nth_all. reflexivity.
  - intros r R. apply in_seq in R. unfold mc_block. destruct H as (D & G & L). assert (Br : nth_error B r = Some (nth r B [])) by (apply nth_error_nth'; lia).
    rewrite (check_num_local_wide s r (length (nth r B [])) d (concat B) (G Values) D).
    + cbn [bind]. destruct (Nat.eqb_spec (length (concat B)) 0) as [Z|_]; [destruct (concat B); [contradiction|discriminate]|]. reflexivity.
    + split.
      * exists Values, (blocks_of d B), (mk_arr (nth r B []) [d]). rewrite L. split; [reflexivity|]. unfold blocks_of. rewrite nth_error_map, Br. reflexivity.
      * intros a bs b La Hb. rewrite L in La. destruct a; try discriminate. injection La as <-. unfold blocks_of in Hb. rewrite nth_error_map, Br in Hb. injection Hb as <-. reflexivity.
Qed.
Lemma mc_global_merged P d B s : concat B <> [] -> merged d B s ->
  exists s1, estimate_mc P true s = Ok s1 /\ holds P d (concat B) (Some (volume_list MonteCarlo (length (concat B)))) true s1.
Proof.
  intros NE H. unfold estimate_mc. rewrite (valid_count _ _ _ (merged_valid _ _ _ H)). cbn [bind]. destruct (Nat.eqb_spec (length (concat B)) 0) as [E|_]; [destruct (concat B); [contradiction|discriminate]|].
  destruct H as (D & G & L). unfold global_to_local. set (s0 := set_glob Volumes _ s). set (v := repeat (1 / qn (length (concat B)))%Qc (length (concat B))) in *.
  assert (G' : forall a, glob s0 a = expected d (concat B) (Some v) a).
  { intros a. cbn [s0 set_glob glob]. unfold upd. destruct (attr_eq_dec a Volumes) as [->|N]; [reflexivity|]. rewrite G. destruct a; try reflexivity. contradiction. }
  assert (V : valid_set s0 (length (concat B))).
  { split.
    - intros a x E. rewrite G' in E. destruct a; try discriminate; injection E as <-; [reflexivity|]. cbn [vec_arr rows]. rewrite map_length. apply repeat_length.
    - exists (mk_arr (concat B) [d]). rewrite G'. split; [reflexivity|]. cbn [s0 set_glob dim]. rewrite D. reflexivity. }
  rewrite (valid_count _ _ _ V). cbn [bind]. eexists. split; [reflexivity|]. split; [exact D|]. split; [exact G'|]. intros a. cbn [loc volume_list]. rewrite G'. fold v.
  destruct (expected d (concat B) (Some v) a) eqn:X; [reflexivity|]. cbn [s0 set_glob loc]. rewrite L. destruct a; try reflexivity; discriminate.
Qed.

(** ** The output probability set and prob for any blocks *)
Lemma probability_gives o dom ys probs : length probs = length ys -> gives o ys probs (probability_set o dom ys probs).
Proof. intros L. split; [reflexivity|]. split; [reflexivity|]. split; [reflexivity|]. split; [reflexivity|]. intros a x. cbn [probability_set glob]. destruct a; try discriminate; intros [= <-]; cbn [rows vec_arr]; rewrite ?map_length; auto. Qed.
Lemma store_blocks nn P o ys probs s B inp o1 : gives o ys probs s -> loc o1 Values = Some (blocks_of o B) ->
  store_output_probability nn P s (base inp o1) = Ok (ready inp o1 (grown o ys s) (map (map (nn ys)) B)).
Proof.
  intros (D & V & _ & K & _) L. unfold store_output_probability, set_io_ptr, base. cbn [with_prob d_out need bind]. unfold localized. rewrite L. cbn [bind d_prob with_prob need]. unfold loc_values. rewrite L. cbn [bind].
  unfold query_blocks. rewrite K. unfold set_kdtree. rewrite V. cbn [bind kd need].
  assert (F : forallb (fun b => if shape_eq_dec (tail_shape b) (tail_shape (mk_arr ys [o])) then true else false) (blocks_of o B) = true).
  { apply forallb_forall. intros b Hb. apply in_map_iff in Hb. destruct Hb as (r & <- & _). cbn [tail_shape]. destruct (shape_eq_dec [o] [o]); [reflexivity|contradiction]. }
  rewrite F. cbn [bind fst snd rows]. unfold blocks_of. rewrite map_map. reflexivity.
Qed.
Lemma define_blocks nn P setter o ys probs s B inp o1 : gives o ys probs s -> loc o1 Values = Some (blocks_of o B) -> dim o1 = o ->
  define_output nn P setter s (base inp o1) = Ok (ready inp o1 (grown o ys s) (map (map (nn ys)) B)).
Proof.
  intros G L D. pose proof (store_blocks nn P o ys probs s B inp o1 G L) as E. unfold define_output. destruct setter; [|exact E]. unfold store_output_probability in E.
  unfold set_probability, same_dim. cbn [base d_out d_eout]. rewrite D, (proj1 G), Nat.eqb_refl. cbn [andb]. rewrite L, (proj1 (proj2 G)). fold (base inp o1). rewrite E. reflexivity.
Qed.
Lemma scalar_blocks_vec V : scalar_blocks (map vec_arr V) = Ok V.
Proof. induction V as [|v V IH]; [reflexivity|]. cbn [map scalar_blocks vec_arr rows]. rewrite scalars_nums. cbn [bind]. rewrite IH. reflexivity. Qed.
Lemma prob_blocks nn P o ys probs s ptrs V inp o1 n : gives o ys probs s -> ys <> [] -> check_num P o1 = Ok n -> check_num P inp = Ok n -> loc inp Values <> None -> loc inp Volumes = Some (map vec_arr V) ->
  prob_disc nn P true (ready inp o1 (grown o ys s) ptrs) =
  do Q <- prob probs ptrs (if existsb (qltb 0) probs then V else []) ;
  Ok (ready (set_loc Probabilities (Some (map vec_arr Q)) (set_glob Probabilities (Some (vec_arr (concat Q))) inp)) o1 (grown o ys s) ptrs).
Proof.
  intros G NE Co Ci Lv LV. unfold prob_disc, check_nums, ready. cbn [d_out d_in need bind d_prob io_loc]. rewrite Co, Ci. cbn [bind].
  assert (E0 : match glob o1 Values with Some _ => match glob inp Values with Some _ => if n =? n then Ok n else Raise LengthNotMatching | None => Ok n end | None => Ok n end = Ok n)
    by (rewrite Nat.eqb_refl; destruct (glob o1 Values); [destruct (glob inp Values)|]; reflexivity).
  rewrite E0. cbn [bind]. rewrite (grown_count P o ys probs s G). cbn [bind d_in need]. unfold localized. destruct (loc inp Values); [|contradiction]. cbn [bind subscript].
  unfold out_probs. destruct (Nat.eqb_spec (length ys) 0) as [Z|_]; [destruct ys; [contradiction|discriminate]|]. cbn [grown glob]. rewrite upd_other by discriminate. rewrite (proj1 (proj2 (proj2 G))). cbn [subscript bind].
  cbn [vec_arr rows]. rewrite scalars_nums. cbn [bind]. rewrite LV. cbn [subscript bind]. rewrite scalar_blocks_vec.
  replace (if existsb (qltb 0) probs then Ok V else Ok []) with (Ok (if existsb (qltb 0) probs then V else [])) by (destruct (existsb (qltb 0) probs); reflexivity).
  cbn [bind]. destruct (prob probs ptrs _); reflexivity.
Qed.
