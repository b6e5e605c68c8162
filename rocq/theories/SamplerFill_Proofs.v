(** Proofs about samplers: the sets that are sampled into. *)
From Coq Require Import List Arith Bool Lia QArith Qcanon.
From Verif Require Import Err Num NumPy Lists SampleSet_Model SampleSet_Spec SampleSet_Proofs Prob_Model Disc_Model Sampling_Model Workflow_Model Refs_Model Refs_Spec Refs_Proofs Sampler_Model Sampler_Spec.
Import ListNotations.
Local Open Scope nat_scope.
Local Open Scope sampler_scope.

Lemma seq_nonempty P : 0 < P -> seq 0 P <> [].
Proof. destruct P; [lia | discriminate]. Qed.
Lemma random_blocks_shape P n draw d b : In b (random_blocks P n draw d) -> tail_shape b = [d].
Proof. unfold random_blocks. rewrite in_map_iff. intros (r & <- & _). reflexivity. Qed.
Lemma lhs_blocks_shape P dom H d b : In b (lhs_blocks P dom H d) -> tail_shape b = [d].
Proof. unfold lhs_blocks. rewrite in_map_iff. intros (r & <- & _). reflexivity. Qed.
Lemma random_blocks_some P n draw d : 0 < P -> random_blocks P n draw d <> [].
Proof. intros HP E. apply (f_equal (@length _)) in E. unfold random_blocks in E. rewrite map_length, seq_length in E. cbn in E. lia. Qed.
Lemma lhs_blocks_some P dom H d : 0 < P -> lhs_blocks P dom H d <> [].
Proof. intros HP E. apply (f_equal (@length _)) in E. unfold lhs_blocks in E. rewrite map_length, seq_length in E. cbn in E. lia. Qed.

(** ** Old data *)
Lemma globalized_keeps g s s1 r : globalized g s = (s1, r) -> dim s1 = dim s /\ loc s1 = loc s /\ kd s1 = kd s /\ weights s1 = weights s /\ domain s1 = domain s /\
  local_index s1 = local_index s /\ (forall a, a <> Values -> loc s a = None -> glob s1 a = glob s a) /\
  (r = Ok tt -> g = true -> forall a bs, loc s a = Some bs -> exists x, get_global_values bs = Ok x /\ glob s1 a = Some x) /\
  (g = false -> glob s1 Values = None).
Proof.
  unfold globalized. destruct g.
  - destruct (local_to_global s) as [t|e] eqn:E; intros [= <- <-].
    + destruct (local_to_global_spec _ _ E) as (D1 & D2 & D3 & D4 & D5 & D6 & I). do 6 (split; [congruence |]).
      split; [| split; [| discriminate]].
      * intros a _ La. specialize (I a). rewrite La in I. exact I.
      * intros _ _ a bs La. specialize (I a). rewrite La in I. exact I.
    + do 6 (split; [reflexivity |]). split; [auto |]. split; discriminate.
  - intros [= <- <-]. do 6 (split; [reflexivity |]). split; [| split; [discriminate |]].
    + intros a n _. cbn. unfold upd. destruct (attr_eq_dec a Values); congruence.
    + intros _. reflexivity.
Qed.
Lemma stale_lemma : forall P n g draw interval s s1, fill_random P n g draw interval s = (s1, Ok tt) ->
  loc s1 Values = Some (random_blocks P n draw (dim s)) /\
  (forall a, a <> Values -> loc s1 a = loc s a /\ (loc s a = None -> glob s1 a = glob s a)) /\ kd s1 = kd s /\ weights s1 = weights s.
Proof.
  intros P n g draw interval s s1. unfold fill_random. set (t := with_domain _ _).
  destruct (bind (sum_local t (seq 0 P)) _) as [k|e]; [| discriminate]. intros H.
  destruct (globalized_keeps _ _ _ _ H) as (_ & L & K & W & _ & _ & G & _). split; [rewrite L; reflexivity |]. split; [| auto].
  intros a n0. split.
  - rewrite L. cbn. unfold upd. destruct (attr_eq_dec a Values); congruence.
  - intros La. rewrite G; auto. cbn. unfold upd. destruct (attr_eq_dec a Values); congruence.
Qed.
Lemma stale_lhs_lemma : forall P n g H s s1, fill_lhs P n g H s = (s1, Ok tt) ->
  loc s1 Values = Some (lhs_blocks P (domain_or_unit s) H (dim s)) /\
  (forall a, a <> Values -> loc s1 a = loc s a) /\
  (forall a, ~ In a [Values; Left_; Right_; Width_] -> loc s a = None -> glob s1 a = glob s a) /\ kd s1 = kd s /\ weights s1 = weights s.
Proof.
  intros P n g H s s1 E. unfold fill_lhs in E.
  destruct (globalized_keeps _ _ _ _ E) as (_ & L & K & W & _ & _ & G & _). split; [rewrite L; reflexivity |]. split; [| split; [| auto]].
  - intros a n0. rewrite L. cbn. unfold upd. destruct (attr_eq_dec a Values); congruence.
  - intros a n0 La. assert (a <> Values) by (intros ->; apply n0; now left). rewrite G; auto.
    + cbn. unfold upd. destruct a; try reflexivity; exfalso; apply n0; cbn; tauto.
    + cbn. unfold upd. destruct (attr_eq_dec a Values); congruence.
Qed.
Lemma stale_regular_lemma : forall P ns s s1, fill_regular P ns s = Ok s1 ->
  (forall a, a <> Values -> glob s1 a = glob s a) /\ kd s1 = kd s /\ weights s1 = weights s.
Proof.
  intros P ns s s1. unfold fill_regular, global_to_local. destruct (check_num P _) as [k|]; cbn [bind]; [| discriminate]. intros [= <-]. cbn.
  split; [| auto]. intros a n. unfold upd. destruct (attr_eq_dec a Values); congruence.
Qed.

(** ** New sets *)
Lemma sum_local_ok (s : sset cell) bs : check_width s = Ok tt -> (forall a, loc s a = if attr_eq_dec a Values then Some bs else None) ->
  forall rs, exists k, sum_local s rs = Ok k.
Proof.
  intros G L rs. induction rs as [|r rs [k IH]]; cbn; [eauto |].
  assert (C : exists m, check_num_local s r = Ok m).
  { unfold check_num_local. rewrite G. cbn [bind]. unfold all_attrs, local_length. cbn [map]. rewrite !L. cbn. destruct (nth_error bs r); cbn; eauto. }
  destruct C as [m ->]. cbn [bind]. rewrite IH. cbn [bind]. eauto.
Qed.
Lemma globalized_samples (s : sset cell) bs d g extra : dim s = d -> bs <> [] -> (forall b, In b bs -> tail_shape b = [d]) ->
  (forall a, loc s a = if attr_eq_dec a Values then Some bs else None) -> (forall a, a <> Values -> glob s a = extra a) -> kd s = None -> weights s = None ->
  exists s1, globalized g s = (s1, Ok tt) /\ only_samples d bs g extra s1 /\ domain s1 = domain s.
Proof.
  intros D N Sh L G K W. unfold globalized. destruct g.
  - destruct (gather_attrs_total all_attrs s) as [t E].
    { intros a xs _ La. rewrite L in La. destruct (attr_eq_dec a Values); [| discriminate]. injection La as <-. eexists. apply (gather_same bs [d]); auto. }
    exists t. unfold local_to_global. rewrite E. split; [reflexivity |]. destruct (local_to_global_spec s t E) as (D1 & D2 & D3 & D4 & D5 & D6 & I).
    split; [| auto]. split; [congruence |]. split; [intros a; rewrite D2; apply L |]. split; [| split; congruence].
    intros a. specialize (I a). rewrite L in I. destruct (attr_eq_dec a Values) as [-> | n].
    + destruct I as (x & Hx & ->). rewrite (gather_same bs [d]) in Hx by auto. congruence.
    + rewrite I. auto.
  - eexists. split; [reflexivity |]. split; [| reflexivity]. split; [exact D |]. split; [exact L |]. split; [| split; assumption].
    intros a. cbn. unfold upd. destruct (attr_eq_dec a Values) as [-> | n]; auto.
Qed.
Lemma drawn_eq P n draw d : 0 < P -> random_blocks P n draw d = drawn P n draw d.
Proof.
  intros HP. unfold random_blocks, drawn. apply map_ext_in. intros r Hr. apply in_seq in Hr. rewrite array_split_nth_length, repeat_length by lia. reflexivity.
Qed.
Definition fresh (o : obj) : option (sset cell) :=
  match o with SetAt _ => None | Dim d => Some (new_sset d) | Box dom => Some (with_domain dom (new_sset (length dom))) end.
Lemma fresh_fields o s : fresh o = Some s -> (forall a, loc s a = None) /\ (forall a, glob s a = None) /\ kd s = None /\ weights s = None.
Proof. destruct o; cbn; intros E; [discriminate | |]; injection E as <-; auto. Qed.
Lemma as_set_fresh o s w : fresh o = Some s -> as_set o w = (with_sets (w_sets w ++ [s]) w, Ok (length (w_sets w))).
Proof. destruct o; cbn; intros E; [discriminate | |]; injection E as <-; reflexivity. Qed.
Lemma write_last {A} (l : list A) x y : write (l ++ [x]) (length l) y = l ++ [y].
Proof. induction l as [|z l IH]; cbn; [reflexivity |]. now rewrite IH. Qed.
Lemma on_set_last h s w f s1 : w_sets w = h ++ [s] -> f s = (s1, Ok tt) -> on_set (length h) f w = (with_sets (h ++ [s1]) w, Ok tt).
Proof. intros E F. unfold on_set. rewrite E, nth_error_app2, Nat.sub_diag by lia. cbn. rewrite F, write_last. reflexivity. Qed.
Lemma fill_random_fresh P n g draw interval o s : 0 < P -> fresh o = Some s ->
  exists s1, fill_random P n g draw interval s = (s1, Ok tt) /\ only_samples (dim s) (random_blocks P n draw (dim s)) g nothing s1 /\
    domain s1 = Some (map interval (seq 0 (dim s))).
Proof.
  intros HP F. destruct (fresh_fields o s F) as (L & G & K & W). unfold fill_random. set (t := with_domain _ _).
  assert (Lt : forall a, loc t a = if attr_eq_dec a Values then Some (random_blocks P n draw (dim s)) else None).
  { intros a. cbn. unfold upd. destruct (attr_eq_dec a Values); auto. }
  assert (Gt : forall a, glob t a = None) by (intros a; cbn; auto).
  assert (Wt : check_width t = Ok tt) by (unfold check_width; rewrite Gt; reflexivity).
  destruct (sum_local_ok t _ Wt Lt (seq 0 P)) as [k E]. rewrite E. cbn [bind].
  assert (C : check_num P t = Ok k).
  { unfold check_num, check_width. unfold all_attrs. cbn [map]. rewrite !Gt. cbn. exact E. }
  rewrite C. destruct (globalized_samples t (random_blocks P n draw (dim s)) (dim s) g nothing) as (s1 & E1 & E2 & E3); auto.
  - now apply random_blocks_some.
  - apply random_blocks_shape.
  - exists s1. auto.
Qed.
Definition bounds_of (n d : nat) (dom : list (Qc * Qc)) (a : attr) : option (arr cell) :=
  match a with
  | Left_ => bound_rows n d (map fst dom) | Right_ => bound_rows n d (map snd dom)
  | Width_ => bound_rows n d (map (fun ab => (snd ab - fst ab)%Qc) dom) | _ => None
  end.
Lemma fill_lhs_fresh P n g H o s : 0 < P -> fresh o = Some s ->
  exists s1, fill_lhs P n g H s = (s1, Ok tt) /\
    only_samples (dim s) (lhs_blocks P (domain_or_unit s) H (dim s)) g (bounds_of n (dim s) (domain_or_unit s)) s1 /\ domain s1 = Some (domain_or_unit s).
Proof.
  intros HP F. destruct (fresh_fields o s F) as (L & G & K & W). unfold fill_lhs.
  match goal with |- exists s1, globalized g ?t = _ /\ _ => destruct (globalized_samples t (lhs_blocks P (domain_or_unit s) H (dim s)) (dim s) g (bounds_of n (dim s) (domain_or_unit s))) as (s1 & E1 & E2 & E3) end; auto.
  - now apply lhs_blocks_some.
  - apply lhs_blocks_shape.
  - intros a. cbn. unfold upd. destruct (attr_eq_dec a Values); auto.
  - intros a n0. cbn. unfold upd. destruct a; cbn; auto.
  - exists s1. auto.
Qed.
Lemma random_fresh_lemma : forall P n g draw interval o s w, 0 < P -> fresh o = Some s ->
  exists s1, s_random P n g draw interval o w = (mk_swork (w_sets w ++ [s1]) (w_discs w) (Some (length (w_sets w))) (s_disc w), Ok (length (w_sets w))) /\
    only_samples (dim s) (random_blocks P n draw (dim s)) g nothing s1 /\ domain s1 = Some (map interval (seq 0 (dim s))).
Proof.
  intros P n g draw interval o s w HP F. destruct (fill_random_fresh P n g draw interval o s HP F) as (s1 & E & O & D).
  exists s1. split; [| auto]. unfold s_random, sbind. rewrite (as_set_fresh o s w F).
  rewrite (on_set_last (w_sets w) s (with_sets (w_sets w ++ [s]) w) _ s1 eq_refl E). reflexivity.
Qed.
Lemma lhs_fresh_lemma : forall P n g H o s w, 0 < P -> fresh o = Some s ->
  exists s1, s_lhs P n g H o w = (mk_swork (w_sets w ++ [s1]) (w_discs w) (Some (length (w_sets w))) (s_disc w), Ok (length (w_sets w))) /\
    only_samples (dim s) (lhs_blocks P (domain_or_unit s) H (dim s)) g (bounds_of n (dim s) (domain_or_unit s)) s1 /\ domain s1 = Some (domain_or_unit s).
Proof.
  intros P n g H o s w HP F. destruct (fill_lhs_fresh P n g H o s HP F) as (s1 & E & O & D).
  exists s1. split; [| auto]. unfold s_lhs, sbind. rewrite (as_set_fresh o s w F).
  rewrite (on_set_last (w_sets w) s (with_sets (w_sets w ++ [s]) w) _ s1 eq_refl E). reflexivity.
Qed.
Lemma regular_fresh_lemma : forall P ns o s w, 0 < P -> fresh o = Some s ->
  exists s1, s_regular P ns o w = (mk_swork (w_sets w ++ [s1]) (w_discs w) (Some (length (w_sets w))) (s_disc w), Ok (length (w_sets w))) /\
    only_samples (dim s) (split_arr P (mk_arr (map row (regular_values (domain_or_unit s) ns)) [dim s])) true nothing s1 /\ domain s1 = Some (domain_or_unit s).
Proof.
  intros P ns o s w HP F. destruct (fresh_fields o s F) as (L & G & K & W).
  assert (E : as_copy o w = (w, Ok s)) by (destruct o; cbn in F |- *; [discriminate | |]; injection F as <-; reflexivity).
  unfold s_regular, sbind. rewrite E. unfold slift, fill_regular, global_to_local.
  assert (C : check_num P (set_glob Values (Some (mk_arr (map row (regular_values (domain_or_unit s) ns)) [dim s])) (with_domain (domain_or_unit s) s)) =
    Ok (length (map row (regular_values (domain_or_unit s) ns)))).
  { unfold check_num, check_width, all_attrs. cbn [map glob set_glob with_domain]. unfold upd. cbn. rewrite !G. cbn. now rewrite Nat.eqb_refl. }
  rewrite C. cbn [bind new_set]. eexists. split; [reflexivity |]. cbn. split; [| reflexivity]. split; [reflexivity |]. split; [| split; [| auto]].
  - intros a. cbn. unfold upd. destruct (attr_eq_dec a Values); [reflexivity |]. now rewrite G, L.
  - intros a. cbn. unfold upd. destruct (attr_eq_dec a Values); [| apply G]. rewrite split_arr_rows. cbn. now rewrite array_split_concat.
Qed.
