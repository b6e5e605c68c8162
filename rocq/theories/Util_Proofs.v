From Coq Require Import List Arith Bool QArith Qcanon Lia.
From Verif Require Import Err Num Ext NumPy Lists Query_Spec Query_Proofs Util_Model Util_Spec.
Import ListNotations.
Local Open Scope nat_scope.

(** ** meshgrid *)
Fixpoint zipcons (c : list Qc) (rs : list (list Qc)) : list (list Qc) :=
  match c, rs with
  | x :: c', r :: rs' => (x :: r) :: zipcons c' rs'
  | _, _ => []
  end.
Lemma zipcons_app c1 c2 r1 r2 : length c1 = length r1 -> zipcons (c1 ++ c2) (r1 ++ r2) = zipcons c1 r1 ++ zipcons c2 r2.
Proof. revert r1; induction c1 as [|x c IH]; intros [|r r1] L; simpl in *; try discriminate; [reflexivity|]. rewrite IH by lia. reflexivity. Qed.
Lemma zipcons_repeat x rs : zipcons (repeat x (length rs)) rs = map (cons x) rs.
Proof. induction rs as [|r rs IH]; simpl; [reflexivity | rewrite IH; reflexivity]. Qed.
Lemma zipcons_nth c rs n : length c = n -> length rs = n ->
  map (fun k => nth k c 0%Qc :: nth k rs []) (seq 0 n) = zipcons c rs.
Proof.
  revert rs n; induction c as [|x c IH]; intros [|r rs] n L1 L2; simpl in *; subst n; try discriminate; [reflexivity|].
  cbn [seq map]. f_equal. rewrite <- seq_shift, map_map. apply IH; [reflexivity | lia].
Qed.
Lemma rows_of_length n cols : length (rows_of n cols) = n.
Proof. unfold rows_of. rewrite map_length, seq_length. reflexivity. Qed.
Lemma rows_of_cons n c cs : length c = n -> rows_of n (c :: cs) = zipcons c (rows_of n cs).
Proof.
  intro L. rewrite <- (zipcons_nth c (rows_of n cs) n L (rows_of_length n cs)). unfold rows_of. apply map_seq_ext.
  intros k Hk. cbn [map]. f_equal. rewrite nth_indep with (d' := map (fun c => nth 0 c 0%Qc) cs) by (rewrite map_length, seq_length; lia).
  rewrite (map_nth (fun k => map (fun c0 => nth k c0 0%Qc) cs)). rewrite seq_nth by lia. reflexivity.
Qed.
Lemma np_repeat_length {A} (l : list A) k : length (np_repeat l k) = length l * k.
Proof. unfold np_repeat. induction l as [|x l IH]; simpl; [reflexivity|]. rewrite app_length, repeat_length, IH. reflexivity. Qed.
Lemma np_tile_length {A} (l : list A) k : length (np_tile l k) = k * length l.
Proof. unfold np_tile. induction k as [|k IH]; simpl; [reflexivity|]. rewrite app_length, IH. reflexivity. Qed.
Lemma np_tile_add {A} (l : list A) a b : np_tile l (a + b) = np_tile l a ++ np_tile l b.
Proof. unfold np_tile. rewrite repeat_app, concat_app. reflexivity. Qed.
Lemma combinations_length {A} (ls : list (list A)) : length (combinations ls) = prod (map (@length A) ls).
Proof.
  induction ls as [|l ls IH]; [reflexivity|]. cbn [combinations map prod fold_right]. fold (prod (map (@length A) ls)). rewrite <- IH.
  generalize (combinations ls) as C. intro C. induction l as [|x l IHl]; simpl; [reflexivity|]. rewrite app_length, map_length, IHl. reflexivity.
Qed.
Lemma zip_block l C : zipcons (np_repeat l (length C)) (np_tile C (length l)) = flat_map (fun x => map (cons x) C) l.
Proof.
  unfold np_repeat, np_tile. induction l as [|x l IH]; simpl; [reflexivity|].
  rewrite zipcons_app by apply repeat_length. rewrite zipcons_repeat, IH. reflexivity.
Qed.
Lemma zip_tiled l C b : zipcons (np_tile (np_repeat l (length C)) b) (np_tile C (b * length l)) = np_tile (flat_map (fun x => map (cons x) C) l) b.
Proof.
  induction b as [|b IH]; [reflexivity|]. replace (S b * length l) with (length l + b * length l) by lia.
  change (S b) with (1 + b). rewrite !np_tile_add. rewrite zipcons_app.
  - rewrite IH. f_equal. unfold np_tile at 1 3. cbn [repeat concat]. rewrite !app_nil_r. apply zip_block.
  - rewrite !np_tile_length, np_repeat_length. lia.
Qed.
Lemma rows_of_mesh ls : forall b, rows_of (b * prod (map (@length Qc) ls)) (mesh_columns b ls) = np_tile (combinations ls) b.
Proof.
  induction ls as [|l ls IH]; intro b.
  - simpl. rewrite Nat.mul_1_r. unfold rows_of, np_tile. generalize 0 as s. induction b as [|b IHb]; intro s; simpl; [reflexivity|]. rewrite IHb. reflexivity.
  - cbn [mesh_columns map]. rewrite rows_of_cons.
    + change (prod (length l :: map (@length Qc) ls)) with (length l * prod (map (@length Qc) ls)).
      rewrite Nat.mul_assoc, IH. rewrite <- (combinations_length ls). apply zip_tiled.
    + rewrite np_tile_length, np_repeat_length. reflexivity.
Qed.
Lemma combinations_pad (X : list (list Qc)) k : combinations (X ++ repeat [0%Qc] k) = map (fun r => r ++ repeat 0%Qc k) (combinations X).
Proof.
  induction X as [|l X IH]; cbn [app combinations].
  - simpl. induction k as [|k IHk]; [reflexivity|]. simpl. rewrite IHk. reflexivity.
  - rewrite IH. rewrite flat_map_concat_map, flat_map_concat_map, concat_map, !map_map. f_equal. apply map_ext. intro x.
    rewrite !map_map. apply map_ext. reflexivity.
Qed.
Lemma combinations_row {A} (ls : list (list A)) r : In r (combinations ls) <-> Forall2 (@In A) r ls.
Proof.
  revert r; induction ls as [|l ls IH]; intro r; cbn [combinations].
  - split; [intros [<-|[]]; constructor | intro H; inversion H; left; reflexivity].
  - rewrite in_flat_map. split.
    + intros (x & Hx & H). apply in_map_iff in H. destruct H as (t & <- & Ht). constructor; [exact Hx | apply IH, Ht].
    + intro H. inversion H as [|x l' t ls' Hx Ht]; subst. exists x. split; [exact Hx | apply in_map, IH, Ht].
Qed.
Lemma combinations_width {A} (ls : list (list A)) r : In r (combinations ls) -> length r = length ls.
Proof. intro H. apply combinations_row in H. eapply Forall2_length, H. Qed.

Lemma meshgrid_eq X : length X <= 10 -> meshgrid_ndim X = combinations X.
Proof.
  intro L. unfold meshgrid_ndim. rewrite firstn_all2 by (rewrite app_length, repeat_length; lia).
  rewrite <- (Nat.mul_1_l (prod _)), rows_of_mesh. unfold np_tile. cbn [repeat concat]. rewrite app_nil_r, combinations_pad, map_map.
  rewrite <- (map_id (combinations X)) at 2. apply map_ext_in. intros r Hr. apply combinations_width in Hr.
  rewrite <- Hr, firstn_app, firstn_all, Nat.sub_diag. simpl. apply app_nil_r.
Qed.
Lemma meshgrid_many X : 10 <= length X -> meshgrid_ndim X = combinations (firstn 10 X).
Proof.
  intro L. unfold meshgrid_ndim. replace (10 - length X) with 0 by lia. cbn [repeat]. rewrite app_nil_r.
  rewrite <- (Nat.mul_1_l (prod _)), rows_of_mesh. unfold np_tile. cbn [repeat concat]. rewrite app_nil_r.
  rewrite <- (map_id (combinations _)) at 2. apply map_ext_in. intros r Hr. apply combinations_width in Hr.
  apply firstn_all2. rewrite Hr, firstn_length. lia.
Qed.
Lemma meshgrid_contents X : length X <= 10 ->
  length (meshgrid_ndim X) = fold_right Nat.mul 1 (map (@length Qc) X) /\
  forall r, In r (meshgrid_ndim X) <-> Forall2 (@In Qc) r X.
Proof. intro L. rewrite meshgrid_eq by exact L. split; [apply combinations_length | intro r; apply combinations_row]. Qed.
Lemma combinations_nonempty {A} (ls : list (list A)) : (forall l, In l ls -> l <> []) -> exists r, In r (combinations ls).
Proof.
  intro H. assert (E : exists r, Forall2 (@In A) r ls).
  { induction ls as [|l ls IH]; [exists []; constructor|]. destruct IH as (r & Hr); [intros; apply H; right; assumption|].
    destruct l as [|x l]; [exfalso; apply (H []); [left|]; reflexivity|]. exists (x :: r). constructor; [left; reflexivity | exact Hr]. }
  destruct E as (r & Hr). exists r. apply combinations_row, Hr.
Qed.
Lemma meshgrid_truncates X : 10 < length X -> (forall l, In l X -> l <> []) ->
  meshgrid_ndim X <> combinations X /\ forall r, In r (meshgrid_ndim X) -> length r = 10.
Proof.
  intros L N. rewrite meshgrid_many by lia. split.
  - intro E. destruct (combinations_nonempty X N) as (r & Hr). pose proof (combinations_width _ _ Hr) as W.
    rewrite <- E in Hr. apply combinations_width in Hr. rewrite firstn_length in Hr. lia.
  - intros r Hr. apply combinations_width in Hr. rewrite firstn_length in Hr. lia.
Qed.

(** ** Arrays *)
Lemma prod_app a b : prod (a ++ b) = prod a * prod b.
Proof. unfold prod. induction a as [|x a IH]; simpl; [lia | rewrite IH; lia]. Qed.
Lemma prod_rev s : prod (rev s) = prod s.
Proof. induction s as [|x s IH]; [reflexivity|]. simpl. rewrite prod_app, IH. unfold prod. simpl. lia. Qed.
Lemma ravel_lt s idx : valid_index s idx -> ravel s idx < prod s.
Proof.
  intro H. induction H as [|i n idx s Hi F IH]; [simpl; lia|]. cbn [ravel prod fold_right]. fold (prod s). nia.
Qed.
Lemma unravel_ravel s idx : valid_index s idx -> unravel s (ravel s idx) = idx.
Proof.
  intro H. induction H as [|i n idx s Hi F IH]; [reflexivity|]. cbn [ravel unravel].
  pose proof (ravel_lt s idx F) as L. f_equal.
  - rewrite Nat.div_add_l by lia. rewrite Nat.div_small by exact L. lia.
  - rewrite Nat.add_comm, Nat.mod_add by lia. rewrite Nat.mod_small by exact L. exact IH.
Qed.
Lemma transpose_entry a idx : well_formed a -> valid_index (shape a) idx ->
  nth_error (data (transpose a)) (ravel (rev (shape a)) (rev idx)) = nth_error (data a) (ravel (shape a) idx).
Proof.
  intros W V.
  assert (VR : valid_index (rev (shape a)) (rev idx)).
  { unfold valid_index in *. clear W. induction V as [|i n idx s Hi F IH]; simpl; [constructor|]. apply Forall2_app; [exact IH|]. constructor; [exact Hi | constructor]. }
  unfold transpose. cbn [data]. rewrite nth_error_map_eq, nth_error_seq.
  pose proof (ravel_lt _ _ VR) as L. apply Nat.ltb_lt in L. rewrite L. cbn [option_map]. rewrite ?Nat.add_0_l.
  rewrite unravel_ravel, rev_involutive by exact VR. symmetry. apply nth_error_nth'. rewrite W. apply ravel_lt, V.
Qed.
Lemma transpose_wf a : well_formed (transpose a).
Proof. unfold well_formed, transpose. simpl. rewrite map_length, seq_length. reflexivity. Qed.
Lemma transpose_2 a n m : well_formed a -> shape a = [n; m] ->
  shape (transpose a) = [m; n] /\ forall i j, entry2 (transpose a) j i = entry2 a i j.
Proof.
  intros W S. assert (S' : shape (transpose a) = [m; n]) by (unfold transpose; rewrite S; reflexivity).
  split; [exact S'|]. intros i j. unfold entry2. rewrite S, S'. rewrite (andb_comm (j <? m)).
  destruct ((i <? n) && (j <? m)) eqn:E; [|reflexivity]. apply andb_true_iff in E. rewrite !Nat.ltb_lt in E.
  assert (V : valid_index (shape a) [i; j]) by (rewrite S; repeat constructor; tauto).
  pose proof (transpose_entry a [i; j] W V) as H. rewrite S in H. cbn [rev app ravel] in H. unfold prod in H. cbn [fold_right] in H.
  rewrite !Nat.mul_1_r, !Nat.add_0_r in H. exact H.
Qed.
Lemma entry2_data a b : shape a = shape b -> (forall i j, entry2 a i j = entry2 b i j) -> well_formed a -> well_formed b -> length (shape a) = 2 -> a = b.
Proof.
  intros S E Wa Wb L. destruct a as [s d], b as [s' d']. simpl in *. subst s'. f_equal. destruct s as [|n [|m [|]]]; try discriminate.
  unfold well_formed in Wa, Wb. simpl in Wa, Wb. rewrite Nat.mul_1_r in Wa, Wb.
  apply nth_error_ext. intro k. destruct (Nat.lt_ge_cases k (n * m)) as [H|H].
  - destruct m as [|m]; [lia|]. specialize (E (k / S m) (k mod S m)). unfold entry2 in E. cbn [shape data] in E.
    assert (k mod S m < S m) by (apply Nat.mod_upper_bound; lia).
    assert (k / S m < n) by (apply Nat.div_lt_upper_bound; lia).
    replace (k / S m <? n) with true in E by (symmetry; apply Nat.ltb_lt; assumption).
    replace (k mod S m <? S m) with true in E by (symmetry; apply Nat.ltb_lt; assumption). cbn [andb] in E.
    pose proof (Nat.div_mod k (S m) ltac:(lia)) as D. replace (k / S m * S m + k mod S m) with k in E by lia. exact E.
  - rewrite (proj2 (nth_error_None d k)), (proj2 (nth_error_None d' k)) by lia. reflexivity.
Qed.
Lemma transpose_twice a : well_formed a -> length (shape a) = 2 -> transpose (transpose a) = a.
Proof.
  intros W L. destruct (shape a) as [|n [|m [|]]] eqn:S; try discriminate.
  destruct (transpose_2 a n m W S) as [S1 E1]. destruct (transpose_2 (transpose a) m n (transpose_wf a) S1) as [S2 E2].
  apply entry2_data; [congruence | | apply transpose_wf | exact W | rewrite S2; reflexivity].
  intros i j. rewrite E2, E1. reflexivity.
Qed.

Lemma to_array_wf v : valid_input v -> well_formed (to_array v).
Proof. destruct v; simpl; [reflexivity | tauto | tauto]. Qed.

Lemma fix_vector_ok v : valid_input v ->
  fix_dimensions_vector v = mk_nd [length (data (to_array v))] (data (to_array v)) /\
  fix_dimensions_vector (PyArr (fix_dimensions_vector v)) = fix_dimensions_vector v.
Proof. intros _. split; reflexivity. Qed.

Lemma fix_2d_vector v n : valid_input v -> shape (to_array v) = [n] ->
  fix_dimensions_vector_2darray v = Ok (mk_nd [n; 1] (data (to_array v))).
Proof. intros _ S. unfold fix_dimensions_vector_2darray, expand_dims1. rewrite S. reflexivity. Qed.
Lemma fix_2d_other v : 2 <= length (shape (to_array v)) -> fix_dimensions_vector_2darray v = Ok (to_array v).
Proof. intro L. unfold fix_dimensions_vector_2darray. destruct (Nat.leb_spec (length (shape (to_array v))) 1); [lia | reflexivity]. Qed.
Lemma fix_2d_idem v a : fix_dimensions_vector_2darray v = Ok a -> fix_dimensions_vector_2darray (PyArr a) = Ok a.
Proof.
  unfold fix_dimensions_vector_2darray, expand_dims1. destruct (Nat.leb_spec (length (shape (to_array v))) 1) as [L|L].
  - destruct (shape (to_array v)) as [|n r] eqn:S; intro H; [discriminate|]. injection H as <-. reflexivity.
  - intro H. injection H as <-. simpl. destruct (Nat.leb_spec (length (shape (to_array v))) 1); [lia | reflexivity].
Qed.

Lemma fix_domain_array a : well_formed a ->
  match shape a with
  | [n] => if n =? 2 then fix_dimensions_domain (PyArr a) = Ok (mk_nd [1; 2] (data a)) else fix_dimensions_domain (PyArr a) = Raise PyTypeError
  | [n; m] =>
      if m =? 2 then fix_dimensions_domain (PyArr a) = Ok a
      else if n =? 2 then exists b, fix_dimensions_domain (PyArr a) = Ok b /\ shape b = [m; 2] /\ (forall i j, entry2 b i j = entry2 a j i)
      else fix_dimensions_domain (PyArr a) = Raise PyTypeError
  | _ => fix_dimensions_domain (PyArr a) = Raise PyTypeError
  end.
Proof.
  intro W. unfold fix_dimensions_domain. destruct (shape a) as [|n [|m [|k r]]] eqn:S; try reflexivity.
  - destruct (Nat.eqb_spec n 2) as [->|N]; [|reflexivity]. unfold expand_dims0. rewrite S. reflexivity.
  - destruct (m =? 2); [reflexivity|]. destruct (Nat.eqb_spec n 2) as [->|N]; [|reflexivity].
    exists (transpose a). split; [reflexivity|]. destruct (transpose_2 a 2 m W S) as [S' E]. split; [exact S'|]. intros i j. apply E.
Qed.
Lemma fix_domain_idem a b : well_formed a -> fix_dimensions_domain (PyArr a) = Ok b ->
  (exists n, shape b = [n; 2]) /\ fix_dimensions_domain (PyArr b) = Ok b.
Proof.
  intros W H. assert (S : exists n, shape b = [n; 2]).
  { pose proof (fix_domain_array a W) as F. destruct (shape a) as [|n [|m [|k r]]] eqn:S; try congruence.
    - destruct (n =? 2); [|congruence]. exists 1. rewrite F in H. injection H as <-. reflexivity.
    - destruct (Nat.eqb_spec m 2) as [->|N]; [exists n; congruence|]. destruct (n =? 2); [|congruence].
      destruct F as (b' & F & S' & _). exists m. congruence. }
  split; [exact S|]. destruct S as (n & S). unfold fix_dimensions_domain. rewrite S. reflexivity.
Qed.
Lemma fix_domain_pair x y : fix_dimensions_domain (PySeq (mk_nd [2] [x; y])) = Ok (mk_nd [1; 2] [x; y]).
Proof. reflexivity. Qed.
Lemma fix_domain_nested x y z w : fix_dimensions_domain (PySeq (mk_nd [2; 2] [x; y; z; w])) = Ok (mk_nd [1; 2; 2] [x; y; z; w]).
Proof. reflexivity. Qed.

Lemma fix_data_none v a : valid_input v -> shape (to_array v) <> [] -> fix_dimensions_data v None = Ok a ->
  data a = data (to_array v) /\ 2 <= length (shape a) /\ fix_dimensions_data (PyArr a) None = Ok a.
Proof.
  intros V N H.
  assert (G : forall u b, shape (to_array u) <> [] -> fix_dimensions_vector_2darray u = Ok b ->
    data b = data (to_array u) /\ 2 <= length (shape b)).
  { intros u b Nu. unfold fix_dimensions_vector_2darray, expand_dims1. destruct (Nat.leb_spec (length (shape (to_array u))) 1) as [L|L].
    - destruct (shape (to_array u)) as [|n r] eqn:S; intro E; [congruence|]. injection E as <-. simpl. split; [reflexivity | lia].
    - intro E. injection E as <-. split; [reflexivity | lia]. }
  assert (K : data a = data (to_array v) /\ 2 <= length (shape a)).
  { destruct v as [x|b|b]; simpl in H.
    - apply (G (PyNum x)); assumption.
    - apply (G (PySeq b)); assumption.
    - simpl in N. destruct (Nat.eqb_spec (length (shape b)) 1) as [L|L].
      + apply (G (PyArr b)); assumption.
      + injection H as <-. split; [reflexivity|]. destruct (shape b) as [|n [|]]; simpl in *; [congruence | lia | lia]. }
  destruct K as [K1 K2]. split; [exact K1|]. split; [exact K2|]. simpl. destruct (Nat.eqb_spec (length (shape a)) 1); [lia | reflexivity].
Qed.

(** fix_dimensions_data with dim, for inputs with one or two axes *)
Lemma fix_data_cases v n m d : valid_input v -> shape (as_2d v) = [n; m] ->
  (length (shape (to_array v)) = 1 \/ length (shape (to_array v)) = 2) ->
  fix_dimensions_data v (Some d) = Ok (if m =? d then as_2d v else transpose (as_2d v)) /\ well_formed (as_2d v).
Proof.
  intros V S L. unfold fix_dimensions_data.
  assert (E : fix_dimensions_vector_2darray v = Ok (as_2d v)).
  { unfold as_2d in *. destruct L as [L|L].
    - destruct (shape (to_array v)) as [|k [|]] eqn:S'; try discriminate. rewrite (fix_2d_vector v k V S'). reflexivity.
    - rewrite fix_2d_other by lia. destruct (shape (to_array v)) as [|? [|]]; try discriminate; reflexivity. }
  rewrite E. cbn [bind]. rewrite S. split; [destruct (m =? d); reflexivity|].
  pose proof (to_array_wf v V) as W. unfold as_2d. destruct (shape (to_array v)) as [|k [|]] eqn:S'; try exact W.
  unfold well_formed in *. rewrite S' in W. simpl in *. lia.
Qed.
Lemma fix_data_dim v n m d : valid_input v -> shape (as_2d v) = [n; m] ->
  (length (shape (to_array v)) = 1 \/ length (shape (to_array v)) = 2) -> (m = d \/ n = d) ->
  exists a N, fix_dimensions_data v (Some d) = Ok a /\ shape a = [N; d] /\
    (a = as_2d v \/ forall i j, entry2 a j i = entry2 (as_2d v) i j) /\
    fix_dimensions_data (PyArr a) (Some d) = Ok a.
Proof.
  intros V S L D. destruct (fix_data_cases v n m d V S L) as [F W]. rewrite F.
  assert (Idem : forall a N, shape a = [N; d] -> fix_dimensions_data (PyArr a) (Some d) = Ok a).
  { intros a N Sa. unfold fix_dimensions_data. rewrite fix_2d_other by (simpl; rewrite Sa; simpl; lia). cbn [bind to_array].
    rewrite Sa, Nat.eqb_refl. reflexivity. }
  destruct (Nat.eqb_spec m d) as [E|E].
  - exists (as_2d v), n. subst m. repeat split; auto. eapply Idem, S.
  - destruct D as [D|D]; [congruence|]. subst n. exists (transpose (as_2d v)), m.
    destruct (transpose_2 _ d m W S) as [S' T]. repeat split; auto. eapply Idem, S'.
Qed.
Lemma fix_data_mismatch v n m d : valid_input v -> shape (as_2d v) = [n; m] ->
  (length (shape (to_array v)) = 1 \/ length (shape (to_array v)) = 2) -> m <> d -> n <> d -> n <> m ->
  exists a, fix_dimensions_data v (Some d) = Ok a /\ shape a = [m; n] /\
    exists b, fix_dimensions_data (PyArr a) (Some d) = Ok b /\ b <> a.
Proof.
  intros V S L M N NM. destruct (fix_data_cases v n m d V S L) as [F W]. rewrite F.
  destruct (Nat.eqb_spec m d); [contradiction|]. exists (transpose (as_2d v)). split; [reflexivity|].
  destruct (transpose_2 _ n m W S) as [S' T]. split; [exact S'|].
  unfold fix_dimensions_data. rewrite fix_2d_other by (cbn [to_array]; rewrite S'; simpl; lia). cbn [bind to_array]. rewrite S'.
  destruct (Nat.eqb_spec n d); [contradiction|]. eexists. split; [reflexivity|].
  rewrite transpose_twice by (try exact W; rewrite S; reflexivity). intro E. rewrite E in S. congruence.
Qed.

(** ** clean_data *)
Lemma clean_ok mf d : Forall2 (cleaned mf) d (clean_data mf d).
Proof.
  unfold clean_data. rewrite map_map. induction d as [|x d IH]; simpl; constructor; [|exact IH].
  destruct x; simpl; try reflexivity; f_equal; ring.
Qed.
Lemma clean_idem mf d : clean_data mf (clean_data mf d) = clean_data mf d.
Proof. unfold clean_data. rewrite !map_map. apply map_ext. intros [q| | |]; reflexivity. Qed.
Lemma clean_finite mf d x : In x (clean_data mf d) -> exists q, x = Fin q.
Proof.
  unfold clean_data. rewrite map_map. intro H. apply in_map_iff in H. destruct H as ([q| | |] & <- & _); simpl; eauto.
Qed.
