From Coq Require Import List Arith Bool QArith Qcanon Lia Permutation.
From Verif Require Import Err Num Ext NumPy Lists Show Prob_Model Prob_Spec.
Import ListNotations.
Local Open Scope nat_scope.

Lemma map_ext_in2 {A B} (f g : A -> B) (ll : list (list A)) :
  (forall x, In x (concat ll) -> f x = g x) -> map (map f) ll = map (map g) ll.
Proof.
  intros H. apply map_ext_in. intros b Hb. apply map_ext_in. intros x Hx. apply H.
  apply in_concat. eauto.
Qed.

Definition zipped {A} (ptrs : list (list nat)) (vals : list (list A)) : list (list (nat * A)) :=
  map (fun pv => combine (fst pv) (snd pv)) (combine ptrs vals).
Lemma zip_blocks_ok {A} ptrs (vals : list (list A)) : same_lengths ptrs vals ->
  zip_blocks ptrs vals = Ok (zipped ptrs vals).
Proof.
  induction 1 as [|p v ps vs Hl H IH]; simpl; [reflexivity|]. rewrite Hl, Nat.eqb_refl, IH. reflexivity.
Qed.
Lemma zip_blocks_inv {A} ptrs (vals : list (list A)) bs : zip_blocks ptrs vals = Ok bs -> same_lengths ptrs vals.
Proof.
  revert vals bs; induction ptrs as [|p ps IH]; intros [|v vs] bs; simpl; try discriminate; [constructor|].
  destruct (Nat.eqb_spec (length p) (length v)); [|discriminate].
  destruct (zip_blocks ps vs) eqn:E; simpl; [|discriminate]. intros _. constructor; [assumption|exact (IH _ _ E)].
Qed.
Lemma zip_fst {A} ptrs (vals : list (list A)) : same_lengths ptrs vals ->
  map (map (@fst nat A)) (zipped ptrs vals) = ptrs.
Proof.
  induction 1 as [|p v ps vs Hl H IH]; simpl; [reflexivity|]. f_equal; [|exact IH].
  clear -Hl. revert v Hl; induction p as [|a p IH]; intros [|b v]; simpl; intros; try discriminate; [reflexivity|].
  f_equal; auto.
Qed.
Lemma combine_snd {A B} (p : list A) (v : list B) : length p = length v -> map snd (combine p v) = v.
Proof.
  revert v; induction p as [|a p IH]; intros [|b v]; simpl; intros; try discriminate; [reflexivity|]. f_equal; auto.
Qed.
Lemma combine_fst {A B} (p : list A) (v : list B) : length p = length v -> map fst (combine p v) = p.
Proof.
  revert v; induction p as [|a p IH]; intros [|b v]; simpl; intros; try discriminate; [reflexivity|]. f_equal; auto.
Qed.
Lemma zip_concat {A} ptrs (vals : list (list A)) : same_lengths ptrs vals ->
  concat (zipped ptrs vals) = combine (concat ptrs) (concat vals).
Proof.
  induction 1 as [|p v ps vs Hl H IH]; simpl; [reflexivity|]. fold (@zipped A ps vs). rewrite IH. clear -Hl.
  revert v Hl; induction p as [|a p IH]; intros [|b v]; simpl; intros; try discriminate; [reflexivity|].
  f_equal; auto.
Qed.

Lemma same_lengths_concat {A B} (a : list (list A)) (b : list (list B)) : same_lengths a b -> length (concat a) = length (concat b).
Proof. induction 1 as [|x y xs ys Hl H IH]; simpl; [reflexivity|]. rewrite !app_length. congruence. Qed.

(** allreduce over the ranks equals the sum over all samples *)
Lemma cell_sum_concat i blocks : cell_sum i blocks = total_in (concat blocks) i.
Proof.
  unfold cell_sum, total_in, local_sum. rewrite filter_concat, concat_map, qsum_concat, !map_map. reflexivity.
Qed.
Lemma cell_count_concat i ptrs : cell_count i ptrs = number_in (concat ptrs) i.
Proof.
  unfold cell_count, number_in, local_count. rewrite filter_concat, concat_length, map_map. reflexivity.
Qed.

Lemma fold_pick {A} (k a : nat) (l : list A) (h : A -> option Qc) x :
  fold_left (fun x ip => if k =? fst ip then match h (snd ip) with Some y => y | None => x end else x)
            (combine (seq a (length l)) l) x =
  if a <=? k then match nth_error l (k - a) with
                  | Some p => match h p with Some y => y | None => x end | None => x end
  else x.
Proof.
  revert a x; induction l as [|p l IH]; intros a x; simpl.
  - destruct (a <=? k); [|reflexivity]. destruct (k - a); reflexivity.
  - rewrite IH. destruct (Nat.eqb_spec k a) as [->|Hne].
    + replace (S a <=? a) with false by (symmetry; apply Nat.leb_gt; lia).
      rewrite Nat.leb_refl, Nat.sub_diag. reflexivity.
    + destruct (Nat.leb_spec (S a) k), (Nat.leb_spec a k); try lia; [|reflexivity].
      replace (k - a) with (S (k - S a)) by lia. reflexivity.
Qed.

Lemma assign_blocks {A} i (f : A -> Qc) (g : nat * A -> Qc) (blocks : list (list (nat * A))) :
  map (fun bo => assign i f (fst bo) (snd bo)) (combine blocks (map (map g) blocks)) =
  map (map (fun e => if fst e =? i then f (snd e) else g e)) blocks.
Proof.
  induction blocks as [|b bs IH]; simpl; [reflexivity|]. f_equal; [|exact IH].
  unfold assign. clear. induction b as [|e b IH]; simpl; [reflexivity|]. f_equal. exact IH.
Qed.

(** What one sample of cell [fst e] ends up with. *)
Definition share (probs : list Qc) (samples : list (nat * Qc)) (e : nat * Qc) : Qc :=
  match nth_error probs (fst e) with
  | Some p => if (qltb 0 p && qltb 0 (total_in samples (fst e)))%bool then (p * snd e / total_in samples (fst e))%Qc else 0%Qc
  | None => 0%Qc
  end.

Lemma prob_fold blocks l g :
  fold_left (prob_step blocks) l (map (map g) blocks) =
  map (map (fun e => fold_left (fun x ip =>
     if fst e =? fst ip
     then match (if (qltb 0 (snd ip) && qltb 0 (cell_sum (fst e) blocks))%bool
                 then Some (snd ip * snd e / cell_sum (fst e) blocks)%Qc else None) with Some y => y | None => x end
     else x) l (g e))) blocks.
Proof.
  revert g; induction l as [|[i p] l IH]; intros g; cbn [fold_left]; [reflexivity|].
  assert (prob_step blocks (map (map g) blocks) (i, p) =
          map (map (fun e => if (fst e =? i) then if (qltb 0 p && qltb 0 (cell_sum (fst e) blocks))%bool
             then (p * snd e / cell_sum (fst e) blocks)%Qc else g e else g e)) blocks) as ->.
  { unfold prob_step. destruct (qltb 0 p); cbn [andb].
    - destruct (qltb 0 (cell_sum i blocks)) eqn:E.
      + rewrite assign_blocks. apply map_ext. intros b. apply map_ext. intros e.
        destruct (Nat.eqb_spec (fst e) i) as [->|]; [rewrite E|]; reflexivity.
      + apply map_ext. intros b. apply map_ext. intros e.
        destruct (Nat.eqb_spec (fst e) i) as [->|]; [rewrite E|]; reflexivity.
    - apply map_ext. intros b. apply map_ext. intros e. destruct (fst e =? i); reflexivity. }
  rewrite IH. apply map_ext. intros b. apply map_ext. intros e. cbn [fst snd]. f_equal.
  destruct (fst e =? i); [|reflexivity]. destruct (_ && _)%bool; reflexivity.
Qed.

Lemma zeros_blocks {A} (blocks : list (list (nat * A))) :
  map (fun p : list nat => repeat 0%Qc (length p)) (map (map fst) blocks) = map (map (fun _ => 0%Qc)) blocks.
Proof.
  rewrite map_map. apply map_ext. intros b. rewrite map_length.
  induction b as [|e b IH]; simpl; [reflexivity|]. f_equal; auto.
Qed.

Lemma prob_eq probs ptrs vols : same_lengths ptrs vols ->
  prob probs ptrs vols =
  Ok (map (map (share probs (combine (concat ptrs) (concat vols))))
          (zipped ptrs vols)).
Proof.
  intros H. unfold prob. set (blocks := zipped ptrs vols).
  assert (Hz : map (fun p : list nat => repeat 0%Qc (length p)) ptrs = map (map (fun _ => 0%Qc)) blocks).
  { rewrite <- zeros_blocks. unfold blocks. rewrite zip_fst by exact H. reflexivity. }
  destruct (existsb (qltb 0) probs) eqn:Ex.
  - rewrite (zip_blocks_ok _ _ H). cbn [bind]. fold blocks. rewrite Hz, prob_fold. f_equal.
    apply map_ext. intros b. apply map_ext. intros e. unfold enumerate. rewrite (fold_pick (fst e) 0 probs (fun p => if (qltb 0 p && qltb 0 (cell_sum (fst e) blocks))%bool
                 then Some (p * snd e / cell_sum (fst e) blocks)%Qc else None)). cbn [Nat.leb].
    rewrite Nat.sub_0_r. unfold share. rewrite <- (zip_concat _ _ H). fold blocks. rewrite cell_sum_concat.
    destruct (nth_error probs (fst e)) as [p|]; [|reflexivity]. destruct (_ && _)%bool; reflexivity.
  - rewrite Hz. f_equal. apply map_ext. intros b. apply map_ext. intros e. unfold share.
    destruct (nth_error probs (fst e)) as [p|] eqn:E; [|reflexivity].
    assert (qltb 0 p = false) as ->; [|reflexivity].
    destruct (qltb 0 p) eqn:E2; [|reflexivity]. rewrite <- Ex. symmetry. apply existsb_exists.
    exists p. split; [eapply nth_error_In; eauto|exact E2].
Qed.

Lemma concat_map_map' {A B} (f : A -> B) ll : concat (map (map f) ll) = map f (concat ll).
Proof. symmetry. apply concat_map. Qed.

Lemma prob_concat probs ptrs vols : same_lengths ptrs vols -> exists Q,
  prob probs ptrs vols = Ok Q /\ same_lengths Q ptrs /\
  concat Q = map (share probs (combine (concat ptrs) (concat vols))) (combine (concat ptrs) (concat vols)).
Proof.
  intros H. eexists. split; [apply prob_eq; exact H|]. split.
  - clear -H. generalize (share probs (combine (concat ptrs) (concat vols))). intros f.
    induction H as [|p v ps vs Hl H IH]; simpl; [constructor|]. constructor; [|exact IH].
    rewrite map_length, combine_length, Hl, Nat.min_id. reflexivity.
  - rewrite concat_map_map', zip_concat by exact H. reflexivity.
Qed.

Lemma total_in_nonneg s i : (forall x, In x s -> (0 <= snd x)%Qc) -> (0 <= total_in s i)%Qc.
Proof.
  intros H. apply qsum_nonneg. intros x Hx. apply in_map_iff in Hx. destruct Hx as (e & <- & He).
  apply filter_In in He. apply H. tauto.
Qed.

Lemma share_nonneg probs s e : (forall x, In x s -> (0 <= snd x)%Qc) -> In e s -> (0 <= share probs s e)%Qc.
Proof.
  intros H He. unfold share. destruct (nth_error probs (fst e)) as [p|]; [|apply Qcle_refl].
  destruct (qltb_spec 0 p); cbn [andb]; [|apply Qcle_refl].
  destruct (qltb_spec 0 (total_in s (fst e))); [|apply Qcle_refl].
  apply qc_div_nonneg; [|assumption]. apply qc_mul_nonneg; [qc_lra|auto].
Qed.

(** The shares of the samples of cell [i]. *)
Lemma share_total probs s i p : nth_error probs i = Some p ->
  total_in (map (fun e => (fst e, share probs s e)) s) i =
  if (qltb 0 p && qltb 0 (total_in s i))%bool then p else 0%Qc.
Proof.
  intros Hp. unfold total_in at 1. rewrite filter_map_comm, map_map. cbn [fst snd].
  rewrite (qsum_map_ext _ (fun e => if (qltb 0 p && qltb 0 (total_in s i))%bool then (p / total_in s i * snd e)%Qc else 0%Qc)).
  - destruct (_ && _)%bool eqn:E.
    + rewrite qsum_map_mul. change (qsum (map snd (filter (fun x => fst x =? i) s))) with (total_in s i).
      apply andb_prop in E. destruct E as [_ E]. apply qltb_true in E. apply qc_div_mul. apply Qclt_neq0. exact E.
    + apply qsum_map_zero. reflexivity.
  - intros e He. apply filter_In in He. destruct He as [_ He]. apply Nat.eqb_eq in He. unfold share. rewrite He, Hp.
    destruct (_ && _)%bool eqn:E; [|reflexivity]. unfold Qcdiv. ring.
Qed.

Lemma total_in_split (s : list (nat * Qc)) n : (forall e, In e s -> fst e < n) ->
  qsum (map snd s) = qsum (map (total_in s) (seq 0 n)).
Proof.
  intros H. unfold total_in.
  rewrite (map_ext (fun i => qsum (map snd (filter (fun s0 => fst s0 =? i) s)))
                   (fun i => qsum (map (fun e => ind (fst e =? i) (snd e)) s))).
  2:{ intros i. rewrite qsum_filter. reflexivity. }
  rewrite (qsum_swap (fun i e => ind (fst e =? i) (snd e))). apply qsum_map_ext. intros e He.
  symmetry. apply qsum_ind_seq. auto.
Qed.

Lemma combine_app_eq {A B} (l : list A) (f : A -> B) : combine l (map f l) = map (fun a => (a, f a)) l.
Proof. induction l as [|a l IH]; simpl; [reflexivity|]. f_equal. exact IH. Qed.

Lemma combine_shares (p : list nat) (v : list Qc) (f : nat * Qc -> Qc) : length p = length v ->
  combine p (map f (combine p v)) = map (fun e => (fst e, f e)) (combine p v).
Proof.
  revert v; induction p as [|a p IH]; intros [|b v]; simpl; intros H; try discriminate; [reflexivity|].
  f_equal. apply IH. lia.
Qed.

Lemma prob_spreads_lemma probs ptrs vols : same_lengths ptrs vols -> nonneg (concat vols) -> exists Q,
  prob probs ptrs vols = Ok Q /\ same_lengths Q ptrs /\ nonneg (concat Q) /\
  let vol_of := total_in (combine (concat ptrs) (concat vols)) in
  (forall i p, nth_error probs i = Some p -> (0 < p)%Qc -> (0 < vol_of i)%Qc ->
     total_in (combine (concat ptrs) (concat Q)) i = p /\
     forall j v, nth_error (concat ptrs) j = Some i -> nth_error (concat vols) j = Some v ->
       nth_error (concat Q) j = Some (v * (p / vol_of i))%Qc) /\
  (forall i p, nth_error probs i = Some p -> (p <= 0)%Qc ->
     forall j, nth_error (concat ptrs) j = Some i -> nth_error (concat Q) j = Some 0%Qc).
Proof.
  intros H Hv. destruct (prob_concat probs ptrs vols H) as (Q & HQ & Hl & Hc). exists Q.
  pose proof (same_lengths_concat _ _ H) as Hlen.
  assert (Hn : forall x, In x (combine (concat ptrs) (concat vols)) -> (0 <= snd x)%Qc).
  { intros [a b] Hx. apply in_combine_r in Hx. apply Hv. exact Hx. }
  split; [exact HQ|]. split; [exact Hl|]. split.
  { rewrite Hc. intros x Hx. apply in_map_iff in Hx. destruct Hx as (e & <- & He). apply share_nonneg; assumption. }
  cbn zeta.
  assert (Hj : forall j i v, nth_error (concat ptrs) j = Some i -> nth_error (concat vols) j = Some v ->
     nth_error (concat Q) j = Some (share probs (combine (concat ptrs) (concat vols)) (i, v))).
  { intros j i v Hi Hj. rewrite Hc. apply map_nth_error.
    clear -Hi Hj. revert j Hi Hj. generalize (concat vols). induction (concat ptrs) as [|a l IH]; intros m [|j]; simpl; try discriminate;
    destruct m as [|b m]; simpl; try discriminate.
    - intros [= ->] [= ->]. reflexivity.
    - apply IH. }
  split.
  - intros i p Hp Hpos Htot. split.
    + rewrite Hc, combine_shares by exact Hlen. rewrite (share_total _ _ _ _ Hp).
      apply qltb_true in Hpos, Htot. rewrite Hpos, Htot. reflexivity.
    + intros j v Hi Hvj. rewrite (Hj _ _ _ Hi Hvj). unfold share. cbn [fst snd]. rewrite Hp.
      apply qltb_true in Hpos, Htot. rewrite Hpos, Htot. cbn [andb]. f_equal. unfold Qcdiv. ring.
  - intros i p Hp Hpos j Hi.
    assert (Hex : exists v, nth_error (concat vols) j = Some v).
    { destruct (nth_error (concat vols) j) eqn:E; [eauto|]. apply nth_error_None in E.
      assert (j < length (concat ptrs)) by (apply nth_error_Some; congruence). lia. }
    destruct Hex as [v Hvj]. rewrite (Hj _ _ _ Hi Hvj). unfold share. cbn [fst snd]. rewrite Hp.
    apply qltb_false in Hpos. rewrite Hpos. reflexivity.
Qed.

Lemma prob_split_lemma probs ptrs vols ptrs' vols' :
  same_lengths ptrs vols -> same_lengths ptrs' vols' -> concat ptrs = concat ptrs' -> concat vols = concat vols' ->
  exists Q Q', prob probs ptrs vols = Ok Q /\ prob probs ptrs' vols' = Ok Q' /\ concat Q = concat Q'.
Proof.
  intros H H' Ep Ev. destruct (prob_concat probs ptrs vols H) as (Q & HQ & _ & Hc).
  destruct (prob_concat probs ptrs' vols' H') as (Q' & HQ' & _ & Hc').
  exists Q, Q'. repeat split; try assumption. rewrite Hc, Hc', Ep, Ev. reflexivity.
Qed.

Lemma prob_raises_lemma probs ptrs vols :
  (exists e, prob probs ptrs vols = Raise e) <-> (exists p, In p probs /\ (0 < p)%Qc) /\ ~ same_lengths ptrs vols.
Proof.
  split.
  - intros [e He]. unfold prob in He. destruct (existsb (qltb 0) probs) eqn:Ex; [|discriminate].
    apply existsb_exists in Ex. destruct Ex as (p & Hp & Hpp). apply qltb_true in Hpp.
    split; [eauto|]. intros Hs. rewrite (zip_blocks_ok _ _ Hs) in He. discriminate.
  - intros [(p & Hp & Hpp) Hs]. unfold prob.
    assert (existsb (qltb 0) probs = true) as ->.
    { apply existsb_exists. exists p. split; [exact Hp|]. apply qltb_true. exact Hpp. }
    destruct (zip_blocks ptrs vols) as [bs|e] eqn:E; [|exists e; reflexivity].
    exfalso. apply Hs. eapply zip_blocks_inv. exact E.
Qed.

Lemma prob_total_lemma probs ptrs vols Q : same_lengths ptrs vols ->
  (forall i, In i (concat ptrs) -> i < length probs) -> prob probs ptrs vols = Ok Q ->
  qsum (concat Q) = qsum (map (fun ip => if (qltb 0 (snd ip) && qltb 0 (total_in (combine (concat ptrs) (concat vols)) (fst ip)))%bool
                                        then snd ip else 0%Qc) (enumerate probs)).
Proof.
  intros H Hb HQ. destruct (prob_concat probs ptrs vols H) as (Q' & HQ' & _ & Hc).
  assert (Q' = Q) as -> by congruence. pose proof (same_lengths_concat _ _ H) as Hlen.
  set (s := combine (concat ptrs) (concat vols)) in *.
  assert (Hs : qsum (concat Q) = qsum (map snd (map (fun e => (fst e, share probs s e)) s))).
  { rewrite map_map, Hc. reflexivity. }
  rewrite Hs, (total_in_split _ (length probs)).
  - unfold enumerate.
    assert (G : forall a l n, (forall k, k < n -> nth_error probs (a + k) = nth_error l k) -> length l = n ->
       qsum (map (total_in (map (fun e => (fst e, share probs s e)) s)) (seq a n)) =
       qsum (map (fun ip => if (qltb 0 (snd ip) && qltb 0 (total_in s (fst ip)))%bool then snd ip else 0%Qc) (combine (seq a n) l))).
    { intros a l n; revert a l; induction n as [|n IH]; intros a l Hk Hln; destruct l as [|p l]; try discriminate; [reflexivity|].
      cbn [seq combine map qsum fst snd]. rewrite (IH (S a) l); [| |simpl in Hln; lia].
      - f_equal. apply share_total. rewrite <- (Nat.add_0_r a). apply (Hk 0). lia.
      - intros k Hkn. replace (S a + k) with (a + S k) by lia. rewrite Hk by lia. reflexivity. }
    apply G; [|reflexivity]. intros. reflexivity.
  - intros e He. apply in_map_iff in He. destruct He as (e' & <- & He). cbn [fst]. apply Hb.
    destruct e' as [a b]. apply in_combine_l in He. exact He.
Qed.

Lemma enumerate_in {A} (l : list A) i x : In (i, x) (enumerate l) <-> nth_error l i = Some x.
Proof.
  unfold enumerate.
  assert (G : forall a, In (i, x) (combine (seq a (length l)) l) <-> a <= i /\ nth_error l (i - a) = Some x).
  { induction l as [|y l IH]; intros a; simpl.
    - split; [tauto|]. intros [_ H]. destruct (i - a); discriminate.
    - rewrite IH. split.
      + intros [[= -> ->]|[Hle H]]; [rewrite Nat.sub_diag; auto|]. split; [lia|].
        replace (i - a) with (S (i - S a)) by lia. exact H.
      + intros [Hle H]. destruct (Nat.eq_dec i a) as [->|Hne].
        * rewrite Nat.sub_diag in H. injection H as ->. auto.
        * right. split; [lia|]. replace (i - a) with (S (i - S a)) in H by lia. exact H. }
  rewrite G, Nat.sub_0_r. split; [tauto|]. intros H. split; [lia|exact H].
Qed.
Lemma enumerate_snd {A} (l : list A) : map snd (enumerate l) = l.
Proof. apply combine_snd. apply seq_length. Qed.

Lemma qsum_eq_iff_le {A} (f g : A -> Qc) l : (forall a, In a l -> (f a <= g a)%Qc) ->
  (qsum (map f l) = qsum (map g l) <-> forall a, In a l -> f a = g a).
Proof.
  intros H. split.
  - intros Hs a Ha.
    assert (G : qsum (map (fun a => g a - f a)%Qc l) = 0%Qc) by (rewrite qsum_map_sub, Hs; ring).
    assert (g a - f a = 0)%Qc.
    { apply (qsum_zero_nonneg _ ) with (x := (g a - f a)%Qc) in G; [exact G| |apply in_map_iff; eauto].
      intros x Hx. apply in_map_iff in Hx. destruct Hx as (b & <- & Hb). specialize (H b Hb). qc_lra. }
    qc_lra.
  - intros Hs. apply qsum_map_ext. exact Hs.
Qed.

(** the sum is the total output probability iff no positive cell is empty *)
Lemma prob_total_iff_lemma probs ptrs vols Q : same_lengths ptrs vols -> nonneg probs ->
  (forall i, In i (concat ptrs) -> i < length probs) -> prob probs ptrs vols = Ok Q ->
  (qsum (concat Q) <= qsum probs)%Qc /\
  (qsum (concat Q) = qsum probs <->
   forall i p, nth_error probs i = Some p -> (0 < p)%Qc -> (0 < total_in (combine (concat ptrs) (concat vols)) i)%Qc).
Proof.
  intros H Hp Hb HQ. rewrite (prob_total_lemma _ _ _ _ H Hb HQ).
  set (s := combine (concat ptrs) (concat vols)).
  set (f := fun ip : nat * Qc => if (qltb 0 (snd ip) && qltb 0 (total_in s (fst ip)))%bool then snd ip else 0%Qc).
  assert (Hle : forall e, In e (enumerate probs) -> (f e <= snd e)%Qc).
  { intros [i p] He. unfold f. cbn [fst snd]. destruct (_ && _)%bool; [apply Qcle_refl|].
    apply Hp. apply enumerate_in in He. eapply nth_error_In. exact He. }
  replace (qsum probs) with (qsum (map snd (enumerate probs))) by (rewrite enumerate_snd; reflexivity).
  split; [apply qsum_map_le; exact Hle|]. rewrite (qsum_eq_iff_le f snd _ Hle). split.
  - intros G i p Hi Hpos. specialize (G (i, p)). cbn [snd] in G. rewrite enumerate_in in G. specialize (G Hi).
    unfold f in G. cbn [fst snd] in G. apply qltb_true. destruct (qltb 0 (total_in s i)); [reflexivity|].
    rewrite andb_false_r in G. subst p. exfalso. apply Qclt_neq0 in Hpos. congruence.
  - intros G [i p] He. unfold f. cbn [fst snd]. apply enumerate_in in He.
    destruct (qltb_spec 0 p) as [Hpos|Hneg].
    + specialize (G _ _ He Hpos). apply qltb_true in G. rewrite G. reflexivity.
    + cbn [andb]. assert (0 <= p)%Qc by (apply Hp; eapply nth_error_In; eauto). qc_lra.
Qed.

(** *** prob_on_emulated_samples: the same as prob with all volumes one *)
Lemma follow_ok io_ptr ii : (forall k, In k (concat ii) -> k < length io_ptr) ->
  exists ptrs, follow io_ptr ii = Ok ptrs /\ same_lengths ptrs ii /\
    forall j k, nth_error (concat ii) j = Some k -> nth_error (concat ptrs) j = nth_error io_ptr k.
Proof.
  induction ii as [|b ii IH]; intros H; simpl.
  - exists []. repeat split; [constructor|]. intros [|j] k; discriminate.
  - assert (Hb : exists b', take_idx io_ptr b = Some b' /\ length b' = length b /\
                 forall j k, nth_error b j = Some k -> nth_error b' j = nth_error io_ptr k).
    { assert (Hb : forall k, In k b -> k < length io_ptr) by (intros k Hk; apply H; simpl; apply in_or_app; auto).
      clear -Hb. induction b as [|k b IH]; simpl.
      - exists []. repeat split. intros [|j] k; discriminate.
      - destruct IH as (b' & E & El & En); [intros; apply Hb; right; assumption|].
        destruct (nth_error io_ptr k) as [x|] eqn:Ek.
        + rewrite E. exists (x :: b'). repeat split; [simpl; congruence|]. intros [|j] k' Hk'; simpl in *.
          * injection Hk' as <-. congruence.
          * apply En. exact Hk'.
        + apply nth_error_None in Ek. specialize (Hb k (or_introl eq_refl)). lia. }
    destruct Hb as (b' & -> & El & En).
    destruct IH as (ptrs & E & Hs & Hn); [intros k Hk; apply H; simpl; apply in_or_app; auto|].
    rewrite E. cbn [bind]. exists (b' :: ptrs). split; [reflexivity|]. split; [constructor; assumption|].
    intros j k Hj. simpl. destruct (Nat.lt_ge_cases j (length b)) as [Hlt|Hge].
    + rewrite nth_error_app1 in Hj by lia. rewrite nth_error_app1 by lia. auto.
    + rewrite nth_error_app2 in Hj by lia. rewrite nth_error_app2 by lia. rewrite El. auto.
Qed.

Definition ones (ptrs : list (list nat)) : list (list Qc) := map (map (fun _ => 1%Qc)) ptrs.
Lemma ones_lengths ptrs : same_lengths ptrs (ones ptrs).
Proof. induction ptrs as [|p ps IH]; simpl; constructor; [rewrite map_length; reflexivity|exact IH]. Qed.

Lemma number_total l i : total_in (map (fun k => (k, 1%Qc)) l) i = qn (number_in l i).
Proof.
  unfold total_in, number_in. rewrite filter_map_comm, map_map. cbn [fst snd]. rewrite qsum_map_const. ring.
Qed.

Lemma ones_concat ptrs : concat (ones ptrs) = map (fun _ => 1%Qc) (concat ptrs).
Proof. apply concat_map_map'. Qed.
Lemma zipped_ones ptrs : zipped ptrs (ones ptrs) = map (map (fun k => (k, 1%Qc))) ptrs.
Proof.
  unfold zipped, ones. induction ptrs as [|p ps IH]; simpl; [reflexivity|]. f_equal; [|exact IH].
  apply combine_app_eq.
Qed.
Lemma qltb_qn n : qltb 0 (qn n) = (0 <? n).
Proof.
  destruct (Nat.ltb_spec 0 n) as [H|H].
  - apply qltb_true. apply qn_pos. exact H.
  - apply qltb_false. assert (n = 0) as -> by lia. rewrite qn_0. apply Qcle_refl.
Qed.

Lemma emulated_is_prob probs ptrs :
  Ok (fold_left (emulated_step ptrs) (enumerate probs) (map (fun p => repeat 0%Qc (length p)) ptrs)) =
  prob probs ptrs (ones ptrs).
Proof.
  assert (Hcs : forall i, cell_sum i (zipped ptrs (ones ptrs)) = qn (cell_count i ptrs)).
  { intros i. rewrite cell_sum_concat, cell_count_concat, zipped_ones, concat_map_map'. apply number_total. }
  assert (Hstep : forall acc ip, emulated_step ptrs acc ip = prob_step (zipped ptrs (ones ptrs)) acc ip).
  { intros acc [i p]. unfold emulated_step, prob_step. destruct (qltb 0 p); [|reflexivity].
    rewrite Hcs, qltb_qn. destruct (0 <? cell_count i ptrs); [|reflexivity].
    rewrite zipped_ones. generalize (cell_count i ptrs). intros n. clear. revert acc. induction ptrs as [|b bs IH]; intros [|o os]; simpl; [reflexivity..|].
    f_equal; [|apply IH]. unfold assign. clear. revert o. induction b as [|k b IH]; intros [|x o]; simpl; [reflexivity..|].
    f_equal; [|apply IH]. destruct (k =? i); [|reflexivity]. unfold Qcdiv. ring. }
  unfold prob. rewrite (zip_blocks_ok _ _ (ones_lengths ptrs)). cbn [bind].
  assert (Hf : forall l acc, fold_left (emulated_step ptrs) l acc = fold_left (prob_step (zipped ptrs (ones ptrs))) l acc).
  { induction l as [|ip l IH]; intros acc; cbn [fold_left]; [reflexivity|]. rewrite Hstep. apply IH. }
  rewrite Hf. destruct (existsb (qltb 0) probs) eqn:Ex; [reflexivity|]. f_equal.
  generalize (map (fun p : list nat => repeat 0%Qc (length p)) ptrs). unfold enumerate. generalize 0.
  induction probs as [|p probs IH]; intros a acc; cbn [length seq combine fold_left]; [reflexivity|].
  simpl in Ex. apply orb_false_elim in Ex. destruct Ex as [E1 E2]. unfold prob_step at 2. rewrite E1. apply IH. exact E2.
Qed.

Lemma emulated_lemma probs io_ptr ii : (forall k, In k (concat ii) -> k < length io_ptr) ->
  exists ptr Q, prob_on_emulated_samples probs io_ptr ii = Ok Q /\ same_lengths Q ii /\
  length ptr = length (concat ii) /\
  (forall j k, nth_error (concat ii) j = Some k -> nth_error ptr j = nth_error io_ptr k) /\
  (forall j i p, nth_error ptr j = Some i -> nth_error probs i = Some p -> (0 <= p)%Qc ->
      nth_error (concat Q) j = Some (p / qn (number_in ptr i))%Qc) /\
  (forall i p, nth_error probs i = Some p -> (0 <= p)%Qc -> 0 < number_in ptr i ->
      total_in (combine ptr (concat Q)) i = p).
Proof.
  intros H. destruct (follow_ok io_ptr ii H) as (ptrs & E & Hs & Hn). exists (concat ptrs).
  destruct (prob_concat probs ptrs (ones ptrs) (ones_lengths ptrs)) as (Q & HQ & HlQ & Hc). exists Q.
  unfold prob_on_emulated_samples. rewrite E. cbn [bind]. rewrite emulated_is_prob. split; [exact HQ|].
  split.
  { clear -HlQ Hs. revert Q HlQ. induction Hs as [|x y xs ys Hxy Hs IH]; intros Q HlQ; inversion HlQ; subst; constructor.
    - congruence. - apply IH. assumption. }
  split; [apply same_lengths_concat; exact Hs|]. split; [exact Hn|].
  rewrite ones_concat, combine_app_eq in Hc. split.
  - intros j i p Hj Hp Hp0.
    assert (0 < number_in (concat ptrs) i).
    { unfold number_in. assert (In i (filter (fun k => k =? i) (concat ptrs))).
      { apply filter_In. split; [eapply nth_error_In; eauto|apply Nat.eqb_refl]. }
      destruct (filter _ _); [contradiction|simpl; lia]. }
    rewrite Hc. rewrite map_map. erewrite map_nth_error by exact Hj. f_equal. unfold share. cbn [fst snd].
    rewrite Hp, number_total, qltb_qn. destruct (Nat.ltb_spec 0 (number_in (concat ptrs) i)); [|lia].
    rewrite andb_true_r. destruct (qltb_spec 0 p) as [Hpos|Hneg].
    + unfold Qcdiv. ring.
    + assert (p = 0)%Qc as -> by qc_lra. unfold Qcdiv. ring.
  - intros i p Hp Hp0 Hi. rewrite Hc.
    assert (combine (concat ptrs) (map (share probs (map (fun a => (a, 1%Qc)) (concat ptrs))) (map (fun a => (a, 1%Qc)) (concat ptrs)))
            = map (fun e => (fst e, share probs (map (fun a => (a, 1%Qc)) (concat ptrs)) e)) (map (fun a => (a, 1%Qc)) (concat ptrs))) as ->.
    { rewrite !map_map, combine_app_eq. reflexivity. }
    rewrite (share_total _ _ _ _ Hp), number_total, qltb_qn.
    destruct (Nat.ltb_spec 0 (number_in (concat ptrs) i)); [|lia]. rewrite andb_true_r.
    destruct (qltb_spec 0 p) as [Hpos|Hneg]; [reflexivity|]. qc_lra.
Qed.

Lemma emulated_split_lemma probs io_ptr ii ii' : (forall k, In k (concat ii) -> k < length io_ptr) -> concat ii = concat ii' ->
  exists Q Q', prob_on_emulated_samples probs io_ptr ii = Ok Q /\ prob_on_emulated_samples probs io_ptr ii' = Ok Q' /\
    concat Q = concat Q'.
Proof.
  intros H Hi.
  assert (H' : forall k, In k (concat ii') -> k < length io_ptr) by (rewrite <- Hi; exact H).
  destruct (follow_ok io_ptr ii H) as (p & E & Hs & Hn). destruct (follow_ok io_ptr ii' H') as (p' & E' & Hs' & Hn').
  assert (Hp : concat p = concat p').
  { apply nth_error_ext. intros j. destruct (nth_error (concat ii) j) as [k|] eqn:Ej.
    - rewrite (Hn _ _ Ej). rewrite Hi in Ej. rewrite (Hn' _ _ Ej). reflexivity.
    - pose proof Ej as Ej'. rewrite Hi in Ej'. apply nth_error_None in Ej, Ej'.
      rewrite (proj2 (nth_error_None _ _)), (proj2 (nth_error_None _ _)); [reflexivity| |].
      + rewrite (same_lengths_concat _ _ Hs'). exact Ej'.
      + rewrite (same_lengths_concat _ _ Hs). exact Ej. }
  unfold prob_on_emulated_samples. rewrite E, E'. cbn [bind]. rewrite !emulated_is_prob.
  apply prob_split_lemma; try apply ones_lengths; [exact Hp|]. rewrite !ones_concat, Hp. reflexivity.
Qed.

(** *** transfer *)
Lemma transfer_lemma num_new ptrs probs : same_lengths ptrs probs ->
  transfer num_new ptrs probs = Ok (map (total_in (combine (concat ptrs) (concat probs))) (seq 0 num_new)).
Proof.
  intros H. unfold transfer. rewrite (zip_blocks_ok _ _ H). cbn [bind]. f_equal. apply map_ext. intros i.
  rewrite cell_sum_concat. fold (zipped ptrs probs). rewrite (zip_concat _ _ H). reflexivity.
Qed.
Lemma transfer_total num_new ptrs probs q : same_lengths ptrs probs -> (forall i, In i (concat ptrs) -> i < num_new) ->
  transfer num_new ptrs probs = Ok q -> qsum q = qsum (concat probs).
Proof.
  intros H Hb. rewrite (transfer_lemma _ _ _ H). intros [= <-]. rewrite <- total_in_split.
  - rewrite combine_snd; [reflexivity|]. apply same_lengths_concat. exact H.
  - intros [a b] He. apply in_combine_l in He. apply Hb. exact He.
Qed.
Lemma transfer_nonneg num_new ptrs probs q : nonneg (concat probs) -> transfer num_new ptrs probs = Ok q -> nonneg q.
Proof.
  intros Hp Ht. assert (H : same_lengths ptrs probs).
  { unfold transfer in Ht. destruct (zip_blocks ptrs probs) eqn:E; [|discriminate]. eapply zip_blocks_inv; eauto. }
  rewrite (transfer_lemma _ _ _ H) in Ht. injection Ht as <-. intros x Hx. apply in_map_iff in Hx.
  destruct Hx as (i & <- & _). apply total_in_nonneg. intros [a b] He. apply in_combine_r in He. apply Hp. exact He.
Qed.

(** *** transfer with emulated volumes *)
Lemma fold_pick2 {A X} (k a : nat) (l : list A) (h : A -> X -> X) x :
  fold_left (fun x ip => if k =? fst ip then h (snd ip) x else x) (combine (seq a (length l)) l) x =
  if a <=? k then match nth_error l (k - a) with Some p => h p x | None => x end else x.
Proof.
  revert a x; induction l as [|p l IH]; intros a x; simpl.
  - destruct (a <=? k); [|reflexivity]. destruct (k - a); reflexivity.
  - rewrite IH. destruct (Nat.eqb_spec k a) as [->|Hne].
    + replace (S a <=? a) with false by (symmetry; apply Nat.leb_gt; lia).
      rewrite Nat.leb_refl, Nat.sub_diag. reflexivity.
    + destruct (Nat.leb_spec (S a) k), (Nat.leb_spec a k); try lia; [|reflexivity].
      replace (k - a) with (S (k - S a)) by lia. reflexivity.
Qed.

Lemma spread_fold ptr1 l g w :
  fold_left (spread_step ptr1) l (map (map g) ptr1, w) =
  (map (map (fun k => fold_left (fun x ip => if k =? fst ip then
       (fun p x => if (qltb 0 p && (0 <? cell_count k ptr1))%bool then (x + p / qn (cell_count k ptr1))%Qc else x) (snd ip) x
       else x) l (g k))) ptr1,
   (w || existsb (fun ip => qltb 0 (snd ip) && negb (0 <? cell_count (fst ip) ptr1)) l)%bool).
Proof.
  revert g w; induction l as [|[i p] l IH]; intros g w; cbn [fold_left existsb fst snd]; [rewrite orb_false_r; reflexivity|].
  assert (spread_step ptr1 (map (map g) ptr1, w) (i, p) =
    (map (map (fun k => if k =? i then if (qltb 0 p && (0 <? cell_count k ptr1))%bool then (g k + p / qn (cell_count k ptr1))%Qc else g k else g k)) ptr1,
     (w || (qltb 0 p && negb (0 <? cell_count i ptr1)))%bool)) as ->.
  { unfold spread_step. cbn [fst snd]. destruct (qltb 0 p); cbn [andb].
    - destruct (0 <? cell_count i ptr1) eqn:E; cbn [negb].
      + rewrite orb_false_r. f_equal. 
        transitivity (map (map (fun k => if k =? i then (g k + p / qn (cell_count i ptr1))%Qc else g k)) ptr1).
        * generalize (cell_count i ptr1). clear. intros n. induction ptr1 as [|b bs IH]; simpl; [reflexivity|].
          f_equal; [|exact IH]. clear. induction b as [|k b IH]; simpl; [reflexivity|]. f_equal. exact IH.
        * apply map_ext. intros b. apply map_ext. intros k. destruct (Nat.eqb_spec k i) as [->|]; [rewrite E|]; reflexivity.
      + rewrite orb_true_r. f_equal. apply map_ext. intros b. apply map_ext. intros k.
        destruct (Nat.eqb_spec k i) as [->|]; [rewrite E|]; reflexivity.
    - rewrite orb_false_r. f_equal. apply map_ext. intros b. apply map_ext. intros k. destruct (k =? i); reflexivity. }
  rewrite IH. f_equal. rewrite orb_assoc. reflexivity.
Qed.

(** weight of an emulated point of old cell k *)
Definition eweight (probs : list Qc) (pts : list nat) (k : nat) : Qc :=
  share probs (map (fun j => (j, 1%Qc)) pts) (k, 1%Qc).

Lemma spread_eq probs ptr1 :
  fold_left (spread_step ptr1) (enumerate probs) (map (fun p => repeat 0%Qc (length p)) ptr1, false) =
  (map (map (eweight probs (concat ptr1))) ptr1,
   existsb (fun ip => qltb 0 (snd ip) && negb (0 <? number_in (concat ptr1) (fst ip))) (enumerate probs))%bool.
Proof.
  replace (map (fun p : list nat => repeat 0%Qc (length p)) ptr1) with (map (map (fun _ : nat => 0%Qc)) ptr1).
  2:{ apply map_ext. intros b. induction b as [|e b IH]; simpl; [reflexivity|]. f_equal; auto. }
  rewrite spread_fold. f_equal.
  - apply map_ext. intros b. apply map_ext. intros k. unfold enumerate.
    rewrite (fold_pick2 k 0 probs (fun p x => if (qltb 0 p && (0 <? cell_count k ptr1))%bool then (x + p / qn (cell_count k ptr1))%Qc else x)).
    cbn [Nat.leb]. rewrite Nat.sub_0_r. unfold eweight, share. cbn [fst snd].
    destruct (nth_error probs k) as [p|]; [|reflexivity]. rewrite number_total, qltb_qn, <- cell_count_concat.
    destruct (_ && _)%bool; [|reflexivity]. unfold Qcdiv. ring.
  - cbn [orb]. induction (enumerate probs) as [|ip l IH]; cbn [existsb]; [reflexivity|].
    rewrite cell_count_concat, IH. reflexivity.
Qed.

Lemma xsum_fin' l r : map Fin r = l -> xsum l = Fin (qsum r).
Proof. intros <-. apply xsum_fin. Qed.

Lemma xcell_sum_concat i (blocks : list (list (nat * Qc))) :
  xsum (map (xlocal_sum i) (map (map (fun e => (fst e, Fin (snd e)))) blocks)) = Fin (total_in (concat blocks) i).
Proof.
  rewrite <- cell_sum_concat. apply xsum_fin'. unfold local_sum. rewrite !map_map. apply map_ext. intros b.
  unfold xlocal_sum. rewrite filter_map_comm, map_map. cbn [fst snd].
  rewrite (xsum_fin' _ (map snd (filter (fun x => fst x =? i) b))); [reflexivity|]. rewrite map_map. reflexivity.
Qed.

Lemma transfer_emulated_fin_tail num_new ptr2 (em : list (list Qc)) : same_lengths ptr2 em ->
  bind (zip_blocks ptr2 (map (map Fin) em)) (fun blocks =>
    Ok (map (fun i => xsum (map (xlocal_sum i) blocks)) (seq 0 num_new))) =
  Ok (map Fin (map (total_in (combine (concat ptr2) (concat em))) (seq 0 num_new))).
Proof.
  intros H.
  assert (H' : same_lengths ptr2 (map (map Fin) em)).
  { clear -H. induction H; simpl; constructor; [rewrite map_length; assumption|assumption]. }
  rewrite (zip_blocks_ok _ _ H'). cbn [bind]. f_equal. rewrite map_map. apply map_ext. intros i.
  replace (zipped ptr2 (map (map Fin) em)) with (map (map (fun e : nat * Qc => (fst e, Fin (snd e)))) (zipped ptr2 em)).
  - rewrite xcell_sum_concat, (zip_concat _ _ H). reflexivity.
  - unfold zipped. rewrite combine_map_r, !map_map. apply map_ext. intros [p v]. cbn [fst snd].
    rewrite combine_map_r. apply map_ext. intros [a b]. reflexivity.
Qed.

Lemma map_same_lengths {A B} (f : A -> B) l (m : list (list A)) : same_lengths l m -> @same_lengths nat B l (map (map f) m).
Proof. induction 1; simpl; constructor; [rewrite map_length; assumption|assumption]. Qed.

Lemma same_lengths_sym {A B} (a : list (list A)) (b : list (list B)) : same_lengths a b -> same_lengths b a.
Proof. induction 1; constructor; auto. Qed.


Lemma warn_false probs pts :
  existsb (fun ip => qltb 0 (snd ip) && negb (0 <? number_in pts (fst ip)))%bool (enumerate probs) = false <-> all_hit probs pts.
Proof.
  split.
  - intros H i p Hi Hp. destruct (Nat.ltb_spec 0 (number_in pts i)) as [|Hn]; [assumption|]. exfalso.
    assert (existsb (fun ip => qltb 0 (snd ip) && negb (0 <? number_in pts (fst ip)))%bool (enumerate probs) = true); [|congruence].
    apply existsb_exists. exists (i, p). split; [apply enumerate_in; exact Hi|]. cbn [fst snd].
    apply qltb_true in Hp. rewrite Hp. destruct (Nat.ltb_spec 0 (number_in pts i)); [lia|reflexivity].
  - intros H. destruct (existsb _ _) eqn:E; [|reflexivity]. apply existsb_exists in E. destruct E as ([i p] & He & Hb).
    apply enumerate_in in He. cbn [fst snd] in Hb. apply andb_prop in Hb. destruct Hb as [Hp Hn]. apply qltb_true in Hp.
    specialize (H _ _ He Hp). destruct (Nat.ltb_spec 0 (number_in pts i)); [discriminate|lia].
Qed.

Lemma eweight_nonneg probs pts k : In k pts -> (0 <= eweight probs pts k)%Qc.
Proof.
  intros Hk. unfold eweight. apply share_nonneg.
  - intros x Hx. apply in_map_iff in Hx. destruct Hx as (j & <- & _). cbn [snd]. qc_lra.
  - apply in_map_iff. eauto.
Qed.

Lemma eweight_total probs ptr1 : nonneg probs -> (forall i, In i (concat ptr1) -> i < length probs) ->
  (qsum (map (eweight probs (concat ptr1)) (concat ptr1)) <= qsum probs)%Qc /\
  (qsum (map (eweight probs (concat ptr1)) (concat ptr1)) = qsum probs <-> all_hit probs (concat ptr1)).
Proof.
  intros Hn Hb. destruct (prob_concat probs ptr1 (ones ptr1) (ones_lengths ptr1)) as (Q & HQ & _ & Hc).
  destruct (prob_total_iff_lemma probs ptr1 (ones ptr1) Q (ones_lengths ptr1) Hn Hb HQ) as [H1 H2].
  rewrite ones_concat, combine_app_eq in *. rewrite map_map in Hc. rewrite Hc in *.
  split; [exact H1|]. unfold eweight. rewrite H2. split; intros G i p Hi Hp; specialize (G i p Hi Hp).
  - rewrite number_total in G. apply qltb_true in G. rewrite qltb_qn in G. apply Nat.ltb_lt. exact G.
  - rewrite number_total. apply qltb_true. rewrite qltb_qn. apply Nat.ltb_lt. exact G.
Qed.

Lemma eweight_pos probs pts k p : In k pts -> nth_error probs k = Some p -> (0 < p)%Qc -> (0 < eweight probs pts k)%Qc.
Proof.
  intros Hk Hp Hpos. unfold eweight, share. cbn [fst snd]. rewrite Hp, number_total, qltb_qn.
  assert (0 < number_in pts k).
  { unfold number_in. assert (Hin : In k (filter (fun j => j =? k) pts)) by (apply filter_In; split; [exact Hk|apply Nat.eqb_refl]).
    destruct (filter _ _); [contradiction|simpl; lia]. }
  destruct (Nat.ltb_spec 0 (number_in pts k)); [|lia]. pose proof Hpos as Hq. apply qltb_true in Hq. rewrite Hq. cbn [andb].
  apply qc_div_pos; [|apply qn_pos; assumption]. qc_lra.
Qed.

Lemma transfer_emulated_hit probs num_new ptr1 ptr2 : same_lengths ptr1 ptr2 -> all_hit probs (concat ptr1) ->
  transfer_emulated probs num_new ptr1 ptr2 =
  Ok (map Fin (map (total_in (combine (concat ptr2) (map (eweight probs (concat ptr1)) (concat ptr1)))) (seq 0 num_new))).
Proof.
  intros H Hh. unfold transfer_emulated. rewrite spread_eq. apply warn_false in Hh. rewrite Hh.
  rewrite transfer_emulated_fin_tail by (apply map_same_lengths, same_lengths_sym; exact H).
  rewrite concat_map_map'. reflexivity.
Qed.

Lemma transfer_emulated_miss probs num_new ptr1 ptr2 : same_lengths ptr1 ptr2 -> ~ all_hit probs (concat ptr1) ->
  let total := qsum (map (eweight probs (concat ptr1)) (concat ptr1)) in total <> 0%Qc ->
  transfer_emulated probs num_new ptr1 ptr2 =
  Ok (map Fin (map (total_in (combine (concat ptr2) (map (fun k => eweight probs (concat ptr1) k / total)%Qc (concat ptr1)))) (seq 0 num_new))).
Proof.
  intros H Hh total Ht. unfold transfer_emulated. rewrite spread_eq.
  destruct (existsb _ _) eqn:E; [|apply warn_false in E; contradiction].
  assert (Htot : qsum (map qsum (map (map (eweight probs (concat ptr1))) ptr1)) = total).
  { rewrite <- qsum_concat, concat_map_map'. reflexivity. }
  rewrite Htot.
  replace (map (map (fun v => xdivq v total)) (map (map (eweight probs (concat ptr1))) ptr1))
    with (map (map Fin) (map (map (fun k => eweight probs (concat ptr1) k / total)%Qc) ptr1)).
  - rewrite transfer_emulated_fin_tail by (apply map_same_lengths, same_lengths_sym; exact H).
    rewrite concat_map_map'. reflexivity.
  - rewrite !map_map. apply map_ext. intros b. rewrite !map_map. apply map_ext. intros k. symmetry. apply xdivq_fin. exact Ht.
Qed.

Lemma transfer_emulated_lemma probs num_new ptr1 ptr2 : same_lengths ptr1 ptr2 -> nonneg probs ->
  (forall i, In i (concat ptr1) -> i < length probs) -> (forall i, In i (concat ptr2) -> i < num_new) ->
  (all_hit probs (concat ptr1) -> exists q, transfer_emulated probs num_new ptr1 ptr2 = Ok (map Fin q) /\
      nonneg q /\ length q = num_new /\ qsum q = qsum probs) /\
  (~ all_hit probs (concat ptr1) -> (exists i p, nth_error probs i = Some p /\ (0 < p)%Qc /\ 0 < number_in (concat ptr1) i) ->
      exists q, transfer_emulated probs num_new ptr1 ptr2 = Ok (map Fin q) /\
      nonneg q /\ length q = num_new /\ qsum q = 1%Qc).
Proof.
  intros H Hn Hb1 Hb2. destruct (eweight_total probs ptr1 Hn Hb1) as [_ Hiff].
  pose proof (same_lengths_concat _ _ H) as Hlen.
  assert (Hnn : forall f : nat -> Qc, (forall k, In k (concat ptr1) -> (0 <= f k)%Qc) ->
     nonneg (map (total_in (combine (concat ptr2) (map f (concat ptr1)))) (seq 0 num_new))).
  { intros f Hf x Hx. apply in_map_iff in Hx. destruct Hx as (i & <- & _). apply total_in_nonneg.
    intros [a b] He. apply in_combine_r in He. apply in_map_iff in He. destruct He as (k & <- & Hk). apply Hf. exact Hk. }
  assert (Hsum : forall f : nat -> Qc, qsum (map (total_in (combine (concat ptr2) (map f (concat ptr1)))) (seq 0 num_new)) = qsum (map f (concat ptr1))).
  { intros f. rewrite <- total_in_split.
    - rewrite combine_snd by (rewrite map_length; lia). reflexivity.
    - intros [a b] He. apply in_combine_l in He. apply Hb2. exact He. }
  split.
  - intros Hh. eexists. split; [apply transfer_emulated_hit; assumption|]. split; [|split].
    + apply Hnn. apply eweight_nonneg.
    + rewrite map_length, seq_length. reflexivity.
    + rewrite Hsum. apply Hiff. exact Hh.
  - intros Hh (i & p & Hi & Hp & Hni).
    assert (Hin : In i (concat ptr1)).
    { unfold number_in in Hni. destruct (filter (fun k => k =? i) (concat ptr1)) as [|k r] eqn:E; [simpl in Hni; lia|].
      assert (Hk : In k (filter (fun k => k =? i) (concat ptr1))) by (rewrite E; left; reflexivity).
      apply filter_In in Hk. destruct Hk as [Hk Hki]. apply Nat.eqb_eq in Hki. subst k. exact Hk. }
    assert (Ht : (0 < qsum (map (eweight probs (concat ptr1)) (concat ptr1)))%Qc).
    { eapply Qclt_le_trans; [eapply eweight_pos; eauto|]. apply qsum_ge_elem.
      - intros y Hy. apply in_map_iff in Hy. destruct Hy as (k & <- & Hk). apply eweight_nonneg. exact Hk.
      - apply in_map_iff. eauto. }
    eexists. split; [apply transfer_emulated_miss; [assumption|assumption|apply Qclt_neq0; exact Ht]|]. split; [|split].
    + apply Hnn. intros k Hk. apply qc_div_nonneg; [apply eweight_nonneg; exact Hk|exact Ht].
    + rewrite map_length, seq_length. reflexivity.
    + rewrite Hsum, qsum_map_div. unfold Qcdiv. apply Qcmult_inv_r. apply Qclt_neq0. exact Ht.
Qed.

Lemma transfer_emulated_split probs num_new ptr1 ptr2 ptr1' ptr2' :
  same_lengths ptr1 ptr2 -> same_lengths ptr1' ptr2' -> concat ptr1 = concat ptr1' -> concat ptr2 = concat ptr2' ->
  transfer_emulated probs num_new ptr1 ptr2 = transfer_emulated probs num_new ptr1' ptr2'.
Proof.
  intros H H' E1 E2. unfold transfer_emulated. rewrite !spread_eq, <- E1.
  assert (Htot : qsum (map qsum (map (map (eweight probs (concat ptr1))) ptr1)) = qsum (map qsum (map (map (eweight probs (concat ptr1))) ptr1'))).
  { rewrite <- !qsum_concat, !concat_map_map', E1. reflexivity. }
  rewrite <- Htot. clear Htot.
  set (w := existsb _ _). set (tot := qsum (map qsum _)). clearbody tot w.
  assert (Hx : forall f : nat -> xnum, forall i, 
     forall p1 p2, same_lengths p1 p2 ->
     xsum (map (xlocal_sum i) (zipped p2 (map (map f) p1))) =
     xlocal_sum i (combine (concat p2) (map f (concat p1)))).
  { intros f i p1 p2 G. induction G as [|a b as' bs Hab G IH]; [reflexivity|].
    cbn [map zipped combine concat]. unfold zipped in *. cbn [combine map fst snd xsum fold_right]. fold (xsum (map (xlocal_sum i) (map (fun pv => combine (fst pv) (snd pv)) (combine bs (map (map f) as'))))).
    rewrite IH, map_app.
    assert (combine (b ++ concat bs) (map f a ++ map f (concat as')) = combine b (map f a) ++ combine (concat bs) (map f (concat as'))) as ->.
    { clear -Hab. revert b Hab. induction a as [|x a IHa]; intros [|y b] Hab; simpl in *; try discriminate; [reflexivity|]. f_equal. apply IHa. lia. }
    unfold xlocal_sum. rewrite filter_app, map_app. generalize (map snd (filter (fun e : nat * xnum => fst e =? i) (combine b (map f a)))) as l.
    intros l. generalize (map snd (filter (fun e : nat * xnum => fst e =? i) (combine (concat bs) (map f (concat as'))))) as m. intros m.
    unfold xsum. rewrite fold_right_app. generalize (fold_right xadd (Fin 0) m). intros z.
    assert (Ha : forall x y z, xadd (xadd x y) z = xadd x (xadd y z)).
    { intros [] [] []; simpl; try reflexivity. f_equal. ring. }
    induction l as [|x l IHl]; simpl.
    - destruct z; simpl; try reflexivity. f_equal. ring.
    - rewrite <- IHl. rewrite Ha. reflexivity. }
  assert (Hg : forall f : nat -> xnum, forall p1 p2, same_lengths p1 p2 ->
     bind (zip_blocks p2 (map (map f) p1)) (fun blocks => Ok (map (fun i => xsum (map (xlocal_sum i) blocks)) (seq 0 num_new))) =
     Ok (map (fun i => xlocal_sum i (combine (concat p2) (map f (concat p1)))) (seq 0 num_new))).
  { intros f p1 p2 G. rewrite (zip_blocks_ok _ _ (map_same_lengths f _ _ (same_lengths_sym _ _ G))). cbn [bind]. f_equal.
    apply map_ext. intros i. apply Hx. exact G. }
  assert (Hem : forall p1, (if w then map (map (fun v => xdivq v tot)) (map (map (eweight probs (concat ptr1))) p1)
                            else map (map Fin) (map (map (eweight probs (concat ptr1))) p1)) =
      map (map (fun k => if w then xdivq (eweight probs (concat ptr1) k) tot else Fin (eweight probs (concat ptr1) k))) p1).
  { intros p1. destruct w; rewrite map_map; apply map_ext; intros b; rewrite map_map; reflexivity. }
  rewrite !Hem, (Hg _ _ _ H), (Hg _ _ _ H'), E1, E2. reflexivity.
Qed.

Lemma xadd_nan_r x : xadd x NaN = NaN.
Proof. destruct x; reflexivity. Qed.
Lemma xsum_nan l : In NaN l -> xsum l = NaN.
Proof.
  induction l as [|x l IH]; simpl; [tauto|]. intros [->|H]; [reflexivity|]. rewrite (IH H). apply xadd_nan_r.
Qed.

Lemma transfer_emulated_none_hit probs num_new ptr1 ptr2 q : same_lengths ptr1 ptr2 ->
  (exists p, In p probs /\ (0 < p)%Qc) ->
  (forall i p, nth_error probs i = Some p -> (0 < p)%Qc -> number_in (concat ptr1) i = 0) ->
  transfer_emulated probs num_new ptr1 ptr2 = Ok q ->
  forall i, i < num_new -> 0 < number_in (concat ptr2) i -> nth_error q i = Some NaN.
Proof.
  intros H (p & Hp & Hpos) Hno Hq i Hi Hin. unfold transfer_emulated in Hq. rewrite spread_eq in Hq.
  destruct (existsb _ _) eqn:E.
  2:{ apply warn_false in E. apply In_nth_error in Hp. destruct Hp as [k Hk]. specialize (E _ _ Hk Hpos).
      rewrite (Hno _ _ Hk Hpos) in E. lia. }
  assert (Hw : forall k, eweight probs (concat ptr1) k = 0%Qc).
  { intros k. unfold eweight, share. cbn [fst snd]. destruct (nth_error probs k) as [pk|] eqn:Ek; [|reflexivity].
    destruct (qltb_spec 0 pk) as [Hpk|]; [|reflexivity]. rewrite number_total, (Hno _ _ Ek Hpk), qltb_qn. reflexivity. }
  assert (Hx : map (map (fun v => xdivq v (qsum (map qsum (map (map (eweight probs (concat ptr1))) ptr1))))) (map (map (eweight probs (concat ptr1))) ptr1)
               = map (map (fun _ => NaN)) ptr1).
  { assert (qsum (map qsum (map (map (eweight probs (concat ptr1))) ptr1)) = 0%Qc) as ->.
    { rewrite <- qsum_concat, concat_map_map'. apply qsum_map_zero. intros. apply Hw. }
    rewrite map_map. apply map_ext. intros b. rewrite map_map. apply map_ext. intros k. rewrite Hw. reflexivity. }
  rewrite Hx in Hq. rewrite (zip_blocks_ok _ _ (map_same_lengths _ _ _ (same_lengths_sym _ _ H))) in Hq. cbn [bind] in Hq.
  injection Hq as <-. rewrite nth_error_map, nth_error_seq. destruct (Nat.ltb_spec i num_new); [|lia]. cbn [option_map Nat.add].
  f_equal. apply xsum_nan.
  assert (G : exists b, In b ptr2 /\ In i b).
  { unfold number_in in Hin. destruct (filter (fun k => k =? i) (concat ptr2)) as [|k r] eqn:Ef; [simpl in Hin; lia|].
    assert (Hk : In k (filter (fun k => k =? i) (concat ptr2))) by (rewrite Ef; left; reflexivity).
    apply filter_In in Hk. destruct Hk as [Hk Hki]. apply Nat.eqb_eq in Hki. subst k. apply in_concat in Hk. destruct Hk as (b & Hb & Hib). eauto. }
  destruct G as (b & Hb & Hib). clear -H Hb Hib.
  induction H as [|x y xs ys Hl H IH]; simpl in Hb; [contradiction|]. unfold zipped. simpl.
  destruct Hb as [->|Hb]; [left|right; apply IH; exact Hb].
  unfold xlocal_sum. apply xsum_nan. apply in_map_iff. exists (i, NaN). split; [reflexivity|].
  apply filter_In. split; [|apply Nat.eqb_refl].
  clear -Hl Hib. revert x Hl. induction b as [|k b IH]; intros [|a x] Hl; simpl in *; try discriminate; [contradiction|].
  destruct Hib as [->|Hib]; [left; reflexivity|right; apply IH; [exact Hib|lia]].
Qed.

Lemma prob_total_witness : exists probs ptrs vols Q,
  same_lengths ptrs vols /\ nonneg probs /\ nonneg (concat vols) /\ qsum probs = 1%Qc /\
  (forall i, In i (concat ptrs) -> i < length probs) /\
  prob probs ptrs vols = Ok Q /\ qsum (concat Q) <> 1%Qc.
Proof.
  exists [Q2Qc (1 # 2); Q2Qc (1 # 2)], [[0]], [[1%Qc]], [[Q2Qc (1 # 2)]].
  split; [repeat constructor|]. split; [intros x [<-|[<-|[]]]; now apply qleb_true|].
  split; [intros x [<-|[]]; now apply qleb_true|]. split; [qc_compute|]. split; [intros i [<-|[]]; simpl; lia|].
  split; [qc_compute|]. apply qeqb_false. reflexivity.
Qed.
