From Coq Require Import List Arith Bool QArith Qcanon Lia.
From Verif Require Import Err Util_Model Util_Spec Util_Proofs Given_Model Given_Spec.
Import ListNotations.
Local Open Scope nat_scope.

Lemma plain_2d v : plain v -> exists n m, shape (as_2d v) = [n; m].
Proof.
  intros [V L]. unfold as_2d. destruct (shape (to_array v)) as [|a [|b [|]]] eqn:E; cbn in *; try lia; eauto.
Qed.
Lemma fix_plain v d n m : plain v -> shape (as_2d v) = [n; m] ->
  fix_dimensions_data v (Some d) = Ok (if m =? d then as_2d v else transpose (as_2d v)) /\ well_formed (as_2d v).
Proof. intros [V L] Hs. exact (fix_data_cases v n m d V Hs L). Qed.

(** What is stored for given points has them in rows. *)
Lemma given_rows v d pts : plain v -> given v d pts -> exists a, fix_dimensions_data v (Some d) = Ok a /\ in_rows a d pts.
Proof.
  intros Hp [H|[H N]].
  - destruct H as (W & Hs & H). destruct (fix_plain v d _ _ Hp Hs) as [F _]. rewrite Nat.eqb_refl in F.
    exists (as_2d v). split; [exact F|]. now split.
  - destruct H as (W & Hs & H). destruct (fix_plain v d _ _ Hp Hs) as [F _].
    destruct (Nat.eqb_spec (length pts) d); [contradiction|]. exists (transpose (as_2d v)). split; [exact F|].
    destruct (transpose_2 _ _ _ W Hs) as [S' T]. split; [apply transpose_wf|]. split; [exact S'|].
    intros i p Hi. destruct (H i p Hi) as [Hl He]. split; [exact Hl|]. intros j Hj. rewrite T. now apply He.
Qed.
Lemma entry2_total a n m i j : well_formed a -> shape a = [n; m] -> i < n -> j < m -> entry2 a i j = Some (nth (i * m + j) (data a) 0%Qc).
Proof.
  intros W Hs Hi Hj. unfold entry2. rewrite Hs. apply Nat.ltb_lt in Hi as Bi. apply Nat.ltb_lt in Hj as Bj. rewrite Bi, Bj. cbn.
  apply nth_error_nth'. unfold well_formed in W. rewrite W, Hs. cbn. nia.
Qed.
(** Every input that fits gives points. *)
Lemma fitting v d n m : plain v -> shape (as_2d v) = [n; m] -> n = d \/ m = d -> exists pts, given v d pts.
Proof.
  intros Hp Hs Hd. destruct (fix_plain v d n m Hp Hs) as [_ W]. destruct (Nat.eq_dec m d) as [->|Hm].
  - exists (map (fun i => map (fun j => nth (i * d + j) (data (as_2d v)) 0%Qc) (seq 0 d)) (seq 0 n)). left.
    split; [exact W|]. split; [now rewrite map_length, seq_length|]. intros i p Hi.
    rewrite nth_error_map in Hi. destruct (nth_error (seq 0 n) i) as [k|] eqn:Ek; [|discriminate]. injection Hi as <-.
    assert (Hi : i < n) by (apply nth_error_Some_length in Ek || (rewrite <- (seq_length n 0); apply nth_error_Some; congruence); trivial).
    assert (k = i) as -> by (rewrite (nth_error_nth' (seq 0 n) 0) in Ek by (rewrite seq_length; lia); rewrite seq_nth in Ek by lia; injection Ek; lia).
    split; [now rewrite map_length, seq_length|]. intros j Hj. rewrite (entry2_total _ n d i j W Hs Hi Hj).
    rewrite nth_error_map, (nth_error_nth' (seq 0 d) 0), seq_nth by (rewrite ?seq_length; lia). reflexivity.
  - destruct Hd as [->|Hd]; [|congruence].
    exists (map (fun i => map (fun j => nth (j * m + i) (data (as_2d v)) 0%Qc) (seq 0 d)) (seq 0 m)). right.
    split; [|now rewrite map_length, seq_length].
    split; [exact W|]. split; [now rewrite map_length, seq_length|]. intros i p Hi.
    rewrite nth_error_map in Hi. destruct (nth_error (seq 0 m) i) as [k|] eqn:Ek; [|discriminate]. injection Hi as <-.
    assert (Hi : i < m) by (rewrite <- (seq_length m 0); apply nth_error_Some; congruence).
    assert (k = i) as -> by (rewrite (nth_error_nth' (seq 0 m) 0) in Ek by (rewrite seq_length; lia); rewrite seq_nth in Ek by lia; injection Ek; lia).
    split; [now rewrite map_length, seq_length|]. intros j Hj. rewrite (entry2_total _ d m j i W Hs Hj Hi).
    rewrite nth_error_map, (nth_error_nth' (seq 0 d) 0), seq_nth by (rewrite ?seq_length; lia). reflexivity.
Qed.
Lemma given_fits v d pts n m : given v d pts -> shape (as_2d v) = [n; m] -> n = d \/ m = d.
Proof. intros [(_ & Hs & _)|[(_ & Hs & _) _]] H; rewrite H in Hs; injection Hs; auto. Qed.

Lemma set_lemma v s pts : plain v -> given v (g_dim s) pts ->
  exists a, g_set_values v s = (mk_gset (g_dim s) (Some a), None) /\ in_rows a (g_dim s) pts.
Proof.
  intros Hp Hg. destruct (given_rows v _ pts Hp Hg) as (a & F & H). exists a. split; [|exact H].
  unfold g_set_values. rewrite F. destruct H as (_ & Hs & _). unfold second_axis. rewrite Hs, Nat.eqb_refl. reflexivity.
Qed.
Lemma misfit_lemma v s : plain v -> misfit v (g_dim s) ->
  exists a, g_set_values v s = (mk_gset (g_dim s) (Some a), Some DimNotMatching) /\ second_axis a <> g_dim s.
Proof.
  intros Hp (n & m & Hs & Hn & Hm). destruct (fix_plain v (g_dim s) n m Hp Hs) as [F W].
  destruct (Nat.eqb_spec m (g_dim s)); [contradiction|]. exists (transpose (as_2d v)). unfold g_set_values. rewrite F.
  destruct (transpose_2 _ _ _ W Hs) as [S' _]. unfold second_axis. rewrite S'. split; [|exact Hn].
  destruct (Nat.eqb_spec n (g_dim s)); [contradiction|reflexivity].
Qed.
Lemma accepted_iff v s : plain v -> (snd (g_set_values v s) = None <-> exists pts, given v (g_dim s) pts).
Proof.
  intros Hp. split.
  - intros H. destruct (plain_2d v Hp) as (n & m & Hs).
    destruct (Nat.eq_dec n (g_dim s)) as [E|Hn]; [exact (fitting v _ n m Hp Hs (or_introl E))|].
    destruct (Nat.eq_dec m (g_dim s)) as [E|Hm]; [exact (fitting v _ n m Hp Hs (or_intror E))|].
    destruct (misfit_lemma v s Hp) as (a & H' & _); [now exists n, m|]. rewrite H' in H. discriminate.
  - intros (pts & Hg). destruct (set_lemma v s pts Hp Hg) as (a & -> & _). reflexivity.
Qed.

Lemma append_rows a b d p q : in_rows a d p -> in_rows b d q ->
  exists c, concatenate0 a b = Ok c /\ in_rows c d (p ++ q).
Proof.
  intros (Wa & Sa & Ha) (Wb & Sb & Hb). unfold concatenate0. rewrite Sa, Sb. cbn. rewrite Nat.eqb_refl. cbn.
  eexists. split; [reflexivity|]. unfold well_formed in *. rewrite Sa in Wa. rewrite Sb in Wb. cbn in Wa, Wb.
  split; [unfold well_formed; cbn; rewrite ?app_length; nia|]. split; [cbn; now rewrite app_length|].
  intros i x Hi. destruct (Nat.lt_ge_cases i (length p)) as [L|L].
  - rewrite nth_error_app1 in Hi by exact L. destruct (Ha i x Hi) as [Hl He]. split; [exact Hl|]. intros j Hj.
    rewrite <- He by exact Hj. unfold entry2. cbn [shape data]. rewrite Sa.
    replace (i <? length p + length q) with true by (symmetry; apply Nat.ltb_lt; lia).
    replace (i <? length p) with true by (symmetry; apply Nat.ltb_lt; lia). destruct (j <? d); [|reflexivity]. cbn [andb].
    apply nth_error_app1. nia.
  - rewrite nth_error_app2 in Hi by exact L. assert (L2 : i - length p < length q) by (apply nth_error_Some; congruence).
    destruct (Hb _ x Hi) as [Hl He]. split; [exact Hl|]. intros j Hj.
    rewrite <- He by exact Hj. unfold entry2. cbn [shape data]. rewrite Sb.
    replace (i <? length p + length q) with true by (symmetry; apply Nat.ltb_lt; lia).
    replace (i - length p <? length q) with true by (symmetry; apply Nat.ltb_lt; lia). destruct (j <? d); [|reflexivity]. cbn [andb].
    rewrite nth_error_app2 by nia. f_equal. nia.
Qed.

Lemma gdim_step s c : g_dim (fst (gstep s c)) = g_dim s.
Proof.
  destruct c; cbn; unfold g_set_values, g_append_values; destruct (fix_dimensions_data _ _); try reflexivity.
  destruct (g_values s) as [b|]; [|reflexivity]. now destruct (concatenate0 b a).
Qed.
Definition agrees (d : nat) (o : option (list point)) (s : gset) : Prop :=
  g_dim s = d /\ match o with None => g_values s = None | Some pts => exists a, g_values s = Some a /\ in_rows a d pts end.
Lemma gscript_app h1 h2 s : gscript s (h1 ++ h2) =
  match gscript s h1 with (t, None) => gscript t h2 | (t, Some e) => (t, Some e) end.
Proof.
  revert s. induction h1 as [|c h1 IH]; intros s; [reflexivity|]. cbn [gscript app].
  destruct (gstep s c) as [t [e|]]; [reflexivity|]. apply IH.
Qed.
Lemma step_agrees d o s c p t : agrees d o s -> plain (argument c) -> given (argument c) d p -> gstep s c = (t, None) ->
  agrees d (match c with GSet _ => Some p | GAppend _ => option_map (fun q => q ++ p) o end) t.
Proof.
  intros [Hd Ho] Hp Hg H. destruct c as [v|v]; cbn in *.
  - rewrite <- Hd in Hg. destruct (set_lemma v s p Hp Hg) as (a & E & Ha). rewrite E in H. injection H as <-.
    split; [exact Hd|]. exists a. split; [reflexivity|]. now rewrite <- Hd.
  - unfold g_append_values in H. rewrite Hd in H. destruct (given_rows v d p Hp Hg) as (b & F & Hb). rewrite F in H.
    destruct o as [q|]; cbn in *.
    + destruct Ho as (a & Ea & Ha). rewrite Ea in H. destruct (append_rows a b d q p Ha Hb) as (c & Ec & Hc). rewrite Ec in H.
      injection H as <-. split; [reflexivity|]. exists c. now split.
    + rewrite Ho in H. discriminate.
Qed.
Lemma history_lemma d : forall h pl s, gscript (new_gset d) h = (s, None) ->
  Forall (fun c => plain (argument c)) h -> Forall2 (fun c p => given (argument c) d p) h pl ->
  agrees d (samples_by (rev (combine h pl))) s.
Proof.
  induction h as [|c h IH] using rev_ind; intros pl s H Hp Hg.
  - cbn in H. injection H as <-. inversion Hg; subst. now split.
  - apply Forall_app in Hp. destruct Hp as [Hp Hc]. inversion Hc; subst.
    destruct (Forall2_app_inv_l _ _ Hg) as (pl1 & pl2 & G1 & G2 & ->). inversion G2 as [|? p ? ? Gc G3]; subst. inversion G3; subst.
    rewrite gscript_app in H. destruct (gscript (new_gset d) h) as [t [e|]] eqn:Et; [discriminate|].
    assert (Hl : length h = length pl1) by (clear - G1; induction G1; cbn; congruence).
    assert (Ec : combine (h ++ [c]) (pl1 ++ [p]) = combine h pl1 ++ [(c, p)]).
    { clear - Hl. revert pl1 Hl. induction h as [|x h IH]; intros [|y pl1] Hl; try discriminate; [reflexivity|]. cbn in *. f_equal. apply IH. lia. }
    rewrite Ec, rev_app_distr. cbn [rev app]. cbn [gscript] in H. destruct (gstep t c) as [u [e|]] eqn:Eu; [discriminate|]. injection H as <-.
    pose proof (step_agrees d _ t c p u (IH _ t eq_refl Hp G1) H2 Gc Eu) as A. destruct c; exact A.
Qed.
Lemma append_fail v s e t : g_append_values v s = (t, Some e) -> t = s.
Proof.
  unfold g_append_values. destruct (fix_dimensions_data _ _); [|congruence]. destruct (g_values s) as [b|]; [|congruence]. destruct (concatenate0 b a); congruence.
Qed.
Lemma append_ok v s q p : plain v -> given v (g_dim s) p -> (exists a, g_values s = Some a /\ in_rows a (g_dim s) q) ->
  exists c, g_append_values v s = (mk_gset (g_dim s) (Some c), None) /\ in_rows c (g_dim s) (q ++ p).
Proof.
  intros Hp Hg (a & Ea & Ha). destruct (given_rows v _ p Hp Hg) as (b & F & Hb). destruct (append_rows a b _ q p Ha Hb) as (c & Ec & Hc).
  exists c. split; [|exact Hc]. unfold g_append_values. now rewrite F, Ea, Ec.
Qed.
Lemma append_misfit v s q : plain v -> misfit v (g_dim s) -> (exists a, g_values s = Some a /\ in_rows a (g_dim s) q) ->
  g_append_values v s = (s, Some PyValueError).
Proof.
  intros Hp (n & m & Hs & Hn & Hm) (a & Ea & (_ & Sa & _)). destruct (fix_plain v (g_dim s) n m Hp Hs) as [F W].
  destruct (Nat.eqb_spec m (g_dim s)); [contradiction|]. unfold g_append_values. rewrite F, Ea. unfold concatenate0.
  destruct (transpose_2 _ _ _ W Hs) as [S' _]. rewrite Sa, S'. cbn. destruct (Nat.eqb_spec (g_dim s) n); [congruence|reflexivity].
Qed.

(** Orientation. *)
Lemma either_way a s n m : well_formed a -> shape a = [n; m] -> n <> m -> n = g_dim s \/ m = g_dim s ->
  g_set_values (PyArr (transpose a)) s = g_set_values (PyArr a) s.
Proof.
  intros W Hs Hnm Hd. destruct (transpose_2 a n m W Hs) as [S' _].
  unfold g_set_values, fix_dimensions_data, fix_dimensions_vector_2darray. cbn [to_array]. rewrite Hs, S'. cbn [length Nat.leb bind]. rewrite Hs, S'.
  destruct (Nat.eqb_spec m (g_dim s)) as [E|E]; destruct (Nat.eqb_spec n (g_dim s)) as [E2|E2]; try lia; [|reflexivity].
  rewrite transpose_twice by (trivial; now rewrite Hs). reflexivity.
Qed.
Lemma square_lemma a s : well_formed a -> shape a = [g_dim s; g_dim s] ->
  g_set_values (PyArr a) s = (mk_gset (g_dim s) (Some a), None) /\
  g_set_values (PyArr (transpose a)) s = (mk_gset (g_dim s) (Some (transpose a)), None).
Proof.
  intros W Hs. destruct (transpose_2 a _ _ W Hs) as [S' _].
  unfold g_set_values, fix_dimensions_data, fix_dimensions_vector_2darray. cbn [to_array]. rewrite Hs, S'. cbn [length Nat.leb bind]. rewrite Hs, S'.
  rewrite Nat.eqb_refl. unfold second_axis. now rewrite Hs, S', Nat.eqb_refl.
Qed.
