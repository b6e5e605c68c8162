From Coq Require Import List Arith Bool QArith Qcanon Permutation Lia.
From Verif Require Import Err Num NumPy Lists SampleSet_Model SampleSet_Spec SampleSet_Proofs Prob_Model Disc_Model Disc_Spec.
Import ListNotations.
Local Open Scope nat_scope.

Lemma bind_ok {A B} (r : result A) (f : A -> result B) y : bind r f = Ok y -> exists x, r = Ok x /\ f x = Ok y.
Proof. destruct r; simpl; [eauto | discriminate]. Qed.
Ltac inv_bind H :=
  let x := fresh "x" in let E := fresh "E" in
  apply bind_ok in H; destruct H as (x & E & H).

Section Proofs.
Context {R : Type}.
Implicit Types (s t u : sset R) (d e : disc R).

Lemma need_ok {A} (o : option A) x : need o = Ok x -> o = Some x.
Proof. destruct o; simpl; congruence. Qed.

Lemma ready_count P s n : ready P s n -> check_num P s = Ok n.
Proof.
  intros [(HA & v & GV & TV) _]. apply check_num_ok; [exists Values, v; exact GV|]. split; [exact HA|].
  intros x Gx. rewrite GV in Gx. injection Gx as <-. exists []. exact TV.
Qed.

Lemma array_split_lengths {A} (l : list A) P : 0 < P ->
  map (@length A) (array_split l P) = map (fun r => length l / P + if r <? length l mod P then 1 else 0) (seq 0 P).
Proof.
  intro HP. apply nth_error_ext. intro i. rewrite !nth_error_map, nth_error_seq.
  destruct (Nat.ltb_spec i P) as [Hi|Hi]; simpl.
  - rewrite (nth_error_nth' _ [] (ltac:(rewrite array_split_length by exact HP; exact Hi))). simpl.
    rewrite array_split_nth_length by exact Hi. reflexivity.
  - rewrite (proj2 (nth_error_None _ _)); [reflexivity|]. rewrite array_split_length; lia.
Qed.

(** *** localized *)
Lemma localized_blocks P s n x : 0 < P -> ready P s n -> glob s Values = Some x ->
  exists s1 bs, localized P s = Ok s1 /\ loc s1 Values = Some bs /\ length bs = P /\
   concat (map rows bs) = rows x /\ map (fun b => length (rows b)) bs = rank_rows P s n /\
   (forall b, In b bs -> tail_shape b = [dim s]) /\
   glob s1 = glob s /\ dim s1 = dim s /\ kd s1 = kd s /\ ready P s1 n.
Proof.
  intros HP [(HA & v & GV & TV) HL] Gx. rewrite GV in Gx. injection Gx as ->.
  unfold localized, rank_rows. destruct (loc s Values) as [bs|] eqn:L.
  - destruct (HL ltac:(congruence) x GV) as (bs' & L' & (B1 & B2 & B3) & T).
    rewrite L in L'. injection L' as <-. exists s, bs.
    rewrite map_length in B1. repeat (split; [solve [auto]|]). split; [intros b Hb; rewrite (T b Hb); exact TV|].
    repeat (split; [solve [auto]|]). split; [split; [exact HA | eauto]|]. intros _. intros y Gy.
    rewrite GV in Gy. injection Gy as <-. exists bs. repeat split; auto. now rewrite map_length.
  - assert (C : check_num P s = Ok n).
    { apply ready_count. split; [split; [exact HA | eauto]|]. congruence. }
    destruct (global_to_local P s) as [s1|e] eqn:H1; [|unfold global_to_local in H1; rewrite C in H1; discriminate].
    destruct (g2l_inv _ _ _ H1) as (m & _ & Eg & Ed & Ek & _ & _ & _ & El).
    exists s1, (split_arr P x). split; [reflexivity|]. split; [rewrite El, GV; reflexivity|].
    split; [apply split_arr_length, HP|]. split; [rewrite split_arr_rows; apply array_split_concat, HP|].
    split. { rewrite <- (HA _ _ GV), <- (array_split_lengths (rows x) P HP), <- split_arr_rows, map_map. reflexivity. }
    split; [intros b Hb; rewrite (split_arr_tail _ _ _ Hb); exact TV|].
    repeat (split; [assumption|]). split.
    + split; [intros a y Gy; rewrite Eg in Gy; exact (HA a y Gy)|]. exists x. rewrite Eg, Ed. auto.
    + intros _. exact (global_to_local_local_is_split P s s1 HP H1 Values).
Qed.

Lemma localized_inv P s s1 : localized P s = Ok s1 ->
  glob s1 = glob s /\ dim s1 = dim s /\ kd s1 = kd s /\ domain s1 = domain s.
Proof.
  unfold localized. destruct (loc s Values).
  - intros [= <-]. auto.
  - intro H. destruct (g2l_inv _ _ _ H) as (m & _ & Eg & Ed & Ek & D & _). auto.
Qed.

(** *** C57: clip *)
Lemma clip_disc_spec P c d inp out n : 0 < P -> d_in d = Some inp -> d_out d = Some out ->
  valid_set inp n -> valid_set out n ->
  exists d' i' o', clip_disc P c d = Ok d' /\ d_in d' = Some i' /\ d_out d' = Some o' /\
    valid_set i' (Nat.min c n) /\ valid_set o' (Nat.min c n) /\
    (forall a b x y, a <> KdtreeValues -> b <> KdtreeValues -> glob inp a = Some x -> glob out b = Some y ->
       exists x' y', glob i' a = Some x' /\ glob o' b = Some y' /\
       combine (rows x') (rows y') = firstn c (combine (rows x) (rows y))) /\
    d_prob d' = d_prob d /\ d_ein d' = d_ein d /\ d_eout d' = d_eout d /\ io_loc d' = None /\ io d' = None.
Proof.
  intros HP Hi Ho Vi Vo. unfold clip_disc. rewrite Hi, Ho. simpl.
  destruct (clip_spec P c inp n HP Vi) as (i' & Ei & Di & Gi & _ & Vi' & _).
  destruct (clip_spec P c out n HP Vo) as (o' & Eo & Do & Go & _ & Vo' & _).
  rewrite Ei. simpl. rewrite Eo. simpl.
  assert (Ci : check_num P i' = Ok (Nat.min c n)).
  { destruct Vi' as (HA & v & GV & TV). apply check_num_ok; [exists Values, v; exact GV|]. split; [exact HA|].
    intros x Gx. rewrite GV in Gx. injection Gx as <-. exists []. exact TV. }
  assert (Co : check_num P o' = Ok (Nat.min c n)).
  { destruct Vo' as (HA & v & GV & TV). apply check_num_ok; [exists Values, v; exact GV|]. split; [exact HA|].
    intros x Gx. rewrite GV in Gx. injection Gx as <-. exists []. exact TV. }
  unfold new_disc, check_nums. simpl. rewrite Co. simpl. rewrite Ci. simpl. rewrite Nat.eqb_refl.
  destruct Vi' as (HAi & vi & GVi & TVi), Vo' as (HAo & vo & GVo & TVo). rewrite GVi, GVo. simpl.
  eexists _, i', o'. split; [reflexivity|]. simpl. split; [reflexivity|]. split; [reflexivity|].
  split; [split; eauto|]. split; [split; eauto|]. split; [|auto 10].
  intros a b x y Ha Hb Gx Gy. rewrite (Gi a Ha), (Go b Hb), Gx, Gy. simpl.
  do 2 eexists. split; [reflexivity|]. split; [reflexivity|]. simpl. symmetry. apply combine_firstn.
Qed.

(** *** C57: merge *)
Lemma concat_blocks_inv (xs ys zs : list (arr R)) : concat_blocks xs ys = Ok zs ->
  length xs = length ys /\ map rows zs = map (fun p => fst p ++ snd p) (combine (map rows xs) (map rows ys)) /\
  (forall ts, (forall b, In b xs -> tail_shape b = ts) -> forall b, In b zs -> tail_shape b = ts).
Proof.
  revert ys zs; induction xs as [|x xs IH]; intros [|y ys] zs H; simpl in H; try discriminate.
  - injection H as <-. repeat split; auto.
  - inv_bind H. inv_bind H. injection H as <-. unfold concat_arr in E. destruct shape_eq_dec; [|discriminate].
    injection E as <-. destruct (IH _ _ E0) as (L & M & T). simpl. repeat split; [lia | now rewrite M |].
    intros ts Hts b [<-|Hb]; [exact (Hts x (or_introl eq_refl)) | apply (T ts); [intros c Hc; apply Hts; right; exact Hc | exact Hb]].
Qed.

Lemma merge_inv P s t u : merge P s t = Ok u -> exists s1 t1 xs ys,
  localized P s = Ok s1 /\ localized P t = Ok t1 /\ loc s1 Values = Some xs /\ loc t1 Values = Some ys /\
  length xs = length ys /\ dim u = dim s /\ kd u = None /\
  (exists zs, loc u Values = Some zs /\ map rows zs = map (fun p => fst p ++ snd p) (combine (map rows xs) (map rows ys)) /\
     (forall b, In b zs -> tail_shape b = [dim u]) /\
     glob u Values = Some (mk_arr (concat (map rows zs)) [dim u])) /\
  (forall a, a <> Values -> glob u a = None /\ loc u a = None).
Proof.
  unfold merge. destruct (Nat.eqb_spec (dim s) (dim t)) as [Hd|]; [|discriminate]. simpl negb. cbv iota.
  intro H. inv_bind H. cbv zeta in H. inv_bind H. inv_bind H. inv_bind H. inv_bind H. inv_bind H. inv_bind H.
  rename x0 into s1, x1 into t1, x2 into xs, x3 into ys, x4 into zs, x5 into m1.
  exists s1, t1, xs, ys. split; [exact E0|]. split; [exact E1|].
  unfold loc_values in E2, E3. destruct (loc s1 Values) as [xs'|]; [|discriminate]. injection E2 as ->.
  destruct (loc t1 Values) as [ys'|]; [|discriminate]. injection E3 as ->.
  destruct (concat_blocks_inv _ _ _ E4) as (L & M & _).
  unfold set_values_local in E5. destruct (forallb _ zs) eqn:F; [|discriminate]. injection E5 as <-.
  rewrite forallb_forall in F. simpl in F.
  assert (T : forall b, In b zs -> tail_shape b = [dim s]).
  { intros b Hb. specialize (F b Hb). destruct shape_eq_dec; congruence. }
  destruct (local_to_global_spec _ _ H) as (U1 & U2 & _ & U4 & _ & _ & U7).
  simpl in U1, U2, U4. repeat (split; [solve [auto]|]). split.
  - exists zs. rewrite U2. split; [reflexivity|]. split; [exact M|]. rewrite U1. split; [exact T|].
    specialize (U7 Values). simpl in U7. destruct U7 as (g & Hg & ->).
    destruct zs as [|z zs]; [discriminate|]. rewrite (gather_same _ [dim s]) in Hg by (try discriminate; exact T).
    congruence.
  - intros a Ha. specialize (U7 a). rewrite U2. simpl in U7 |- *.
    rewrite (upd_other _ Values a _ Ha) in U7. rewrite (upd_other _ Values a _ Ha). auto.
Qed.

Lemma combine_app {A B} (a a' : list A) (b b' : list B) : length a = length b ->
  combine (a ++ a') (b ++ b') = combine a b ++ combine a' b'.
Proof. revert b; induction a as [|x a IH]; intros [|y b] H; simpl in *; try discriminate; [reflexivity|]. rewrite IH by lia. reflexivity. Qed.

(** Pairs of four block lists with equal row counts on every rank. *)
Lemma interleaved_pairs {A B} (xs ys : list (list A)) (us vs : list (list B)) :
  length xs = length ys -> map (@length A) xs = map (@length B) us -> map (@length A) ys = map (@length B) vs ->
  let app2 := fun {T} (a b : list (list T)) => concat (map (fun p => fst p ++ snd p) (combine a b)) in
  length (app2 xs ys) = length (app2 us vs) /\
  Permutation (combine (app2 xs ys) (app2 us vs)) (combine (concat xs) (concat us) ++ combine (concat ys) (concat vs)).
Proof.
  intros L Hx Hy app2. revert ys us vs L Hx Hy. induction xs as [|x xs IH]; intros [|y ys] us vs L Hx Hy; simpl in L; try discriminate.
  - destruct us; [|discriminate]. destruct vs; [|discriminate]. split; [reflexivity | constructor].
  - destruct us as [|u us]; [discriminate|]. destruct vs as [|v vs]; [discriminate|].
    simpl in Hx, Hy. injection Hx as Hx1 Hx. injection Hy as Hy1 Hy.
    destruct (IH ys us vs ltac:(lia) Hx Hy) as [I1 I2]. unfold app2 in *. simpl.
    split; [rewrite !app_length, I1; lia|].
    rewrite (combine_app (x ++ y) _ (u ++ v)) by (rewrite !app_length; lia).
    rewrite (combine_app x _ u), (combine_app x _ u), (combine_app y _ v) by assumption.
    rewrite I2. rewrite <- !app_assoc. apply Permutation_app_head.
    rewrite !app_assoc. apply Permutation_app_tail. apply Permutation_app_comm.
Qed.

Lemma merge_check P s t u n m x y : 0 < P -> ready P s n -> ready P t m -> glob s Values = Some x -> glob t Values = Some y ->
  merge P s t = Ok u -> exists xs ys,
    concat xs = rows x /\ concat ys = rows y /\ length xs = length ys /\
    map (@length R) xs = rank_rows P s n /\ map (@length R) ys = rank_rows P t m /\
    glob u Values = Some (mk_arr (concat (map (fun p => fst p ++ snd p) (combine xs ys))) [dim u]) /\
    valid_set u (n + m).
Proof.
  intros HP Rs Rt Gx Gy M.
  destruct (merge_inv _ _ _ _ M) as (s1 & t1 & xs & ys & Es & Et & Ls & Lt & L & Du & Ku & (zs & Lz & Mz & Tz & Gz) & Oth).
  destruct (localized_blocks P s n x HP Rs Gx) as (s1' & xs' & Es' & Ls' & _ & Cx & Nx & _).
  destruct (localized_blocks P t m y HP Rt Gy) as (t1' & ys' & Et' & Lt' & _ & Cy & Ny & _).
  rewrite Es in Es'. injection Es' as <-. rewrite Et in Et'. injection Et' as <-.
  rewrite Ls in Ls'. injection Ls' as <-. rewrite Lt in Lt'. injection Lt' as <-.
  exists (map rows xs), (map rows ys). rewrite !map_length, !map_map. repeat (split; [assumption|]).
  split; [rewrite <- Mz; exact Gz|].
  split.
  - intros a z G. destruct (attr_eq_dec a Values) as [->|Ha]; [|rewrite (proj1 (Oth a Ha)) in G; discriminate].
    rewrite Gz in G. injection G as <-. simpl. rewrite Mz.
    rewrite (Permutation_length (perm_concat_blocks (map rows xs) (map rows ys) ltac:(rewrite !map_length; exact L))).
    rewrite app_length, Cx, Cy. f_equal; [apply (proj1 (proj1 Rs) Values x Gx) | apply (proj1 (proj1 Rt) Values y Gy)].
  - eexists. split; [exact Gz | reflexivity].
Qed.

Lemma valid_count P u n : valid_set u n -> check_num P u = Ok n.
Proof.
  intros (HA & v & GV & TV). apply check_num_ok; [exists Values, v; exact GV|]. split; [exact HA|].
  intros x Gx. rewrite GV in Gx. injection Gx as <-. exists []. exact TV.
Qed.

Lemma merge_disc_inv P d e m : merge_disc P d e = Ok m -> exists mi mo mei meo,
  merge_opt P (d_in d) (d_in e) = Ok mi /\ merge_opt P (d_out d) (d_out e) = Ok mo /\
  merge_opt P (d_ein d) (d_ein e) = Ok mei /\ merge_opt P (d_eout d) (d_eout e) = Ok meo /\
  m = mk_disc (Some mi) (Some mo) (d_prob d) (Some mei) (Some meo) None None None None None None None.
Proof.
  unfold merge_disc. intro H. repeat inv_bind H. injection H as <-.
  exists x, x0, x1, x2. auto 10.
Qed.

Lemma merge_disc_pairs P d e m si so ti to n k xi xo yi yo : 0 < P ->
  d_in d = Some si -> d_out d = Some so -> d_in e = Some ti -> d_out e = Some to ->
  ready P si n -> ready P so n -> ready P ti k -> ready P to k ->
  rank_rows P si n = rank_rows P so n -> rank_rows P ti k = rank_rows P to k ->
  glob si Values = Some xi -> glob so Values = Some xo -> glob ti Values = Some yi -> glob to Values = Some yo ->
  merge_disc P d e = Ok m ->
  exists mi mo zi zo, d_in m = Some mi /\ d_out m = Some mo /\ glob mi Values = Some zi /\ glob mo Values = Some zo /\
    length (rows zi) = n + k /\ length (rows zo) = n + k /\
    Permutation (combine (rows zi) (rows zo)) (combine (rows xi) (rows xo) ++ combine (rows yi) (rows yo)).
Proof.
  intros HP Hsi Hso Hti Hto Rsi Rso Rti Rto Es Et Gxi Gxo Gyi Gyo H.
  destruct (merge_disc_inv _ _ _ _ H) as (mi & mo & mei & meo & Mi & Mo & _ & _ & ->).
  rewrite Hsi, Hti in Mi. rewrite Hso, Hto in Mo. simpl in Mi, Mo.
  destruct (merge_check _ _ _ _ _ _ _ _ HP Rsi Rti Gxi Gyi Mi) as (xs & ys & Cx & Cy & L & Nx & Ny & Gi & Vi).
  destruct (merge_check _ _ _ _ _ _ _ _ HP Rso Rto Gxo Gyo Mo) as (us & vs & Cu & Cv & L' & Nu & Nv & Go & Vo).
  exists mi, mo, (mk_arr (concat (map (fun p => fst p ++ snd p) (combine xs ys))) [dim mi]),
                 (mk_arr (concat (map (fun p => fst p ++ snd p) (combine us vs))) [dim mo]).
  simpl. repeat (split; [solve [auto]|]).
  split; [exact (proj1 Vi Values _ Gi)|]. split; [exact (proj1 Vo Values _ Go)|].
  rewrite <- Cx, <- Cy, <- Cu, <- Cv. apply interleaved_pairs; congruence.
Qed.

(** When merge succeeds *)
Definition mergeable P (x y : option (sset R)) : Prop :=
  exists s t n m, x = Some s /\ y = Some t /\ ready P s n /\ ready P t m /\ dim s = dim t /\ compatible_domains s t.

Lemma mergeable_ok P x y : 0 < P -> mergeable P x y -> exists u, merge_opt P x y = Ok u.
Proof.
  intros HP (s & t & n & m & -> & -> & Rs & Rt & D & C). simpl.
  destruct (proj2 (proj1 Rs)) as (v & Gv & _). destruct (proj2 (proj1 Rt)) as (w & Gw & _).
  destruct (merge_spec P s t n m v w HP Rs Rt D C Gv Gw) as (u & z & E & _). eauto.
Qed.

Lemma merge_disc_total P d e si so ti to n k : 0 < P ->
  d_in d = Some si -> d_out d = Some so -> d_in e = Some ti -> d_out e = Some to ->
  ready P si n -> ready P so n -> ready P ti k -> ready P to k ->
  dim si = dim ti -> dim so = dim to -> compatible_domains si ti -> compatible_domains so to ->
  (exists u, merge_opt P (d_ein d) (d_ein e) = Ok u) -> (exists u, merge_opt P (d_eout d) (d_eout e) = Ok u) ->
  exists m, merge_disc P d e = Ok m.
Proof.
  intros HP Hsi Hso Hti Hto Rsi Rso Rti Rto Di Do Ci Co (ui & Ui) (uo & Uo).
  destruct (mergeable_ok P (d_in d) (d_in e) HP) as (mi & Mi); [exists si, ti, n, k; auto 10|].
  destruct (mergeable_ok P (d_out d) (d_out e) HP) as (mo & Mo); [exists so, to, n, k; auto 10|].
  unfold merge_disc. rewrite Mi. simpl. rewrite Mo. simpl. rewrite Ui. simpl. rewrite Uo. simpl.
  rewrite Hsi, Hti in Mi. rewrite Hso, Hto in Mo. simpl in Mi, Mo.
  destruct (proj2 (proj1 Rsi)) as (xi & Gxi & _), (proj2 (proj1 Rti)) as (yi & Gyi & _).
  destruct (proj2 (proj1 Rso)) as (xo & Gxo & _), (proj2 (proj1 Rto)) as (yo & Gyo & _).
  destruct (merge_check _ _ _ _ _ _ _ _ HP Rsi Rti Gxi Gyi Mi) as (? & ? & _ & _ & _ & _ & _ & Gi & Vi).
  destruct (merge_check _ _ _ _ _ _ _ _ HP Rso Rto Gxo Gyo Mo) as (? & ? & _ & _ & _ & _ & _ & Go & Vo).
  unfold new_disc, check_nums. simpl. rewrite (valid_count P _ _ Vo). simpl. rewrite (valid_count P _ _ Vi). simpl.
  rewrite Gi, Go, Nat.eqb_refl. simpl. eauto.
Qed.

Lemma merge_disc_no_emulated P d e : d_ein d = None \/ d_eout d = None -> forall m, merge_disc P d e <> Ok m.
Proof.
  intros H m E. destruct (merge_disc_inv _ _ _ _ E) as (mi & mo & mei & meo & _ & _ & Mi & Mo & _).
  unfold merge_opt in Mi, Mo. destruct H as [H|H]; rewrite H in *; discriminate.
Qed.

(** *** C59 *)
Lemma each_ok f (o o' : option (sset R)) : each f o = Ok o' ->
  match o with None => o' = None | Some s => exists s', f s = Ok s' /\ o' = Some s' end.
Proof. destruct o as [s|]; simpl; [|congruence]. intro H. inv_bind H. exists x. split; congruence. Qed.

Lemma disc_localize P d d' : 0 < P -> disc_global_to_local P d = Ok d' ->
  (forall pl, In pl [d_in; d_out; d_prob; d_ein] -> match pl d with
     | None => pl d' = None
     | Some s => exists s', pl d' = Some s' /\ glob s' = glob s /\ forall a, local_is_split P s' a end) /\
  d_eout d' = d_eout d /\ d_obs d' = d_obs d.
Proof.
  intros HP H. unfold disc_global_to_local in H. repeat inv_bind H. injection H as <-. simpl.
  split; [|auto].
  assert (Q : forall o o', each (global_to_local P) o = Ok o' -> match o with
     | None => o' = None
     | Some s => exists s', o' = Some s' /\ glob s' = glob s /\ forall a, local_is_split P s' a end).
  { intros o o' Eo. apply each_ok in Eo. destruct o as [s|]; [|exact Eo]. destruct Eo as (s' & G & ->).
    exists s'. split; [reflexivity|]. destruct (g2l_inv _ _ _ G) as (m & _ & Eg & _). split; [exact Eg|].
    apply (global_to_local_local_is_split P s s' HP G). }
  intros pl [<-|[<-|[<-|[<-|[]]]]]; simpl; apply Q; assumption.
Qed.

Lemma disc_globalize d d' : disc_local_to_global d = Ok d' ->
  (forall pl, In pl [d_in; d_out; d_prob; d_ein; d_eout] -> match pl d with
     | None => pl d' = None
     | Some s => exists s', pl d' = Some s' /\ loc s' = loc s /\
         forall a bs, loc s a = Some bs -> exists x, glob s' a = Some x /\ rows x = concat (map rows bs) end) /\
  d_obs d' = d_obs d.
Proof.
  intro H. unfold disc_local_to_global in H. repeat inv_bind H. injection H as <-. simpl.
  split; [|auto].
  assert (Q : forall o o', each local_to_global o = Ok o' -> match o with
     | None => o' = None
     | Some s => exists s', o' = Some s' /\ loc s' = loc s /\
         forall a bs, loc s a = Some bs -> exists x, glob s' a = Some x /\ rows x = concat (map rows bs) end).
  { intros o o' Eo. apply each_ok in Eo. destruct o as [s|]; [|exact Eo]. destruct Eo as (s' & G & ->).
    exists s'. split; [reflexivity|]. destruct (local_to_global_spec _ _ G) as (_ & U2 & _ & _ & _ & _ & U7).
    split; [exact U2|]. intros a bs L. specialize (U7 a). rewrite L in U7. destruct U7 as (g & Hg & ->).
    exists g. split; [reflexivity|]. unfold get_global_values in Hg. destruct bs; [discriminate|].
    destruct forallb; [|discriminate]. injection Hg as <-. reflexivity. }
  intros pl [<-|[<-|[<-|[<-|[<-|[]]]]]]; simpl; apply Q; assumption.
Qed.

(** *** C61 *)
Lemma same_dim_false (o : option (sset R)) s : same_dim o s = false <-> exists t, o = Some t /\ dim t <> dim s.
Proof.
  unfold same_dim. destruct o as [t|].
  - destruct (Nat.eqb_spec (dim t) (dim s)); split; try congruence; [intros (t' & [= <-] & H); congruence | intros _; eauto].
  - split; [discriminate | intros (t & E & _); discriminate].
Qed.
Lemma same_dim_true (o : option (sset R)) s : same_dim o s = true <-> forall t, o = Some t -> dim t = dim s.
Proof.
  unfold same_dim. destruct o as [t|].
  - rewrite Nat.eqb_eq. split; [intros H t' [= <-]; exact H | auto].
  - split; [intros _ t E; discriminate | reflexivity].
Qed.

Lemma set_probability_rejects nn P s d :
  (exists t, (d_out d = Some t \/ d_eout d = Some t) /\ dim t <> dim s) ->
  set_probability nn P s d = (d, Some DimNotMatching).
Proof.
  intros (t & H & D). unfold set_probability.
  assert (F : same_dim (d_out d) s && same_dim (d_eout d) s = false).
  { apply andb_false_iff. destruct H as [H|H]; [left|right]; apply same_dim_false; eauto. }
  rewrite F. reflexivity.
Qed.
Lemma set_emulated_output_rejects s d :
  (exists t, (d_out d = Some t \/ d_prob d = Some t) /\ dim t <> dim s) <->
  set_emulated_output s d = (d, Some DimNotMatching).
Proof.
  unfold set_emulated_output. destruct (same_dim (d_out d) s && same_dim (d_prob d) s) eqn:F.
  - apply andb_true_iff in F. rewrite !same_dim_true in F. split; [|discriminate].
    intros (t & [H|H] & D); exfalso; apply D; [exact (proj1 F t H) | exact (proj2 F t H)].
  - split; [reflexivity|]. intros _. apply andb_false_iff in F. rewrite !same_dim_false in F.
    destruct F as [(t & E & D)|(t & E & D)]; eauto.
Qed.
Lemma set_emulated_input_rejects s d :
  (exists t, d_in d = Some t /\ dim t <> dim s) <-> set_emulated_input s d = (d, Some DimNotMatching).
Proof.
  unfold set_emulated_input. destruct (same_dim (d_in d) s) eqn:F.
  - rewrite same_dim_true in F. split; [|discriminate]. intros (t & H & D); exfalso; apply D, F, H.
  - split; [reflexivity|]. intros _. apply same_dim_false. exact F.
Qed.
Lemma set_emulated_accepts s d :
  ((forall t, d_in d = Some t -> dim t = dim s) -> set_emulated_input s d = (with_ein (Some s) d, None)) /\
  ((forall t, d_out d = Some t \/ d_prob d = Some t -> dim t = dim s) -> set_emulated_output s d = (with_eout (Some s) d, None)).
Proof.
  split; intro H; unfold set_emulated_input, set_emulated_output.
  - rewrite (proj2 (same_dim_true _ _) H). reflexivity.
  - rewrite (proj2 (same_dim_true (d_out d) s)), (proj2 (same_dim_true (d_prob d) s)); auto.
Qed.

(** The constructor checks the numbers of samples only. *)
Lemma new_disc_spec P (inp out : sset R) (pr ein eout obs : option (sset R)) n m : check_num P inp = Ok n -> check_num P out = Ok m ->
  glob inp Values <> None -> glob out Values <> None ->
  new_disc P (Some inp) (Some out) pr ein eout obs =
  if n =? m then Ok (mk_disc (Some inp) (Some out) pr ein eout obs None None None None None None) else Raise LengthNotMatching.
Proof.
  intros Hi Ho Gi Go. unfold new_disc, check_nums. simpl. rewrite Ho. simpl. rewrite Hi. simpl.
  destruct (glob inp Values); [|congruence]. destruct (glob out Values); [|congruence].
  rewrite Nat.eqb_sym. destruct (n =? m); reflexivity.
Qed.
End Proofs.
