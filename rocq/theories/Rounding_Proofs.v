From Coq Require Import List Arith Bool QArith Qcanon Lia Permutation.
From Verif Require Import Err Num NumPy Lists Prob_Model Prob_Spec Prob_Proofs Rounding_Model Rounding_Spec.
Import ListNotations.
Local Open Scope nat_scope.
Local Open Scope err_scope.

(** ** Relative errors *)
Section Near.
Variable u : Qc.
Hypothesis (U0 : (0 <= u)%Qc) (U1 : (u < 1)%Qc).
Let r := (1 - u)%Qc.
Lemma r_pos : (0 < r)%Qc. Proof. unfold r. qc_lra. Qed.
Lemma r_le1 : (r <= 1)%Qc. Proof. unfold r. qc_lra. Qed.
Lemma pow_pos k : (0 < r ^ k)%Qc.
Proof. induction k as [|k IH]; [reflexivity|]. cbn [Qcpower]. apply qc_mul_pos; [exact r_pos|exact IH]. Qed.
Lemma pow_le1 k : (r ^ k <= 1)%Qc.
Proof. induction k as [|k IH]; [apply Qcle_refl|]. cbn [Qcpower]. pose proof (pow_pos k). pose proof r_le1. pose proof r_pos. generalize dependent (r ^ k)%Qc. intros. qc_nra. Qed.
Lemma pow_add j k : (r ^ (j + k) = r ^ j * r ^ k)%Qc.
Proof. induction j as [|j IH]; [cbn; ring|]. cbn [Nat.add Qcpower]. rewrite IH. ring. Qed.
Lemma pow_mono j k : j <= k -> (r ^ k <= r ^ j)%Qc.
Proof. intros H. replace k with (j + (k - j)) by lia. rewrite pow_add. pose proof (pow_pos j). pose proof (pow_le1 (k - j)). generalize dependent (r ^ j)%Qc. generalize dependent (r ^ (k - j))%Qc. intros. qc_nra. Qed.
Lemma bernoulli k : (1 - qn k * u <= r ^ k)%Qc.
Proof.
  induction k as [|k IH]; [rewrite qn_0; cbn; qc_lra|]. cbn [Qcpower]. rewrite qn_S. pose proof (pow_le1 k). unfold r at 1. generalize dependent (r ^ k)%Qc. generalize (qn k). intros. qc_nra.
Qed.
Definition near (k : nat) (a b : Qc) : Prop := (0 <= a /\ 0 <= b /\ a * r ^ k <= b /\ b * r ^ k <= a)%Qc.
Lemma near_refl k a : (0 <= a)%Qc -> near k a a.
Proof. intros H. pose proof (pow_le1 k). unfold near. generalize dependent (r ^ k)%Qc. intros. repeat split; try assumption; qc_nra. Qed.
Lemma near_weaken j k a b : j <= k -> near j a b -> near k a b.
Proof. intros L (A & B & C & D). pose proof (pow_mono j k L). unfold near. generalize dependent (r ^ k)%Qc. generalize dependent (r ^ j)%Qc. intros. repeat split; try assumption; qc_nra. Qed.
Lemma near_trans j k a b c : near j a b -> near k b c -> near (j + k) a c.
Proof.
  intros (A & B & C & D) (_ & E & F & G). pose proof (pow_pos j). pose proof (pow_pos k). unfold near. rewrite pow_add. generalize dependent (r ^ k)%Qc. generalize dependent (r ^ j)%Qc. intros x X1 X2 X3 y Y1 Y2 Y3.
  repeat split; try assumption.
  - apply Qcle_trans with (b * y)%Qc; [|assumption]. replace (a * (x * y))%Qc with ((a * x) * y)%Qc by ring. apply Qcmult_le_compat_r; [assumption|apply Qclt_le_weak; assumption].
  - apply Qcle_trans with (b * x)%Qc; [|assumption]. replace (c * (x * y))%Qc with ((c * y) * x)%Qc by ring. apply Qcmult_le_compat_r; [assumption|apply Qclt_le_weak; assumption].
Qed.
Lemma near_sym k a b : near k a b -> near k b a.
Proof. intros (A & B & C & D). repeat split; assumption. Qed.
Lemma near_add k a b c d : near k a b -> near k c d -> near k (a + c)%Qc (b + d)%Qc.
Proof. intros (A & B & C & D) (A' & B' & C' & D'). unfold near. generalize dependent (r ^ k)%Qc. intros. repeat split; qc_nra. Qed.
Lemma near_mul_l k c a b : (0 <= c)%Qc -> near k a b -> near k (c * a)%Qc (c * b)%Qc.
Proof.
  intros H (A & B & C & D). unfold near. generalize dependent (r ^ k)%Qc. intros x C D. split; [apply qc_mul_nonneg; assumption|]. split; [apply qc_mul_nonneg; assumption|].
  rewrite <- !Qcmult_assoc. split; apply qc_mul_le_l; assumption.
Qed.
Lemma near_pos k a b : near k a b -> (0 < a)%Qc -> (0 < b)%Qc.
Proof. intros (A & B & C & D) H. apply Qclt_le_trans with (a * r ^ k)%Qc; [|exact C]. apply qc_mul_pos; [exact H|apply pow_pos]. Qed.
Lemma near_inv k a b : (0 < a)%Qc -> near k a b -> near k (/ a)%Qc (/ b)%Qc.
Proof.
  intros P N. pose proof (near_pos k a b N P) as PB. destruct N as (A & B & C & D). pose proof (qc_inv_pos a P) as IA. pose proof (qc_inv_pos b PB) as IB.
  split; [apply Qclt_le_weak; exact IA|]. split; [apply Qclt_le_weak; exact IB|]. generalize dependent (r ^ k)%Qc. intros x C D. split.
  - replace (/ a * x)%Qc with (x / a)%Qc by (unfold Qcdiv; ring). apply qc_div_le; [exact P|]. replace (/ b * a)%Qc with (a / b)%Qc by (unfold Qcdiv; ring). apply qc_le_div; [exact PB|]. rewrite Qcmult_comm. exact D.
  - replace (/ b * x)%Qc with (x / b)%Qc by (unfold Qcdiv; ring). apply qc_div_le; [exact PB|]. replace (/ a * b)%Qc with (b / a)%Qc by (unfold Qcdiv; ring). apply qc_le_div; [exact P|]. rewrite Qcmult_comm. exact C.
Qed.
Lemma near_mul j k a b c d : near j a b -> near k c d -> near (j + k) (a * c)%Qc (b * d)%Qc.
Proof.
  intros H G. apply near_trans with (b * c)%Qc.
  - rewrite (Qcmult_comm a c), (Qcmult_comm b c). apply near_mul_l; [apply G|exact H].
  - apply near_mul_l; [apply H|exact G].
Qed.
Lemma near_div j k a b c d : (0 < c)%Qc -> near j a b -> near k c d -> near (j + k) (a / c)%Qc (b / d)%Qc.
Proof. intros P H G. unfold Qcdiv. apply near_mul; [exact H|]. apply near_inv; assumption. Qed.
Lemma near_close k a b : near k a b -> close (qn k * u) a b.
Proof.
  intros (A & B & C & D). pose proof (bernoulli k) as H. unfold close. generalize dependent (r ^ k)%Qc. generalize (1 - qn k * u)%Qc. intros y x C D H. split; qc_nra.
Qed.
Lemma near_qsum {A} k (f g : A -> Qc) l : (forall a, In a l -> near k (f a) (g a)) -> near k (qsum (map f l)) (qsum (map g l)).
Proof.
  induction l as [|a l IH]; intros H; [apply near_refl; apply Qcle_refl|]. cbn [map]. change (qsum (?x :: ?y)) with (x + qsum y)%Qc. apply near_add; [apply H; left; reflexivity|]. apply IH. intros b Hb. apply H. right. exact Hb.
Qed.
Variable rnd : Qc -> Qc.
Hypothesis R : forall x, (qabs (rnd x - x) <= u * qabs x)%Qc.
Lemma near_rnd x : (0 <= x)%Qc -> near 1 x (rnd x).
Proof.
  intros H. specialize (R x). rewrite (qabs_pos_eq x H) in R. apply qabs_le in R. destruct R as [R1 R2]. unfold near. cbn [Qcpower]. unfold r. generalize dependent (rnd x). intros y R1 R2. repeat split; try assumption; qc_nra.
Qed.
Lemma near_after k a b : near k a b -> near (k + 1) a (rnd b).
Proof. intros H. eapply near_trans; [exact H|]. apply near_rnd. apply H. Qed.
Lemma sums_near l s : sums rnd l s -> (forall x, In x l -> (0 <= x)%Qc) -> near (length l - 1) (qsum l) s.
Proof.
  induction 1 as [|x|l a b s t NA NB P HA IHA HB IHB]; intros N.
  - apply near_refl. apply Qcle_refl.
  - replace (qsum [x]) with x by (cbn [qsum]; ring). apply near_refl. apply N. left. reflexivity.
  - rewrite (qsum_perm _ _ P), qsum_app. assert (L : length l = length a + length b) by (rewrite (Permutation_length P), app_length; reflexivity).
    assert (La : 0 < length a) by (destruct a; [contradiction|cbn; lia]). assert (Lb : 0 < length b) by (destruct b; [contradiction|cbn; lia]).
    replace (length l - 1) with ((length l - 2) + 1) by lia. apply near_after. apply near_add.
    + apply near_weaken with (length a - 1); [lia|]. apply IHA. intros x Hx. apply N. apply (Permutation_in x (Permutation_sym P)). apply in_or_app. left. exact Hx.
    + apply near_weaken with (length b - 1); [lia|]. apply IHB. intros x Hx. apply N. apply (Permutation_in x (Permutation_sym P)). apply in_or_app. right. exact Hx.
Qed.
Variables np_sum reduce : list Qc -> Qc.
Hypothesis (AN : adds rnd np_sum) (AR : adds rnd reduce).
Lemma filter_number {A} i (bs : list (list (nat * A))) b : In b bs -> length (filter (fun e => fst e =? i) b) <= number_in (map fst (concat bs)) i.
Proof.
  intros H. apply in_split in H. destruct H as (p & q & ->). unfold number_in. rewrite concat_app, map_app, filter_app, app_length. cbn [concat]. rewrite map_app, filter_app, app_length.
  assert (E : length (filter (fun k => k =? i) (map fst b)) = length (filter (fun e => fst e =? i) b)) by (clear; induction b as [|e b IH]; [reflexivity|]; cbn [map filter]; destruct (fst e =? i); cbn [length]; congruence). lia.
Qed.
Lemma cell_sum_near i blocks : (forall e, In e (concat blocks) -> (0 <= snd e)%Qc) -> near ((number_in (map fst (concat blocks)) i - 1) + (length blocks - 1)) (cell_sum i blocks) (cell_sum_fl np_sum reduce i blocks).
Proof.
  intros N. unfold cell_sum, cell_sum_fl.
  assert (A : forall b, In b blocks -> near (number_in (map fst (concat blocks)) i - 1) (local_sum i b) (np_sum (map snd (filter (fun e => fst e =? i) b)))).
  { intros b Hb. unfold local_sum. set (l := map snd (filter (fun e => fst e =? i) b)). apply near_weaken with (length l - 1).
    - pose proof (filter_number i blocks b Hb). unfold l. rewrite map_length. lia.
    - apply sums_near; [apply AN|]. intros x Hx. unfold l in Hx. apply in_map_iff in Hx. destruct Hx as (e & <- & He). apply filter_In in He. apply N. apply in_concat. exists b. split; [exact Hb|apply He]. }
  eapply near_trans; [apply near_qsum; exact A|].
  rewrite <- (map_length (fun b => np_sum (map snd (filter (fun e => fst e =? i) b))) blocks). apply sums_near; [apply AR|].
  intros x Hx. apply in_map_iff in Hx. destruct Hx as (b & <- & Hb). apply (A b Hb).
Qed.
End Near.

(** ** prob *)
Section Prob.
Variables (rnd : Qc -> Qc) (np_sum reduce : list Qc -> Qc).
Definition share_fl (probs : list Qc) (blocks : list (list (nat * Qc))) (e : nat * Qc) : Qc :=
  let t := cell_sum_fl np_sum reduce (fst e) blocks in
  match nth_error probs (fst e) with
  | Some p => if (qltb 0 p && qltb 0 t)%bool then rnd (rnd (p * snd e) / t)%Qc else 0%Qc
  | None => 0%Qc
  end.
Lemma prob_fold_fl blocks l g :
  fold_left (prob_step_fl rnd np_sum reduce blocks) l (map (map g) blocks) =
  map (map (fun e => fold_left (fun x ip =>
     if fst e =? fst ip
     then match (if (qltb 0 (snd ip) && qltb 0 (cell_sum_fl np_sum reduce (fst e) blocks))%bool
                 then Some (rnd (rnd (snd ip * snd e) / cell_sum_fl np_sum reduce (fst e) blocks))%Qc else None) with Some y => y | None => x end
     else x) l (g e))) blocks.
Proof.
  revert g; induction l as [|[i p] l IH]; intros g; cbn [fold_left]; [reflexivity|].
  assert (prob_step_fl rnd np_sum reduce blocks (map (map g) blocks) (i, p) =
          map (map (fun e => if (fst e =? i) then if (qltb 0 p && qltb 0 (cell_sum_fl np_sum reduce (fst e) blocks))%bool
             then (rnd (rnd (p * snd e) / cell_sum_fl np_sum reduce (fst e) blocks))%Qc else g e else g e)) blocks) as ->.
  { unfold prob_step_fl. destruct (qltb 0 p); cbn [andb].
    - destruct (qltb 0 (cell_sum_fl np_sum reduce i blocks)) eqn:E.
      + rewrite assign_blocks. apply map_ext. intros b. apply map_ext. intros e.
        destruct (Nat.eqb_spec (fst e) i) as [->|]; [rewrite E|]; reflexivity.
      + apply map_ext. intros b. apply map_ext. intros e.
        destruct (Nat.eqb_spec (fst e) i) as [->|]; [rewrite E|]; reflexivity.
    - apply map_ext. intros b. apply map_ext. intros e. destruct (fst e =? i); reflexivity. }
  rewrite IH. apply map_ext. intros b. apply map_ext. intros e. cbn [fst snd]. f_equal.
  destruct (fst e =? i); [|reflexivity]. destruct (_ && _)%bool; reflexivity.
Qed.
Lemma prob_fl_eq probs ptrs vols : same_lengths ptrs vols ->
  prob_fl rnd np_sum reduce probs ptrs vols = Ok (map (map (share_fl probs (zipped ptrs vols))) (zipped ptrs vols)).
Proof.
  intros H. unfold prob_fl. set (blocks := zipped ptrs vols).
  assert (Hz : map (fun p : list nat => repeat 0%Qc (length p)) ptrs = map (map (fun _ => 0%Qc)) blocks).
  { rewrite <- zeros_blocks. unfold blocks. rewrite zip_fst by exact H. reflexivity. }
  destruct (existsb (qltb 0) probs) eqn:Ex.
  - rewrite (zip_blocks_ok _ _ H). cbn [bind]. fold blocks. rewrite Hz, prob_fold_fl. f_equal.
    apply map_ext. intros b. apply map_ext. intros e. unfold enumerate. rewrite (fold_pick (fst e) 0 probs (fun p => if (qltb 0 p && qltb 0 (cell_sum_fl np_sum reduce (fst e) blocks))%bool
                 then Some (rnd (rnd (p * snd e) / cell_sum_fl np_sum reduce (fst e) blocks))%Qc else None)). cbn [Nat.leb].
    rewrite Nat.sub_0_r. unfold share_fl.
    destruct (nth_error probs (fst e)) as [p|]; [|reflexivity]. destruct (_ && _)%bool; reflexivity.
  - rewrite Hz. f_equal. apply map_ext. intros b. apply map_ext. intros e. unfold share_fl.
    destruct (nth_error probs (fst e)) as [p|] eqn:E; [|reflexivity].
    assert (qltb 0 p = false) as ->; [|reflexivity].
    destruct (qltb 0 p) eqn:E2; [|reflexivity]. rewrite <- Ex. symmetry. apply existsb_exists.
    exists p. split; [eapply nth_error_In; eauto|exact E2].
Qed.
Variable u : Qc.
Hypotheses (RR : rounding u rnd) (AN : adds rnd np_sum) (AR : adds rnd reduce).
Lemma share_near probs blocks e : (forall e, In e (concat blocks) -> (0 <= snd e)%Qc) -> In e (concat blocks) -> 
  near u (number_in (map fst (concat blocks)) (fst e) + length blocks) (share probs (concat blocks) e) (share_fl probs blocks e).
Proof.
  destruct RR as (U0 & U1 & R). intros N He. unfold share, share_fl. destruct (nth_error probs (fst e)) as [p|]; [|apply near_refl; try exact U0; try exact U1; [apply Qcle_refl]].
  destruct (qltb_spec 0%Qc p) as [Pp|Pp]; cbn [andb]; [|apply near_refl; try exact U0; try exact U1; [apply Qcle_refl]].
  rewrite <- cell_sum_concat. pose proof (cell_sum_near u U0 U1 rnd R np_sum reduce AN AR (fst e) blocks N) as C. set (n := number_in _ _) in *.
  assert (n1 : 0 < n).
  { unfold n, number_in. destruct (filter (fun k => k =? fst e) (map fst (concat blocks))) eqn:E; [|cbn; lia]. exfalso.
    assert (In (fst e) (filter (fun k => k =? fst e) (map fst (concat blocks)))) by (apply filter_In; split; [apply in_map; exact He|apply Nat.eqb_refl]). rewrite E in H. destruct H. }
  assert (b1 : 0 < length blocks) by (destruct blocks; [destruct He|cbn; lia]).
  destruct (qltb_spec 0%Qc (cell_sum (fst e) blocks)) as [T|T], (qltb_spec 0%Qc (cell_sum_fl np_sum reduce (fst e) blocks)) as [T'|T'].
  - replace (n + length blocks) with ((1 + ((n - 1) + (length blocks - 1))) + 1) by lia. apply near_after; try exact U0; try exact U1; try exact R; [].
    apply near_div; try exact U0; try exact U1; [exact T| |exact C]. apply near_rnd; try exact U0; try exact U1; try exact R; []. apply qc_mul_nonneg; [apply Qclt_le_weak; exact Pp|apply N; exact He].
  - exfalso. apply T'. eapply near_pos; try exact U0; try exact U1; [exact C|exact T].
  - exfalso. apply T. eapply near_pos; try exact U0; try exact U1; [apply near_sym; exact C|exact T'].
  - apply near_refl; try exact U0; try exact U1; [apply Qcle_refl].
Qed.
Lemma nonneg_zipped ptrs vols : same_lengths ptrs vols -> nonneg (concat vols) -> forall e, In e (concat (zipped ptrs vols)) -> (0 <= snd e)%Qc.
Proof. intros H N e He. rewrite (zip_concat _ _ H) in He. apply N. destruct e as [i v]. apply in_combine_r in He. exact He. Qed.
Lemma zipped_fst ptrs (vols : list (list Qc)) : same_lengths ptrs vols -> map fst (concat (zipped ptrs vols)) = concat ptrs.
Proof. intros H. rewrite (zip_concat _ _ H). apply combine_fst. apply same_lengths_concat. exact H. Qed.
Lemma zipped_length ptrs (vols : list (list Qc)) : same_lengths ptrs vols -> length (zipped ptrs vols) = length ptrs.
Proof. intros H. rewrite <- (zip_fst _ _ H) at 2. rewrite map_length. reflexivity. Qed.
Lemma prob_near probs ptrs vols : same_lengths ptrs vols -> nonneg (concat vols) -> exists Q F,
  prob probs ptrs vols = Ok Q /\ prob_fl rnd np_sum reduce probs ptrs vols = Ok F /\ same_lengths Q ptrs /\ same_lengths F ptrs /\
  forall j c q f, nth_error (concat ptrs) j = Some c -> nth_error (concat Q) j = Some q -> nth_error (concat F) j = Some f ->
    near u (number_in (concat ptrs) c + length ptrs) q f.
Proof.
  intros H N. rewrite (prob_eq _ _ _ H), (prob_fl_eq _ _ _ H). eexists. eexists. split; [reflexivity|]. split; [reflexivity|].
  assert (SL : forall h : nat * Qc -> Qc, same_lengths (map (map h) (zipped ptrs vols)) ptrs).
  { intros h. rewrite <- (zip_fst _ _ H) at 2. unfold same_lengths. generalize (zipped ptrs vols). induction l as [|b l IH]; constructor; [rewrite !map_length; reflexivity|exact IH]. }
  split; [apply SL|]. split; [apply SL|]. intros j c q f Hc Hq Hf. rewrite <- !concat_map in *. rewrite <- (zip_concat _ _ H) in Hq.
  rewrite nth_error_map in Hq, Hf. destruct (nth_error (concat (zipped ptrs vols)) j) as [e|] eqn:E; [|discriminate]. injection Hq as <-. injection Hf as <-.
  pose proof (share_near probs (zipped ptrs vols) e (nonneg_zipped _ _ H N) (nth_error_In _ _ E)) as S0. rewrite (zipped_fst _ _ H), (zipped_length _ _ H) in S0.
  assert (fst e = c) as <-; [|exact S0]. rewrite <- (zipped_fst _ _ H) in Hc. rewrite nth_error_map, E in Hc. injection Hc as Hc. exact Hc.
Qed.
End Prob.

(** ** Theorems *)
Lemma prob_rounding_lemma u rnd np_sum reduce probs ptrs vols : rounding u rnd -> adds rnd np_sum -> adds rnd reduce -> same_lengths ptrs vols -> nonneg (concat vols) -> exists Q F,
  prob probs ptrs vols = Ok Q /\ prob_fl rnd np_sum reduce probs ptrs vols = Ok F /\ same_lengths Q ptrs /\ same_lengths F ptrs /\
  forall j c q f, nth_error (concat ptrs) j = Some c -> nth_error (concat Q) j = Some q -> nth_error (concat F) j = Some f ->
    close (qn (number_in (concat ptrs) c + length ptrs) * u) q f.
Proof.
  intros R A B H N. destruct (prob_near rnd np_sum reduce u R A B probs ptrs vols H N) as (Q & F & E1 & E2 & S1 & S2 & G).
  exists Q, F. split; [exact E1|]. split; [exact E2|]. split; [exact S1|]. split; [exact S2|]. intros j c q f Hc Hq Hf. destruct R as (U0 & U1 & _). apply near_close; try exact U0; try exact U1; []. eapply G; eassumption.
Qed.
(** The same samples on other processes, added in another order *)
Lemma prob_processes_lemma u rnd np_sum reduce np_sum' reduce' probs ptrs vols ptrs' vols' : rounding u rnd -> adds rnd np_sum -> adds rnd reduce -> adds rnd np_sum' -> adds rnd reduce' ->
  same_lengths ptrs vols -> same_lengths ptrs' vols' -> concat ptrs = concat ptrs' -> concat vols = concat vols' -> nonneg (concat vols) -> exists F F',
  prob_fl rnd np_sum reduce probs ptrs vols = Ok F /\ prob_fl rnd np_sum' reduce' probs ptrs' vols' = Ok F' /\ length (concat F) = length (concat F') /\
  forall j c f f', nth_error (concat ptrs) j = Some c -> nth_error (concat F) j = Some f -> nth_error (concat F') j = Some f' ->
    close (qn (2 * number_in (concat ptrs) c + length ptrs + length ptrs') * u) f f'.
Proof.
  intros R A B A' B' H H' EP EV N. destruct (prob_near rnd np_sum reduce u R A B probs ptrs vols H N) as (Q & F & E1 & E2 & S1 & S2 & G).
  destruct (prob_near rnd np_sum' reduce' u R A' B' probs ptrs' vols' H') as (Q' & F' & E1' & E2' & S1' & S2' & G'); [rewrite <- EV; exact N|].
  exists F, F'. split; [exact E2|]. split; [exact E2'|].
  split; [rewrite (same_lengths_concat _ _ S2), (same_lengths_concat _ _ S2'), EP; reflexivity|].
  intros j c f f' Hc Hf Hf'. destruct (prob_split_lemma probs ptrs vols ptrs' vols' H H' EP EV) as (Q1 & Q2 & X1 & X2 & X). rewrite E1 in X1. rewrite E1' in X2. injection X1 as <-. injection X2 as <-.
  assert (Lj : j < length (concat Q)). { rewrite (same_lengths_concat _ _ S1). apply nth_error_Some. congruence. }
  destruct (nth_error (concat Q) j) as [q|] eqn:Eq; [|apply nth_error_None in Eq; lia].
  destruct R as (U0 & U1 & _). apply near_close; try exact U0; try exact U1; [].
  replace (2 * number_in (concat ptrs) c + length ptrs + length ptrs') with ((number_in (concat ptrs) c + length ptrs) + (number_in (concat ptrs') c + length ptrs')) by (rewrite EP; lia).
  eapply near_trans; try exact U0; try exact U1; [apply near_sym; eapply G; eassumption|]. eapply G'; [rewrite <- EP; exact Hc|rewrite <- X; exact Eq|exact Hf'].
Qed.
Lemma number_le i l : number_in l i <= length l.
Proof. unfold number_in. induction l as [|k l IH]; [apply Nat.le_refl|]. cbn [filter]. destruct (k =? i); cbn [length]; lia. Qed.
Lemma prob_total_rounding_lemma u rnd np_sum reduce probs ptrs vols Q F : rounding u rnd -> adds rnd np_sum -> adds rnd reduce -> same_lengths ptrs vols -> nonneg (concat vols) ->
  prob probs ptrs vols = Ok Q -> prob_fl rnd np_sum reduce probs ptrs vols = Ok F ->
  close (qn (length (concat ptrs) + length ptrs) * u) (qsum (concat Q)) (qsum (concat F)) /\
  forall i, close (qn (number_in (concat ptrs) i + length ptrs) * u) (total_in (combine (concat ptrs) (concat Q)) i) (total_in (combine (concat ptrs) (concat F)) i).
Proof.
  intros R A B H N. rewrite (prob_eq _ _ _ H), (prob_fl_eq rnd np_sum reduce _ _ _ H). intros [= <-] [= <-]. rewrite <- !concat_map, <- (zip_concat _ _ H).
  pose proof R as (U0 & U1 & _). pose proof (share_near rnd np_sum reduce u R A B probs (zipped ptrs vols)) as S0. rewrite (zipped_fst _ _ H), (zipped_length _ _ H) in S0.
  specialize (fun e => S0 e (nonneg_zipped _ _ H N)). split.
  - apply near_close; [exact U0|exact U1|]. apply near_qsum; try exact U0; try exact U1. intros e He. eapply near_weaken; [exact U0|exact U1| |apply S0; exact He]. pose proof (number_le (fst e) (concat ptrs)). lia.
  - intros i. apply near_close; [exact U0|exact U1|]. unfold total_in.
    assert (C : forall h : nat * Qc -> Qc, map snd (filter (fun s => fst s =? i) (combine (concat ptrs) (map h (concat (zipped ptrs vols))))) = map h (filter (fun s => fst s =? i) (concat (zipped ptrs vols)))).
    { intros h. rewrite <- (zipped_fst ptrs vols H) at 1. generalize (concat (zipped ptrs vols)). induction l as [|e l IH]; [reflexivity|]. cbn [map combine filter fst]. destruct (fst e =? i); [cbn [map snd]; f_equal|]; exact IH. }
    rewrite !C. apply near_qsum; try exact U0; try exact U1. intros e He. apply filter_In in He. destruct He as [He Ei]. apply Nat.eqb_eq in Ei. rewrite <- Ei. apply S0. exact He.
Qed.
Lemma transfer_rounding_lemma u rnd np_sum reduce num ptrs probs T : rounding u rnd -> adds rnd np_sum -> adds rnd reduce -> nonneg (concat probs) -> transfer num ptrs probs = Ok T ->
  exists F, transfer_fl np_sum reduce num ptrs probs = Ok F /\ length F = length T /\
  forall i t f, nth_error T i = Some t -> nth_error F i = Some f -> close (qn (number_in (concat ptrs) i + length ptrs) * u) t f.
Proof.
  intros R A B N. unfold transfer, transfer_fl. destruct (zip_blocks ptrs probs) as [blocks|] eqn:Z; cbn [bind]; [|discriminate]. pose proof (zip_blocks_inv _ _ _ Z) as H. rewrite (zip_blocks_ok _ _ H) in Z. injection Z as <-. intros [= <-].
  eexists. split; [reflexivity|]. split; [rewrite !map_length; reflexivity|]. intros i t f Ht Hf. rewrite nth_error_map in Ht, Hf. destruct (nth_error (seq 0 num) i) as [k|] eqn:E; [|discriminate]. injection Ht as <-. injection Hf as <-.
  assert (k = i) as ->. { pose proof (nth_error_In _ _ E) as I. apply in_seq in I. assert (L : i < num) by (rewrite <- (seq_length num 0); apply nth_error_Some; congruence). rewrite (nth_error_nth' _ 0) in E by (rewrite seq_length; exact L). rewrite seq_nth in E by exact L. injection E as <-. reflexivity. }
  destruct R as (U0 & U1 & R). apply near_close; [exact U0|exact U1|]. rewrite <- (zipped_fst _ _ H), <- (zipped_length _ _ H). eapply near_weaken; [exact U0|exact U1| |apply (cell_sum_near u U0 U1 rnd R); [exact A|exact B|apply nonneg_zipped; assumption]]. lia.
Qed.
Lemma close_error_lemma e a b : (0 <= e)%Qc -> (e < 1)%Qc -> (0 <= a)%Qc -> close e a b -> (qabs (b - a) <= e / (1 - e) * a)%Qc.
Proof.
  intros E0 E1 A (C & D). assert (P : (0 < 1 - e)%Qc) by qc_lra. replace (e / (1 - e) * a)%Qc with (e * a / (1 - e))%Qc by (unfold Qcdiv; ring).
  apply qabs_le. split.
  - assert (X : (e * a <= e * a / (1 - e))%Qc) by (apply qc_le_div; [exact P|]; qc_nra). generalize dependent (e * a / (1 - e))%Qc. intros. qc_nra.
  - apply qc_le_div; [exact P|]. qc_nra.
Qed.
