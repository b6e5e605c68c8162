From Coq Require Import List Arith Bool QArith Qcanon Lia.
From Verif Require Import Err Num Ext NumPy Lists SampleSet_Model SampleSet_Spec Prob_Spec Prob_Proofs
  Disc_Model Disc_Spec Workflow_Model Workflow_Spec Workflow_Proofs Error_Spec
  ErrorDisc_Model ErrorDisc_Spec ErrorDisc_Proofs ErrorDisc4_Proofs SampErr_Model SampErr_Spec ErrTrue_Spec ErrTrue_Proofs.
Import ListNotations.
Local Open Scope nat_scope.
Local Open Scope err_scope.

Lemma map_fst_combine {A B} (l : list A) (m : list B) : length l = length m -> map fst (combine l m) = l.
Proof. revert m. induction l as [|a l IH]; intros [|c m] H; try discriminate; [reflexivity|]. cbn. rewrite IH by (injection H as H; exact H). reflexivity. Qed.
Lemma map_snd_combine {A B} (l : list A) (m : list B) : length l = length m -> map snd (combine l m) = m.
Proof. revert m. induction l as [|a l IH]; intros [|c m] H; try discriminate; [reflexivity|]. cbn. rewrite IH by (injection H as H; exact H). reflexivity. Qed.

(** ** The change of the region as a difference *)
Lemma share_map {A} (f : A -> bool * nat) (l : list A) i :
  share_of (map f l) i = (qn (length (filter (fun a => fst (f a) && (snd (f a) =? i)) l)) / qn (length (filter (fun a => snd (f a) =? i) l)))%Qc.
Proof.
  unfold share_of. assert (H : forall h : bool * nat -> bool, length (filter h (map f l)) = length (filter (fun a => h (f a)) l)).
  { intros h. induction l as [|a l IH]; [reflexivity|]. cbn. destruct (h (f a)); cbn; rewrite IH; reflexivity. }
  rewrite !H. reflexivity.
Qed.
Lemma change_difference ps (pts : list spoint) :
  total_change ps pts = (region_probability ps (map fst pts) - region_probability ps (map (fun e => (fst (fst e), snd e)) pts))%Qc.
Proof.
  unfold total_change, region_probability. induction (events ps) as [|[i p] l IH]; [reflexivity|]. cbn [map qsum fst snd]. rewrite IH. unfold share_change. cbn [fst snd].
  rewrite !share_map. unfold number, is_in, from, to, Qcdiv, spoint in *. cbn [fst snd]. ring.
Qed.
Lemma not_empty ps (pts : list spoint) : every_event_hit ps (map (fun e => snd (fst e)) pts) -> every_event_hit ps (map snd pts) -> some_event_empty ps pts = false.
Proof.
  intros H1 H2. unfold some_event_empty. destruct (existsb _ (events ps)) eqn:E; [|reflexivity]. exfalso. apply existsb_exists in E. destruct E as ([i p] & Hi & E). cbn [fst] in E.
  unfold events in Hi. apply filter_In in Hi. destruct Hi as [Hi Hp]. cbn [snd] in Hp. apply qltb_true in Hp.
  assert (Np : nth_error ps i = Some p).
  { apply In_nth_error in Hi. destruct Hi as (k & Hk). assert (Hk1 := f_equal (option_map fst) Hk). assert (Hk2 := f_equal (option_map snd) Hk). rewrite <- nth_error_map in Hk1, Hk2.
    rewrite map_fst_combine in Hk1 by (rewrite seq_length; reflexivity). rewrite map_snd_combine in Hk2 by (rewrite seq_length; reflexivity). cbn in Hk1, Hk2.
    assert (L : k < length ps) by (apply nth_error_Some; congruence). rewrite nth_error_seq, (proj2 (Nat.ltb_lt _ _) L) in Hk1. injection Hk1 as <-. exact Hk2. }
  apply orb_true_iff in E. destruct E as [E|E]; apply negb_true_iff in E.
  - specialize (H1 i p Np Hp). apply in_map_iff in H1. destruct H1 as (e & <- & He). assert (X : existsb (from (snd (fst e))) pts = true) by (apply existsb_exists; exists e; split; [exact He|apply Nat.eqb_refl]). congruence.
  - specialize (H2 i p Np Hp). apply in_map_iff in H2. destruct H2 as (e & <- & He). assert (X : existsb (to (snd e)) pts = true) by (apply existsb_exists; exists e; split; [exact He|apply Nat.eqb_refl]). congruence.
Qed.

Lemma before_events nn b : cells_before nn b = sample_events nn (as_given b).
Proof. unfold cells_before, sample_events, as_given. cbn. rewrite map_map. reflexivity. Qed.
Lemma after_events nn b : cells_after nn b = sample_events nn (corrected b).
Proof. unfold cells_after, sample_events, corrected. cbn. rewrite map_map. reflexivity. Qed.
Lemma given_proper b : well_posed b -> proper_survey (as_given b).
Proof. intros (A & B & C & _). split; [exact A|]. split; [exact B|]. cbn. rewrite map_length. exact C. Qed.
Lemma corrected_proper b : well_posed b -> proper_survey (corrected b).
Proof. intros (A & B & C & D & _). split; [exact A|]. split; [exact B|]. cbn. rewrite map_length, combine_length, C, D. apply Nat.min_id. Qed.

Section Diff.
Context (nn : list cell -> cell -> nat) (P : nat) (HP : 0 < P) (NN : forall l x, l <> [] -> nn l x < length l) (b : problem) (WP : well_posed b) (NP : nonneg (probs b)).
Lemma one_answer d w q a : holds_problem nn P b d -> stored_volumes d w -> (forall x, In x (input_volumes nn b w) -> (0 <= x)%Qc) -> proper_question P b q ->
  answer nn b (input_volumes nn b w) q = Ok a -> rmap fst (do m <- new_model_error nn P d ; pose_all nn P [q] m) = Ok [a].
Proof.
  intros H W V PQ E. rewrite (answers_lemma nn P HP NN b WP d w [q] H W V) by (constructor; [exact PQ|constructor]). cbn [map in_turn]. rewrite E. reflexivity.
Qed.
Lemma emulated_difference d w s ss labels region em ps P1 d1 w1 P2 d2 w2 :
  holds_problem nn P b d -> stored_volumes d w -> (forall x, In x (input_volumes nn b w) -> (0 <= x)%Qc) ->
  proper_question P b (Region_ s ss labels region em) -> In region labels ->
  match em with Some e => Some (snd e) | None => emulated b end = Some ps ->
  0 < P1 -> proper_view (as_given b) w1 -> holds_survey nn P1 (as_given b) w1 d1 -> no_pointers d1 -> w_probs w1 = probs b -> w_emulated w1 = Some ps ->
  0 < P2 -> proper_view (corrected b) w2 -> holds_survey nn P2 (corrected b) w2 d2 -> no_pointers d2 -> w_probs w2 = probs b -> w_emulated w2 = Some ps ->
  every_event_hit (probs b) (map (event_of nn (as_given b)) ps) -> every_event_hit (probs b) (map (event_of nn (corrected b)) ps) ->
  exists q q', point_probabilities (emulated_disc nn P1 true d1) = Some (map Num q) /\ point_probabilities (emulated_disc nn P2 true d2) = Some (map Num q') /\
  rmap fst (do m <- new_model_error nn P d ; pose_all nn P [Region_ s ss labels region em] m) =
  Ok [[Fin (mass (in_the_region nn ss labels region) ps q - mass (in_the_region nn ss labels region) ps q')%Qc]].
Proof.
  intros H W V PQ HR EM HP1 V1 H1 N1 W1 E1 HP2 V2 H2 N2 W2 E2 A1 A2.
  assert (NQ1 : nonneg (w_probs w1)) by (rewrite W1; exact NP). assert (NQ2 : nonneg (w_probs w2)) by (rewrite W2; exact NP).
  pose proof (given_proper b WP) as PS1. pose proof (corrected_proper b WP) as PS2.
  pose proof (emulated_run nn P1 HP1 NN (as_given b) PS1 w1 d1 ps V1 H1 N1 E1 NQ1) as R1.
  pose proof (emulated_run nn P2 HP2 NN (corrected b) PS2 w2 d2 ps V2 H2 N2 E2 NQ2) as R2.
  eexists. eexists. split; [exact R1|]. split; [exact R2|]. apply (one_answer d w _ _ H W V PQ). cbn [answer].
  assert (EL : existsb (fun l => qeqb l region) labels = true) by (apply existsb_exists; exists region; split; [exact HR|apply qeqb_true; reflexivity]). rewrite EL.
  set (pts := emulated_points nn b ss labels region ps).
  assert (G : some_event_empty (probs b) pts = false /\ total_change (probs b) pts =
    (mass (in_the_region nn ss labels region) ps (map (fun x => even (w_probs w1) (map (event_of nn (as_given b)) ps) (event_of nn (as_given b) x)) ps) -
     mass (in_the_region nn ss labels region) ps (map (fun x => even (w_probs w2) (map (event_of nn (corrected b)) ps) (event_of nn (corrected b) x)) ps))%Qc).
  { split.
    - apply not_empty; unfold pts, emulated_points; rewrite map_map; cbn [fst snd]; [rewrite before_events; exact A1|rewrite after_events; exact A2].
    - rewrite change_difference. assert (LP : length (probs b) = length (cells b)) by apply WP.
      rewrite !mass_grouped; [|exact NQ2| |exact NQ1|].
      + rewrite W1, W2. unfold pts, emulated_points. rewrite !map_map. cbn [fst snd]. rewrite before_events, after_events. reflexivity.
      + intros x _. rewrite W2, LP. apply (event_lt nn NN (corrected b) PS2).
      + intros x _. rewrite W1, LP. apply (event_lt nn NN (as_given b) PS1). }
  destruct G as [G1 G2]. destruct em as [[e ps']|]; cbn [snd] in EM.
  - injection EM as ->. fold pts. rewrite G1, G2. reflexivity.
  - rewrite EM. fold pts. rewrite G1, G2. reflexivity.
Qed.
End Diff.

(** ** With the samples themselves *)
Lemma mc_even (c : cell -> nat) probs xs : xs <> [] -> solution c probs (combine xs (repeat (1 / qn (length xs))%Qc (length xs))) = map (fun x => even probs (map c xs) (c x)) xs.
Proof.
  intros NX. set (v := (1 / qn (length xs))%Qc). assert (Hv : v <> 0%Qc).
  { assert (Hn : (0 < qn (length xs))%Qc) by (apply qn_pos; destruct xs; [contradiction|cbn; lia]). intros E. assert (X : (v * qn (length xs))%Qc = 1%Qc) by (unfold v; field; intros Z; rewrite Z in Hn; discriminate). rewrite E in X. rewrite Qcmult_0_l in X. discriminate. }
  clearbody v. assert (E : combine xs (repeat v (length xs)) = map (fun x => (x, v)) xs) by (clear; induction xs as [|x xs IH]; [reflexivity|]; cbn; rewrite IH; reflexivity).
  unfold solution. rewrite E, !map_map. apply map_ext_in. intros x Hx. cbn [fst snd]. unfold even. rewrite <- (map_map c (fun k => (k, v))), (total_const (map c xs) (fun _ => v)).
  assert (HN : (0 < qn (number_in (map c xs) (c x)))%Qc).
  { apply qn_pos. unfold number_in. assert (HI : In (c x) (filter (fun k => k =? c x) (map c xs))) by (apply filter_In; split; [apply in_map; exact Hx|apply Nat.eqb_refl]). destruct (filter _ _); [contradiction|cbn; lia]. }
  field. split; [intros Z; rewrite Z in HN; discriminate|exact Hv].
Qed.
Lemma combine_same {A B C} (f : A -> B) (g : A -> C) l : combine (map f l) (map g l) = map (fun a => (f a, g a)) l.
Proof. induction l as [|a l IH]; [reflexivity|]. cbn. rewrite IH. reflexivity. Qed.
Lemma problem_before nn di o xs z e ys ps em : cells_before nn (model_problem di o xs z e ys ps em) = map (fun x => nn ys (row (z x))) xs.
Proof. unfold cells_before. cbn. rewrite map_map. reflexivity. Qed.
Lemma problem_after nn di o xs z e ys ps em : cells_after nn (model_problem di o xs z e ys ps em) = map (fun x => nn ys (row (plus (z x) (e x)))) xs.
Proof. unfold cells_after. cbn. rewrite combine_same, map_map. reflexivity. Qed.

Lemma samples_difference nn P di o xs z e ys ps d w s ss labels region P1 model before setter dom dom' P2 model' before' setter' dom1 dom1' :
  0 < P -> (forall l x, l <> [] -> nn l x < length l) -> well_posed (model_problem di o xs z e ys ps None) -> nonneg ps ->
  holds_problem nn P (model_problem di o xs z e ys ps None) d -> stored_volumes d w -> (forall x, In x (input_volumes nn (model_problem di o xs z e ys ps None) w) -> (0 <= x)%Qc) ->
  proper_question P (model_problem di o xs z e ys ps None) (Region_ s ss labels region None) -> In region labels ->
  0 < P1 -> row_model di o (fun x => row (z x)) model -> 0 < P2 -> row_model di o (fun x => row (plus (z x) (e x))) model' ->
  every_event_hit ps (map (fun x => nn ys (row (z x))) xs) -> every_event_hit ps (map (fun x => nn ys (row (plus (z x) (e x)))) xs) ->
  exists q q',
  global_probabilities (solve nn P1 model MonteCarlo before setter (values_set di dom xs) (probability_set o dom' ys ps)) = Some (map Num q) /\
  global_probabilities (solve nn P2 model' MonteCarlo before' setter' (values_set di dom1 xs) (probability_set o dom1' ys ps)) = Some (map Num q') /\
  rmap fst (do m <- new_model_error nn P d ; pose_all nn P [Region_ s ss labels region None] m) =
  Ok [[Fin (mass (in_the_region nn ss labels region) xs q - mass (in_the_region nn ss labels region) xs q')%Qc]].
Proof.
  intros HP NN WP NP H W V PQ HR HP1 M1 HP2 M2 A1 A2. set (b := model_problem di o xs z e ys ps None) in *.
  pose proof WP as (NX & NY & _ & _ & _ & LP & _). cbn in NX, NY, LP.
  pose proof (proj1 (solve_lemma nn P1 di o (fun x => row (z x)) model MonteCarlo before setter dom dom' xs ys ps HP1 M1 NX NY LP NP ltac:(discriminate) (fun _ => eq_refl))) as R1.
  pose proof (proj1 (solve_lemma nn P2 di o (fun x => row (plus (z x) (e x))) model' MonteCarlo before' setter' dom1 dom1' xs ys ps HP2 M2 NX NY LP NP ltac:(discriminate) (fun _ => eq_refl))) as R2.
  cbn [volume_list] in R1, R2. rewrite mc_even in R1, R2 by exact NX. eexists. eexists. split; [exact R1|]. split; [exact R2|]. apply (one_answer nn P HP NN b WP d w _ _ H W V PQ). cbn [answer].
  assert (EL : existsb (fun l => qeqb l region) labels = true) by (apply existsb_exists; exists region; split; [exact HR|apply qeqb_true; reflexivity]). rewrite EL. change (emulated b) with (@None (list cell)). cbv iota beta.
  set (pts := sample_points nn b ss labels region).
  assert (EP : pts = map (fun x => (in_the_region nn ss labels region x, nn ys (row (z x)), nn ys (row (plus (z x) (e x))))) xs).
  { unfold pts, sample_points, b. rewrite problem_before, problem_after. cbn [samples model_problem]. rewrite !combine_same. reflexivity. }
  cbv zeta. change (probs b) with ps. rewrite not_empty by (rewrite EP, map_map; assumption). do 3 f_equal.
  rewrite change_difference, EP, !map_map. cbn [fst snd].
  rewrite (mass_grouped _ (fun x => nn ys (row (z x)))), (mass_grouped _ (fun x => nn ys (row (plus (z x) (e x))))); try exact NP; try (intros x _; rewrite LP; apply NN, NY). reflexivity.
Qed.

(** ** Contour events *)
Lemma event_list_nth {A} (f : nat -> Qc -> A) ps i a : nth_error (map (fun ip => f (fst ip) (snd ip)) (combine (seq 0 (length ps)) ps)) i = Some a ->
  exists p, nth_error ps i = Some p /\ a = f i p.
Proof.
  intros H. rewrite nth_error_map in H. destruct (nth_error (combine (seq 0 (length ps)) ps) i) as [[k p]|] eqn:E; [|discriminate]. cbn in H. injection H as <-.
  assert (Hk1 := f_equal (option_map fst) E). assert (Hk2 := f_equal (option_map snd) E). rewrite <- nth_error_map in Hk1, Hk2.
  rewrite map_fst_combine in Hk1 by (rewrite seq_length; reflexivity). rewrite map_snd_combine in Hk2 by (rewrite seq_length; reflexivity). cbn in Hk1, Hk2.
  assert (L : i < length ps) by (apply nth_error_Some; congruence). rewrite nth_error_seq, (proj2 (Nat.ltb_lt _ _) L) in Hk1. injection Hk1 as <-. exists p. auto.
Qed.
(** mass of a solution *)
Lemma mass_solution (inr : cell -> bool) (c : cell -> nat) ps (xv : list (cell * Qc)) :
  mass inr (map fst xv) (solution c ps xv) =
  qsum (map (fun xv0 => snd xv0 * (nth (c (fst xv0)) ps 0 / total_in (map (fun yw => (c (fst yw), snd yw)) xv) (c (fst xv0))))%Qc (filter (fun x => inr (fst x)) xv)).
Proof.
  unfold mass, solution. generalize (total_in (map (fun yw => (c (fst yw), snd yw)) xv)). intros T. f_equal.
  induction xv as [|[x v] xv IH]; [reflexivity|]. cbn. destruct (inr x); cbn; rewrite IH; reflexivity.
Qed.
Lemma mass_event (inr : cell -> bool) (c : cell -> nat) ps (xv : list (cell * Qc)) i : (forall x, inr x = true -> c x = i) ->
  mass inr (map fst xv) (solution c ps xv) =
  (qsum (map snd (filter (fun x => inr (fst x)) xv)) * (nth i ps 0 / total_in (map (fun yw => (c (fst yw), snd yw)) xv) i))%Qc.
Proof.
  intros H. rewrite mass_solution. generalize (total_in (map (fun yw => (c (fst yw), snd yw)) xv)). intros T.
  assert (G : forall l, (forall x, In x l -> inr (fst x) = true) -> qsum (map (fun xv0 : cell * Qc => snd xv0 * (nth (c (fst xv0)) ps 0 / T (c (fst xv0))))%Qc l) = (qsum (map snd l) * (nth i ps 0 / T i))%Qc).
  { induction l as [|[x v] l IH]; intros HI; [cbn [map qsum]; ring|]. cbn [map qsum fst snd]. rewrite IH by (intros y Hy; apply HI; right; exact Hy). rewrite (H x) by (apply (HI (x, v)); left; reflexivity). ring. }
  apply G. intros x Hx. apply filter_In in Hx. apply Hx.
Qed.
Lemma mass_split (inr f : cell -> bool) xs q : (mass inr xs q = mass (fun x => inr x && f x) xs q + mass (fun x => inr x && negb (f x)) xs q)%Qc.
Proof.
  unfold mass. induction (combine xs q) as [|[x v] l IH]; [cbn [filter map qsum]; ring|]. cbn [filter fst]. destruct (inr x); cbn [andb]; [|exact IH]. destruct (f x); cbn [negb map snd qsum]; rewrite IH; ring.
Qed.
Lemma vol_where_map (f : nat -> nat -> bool) (c c' : cell -> nat) (xv : list (cell * Qc)) :
  vol_where f (combine (combine (map c (map fst xv)) (map c' (map fst xv))) (map snd xv)) = qsum (map snd (filter (fun x => f (c (fst x)) (c' (fst x))) xv)).
Proof. unfold vol_where. f_equal. induction xv as [|[x v] xv IH]; [reflexivity|]. cbn. destruct (f (c x) (c' x)); cbn; rewrite IH; reflexivity. Qed.
Lemma total_after (c : cell -> nat) (xv : list (cell * Qc)) i : total_in (map (fun yw => (c (fst yw), snd yw)) xv) i = qsum (map snd (filter (fun x => c (fst x) =? i) xv)).
Proof. unfold total_in. f_equal. induction xv as [|[x v] xv IH]; [reflexivity|]. cbn. destruct (c x =? i); cbn; rewrite IH; reflexivity. Qed.

Lemma contour_core (c c' : cell -> nat) ps (xv : list (cell * Qc)) i p a : (0 < p)%Qc -> nth_error ps i = Some p ->
  event_error (combine (combine (map c (map fst xv)) (map c' (map fst xv))) (map snd xv)) i p = Fin a ->
  let xs := map fst xv in let q := solution c ps xv in let q' := solution c' ps xv in
  mass (fun x => c x =? i) xs q = p /\ mass (fun x => c' x =? i) xs q' = p /\ mass (fun x => (c' x =? i) && negb (c x =? i)) xs q' = a.
Proof.
  intros Hp Np E. cbv zeta. unfold event_error in E. rewrite (proj2 (qltb_true 0 p) Hp) in E. unfold vol_before, vol_after, vol_kept in E. rewrite !vol_where_map in E. cbv beta in E.
  set (B := qsum (map snd (filter (fun x : cell * Qc => c (fst x) =? i) xv))) in *. set (A := qsum (map snd (filter (fun x : cell * Qc => c' (fst x) =? i) xv))) in *. set (K := qsum (map snd (filter (fun x : cell * Qc => (c (fst x) =? i) && (c' (fst x) =? i)) xv))) in *.
  destruct (qeqb B 0) eqn:EB; [discriminate|]. destruct (qeqb A 0) eqn:EA; [discriminate|]. cbn [orb] in E. injection E as <-.
  assert (NB : B <> 0%Qc) by (intros X; apply qeqb_true in X; congruence). assert (NA : A <> 0%Qc) by (intros X; apply qeqb_true in X; congruence).
  assert (Ni : nth i ps 0%Qc = p) by (apply nth_error_nth; exact Np).
  assert (MA : mass (fun x => c' x =? i) (map fst xv) (solution c' ps xv) = p).
  { rewrite (mass_event _ c' ps xv i) by (intros x Hx; apply Nat.eqb_eq; exact Hx). rewrite total_after, Ni. fold A. field. exact NA. }
  split; [|split; [exact MA|]].
  - rewrite (mass_event _ c ps xv i) by (intros x Hx; apply Nat.eqb_eq; exact Hx). rewrite total_after, Ni. fold B. field. exact NB.
  - pose proof (mass_split (fun x => c' x =? i) (fun x => c x =? i) (map fst xv) (solution c' ps xv)) as S0. rewrite MA in S0.
    rewrite (mass_event (fun x => (c' x =? i) && (c x =? i)) c' ps xv i) in S0 by (intros x Hx; apply andb_true_iff in Hx; apply Nat.eqb_eq, Hx).
    rewrite total_after, Ni in S0. fold A in S0.
    assert (EK : qsum (map snd (filter (fun x : cell * Qc => (c' (fst x) =? i) && (c (fst x) =? i)) xv)) = K) by (unfold K; f_equal; f_equal; apply filter_ext; intros x; apply andb_comm). rewrite EK in S0.
    assert (ES : (mass (fun x => (c' x =? i) && negb (c x =? i)) (map fst xv) (solution c' ps xv) = p - K * (p / A))%Qc) by (rewrite S0 at 1; ring). rewrite ES. field. exact NA.
Qed.
Lemma contour_difference nn P di o xs z e ys ps em d w i p r l a P1 model setter dom dom' P2 model' setter' dom1 dom1' :
  0 < P -> (forall l x, l <> [] -> nn l x < length l) -> well_posed (model_problem di o xs z e ys ps em) -> nonneg ps ->
  holds_problem nn P (model_problem di o xs z e ys ps em) d -> stored_volumes d w ->
  let v := input_volumes nn (model_problem di o xs z e ys ps em) w in nonneg v -> length v = length xs ->
  rmap fst (do m <- new_model_error nn P d ; pose_all nn P [Contours] m) = Ok r -> r = [l] -> nth_error ps i = Some p -> (0 < p)%Qc -> nth_error l i = Some (Fin a) ->
  0 < P1 -> row_model di o (fun x => row (z x)) model -> 0 < P2 -> row_model di o (fun x => row (plus (z x) (e x))) model' ->
  exists q q',
  global_probabilities (solve nn P1 model (Given v) true setter (values_set di dom xs) (probability_set o dom' ys ps)) = Some (map Num q) /\
  global_probabilities (solve nn P2 model' (Given v) true setter' (values_set di dom1 xs) (probability_set o dom1' ys ps)) = Some (map Num q') /\
  let event x := nn ys (row (z x)) =? i in let event' x := nn ys (row (plus (z x) (e x))) =? i in
  mass event xs q = p /\ a = mass (fun x => event' x && negb (event x)) xs q' /\ (mass event xs q - mass event xs q' <= a)%Qc.
Proof.
  intros HP NN WP NP H W. set (b := model_problem di o xs z e ys ps em) in *. intros v V LV R -> Np Hp Na HP1 M1 HP2 M2.
  pose proof WP as (NX & NY & _ & _ & _ & LP & _). cbn in NX, NY, LP.
  rewrite (answers_lemma nn P HP NN b WP d w [Contours] H W V) in R by (constructor; [exact I|constructor]). fold v in R. cbn [map in_turn answer] in R. injection R as <-.
  unfold contour_answer in Na. change (probs b) with ps in Na. apply (event_list_nth (event_error (moved_volumes nn b v))) in Na. destruct Na as (p' & Np' & Ea). rewrite Np in Np'. injection Np' as <-.
  assert (GV : forall v', Given v = Given v' -> length v' = length xs /\ nonneg v') by (intros v' [= <-]; auto).
  pose proof (proj1 (solve_lemma nn P1 di o (fun x => row (z x)) model (Given v) true setter dom dom' xs ys ps HP1 M1 NX NY LP NP GV ltac:(discriminate))) as R1.
  pose proof (proj1 (solve_lemma nn P2 di o (fun x => row (plus (z x) (e x))) model' (Given v) true setter' dom1 dom1' xs ys ps HP2 M2 NX NY LP NP GV ltac:(discriminate))) as R2.
  cbn [volume_list] in R1, R2. eexists. eexists. split; [exact R1|]. split; [exact R2|]. cbv zeta.
  set (c := fun x => nn ys (row (z x))). set (c' := fun x => nn ys (row (plus (z x) (e x)))). set (xv := combine xs v).
  assert (Ex : map fst xv = xs) by (apply map_fst_combine; symmetry; exact LV). assert (Ev : map snd xv = v) by (apply map_snd_combine; symmetry; exact LV).
  destruct (contour_core c c' ps xv i p a Hp Np) as (C1 & C2 & C3).
  { rewrite Ex, Ev. symmetry. unfold moved_volumes, b in Ea. rewrite problem_before, problem_after in Ea. exact Ea. }
  rewrite Ex in C1, C2, C3. split; [exact C1|]. split; [symmetry; exact C3|].
  change (mass (fun x => c x =? i) xs (solution c ps xv) - mass (fun x => c x =? i) xs (solution c' ps xv) <= a)%Qc. rewrite C1.
  pose proof (mass_split (fun x => c' x =? i) (fun x => c x =? i) xs (solution c' ps xv)) as S1. pose proof (mass_split (fun x => c x =? i) (fun x => c' x =? i) xs (solution c' ps xv)) as S2. rewrite C2 in S1. rewrite C3 in S1.
  assert (EK : mass (fun x => (c' x =? i) && (c x =? i)) xs (solution c' ps xv) = mass (fun x => (c x =? i) && (c' x =? i)) xs (solution c' ps xv)).
  { unfold mass. f_equal. f_equal. apply filter_ext. intros x. apply andb_comm. }
  rewrite EK in S1.
  assert (NM : (0 <= mass (fun x => (c x =? i) && negb (c' x =? i)) xs (solution c' ps xv))%Qc).
  { rewrite <- Ex at 1. rewrite mass_solution. apply qsum_nonneg. intros y Hy. apply in_map_iff in Hy. destruct Hy as ([x v0] & <- & Hx). apply filter_In in Hx. destruct Hx as [Hx _]. cbn [fst snd]. apply qc_mul_nonneg; [apply V; exact (in_combine_r _ _ _ _ Hx)|].
    destruct (Qc_eq_dec (total_in (map (fun yw : cell * Qc => (c' (fst yw), snd yw)) xv) (c' x)) 0%Qc) as [E0|N0].
    - rewrite E0. unfold Qcdiv. replace (/ 0)%Qc with 0%Qc by reflexivity. rewrite Qcmult_0_r. apply Qcle_refl.
    - apply qc_div_nonneg; [apply NP; apply nth_In; rewrite LP; apply NN, NY|]. assert (T0 : (0 <= total_in (map (fun yw : cell * Qc => (c' (fst yw), snd yw)) xv) (c' x))%Qc).
      { apply total_in_nonneg. intros y Hy. apply in_map_iff in Hy. destruct Hy as ([x1 v1] & <- & H1). cbn. apply V. exact (in_combine_r _ _ _ _ H1). }
      apply Qcle_lt_or_eq in T0. destruct T0 as [T0|T0]; [exact T0|congruence]. }
  rewrite S2. rewrite S1. apply Qcle_minus_iff. match goal with |- (0 <= ?t)%Qc => replace t with (mass (fun x => (c x =? i) && negb (c' x =? i)) xs (solution c' ps xv)) by ring end. exact NM.
Qed.
