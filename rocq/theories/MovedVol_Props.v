From Coq Require Import List Arith QArith Qcanon Lia.
From Verif Require Import Err Num NumPy SampleSet_Model SampleSet_Spec SampleSet_Proofs Disc_Model Disc_Spec Disc_Examples Disc_Proofs Prob_Spec Prob_Proofs Workflow_Model Workflow_Spec Workflow_Examples Stable_Spec Emulated_Model Emulated_Spec Emulated_Proofs Emulated_Props
  Moved_Model Moved_Spec Moved_Proofs Moved2_Proofs Moved_Props MovedVol_Model MovedVol_Spec MovedVol_Proofs Show.
Import ListNotations.
Local Open Scope nat_scope.
Local Open Scope err_scope.

(** C187: probabilities moved with emulated samples.  If every old sample with
    positive probability has an emulated sample nearest to it: *)
Theorem points_moved : forall nn P d xs q zs es old new e, 0 < P -> xs <> [] -> known d xs q old -> target d zs new -> emulates d es e -> all_seen nn xs es q ->
  let r := moved nn zs es (spread nn xs es q) in
  exists old1 new1 e1, transfer_points nn P old new (Some e) = Ok (old1, new1, Some e1, r) /\
    known d xs q old1 /\ loc old1 = loc old /\ emulates d es e1 /\ glob e1 = glob e /\
    target d zs new1 /\ loc new1 = loc new /\ glob new1 Probabilities = Some (vec_arr r) /\ (forall a, a <> Probabilities -> a <> KdtreeValues -> glob new1 a = glob new a) /\
    ((forall x, In x es -> nn zs x < length zs /\ nn xs x < length xs) -> qsum r = qsum q).
Proof.
  intros nn P d xs q zs es old new e HP NX K T E A. destruct (points_all nn P d HP xs q zs es old new e NX K T E A) as (a & b & c & R). cbv zeta in *. destruct R as (R1 & R2 & R3 & R4 & R5 & R6 & R7 & R8 & R9).
  exists a, b, c. do 9 (split; [assumption|]). intros B. rewrite moved_total; [|apply spread_length|intros x Hx; apply B; exact Hx].
  pose proof K as (TO & GP & NQ). pose proof (proj1 (proj1 TO) _ _ GP) as L. cbn [rows vec_arr] in L. rewrite map_length in L.
  rewrite <- (spread_back nn xs es q L NQ A) at 2. symmetry. apply moved_total; [apply spread_length|intros x Hx; apply B; exact Hx].
Qed.
Print Assumptions points_moved.
(** If only some of them have, the probabilities are divided by what is left. *)
Theorem points_moved_some : forall nn P d xs q zs es old new e, 0 < P -> xs <> [] -> known d xs q old -> target d zs new -> emulates d es e -> ~ all_seen nn xs es q -> one_seen nn xs es q ->
  let total := qsum (spread nn xs es q) in let r := moved nn zs es (map (fun w => w / total)%Qc (spread nn xs es q)) in
  exists old1 new1 e1, transfer_points nn P old new (Some e) = Ok (old1, new1, Some e1, r) /\ (0 < total)%Qc /\
    known d xs q old1 /\ target d zs new1 /\ loc new1 = loc new /\ glob new1 Probabilities = Some (vec_arr r) /\ (forall a, a <> Probabilities -> a <> KdtreeValues -> glob new1 a = glob new a) /\
    ((forall x, In x es -> nn zs x < length zs) -> qsum r = 1%Qc).
Proof.
  intros nn P d xs q zs es old new e HP NX K T E A S. destruct (points_some nn P d HP xs q zs es old new e NX K T E A S) as (a & b & c & R). cbv zeta in *. destruct R as (POS & R1 & R2 & R3 & R4 & R5 & R6 & R7 & R8 & R9).
  exists a, b, c. do 7 (split; [assumption|]). intros B. rewrite moved_total; [|rewrite map_length; apply spread_length|exact B].
  rewrite (qsum_map_div _ (fun w => w)), map_id. unfold Qcdiv. apply Qcmult_inv_r. apply Qclt_neq0. exact POS.
Qed.
Print Assumptions points_moved_some.
(** Without emulated samples *)
Theorem points_none : forall nn P old new, transfer_points nn P old new None = match transfer_set nn P old new with Ok r => Ok (fst r, None, snd r) | Raise x => Raise x end.
Proof. intros. unfold transfer_points. destruct (transfer_set nn P old new); reflexivity. Qed.
Print Assumptions points_none.
(** With the old samples themselves as emulated samples, for a set whose local and
    global probabilities agree *)
Theorem points_own : forall nn P d xs q zs old new e, 0 < P -> xs <> [] -> zs <> [] -> known d xs q old -> carries d xs q old -> target d zs new -> emulates d xs e -> map (nn xs) xs = seq 0 (length xs) ->
  exists a b c a' b' r, transfer_points nn P old new (Some e) = Ok (a, b, c, r) /\ transfer_set nn P old new = Ok (a', b', r) /\ r = moved nn zs xs q.
Proof.
  intros nn P d xs q zs old new e HP NX NZ K C T E S. pose proof K as (TO & GP & NQ). pose proof (proj1 (proj1 TO) _ _ GP) as L. cbn [rows vec_arr] in L. rewrite map_length in L.
  destruct (spread_own nn xs q L S) as (SP & A). destruct (A q) as [Aq|Aq]; [|contradiction].
  destruct (points_all nn P d HP xs q zs xs old new e NX K T E Aq) as (a & b & c & R). cbv zeta in R. rewrite SP in R.
  destruct (transfer_set_lemma nn P d HP xs q zs old new NZ C T) as (a' & b' & E' & _). exists a, b, (Some c), a', b'. eexists. split; [apply R|]. split; [exact E'|reflexivity].
Qed.
Print Assumptions points_own.
(** Moved to the old samples: nothing changes. *)
Theorem points_back : forall nn P d xs q es old new e, 0 < P -> xs <> [] -> known d xs q old -> target d xs new -> emulates d es e -> all_seen nn xs es q ->
  exists old1 new1 e1, transfer_points nn P old new (Some e) = Ok (old1, new1, Some e1, q) /\ glob new1 Probabilities = Some (vec_arr q).
Proof.
  intros nn P d xs q es old new e HP NX K T E A. pose proof K as (TO & GP & NQ). pose proof (proj1 (proj1 TO) _ _ GP) as L. cbn [rows vec_arr] in L. rewrite map_length in L.
  destruct (points_all nn P d HP xs q xs es old new e NX K T E A) as (a & b & c & R). cbv zeta in R. rewrite (spread_back nn xs es q L NQ A) in R. exists a, b, c. split; apply R.
Qed.
Print Assumptions points_back.
(** The same as a problem on the emulated samples whose model is the identity and
    whose output probabilities are the old ones, solved and then moved. *)
Theorem points_solved_first : forall nn P P' d xs q zs es old new new' e dom dom' model setter, 0 < P -> 0 < P' -> xs <> [] -> zs <> [] -> es <> [] -> known d xs q old -> target d zs new -> target d zs new' -> emulates d es e -> all_seen nn xs es q ->
  row_model d d (fun x => x) model ->
  exists a b c r D inp a' b', transfer_points nn P old new (Some e) = Ok (a, b, c, r) /\
    solve nn P' model (Given (repeat 1%Qc (length es))) true setter (values_set d dom es) (probability_set d dom' xs q) = Ok D /\ d_in D = Some inp /\ transfer_set nn P' inp new' = Ok (a', b', r).
Proof.
  intros nn P P' d xs q zs es old new new' e dom dom' model setter HP HP' NX NZ NE K T T' E A M. pose proof K as (TO & GP & NQ). pose proof (proj1 (proj1 TO) _ _ GP) as L. cbn [rows vec_arr] in L. rewrite map_length in L.
  destruct (points_all nn P d HP xs q zs es old new e NX K T E A) as (a & b & c & R). cbv zeta in R.
  destruct (solved_carries nn P' d d (fun x => x) model (Given (repeat 1%Qc (length es))) true setter dom dom' es xs q HP' M NE NX L NQ) as (D & inp & out & E1 & Ei & _ & _ & C & _); [|discriminate|].
  { intros v [= <-]. split; [apply repeat_length|]. intros y Hy. apply repeat_spec in Hy. subst y. discriminate. }
  cbn [volume_list] in C. replace (solution (fun x => nn xs x) q (combine es (repeat 1%Qc (length es)))) with (spread nn xs es q) in C by apply spread_solution.
  destruct (transfer_set_lemma nn P' d HP' es _ zs inp new' NZ C T') as (a' & b' & E' & _).
  exists a, b, (Some c). eexists. exists D, inp, a', b'. split; [apply R|]. split; [exact E1|]. split; [exact Ei|exact E'].
Qed.
Print Assumptions points_solved_first.
(** The global array is read where prob_from_sample_set reads the local one: without
    global probabilities (globalize=False in prob) only the latter works, *)
Theorem points_local_refuted : forall nn P d xs q zs es old new e, 0 < P -> xs <> [] -> zs <> [] -> target d xs old -> distributed d xs q old -> glob old Probabilities = None -> target d zs new -> emulates d es e ->
  transfer_points nn P old new (Some e) = Raise PyTypeError /\ exists a b, transfer_set nn P old new = Ok (a, b, moved nn zs xs q).
Proof.
  intros nn P d xs q zs es old new e HP NX NZ TO D G T E. split; [apply (points_unknown nn P d HP xs zs es); assumption|].
  destruct (transfer_set_lemma nn P d HP xs q zs old new NZ) as (a & b & E' & _); [split; [apply TO|split; [apply TO|left; exact D]]|exact T|]. exists a, b. exact E'.
Qed.
Print Assumptions points_local_refuted.
(** and after a move into a set with probabilities of its own they move different
    probabilities on. *)
Theorem points_stale_refuted : forall nn P d xs q zs q' ws old new last e, 0 < P -> zs <> [] -> ws <> [] -> nonneg q -> carries d xs q old -> target d zs new -> distributed d zs q' new -> target d ws last -> emulates d zs e -> map (nn zs) zs = seq 0 (length zs) ->
  exists old1 new1 r, transfer_set nn P old new = Ok (old1, new1, r) /\
    (exists a b c, transfer_points nn P new1 last (Some e) = Ok (a, b, c, moved nn ws zs r)) /\ exists a b, transfer_set nn P new1 last = Ok (a, b, moved nn ws zs q').
Proof.
  intros nn P d xs q zs q' ws old new last e HP NZ NW NQ C T D TL E S. destruct (transfer_set_lemma nn P d HP xs q zs old new NZ C T) as (a & b & E1 & _ & _ & T1 & L1 & GP & _).
  exists a, b. eexists. split; [exact E1|]. split; [|eapply again_old; eassumption].
  assert (NM : nonneg (moved nn zs xs q)).
  { intros y Hy. apply in_map_iff in Hy. destruct Hy as (j & <- & _). rewrite probability_parts by (destruct (carries_localized P d xs q old HP C) as (s1 & _ & _ & D1 & _); exact (distributed_length _ _ _ _ D1)). apply total_in_nonneg. intros [k v] Hk. apply in_combine_r in Hk. apply NQ. exact Hk. }
  destruct (spread_own nn zs (moved nn zs xs q) ltac:(apply moved_length) S) as (SP & A). destruct (A (moved nn zs xs q)) as [Aq|Aq]; [|exfalso; apply Aq; apply moved_length].
  destruct (points_all nn P d HP zs _ ws zs b last e NZ (conj T1 (conj GP NM)) TL E Aq) as (x & y & z & R). cbv zeta in R. rewrite SP in R. exists x, y, (Some z). apply R.
Qed.
Print Assumptions points_stale_refuted.

Definition show_fourth {A B C} (r : result (A * B * C * list Qc)) : option (list Q) := match r with Ok (_, _, _, l) => Some (map this l) | Raise _ => None end.
Definition only_local (r : result (disc cell)) : result (disc cell) := match r with Ok d => prob_disc near 3 false d | Raise x => Raise x end.
Definition local_five := only_local (do d <- qoi doubling 3 true (values_set 1 None five) ; do d1 <- define_input_volumes 3 MonteCarlo d ; define_output near 3 true (probability_set 1 None two thirds) d1).
Lemma values_emulates d dom es : emulates d es (values_set d dom es).
Proof. split; [apply values_target|]. split; [reflexivity|]. right. split; reflexivity. Qed.
Example points_case : known 1 halves [Q2Qc (1 # 3); Q2Qc (2 # 3)] (probability_set 1 None halves [Q2Qc (1 # 3); Q2Qc (2 # 3)]) /\ all_seen near halves points [Q2Qc (1 # 3); Q2Qc (2 # 3)] /\
  ~ all_seen near five [pt 0%Qc] [Q2Qc (1 # 2); 0%Qc; 0%Qc; 0%Qc; Q2Qc (1 # 2)] /\ one_seen near five [pt 0%Qc] [Q2Qc (1 # 2); 0%Qc; 0%Qc; 0%Qc; Q2Qc (1 # 2)] /\
  map (near halves) halves = seq 0 (length halves) /\
  show_fourth (transfer_points near 3 (probability_set 1 None halves [Q2Qc (1 # 3); Q2Qc (2 # 3)]) (values_set 1 None five) (Some (values_set 1 None points))) = Some [1 # 12; 1 # 12; 1 # 6; 2 # 9; 4 # 9]%Q /\
  show_fourth (transfer_points near 3 (input_of local_five) (values_set 1 None halves) (Some (values_set 1 None points))) = None /\
  show_third (transfer_set near 3 (input_of local_five) (values_set 1 None halves)) = Some [1 # 3; 2 # 3]%Q.
Proof.
  split; [|split; [|split; [|split; [|split; [|split; [|split]]]]]].
  - split; [|split; [reflexivity|intros x [<-|[<-|[]]]; discriminate]]. split; [split; [intros a x; destruct a; try discriminate; intros [= <-]; reflexivity|exists (mk_arr halves [1]); split; reflexivity]|]. split; [left; reflexivity|]. split; reflexivity.
  - intros [|[|i]] p H Hp; [exists (pt (Q2Qc (1 # 10)))|exists (pt 1%Qc)|destruct i; discriminate]; (split; [|vm_compute; reflexivity]); cbn; tauto.
  - intros H. destruct (H 4 (Q2Qc (1 # 2)) eq_refl) as (e & [<-|[]] & N); [reflexivity|]. vm_compute in N. discriminate.
  - exists 0, (Q2Qc (1 # 2)), (pt 0%Qc). split; [reflexivity|]. split; [reflexivity|]. split; [left; reflexivity|]. vm_compute. reflexivity.
  - vm_compute. reflexivity.
  - vm_compute. reflexivity.
  - vm_compute. reflexivity.
  - vm_compute. reflexivity.
Qed.
