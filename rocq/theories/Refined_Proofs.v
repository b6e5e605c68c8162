From Coq Require Import List Arith Bool QArith Qcanon Lia.
From Verif Require Import Err Num NumPy Lists SampleSet_Model SampleSet_Spec SampleSet_Proofs Prob_Model Prob_Spec Prob_Proofs
  Disc_Model Disc_Spec Disc_Proofs Workflow_Model Workflow_Spec Workflow_Proofs DataUnif_Proofs Batches_Proofs Emulated_Proofs Refined_Model Refined_Spec.
Import ListNotations.
Local Open Scope nat_scope.
Local Open Scope err_scope.

(** Global samples zs, blocks of the samples xs, other arrays of the length of xs
    whose blocks agree with them *)
Definition other (n : nat) (s : sset cell) (a : attr) : Prop :=
  glob s a = None /\ loc s a = None \/ exists x bs, glob s a = Some x /\ loc s a = Some bs /\ get_global_values bs = Ok x /\ length (rows x) = n.
Definition stale (P d : nat) (xs zs : list cell) (s : sset cell) : Prop :=
  dim s = d /\ glob s Values = Some (mk_arr zs [d]) /\ loc s Values = Some (split_arr P (mk_arr xs [d])) /\ forall a, a <> Values -> other (length xs) s a.
Definition bare (s : sset cell) : Prop := forall a, a <> Values -> glob s a = None.
Lemma holds_stale P d xs s : holds P d xs None true s -> stale P d xs xs s /\ bare s.
Proof.
  intros (D & G & L). split; [|intros a N; rewrite G; destruct a; try reflexivity; contradiction]. split; [exact D|]. split; [apply G|]. split; [rewrite L; reflexivity|].
  intros a N. left. rewrite G, L. destruct a; try (split; reflexivity). contradiction.
Qed.
Lemma stale_changed P d xs cs : forall zs s, stale P d xs zs s -> exists s1, change_all cs s = Ok s1 /\ stale P d xs (current cs zs) s1 /\ forall a, a <> Values -> glob s1 a = glob s a.
Proof.
  induction cs as [|c cs IH]; intros zs s S; [exists s; split; [reflexivity|split; [exact S|reflexivity]]|]. pose proof S as (D & G & L & O).
  assert (X : exists s1, change_values c s = Ok s1 /\ stale P d xs (match c with SetValues ws => ws | AppendValues ws => zs ++ ws end) s1 /\ forall a, a <> Values -> glob s1 a = glob s a).
  { destruct c as [ws|ws]; cbn [change_values]; [|rewrite G; cbn [rows]]; (eexists; split; [reflexivity|]; split; [|intros a N; cbn [set_glob glob]; apply upd_other; exact N]);
      (split; [exact D|]; split; [cbn [set_glob glob]; rewrite upd_same, D; reflexivity|]; split; [exact L|]; intros a N; unfold other; cbn [set_glob glob loc]; rewrite upd_other by exact N; apply O; exact N). }
  destruct X as (s1 & E & S1 & B1). cbn [change_all]. rewrite E. cbn [bind]. destruct (IH _ s1 S1) as (s2 & E2 & S2 & B2). exists s2. split; [exact E2|]. split; [exact S2|]. intros a N. rewrite B2, B1 by exact N. reflexivity.
Qed.
Lemma stale_valid P d xs zs s : stale P d xs zs s -> (bare s \/ length zs = length xs) -> valid_set s (length zs).
Proof.
  intros (D & G & _ & O) B. split; [|exists (mk_arr zs [d]); rewrite G, D; split; reflexivity]. intros a x E. destruct (attr_eq_dec a Values) as [->|N]; [rewrite G in E; injection E as <-; reflexivity|].
  destruct B as [B|B]; [rewrite (B a N) in E; discriminate|]. destruct (O a N) as [(Ga & _)|(y & bs & Ga & _ & _ & Ly)]; rewrite Ga in E; [discriminate|]. injection E as <-. congruence.
Qed.
Lemma distributed_again P d zs (s : sset cell) : 0 < P -> dim s = d -> glob s Values = Some (mk_arr zs [d]) -> valid_set s (length zs) -> (forall a, a <> Values -> glob s a = None -> loc s a = None) ->
  exists s1, global_to_local P s = Ok s1 /\ stale P d zs zs s1 /\ forall a x, glob s a = Some x -> loc s1 a = Some (split_arr P x).
Proof.
  intros HP D G V N. unfold global_to_local. rewrite (valid_count _ _ _ V). cbn [bind]. eexists. split; [reflexivity|]. split; [|intros a x E; cbn [loc]; rewrite E; reflexivity].
  split; [exact D|]. cbn [glob loc]. split; [exact G|]. split; [rewrite G; reflexivity|]. intros a Na. unfold other. cbn [glob loc]. destruct (glob s a) as [x|] eqn:E.
  - right. exists x, (split_arr P x). split; [reflexivity|]. split; [reflexivity|]. split; [apply gather_split; exact HP|]. apply (proj1 V a x E).
  - left. split; [reflexivity|]. apply N; assumption.
Qed.
Lemma stale_none P d xs zs s a : stale P d xs zs s -> a <> Values -> glob s a = None -> loc s a = None.
Proof. intros (_ & _ & _ & O) N E. destruct (O a N) as [(_ & L)|(x & bs & G & _)]; [exact L|congruence]. Qed.
Lemma stale_mc P d xs zs s : 0 < P -> zs <> [] -> stale P d xs zs s -> valid_set s (length zs) ->
  exists s1, estimate_mc P true s = Ok s1 /\ stale P d zs zs s1 /\ loc s1 Volumes = Some (map vec_arr (array_split (repeat (1 / qn (length zs))%Qc (length zs)) P)).
Proof.
  intros HP NE S V. unfold estimate_mc. rewrite (valid_count _ _ _ V). cbn [bind]. destruct (Nat.eqb_spec (length zs) 0) as [E|_]; [destruct zs; [contradiction|discriminate]|].
  set (v := repeat (1 / qn (length zs))%Qc (length zs)). pose proof S as (D & G & L & O). set (s0 := set_glob Volumes (Some (vec_arr v)) s).
  assert (V0 : valid_set s0 (length zs)).
  { split; [|exists (mk_arr zs [d]); cbn [s0 set_glob glob dim]; rewrite upd_other by discriminate; rewrite G, D; split; reflexivity].
    intros a x E. cbn [s0 set_glob glob] in E. unfold upd in E. destruct (attr_eq_dec a Volumes) as [->|N]; [|apply (proj1 V a x E)]. injection E as <-. cbn [rows vec_arr]. rewrite map_length. apply repeat_length. }
  destruct (distributed_again P d zs s0 HP D) as (s1 & E1 & S1 & L1); [cbn [s0 set_glob glob]; rewrite upd_other by discriminate; exact G|exact V0| |].
  { intros a N E. cbn [s0 set_glob glob loc] in *. unfold upd in E. destruct (attr_eq_dec a Volumes); [discriminate|]. eapply stale_none; eassumption. }
  exists s1. split; [exact E1|]. split; [exact S1|]. rewrite (L1 Volumes (vec_arr v)) by (cbn [s0 set_glob glob]; apply upd_same). unfold vec_arr at 1. rewrite split_rows, array_split_map, map_map. reflexivity.
Qed.
Lemma stale_l2g P d xs zs s : 0 < P -> stale P d xs zs s -> exists s1, local_to_global s = Ok s1 /\ stale P d xs xs s1 /\ loc s1 = loc s.
Proof.
  intros HP (D & G & L & O). destruct (gather_attrs_total all_attrs s) as [s1 E].
  - intros a bs _ La. destruct (attr_eq_dec a Values) as [->|N]; [rewrite L in La; injection La as <-; eexists; apply gather_split; exact HP|].
    destruct (O a N) as [(_ & La')|(x & bs' & _ & La' & Hg & _)]; rewrite La' in La; [discriminate|]. injection La as <-. eauto.
  - exists s1. split; [exact E|]. destruct (local_to_global_spec _ _ E) as (D1 & D2 & _ & _ & _ & _ & I). split; [|exact D2]. split; [congruence|]. split.
    + specialize (I Values). rewrite L in I. destruct I as (g & Hg & ->). rewrite gather_split in Hg by exact HP. injection Hg as <-. reflexivity.
    + split; [rewrite D2; exact L|]. intros a N. specialize (I a). unfold other. rewrite D2. destruct (O a N) as [(Ga & La)|(x & bs & Ga & La & Hg & Lx)]; rewrite La in I.
      * left. rewrite I. auto.
      * right. destruct I as (y & Hy & Hs). rewrite Hg in Hy. injection Hy as <-. exists x, bs. auto.
Qed.
Lemma stale_count P d xs s : stale P d xs xs s -> check_num P s = Ok (length xs).
Proof. intros S. apply valid_count. apply (stale_valid _ _ _ _ _ S). right. reflexivity. Qed.
(** The evaluation of a set with blocks of the samples xs *)
Lemma stale_qoi P d o g model xs zs s : 0 < P -> row_model d o g model -> stale P d xs zs s ->
  exists s1 o1, qoi model P true s = Ok (base s1 o1) /\ stale P d xs xs s1 /\ loc s1 = loc s /\ holds P o (map g xs) None true o1.
Proof.
  intros HP M S. destruct (stale_l2g _ _ _ _ _ HP S) as (s1 & E1 & S1 & L1). pose proof S as (D & G & L & O). assert (F : fits xs (@None (list Qc))) by (intros ? [=]).
  destruct (localized_holds P d xs None false (values_set d None xs) (values_holds P d None xs) F) as (t & _ & Ht).
  destruct (qoi_global P d o g model xs None true t HP M Ht F) as (t1 & o1 & E & _ & Ho).
  exists s1, o1. split; [|split; [exact S1|split; [exact L1|exact Ho]]]. unfold qoi in *.
  assert (LT : loc t Values = Some (split_arr P (mk_arr xs [d]))) by apply Ht.
  unfold localized in *. rewrite LT in E. rewrite L. cbn [bind] in *. unfold loc_values in *. rewrite LT in E. rewrite L. cbn [bind] in *.
  destruct (map model _) as [|b l]; [discriminate|]. destruct (forallb _ _); [|discriminate]. destruct (set_values_local _ _) as [o0|]; [|discriminate]. cbn [bind] in *.
  rewrite E1. cbn [bind]. destruct (local_to_global t) as [t2|] eqn:Et; [|discriminate]. cbn [bind] in E. destruct (local_to_global o0) as [o2|]; [|discriminate]. cbn [bind] in *.
  assert (o2 = o1) as ->.
  { unfold new_disc in E. destruct (check_nums _ _) as [n|]; [|discriminate]. cbn [bind] in E. injection E as _ <-. reflexivity. }
  unfold new_disc, check_nums. cbn [d_out d_in need bind]. rewrite (holds_count _ _ _ _ _ _ Ho) by (intros ? [=]). rewrite (stale_count _ _ _ _ S1). cbn [bind].
  rewrite (proj1 (proj2 Ho)), (proj1 (proj2 S1)). cbn [expected]. rewrite map_length, Nat.eqb_refl. reflexivity.
Qed.
(** From the evaluated sets to the solution *)
Lemma finished nn P d o g setter dom' zs ys probs inp o1 : 0 < P -> zs <> [] -> ys <> [] -> length probs = length ys -> nonneg probs ->
  stale P d zs zs inp -> loc inp Volumes = Some (map vec_arr (array_split (repeat (1 / qn (length zs))%Qc (length zs)) P)) -> holds P o (map g zs) None true o1 ->
  exists D inp1, bind (define_output nn P setter (probability_set o dom' ys probs) (base inp o1)) (prob_disc nn P true) = Ok D /\ solves nn g zs ys probs (Ok D) /\ d_in D = Some inp1 /\ stale P d zs zs inp1 /\ glob inp1 Probabilities <> None.
Proof.
  intros HP NZ NY Lp NP Hi LV Ho. pose proof (probability_gives o dom' ys probs Lp) as GV. assert (LO : loc o1 Values = Some (blocks_of o (array_split (map g zs) P))) by (rewrite (proj2 (proj2 Ho)); cbn [expected option_map]; rewrite split_rows; reflexivity).
  rewrite (define_blocks nn P setter o ys probs _ _ inp o1 GV LO (proj1 Ho)). cbn [bind]. set (ptrs := map (map (nn ys)) (array_split (map g zs) P)). set (v := repeat (1 / qn (length zs))%Qc (length zs)) in *.
  assert (Co : check_num P o1 = Ok (length zs)) by (pose proof (holds_count _ _ _ _ _ _ Ho ltac:(intros ? [=])) as C; rewrite map_length in C; exact C).
  assert (EP : ptrs = array_split (map (fun x => nn ys (g x)) zs) P) by (unfold ptrs; rewrite <- array_split_map, map_map; reflexivity).
  rewrite (prob_blocks nn P o ys probs _ ptrs (array_split v P) inp o1 (length zs) GV NY Co (stale_count _ _ _ _ Hi)); [|rewrite (proj1 (proj2 (proj2 Hi))); discriminate|exact LV].
  assert (SV : same_lengths ptrs (array_split v P)) by (rewrite EP; apply split_same_lengths; [exact HP|unfold v; rewrite map_length, repeat_length; reflexivity]).
  destruct (prob_concat probs ptrs (array_split v P) SV) as (Q & EQ & SQ & CQ).
  assert (EQ' : prob probs ptrs (if existsb (qltb 0) probs then array_split v P else []) = Ok Q).
  { destruct (existsb (qltb 0) probs) eqn:Ex; [exact EQ|]. unfold prob in *. rewrite Ex in *. exact EQ. }
  rewrite EQ'. cbn [bind]. rewrite EP in CQ. rewrite !array_split_concat in CQ by exact HP. rewrite solution_share in CQ; [|symmetry; apply repeat_length|exact NP|apply (mc_nonneg zs NZ)].
  eexists. eexists. split; [reflexivity|]. split; [|split; [reflexivity|]].
  - unfold solves. cbn [sample_of outputs_of global_probabilities ready d_in d_out set_loc set_glob glob]. rewrite upd_same, upd_other by discriminate. rewrite (proj1 (proj2 Hi)), (proj1 (proj2 Ho)). cbn [expected option_map rows vec_arr]. rewrite CQ. split; [reflexivity|]. split; reflexivity.
  - split; [|cbn [set_loc set_glob glob]; rewrite upd_same; discriminate]. destruct Hi as (D & G & L & O). split; [exact D|]. cbn [set_loc set_glob glob loc]. rewrite !upd_other by discriminate. split; [exact G|]. split; [exact L|].
    intros a N. unfold other. cbn [set_loc set_glob glob loc]. unfold upd. destruct (attr_eq_dec a Probabilities) as [->|Np]; [|apply O; exact N]. right. do 2 eexists. split; [reflexivity|]. split; [reflexivity|].
    assert (LQ : length Q = P) by (assert (LL : length Q = length ptrs) by (clear -SQ; induction SQ; cbn; congruence); rewrite EP, array_split_length in LL by exact HP; lia).
    split; [apply gather_vecs; destruct Q; [cbn in LQ; lia|discriminate]|]. cbn [rows vec_arr]. rewrite map_length, CQ. unfold solution, v. rewrite map_length, combine_length, repeat_length. lia.
Qed.
(** One more run *)
Lemma changed_first nn P d o g model k setter dom' xs zs ys probs s : 0 < P -> row_model d o g model -> ys <> [] -> length probs = length ys -> nonneg probs ->
  stale P d xs zs s -> let ws := match k with Evaluate => xs | _ => zs end in ws <> [] -> (k = Evaluate \/ bare s \/ length zs = length xs) ->
  exists D inp, second_run nn P model k setter s (probability_set o dom' ys probs) = Ok D /\ solves nn g ws ys probs (Ok D) /\ d_in D = Some inp /\ stale P d ws ws inp /\ glob inp Probabilities <> None.
Proof.
  intros HP M NY Lp NP S ws NW C. unfold second_run, solve. destruct k; subst ws; cbn [bind].
  - destruct (stale_qoi P d o g model xs zs s HP M S) as (s1 & o1 & -> & S1 & L1 & Ho). unfold define_input_volumes; cbn [bind d_in need base define_volumes with_in].
    destruct (stale_mc P d xs xs s1 HP NW S1 (stale_valid _ _ _ _ _ S1 (or_intror eq_refl))) as (s2 & -> & S2 & L2). cbn [bind]. apply (finished nn P d o g setter dom' xs ys probs s2 o1); assumption.
  - assert (V : valid_set s (length zs)) by (apply (stale_valid _ _ _ _ _ S); destruct C as [[=]|C]; exact C).
    destruct (distributed_again P d zs s HP (proj1 S) (proj1 (proj2 S)) V (fun a N E => stale_none _ _ _ _ _ a S N E)) as (s0 & -> & S0 & _). cbn [bind].
    destruct (stale_qoi P d o g model zs zs s0 HP M S0) as (s1 & o1 & -> & S1 & L1 & Ho). unfold define_input_volumes; cbn [bind d_in need base define_volumes with_in].
    destruct (stale_mc P d zs zs s1 HP NW S1 (stale_valid _ _ _ _ _ S1 (or_intror eq_refl))) as (s2 & -> & S2 & L2). cbn [bind]. apply (finished nn P d o g setter dom' zs ys probs s2 o1); assumption.
  - assert (V : valid_set s (length zs)) by (apply (stale_valid _ _ _ _ _ S); destruct C as [[=]|C]; exact C).
    cbn [define_volumes]; destruct (stale_mc P d xs zs s HP NW S V) as (s0 & -> & S0 & L0). cbn [bind].
    destruct (stale_qoi P d o g model zs zs s0 HP M S0) as (s1 & o1 & -> & S1 & L1 & Ho). unfold define_input_volumes; cbn [bind d_in need base define_volumes with_in].
    apply (finished nn P d o g setter dom' zs ys probs s1 o1); try assumption. rewrite L1. exact L0.
Qed.
Lemma one_more nn P d r g ys probs xs D0 s0 : 0 < P -> run_for d g ys probs r -> d_in D0 = Some s0 -> stale P d xs xs s0 -> used r xs <> [] -> (bare s0 \/ length (used r xs) = length xs) ->
  exists D inp, one_run nn P r D0 = Ok D /\ solves nn g (used r xs) ys probs (Ok D) /\ d_in D = Some inp /\ stale P d (used r xs) (used r xs) inp /\ glob inp Probabilities <> None.
Proof.
  intros HP (o & dom & M & Hp & NY & Lp & NP) E0 S0 NU C. unfold one_run. rewrite E0. cbn [need bind]. destruct (stale_changed P d xs (changes r) xs s0 S0) as (s1 & -> & S1 & B1). cbn [bind]. rewrite Hp.
  apply (changed_first nn P d o g (model_of r) (starts r) (setter_of r) dom xs (current (changes r) xs) ys probs s1); try assumption.
  unfold used in C. destruct (starts r); [left; reflexivity| |]; (right; destruct C as [C|C]; [left; intros a N; rewrite B1 by exact N; apply C; exact N|right; exact C]).
Qed.
Lemma more_lemma nn P d : 0 < P -> forall rs fresh xs D0 s0 r g ys probs, usual d rs -> run_for d g ys probs r -> d_in D0 = Some s0 -> stale P d xs xs s0 -> (fresh = true -> bare s0) -> same_number fresh (rs ++ [r]) xs ->
  exists D inp, more_runs nn P (rs ++ [r]) D0 = Ok D /\ solves nn g (all_used (rs ++ [r]) xs) ys probs (Ok D) /\ d_in D = Some inp /\ stale P d (all_used (rs ++ [r]) xs) (all_used (rs ++ [r]) xs) inp /\ glob inp Probabilities <> None.
Proof.
  intros HP. induction rs as [|q rs IH]; intros fresh xs D0 s0 r g ys probs U R E0 S0 F (N & C & T); cbn [app more_runs].
  - destruct (one_more nn P d r g ys probs xs D0 s0 HP R E0 S0 N) as (D & inp & E & X); [destruct C as [C|C]; auto|]. rewrite E. cbn [bind more_runs]. exists D, inp. split; [reflexivity|exact X].
  - inversion U as [|? ? (g0 & ys0 & p0 & R0) U0]; subst. destruct (one_more nn P d q g0 ys0 p0 xs D0 s0 HP R0 E0 S0 N) as (D & inp & E & _ & E1 & S1 & _); [destruct C as [C|C]; auto|]. rewrite E. cbn [bind].
    apply (IH false (used q xs) D inp r g ys probs U0 R E1 S1); [discriminate|exact T].
Qed.
Lemma first_lemma P d o g model dom xs : 0 < P -> row_model d o g model -> exists D s, qoi model P true (values_set d dom xs) = Ok D /\ d_in D = Some s /\ stale P d xs xs s /\ bare s.
Proof.
  intros HP M. destruct (qoi_global P d o g model xs None false (values_set d dom xs) HP M (values_holds P d dom xs)) as (s & o1 & E & Hs & _); [intros ? [=]|].
  destruct (holds_stale P d xs s Hs) as (S & B). do 2 eexists. split; [exact E|]. split; [reflexivity|]. split; assumption.
Qed.
Lemma runs_lemma nn P d o g0 model dom xs rs r g ys probs : 0 < P -> row_model d o g0 model -> usual d rs -> run_for d g ys probs r -> same_number true (rs ++ [r]) xs ->
  exists D inp, runs nn P model (rs ++ [r]) (values_set d dom xs) = Ok D /\ solves nn g (all_used (rs ++ [r]) xs) ys probs (Ok D) /\ d_in D = Some inp /\ stale P d (all_used (rs ++ [r]) xs) (all_used (rs ++ [r]) xs) inp /\ glob inp Probabilities <> None.
Proof.
  intros HP M U R T. unfold runs. destruct (first_lemma P d o g0 model dom xs HP M) as (D & s & -> & E & S & B). cbn [bind]. apply (more_lemma nn P d HP rs true xs D s r g ys probs U R E S); [intros _; exact B|exact T].
Qed.
Lemma more_app nn P rs r : forall D0, more_runs nn P (rs ++ [r]) D0 = (do D <- more_runs nn P rs D0 ; one_run nn P r D).
Proof. induction rs as [|q rs IH]; intros D0; cbn [app more_runs bind]; [destruct (one_run nn P r D0); reflexivity|]. destruct (one_run nn P q D0); cbn [bind]; [apply IH|reflexivity]. Qed.
(** Another number of samples after a solution *)
Lemma one_refused nn P d r xs D0 s0 : d_in D0 = Some s0 -> stale P d xs xs s0 -> glob s0 Probabilities <> None -> starts r <> Evaluate -> length (current (changes r) xs) <> length xs -> one_run nn P r D0 = Raise LengthNotMatching.
Proof.
  intros E0 S0 NP NE N. unfold one_run. rewrite E0. cbn [need bind]. destruct (stale_changed P d xs (changes r) xs s0 S0) as (s1 & -> & S1 & B1). cbn [bind].
  assert (C : check_num P s1 = Raise LengthNotMatching).
  { destruct S1 as (_ & G & _ & O). apply check_num_length; [do 2 eexists; exact G|]. destruct (O Probabilities) as [(Gp & _)|(x & bs & Gp & _ & _ & Lx)]; [discriminate|rewrite B1 in Gp by discriminate; contradiction|].
    exists Values, Probabilities. do 2 eexists. split; [exact G|]. split; [exact Gp|]. cbn [rows]. congruence. }
  unfold second_run, solve. destruct (starts r); [contradiction| |]; [unfold global_to_local|cbn [define_volumes]; unfold estimate_mc]; rewrite C; reflexivity.
Qed.
