From Coq Require Import List Arith Bool QArith Qcanon Lia.
From Verif Require Import Err Num NumPy Lists SampleSet_Model SampleSet_Spec SampleSet_Proofs Prob_Model Prob_Spec Prob_Proofs
  Disc_Model Disc_Spec Disc_Proofs Workflow_Model Workflow_Spec Workflow_Proofs VolHist_Model VolHist_Spec.
Import ListNotations.
Local Open Scope nat_scope.
Local Open Scope err_scope.

(** ** Blocks with the lengths of a split *)
Lemma concat_same {A} (a b : list (list A)) : same_lengths a b -> concat a = concat b -> a = b.
Proof.
  intros H. induction H as [|x y a b E H IH]; [reflexivity|]. cbn [concat]. intros C.
  assert (x = y /\ concat a = concat b) as [-> C'].
  { clear IH H. revert y E C. induction x as [|p x IHx]; intros [|q y] E C; try discriminate; [split; [reflexivity|exact C]|].
    cbn [app] in C. injection C as -> C. cbn [length] in E. injection E as E. destruct (IHx y E C) as [-> C']. split; [reflexivity|exact C']. }
  f_equal. apply IH. exact C'.
Qed.
Lemma same_lengths_concat {A B} (a : list (list A)) (b : list (list B)) : same_lengths a b -> length (concat a) = length (concat b).
Proof. intros H. induction H as [|x y a b E H IH]; [reflexivity|]. cbn [concat]. rewrite !app_length. congruence. Qed.
Lemma same_lengths_trans {A B C} (a : list (list A)) (b : list (list B)) (c : list (list C)) : same_lengths a b -> same_lengths c b -> same_lengths a c.
Proof. intros H. revert c. induction H as [|x y a b E H IH]; intros c G; inversion G; subst; constructor; [congruence|apply IH; assumption]. Qed.
Lemma split_concat {A B} P (bs : list (list A)) (xs : list B) : 0 < P -> same_lengths bs (array_split xs P) -> array_split (concat bs) P = bs /\ length (concat bs) = length xs.
Proof.
  intros HP H. assert (L : length (concat bs) = length xs) by (rewrite (same_lengths_concat _ _ H), array_split_concat by exact HP; reflexivity).
  split; [|exact L]. apply concat_same; [|apply array_split_concat; exact HP]. eapply same_lengths_trans; [apply split_same_lengths; [exact HP|exact L]|exact H].
Qed.
Lemma vec_blocks P v : map vec_arr (array_split v P) = split_arr P (vec_arr v).
Proof. unfold vec_arr. rewrite split_rows, array_split_map, map_map. reflexivity. Qed.

(** ** States of the input set *)
Definition state (P d : nat) (xs : list cell) (gv lv : option (list Qc)) (s : sset cell) : Prop :=
  dim s = d /\ glob s Values = Some (mk_arr xs [d]) /\ loc s Values = Some (split_arr P (mk_arr xs [d])) /\
  glob s Volumes = option_map vec_arr gv /\ loc s Volumes = option_map (fun v => split_arr P (vec_arr v)) lv /\ fits xs gv /\ fits xs lv /\
  (forall a x, glob s a = Some x -> length (rows x) = length xs) /\
  (forall a bs, loc s a = Some bs -> exists x, bs = split_arr P x /\ length (rows x) = length xs).
Lemma state_valid P d xs gv lv s : state P d xs gv lv s -> valid_set s (length xs).
Proof. intros (D & V & _ & _ & _ & _ & _ & G & _). split; [exact G|]. exists (mk_arr xs [d]). rewrite D. auto. Qed.
Lemma state_count P d xs gv lv s : state P d xs gv lv s -> check_num P s = Ok (length xs).
Proof. intros H. apply valid_count. eapply state_valid. exact H. Qed.
Lemma vec_rows v : length (rows (vec_arr v)) = length v.
Proof. apply map_length. Qed.
Definition orelse {A} (a b : option A) : option A := match a with Some x => Some x | None => b end.
Lemma state_g2l P d xs gv lv s : state P d xs gv lv s -> exists s1, global_to_local P s = Ok s1 /\ state P d xs gv (orelse gv lv) s1.
Proof.
  intros H. unfold global_to_local. rewrite (state_count _ _ _ _ _ _ H). cbn [bind]. eexists. split; [reflexivity|]. destruct H as (D & V & LV & GV & LW & FG & FL & G & L).
  unfold state. cbn [dim glob loc]. rewrite V, GV. split; [exact D|]. split; [reflexivity|]. split; [reflexivity|]. split; [reflexivity|].
  split; [destruct gv; [reflexivity|exact LW]|]. split; [exact FG|]. split; [destruct gv; assumption|]. split; [exact G|].
  intros a bs E. destruct (glob s a) as [x|] eqn:X; [|apply (L a bs E)]. injection E as <-. exists x. split; [reflexivity|apply (G a x X)].
Qed.
Lemma state_l2g P d xs gv lv s : 0 < P -> state P d xs gv lv s -> exists s1, local_to_global s = Ok s1 /\ state P d xs (orelse lv gv) lv s1.
Proof.
  intros HP (D & V & LV & GV & LW & FG & FL & G & L). destruct (gather_attrs_total all_attrs s) as [s1 E].
  - intros a bs _ La. destruct (L a bs La) as (x & -> & _). exists x. apply gather_split. exact HP.
  - exists s1. split; [exact E|]. destruct (local_to_global_spec _ _ E) as (D1 & D2 & _ & _ & _ & _ & I).
    assert (I' : forall a, match loc s a with Some bs => exists x, bs = split_arr P x /\ length (rows x) = length xs /\ glob s1 a = Some x | None => glob s1 a = glob s a end).
    { intros a. specialize (I a). destruct (loc s a) as [bs|] eqn:La; [|exact I]. destruct (L a bs La) as (x & -> & Lx). destruct I as (g & Hg & ->). rewrite gather_split in Hg by exact HP. injection Hg as <-. exists x. auto. }
    split; [congruence|]. split.
    { specialize (I Values). rewrite LV in I. destruct I as (g & Hg & ->). rewrite gather_split in Hg by exact HP. injection Hg as <-. reflexivity. }
    split; [rewrite D2; exact LV|]. split.
    { specialize (I Volumes). rewrite LW in I. destruct lv as [v|]; cbn [option_map orelse] in *; [|rewrite I; exact GV]. destruct I as (g & Hg & ->). rewrite gather_split in Hg by exact HP. injection Hg as <-. reflexivity. }
    split; [rewrite D2; exact LW|]. split; [destruct lv; assumption|]. split; [exact FL|]. split.
    + intros a x X. specialize (I' a). destruct (loc s a) as [bs|]; [destruct I' as (y & _ & Ly & I'); congruence|]. rewrite I' in X. apply (G a x X).
    + rewrite D2. exact L.
Qed.
Lemma state_setg P d xs gv lv v s : length v = length xs -> state P d xs gv lv s -> state P d xs (Some v) lv (set_glob Volumes (Some (vec_arr v)) s).
Proof.
  intros Lv (D & V & LV & GV & LW & FG & FL & G & L). unfold state. cbn [set_glob dim glob loc]. rewrite upd_same, upd_other by discriminate.
  split; [exact D|]. split; [exact V|]. split; [exact LV|]. split; [reflexivity|]. split; [exact LW|]. split; [intros ? [= <-]; exact Lv|]. split; [exact FL|]. split; [|exact L].
  intros a x E. unfold upd in E. destruct (attr_eq_dec a Volumes); [injection E as <-; rewrite vec_rows; exact Lv|apply (G a x E)].
Qed.
Lemma state_setl P d xs gv lv v s : length v = length xs -> state P d xs gv lv s -> state P d xs gv (Some v) (set_loc Volumes (Some (split_arr P (vec_arr v))) s).
Proof.
  intros Lv (D & V & LV & GV & LW & FG & FL & G & L). unfold state. cbn [set_loc dim glob loc]. rewrite upd_same, upd_other by discriminate.
  split; [exact D|]. split; [exact V|]. split; [exact LV|]. split; [exact GV|]. split; [reflexivity|]. split; [exact FG|]. split; [intros ? [= <-]; exact Lv|]. split; [exact G|].
  intros a bs E. unfold upd in E. destruct (attr_eq_dec a Volumes); [injection E as <-; exists (vec_arr v); split; [reflexivity|rewrite vec_rows; exact Lv]|apply (L a bs E)].
Qed.
Lemma state_probs P d xs gv lv q (g : bool) s : length q = length xs -> state P d xs gv lv s ->
  state P d xs gv lv (set_loc Probabilities (Some (split_arr P (vec_arr q))) (if g then set_glob Probabilities (Some (vec_arr q)) s else s)).
Proof.
  intros Lq (D & V & LV & GV & LW & FG & FL & G & L). unfold state. cbn [set_loc dim glob loc]. rewrite !upd_other by discriminate.
  split; [destruct g; exact D|]. split; [destruct g; [cbn [set_glob glob]; rewrite upd_other by discriminate|]; exact V|]. split; [destruct g; exact LV|]. split; [destruct g; [cbn [set_glob glob]; rewrite upd_other by discriminate|]; exact GV|].
  split; [destruct g; exact LW|]. split; [exact FG|]. split; [exact FL|]. split.
  - intros a x E. destruct g; [|apply (G a x E)]. cbn [set_glob glob] in E. unfold upd in E. destruct (attr_eq_dec a Probabilities); [injection E as <-; rewrite vec_rows; exact Lq|apply (G a x E)].
  - intros a bs E. unfold upd in E. destruct (attr_eq_dec a Probabilities); [injection E as <-; exists (vec_arr q); split; [reflexivity|rewrite vec_rows; exact Lq]|]. apply (L a bs). destruct g; exact E.
Qed.
Lemma state_queried P d xs gv lv t s : state P d xs gv lv s -> exists s1, queried P t s = Ok s1 /\ state P d xs gv lv s1.
Proof.
  intros H. unfold queried. destruct t; [|exists s; auto]. destruct (kd s); [rewrite (state_count _ _ _ _ _ _ H); exists s; auto|].
  unfold set_kdtree. destruct H as (D & V & LV & GV & LW & FG & FL & G & L). rewrite V. eexists. split; [reflexivity|]. unfold state. cbn [dim glob loc]. rewrite !upd_other by discriminate.
  split; [exact D|]. split; [exact V|]. split; [exact LV|]. split; [exact GV|]. split; [exact LW|]. split; [exact FG|]. split; [exact FL|]. split; [|exact L].
  intros a x E. unfold upd in E. destruct (attr_eq_dec a KdtreeValues); [injection E as <-; reflexivity|apply (G a x E)].
Qed.

(** ** The calls on the set *)
Lemma measure_state P d xs gv lv t v s : length v = length xs -> state P d xs gv lv s -> exists s1, measure P t v s = Ok s1 /\ state P d xs (Some v) (Some v) s1.
Proof.
  intros Lv H. unfold measure. rewrite (state_count _ _ _ _ _ _ H). cbn [bind]. destruct (state_queried P d xs gv lv t s H) as (s1 & -> & H1). cbn [bind].
  destruct (state_g2l P d xs (Some v) lv _ (state_setg P d xs gv lv v s1 Lv H1)) as (s2 & -> & H2). exists s2. auto.
Qed.
Lemma mc_state P d xs gv lv s : xs <> [] -> state P d xs gv lv s -> exists s1, estimate_mc P true s = Ok s1 /\ state P d xs (Some (repeat (1 / qn (length xs))%Qc (length xs))) (Some (repeat (1 / qn (length xs))%Qc (length xs))) s1.
Proof.
  intros NE H. unfold estimate_mc. rewrite (state_count _ _ _ _ _ _ H). cbn [bind]. destruct (Nat.eqb_spec (length xs) 0) as [E|_]; [destruct xs; [contradiction|discriminate]|].
  destruct (state_g2l P d xs _ lv _ (state_setg P d xs gv lv (repeat (1 / qn (length xs))%Qc (length xs)) s (repeat_length _ _) H)) as (s2 & -> & H2). exists s2. auto.
Qed.
Lemma state_check_local P d xs gv lv s r : 0 < P -> r < P -> state P d xs gv lv s -> check_num_local s r = Ok (Some (length (nth r (array_split xs P) []))).
Proof.
  intros HP R (D & V & LV & GV & LW & FG & FL & G & L).
  assert (B : nth_error (array_split xs P) r = Some (nth r (array_split xs P) [])) by (apply nth_error_nth'; rewrite array_split_length by exact HP; exact R).
  assert (LR : local_rows s r (length (nth r (array_split xs P) []))).
  { split.
    - exists Values, (split_arr P (mk_arr xs [d])), (mk_arr (nth r (array_split xs P) []) [d]). split; [exact LV|]. rewrite split_rows, nth_error_map, B. reflexivity.
    - intros a bs b La Hb. destruct (L a bs La) as (x & -> & Lx). destruct x as [l t]. cbn [rows] in Lx. rewrite split_rows, nth_error_map in Hb.
      destruct (nth_error (array_split l P) r) as [c|] eqn:C; [|discriminate]. injection Hb as <-. cbn [rows]. symmetry. eapply nth_split; [exact HP| |exact B|exact C]. congruence. }
  assert (E0 := check_num_local_ok (set_glob Values None s) r _ (upd_same _ _ _) (LR : local_rows (set_glob Values None s) r _)).
  unfold check_num_local in *. change (map (local_length (set_glob Values None s) r) all_attrs) with (map (local_length s r) all_attrs) in E0.
  destruct (scan_lengths (map (local_length s r) all_attrs) None) as [n|e]; [|discriminate]. cbn [bind] in *. unfold check_width in E0. cbn [set_glob glob] in E0. rewrite upd_same in E0. cbn [bind] in E0.
  unfold check_width. rewrite V. cbn [tail_shape]. rewrite D, Nat.eqb_refl. cbn [bind]. exact E0.
Qed.
Lemma repeat_const {A B} (c : B) (l : list A) : repeat c (length l) = map (fun _ => c) l.
Proof. induction l as [|y l IH]; [reflexivity|]. cbn [length repeat map]. f_equal. exact IH. Qed.
Lemma mc_local_state P d xs gv lv s : 0 < P -> xs <> [] -> state P d xs gv lv s -> exists s1, estimate_mc P false s = Ok s1 /\ state P d xs gv (Some (repeat (1 / qn (length xs))%Qc (length xs))) s1.
Proof.
  intros HP NE H. unfold estimate_mc. rewrite (state_count _ _ _ _ _ _ H). cbn [bind]. set (c := (1 / qn (length xs))%Qc).
  rewrite (each_rank_map _ (fun r => vec_arr (repeat c (length (nth r (array_split xs P) []))))).
  - cbn [bind]. eexists. split; [reflexivity|].
    replace (map (fun r => vec_arr (repeat c (length (nth r (array_split xs P) [])))) (seq 0 P)) with (split_arr P (vec_arr (repeat c (length xs)))); [apply state_setl with (lv := lv); [apply repeat_length|exact H]|].
    rewrite <- vec_blocks, (repeat_const c xs), array_split_map, map_map. replace (seq 0 P) with (seq 0 (length (array_split xs P))) by (rewrite array_split_length by exact HP; reflexivity).
    generalize (array_split xs P). intros l. transitivity (map (fun b => vec_arr (repeat c (length b))) (map (fun r => nth r l []) (seq 0 (length l)))); [|rewrite map_map; reflexivity]. rewrite nth_all. apply map_ext. intros b. rewrite repeat_const. reflexivity.
  - intros r R. apply in_seq in R. unfold mc_block. rewrite (state_check_local P d xs gv lv s r HP ltac:(lia) H). cbn [bind].
    destruct (Nat.eqb_spec (length xs) 0) as [Z|_]; [destruct xs; [contradiction|discriminate]|]. reflexivity.
Qed.
Lemma scaled_blocks total bs : concat (map (scaled total) bs) = scaled total (concat bs).
Proof. unfold scaled. symmetry. apply concat_map. Qed.
Lemma local_state P d xs gv lv bs s : 0 < P -> same_lengths bs (array_split xs P) -> qsum (concat bs) <> 0%Qc -> state P d xs gv lv s ->
  exists s1, estimate_local P bs s = Ok s1 /\ state P d xs (Some (scaled (qsum (concat bs)) (concat bs))) (Some (scaled (qsum (concat bs)) (concat bs))) s1.
Proof.
  intros HP SL T H. destruct (split_concat P bs xs HP SL) as (SC & LC). unfold estimate_local. rewrite (state_count _ _ _ _ _ _ H). cbn [bind].
  destruct (state_g2l P d xs gv lv s H) as (s1 & -> & H1). cbn [bind].
  assert (E : map vec_arr bs = split_arr P (vec_arr (concat bs))) by (rewrite <- vec_blocks, SC; reflexivity). rewrite E.
  destruct (state_l2g P d xs _ _ _ HP (state_setl P d xs _ _ (concat bs) s1 LC H1)) as (s2 & -> & H2). cbn [bind]. cbv zeta.
  assert (Q : qeqb (qsum (concat bs)) 0 = false) by (destruct (qeqb_spec (qsum (concat bs)) 0%Qc); [contradiction|reflexivity]). rewrite Q.
  set (t := qsum (concat bs)) in *. eexists. split; [reflexivity|].
  assert (E2 : map (fun b => vec_arr (scaled t b)) bs = split_arr P (vec_arr (scaled t (concat bs)))).
  { rewrite <- vec_blocks. unfold scaled at 2. rewrite array_split_map, SC, map_map. reflexivity. }
  rewrite E2. apply state_setl with (lv := Some (concat bs)); [unfold scaled; rewrite map_length; exact LC|]. eapply state_setg; [unfold scaled; rewrite map_length; exact LC|exact H2].
Qed.

(** ** The discretization *)
Section Disc.
Context (nn : list cell -> cell -> nat) (P d o : nat) (dom : option (list (Qc * Qc))) (ys : list cell) (probs : list Qc) (xs zs : list cell).
Context (HP : 0 < P) (NX : xs <> []) (NY : ys <> []) (Lp : length probs = length ys) (Lz : length zs = length xs).
Definition dstate (gv lv : option (list Qc)) (D : disc cell) : Prop := exists s o1,
  D = mk_disc (Some s) (Some o1) (Some (with_tree o dom ys probs)) None None None None None None (Some (array_split (map (nn ys) zs) P)) None None /\
  state P d xs gv lv s /\ holds P o zs None true o1.
Lemma on_input_state f gv lv gv' lv' D : dstate gv lv D -> (forall s, state P d xs gv lv s -> exists s1, f s = Ok s1 /\ state P d xs gv' lv' s1) ->
  exists D1, on_input f D = Ok D1 /\ dstate gv' lv' D1.
Proof. intros (s & o1 & -> & H & Ho) F. unfold on_input. cbn [d_in need bind]. destruct (F s H) as (s1 & -> & H1). cbn [bind]. eexists. split; [reflexivity|]. exists s1, o1. auto. Qed.
(** Everything in prob but the loop *)
Lemma prob_reads g gv lv s o1 : state P d xs gv lv s -> holds P o zs None true o1 ->
  prob_disc nn P g (mk_disc (Some s) (Some o1) (Some (with_tree o dom ys probs)) None None None None None None (Some (array_split (map (nn ys) zs) P)) None None) =
  do vols <- (if existsb (qltb 0) probs then (do v <- subscript (loc s Volumes) ; scalar_blocks v) else Ok []) ;
  do q <- prob probs (array_split (map (nn ys) zs) P) vols ;
  Ok (mk_disc (Some (set_loc Probabilities (Some (map vec_arr q)) (if g then set_glob Probabilities (Some (vec_arr (concat q))) s else s))) (Some o1) (Some (with_tree o dom ys probs)) None None None None None None (Some (array_split (map (nn ys) zs) P)) None None).
Proof.
  intros H Ho. unfold prob_disc, check_nums. cbn [d_out d_in need bind d_prob io_loc]. rewrite (holds_count _ _ _ _ _ _ Ho) by (intros ? [=]).
  rewrite (state_count _ _ _ _ _ _ H). cbn [bind]. rewrite (proj1 (proj2 Ho)), (proj1 (proj2 H)). cbn [expected]. rewrite Lz, Nat.eqb_refl. cbn [bind].
  rewrite (with_tree_count P o dom ys probs Lp). cbn [bind d_in need]. unfold localized. rewrite (proj1 (proj2 (proj2 H))). cbn [bind subscript].
  unfold out_probs. destruct (Nat.eqb_spec (length ys) 0) as [Z|_]; [destruct ys; [contradiction|discriminate]|]. cbn [with_tree glob]. rewrite upd_other by discriminate. cbn [probability_set glob subscript bind].
  cbn [vec_arr rows]. rewrite scalars_nums. cbn [bind]. reflexivity.
Qed.
Lemma prob_found g gv v D : dstate gv (Some v) D -> exists Q s o1, state P d xs gv (Some v) s /\ holds P o zs None true o1 /\
  prob_disc nn P g D = Ok (mk_disc (Some (set_loc Probabilities (Some (map vec_arr Q)) (if g then set_glob Probabilities (Some (vec_arr (concat Q))) s else s))) (Some o1) (Some (with_tree o dom ys probs)) None None None None None None (Some (array_split (map (nn ys) zs) P)) None None) /\
  same_lengths Q (array_split xs P) /\ concat Q = map (share probs (combine (map (nn ys) zs) v)) (combine (map (nn ys) zs) v).
Proof.
  intros (s & o1 & -> & H & Ho). rewrite (prob_reads g gv (Some v) s o1 H Ho). pose proof H as (_ & _ & _ & _ & LW & _ & FL & _ & _). assert (Lv : length v = length xs) by (apply FL; reflexivity).
  destruct (prob_concat probs (array_split (map (nn ys) zs) P) (array_split v P)) as (Q & E & SL & CQ); [apply split_same_lengths; [exact HP|rewrite map_length; congruence]|].
  rewrite !array_split_concat in CQ by exact HP. rewrite LW. cbn [option_map subscript bind]. rewrite split_vec.
  assert (PE : prob probs (array_split (map (nn ys) zs) P) (if existsb (qltb 0) probs then array_split v P else []) = Ok Q).
  { destruct (existsb (qltb 0) probs) eqn:X; [exact E|]. unfold prob in *. rewrite X in *. exact E. }
  replace (if existsb (qltb 0) probs then Ok (array_split v P) else Ok []) with (Ok (if existsb (qltb 0) probs then array_split v P else [])) by (destruct (existsb (qltb 0) probs); reflexivity).
  cbn [bind]. rewrite PE. cbn [bind]. exists Q, s, o1. split; [exact H|]. split; [exact Ho|]. split; [reflexivity|]. split; [|exact CQ].
  eapply same_lengths_trans; [exact SL|]. apply split_same_lengths; [exact HP|rewrite map_length; congruence].
Qed.
Lemma prob_missing g gv D : dstate gv None D -> (exists p, In p probs /\ (0 < p)%Qc) -> prob_disc nn P g D = Raise PyTypeError.
Proof.
  intros (s & o1 & -> & H & Ho) (p & Hp & Pp). rewrite (prob_reads g gv None s o1 H Ho). destruct H as (_ & _ & _ & _ & LW & _).
  assert (X : existsb (qltb 0) probs = true) by (apply existsb_exists; exists p; split; [exact Hp|apply qltb_true; exact Pp]). rewrite X, LW. reflexivity.
Qed.
Lemma prob_none g gv D : dstate gv None D -> (exists D1, prob_disc nn P g D = Ok D1 /\ dstate gv None D1) \/ exists e, prob_disc nn P g D = Raise e.
Proof.
  intros (s & o1 & -> & H & Ho). rewrite (prob_reads g gv None s o1 H Ho). pose proof H as (_ & _ & _ & _ & LW & _). rewrite LW. cbn [option_map subscript bind].
  destruct (existsb (qltb 0) probs) eqn:X; [right; eexists; reflexivity|]. left. cbn [bind].
  destruct (prob_concat probs (array_split (map (nn ys) zs) P) (array_split (repeat 0%Qc (length xs)) P)) as (Q & E & SL & CQ); [apply split_same_lengths; [exact HP|rewrite map_length, repeat_length; congruence]|].
  assert (PE : prob probs (array_split (map (nn ys) zs) P) [] = Ok Q) by (unfold prob in *; rewrite X in *; exact E). rewrite PE. cbn [bind]. eexists. split; [reflexivity|]. eexists _, o1. split; [reflexivity|]. split; [|exact Ho].
  assert (S1 : same_lengths Q (array_split xs P)) by (eapply same_lengths_trans; [exact SL|apply split_same_lengths; [exact HP|rewrite map_length; congruence]]).
  destruct (split_concat P Q xs HP S1) as (SC & LC). rewrite <- SC at 1. rewrite vec_blocks. apply state_probs; [exact LC|exact H].
Qed.

(** Where the volumes are after a call *)
Definition moved (c : vol_call) (gl : option (list Qc) * option (list Qc)) : option (list Qc) * option (list Qc) :=
  match defines (length xs) c with
  | Some v => match stores c with InBoth => (Some v, Some v) | InGlobal => (Some v, snd gl) | InLocal => (fst gl, Some v) end
  | None => match c with GlobalToLocal => (fst gl, orelse (fst gl) (snd gl)) | LocalToGlobal => (orelse (snd gl) (fst gl), snd gl) | _ => gl end
  end.
Lemma step_state c gl D : proper P xs c -> dstate (fst gl) (snd gl) D ->
  dstate (fst (moved c gl)) (snd (moved c gl)) (match vol_step nn P c D with Ok D1 => D1 | Raise _ => D end).
Proof.
  destruct gl as [gv lv]. cbn [fst snd]. intros Pc H.
  assert (K : forall f gv' lv', (forall s, state P d xs gv lv s -> exists s1, f s = Ok s1 /\ state P d xs gv' lv' s1) -> dstate gv' lv' (match on_input f D with Ok D1 => D1 | Raise _ => D end)).
  { intros f gv' lv' F. destruct (on_input_state f gv lv gv' lv' D H F) as (D1 & -> & H1). exact H1. }
  destruct c as [g|t v|v|v|bs|bs| | |g]; cbn [proper] in Pc; unfold moved; cbn [defines stores vol_step fst snd].
  - destruct g; cbn [fst snd]; apply K; intros s Hs; [eapply mc_state|eapply mc_local_state]; eassumption.
  - apply K. intros s Hs. eapply measure_state; eassumption.
  - apply K. intros s Hs. unfold measure_cells. rewrite (state_count _ _ _ _ _ _ Hs). eexists. split; [reflexivity|]. eapply state_setg; eassumption.
  - apply K. intros s Hs. eexists. split; [reflexivity|]. eapply state_setg; eassumption.
  - apply K. intros s Hs. eexists. split; [reflexivity|]. destruct (split_concat P bs xs HP Pc) as (SC & LC). rewrite <- SC at 2. rewrite vec_blocks. eapply state_setl; eassumption.
  - apply K. intros s Hs. destruct Pc as (SL & T). apply (local_state P d xs gv lv bs s HP SL T Hs).
  - apply K. intros s Hs. apply state_g2l. exact Hs.
  - apply K. intros s Hs. apply state_l2g; [exact HP|exact Hs].
  - destruct lv as [v|].
    + destruct (prob_found g gv v D H) as (Q & s & o1 & Hs & Ho & -> & SL & CQ). eexists _, o1. split; [reflexivity|]. split; [|exact Ho].
      destruct (split_concat P Q xs HP SL) as (SC & LC). rewrite <- SC at 1. rewrite vec_blocks. apply state_probs; [exact LC|exact Hs].
    + destruct (prob_none g gv D H) as [(D1 & -> & H1)|(e & ->)]; assumption.
Qed.
Lemma run_state h gl D : Forall (proper P xs) h -> dstate (fst gl) (snd gl) D ->
  let gl' := fold_left (fun gl c => moved c gl) h gl in dstate (fst gl') (snd gl') (vol_run nn P h D).
Proof.
  revert gl D. induction h as [|c h IH]; intros gl D F H; [exact H|]. inversion F; subst. unfold vol_run. cbn [fold_left]. apply IH; [assumption|]. apply step_state; assumption.
Qed.
End Disc.

(** ** Where the volumes of the last defining call are in the end *)
Section Moves.
Context (xs : list cell).
Notation runs := (fold_left (fun gl c => moved xs c gl)).
Lemma moved_none c gl : defines 0 c = None -> moved xs c gl = match c with GlobalToLocal => (fst gl, orelse (fst gl) (snd gl)) | LocalToGlobal => (orelse (snd gl) (fst gl), snd gl) | _ => gl end.
Proof. unfold moved. destruct c; cbn [defines]; intros E; try discriminate; reflexivity. Qed.
Lemma runs_both h v : defines_none h -> runs h (Some v, Some v) = (Some v, Some v).
Proof. induction 1 as [|c h E H IH]; [reflexivity|]. cbn [fold_left]. rewrite (moved_none c _ E). destruct c; cbn [fst snd orelse]; exact IH. Qed.
Lemma runs_global h u lv : defines_none h -> first_move h = Some true -> snd (runs h (Some u, lv)) = Some u.
Proof.
  intros H. revert lv. induction H as [|c h E H IH]; intros lv F; [discriminate|]. cbn [fold_left]. rewrite (moved_none c _ E).
  destruct c; cbn [first_move] in F; try discriminate; try (apply IH; exact F). cbn [fst snd orelse]. rewrite runs_both by exact H. reflexivity.
Qed.
Lemma runs_local h gv v : defines_none h -> first_move h <> Some true -> snd (runs h (gv, Some v)) = Some v.
Proof.
  intros H. revert gv. induction H as [|c h E H IH]; intros gv F; [reflexivity|]. cbn [fold_left]. rewrite (moved_none c _ E).
  destruct c; cbn [first_move] in F; try discriminate; try (apply IH; exact F); [exfalso; apply F; reflexivity|]. cbn [fst snd orelse]. rewrite runs_both by exact H. reflexivity.
Qed.
Lemma runs_last h1 c h2 gl v : defines (length xs) c = Some v -> defines_none h2 -> in_use c h2 -> snd (runs (h1 ++ c :: h2) gl) = Some v.
Proof.
  intros E N U. rewrite fold_left_app. cbn [fold_left]. generalize (runs h1 gl). clear gl. intros [gv lv]. unfold moved at 2. rewrite E. unfold in_use in U. destruct (stores c); cbn [fst snd].
  - rewrite runs_both by exact N. reflexivity.
  - apply runs_global; assumption.
  - apply runs_local; assumption.
Qed.
Lemma runs_only_global h gv : only_global h -> snd (runs h (gv, None)) = None.
Proof. intros H. revert gv. induction H as [|c h E H IH]; intros gv; [reflexivity|]. cbn [fold_left]. destruct c; try contradiction; unfold moved; cbn [defines stores fst snd orelse]; apply IH. Qed.
End Moves.

(** ** The theorems *)
Lemma start nn P d o g model setter dom dom' xs ys probs : 0 < P -> row_model d o g model ->
  exists D, evaluated nn P model setter (values_set d dom xs) (probability_set o dom' ys probs) = Ok D /\ dstate nn P d o dom' ys probs xs (map g xs) None None D.
Proof.
  intros HP M. unfold evaluated. destruct (qoi_global P d o g model xs None false _ HP M (values_holds P d dom xs)) as (s2 & o1 & -> & H2 & Ho); [intros ? [=]|]. cbn [bind].
  rewrite (define_output_lemma nn P setter o dom' ys probs (map g xs) s2 o1); [|rewrite (proj2 (proj2 Ho)); reflexivity|exact (proj1 Ho)].
  eexists. split; [reflexivity|]. exists s2, o1. split; [reflexivity|]. split; [|exact Ho]. destruct H2 as (D & G & L).
  split; [exact D|]. split; [apply G|]. split; [apply L|]. split; [apply G|]. split; [apply L|]. split; [intros ? [=]|]. split; [intros ? [=]|]. split.
  - intros a x E. rewrite G in E. destruct a; try discriminate. injection E as <-. reflexivity.
  - intros a bs E. rewrite L in E. destruct a; try discriminate. injection E as <-. exists (mk_arr xs [d]). split; reflexivity.
Qed.
Lemma gives_lemma nn P d o g model setter dom dom' xs ys probs h b v : 0 < P -> row_model d o g model -> xs <> [] -> ys <> [] -> length probs = length ys -> nonneg probs ->
  Forall (proper P xs) h -> snd (fold_left (fun gl c => moved xs c gl) h (None, None)) = Some v -> nonneg v ->
  gives P xs b (solution (fun x => nn ys (g x)) probs (combine xs v)) (solve_after nn P model setter h b (values_set d dom xs) (probability_set o dom' ys probs)).
Proof.
  intros HP M NX NY Lp NP F R NV. unfold solve_after. destruct (start nn P d o g model setter dom dom' xs ys probs HP M) as (D & -> & HD). cbn [bind].
  assert (Lz : length (map g xs) = length xs) by apply map_length.
  pose proof (run_state nn P d o dom' ys probs xs (map g xs) HP NX NY Lp Lz h (None, None) D F HD) as H. cbv zeta in H. rewrite R in H.
  assert (Lv : length v = length xs) by (destruct H as (s & o1 & _ & (_ & _ & _ & _ & _ & _ & FL & _ & _) & _); apply FL; reflexivity).
  destruct (prob_found nn P d o dom' ys probs xs (map g xs) HP NY Lp Lz b _ v _ H) as (Q & s & o1 & Hs & Ho & -> & SL & CQ).
  rewrite map_map in CQ. rewrite solution_share in CQ by (try assumption; congruence). split.
  - intros ->. cbn [global_probabilities d_in set_loc set_glob glob]. rewrite upd_same. cbn [option_map vec_arr rows]. rewrite CQ. reflexivity.
  - exists Q. cbn [local_probabilities d_in set_loc loc]. rewrite upd_same. cbn [option_map]. rewrite map_map. split; [reflexivity|]. split; assumption.
Qed.
Lemma last_lemma nn P d o g model setter dom dom' xs ys probs h1 c h2 b v : 0 < P -> row_model d o g model -> xs <> [] -> ys <> [] -> length probs = length ys -> nonneg probs ->
  Forall (proper P xs) (h1 ++ [c]) -> defines (length xs) c = Some v -> nonneg v -> defines_none h2 -> in_use c h2 ->
  gives P xs b (solution (fun x => nn ys (g x)) probs (combine xs v)) (solve_after nn P model setter (h1 ++ c :: h2) b (values_set d dom xs) (probability_set o dom' ys probs)).
Proof.
  intros HP M NX NY Lp NP F E NV N U. apply gives_lemma; try assumption; [|apply runs_last; assumption].
  apply Forall_app in F. destruct F as [F1 F2]. inversion F2; subst. apply Forall_app. split; [exact F1|]. constructor; [assumption|].
  clear -N. induction N as [|a l E N IH]; constructor; [destruct a; try discriminate; exact I|exact IH].
Qed.
Lemma none_proper P xs h : defines_none h -> Forall (proper P xs) h.
Proof. intros N. induction N as [|a l E N IH]; constructor; [destruct a; try discriminate; exact I|exact IH]. Qed.
(** Volumes stored globally only are not used while there are local ones *)
Lemma ignored_lemma nn P d o g model setter dom dom' xs ys probs h1 c h2 k h3 b v : 0 < P -> row_model d o g model -> xs <> [] -> ys <> [] -> length probs = length ys -> nonneg probs ->
  Forall (proper P xs) (h1 ++ [c; k]) -> defines (length xs) c = Some v -> nonneg v -> defines_none h2 -> in_use c h2 ->
  stores k = InGlobal -> defines_none h3 -> first_move h3 <> Some true ->
  gives P xs b (solution (fun x => nn ys (g x)) probs (combine xs v)) (solve_after nn P model setter (h1 ++ c :: h2 ++ k :: h3) b (values_set d dom xs) (probability_set o dom' ys probs)).
Proof.
  intros HP M NX NY Lp NP F E NV N U K N3 M3. apply Forall_app in F. destruct F as [F1 F2]. inversion F2 as [|? ? Fc F3]; subst. inversion F3; subst.
  apply gives_lemma; try assumption.
  - apply Forall_app. split; [exact F1|]. constructor; [assumption|]. apply Forall_app. split; [apply none_proper; exact N|]. constructor; [assumption|apply none_proper; exact N3].
  - replace (h1 ++ c :: h2 ++ k :: h3) with ((h1 ++ c :: h2) ++ k :: h3) by (rewrite <- app_assoc; reflexivity). rewrite fold_left_app. pose proof (runs_last xs h1 c h2 (None, None) v E N U) as R.
    destruct (fold_left _ (h1 ++ c :: h2) (None, None)) as [gv lv]. cbn [snd] in R. subst lv. cbn [fold_left]. unfold moved at 2.
    destruct k; cbn [stores] in K; try discriminate; cbn [defines stores fst snd]; try (apply runs_local; assumption); destruct globalize; discriminate.
Qed.
(** Volumes stored locally only are lost by global_to_local *)
Lemma lost_lemma nn P d o g model setter dom dom' xs ys probs h1 c h2 k h3 b v : 0 < P -> row_model d o g model -> xs <> [] -> ys <> [] -> length probs = length ys -> nonneg probs ->
  Forall (proper P xs) (h1 ++ [c; k]) -> defines (length xs) c = Some v -> nonneg v -> defines_none h2 -> stores c = InBoth ->
  stores k = InLocal -> defines_none h3 -> first_move h3 = Some true ->
  gives P xs b (solution (fun x => nn ys (g x)) probs (combine xs v)) (solve_after nn P model setter (h1 ++ c :: h2 ++ k :: h3) b (values_set d dom xs) (probability_set o dom' ys probs)).
Proof.
  intros HP M NX NY Lp NP F E NV N U K N3 M3. apply Forall_app in F. destruct F as [F1 F2]. inversion F2 as [|? ? Fc F3]; subst. inversion F3; subst.
  apply gives_lemma; try assumption.
  - apply Forall_app. split; [exact F1|]. constructor; [assumption|]. apply Forall_app. split; [apply none_proper; exact N|]. constructor; [assumption|apply none_proper; exact N3].
  - rewrite fold_left_app. cbn [fold_left]. unfold moved at 2. rewrite E, U. rewrite fold_left_app, runs_both by exact N. cbn [fold_left]. unfold moved at 2.
    destruct k; cbn [stores] in K; try discriminate; try (destruct globalize; discriminate); cbn [defines stores fst snd].
    + destruct globalize; [discriminate|]. apply runs_global; assumption.
    + apply runs_global; assumption.
Qed.
Lemma missing_lemma nn P d o g model setter dom dom' xs ys probs h b : 0 < P -> row_model d o g model -> xs <> [] -> ys <> [] -> length probs = length ys -> (exists p, In p probs /\ (0 < p)%Qc) ->
  Forall (proper P xs) h -> only_global h ->
  solve_after nn P model setter h b (values_set d dom xs) (probability_set o dom' ys probs) = Raise PyTypeError.
Proof.
  intros HP M NX NY Lp NP F O. unfold solve_after. destruct (start nn P d o g model setter dom dom' xs ys probs HP M) as (D & -> & HD). cbn [bind].
  pose proof (run_state nn P d o dom' ys probs xs (map g xs) HP NX NY Lp (map_length _ _) h (None, None) D F HD) as H. cbv zeta in H. rewrite (runs_only_global xs h None O) in H.
  eapply prob_missing; try eassumption. apply map_length.
Qed.
