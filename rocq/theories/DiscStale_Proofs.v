(** Pointers whose lengths do not fit the emulated points any more. *)
From Coq Require Import List Arith Bool QArith Qcanon Lia.
From Verif Require Import Err Num NumPy Lists SampleSet_Model Prob_Model Prob_Proofs Disc_Model.
Import ListNotations.
Local Open Scope nat_scope.
Local Open Scope err_scope.

Lemma take_all {A} (l : list A) idx r : take_idx l idx = Some r -> length r = length idx /\ forall x, In x r <-> exists k, In k idx /\ nth_error l k = Some x.
Proof.
  revert r. induction idx as [|i idx IH]; intros r; cbn [take_idx].
  - intros [= <-]. split; [reflexivity|]. intro x. split; [intros [] | intros (k & [] & _)].
  - destruct (nth_error l i) as [y|] eqn:E; [|discriminate]. destruct (take_idx l idx) as [t|] eqn:T; [|discriminate]. intros [= <-]. destruct (IH t eq_refl) as [L H].
    split; [cbn; rewrite L; reflexivity|]. intro x. cbn [In]. rewrite H. split.
    + intros [<-|(k & I & N)]; [exists i; auto | exists k; auto].
    + intros (k & [<-|I] & N); [left; congruence | right; exists k; auto].
Qed.
Lemma follow_all io_ptr ptr targets : follow io_ptr ptr = Ok targets -> map (@length nat) targets = map (@length nat) ptr /\
  forall i, In i (concat targets) <-> exists k, In k (concat ptr) /\ nth_error io_ptr k = Some i.
Proof.
  revert targets. induction ptr as [|b ptr IH]; intros targets; cbn [follow].
  - intros [= <-]. split; [reflexivity|]. intro i. split; [intros [] | intros (k & [] & _)].
  - destruct (take_idx io_ptr b) as [b'|] eqn:T; [|discriminate]. destruct (follow io_ptr ptr) as [r|e]; [|discriminate]. cbn [bind]. intros [= <-].
    destruct (IH r eq_refl) as [L H]. destruct (take_all _ _ _ T) as [L' H']. split; [cbn [map]; rewrite L, L'; reflexivity|].
    intro i. cbn [concat]. rewrite in_app_iff, H, H'. split.
    + intros [(k & I & N)|(k & I & N)]; exists k; (split; [apply in_or_app; auto | exact N]).
    + intros (k & I & N). apply in_app_or in I. destruct I as [I|I]; [left | right]; exists k; auto.
Qed.
Lemma count_pos i targets : (0 <? cell_count i targets) = true <-> In i (concat targets).
Proof.
  rewrite Nat.ltb_lt. unfold cell_count. induction targets as [|b t IH]; cbn [map list_sum fold_right concat]; [split; [lia | intros []]|].
  change (fold_right Init.Nat.add 0 (map (local_count i) t)) with (list_sum (map (local_count i) t)). rewrite in_app_iff, <- IH.
  assert (B : 0 < local_count i b <-> In i b).
  { unfold local_count. split.
    - intro H. destruct (filter (fun k => k =? i) b) as [|x l] eqn:F; [cbn in H; lia|]. assert (I : In x (filter (fun k => k =? i) b)) by (rewrite F; left; reflexivity).
      apply filter_In in I. destruct I as [I E]. apply Nat.eqb_eq in E. subst x. exact I.
    - intro I. assert (J : In i (filter (fun k => k =? i) b)) by (apply filter_In; split; [exact I | apply Nat.eqb_refl]). destruct (filter _ b); [destruct J | cbn; lia]. }
  rewrite <- B. lia.
Qed.
Lemma enumerate_in {A} (l : list A) i x : In (i, x) (enumerate l) <-> nth_error l i = Some x.
Proof.
  unfold enumerate. assert (G : forall o, In (i, x) (combine (seq o (length l)) l) <-> exists j, i = o + j /\ nth_error l j = Some x).
  { induction l as [|a l IH]; intro o; cbn [length seq combine In]; [split; [intros [] | intros (j & _ & H); destruct j; discriminate]|].
    rewrite IH. split.
    - intros [H|(j & -> & N)]; [injection H as <- <-; exists 0; split; [lia | reflexivity] | exists (S j); split; [lia | exact N]].
    - intros ([|j] & -> & N); [left; cbn in N; f_equal; [lia | congruence] | right; exists j; split; [lia | exact N]]. }
  rewrite (G 0). split; [intros (j & -> & N); exact N | intro N; exists i; auto].
Qed.
Lemma hit_iff probs targets : existsb (fun ip => qltb 0 (snd ip) && (0 <? cell_count (fst ip) targets)) (enumerate probs) = true <->
  exists i p, nth_error probs i = Some p /\ (0 < p)%Qc /\ In i (concat targets).
Proof.
  rewrite existsb_exists. split.
  - intros ((i & p) & I & H). cbn [fst snd] in H. apply andb_true_iff in H. destruct H as [H1 H2]. apply qltb_true in H1. apply count_pos in H2. apply enumerate_in in I. exists i, p. auto.
  - intros (i & p & N & Pp & I). exists (i, p). split; [apply enumerate_in; exact N|]. cbn [fst snd]. apply andb_true_iff. split; [apply qltb_true; exact Pp | apply count_pos; exact I].
Qed.

Lemma stale_sizes_lemma : forall nn P g (d : disc cell) c0 c1 pr n em bs io_b io_ptr ptr probs,
  check_nums P d = Ok c0 -> d_prob d = Some pr -> check_num P pr = Ok n -> d_ein d = Some em -> check_num P em = Ok c1 ->
  io_loc d = Some io_b -> io d = Some io_ptr -> ii_loc d = Some ptr -> loc em Values = Some bs -> out_probs n pr = Ok probs ->
  (forall k, In k (concat ptr) -> k < length io_ptr) ->
  map (@length nat) ptr <> map (fun b => length (rows b)) bs ->
  (forall i p k, nth_error probs i = Some p -> (0 < p)%Qc -> In k (concat ptr) -> nth_error io_ptr k = Some i -> emulated_disc nn P g d = Raise PyIndexError) /\
  ((forall i p k, nth_error probs i = Some p -> (0 < p)%Qc -> In k (concat ptr) -> nth_error io_ptr k <> Some i) ->
   exists d' em', emulated_disc nn P false d = Ok d' /\ d_ein d' = Some em' /\
     loc em' Probabilities = Some (map (fun b => vec_arr (repeat 0%Qc (length (rows b)))) bs)).
Proof.
  intros nn P g d c0 c1 pr n em bs io_b io_ptr ptr probs EC Hpr Hn Hem EE Hil Hi Hp Hv Ho R N.
  destruct (follow_ok io_ptr ptr R) as (targets & F & _ & _). destruct (follow_all _ _ _ F) as [L H].
  assert (G : forall g', emulated_disc nn P g' d = do q <- emulated_probs probs io_ptr ptr (map (fun b => length (rows b)) bs) ;
      let em2 := set_loc Probabilities (Some (map vec_arr q)) em in do em3 <- (if g' then local_to_global em2 else Ok em2) ; Ok (with_ein (Some em3) d)).
  { intro g'. unfold emulated_disc. rewrite EC. cbn [bind]. rewrite Hpr. cbn [need bind]. rewrite Hn. cbn [bind]. rewrite Hem. cbn [need bind]. rewrite EE. cbn [bind]. rewrite Hil. cbn [bind]. rewrite Hp. cbn [bind].
    rewrite Hem. cbn [need bind]. rewrite Hv. cbn [need bind]. rewrite Hi. cbn [subscript bind]. rewrite Hp. cbn [subscript bind]. rewrite F. cbn [bind]. rewrite Ho. cbn [bind]. reflexivity. }
  assert (E : emulated_probs probs io_ptr ptr (map (fun b => length (rows b)) bs) =
    if existsb (fun ip => qltb 0 (snd ip) && (0 <? cell_count (fst ip) targets)) (enumerate probs) then Raise PyIndexError else Ok (map (fun k => repeat 0%Qc k) (map (fun b => length (rows b)) bs))).
  { unfold emulated_probs. rewrite F. cbn [bind]. destruct (list_eq_dec Nat.eq_dec _ _) as [K|K]; [congruence | reflexivity]. }
  split.
  - intros i p k Np Pp Ik Nk. rewrite G, E. replace (existsb _ _) with true; [reflexivity|]. symmetry. apply hit_iff. exists i, p. split; [exact Np|]. split; [exact Pp|]. apply H. exists k. auto.
  - intro Q. rewrite G, E. replace (existsb _ _) with false.
    + cbn [bind]. eexists. eexists. split; [reflexivity|]. split; [reflexivity|]. cbn. rewrite !map_map. reflexivity.
    + symmetry. apply not_true_iff_false. intro X. apply hit_iff in X. destruct X as (i & p & Np & Pp & I). apply H in I. destruct I as (k & Ik & Nk). exact (Q i p k Np Pp Ik Nk).
Qed.
