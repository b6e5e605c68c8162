From Coq Require Import List Arith Bool QArith Qcanon Permutation Lia.
From Verif Require Import Err Num NumPy Lists SampleSet_Model SampleSet_Spec SampleSet_Proofs Prob_Model Prob_Spec Prob_Proofs Disc_Model Disc_Spec Disc_Proofs DiscPtr_Proofs.
Import ListNotations.
Local Open Scope nat_scope.
Local Open Scope err_scope.

Section Prob.
Variable nn : list cell -> cell -> nat.
Variable P : nat.
Hypothesis HP : 0 < P.
Implicit Types (s t : sset cell) (d : disc cell).

(** The part of prob after the pointers, as a function of what it reads. *)
Definition prob_rest (g : bool) (probs : list Qc) (ptrs : list (list nat)) (inp : sset cell)
  : result (option (arr cell) * option (list (arr cell))) :=
  do inp1 <- localized P inp ;
  do vols <- (if existsb (qltb 0) probs
              then do v <- subscript (loc inp1 Volumes) ; scalar_blocks v
              else Ok []) ;
  do q <- prob probs ptrs vols ;
  Ok (if g then Some (vec_arr (concat q)) else glob inp1 Probabilities, Some (map vec_arr q)).

Lemma prob_value g d d1 k pr op inp ptrs probs :
  check_nums P d = Ok k -> d_prob d = Some pr -> check_num P pr = Ok op -> out_probs op pr = Ok probs ->
  match io_loc d with None => set_io_ptr nn P false d | Some _ => Ok d end = Ok d1 ->
  d_in d1 = Some inp -> io_loc d1 = Some ptrs ->
  input_probabilities (prob_disc nn P g d) = rmap Some (prob_rest g probs ptrs inp).
Proof.
  intros E1 E2 E3 E4 E5 E6 E7. unfold prob_disc, prob_rest, input_probabilities.
  rewrite E1, E2. simpl. rewrite E3. simpl. rewrite E5. simpl. rewrite E6. simpl. rewrite E7. simpl. rewrite E4. simpl.
  destruct (localized P inp) as [inp1|]; [|reflexivity]. simpl.
  destruct (if existsb (qltb 0) probs then _ else _) as [vols|]; [|reflexivity]. simpl.
  destruct (prob probs ptrs vols) as [q|]; [|reflexivity]. simpl. unfold stored. simpl.
  destruct g; simpl; rewrite ?upd_same; reflexivity.
Qed.

(** A failing step before the pointers *)
Lemma prob_fails_early g d : (exists e, check_nums P d = Raise e \/ d_prob d = None \/
    exists pr, d_prob d = Some pr /\ check_num P pr = Raise e) ->
  exists e, forall d', (check_nums P d' = check_nums P d) -> d_prob d' = d_prob d -> prob_disc nn P g d' = Raise e.
Proof.
  intros (e & H). unfold prob_disc. destruct (check_nums P d) as [k|e'] eqn:E.
  - destruct H as [H|[H|(pr & Hp & Hc)]]; [discriminate|..].
    + exists PyAttributeError. intros d' -> ->. simpl. rewrite H. reflexivity.
    + exists e. intros d' -> ->. simpl. rewrite Hp. simpl. rewrite Hc. reflexivity.
  - exists e'. intros d' -> _. reflexivity.
Qed.

Lemma check_nums_sets d d' : d_in d = d_in d' -> d_out d = d_out d' -> check_nums P d = check_nums P d'.
Proof. unfold check_nums. intros -> ->. reflexivity. Qed.

(** set_io_ptr when the io pointer is already current *)
Lemma io_again o i d p g : Inv nn P o i d -> io_loc d = Some p -> exists pr1 out,
  d_out d = Some out /\ loc out Values <> None /\
  set_io_ptr nn P g (same_sets_anew d) =
  Ok (mk_disc (d_in d) (d_out d) (Some pr1) (d_ein d) (d_eout d) (d_obs d)
        (if g then Some (concat p) else None) None None (Some p) None None).
Proof.
  intros I Hp. destruct (I_io _ _ _ _ _ I p Hp) as (s & t & bs & v & Es & Et & L & G & S & E).
  destruct (I_prob _ _ _ _ _ I t Et) as (m & Gt).
  destruct (query_blocks_ok nn P t m v bs Gt G S) as (t1 & Q & _ & _).
  exists t1, s. split; [exact Es|]. split; [congruence|]. unfold set_io_ptr. simpl.
  rewrite Es. simpl. rewrite (localized_id P s bs L). simpl. rewrite Et. simpl. unfold loc_values. rewrite L. simpl.
  rewrite Q. simpl. rewrite <- E. unfold with_io, with_prob, with_out. simpl. destruct g; reflexivity.
Qed.

Lemma prob_current o i d g : Inv nn P o i d ->
  input_probabilities (prob_disc nn P g d) = input_probabilities (prob_disc nn P g (same_sets_anew d)).
Proof.
  intro I. set (d0 := same_sets_anew d).
  assert (C : check_nums P d0 = check_nums P d) by reflexivity.
  destruct (check_nums P d) as [k|e] eqn:E1.
  2:{ unfold prob_disc. rewrite C, E1. reflexivity. }
  destruct (d_prob d) as [pr|] eqn:E2.
  2:{ unfold prob_disc. rewrite C, E1. simpl. rewrite E2. reflexivity. }
  destruct (check_num P pr) as [op|e] eqn:E3.
  2:{ unfold prob_disc. rewrite C, E1. simpl. rewrite E2. simpl. rewrite E3. reflexivity. }
  destruct (io_loc d) as [p|] eqn:Ep.
  - destruct (io_again o i d p false I Ep) as (pr1 & out & Eo & Lo & Eq). fold d0 in Eq.
    destruct (d_in d) as [inp|] eqn:Ei.
    2:{ unfold check_nums in E1. rewrite Ei, Eo in E1. simpl in E1. inv_bind E1. simpl in E1. discriminate. }
    destruct (out_probs op pr) as [probs|e] eqn:E4.
    + rewrite (prob_value g d d k pr op inp p probs) by (rewrite ?Ep; assumption || reflexivity).
      rewrite (prob_value g d0 _ k pr op inp p probs C E2 E3 E4 Eq eq_refl eq_refl). reflexivity.
    + unfold prob_disc. rewrite C, E1. simpl. rewrite E2. simpl. rewrite E3. simpl. rewrite Ep. simpl.
      change (set_io_ptr nn P false (same_sets_anew d)) with (set_io_ptr nn P false d0).
      rewrite Eq. simpl. rewrite Ei. simpl.
      destruct (localized P inp) as [inp1|]; simpl; [|reflexivity]. rewrite Ep. simpl. rewrite E4. reflexivity.
  - (* no pointer: both compute it from the same sets *)
    assert (Z : forall r r', set_io_ptr nn P false d = r -> set_io_ptr nn P false d0 = r' ->
      match r, r' with
      | Ok a, Ok b => d_in a = d_in b /\ io_loc a = io_loc b
      | Raise x, Raise y => x = y
      | _, _ => False end).
    { intros r r' <- <-. unfold set_io_ptr. simpl.
      destruct (d_out d) as [out|]; simpl; [|reflexivity]. destruct (localized P out); simpl; [|reflexivity].
      destruct (need (d_prob d)); simpl; [|reflexivity]. destruct (loc_values a); simpl; [|reflexivity].
      destruct (query_blocks nn P a1 a0); simpl; auto. }
    unfold prob_disc. rewrite C, E1. simpl. rewrite E2. simpl. rewrite E3. simpl. rewrite Ep.
    change (io_loc d0) with (@None (list (list nat))). cbv iota.
    specialize (Z _ _ eq_refl eq_refl).
    destruct (set_io_ptr nn P false d) as [a|x], (set_io_ptr nn P false d0) as [b|y]; simpl; try contradiction; [|congruence].
    destruct Z as [Z1 Z2]. rewrite Z1, Z2. unfold input_probabilities.
    destruct (d_in b) as [inp|]; simpl; [|reflexivity]. destruct (localized P inp); simpl; [|reflexivity].
    destruct (io_loc b); simpl; [|reflexivity]. destruct (out_probs op pr); simpl; [|reflexivity].
    destruct (if existsb (qltb 0) a1 then _ else _); simpl; [|reflexivity].
    destruct (prob a1 l a2); simpl; [|reflexivity]. destruct g; reflexivity.
Qed.

(** *** emulated samples *)
Definition em_rest (g : bool) (probs_r : result (list Qc)) (io_ptr : list nat) (ptr : list (list nat)) (em1 : sset cell)
  : result (option (arr cell) * option (list (arr cell))) :=
  do bs <- need (loc em1 Values) ;
  do targets <- follow io_ptr ptr ;
  do probs <- probs_r ;
  do q <- emulated_probs probs io_ptr ptr (map (fun b => length (rows b)) bs) ;
  let em2 := set_loc Probabilities (Some (map vec_arr q)) em1 in
  do em3 <- (if g then local_to_global em2 else Ok em2) ;
  Ok (glob em3 Probabilities, loc em3 Probabilities).

(** The pointer part of prob_on_emulated_samples *)
Definition em_ptrs d : result (disc cell) :=
  do d1 <- (match io_loc d with None => set_io_ptr nn P true d | Some _ => Ok d end) ;
  match ii_loc d1 with None => set_ii_ptr nn P false d1 | Some _ => Ok d1 end.
Definition em_checks d : result (nat * sset cell) :=
  do _ <- check_nums P d ;
  do pr <- need (d_prob d) ;
  do op_num <- check_num P pr ;
  do em <- need (d_ein d) ;
  do _ <- check_num P em ;
  Ok (op_num, pr).

Lemma emulated_value g d d2 op pr io_ptr ptr em1 :
  em_checks d = Ok (op, pr) -> em_ptrs d = Ok d2 -> d_ein d2 = Some em1 -> io d2 = Some io_ptr -> ii_loc d2 = Some ptr ->
  emulated_probabilities (emulated_disc nn P g d) = rmap Some (em_rest g (out_probs op pr) io_ptr ptr em1).
Proof.
  intros C E1 E2 E3 E4. unfold em_checks in C. inv_bind C. inv_bind C. inv_bind C. inv_bind C. inv_bind C.
  injection C as -> ->.
  unfold emulated_disc, em_rest, emulated_probabilities.
  rewrite E. simpl. rewrite E0. simpl. rewrite E5. simpl. rewrite E6. simpl. rewrite E7. simpl.
  unfold em_ptrs in E1. inv_bind E1. rewrite E8. simpl. rewrite E1. simpl. rewrite E2. simpl.
  destruct (loc em1 Values) as [bs|]; simpl; [|reflexivity]. rewrite E3. simpl. rewrite E4. simpl.
  destruct (follow io_ptr ptr); simpl; [|reflexivity]. destruct (out_probs op pr); simpl; [|reflexivity].
  destruct (emulated_probs _ _ _ _) as [q|]; simpl; [|reflexivity].
  destruct (if g then _ else _); simpl; [|reflexivity]. reflexivity.
Qed.

Lemma emulated_early g d e : em_checks d = Raise e -> emulated_disc nn P g d = Raise e.
Proof.
  unfold em_checks, emulated_disc. destruct (check_nums P d); simpl; [|congruence].
  destruct (need (d_prob d)); simpl; [|congruence]. destruct (check_num P a0); simpl; [|congruence].
  destruct (need (d_ein d)); simpl; [|congruence]. destruct (check_num P a2); simpl; [discriminate|congruence].
Qed.
Lemma emulated_mid g d op pr e : em_checks d = Ok (op, pr) -> em_ptrs d = Raise e -> emulated_disc nn P g d = Raise e.
Proof.
  intros C E. unfold em_checks in C. inv_bind C. inv_bind C. inv_bind C. inv_bind C. inv_bind C.
  unfold emulated_disc. rewrite E0. simpl. rewrite E1. simpl. rewrite E2. simpl. rewrite E3. simpl. rewrite E4. simpl.
  unfold em_ptrs in E. destruct (match io_loc d with None => _ | Some _ => _ end); simpl in *; [|congruence].
  rewrite E. reflexivity.
Qed.

(** set_ii_ptr reads and writes only the input side *)
Lemma ii_frame d d' : d_ein d = d_ein d' -> d_in d = d_in d' -> ii d = ii d' ->
  forall g, match set_ii_ptr nn P g d, set_ii_ptr nn P g d' with
  | Ok a, Ok b => d_ein a = d_ein b /\ d_in a = d_in b /\ ii_loc a = ii_loc b /\ io a = io d /\ io b = io d'
  | Raise x, Raise y => x = y
  | _, _ => False end.
Proof.
  intros E1 E2 E3 g. unfold set_ii_ptr. rewrite E1, E2.
  destruct (need (d_ein d')); simpl; [|reflexivity]. destruct (localized P a); simpl; [|reflexivity].
  destruct (need (d_in d')); simpl; [|reflexivity]. destruct (loc_values a0); simpl; [|reflexivity].
  destruct (query_blocks nn P a2 a1); simpl; auto.
Qed.

Lemma ii_again o i d p : Inv nn P o i d -> ii_loc d = Some p -> forall d1, d_ein d1 = d_ein d -> d_in d1 = d_in d ->
  exists a, set_ii_ptr nn P false d1 = Ok a /\ d_ein a = d_ein d /\ ii_loc a = Some p /\ io a = io d1.
Proof.
  intros I Hp d1 E1 E2. destruct (I_ii _ _ _ _ _ I p Hp) as (s & t & bs & v & Es & Et & L & G & S & E).
  destruct (I_in _ _ _ _ _ I t Et) as (m & Gt).
  destruct (query_blocks_ok nn P t m v bs Gt G S) as (t1 & Q & _ & _).
  unfold set_ii_ptr. rewrite E1, E2, Es. simpl. rewrite (localized_id P s bs L). simpl. rewrite Et. simpl.
  unfold loc_values. rewrite L. simpl. rewrite Q. simpl. eexists. split; [reflexivity|]. simpl. subst p. auto.
Qed.

Lemma emulated_current o i d g : Inv nn P o i d -> agree (io d) (io_loc d) -> (io_loc d <> None -> io d <> None) ->
  emulated_probabilities (emulated_disc nn P g d) = emulated_probabilities (emulated_disc nn P g (same_sets_anew d)).
Proof.
  intros I A B. set (d0 := same_sets_anew d).
  assert (C : em_checks d0 = em_checks d) by reflexivity.
  destruct (em_checks d) as [[op pr]|e] eqn:EC.
  2:{ rewrite !(emulated_early _ _ e) by assumption. reflexivity. }
  (* the io pointers *)
  assert (Z : exists r r', match io_loc d with None => set_io_ptr nn P true d | Some _ => Ok d end = r /\
     set_io_ptr nn P true d0 = r' /\
     match r, r' with
     | Ok a, Ok b => d_ein a = d_ein d /\ d_ein b = d_ein d /\ d_in a = d_in d /\ d_in b = d_in d /\ ii_loc a = ii_loc d /\
                     ii_loc b = None /\ io a = io b /\ ii a = ii d
     | Raise x, Raise y => x = y
     | _, _ => False end).
  { do 2 eexists. split; [reflexivity|]. split; [reflexivity|]. destruct (io_loc d) as [p|] eqn:Ep.
    - destruct (io_again o i d p true I Ep) as (pr1 & out & Eo & Lo & Eq). fold d0 in Eq. rewrite Eq. simpl.
      repeat split. destruct (io d) as [x|] eqn:Ex; [|exfalso; apply B; congruence].
      rewrite (A x p eq_refl eq_refl). reflexivity.
    - unfold set_io_ptr. simpl.
      destruct (d_out d) as [out|]; simpl; [|reflexivity]. destruct (localized P out); simpl; [|reflexivity].
      destruct (need (d_prob d)); simpl; [|reflexivity]. destruct (loc_values a); simpl; [|reflexivity].
      destruct (query_blocks nn P a1 a0); simpl; auto 10. }
  destruct Z as (r & r' & Zr & Zr' & Z).
  assert (W : match em_ptrs d, em_ptrs d0 with
     | Ok a, Ok b => d_ein a = d_ein b /\ ii_loc a = ii_loc b /\ io a = io b
     | Raise x, Raise y => x = y
     | _, _ => False end).
  { unfold em_ptrs. rewrite Zr. change (io_loc d0) with (@None (list (list nat))). cbv iota. rewrite Zr'.
    destruct r as [a|x], r' as [b|y]; simpl; try contradiction; [|exact Z].
    destruct Z as (Z1 & Z2 & Z3 & Z4 & Z5 & Z6 & Z7 & Z8). rewrite Z5, Z6. destruct (ii_loc d) as [p|] eqn:Ep.
    - destruct (ii_again o i d p I Ep b Z2 Z4) as (b' & Eb & Eb1 & Eb2 & Eb3). rewrite Eb. repeat split; congruence.
    - assert (F : forall x y, d_ein x = d_ein y -> d_in x = d_in y -> io x = io y ->
        match set_ii_ptr nn P false x, set_ii_ptr nn P false y with
        | Ok a, Ok b => d_ein a = d_ein b /\ ii_loc a = ii_loc b /\ io a = io b
        | Raise x, Raise y => x = y
        | _, _ => False end).
      { intros x y F1 F2 F3. unfold set_ii_ptr. rewrite F1, F2.
        destruct (need (d_ein y)); simpl; [|reflexivity]. destruct (localized P a0); simpl; [|reflexivity].
        destruct (need (d_in y)); simpl; [|reflexivity]. destruct (loc_values a1); simpl; [|reflexivity].
        destruct (query_blocks nn P a3 a2); simpl; auto. }
      apply F; congruence. }
  destruct (em_ptrs d) as [a|x] eqn:Ea, (em_ptrs d0) as [b|y] eqn:Eb; try contradiction.
  2:{ rewrite (emulated_mid g d op pr x EC Ea), (emulated_mid g d0 op pr y C Eb). congruence. }
  destruct W as (W1 & W2 & W3).
  destruct (d_ein a) as [em1|] eqn:Em.
  2:{ (* impossible: checked before; both raise the same anyway *)
    unfold em_checks in EC. inv_bind EC. inv_bind EC. inv_bind EC. inv_bind EC. apply need_ok in E2.
    exfalso. unfold em_ptrs in Ea. rewrite Zr in Ea. inv_bind Ea. match goal with K : r = Ok _ |- _ => rewrite K in Z end. destruct r' as [b1|]; [|destruct Z].
    destruct Z as (Z1 & _). destruct (ii_loc x3) eqn:Ei; [injection Ea as ->; congruence|].
    destruct (set_ii_parts nn P _ _ _ Ea) as (s1 & q & _ & Hq). rewrite Hq in Em. discriminate. }
  destruct (io a) as [iop|] eqn:Eio.
  2:{ exfalso. unfold em_ptrs in Ea. rewrite Zr in Ea. inv_bind Ea. match goal with K : r = Ok _ |- _ => rewrite K in Z end. destruct r' as [b1|]; [|destruct Z].
    destruct Z as (_ & _ & _ & _ & _ & _ & Z7 & _).
    assert (Nb : io b1 <> None).
    { destruct (io_ptr_fields nn P _ _ _ Zr') as (p & _ & E9 & _). congruence. }
    destruct (ii_loc x) eqn:Ei; [injection Ea as ->; congruence|].
    destruct (ii_ptr_fields nn P _ _ _ Ea) as (p & _ & _ & E3 & _). congruence. }
  destruct (ii_loc a) as [ptr|] eqn:Eii.
  2:{ exfalso. unfold em_ptrs in Ea. inv_bind Ea. destruct (ii_loc x) eqn:Ei; [injection Ea as ->; congruence|].
    destruct (ii_ptr_fields nn P _ _ _ Ea) as (p & E3 & _). congruence. }
  rewrite (emulated_value g d a op pr iop ptr em1) by assumption.
  rewrite (emulated_value g d0 b op pr iop ptr em1) by (assumption || congruence). reflexivity.
Qed.

(** *** C65 *)
Lemma prob_history g ops d d' : no_pointers d -> good_sets P d -> Forall (good_argument P) ops ->
  no_late_replacement false false ops = true -> drun nn P ops d = Ok d' ->
  input_probabilities (prob_disc nn P g d') = input_probabilities (prob_disc nn P g (same_sets_anew d')).
Proof.
  intros N G F B H. destruct (run_inv nn P HP ops _ _ _ _ B F (no_pointers_inv nn P d N G) H) as (o & i & I).
  exact (prob_current o i d' g I).
Qed.
Lemma emulated_history g ops d d' : no_pointers d -> good_sets P d -> Forall (good_argument P) ops ->
  no_late_replacement false false ops = true -> no_late_local Io false ops = true -> drun nn P ops d = Ok d' ->
  (io_loc d' <> None -> io d' <> None) ->
  emulated_probabilities (emulated_disc nn P g d') = emulated_probabilities (emulated_disc nn P g (same_sets_anew d')).
Proof.
  intros N G F B B' H Q. destruct (run_inv nn P HP ops _ _ _ _ B F (no_pointers_inv nn P d N G) H) as (o & i & I).
  apply (emulated_current o i d' g I); [|exact Q]. exact (pointers_agree_lemma nn P Io ops d d' N B' H).
Qed.

(** *** C66 *)
Lemma emulated_needs_global g d : io d = None -> io_loc d <> None -> forall d2, emulated_disc nn P g d <> Ok d2.
Proof.
  intros H1 H2 d2 H. unfold emulated_disc in H.
  inv_bind H. inv_bind H. inv_bind H. inv_bind H. inv_bind H. inv_bind H. inv_bind H. inv_bind H. inv_bind H. inv_bind H.
  destruct (io_loc d); [|congruence]. injection E4 as <-.
  assert (Q : io x5 = None).
  { destruct (ii_loc d); [injection E5 as <-; exact H1|].
    destruct (ii_ptr_fields nn P _ _ _ E5) as (p & _ & _ & E4 & _). congruence. }
  unfold subscript in E8. rewrite Q in E8. discriminate.
Qed.

Lemma prob_disc_ptr g d d1 : prob_disc nn P g d = Ok d1 -> io d1 = io d /\ io_loc d1 <> None.
Proof.
  unfold prob_disc. intro H. repeat inv_bind H. cbv zeta in H. injection H as <-. simpl.
  destruct (io_loc d) eqn:Ed.
  - injection E2 as <-. rewrite Ed. split; congruence.
  - destruct (io_ptr_fields nn P _ _ _ E2) as (p & A & B & _). rewrite A, B. split; congruence.
Qed.

Lemma prob_then_emulated_lemma g g' d d1 : io d = None -> prob_disc nn P g d = Ok d1 ->
  forall d2, emulated_disc nn P g' d1 <> Ok d2.
Proof. intros H E. destruct (prob_disc_ptr g d d1 E). apply emulated_needs_global; congruence. Qed.

Lemma stored_then_emulated_lemma g s d d1 : io d = None -> store_output_probability nn P s d = Ok d1 ->
  forall d2, emulated_disc nn P g d1 <> Ok d2.
Proof.
  intros H E. unfold store_output_probability in E. destruct (io_ptr_fields nn P _ _ _ E) as (p & A & B & _). simpl in B.
  apply emulated_needs_global; congruence.
Qed.

(** The other order *)
Lemma rest_queried g probs ptrs s s1 n : good_set P s n -> good_set P s1 n -> queried s s1 ->
  prob_rest g probs ptrs s1 = prob_rest g probs ptrs s.
Proof.
  intros G G1 (Q1 & Q2 & Q3). unfold prob_rest, localized. rewrite Q2. destruct (loc s Values).
  - simpl. rewrite Q2, (Q1 Probabilities) by discriminate. reflexivity.
  - destruct (global_to_local P s) as [a|] eqn:E; [|unfold global_to_local in E; rewrite (ready_count P s n (proj1 G)) in E; discriminate].
    destruct (global_to_local P s1) as [b|] eqn:E'; [|unfold global_to_local in E'; rewrite (ready_count P s1 n (proj1 G1)) in E'; discriminate].
    destruct (g2l_inv _ _ _ E) as (m & _ & Eg & _ & _ & _ & _ & _ & El).
    destruct (g2l_inv _ _ _ E') as (m' & _ & Eg' & _ & _ & _ & _ & _ & El').
    simpl. rewrite El, El', Eg, Eg', !Q1, Q2 by discriminate. reflexivity.
Qed.

Lemma good_check_nums d inp out n m : d_in d = Some inp -> d_out d = Some out -> good_set P inp n -> good_set P out m ->
  check_nums P d = if m =? n then Ok n else Raise LengthNotMatching.
Proof.
  intros E1 E2 [G1 _] [G2 _]. unfold check_nums. rewrite E1, E2. simpl.
  rewrite (ready_count P out m G2). simpl. rewrite (ready_count P inp n G1). simpl.
  destruct (proj2 (proj1 G1)) as (v & -> & _). destruct (proj2 (proj1 G2)) as (w & -> & _). reflexivity.
Qed.

Lemma emulated_then_prob_lemma g g' d d1 : no_pointers d -> good_sets P d -> emulated_disc nn P g' d = Ok d1 ->
  input_probabilities (prob_disc nn P g d1) = input_probabilities (prob_disc nn P g d).
Proof.
  intros N G H. destruct (N Io) as [N1 N2]. destruct (N Ii) as [_ N3]. simpl in N1, N2, N3.
  assert (Gin : good_place P (d_in d)) by (apply G; simpl; auto).
  assert (Gout : good_place P (d_out d)) by (apply G; simpl; auto).
  assert (Gpr : good_place P (d_prob d)) by (apply G; simpl; auto).
  assert (Gein : good_place P (d_ein d)) by (apply G; simpl; auto).
  unfold emulated_disc in H. rewrite N2 in H.
  inv_bind H. inv_bind H. inv_bind H. inv_bind H. inv_bind H. inv_bind H.
  rename x into k, x0 into pr, x1 into op, x2 into em, x4 into da. apply need_ok in E0.
  destruct (set_io_parts nn P _ _ _ E4) as (out1 & q & Eq & ->).
  destruct (ptr_parts nn P HP _ _ _ _ true Gout Gpr Eq) as (out & n & pr' & m & bs & v & Eo & Ep & Gs & Gt & L & Gs1 & Lb & GV & S & Fq & Q & Gq).
  rewrite E0 in Ep. injection Ep as <-.
  inv_bind H. simpl in E5. rewrite N3 in E5.
  destruct (set_ii_parts nn P _ _ _ E5) as (em1 & q2 & Eq2 & ->).
  destruct (ptr_parts nn P HP _ _ _ _ true Gein Gin Eq2) as (em' & n2 & inp & m2 & bs2 & v2 & Eem & Ein & Gs' & Gt' & L' & Gs1' & Lb' & GV' & S' & Fq' & Q' & Gq').
  simpl in H. rewrite Lb' in H. simpl in H. inv_bind H. inv_bind H. inv_bind H. inv_bind H. injection H as <-.
  rename x0 into probs.
  assert (Cd : check_nums P d = Ok m2 /\ n = m2).
  { pose proof (good_check_nums d inp out m2 n Ein Eo Gt' Gs) as C. rewrite C in E. rewrite C.
    destruct (Nat.eqb_spec n m2); [auto | discriminate]. }
  destruct Cd as [Cd ->].
  (* d1 *)
  set (dd := with_ein _ _).
  assert (Cdd : check_nums P dd = Ok m2).
  { rewrite (good_check_nums dd (snd q2) out1 m2 m2 eq_refl eq_refl Gq' Gs1), Nat.eqb_refl. reflexivity. }
  assert (Op : op = m) by (pose proof (ready_count P pr m (proj1 Gt)); congruence). subst op.
  assert (Cpr : check_num P (snd q) = Ok m) by (apply ready_count, Gq).
  assert (Pr : out_probs m (snd q) = Ok probs).
  { rewrite <- E7. unfold out_probs. rewrite (proj1 Q) by discriminate. reflexivity. }
  rewrite (prob_value g dd dd m2 (snd q) m (snd q2) (fst q) probs Cdd eq_refl Cpr Pr eq_refl eq_refl eq_refl).
  assert (Sd : set_io_ptr nn P false d = Ok (with_io (io d) (Some (fst q)) (with_prob (Some (snd q)) (with_out (Some out1) d)))).
  { unfold set_io_ptr. rewrite Eo. simpl. rewrite L. simpl. rewrite E0. simpl. unfold loc_values. rewrite Lb. simpl.
    rewrite Eo in Eq. simpl in Eq. rewrite L in Eq. simpl in Eq. rewrite E0 in Eq. simpl in Eq. unfold loc_values in Eq. rewrite Lb in Eq. simpl in Eq.
    destruct (query_blocks nn P bs pr) as [q'|] eqn:EQ; simpl in Eq; [|discriminate]. injection Eq as ->. reflexivity. }
  assert (Hm : check_num P pr = Ok m) by (apply ready_count, Gt).
  rewrite (prob_value g d _ m2 pr m inp (fst q) probs Cd E0 Hm E7 ltac:(rewrite N2; exact Sd) ltac:(simpl; exact Ein) eq_refl).
  rewrite (rest_queried g probs (fst q) inp (snd q2) m2 Gt' Gq' Q'). reflexivity.
Qed.

(** With a global pointer both orders work. *)
Lemma prob_lengths probs ptrs vols q : prob probs ptrs vols = Ok q -> length (concat q) = length (concat ptrs).
Proof.
  intro H. destruct (existsb (qltb 0) probs) eqn:E.
  - assert (S : same_lengths ptrs vols).
    { unfold prob in H. rewrite E in H. inv_bind H. eapply zip_blocks_inv; eauto. }
    destruct (prob_concat probs ptrs vols S) as (q' & E' & S' & _). rewrite H in E'. injection E' as <-.
    apply same_lengths_concat, S'.
  - unfold prob in H. rewrite E in H. injection H as <-. clear.
    induction ptrs as [|p ps IH]; simpl; [reflexivity|]. rewrite !app_length, repeat_length, IH. reflexivity.
Qed.

Lemma ptrs_of_length (v : arr cell) bs : length (concat (ptrs_of nn v bs)) = length (concat (map rows bs)).
Proof. unfold ptrs_of. induction bs as [|b bs IH]; simpl; [reflexivity|]. rewrite !app_length, map_length, IH. reflexivity. Qed.

Lemma prob_keeps_good o i g d d1 : Inv nn P o i d -> io_loc d <> None -> prob_disc nn P g d = Ok d1 ->
  exists inp inp1 n, d_in d = Some inp /\ d1 = with_in (Some inp1) d /\ good_set P inp n /\ good_set P inp1 n /\
    glob inp1 Values = glob inp Values.
Proof.
  intros I Hn H. destruct (io_loc d) as [p|] eqn:Ep; [|congruence].
  destruct (I_io _ _ _ _ _ I p Ep) as (out & pr & bs & v & Eo & Epr & Lo & GV & S & ->).
  destruct (I_out _ _ _ _ _ I out Eo) as (m & Go).
  unfold prob_disc in H. rewrite Ep in H. inv_bind H. inv_bind H. inv_bind H. simpl in H.
  inv_bind H. inv_bind H. rewrite Ep in H. simpl in H. inv_bind H. inv_bind H. inv_bind H. injection H as <-.
  apply need_ok in E2. rename x2 into inp, x3 into inp1.
  destruct (I_in _ _ _ _ _ I inp E2) as (n & Gi). exists inp. eexists. exists n.
  split; [exact E2|]. split; [reflexivity|]. split; [exact Gi|].
  assert (m = n).
  { rewrite (good_check_nums d inp out n m E2 Eo Gi Go) in E. destruct (Nat.eqb_spec m n); [auto | discriminate]. }
  subst m.
  assert (Lq : length (concat x6) = n).
  { rewrite (prob_lengths _ _ _ _ E6), ptrs_of_length. destruct (proj2 (proj1 (proj1 Go))) as (w & Gw & _).
    destruct (proj2 (proj1 Go) ltac:(congruence) w Gw) as (bs' & Lb' & (_ & B2 & _) & _).
    rewrite Lo in Lb'. injection Lb' as <-. rewrite B2. exact (proj1 (proj1 (proj1 Go)) Values w Gw). }
  destruct (localized_good P HP inp n Gi) as (inp1' & bs' & L1 & L2 & Lg & Ld & [[[HA (w & Gw & Tw)] HL] TC]).
  rewrite E3 in L1. injection L1 as <-.
  assert (GP : forall (b : bool) a, a <> Probabilities -> glob (if b then set_glob Probabilities (Some (vec_arr (concat x6))) inp1 else inp1) a = glob inp1 a).
  { intros b a Ha. destruct b; [apply upd_other, Ha | reflexivity]. }
  assert (DP : forall (b : bool), dim (if b then set_glob Probabilities (Some (vec_arr (concat x6))) inp1 else inp1) = dim inp1) by (intros []; reflexivity).
  assert (LP : forall (b : bool), loc (if b then set_glob Probabilities (Some (vec_arr (concat x6))) inp1 else inp1) = loc inp1) by (intros []; reflexivity).
  assert (KP : forall (b : bool), kd (if b then set_glob Probabilities (Some (vec_arr (concat x6))) inp1 else inp1) = kd inp1) by (intros []; reflexivity).
  split; [|cbn [glob set_loc]; rewrite GP by discriminate; rewrite Lg; reflexivity].
  split; [split|].
  - split.
    + intros a y Ga. cbn [glob set_loc] in Ga. destruct (attr_eq_dec a Probabilities) as [->|Ha].
      * destruct g; [|exact (HA _ y Ga)]. cbn [glob set_glob] in Ga. rewrite upd_same in Ga. injection Ga as <-. simpl. rewrite map_length. exact Lq.
      * rewrite GP in Ga by exact Ha. exact (HA a y Ga).
    + exists w. cbn [glob dim set_loc]. rewrite GP by discriminate. rewrite DP. auto.
  - intros Z y Gy. cbn [glob set_loc] in Gy. rewrite GP in Gy by discriminate.
    cbn [loc set_loc]. cbn [loc set_loc] in Z. rewrite upd_other in Z by discriminate. rewrite LP in Z.
    destruct (HL Z y Gy) as (c & Lc & Sc). exists c. cbn [loc set_loc]. rewrite upd_other by discriminate. rewrite LP. auto.
  - unfold tree_current. cbn [kd glob set_loc]. rewrite KP, GP by discriminate. exact TC.
Qed.

Lemma prob_then_emulated_ok o i g g' d d1 : Inv nn P o i d -> io d <> None -> io_loc d <> None -> prob_disc nn P g d = Ok d1 ->
  emulated_probabilities (emulated_disc nn P g' d1) = emulated_probabilities (emulated_disc nn P g' d).
Proof.
  intros I N1 N2 H. destruct (prob_keeps_good o i g d d1 I N2 H) as (inp & inp1 & n & Ei & -> & Gi & Gi1 & GV).
  assert (C : em_checks (with_in (Some inp1) d) = em_checks d).
  { unfold em_checks. assert (Q : check_nums P (with_in (Some inp1) d) = check_nums P d).
    { destruct (io_loc d) as [p|] eqn:Ep; [|congruence].
      destruct (I_io _ _ _ _ _ I p Ep) as (out & pr & bs & v & Eo & _). destruct (I_out _ _ _ _ _ I out Eo) as (m & Go).
      rewrite (good_check_nums d inp out n m Ei Eo Gi Go).
      rewrite (good_check_nums (with_in (Some inp1) d) inp1 out n m eq_refl Eo Gi1 Go). reflexivity. }
    rewrite Q. reflexivity. }
  destruct (em_checks d) as [[op pr]|e] eqn:EC.
  2:{ rewrite !(emulated_early _ _ e) by assumption. reflexivity. }
  assert (W : match em_ptrs (with_in (Some inp1) d), em_ptrs d with
     | Ok a, Ok b => d_ein a = d_ein b /\ ii_loc a = ii_loc b /\ io a = io b /\ io a = io d /\ ii_loc a <> None /\ d_ein a <> None
     | Raise x, Raise y => x = y
     | _, _ => False end).
  { unfold em_ptrs. cbn [io_loc with_in]. destruct (io_loc d) as [p|] eqn:Ep; [|congruence]. simpl.
    destruct (ii_loc d) as [pi|] eqn:Ei'.
    - cbn [d_ein ii_loc io with_in].
      destruct (I_ii _ _ _ _ _ I pi Ei') as (em & t & bs & v & Ee & _). rewrite Ei', Ee. repeat split; discriminate.
    - unfold set_ii_ptr. simpl. rewrite Ei. simpl. destruct (d_ein d) as [em|] eqn:Ee; simpl; [|reflexivity].
      destruct (localized P em) as [em1|]; simpl; [|reflexivity].
      destruct (loc_values em1) as [bs|]; simpl; [|reflexivity].
      destruct (query_blocks nn P bs inp1) as [[q1 t1]|e1] eqn:Q1, (query_blocks nn P bs inp) as [[q2 t2]|e2] eqn:Q2; simpl.
      + destruct (query_blocks_inv nn P inp1 n bs q1 t1 Gi1 Q1) as (v1 & V1 & _ & -> & _).
        destruct (query_blocks_inv nn P inp n bs q2 t2 Gi Q2) as (v2 & V2 & _ & -> & _).
        rewrite GV, V2 in V1. injection V1 as <-. repeat split; discriminate.
      + destruct (query_blocks_inv nn P inp1 n bs q1 t1 Gi1 Q1) as (v1 & V1 & S1 & _). rewrite GV in V1.
        destruct (query_blocks_ok nn P inp n v1 bs Gi V1 S1) as (z & Z & _). congruence.
      + destruct (query_blocks_inv nn P inp n bs q2 t2 Gi Q2) as (v1 & V1 & S1 & _). rewrite <- GV in V1.
        destruct (query_blocks_ok nn P inp1 n v1 bs Gi1 V1 S1) as (z & Z & _). congruence.
      + assert (U : forall s e, good_set P s n -> query_blocks nn P bs s = Raise e -> e = PyValueError).
        { intros s e Gs Hq. unfold query_blocks in Hq. destruct (kd s) as [t|] eqn:K.
          - rewrite (ready_count P s n (proj1 Gs)) in Hq. simpl in Hq. rewrite K in Hq. simpl in Hq. destruct (forallb _ bs); congruence.
          - destruct (set_kdtree_good P s n Gs) as (s1 & w & Ek & _ & _ & K1 & _). rewrite Ek in Hq. simpl in Hq. rewrite K1 in Hq.
            simpl in Hq. destruct (forallb _ bs); congruence. }
        rewrite (U _ _ Gi1 Q1), (U _ _ Gi Q2). reflexivity. }
  destruct (em_ptrs (with_in (Some inp1) d)) as [a|x] eqn:Ea, (em_ptrs d) as [b|y] eqn:Eb; try contradiction.
  2:{ rewrite (emulated_mid g' _ op pr x C Ea), (emulated_mid g' d op pr y EC Eb). congruence. }
  destruct W as (W1 & W2 & W3 & W4 & W5 & W6).
  destruct (d_ein a) as [em1|] eqn:Em; [|congruence]. destruct (ii_loc a) as [ptr|] eqn:Eii; [|congruence].
  destruct (io d) as [iop|] eqn:Eio; [|congruence].
  rewrite (emulated_value g' _ a op pr iop ptr em1) by assumption.
  rewrite (emulated_value g' d b op pr iop ptr em1) by (assumption || congruence). reflexivity.
Qed.

Lemma any_order_lemma g g' d0 d d1 : no_pointers d0 -> good_sets P d0 -> set_io_ptr nn P true d0 = Ok d ->
  (prob_disc nn P g d = Ok d1 ->
     emulated_probabilities (emulated_disc nn P g' d1) = emulated_probabilities (emulated_disc nn P g' d)) /\
  emulated_probabilities (emulated_disc nn P g' d) = emulated_probabilities (emulated_disc nn P g' (same_sets_anew d)).
Proof.
  intros N G E.
  assert (D : drun nn P [OIoPtr true] d0 = Ok d) by (simpl; rewrite E; reflexivity).
  destruct (io_ptr_fields nn P _ _ _ E) as (p & A1 & A2 & _).
  split.
  - intro H. destruct (run_inv nn P HP [OIoPtr true] false false d0 d eq_refl (Forall_cons (OIoPtr true) I (Forall_nil _)) (no_pointers_inv nn P d0 N G) D) as (o & i & J).
    apply (prob_then_emulated_ok o i g g' d d1 J); [rewrite A2; discriminate | rewrite A1; discriminate | exact H].
  - apply (emulated_history g' [OIoPtr true] d0 d N G); auto; [constructor; [exact I | constructor] | rewrite A2; discriminate].
Qed.
End Prob.
