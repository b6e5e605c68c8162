(** Concrete discretizations: witnesses and cases that meet the hypotheses. *)
From Coq Require Import List Arith Bool QArith Qcanon Permutation Lia.
From Verif Require Import Err Num NumPy Lists SampleSet_Model SampleSet_Spec SampleSet_Proofs Prob_Model Disc_Model Disc_Spec Disc_Proofs.
Import ListNotations.
Local Open Scope nat_scope.

(** Points of the line, and sets of them with further arrays. *)
Definition pt (q : Qc) : cell := Vec [Num q].
Definition pts (l : list Qc) : arr cell := mk_arr (map pt l) [1].
Definition line_set (l : list Qc) (vol pr : option (list Qc)) : sset cell :=
  mk_sset 1 (fun a => match a with
                      | Values => Some (pts l)
                      | Volumes => option_map vec_arr vol
                      | Probabilities => option_map vec_arr pr
                      | _ => None end) (fun _ => None) None None None None.
Definition line_dist (x y : cell) : Qc :=
  match x, y with Vec [Num a], Vec [Num b] => qabs (a - b) | _, _ => 0%Qc end.
Definition near : list cell -> cell -> nat := fun l x => argmin (map (line_dist x) l).
Lemma near_contract : nn_contract line_dist near.
Proof. exact (argmin_contract line_dist). Qed.

Definition opt_length {A} (o : option (list A)) (n : nat) : Prop := match o with Some l => length l = n | None => True end.
Lemma line_set_good P l vol pr n : length l = n -> opt_length vol n -> opt_length pr n -> good_set P (line_set l vol pr) n.
Proof.
  intros H1 H2 H3. split; [|left; reflexivity]. split; [|intro Q; exfalso; apply Q; reflexivity]. split.
  - intros a x G. destruct a; simpl in G; try discriminate.
    + injection G as <-. simpl. rewrite map_length. exact H1.
    + destruct vol; [|discriminate]. injection G as <-. simpl. rewrite map_length. exact H2.
    + destruct pr; [|discriminate]. injection G as <-. simpl. rewrite map_length. exact H3.
  - exists (pts l). split; reflexivity.
Qed.

(** Reading results by computation *)
Definition is_ok {A} (r : result A) : bool := match r with Ok _ => true | Raise _ => false end.
Definition get {A} (a : A) (r : result A) : A := match r with Ok x => x | Raise _ => a end.
Lemma get_ok {A} (a : A) r : is_ok r = true -> r = Ok (get a r).
Proof. destruct r; simpl; [reflexivity | discriminate]. Qed.
Definition show_cell (c : cell) : list Q := match c with Num q => [this q] | Vec _ => [] end.
Definition show (r : result (option (option (arr cell) * option (list (arr cell))))) : option (list (list Q)) :=
  match r with Ok (Some (_, Some bs)) => Some (map (fun b => concat (map show_cell (rows b))) bs) | _ => None end.

Definition half : Qc := Q2Qc (1 # 2).
Definition quarter : Qc := Q2Qc (1 # 4).
Definition three_quarters : Qc := Q2Qc (3 # 4).

(** Two input samples of equal volume; the output of sample i is i; the output
    probabilities are 3/4 and 1/4. *)
Definition ex_in : sset cell := line_set [0; 1]%Qc (Some [half; half]) None.
Definition ex_out : sset cell := line_set [0; 1]%Qc None None.
Definition ex_pr : sset cell := line_set [0; 1]%Qc None (Some [three_quarters; quarter]).
Definition ex_em : sset cell := line_set [0; 1; 1]%Qc None None.
Definition ex_disc : disc cell :=
  mk_disc (Some ex_in) (Some ex_out) (Some ex_pr) (Some ex_em) None None None None None None None None.
Lemma ex_disc_good P : no_pointers ex_disc /\ good_sets P ex_disc.
Proof.
  split; [intros []; split; reflexivity|].
  intros pl H s E. simpl in H.
  repeat (destruct H as [<-|H]; [injection E as <- || discriminate; solve [eexists; apply line_set_good; simpl; auto]|]);
    repeat (destruct H as [<-|H]; [discriminate|]); contradiction.
Qed.

(** *** C65 *)
(** The output set is replaced after the pointer was computed. *)
Definition swapped : sset cell := line_set [1; 0]%Qc None None.
Definition late_ops : list (dop (R := cell)) := [OIoPtr true; OOut swapped].
Lemma late_ops_good P : Forall (good_argument P) late_ops.
Proof. repeat constructor. simpl. eexists. apply line_set_good; simpl; auto. Qed.
Lemma stale_prob_witness : exists ops (d d' : disc cell),
  no_pointers d /\ good_sets 1 d /\ Forall (good_argument 1) ops /\ drun near 1 ops d = Ok d' /\
  input_probabilities (prob_disc near 1 true d') <> input_probabilities (prob_disc near 1 true (same_sets_anew d')) /\
  is_ok (prob_disc near 1 true d') = true /\ is_ok (prob_disc near 1 true (same_sets_anew d')) = true.
Proof.
  exists late_ops, ex_disc, (get ex_disc (drun near 1 late_ops ex_disc)).
  split; [apply (ex_disc_good 1)|]. split; [apply (ex_disc_good 1)|]. split; [apply late_ops_good|].
  split; [apply get_ok; vm_compute; reflexivity|].
  split; [|split; vm_compute; reflexivity].
  intro H. apply (f_equal show) in H. vm_compute in H. discriminate.
Qed.
(** The input set is replaced after the emulated points were assigned to it. *)
Definition late_in : sset cell := line_set [1; 0]%Qc (Some [half; half]) None.
Definition late_ops2 : list (dop (R := cell)) := [OIoPtr true; OIiPtr false; OIn late_in].
Lemma stale_emulated_witness : exists ops (d d' : disc cell),
  no_pointers d /\ good_sets 1 d /\ Forall (good_argument 1) ops /\ drun near 1 ops d = Ok d' /\
  emulated_probabilities (emulated_disc near 1 true d') <> emulated_probabilities (emulated_disc near 1 true (same_sets_anew d')) /\
  is_ok (emulated_disc near 1 true d') = true /\ is_ok (emulated_disc near 1 true (same_sets_anew d')) = true.
Proof.
  exists late_ops2, ex_disc, (get ex_disc (drun near 1 late_ops2 ex_disc)).
  split; [apply (ex_disc_good 1)|]. split; [apply (ex_disc_good 1)|].
  split; [repeat constructor; simpl; eexists; apply line_set_good; simpl; auto|].
  split; [apply get_ok; vm_compute; reflexivity|].
  split; [|split; vm_compute; reflexivity].
  intro H. apply (f_equal show) in H. vm_compute in H. discriminate.
Qed.

(** A history that meets the hypotheses of the positive theorems. *)
Definition early_ops : list (dop (R := cell)) := [OOut swapped; OIn late_in; OIoPtr true; OIiPtr false].
Lemma early_example : exists d', drun near 2 early_ops ex_disc = Ok d' /\
  no_late_replacement false false early_ops = true /\ no_late_local Io false early_ops = true /\
  Forall (good_argument 2) early_ops /\ io d' <> None /\
  is_ok (prob_disc near 2 true d') = true /\ is_ok (emulated_disc near 2 true d') = true.
Proof.
  exists (get ex_disc (drun near 2 early_ops ex_disc)).
  split; [apply get_ok; vm_compute; reflexivity|]. split; [reflexivity|]. split; [reflexivity|].
  split; [repeat constructor; simpl; eexists; apply line_set_good; simpl; auto|].
  split; [vm_compute; discriminate|]. split; vm_compute; reflexivity.
Qed.

(** *** C60 *)
Definition moved : sset cell := line_set [1; 0]%Qc None (Some [three_quarters; quarter]).
Definition disagree_ops : list (dop (R := cell)) := [OIoPtr true; OProb moved].
Lemma disagree_witness : exists ops (d d' : disc cell),
  no_pointers d /\ good_sets 1 d /\ Forall (good_argument 1) ops /\ drun near 1 ops d = Ok d' /\
  io d' <> None /\ io_loc d' <> None /\ ~ agree (io d') (io_loc d').
Proof.
  exists disagree_ops, ex_disc, (get ex_disc (drun near 1 disagree_ops ex_disc)).
  split; [apply (ex_disc_good 1)|]. split; [apply (ex_disc_good 1)|].
  split; [repeat constructor; simpl; eexists; apply line_set_good; simpl; auto|].
  split; [apply get_ok; vm_compute; reflexivity|].
  split; [vm_compute; discriminate|]. split; [vm_compute; discriminate|].
  intro A. unfold agree in A.
  assert (E1 : io (get ex_disc (drun near 1 disagree_ops ex_disc)) = Some [0; 1]) by (vm_compute; reflexivity).
  assert (E2 : io_loc (get ex_disc (drun near 1 disagree_ops ex_disc)) = Some [[1; 0]]) by (vm_compute; reflexivity).
  specialize (A _ _ E1 E2). discriminate.
Qed.

(** *** C66 *)
Lemma order_example : is_ok (emulated_disc near 2 true ex_disc) = true /\ is_ok (prob_disc near 2 true ex_disc) = true /\
  show (emulated_probabilities (emulated_disc near 2 true ex_disc)) = Some [[(3 # 4)%Q; (1 # 8)%Q]; [(1 # 8)%Q]] /\
  show (input_probabilities (prob_disc near 2 true ex_disc)) = Some [[(3 # 4)%Q]; [(1 # 4)%Q]] /\
  is_ok (set_io_ptr near 2 true ex_disc) = true.
Proof. repeat split; vm_compute; reflexivity. Qed.
Lemma any_order_example : exists d d1, set_io_ptr near 2 true ex_disc = Ok d /\ prob_disc near 2 true d = Ok d1 /\
  is_ok (emulated_disc near 2 true d1) = true.
Proof.
  set (d := get ex_disc (set_io_ptr near 2 true ex_disc)). exists d, (get d (prob_disc near 2 true d)).
  split; [apply get_ok; vm_compute; reflexivity|]. split; [apply get_ok; vm_compute; reflexivity|]. vm_compute. reflexivity.
Qed.
Lemma stored_example : is_ok (store_output_probability near 2 moved ex_disc) = true /\ io ex_disc = None.
Proof. split; vm_compute; reflexivity. Qed.

(** *** C57 *)
Section Nat.
(** Input and output sets with 3 samples in different layouts on two ranks. *)
Definition laid_out (l : list nat) (bs : list (list nat)) : sset nat :=
  mk_sset 1 (fun a => match a with Values => Some (mk_arr l [1]) | _ => None end)
            (fun a => match a with Values => Some (map (fun b => mk_arr b [1]) bs) | _ => None end) None None None None.
Definition plain (l : list nat) : sset nat :=
  mk_sset 1 (fun a => match a with Values => Some (mk_arr l [1]) | _ => None end) (fun _ => None) None None None None.
Lemma plain_ready P l : ready P (plain l) (length l).
Proof.
  split; [|intro Q; exfalso; apply Q; reflexivity]. split; [|exists (mk_arr l [1]); split; reflexivity].
  intros [] x G; simpl in G; try discriminate. injection G as <-. reflexivity.
Qed.
Definition pair_disc (i o : sset nat) : disc nat :=
  mk_disc (Some i) (Some o) None (Some (plain [7])) (Some (plain [8])) None None None None None None None.
Lemma merge_example : exists m, merge_disc 2 (pair_disc (plain [1; 2; 3]) (plain [11; 12; 13])) (pair_disc (plain [4; 5]) (plain [14; 15])) = Ok m /\
  (exists mi mo, d_in m = Some mi /\ d_out m = Some mo /\
     glob mi Values = Some (mk_arr [1; 2; 4; 3; 5] [1]) /\ glob mo Values = Some (mk_arr [11; 12; 14; 13; 15] [1])) /\
  rank_rows 2 (plain [1; 2; 3]) 3 = [2; 1].
Proof.
  eexists. split; [reflexivity|]. split; [|reflexivity]. do 2 eexists. split; [reflexivity|]. split; [reflexivity|]. split; reflexivity.
Qed.
Lemma laid_out_ready l bs : concat bs = l -> length bs = 2 -> (forall b c, In b bs -> In c bs -> length b <= S (length c)) ->
  ready 2 (laid_out l bs) (length l).
Proof.
  intros H L B. split.
  - split; [|exists (mk_arr l [1]); split; reflexivity]. intros [] x G; simpl in G; try discriminate. injection G as <-. reflexivity.
  - intros _ x G. simpl in G. injection G as <-. eexists. split; [reflexivity|]. split.
    + rewrite map_map. simpl. rewrite map_id. unfold is_block_split. auto.
    + intros b Hb. apply in_map_iff in Hb. destruct Hb as (c & <- & _). reflexivity.
Qed.
Definition skew : disc nat := pair_disc (laid_out [1; 2; 3] [[1]; [2; 3]]) (laid_out [11; 12; 13] [[11; 12]; [13]]).
Definition other : disc nat := pair_disc (plain [4; 5]) (plain [14; 15]).
Lemma merge_witness : exists (d e m : disc nat) si so ti to mi mo,
  d_in d = Some si /\ d_out d = Some so /\ d_in e = Some ti /\ d_out e = Some to /\
  ready 2 si 3 /\ ready 2 so 3 /\ ready 2 ti 2 /\ ready 2 to 2 /\
  glob si Values = Some (mk_arr [1; 2; 3] [1]) /\ glob so Values = Some (mk_arr [11; 12; 13] [1]) /\
  glob ti Values = Some (mk_arr [4; 5] [1]) /\ glob to Values = Some (mk_arr [14; 15] [1]) /\
  merge_disc 2 d e = Ok m /\ d_in m = Some mi /\ d_out m = Some mo /\
  glob mi Values = Some (mk_arr [1; 4; 2; 3; 5] [1]) /\ glob mo Values = Some (mk_arr [11; 12; 14; 13; 15] [1]).
Proof.
  exists skew, other. do 7 eexists.
  split; [reflexivity|]. split; [reflexivity|]. split; [reflexivity|]. split; [reflexivity|].
  split. { apply (laid_out_ready [1; 2; 3] [[1]; [2; 3]]); auto. simpl. intros b c [<-|[<-|[]]] [<-|[<-|[]]]; simpl; lia. }
  split. { apply (laid_out_ready [11; 12; 13] [[11; 12]; [13]]); auto. simpl. intros b c [<-|[<-|[]]] [<-|[<-|[]]]; simpl; lia. }
  split; [apply (plain_ready 2 [4; 5])|]. split; [apply (plain_ready 2 [14; 15])|].
  split; [reflexivity|]. split; [reflexivity|]. split; [reflexivity|]. split; [reflexivity|].
  split; [reflexivity|]. split; [reflexivity|]. split; [reflexivity|]. split; reflexivity.
Qed.
Lemma merge_refuted_lemma : exists (d e m : disc nat) si so ti to mi mo xi xo yi yo zi zo,
  d_in d = Some si /\ d_out d = Some so /\ d_in e = Some ti /\ d_out e = Some to /\
  ready 2 si 3 /\ ready 2 so 3 /\ ready 2 ti 2 /\ ready 2 to 2 /\
  glob si Values = Some xi /\ glob so Values = Some xo /\ glob ti Values = Some yi /\ glob to Values = Some yo /\
  merge_disc 2 d e = Ok m /\ d_in m = Some mi /\ d_out m = Some mo /\
  glob mi Values = Some zi /\ glob mo Values = Some zo /\
  ~ Permutation (combine (rows zi) (rows zo)) (combine (rows xi) (rows xo) ++ combine (rows yi) (rows yo)).
Proof.
  destruct merge_witness as (d & e & m & si & so & ti & to & mi & mo & H).
  exists d, e, m, si, so, ti, to, mi, mo. do 6 eexists.
  destruct H as (H1 & H2 & H3 & H4 & H5 & H6 & H7 & H8 & H9 & H10 & H11 & H12 & H13 & H14 & H15 & H16 & H17).
  repeat (split; [eassumption|]). simpl. intro Q.
  assert (W : In (4, 12) [(1, 11); (2, 12); (3, 13); (4, 14); (5, 15)]).
  { eapply Permutation_in; [exact Q|]. simpl. auto. }
  simpl in W. intuition congruence.
Qed.
(** Two discretizations without emulated sets whose input and output sets can be
    merged. *)
Definition bare (i o : sset nat) : disc nat := mk_disc (Some i) (Some o) None None None None None None None None None None.
Lemma merge_bare_witness : exists (d e : disc nat) mi mo,
  merge_opt 1 (d_in d) (d_in e) = Ok mi /\ merge_opt 1 (d_out d) (d_out e) = Ok mo /\
  new_disc 1 (d_in d) (d_out d) None None None None = Ok d /\ new_disc 1 (d_in e) (d_out e) None None None None = Ok e /\
  merge_disc 1 d e = Raise PyAttributeError.
Proof.
  exists (bare (plain [1; 2; 3]) (plain [11; 12; 13])), (bare (plain [4; 5]) (plain [14; 15])). do 2 eexists.
  repeat (split; [reflexivity|]). reflexivity.
Qed.
Lemma clip_example : exists d', clip_disc 2 2 (pair_disc (plain [1; 2; 3]) (plain [11; 12; 13])) = Ok d' /\
  exists ci co, d_in d' = Some ci /\ d_out d' = Some co /\
    glob ci Values = Some (mk_arr [1; 2] [1]) /\ glob co Values = Some (mk_arr [11; 12] [1]).
Proof. eexists. split; [reflexivity|]. do 2 eexists. repeat (split; [reflexivity|]). reflexivity. Qed.

(** *** C59 *)
Definition six : disc nat :=
  mk_disc (Some (plain [1; 2])) (Some (plain [3; 4])) (Some (plain [5])) (Some (plain [6])) (Some (plain [7; 8])) (Some (plain [9]))
    None None None None None None.
Lemma localize_witness : exists d d' : disc nat, exists s,
  disc_global_to_local 2 d = Ok d' /\ d_eout d = Some s /\ ready 2 s 2 /\ d_eout d' = Some s /\ loc s Values = None.
Proof.
  exists six. do 2 eexists. split; [reflexivity|]. split; [reflexivity|]. split; [apply (plain_ready 2 [7; 8])|]. split; reflexivity.
Qed.
(** The observed set, with only local values. *)
Definition only_loc (bs : list (list nat)) : sset nat :=
  mk_sset 1 (fun _ => None) (fun a => match a with Values => Some (map (fun b => mk_arr b [1]) bs) | _ => None end) None None None None.
Lemma globalize_witness : exists d d' : disc nat, exists s,
  disc_local_to_global d = Ok d' /\ d_obs d = Some s /\ is_ok (local_to_global s) = true /\ d_obs d' = Some s /\ glob s Values = None.
Proof.
  exists (mk_disc (Some (only_loc [[1]; [2]])) (Some (only_loc [[3]; [4]])) None None None (Some (only_loc [[5]; [6]])) None None None None None None).
  do 2 eexists. repeat (split; [reflexivity|]). reflexivity.
Qed.
Lemma localize_example : is_ok (disc_global_to_local 2 six) = true.
Proof. reflexivity. Qed.
Lemma globalize_example : is_ok (disc_local_to_global (bare (only_loc [[1]; [2]]) (only_loc [[3]; [4]]))) = true.
Proof. reflexivity. Qed.

(** *** C61 *)
Definition wide : sset nat :=
  mk_sset 2 (fun a => match a with Values => Some (mk_arr [1; 2] [2]) | _ => None end) (fun _ => None) None None None None.
Lemma constructor_witness : exists d : disc nat,
  new_disc 1 (Some (plain [1; 2])) (Some (plain [3; 4])) (Some wide) (Some wide) (Some wide) None = Ok d /\
  dim (plain [3; 4]) <> dim wide.
Proof. eexists. split; [reflexivity|]. discriminate. Qed.
Lemma setter_witness nn P : exists (d d' : disc nat) s, set_probability nn P s d = (d', Some PyAttributeError) /\ d' <> d.
Proof.
  exists (mk_disc (Some (plain [1; 2])) None None None None None None None None None None None). do 2 eexists.
  split; [reflexivity|]. instantiate (1 := plain [5]). discriminate.
Qed.
Lemma replace_witness : exists (d d' : disc nat) s t, d_ein d = Some t /\ dim s <> dim t /\ set_input s d = (d', None) /\ d_in d' = Some s /\ d_ein d' = Some t.
Proof.
  exists six, (with_in (Some wide) six), wide, (plain [6]). repeat (split; [reflexivity|]). split; [discriminate|]. repeat (split; [reflexivity|]). reflexivity.
Qed.
Lemma rejects_example : exists t, (d_out six = Some t \/ d_eout six = Some t) /\ dim t <> dim wide.
Proof. exists (plain [3; 4]). split; [left; reflexivity | discriminate]. Qed.
End Nat.

(** *** C58 *)
(** Two samples with two inputs and two outputs, Jacobians and error estimates. *)
Definition row2 (a b : Qc) : cell := Vec [Num a; Num b].
Definition jac (a b c e : Qc) : cell := Vec [row2 a b; row2 c e].
Definition q2 : Qc := Q2Qc 2.
Definition q3 : Qc := Q2Qc 3.
Definition ch_in (er : option (arr cell)) : rset Qc :=
  mk_rset (mk_sset 2 (fun a => match a with
     | Values => Some (mk_arr [row2 0 1; row2 q2 q3]%Qc [2])
     | Jacobians => Some (mk_arr [jac 0 1 q2 q3; jac 1 1 0 0]%Qc [2; 2])
     | ErrorEstimates => er
     | _ => None end) (fun _ => None) None None (Some [(0, 1); (0, q3)]%Qc) None) (Some [half; quarter]) 1%Qc.
Definition ch_out : rset Qc :=
  mk_rset (mk_sset 2 (fun a => match a with
     | Values => Some (mk_arr [row2 1 0; row2 q3 q2]%Qc [2])
     | _ => None end) (fun _ => None) None None None None) None 1%Qc.
Definition ch_err : arr cell := mk_arr [row2 half half; row2 quarter quarter] [2].
Lemma ch_in_shaped : well_shaped (dim (base ch_out)) (base (ch_in (Some ch_err))) /\ well_shaped 0 (base ch_out) /\
  valid_set (base (ch_in (Some ch_err))) 2 /\ valid_set (base ch_out) 2.
Proof.
  split; [|split; [|split]].
  - unfold well_shaped, proper; repeat match goal with |- _ /\ _ => split end; intros; simpl in *; try discriminate;
      try (match goal with H : Some _ = Some _ |- _ => injection H as <- end; simpl; solve [reflexivity | repeat (constructor; simpl)]).
  - unfold well_shaped, proper; repeat match goal with |- _ /\ _ => split end; intros; simpl in *; try discriminate;
      try (match goal with H : Some _ = Some _ |- _ => injection H as <- end; simpl; solve [reflexivity | repeat (constructor; simpl)]).
  - split; [|eexists; split; reflexivity]. intros [] x G; simpl in G; try discriminate; injection G as <-; reflexivity.
  - split; [|eexists; split; reflexivity]. intros [] x G; simpl in G; try discriminate; injection G as <-; reflexivity.
Qed.
Lemma ch_example : exists i o y j, choose_inputs_outputs 1 (Some [1; 0]) (Some [1]) (ch_in (Some ch_err)) ch_out = Ok (i, o) /\
  glob (base i) Values = Some y /\ rows y = [row2 1 0; row2 q3 q2]%Qc /\
  glob (base i) Jacobians = Some j /\ rows j = [Vec [row2 q3 q2]; Vec [row2 0 0]]%Qc.
Proof. do 4 eexists. repeat (split; [reflexivity|]). reflexivity. Qed.
Definition ch_flat : arr cell := mk_arr [Num half; Num quarter] [].
Lemma ch_flat_example : exists x, glob (base (ch_in (Some ch_flat))) ErrorEstimates = Some x /\ tail_shape x = [] /\
  valid_set (base (ch_in (Some ch_flat))) 2.
Proof.
  exists ch_flat. split; [reflexivity|]. split; [reflexivity|]. split; [|eexists; split; reflexivity].
  intros [] x G; simpl in G; try discriminate; injection G as <-; reflexivity.
Qed.
