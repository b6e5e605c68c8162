(** A density-based inversion with two clusters and a simple density estimate. *)
From Coq Require Import ZArith List Arith Bool QArith Qcanon Permutation Lia.
From Verif Require Import Err Num Ext NumPy SampleSet_Model SampleSet_Proofs Disc_Model Disc_Examples Inverse_Model Inverse_Spec Density_Model Density_Spec Density_Proofs.
Import ListNotations.
Local Open Scope nat_scope.

(** Estimates: the (weighted) part of the samples within distance one. *)
Definition close (a b : Qc) : bool := if Qclt_le_dec 1 (qabs (a - b)) then false else true.
Definition value (c : cell) : Qc := match c with Vec [Num q] => q | _ => 0%Qc end.
Definition window (l : list cell) (w : option (list xnum)) : result (cell -> Qc) :=
  match w with
  | None => Ok (fun c => (qn (length (filter (fun e => close (value e) (value c)) l)) / qn (length l))%Qc)
  | Some ws => Ok (fun c => (qsum (map (fun e => match snd e with Fin q => q | _ => 0%Qc end) (filter (fun e => close (value (fst e)) (value c)) (combine l ws))) /
                             qsum (map (fun x => match x with Fin q => q | _ => 0%Qc end) ws))%Qc)
  end.
Definition finite (x : xnum) : bool := match x with Fin _ => true | _ => false end.
Definition fin (x : xnum) : Qc := match x with Fin q => q | _ => 0%Qc end.
Definition window1 (x : list Qc) (r : list xnum) : result (Qc -> Qc) :=
  if forallb (fun e => finite (snd e)) (combine x r)
  then Ok (fun t => (qsum (map (fun e => fin (snd e)) (filter (fun e => close (fst e) t) (combine x r))) / qsum (map (fun e => fin (snd e)) (combine x r)))%Qc)
  else Raise PyValueError.
Lemma filter_perm {A} (f : A -> bool) l l' : Permutation l l' -> Permutation (filter f l) (filter f l').
Proof. intros H. induction H; cbn [filter]; repeat (match goal with |- context [if ?b then _ else _] => destruct b end); try (constructor; assumption); try apply Permutation_refl; try assumption; try apply perm_swap. eapply Permutation_trans; eassumption. Qed.
Lemma qsum_perm l l' : Permutation l l' -> qsum l = qsum l'.
Proof. intros H. unfold qsum. induction H; cbn [fold_right]; try reflexivity; try congruence. ring. Qed.
Lemma window_free : order_free window.
Proof. intros l l' H. cbn [window alike]. intros x. rewrite (Permutation_length (filter_perm _ _ _ H)), (Permutation_length H). reflexivity. Qed.
Lemma combine_split_self {A B} (l : list (A * B)) : combine (map fst l) (map snd l) = l.
Proof. induction l as [|(a & b) l IH]; [reflexivity|]. cbn [map combine fst snd]. rewrite IH. reflexivity. Qed.
Lemma forallb_perm {A} (f : A -> bool) l l' : Permutation l l' -> forallb f l = forallb f l'.
Proof. intros H. induction H; cbn [forallb]; try reflexivity; try congruence. rewrite !andb_assoc, (andb_comm (f y)). reflexivity. Qed.
Lemma window1_free : order_free1 window1.
Proof.
  intros l l' H. unfold window1. rewrite !combine_split_self, <- (forallb_perm _ _ _ H). destruct (forallb _ l); cbn [alike]; [|reflexivity].
  intros x. rewrite (qsum_perm _ _ (Permutation_map _ (filter_perm _ _ _ H))), (qsum_perm _ _ (Permutation_map _ H)). reflexivity.
Qed.

Definition in_points : list (list Qc) := map (fun z => [Q2Qc z]) [0; 1 # 2; 2; 3; 4]%Q.
Definition out_points : list cell := map (fun z => pt (Q2Qc z)) [0; 1 # 2; 5; 3; 6]%Q.
Definition seen : list cell := map (fun z => pt (Q2Qc z)) [0; 5; 1 # 4; 5; 8]%Q.
Definition out_labels : list Z := [0; 0; 1; 0; 1]%Z.
Definition seen_labels : list Z := [0; 1; 0; 1; 1]%Z.
(** Stored on all processes or distributed (dist), the labels too (ldist). *)
Definition stored (P : nat) (dist ldist : bool) (d : nat) (xs : list cell) (lo : option (list Z)) : sset cell :=
  mk_sset d (fun a => match a with
                      | Values => if dist then None else content d xs lo a
                      | Region => if ldist then None else content d xs lo a
                      | _ => None end)
            (fun a => match a with
                      | Values => if dist then option_map (split_arr P) (content d xs lo a) else None
                      | Region => if ldist then option_map (split_arr P) (content d xs lo a) else None
                      | _ => None end) None None None None.
Definition cluster_disc (P : nat) (dist ldist : bool) (xs : list (list Qc)) (ys : list cell) (lo : option (list Z)) (w : option (list Qc)) (zs : list cell) (mo : option (list Z)) : rdisc :=
  mk_rdisc (mk_rset (stored P dist false 1 (map point_row xs) None) None None None None)
           (mk_rset (stored P dist ldist 1 ys lo) None w None None) (mk_rset (stored P false false 1 zs mo) None None None None).
Lemma stored_keeps P dist ldist d xs lo : (ldist = false \/ lo <> None) -> keeps P (stored P dist ldist d xs lo) d xs lo.
Proof. intros H. split; [reflexivity|]. intros a. destruct a, dist, ldist, lo as [l|]; cbn; auto; destruct H; try discriminate; try contradiction; auto. Qed.
Lemma cluster_stores P dist ldist xs ys lo w zs mo : (ldist = false \/ lo <> None /\ mo <> None) -> stores P (cluster_disc P dist ldist xs ys lo w zs mo) 1 xs 1 ys lo 1 zs mo.
Proof.
  intros H. split; [apply stored_keeps; left; reflexivity|]. split; [apply stored_keeps; tauto|]. split; [split; [reflexivity|intros a; destruct a; reflexivity]|]. split; [reflexivity|]. split; [reflexivity|].
  intros ->. cbn. destruct ldist; [destruct H as [H|(_ & H)]; [discriminate|contradiction]|reflexivity].
Qed.
(** Estimates made by the windows. *)
Definition predicted (ys : list cell) (ls : list Z) (w : option (list Qc)) (j : nat) : cell -> Qc := made (window (members (combine ys ls) j) (option_map (fun v => map Fin (members (combine v ls) j)) w)).
Definition observed (zs : list cell) (ms : list Z) (j : nat) : cell -> Qc := made (window (members (combine zs ms) j) None).
Definition marginal (xs : list (list Qc)) (ys : list cell) (ls : list Z) (p o : nat -> cell -> Qc) (i j : nat) : Qc -> Qc :=
  made (window1 (map (axis i) (members (combine xs ls) j)) (map (ratio p o j) (members (combine ys ls) j))).
Lemma window_ok l w : window l w = Ok (made (window l w)).
Proof. destruct w; reflexivity. Qed.
Definition populated (ys : list cell) (ls : list Z) (zs : list cell) (ms : list Z) : Prop :=
  forall l, In l ls -> (0 <= l)%Z -> 2 <= length (members (combine ys ls) (Z.to_nat l)) /\ 2 <= length (members (combine zs ms) (Z.to_nat l)).
Lemma window_estimated ys ls w zs ms : populated ys ls zs ms -> estimated window ys ls w zs ms (predicted ys ls w) (observed zs ms).
Proof. intros H. split; [intros j _; apply window_ok|]. split; [intros j _; apply window_ok|exact H]. Qed.
Definition marginal_ok (di : nat) (xs : list (list Qc)) (ys : list cell) (ls : list Z) (p o : nat -> cell -> Qc) : Prop :=
  forall i j, i < di -> members (combine ys ls) j <> [] -> exists f, window1 (map (axis i) (members (combine xs ls) j)) (map (ratio p o j) (members (combine ys ls) j)) = Ok f.
Lemma window1_estimated di xs ys ls p o : marginal_ok di xs ys ls p o -> estimated_inputs window1 di xs ys ls p o (marginal xs ys ls p o).
Proof. intros H i j I N. unfold marginal. destruct (H i j I N) as (f & ->). reflexivity. Qed.
Lemma two_clusters : populated out_points out_labels seen seen_labels.
Proof. intros l H _. repeat (destruct H as [<-|H]; [vm_compute; lia|]). destruct H. Qed.
Lemma labels_two : clusters out_labels 2.
Proof. split; [intros l H; repeat (destruct H as [<-|H]; [lia|]); destruct H|right; cbn; auto]. Qed.
Lemma labels_filled : forall j, j < 2 -> members (combine out_points out_labels) j <> [].
Proof. intros [|[|j]] H; [discriminate|discriminate|lia]. Qed.
Lemma none_members : forall j, 2 <= j -> members (combine out_points out_labels) j = [].
Proof.
  intros j H. destruct (members (combine out_points out_labels) j) as [|c l] eqn:E; [reflexivity|]. assert (I : In (Z.of_nat j) out_labels) by (apply (members_in out_points out_labels j eq_refl); rewrite E; discriminate).
  repeat (destruct I as [I|I]; [lia|]). destruct I.
Qed.
Definition the_weights : list xnum := map Fin [Q2Qc (3 # 2); Q2Qc (3 # 2); Q2Qc (2 # 3); 0%Qc; Q2Qc (2 # 3)].
Definition p2 := predicted out_points out_labels None.
Definition o2 := observed seen seen_labels.
Lemma weights_two : map (fun x => match x with Fin q => Some (this q) | _ => None end) (map (weight p2 o2) (combine out_points out_labels)) = map (fun x => match x with Fin q => Some (this q) | _ => None end) the_weights.
Proof. vm_compute. reflexivity. Qed.
Lemma marginal_two : marginal_ok 1 in_points out_points out_labels p2 o2.
Proof.
  intros i j I N. destruct i; [|lia]. destruct j as [|[|j]]; [| |exfalso; apply N, none_members; lia]; unfold window1; match goal with |- context [if ?b then _ else _] => replace b with true by (vm_compute; reflexivity) end; eexists; reflexivity.
Qed.
Definition show_weights (r : result rdisc) : option (list (option Q)) :=
  match r with Ok d => option_map (map (fun x => match x with Fin q => Some (this q) | _ => None end)) (sample_weights (r_in d)) | Raise _ => None end.
Definition show_pdf (r : result rdisc) (x : list Q) : option (list (result Q)) :=
  match r with Ok d => Some (map (fun t => rmap this (pdf (r_in d) [Q2Qc t])) x) | Raise _ => None end.
(** Renumbered: the order 4, 2, 0, 1, 3. *)
Definition in_points' : list (list Qc) := map (fun z => [Q2Qc z]) [4; 2; 0; 1 # 2; 3]%Q.
Definition out_points' : list cell := map (fun z => pt (Q2Qc z)) [6; 5; 0; 1 # 2; 3]%Q.
Definition out_labels' : list Z := [1; 1; 0; 0; 0]%Z.
Lemma renumbered : Permutation (combine (combine in_points out_points) out_labels) (combine (combine in_points' out_points') out_labels').
Proof.
  cbn [in_points out_points out_labels in_points' out_points' out_labels' map combine].
  match goal with |- Permutation [?a; ?b; ?c; ?d; ?e] _ => apply Permutation_sym; change (Permutation ([e; c] ++ [a; b; d]) [a; b; c; d; e]) end.
  eapply Permutation_trans; [apply Permutation_app_comm|]. cbn [app]. apply perm_skip, perm_skip. eapply Permutation_trans; [apply perm_skip, perm_swap|]. eapply Permutation_trans; [apply perm_swap|]. apply perm_skip, Permutation_refl.
Qed.
(** Labels with a gap. *)
Definition gap_labels : list Z := [0; 0; 2; 0; 2]%Z.
Definition gap_seen : list Z := [0; 2; 0; 2; 2]%Z.
Definition some_weights : list Qc := map Q2Qc [1; 2; 1; 1; 1]%Q.
Ltac each_point := intros x H; repeat (destruct H as [<-|H]; [reflexivity|]); destruct H.
Lemma two_matching : matching 1 in_points out_points (Some out_labels) seen (Some seen_labels) None.
Proof. split; [discriminate|]. split; [reflexivity|]. split; [each_point|]. split; [intros l [= <-]; reflexivity|]. split; [intros l [= <-]; reflexivity|discriminate]. Qed.
Lemma two_matching' : matching 1 in_points' out_points' (Some out_labels') seen (Some seen_labels) None.
Proof. split; [discriminate|]. split; [reflexivity|]. split; [each_point|]. split; [intros l [= <-]; reflexivity|]. split; [intros l [= <-]; reflexivity|discriminate]. Qed.
Lemma weighted_matching : matching 1 in_points out_points (Some out_labels) seen (Some seen_labels) (Some some_weights).
Proof. split; [discriminate|]. split; [reflexivity|]. split; [each_point|]. split; [intros l [= <-]; reflexivity|]. split; [intros l [= <-]; reflexivity|intros v [= <-]; reflexivity]. Qed.
Lemma gap_clusters : populated out_points gap_labels seen gap_seen.
Proof. intros l H _. repeat (destruct H as [<-|H]; [vm_compute; lia|]). destruct H. Qed.
Lemma gap_ok : marginal_ok 1 in_points out_points gap_labels (predicted out_points gap_labels None) (observed seen gap_seen).
Proof.
  intros i j I N. destruct i; [|lia]. assert (X : In (Z.of_nat j) gap_labels) by (apply (members_in out_points gap_labels j eq_refl); exact N).
  assert (J : j = 0 \/ j = 2) by (repeat (destruct X as [X|X]; [lia|]); destruct X). destruct J as [-> | ->]; unfold window1; match goal with |- context [if ?b then _ else _] => replace b with true by (vm_compute; reflexivity) end; eexists; reflexivity.
Qed.
Lemma gap_facts : matching 1 in_points out_points (Some gap_labels) seen (Some gap_seen) None /\ populated out_points gap_labels seen gap_seen /\ clusters gap_labels 3 /\ members (combine out_points gap_labels) 1 = [] /\
  marginal_ok 1 in_points out_points gap_labels (predicted out_points gap_labels None) (observed seen gap_seen) /\
  let r := invert_to_kde window window1 2 (cluster_disc 2 true false in_points out_points (Some gap_labels) None seen (Some gap_seen)) in
  show_weights r = Some [Some (3 # 2); Some (3 # 2); Some (2 # 3); Some 0; Some (2 # 3)]%Q /\ show_pdf r [0]%Q = Some [Raise PyTypeError].
Proof.
  split; [split; [discriminate|split; [reflexivity|split; [each_point|split; [intros l [= <-]; reflexivity|split; [intros l [= <-]; reflexivity|discriminate]]]]]|].
  split; [exact gap_clusters|]. split; [split; [intros l H; repeat (destruct H as [<-|H]; [lia|]); destruct H|right; cbn; auto]|]. split; [reflexivity|]. split; [exact gap_ok|]. vm_compute. split; reflexivity.
Qed.
Lemma observed_facts : let d := mk_rdisc (mk_rset (stored 2 true false 1 (map point_row in_points) None) None None None None) (mk_rset (stored 2 true false 1 out_points None) None None None None) (mk_rset (stored 2 true false 1 seen None) None None None None) in
  keeps 2 (arrays (r_in d)) 1 (map point_row in_points) None /\ keeps 2 (arrays (r_out d)) 1 out_points None /\ distributed 2 (arrays (r_obs d)) 1 seen /\ matching 1 in_points out_points None seen None None.
Proof.
  split; [apply stored_keeps; left; reflexivity|]. split; [apply stored_keeps; left; reflexivity|]. split; [split; [reflexivity|split; intros []; reflexivity]|].
  split; [discriminate|split; [reflexivity|split; [each_point|split; [discriminate|split; discriminate]]]].
Qed.
Definition odd_disc : rdisc := cluster_disc 2 true true in_points out_points (Some out_labels) None seen None.
Definition first_run : rdisc * inverted := get (odd_disc, mk_inv [] [] [] []) (invert_disc window 2 odd_disc).
Definition is_type {A} (r : result A) : bool := match r with Raise PyTypeError => true | _ => false end.
Lemma is_type_eq {A} (r : result A) : is_type r = true -> r = Raise PyTypeError.
Proof. destruct r as [x|[]]; try discriminate. reflexivity. Qed.
Lemma labels_witness : exists P d d' inv, keeps P (arrays (r_in d)) 1 (map point_row in_points) None /\ keeps P (arrays (r_out d)) 1 out_points (Some out_labels) /\ keeps_global (arrays (r_obs d)) 1 seen None /\
  invert_disc window P d = Ok (d', inv) /\ length (i_means inv) = 1 /\ invert_disc window P d' = Raise PyTypeError /\ invert_to_kde window window1 P d = Raise PyTypeError.
Proof.
  exists 2, odd_disc, (fst first_run), (snd first_run). split; [apply stored_keeps; left; reflexivity|]. split; [apply stored_keeps; right; discriminate|]. split; [split; [reflexivity|intros []; reflexivity]|].
  split; [rewrite (get_ok (odd_disc, mk_inv [] [] [] []) (invert_disc window 2 odd_disc)) by (vm_compute; reflexivity); fold first_run; destruct first_run; reflexivity|].
  split; [vm_compute; reflexivity|]. split; apply is_type_eq; vm_compute; reflexivity.
Qed.
Definition even_disc : rdisc := cluster_disc 2 true false in_points out_points (Some out_labels) None seen (Some seen_labels).
Definition even_weighted : rdisc := mk_rdisc (r_in even_disc) (mk_rset (arrays (r_out even_disc)) (maps (r_out even_disc)) (Some some_weights) (sample_weights (r_out even_disc)) (updated (r_out even_disc))) (r_obs even_disc).
Definition show_x (l : list xnum) : list (option Q) := map (fun x => match x with Fin q => Some (this q) | _ => None end) l.
Lemma output_weights_witness : exists P d v e e', weights_init (r_out d) = None /\ length v = length out_points /\
  invert_disc window P d = Ok e /\ invert_disc window P (mk_rdisc (r_in d) (mk_rset (arrays (r_out d)) (maps (r_out d)) (Some v) (sample_weights (r_out d)) (updated (r_out d))) (r_obs d)) = Ok e' /\
  i_weights (snd e) <> i_weights (snd e').
Proof.
  exists 2, even_disc, some_weights, (get (odd_disc, mk_inv [] [] [] []) (invert_disc window 2 even_disc)), (get (odd_disc, mk_inv [] [] [] []) (invert_disc window 2 even_weighted)).
  split; [reflexivity|]. split; [reflexivity|]. split; [apply get_ok; vm_compute; reflexivity|]. split; [apply get_ok; vm_compute; reflexivity|].
  intros E. apply (f_equal show_x) in E. revert E. vm_compute. discriminate.
Qed.
