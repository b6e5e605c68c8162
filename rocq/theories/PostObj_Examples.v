From Coq Require Import List Arith QArith Qcanon Lia Permutation.
From Verif Require Import Err Num Ext Lists NumPy SampleSet_Model SampleSet_Spec Disc_Model Prob_Spec Disc_Spec Disc_Examples Workflow_Model Workflow_Spec Workflow_Examples Show Sampling_Model Post_Model Post_Spec PostObj_Model PostObj_Spec PostObj_Proofs.
Import ListNotations.
Local Open Scope nat_scope.

(** Three samples of the unit square with probabilities, one outside. *)
Definition three : weighted := [([Q2Qc (1 # 4); Q2Qc (1 # 2)], Q2Qc (1 # 2)); ([1%Qc; 0%Qc], Q2Qc (1 # 4)); ([Q2Qc (5 # 1); 0%Qc], Q2Qc (1 # 4))].
Definition unit_square : list (Qc * Qc) := [(0%Qc, 1%Qc); (0%Qc, 1%Qc)].
Definition square_set (gl : bool) : sset cell :=
  mk_sset 2 (fun a => match a with Values => Some (mk_arr (value_rows three) [2]) | Probabilities => if gl then Some (mk_arr (weight_rows three) []) else None | _ => None end)
    (fun a => if gl then None else match a with Values => Some [mk_arr (value_rows (firstn 1 three)) [2]; mk_arr (value_rows (skipn 1 three)) [2]]
                                            | Probabilities => Some [mk_arr (weight_rows (firstn 1 three)) []; mk_arr (weight_rows (skipn 1 three)) []] | _ => None end) None None (Some unit_square) None.
Lemma square_carries gl : carries (square_set gl) three.
Proof.
  split; [intros e [<-|[<-|[<-|[]]]]; reflexivity|]. destruct gl.
  - left. split; [reflexivity|]. eexists _, _. split; [reflexivity|]. split; [reflexivity|]. split; [reflexivity|]. split; [reflexivity|]. split.
    + intros a x E. destruct a; try discriminate; injection E as <-; reflexivity.
    + eexists. split; reflexivity.
  - right. exists [firstn 1 three; skipn 1 three]. split; [reflexivity|]. eexists _, _. repeat split.
Qed.
Lemma unit_square_proper : proper unit_square.
Proof. intros ab [<-|[<-|[]]]; discriminate. Qed.
Definition show_1D (r : result (list (list Qc) * list (list Qc) * post_arg)) : option (list (list Q) * list (list Q)) :=
  match r with Ok (b, m, _) => Some (map (map this) b, map (map this) m) | Raise _ => None end.
Definition show_2D (r : result (list (list Qc) * list ((nat * nat) * list (list Qc)) * post_arg)) : option (list ((nat * nat) * list (list Q))) :=
  match r with Ok (_, m, _) => Some (map (fun e => (fst e, map (map this) (snd e))) m) | Raise _ => None end.
(** The discretization of Workflow_Examples with a domain. *)
Definition unit_interval : list (Qc * Qc) := [(0%Qc, 1%Qc)].
Definition five_disc : result (disc cell) := solve near 3 doubling MonteCarlo false true (values_set 1 (Some unit_interval) five) (probability_set 1 None two thirds).
Definition five_points : list (list Qc) := map (fun x => [x]) [0%Qc; Q2Qc (1 # 4); Q2Qc (1 # 3); Q2Qc (3 # 4); 1%Qc].
Lemma five_is_points : points five_points = five. Proof. reflexivity. Qed.
(** An argsort for this case. *)
Definition in_order (l : list xnum) : list nat := seq 0 (length l).
Definition five_answer : list Qc := solution (fun x => near two (double x)) thirds (combine five (volume_list MonteCarlo 5)).
(* only an order of unfolding, for speed *)
Local Strategy expand [five_disc solved answer five_answer].
Lemma five_argsort : is_xargsort (rho five_answer (Some (volume_list MonteCarlo 5))) (in_order (rho five_answer (Some (volume_list MonteCarlo 5)))).
Proof.
  assert (E : rho five_answer (Some (volume_list MonteCarlo 5)) = [Fin (Q2Qc (5 # 9)); Fin (Q2Qc (5 # 9)); Fin (Q2Qc (5 # 9)); Fin (Q2Qc (5 # 3)); Fin (Q2Qc (5 # 3))]).
  { apply xlist_eq. vm_compute. reflexivity. }
  rewrite E. split; [apply Permutation_refl|]. intros i j a b x y L Ha Hb Hx Hy. unfold in_order in *. cbn [length] in *. rewrite nth_error_seq in Ha, Hb.
  destruct (Nat.ltb_spec i 5) as [Li|]; [|discriminate]. destruct (Nat.ltb_spec j 5) as [Lj|]; [|discriminate]. injection Ha as <-. injection Hb as <-.
  do 5 (destruct i as [|i]; [do 5 (destruct j as [|j]; [first [lia|injection Hx as <-; injection Hy as <-; vm_compute; reflexivity]|]); lia|]). lia.
Qed.
Definition entries (c : cell) : list Q := match c with Num q => [this q] | Vec l => concat (map (fun x => match x with Num q => [this q] | Vec _ => [] end) l) end.
Definition show_selected (r : result (nat * post_arg * list nat)) : option (nat * list (list Q) * list nat) :=
  match r with
  | Ok (n, ADisc e, idx) => match d_in e, d_out e with
                            | Some i, Some o => Some (n, map (fun x => match x with Some y => concat (map entries (rows y)) | None => [] end) [glob i Values; glob i Probabilities; glob i Volumes; glob o Values], idx)
                            | _, _ => None
                            end
  | _ => None
  end.
Lemma five_given : exists e, five_disc = Ok e /\ given (ADisc e) five five_answer (Some (volume_list MonteCarlo 5)) (Some (map double five)) /\ proper_measure five_answer (Some (volume_list MonteCarlo 5)) /\
  is_xargsort (rho five_answer (Some (volume_list MonteCarlo 5))) (in_order (rho five_answer (Some (volume_list MonteCarlo 5)))) /\
  show_selected (lowest_prob_object in_order 3 (Q2Qc (1 # 3)) (ADisc e)) = Some (3, [[0; 1 # 4; 1 # 3]; [1 # 9; 1 # 9; 1 # 9]; [1 # 5; 1 # 5; 1 # 5]; [0; 1 # 2; 2 # 3]]%Q, [0; 1; 2]).
Proof.
  destruct (solved_given near 3 1 1 double doubling MonteCarlo false true (Some unit_interval) None two thirds ltac:(lia) doubling_rows ltac:(discriminate) eq_refl thirds_nonneg ltac:(reflexivity) five ltac:(discriminate) ltac:(intros ? [=])) as (e & E & G).
  unfold solved in E. unfold answer in G. change (length five) with 5 in G. fold five_answer in G.
  pose proof (answer_proper near 3 double MonteCarlo false two thirds ltac:(lia) ltac:(reflexivity) thirds_nonneg ltac:(reflexivity) five ltac:(discriminate) ltac:(intros ? [=])) as AP. unfold answer in AP. change (length five) with 5 in AP. fold five_answer in AP.
  assert (E' : five_disc = Ok e) by (unfold five_disc; exact E). clear E.
  exists e. split; [exact E'|]. split; [exact G|]. split; [exact AP|].
  split; [exact five_argsort|]. assert (X : match five_disc with Ok e => show_selected (lowest_prob_object in_order 3 (Q2Qc (1 # 3)) (ADisc e)) | Raise _ => None end = Some (3, [[0; 1 # 4; 1 # 3]; [1 # 9; 1 # 9; 1 # 9]; [1 # 5; 1 # 5; 1 # 5]; [0; 1 # 2; 2 # 3]]%Q, [0; 1; 2])) by (vm_compute; reflexivity).
  rewrite E' in X. exact X.
Qed.
Lemma five_shown : exists e, five_disc = Ok e /\ show_1D (calculate_1D 3 (ADisc e) (BInt 3)) = Some ([[0; 1 # 3; 2 # 3; 1]], [[2 # 9; 1 # 9; 2 # 3]])%Q /\
  show_selected (highest_prob_object in_order 3 (Q2Qc (7 # 9)) (ADisc e)) = Some (3, [[1; 3 # 4; 1 # 3]; [1 # 3; 1 # 3; 1 # 9]; [1 # 5; 1 # 5; 1 # 5]; [2; 3 # 2; 2 # 3]]%Q, [4; 3; 2]).
Proof.
  assert (X : match five_disc with Ok e => Some (show_1D (calculate_1D 3 (ADisc e) (BInt 3)), show_selected (highest_prob_object in_order 3 (Q2Qc (7 # 9)) (ADisc e))) | Raise _ => None end =
    Some (Some ([[0; 1 # 3; 2 # 3; 1]], [[2 # 9; 1 # 9; 2 # 3]])%Q, Some (3, [[1; 3 # 4; 1 # 3]; [1 # 3; 1 # 3; 1 # 9]; [1 # 5; 1 # 5; 1 # 5]; [2; 3 # 2; 2 # 3]]%Q, [4; 3; 2]))) by (vm_compute; reflexivity).
  destruct five_disc as [e|]; [|discriminate]. exists e. split; [reflexivity|]. injection X as X1 X2. split; assumption.
Qed.
