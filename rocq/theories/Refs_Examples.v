(** Concrete stores of sample sets: witnesses and cases that meet the hypotheses. *)
From Coq Require Import List Arith Bool QArith Qcanon Lia.
From Verif Require Import Err Num NumPy Lists SampleSet_Model Prob_Model Disc_Model Disc_Examples Refs_Model Refs_Spec.
Import ListNotations.
Local Open Scope nat_scope.

(** Inputs, outputs, output probabilities and emulated inputs of Disc_Examples at
    0, 1, 2, 3; the outputs and output probabilities of a second problem at 4, 5;
    a second input set at 6. *)
Definition other_pr : sset cell := line_set [0; 1]%Qc None (Some [quarter; three_quarters]).
Definition sets : list (sset cell) := [ex_in; ex_out; ex_pr; ex_em; ex_out; other_pr; ex_in].
Definition empty_ptrs (i o p ei : option nat) : rdisc := mk_rdisc i o p ei None None None None None None None None.
Definition first : rdisc := empty_ptrs (Some 0) (Some 1) (Some 2) (Some 3).
Definition second : rdisc := empty_ptrs (Some 0) (Some 4) (Some 5) None.
Definition apart_from : rdisc := empty_ptrs (Some 6) (Some 4) (Some 5) None.
Definition first_seen : disc cell := ex_disc.
Definition second_seen : disc cell := mk_disc (Some ex_in) (Some ex_out) (Some other_pr) None None None None None None None None None.
Lemma first_sees : sees sets first first_seen /\ NoDup (refs first).
Proof. split; [repeat split; discriminate | repeat constructor; cbn; lia]. Qed.
Lemma second_sees : sees sets second second_seen /\ NoDup (refs second).
Proof. split; [repeat split; discriminate | repeat constructor; cbn; lia]. Qed.

(** The stored probabilities as numbers *)
Definition numbers (o : option (sset cell)) : option (list (list Q)) :=
  match o with
  | Some s => option_map (map (fun b => concat (map show_cell (rows b)))) (loc s Probabilities)
  | None => None
  end.
Definition state {A B C} (x : A * B * C) : A * B := fst x.
Definition ended {A B C} (x : A * B * result C) : bool := is_ok (snd x).

(** *** C141 *)
(** A history on two discretizations with their own sets *)
Definition own_ops : list (nat * rop cell) := [(0, RSolveEmulated false); (1, RIoPtr true); (0, RSolve true); (1, RProb 5); (1, RSolve true)].
Lemma own_example : exists w1 rs, wrun near 2 own_ops (sets, [first; apart_from]) = (w1, rs) /\
  each_its_own (fun a => if a <? 4 then 0 else 1) (sets, [first; apart_from]) own_ops /\ forallb (fun r => is_ok (snd r)) rs = true.
Proof.
  do 2 eexists. split; [apply surjective_pairing |]. split; [| vm_compute; reflexivity].
  split.
  - intros [|[|[|i]]] d a H; try discriminate H; injection H as <-; cbn; intuition (subst; auto).
  - intros i o a H. cbn in H. repeat (destruct H as [H | H]; [injection H as <- <-; cbn; intuition (subst; auto) |]). destruct H.
Qed.

(** *** C142 *)
(** Two problems with the same input set: solving the second changes what the
    first shows. *)
Definition solved (h : list (sset cell)) (d : rdisc) : list (sset cell) * rdisc * result unit := rstep near 1 (RSolve true) h d.
Lemma overwritten_witness : exists h d1 d2 h1 e1 h2 e2 a,
  NoDup (refs d1) /\ NoDup (refs d2) /\ sees h d1 first_seen /\ sees h d2 second_seen /\ r_in d1 = Some a /\
  (forall b, In b (refs d1) -> In b (refs d2) -> b = a) /\
  rstep near 1 (RSolve true) h d1 = (h1, e1, Ok tt) /\ rstep near 1 (RSolve true) h1 d2 = (h2, e2, Ok tt) /\
  numbers (nth_error h1 a) = Some [[3 # 4; 1 # 4]%Q] /\ numbers (nth_error h2 a) = Some [[1 # 4; 3 # 4]%Q].
Proof.
  exists sets, first, second.
  exists (fst (state (solved sets first))), (snd (state (solved sets first))).
  exists (fst (state (solved (fst (state (solved sets first))) second))), (snd (state (solved (fst (state (solved sets first))) second))), 0.
  split; [apply first_sees |]. split; [apply second_sees |]. split; [apply first_sees |]. split; [apply second_sees |].
  split; [reflexivity |]. split; [cbn; intros b; intuition (subst; auto; try discriminate) |].
  split; [vm_compute; reflexivity |]. split; [vm_compute; reflexivity |]. split; vm_compute; reflexivity.
Qed.
Lemma solve_again_example : exists h1 e1 h2 e2 h3 f1,
  has_samples (d_in first_seen) /\ solved sets first = (h1, e1, Ok tt) /\ solved h1 second = (h2, e2, Ok tt) /\ solved h2 e1 = (h3, f1, Ok tt).
Proof.
  exists (fst (state (solved sets first))), (snd (state (solved sets first))).
  exists (fst (state (solved (fst (state (solved sets first))) second))), (snd (state (solved (fst (state (solved sets first))) second))).
  exists (fst (state (solved (fst (state (solved (fst (state (solved sets first))) second))) (snd (state (solved sets first)))))).
  exists (snd (state (solved (fst (state (solved (fst (state (solved sets first))) second))) (snd (state (solved sets first)))))).
  split; [left; discriminate |]. split; [vm_compute; reflexivity |]. split; vm_compute; reflexivity.
Qed.

(** *** C143 *)
(** A problem is solved on its emulated inputs, then its clip is. *)
Definition emulated (h : list (sset cell)) (d : rdisc) : list (sset cell) * rdisc * result unit := rstep near 1 (RSolveEmulated true) h d.
Definition h_solved : list (sset cell) := fst (state (emulated sets first)).
Definition d_solved : rdisc := snd (state (emulated sets first)).
Definition h_clipped : list (sset cell) := fst (r_clip 1 1 h_solved d_solved).
Definition d_clipped : rdisc := Disc_Examples.get first (snd (r_clip 1 1 h_solved d_solved)).
Lemma clip_emulated_witness : exists h d h1 e1 h2 e2 h3 e3 a,
  NoDup (refs d) /\ sees h d first_seen /\ r_ein d = Some a /\ rstep near 1 (RSolveEmulated true) h d = (h1, e1, Ok tt) /\
  r_clip 1 1 h1 e1 = (h2, Ok e2) /\ rstep near 1 (RSolveEmulated true) h2 e2 = (h3, e3, Ok tt) /\
  numbers (nth_error h2 a) = Some [[3 # 4; 1 # 8; 1 # 8]%Q] /\ numbers (nth_error h3 a) = Some [[1 # 4; 1 # 4; 1 # 4]%Q].
Proof.
  exists sets, first, h_solved, d_solved, h_clipped, d_clipped, (fst (state (emulated h_clipped d_clipped))), (snd (state (emulated h_clipped d_clipped))), 3.
  split; [apply first_sees |]. split; [apply first_sees |]. split; [reflexivity |].
  split; [vm_compute; reflexivity |]. split; [vm_compute; reflexivity |]. split; [vm_compute; reflexivity |].
  split; vm_compute; reflexivity.
Qed.
(** The same discretization clipped and then solved on its samples. *)
Lemma clip_example : exists v' h1 e h2 e2, clip_disc 2 1 first_seen = Ok v' /\ r_clip 2 1 sets first = (h1, Ok e) /\
  rstep near 2 (RSolve true) h1 e = (h2, e2, Ok tt).
Proof.
  exists (Disc_Examples.get first_seen (clip_disc 2 1 first_seen)), (fst (r_clip 2 1 sets first)), (Disc_Examples.get first (snd (r_clip 2 1 sets first))).
  exists (fst (state (rstep near 2 (RSolve true) (fst (r_clip 2 1 sets first)) (Disc_Examples.get first (snd (r_clip 2 1 sets first)))))).
  exists (snd (state (rstep near 2 (RSolve true) (fst (r_clip 2 1 sets first)) (Disc_Examples.get first (snd (r_clip 2 1 sets first)))))).
  split; [apply get_ok; vm_compute; reflexivity |]. split; vm_compute; reflexivity.
Qed.
(** Two discretizations with emulated sets, merged. *)
Definition full (i o p ei eo : nat) : rdisc := mk_rdisc (Some i) (Some o) (Some p) (Some ei) (Some eo) None None None None None None None.
Definition ten : list (sset cell) := [ex_in; ex_out; ex_pr; ex_em; ex_em; ex_in; ex_out; other_pr; ex_em; ex_em].
Definition seen_full (p : sset cell) : disc cell :=
  mk_disc (Some ex_in) (Some ex_out) (Some p) (Some ex_em) (Some ex_em) None None None None None None None.
Lemma merge_example : exists m, NoDup (refs (full 0 1 2 3 4) ++ refs (full 5 6 7 8 9)) /\
  sees ten (full 0 1 2 3 4) (seen_full ex_pr) /\ sees ten (full 5 6 7 8 9) (seen_full other_pr) /\
  merge_disc 2 (seen_full ex_pr) (seen_full other_pr) = Ok m.
Proof.
  exists (Disc_Examples.get first_seen (merge_disc 2 (seen_full ex_pr) (seen_full other_pr))).
  split; [repeat constructor; cbn; lia |]. split; [repeat split; discriminate |]. split; [repeat split; discriminate |].
  apply get_ok. vm_compute. reflexivity.
Qed.
(** A history on a discretization and its copy *)
Definition copy_ops : list (nat * rop cell) := [(0, RSolve true); (1, ROut 8); (1, RSolveEmulated true); (0, REin 3); (1, RSolve true)].
Lemma copy_example : exists h1 e, r_copy sets first = (h1, e) /\
  (forall o a, In (0, o) copy_ops -> In a (names o) -> a < length sets) /\
  (forall o a, In (1, o) copy_ops -> In a (names o) -> length sets <= a) /\ (forall i o, In (i, o) copy_ops -> i < 2) /\
  forallb (fun r => is_ok (snd r)) (snd (wrun near 1 copy_ops (h1, [first; e]))) = true.
Proof.
  exists (fst (r_copy sets first)), (snd (r_copy sets first)). split; [apply surjective_pairing |].
  split; [| split; [| split]].
  - intros o a H. cbn in H. repeat (destruct H as [H | H]; [try discriminate H; injection H as <-; cbn; intuition (subst; auto with arith; lia) |]). destruct H.
  - intros o a H. cbn in H. repeat (destruct H as [H | H]; [try discriminate H; injection H as <-; cbn; intuition (subst; auto with arith; lia) |]). destruct H.
  - intros i o H. cbn in H. repeat (destruct H as [H | H]; [injection H as <- <-; lia |]). destruct H.
  - vm_compute. reflexivity.
Qed.
