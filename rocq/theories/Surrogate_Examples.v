(** A surrogate on the line, and what a later use of the old discretization does. *)
From Coq Require Import List Arith Bool QArith Qcanon Lia.
From Verif Require Import Err Num Ext NumPy Lists SampleSet_Model SampleSet_Spec SampleSet_Proofs Disc_Model Disc_Spec Disc_Examples
  VolHist_Proofs ErrorDisc_Model ErrorDisc_Spec ErrorDisc_Proofs ErrorDisc_Examples Surrogate_Model Surrogate_Spec.
Import ListNotations.
Local Open Scope nat_scope.
Local Open Scope err_scope.

(** The problem of ErrorDisc_Examples, with Jacobian 1 at every sample and
    probabilities of an earlier calculation, which the ranks hold too. *)
Definition J_ : list (list (list Qc)) := repeat [[1%Qc]] 3.
Definition a_ : old_data := mk_old (b_ None) true (Some J_).
Definition old_p : list Qc := [half; half; 0]%Qc.
Definition in_glob (x : attr) : option (arr cell) :=
  match x with Values => Some (pts xs_) | Jacobians => Some (mk_arr (map (fun M => Vec (map row M)) J_) [1; 1]) | Probabilities => Some (vec_arr old_p) | _ => None end.
Definition in_ (P : nat) : sset cell := mk_sset 1 in_glob (fun x => option_map (split_arr P) (in_glob x)) None None None None.
Definition old_ (P : nat) : disc cell := mk_disc (Some (in_ P)) (Some (out_ es_)) (Some (prob_ ys_ ps_)) None None None None None None None None None.
Lemma a_sound : sound a_.
Proof.
  split; [apply b_posed; discriminate|]. split.
  - do 3 (constructor; [eexists [_]; split; reflexivity|]). constructor.
  - intros J [= <-]. split; [reflexivity|]. intros M HM. apply repeat_spec in HM. subst M. split; [reflexivity|]. intros r [<-|[]]. reflexivity.
Qed.
Lemma old_holds P : holds_old P a_ (old_ P).
Proof.
  split; [|split].
  - exists (in_ P). split; [reflexivity|]. split; [|split; [discriminate|reflexivity]]. split; [|split; reflexivity]. split; [|split].
    + split; [|exists (pts xs_); split; reflexivity]. intros x y G. destruct x; cbn in G; try discriminate; injection G as <-; reflexivity.
    + split; left; reflexivity.
    + intros x bs E. cbn in E. destruct (in_glob x) as [y|] eqn:EG; [|discriminate]. injection E as <-. exists y. split; [exact EG|]. split; [apply split_arr_rows|intros c Hc; apply split_arr_tail in Hc; exact Hc].
  - eexists. split; [reflexivity|]. split; [|reflexivity]. apply eset_points; [reflexivity|]. apply only_length. reflexivity.
  - eexists. split; [reflexivity|]. split; [|reflexivity]. apply eset_points; [reflexivity|]. apply only_length. reflexivity.
Qed.

(** Five new samples, first without volumes, then with. *)
Definition v5_ : list Qc := [half; quarter; 0; quarter; 0]%Qc.
Definition gen (order : nat) (v : option (list Qc)) : call := Generate order (eset emu_ (match v with Some v => only Volumes (vec_arr v) | None => none_ end)) (map pt emu_) v.
Definition ask (regions : list Qc) (update : bool) : call := Regions region_set (map pt ys_) [0; 1]%Qc regions update.
Lemma gen_proper P order v : match v with Some v => length v = 5 | None => True end -> proper_call a_ P (gen order v).
Proof.
  intros Lv. split; [discriminate|]. split; [|split].
  - apply eset_points; destruct v; try reflexivity; [apply only_length; cbn; rewrite map_length; exact Lv|discriminate].
  - do 5 (constructor; [eexists [_]; split; reflexivity|]). constructor.
  - destruct v; [split; [reflexivity|right; reflexivity]|left; reflexivity].
Qed.
Lemma ask_proper P regions update : regions <> [] -> proper_call a_ P (ask regions update).
Proof.
  intros N. split; [discriminate|]. split; [|exact N]. destruct (eset_points P ys_ (only Region (vec_arr [0; 1]%Qc)) eq_refl (only_length Region (vec_arr [0; 1]%Qc) ys_ eq_refl)) as ((V & _) & D & G).
  split; [rewrite map_length in *; exact V|]. split; [left; reflexivity|]. split; [exact D|]. split; [exact G|reflexivity].
Qed.
Definition calls_ : list call := [gen 0 None; ask [0; 1]%Qc true; ask [1]%Qc false; gen 1 (Some v5_); ask [0; 1; 0]%Qc true].
Definition calls_bad : list call := [gen 0 None; ask [0%Qc; q_ 7 1] true].
Lemma calls_proper P : Forall (proper_call a_ P) calls_.
Proof. constructor; [apply gen_proper; exact I|]. constructor; [apply ask_proper; discriminate|]. constructor; [apply ask_proper; discriminate|]. constructor; [apply gen_proper; reflexivity|]. constructor; [apply ask_proper; discriminate|constructor]. Qed.
Lemma calls_bad_proper P : Forall (proper_call a_ P) calls_bad.
Proof. constructor; [apply gen_proper; exact I|]. constructor; [apply ask_proper; discriminate|constructor]. Qed.
Definition show_pairs (l : list (Qc * xnum)) : list (Q * option Q) := map (fun p => (this (fst p), show_x (snd p))) l.

(** *** The update and a second surrogate *)
Definition probs_of (d : disc cell) : option (list Qc) :=
  match d_in d with Some s => match glob s Probabilities with Some x => match scalars (rows x) with Ok v => Some v | Raise _ => None end | None => None end | None => None end.
Definition u0_ : surrogate := mk_sur (old_ 2) None None None None.
Definition run_ (cs : list call) : list (list (Qc * xnum)) * surrogate := get ([], u0_) (do u <- new_surrogate 2 (old_ 2) ; make_all near 2 cs u).
Definition again_ : surrogate := get u0_ (new_surrogate 2 (u_disc (snd (run_ calls_)))).
Lemma lost_lemma : exists nn P a d cs xs u u2, sound a /\ holds_old P a d /\ Forall (proper_call a P) cs /\
  (do u0 <- new_surrogate P d ; make_all nn P cs u0) = Ok (xs, u) /\ probs_of (u_disc u) <> probs_of d /\
  new_surrogate P (u_disc u) = Ok u2 /\ probs_of (u_disc u2) = probs_of d.
Proof.
  exists near, 2, a_, (old_ 2), calls_, (fst (run_ calls_)), (snd (run_ calls_)), again_. split; [exact a_sound|]. split; [apply old_holds|]. split; [apply calls_proper|].
  split; [rewrite <- surjective_pairing; apply get_ok; vm_compute; reflexivity|]. split; [intros E; apply (f_equal (option_map (map this))) in E; vm_compute in E; discriminate|].
  split; [apply get_ok; vm_compute; reflexivity|vm_compute; reflexivity].
Qed.

(** *** Volumes that were given after the values had been distributed *)
Definition late_set : sset cell := mk_sset 1 (fun x => match x with Values => Some (pts emu_) | Volumes => Some (vec_arr v5_) | _ => None end)
  (fun x => match x with Values => Some (split_arr 2 (pts emu_)) | _ => None end) None None None None.
Lemma late_points : points_are 2 1 late_set (map pt emu_).
Proof.
  split; [|split; reflexivity]. split; [|split].
  - split; [|exists (pts emu_); split; reflexivity]. intros x y G. destruct x; cbn in G; try discriminate; injection G as <-; reflexivity.
  - split; left; reflexivity.
  - intros x bs E. destruct x; cbn in E; try discriminate. injection E as <-. exists (pts emu_). split; [reflexivity|]. split; [reflexivity|intros c [<-|[<-|[]]]; reflexivity].
Qed.
Definition late_calls : list call := [Generate 0 late_set (map pt emu_) None; ask [0%Qc] false].
Lemma volumes_lemma : exists nn P a d s ys v ss labels region set xs u, sound a /\ holds_old P a d /\
  points_are P (p_in (o_problem a)) s ys /\ glob s Volumes = Some (vec_arr v) /\ region_set_is (p_in (o_problem a)) set ss labels /\
  (do u0 <- new_surrogate P d ; make_all nn P [Generate 0 s ys None; Regions set ss labels [region] false] u0) = Ok (xs, u) /\
  map (map fst) xs <> [[]; [region_prob nn (new_problem nn a 0 ys) v ss labels region]].
Proof.
  exists near, 2, a_, (old_ 2), late_set, (map pt emu_), v5_, (map pt ys_), [0; 1]%Qc, 0%Qc, region_set, (fst (run_ late_calls)), (snd (run_ late_calls)).
  split; [exact a_sound|]. split; [apply old_holds|]. split; [exact late_points|]. split; [reflexivity|]. split; [apply (ask_proper 2 [0%Qc] false); discriminate|].
  split; [rewrite <- surjective_pairing; apply get_ok; vm_compute; reflexivity|]. intros E. apply (f_equal (map (map this))) in E. vm_compute in E. discriminate.
Qed.

(** *** The line 2 x + 1 *)
Definition line_b : problem := mk_problem 1 1 (map pt xs_) (map (fun x => affine [[q_ 2 1]] [1%Qc] (coords x)) (map pt xs_)) (map (fun q => [q]) es_) (map pt ys_) ps_ None.
Definition line_ : old_data := mk_old line_b false (Some (repeat [[q_ 2 1]] 3)).
Definition line_disc (P : nat) : disc cell :=
  mk_disc (Some (eset xs_ (only Jacobians (mk_arr (map (fun M => Vec (map row M)) (repeat [[q_ 2 1]] 3)) [1; 1])))) (Some (eset [1; q_ 3 1; q_ 5 1]%Qc none_)) (Some (prob_ ys_ ps_)) None None None None None None None None None.
Lemma line_affine : of_affine line_ [[q_ 2 1]] [1%Qc].
Proof. split; [reflexivity|]. split; reflexivity. Qed.
Lemma line_sound : sound line_.
Proof.
  split; [|split].
  - split; [discriminate|]. split; [discriminate|]. do 2 (split; [reflexivity|]). split; [|split; [reflexivity|discriminate]].
    cbn. intros z [H|H]; repeat (destruct H as [<-|H]; [reflexivity|]); contradiction.
  - do 3 (constructor; [eexists [_]; split; reflexivity|]). constructor.
  - intros J [= <-]. split; [reflexivity|]. intros M HM. change (In M (repeat [[q_ 2 1]] 3)) in HM; apply repeat_spec in HM. subst M. split; [reflexivity|]. intros r [<-|[]]. reflexivity.
Qed.
Lemma line_holds P : holds_old P line_ (line_disc P).
Proof.
  split; [|split].
  - eexists. split; [reflexivity|]. split; [|split; [discriminate|reflexivity]]. apply eset_points; [reflexivity|]. apply only_length. reflexivity.
  - eexists. split; [reflexivity|]. split; [|reflexivity].
    replace (map row (outputs (o_problem line_))) with (map pt [1; q_ 3 1; q_ 5 1]%Qc); [apply eset_points; [reflexivity|discriminate]|].
    cbn. unfold row, pt. cbn. repeat f_equal; apply Qc_is_canon; vm_compute; reflexivity.
  - eexists. split; [reflexivity|]. split; [|reflexivity]. apply eset_points; [reflexivity|]. apply only_length. reflexivity.
Qed.
