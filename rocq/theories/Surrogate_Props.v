(** Properties C167-C169: surrogate objects. *)
From Coq Require Import List Arith Bool QArith Qcanon Lia.
From Verif Require Import Err Num Ext NumPy SampleSet_Model SampleSet_Spec Prob_Spec Disc_Model Disc_Spec Disc_Examples
  ErrorDisc_Spec ErrorDisc_Examples Surrogate_Model Surrogate_Spec Surrogate5_Proofs Surrogate_Examples.
Import ListNotations.
Local Open Scope nat_scope.
Local Open Scope err_scope.

(** ** C167 The surrogate discretization, and the old one *)

(** After any calls, on any number of processes: the surrogate discretization is
    that of the last call of generate_for_input_set, and everything stored in the
    old discretization is still there, apart from what the last update replaced. *)
Theorem surrogate_built_and_old_kept nn P a d cs xs u : 0 < P -> (forall l x, l <> [] -> nn l x < length l) -> sound a ->
  holds_old P a d -> Forall (proper_call a P) cs -> (do u0 <- new_surrogate P d ; make_all nn P cs u0) = Ok (xs, u) ->
  let k := fold_left (learn nn a) cs (mk_known None None) in
  (match k_new k with Some (b', _) => exists e, u_new u = Some e /\ surrogate_disc_is a P b' e | None => u_new u = None end) /\ old_kept (k_stored k) d u.
Proof. intros HP NN SA. exact (surrogate_kept_lemma nn P HP NN a SA d cs xs u). Qed.
Print Assumptions surrogate_built_and_old_kept.
Example surrogate_built_meet P : 0 < P -> sound a_ /\ holds_old P a_ (old_ P) /\ Forall (proper_call a_ P) calls_ /\ Forall (proper_call a_ P) calls_bad.
Proof. intros _. split; [exact a_sound|]. split; [apply old_holds|]. split; [apply calls_proper|apply calls_bad_proper]. Qed.
Example surrogate_built_runs : is_ok (do u <- new_surrogate 2 (old_ 2) ; make_all near 2 calls_ u) = true /\
  map (map this) (map (new_output near a_ 0) (map pt emu_)) = [[0]; [0]; [3 # 4]; [2]; [2]]%Q /\
  map (map this) (map (new_output near a_ 1) (map pt emu_)) = [[0]; [-1 # 2]; [1 # 4]; [2]; [3 # 2]]%Q.
Proof. split; [|split]; vm_compute; reflexivity. Qed.

(** Order one is not exact for affine maps with exact Jacobians: every new sample
    gets twice the output of the nearest old sample minus its own output. *)
Theorem surrogate_linear_exact_refuted nn P a A c s ys w d xs u : 0 < P -> (forall l x, l <> [] -> nn l x < length l) -> sound a -> of_affine a A c ->
  holds_old P a d -> proper_call a P (Generate 1 s ys w) -> (do u0 <- new_surrogate P d ; make_all nn P [Generate 1 s ys w] u0) = Ok (xs, u) ->
  exists e out, u_new u = Some e /\ d_out e = Some out /\
    loc out Values = Some (split_arr P (mk_arr (map (fun y => let x := coords (nth (home nn a y) (samples (o_problem a)) (Vec [])) in
      row (minus (plus (affine A c x) (affine A c x)) (affine A c (coords y)))) ys) [p_out (o_problem a)])).
Proof. exact (linear_lemma nn P a A c s ys w d xs u). Qed.
Print Assumptions surrogate_linear_exact_refuted.
Example surrogate_linear_meet : sound line_ /\ of_affine line_ [[q_ 2 1]] [1%Qc] /\ holds_old 2 line_ (line_disc 2) /\ proper_call line_ 2 (gen 1 None) /\
  is_ok (do u0 <- new_surrogate 2 (line_disc 2) ; make_all near 2 [gen 1 None] u0) = true /\
  map (map this) (map (new_output near line_ 1) (map pt emu_)) = [[1]; [0]; [2]; [5]; [4]]%Q /\
  map (map this) (map (fun y => affine [[q_ 2 1]] [1%Qc] (coords y)) (map pt emu_)) = [[1]; [2]; [4]; [5]; [6]]%Q.
Proof. split; [exact line_sound|]. split; [exact line_affine|]. split; [apply line_holds|]. split; [apply (gen_proper 2 1 None); exact I|]. split; [|split]; vm_compute; reflexivity. Qed.

(** ** C168 The answers *)

(** Any calls in any order on any number of processes get the answers of the
    specification, up to the first one that is refused. *)
Theorem surrogate_answers nn P a d cs : 0 < P -> (forall l x, l <> [] -> nn l x < length l) -> sound a ->
  holds_old P a d -> Forall (proper_call a P) cs ->
  rmap fst (do u <- new_surrogate P d ; make_all nn P cs u) = in_turn (answers_to nn a (mk_known None None) cs).
Proof. intros HP NN SA. exact (surrogate_answers_lemma nn P HP NN a SA d cs). Qed.
Print Assumptions surrogate_answers.
Example surrogate_answers_value : rmap (map show_pairs) (in_turn (answers_to near a_ (mk_known None None) calls_)) =
  Ok [[]; [(1 # 2, Some (-1 # 4)); (1 # 2, Some (1 # 4))]; [(1 # 2, Some (1 # 4))]; []; [(3 # 4, Some 0); (1 # 4, Some 0); (3 # 4, Some 0)]]%Q /\
  in_turn (answers_to near a_ (mk_known None None) calls_bad) = Raise WrongArgumentType.
Proof. split; vm_compute; reflexivity. Qed.

(** The set of regions gets the probabilities of its cells and keeps the rest. *)
Theorem surrogate_given_set nn P a d cs xs u s ss labels regions up r s1 u1 : 0 < P -> (forall l x, l <> [] -> nn l x < length l) -> sound a ->
  holds_old P a d -> Forall (proper_call a P) cs -> proper_call a P (Regions s ss labels regions up) ->
  (do u0 <- new_surrogate P d ; make_all nn P cs u0) = Ok (xs, u) -> region_probabilities nn P s regions up u = Ok (r, s1, u1) ->
  exists b' v, k_new (fold_left (learn nn a) cs (mk_known None None)) = Some (b', v) /\ glob s1 Probabilities = Some (vec_arr (cell_probs nn b' v ss)) /\
    forall x, x <> KdtreeValues -> x <> Probabilities -> glob s1 x = glob s x.
Proof. intros HP NN SA. exact (given_set_lemma nn P HP NN a SA d cs xs u s ss labels regions up r s1 u1). Qed.
Print Assumptions surrogate_given_set.
Example surrogate_given_set_meet : proper_call a_ 2 (ask [0; 1]%Qc true) /\ is_ok (do u0 <- new_surrogate 2 (old_ 2) ; do x <- make_all near 2 [gen 0 None] u0 ; region_probabilities near 2 region_set [0; 1]%Qc true (snd x)) = true.
Proof. split; [apply ask_proper; discriminate|vm_compute; reflexivity]. Qed.

Theorem surrogate_answers_any_processes nn a P1 P2 d1 d2 cs1 cs2 : 0 < P1 -> 0 < P2 -> (forall l x, l <> [] -> nn l x < length l) -> sound a ->
  holds_old P1 a d1 -> holds_old P2 a d2 -> Forall (proper_call a P1) cs1 -> Forall (proper_call a P2) cs2 -> Forall2 same_call cs1 cs2 ->
  rmap fst (do u <- new_surrogate P1 d1 ; make_all nn P1 cs1 u) = rmap fst (do u <- new_surrogate P2 d2 ; make_all nn P2 cs2 u).
Proof. exact (processes_lemma nn a P1 P2 d1 d2 cs1 cs2). Qed.
Print Assumptions surrogate_answers_any_processes.
Example surrogate_processes_meet : Forall2 same_call calls_ calls_.
Proof. do 5 (constructor; [cbn; auto|]). constructor. Qed.

(** Volumes that the given set has, but that were set after its values had been
    distributed, are ignored: equal volumes are used instead. *)
Theorem surrogate_given_volumes_refuted : exists nn P a d s ys v ss labels region set xs u, sound a /\ holds_old P a d /\
  points_are P (p_in (o_problem a)) s ys /\ glob s Volumes = Some (vec_arr v) /\ region_set_is (p_in (o_problem a)) set ss labels /\
  (do u0 <- new_surrogate P d ; make_all nn P [Generate 0 s ys None; Regions set ss labels [region] false] u0) = Ok (xs, u) /\
  map (map fst) xs <> [[]; [region_prob nn (new_problem nn a 0 ys) v ss labels region]].
Proof. exact volumes_lemma. Qed.
Print Assumptions surrogate_given_volumes_refuted.

(** ** C169 The update of the old discretization *)

(** An old sample gets the probabilities and the error identifiers, of the last
    region, of the new samples in its cell.  No probability is lost except that
    of events without volume. *)
Theorem surrogate_update nn P a d cs s ss labels regions xs u : 0 < P -> (forall l x, l <> [] -> nn l x < length l) -> sound a ->
  holds_old P a d -> Forall (proper_call a P) cs -> proper_call a P (Regions s ss labels regions true) ->
  (do u0 <- new_surrogate P d ; make_all nn P (cs ++ [Regions s ss labels regions true]) u0) = Ok (xs, u) ->
  exists b' v base, k_new (fold_left (learn nn a) cs (mk_known None None)) = Some (b', v) /\ d_in (u_disc u) = Some base /\
    glob base Probabilities = Some (vec_arr (old_probs nn a b' v)) /\ u_base_ids u = Some (old_ids nn a b' ss labels (last regions 0%Qc)) /\
    qsum (old_probs nn a b' v) = qsum (sample_probs nn b' v) /\
    ((forall p, In p (probs (o_problem a)) -> (0 <= p)%Qc) -> (qsum (old_probs nn a b' v) <= qsum (probs (o_problem a)))%Qc /\
      (qsum (old_probs nn a b' v) = qsum (probs (o_problem a)) <->
       forall i p, nth_error (probs (o_problem a)) i = Some p -> (0 < p)%Qc -> (0 < total_in (combine (cells_before nn b') v) i)%Qc)).
Proof. intros HP NN SA. exact (surrogate_update_lemma nn P HP NN a SA d cs s ss labels regions xs u). Qed.
Print Assumptions surrogate_update.
Example surrogate_update_value :
  option_map (map this) (probs_of (u_disc (snd (run_ [gen 0 None; ask [0; 1]%Qc true])))) = Some [1 # 2; 1 # 4; 1 # 4]%Q /\
  option_map (map show_x) (u_base_ids (snd (run_ [gen 0 None; ask [0; 1]%Qc true]))) = Some [Some 0; Some (1 # 4); Some 0]%Q.
Proof. split; vm_compute; reflexivity. Qed.

(** The update does not last: probabilities that the ranks hold from before come
    back when another surrogate is built. *)
Theorem surrogate_update_lasts_refuted : exists nn P a d cs xs u u2, sound a /\ holds_old P a d /\ Forall (proper_call a P) cs /\
  (do u0 <- new_surrogate P d ; make_all nn P cs u0) = Ok (xs, u) /\ probs_of (u_disc u) <> probs_of d /\
  new_surrogate P (u_disc u) = Ok u2 /\ probs_of (u_disc u2) = probs_of d.
Proof. exact lost_lemma. Qed.
Print Assumptions surrogate_update_lasts_refuted.
