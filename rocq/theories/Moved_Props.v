From Coq Require Import List Arith QArith Qcanon Lia.
From Verif Require Import Err Num NumPy SampleSet_Model SampleSet_Spec SampleSet_Proofs Disc_Proofs Disc_Model Disc_Spec Disc_Examples Prob_Spec Workflow_Model Workflow_Spec Workflow_Examples Stable_Spec Emulated_Model Emulated_Spec Emulated_Proofs Emulated_Props
  Moved_Model Moved_Spec Moved_Proofs Moved2_Proofs Show.
Import ListNotations.
Local Open Scope nat_scope.

(** C186: probabilities moved to other samples. *)
Theorem moved_sums : forall nn P d xs q zs old new, 0 < P -> zs <> [] -> carries d xs q old -> target d zs new ->
  exists old1 new1, transfer_set nn P old new = Ok (old1, new1, moved nn zs xs q) /\ carries d xs q old1 /\ glob old1 = glob old /\
    target d zs new1 /\ loc new1 = loc new /\ glob new1 Probabilities = Some (vec_arr (moved nn zs xs q)) /\ (forall a, a <> Probabilities -> a <> KdtreeValues -> glob new1 a = glob new a) /\
    ((forall x, In x xs -> nn zs x < length zs) -> qsum (moved nn zs xs q) = qsum q).
Proof.
  intros nn P d xs q zs old new HP NZ C T. destruct (transfer_set_lemma nn P d HP xs q zs old new NZ C T) as (a & b & E & C1 & G & T1 & L & GP & O).
  exists a, b. do 7 (split; [assumption|]). intros B. apply moved_total; [|exact B]. destruct (carries_localized P d xs q old HP C) as (s1 & _ & _ & D1 & _). exact (distributed_length _ _ _ _ D1).
Qed.
Print Assumptions moved_sums.
(** The solution of an inverse problem, with either function *)
Theorem moved_solution : forall nn P d o g model w before setter dom dom' xs ys probs zs new, posed nn P d o g model w before xs ys -> on_cells ys probs -> zs <> [] -> target d zs new ->
  let r := moved nn zs xs (solution (fun x => nn ys (g x)) probs (combine xs (volume_list w (length xs)))) in
  exists D inp, solve nn P model w before setter (values_set d dom xs) (probability_set o dom' ys probs) = Ok D /\ d_in D = Some inp /\
    (exists a b, transfer_set nn P inp new = Ok (a, b, r) /\ glob b Probabilities = Some (vec_arr r)) /\
    (exists a b, transfer_disc nn P D new = Ok (a, b, r) /\ glob b Probabilities = Some (vec_arr r)).
Proof.
  intros nn P d o g model w before setter dom dom' xs ys probs zs new (HP & M & NX & NY & _ & W & B) (Lp & NP) NZ T. cbv zeta.
  destruct (solved_carries nn P d o g model w before setter dom dom' xs ys probs HP M NX NY Lp NP W B) as (D & inp & out & E & Ei & Eo & Ee & C & Co).
  exists D, inp. split; [exact E|]. split; [exact Ei|]. split.
  - destruct (transfer_set_lemma nn P d HP _ _ zs inp new NZ C T) as (a & b & E1 & _ & _ & _ & _ & G & _). exists a, b. split; assumption.
  - destruct (transfer_disc_lemma nn P d HP xs _ zs D inp inp out (length xs) new NZ (or_intror (conj Ee eq_refl)) Ei (proj1 (proj2 C)) Eo (valid_count P _ _ (proj1 C)) Co C T) as (a & b & E1 & _ & _ & G & _). exists a, b. split; assumption.
Qed.
Print Assumptions moved_solution.
(** Emulated samples: moved to the samples of the problem, their probabilities are
    those of prob_with_emulated_volumes. *)
Theorem moved_points : forall nn P P' d o g model dom dom1 dom' dome xs ys es probs k setter new, emulation nn P d o g model xs ys es probs -> repaired k -> 0 < P' -> target d xs new ->
  exists D d1 new1 r, solve_emulated nn P model k (values_set d dom xs) (probability_set o dom' ys probs) (values_set d dome es) = Ok D /\
    transfer_disc nn P D new = Ok (d1, new1, r) /\ glob new1 Probabilities = Some (vec_arr r) /\
    global_probabilities (solve_with_points nn P' model setter (values_set d dom1 xs) (probability_set o dom' ys probs) (values_set d dome es)) = Some (map Num r).
Proof.
  intros nn P P' d o g model dom dom1 dom' dome xs ys es probs k setter new T R HP' TN. assert (T' : emulation nn P' d o g model xs ys es probs) by (destruct T as (_ & T0); split; assumption).
  destruct (emulated_run nn P d o g model dom dom' dome xs ys es probs T k R) as (_ & _ & D & E & PS).
  destruct (points_carry nn P d o g model xs ys es probs T D _ PS) as (em & inp & out & Ee & Ei & Di & Eo & Ci & Co & C). pose proof T as (HP & _ & NX & _).
  destruct (transfer_disc_lemma nn P d HP es _ xs D em inp out (length xs) new NX (or_introl Ee) Ei Di Eo Ci Co C TN) as (d1 & new1 & E1 & _ & _ & G & _).
  exists D, d1, new1. eexists. split; [exact E|]. split; [exact E1|]. split; [exact G|]. apply points_agree. exact T'.
Qed.
Print Assumptions moved_points.
(** Moved on to a third set, from a set without distributed arrays: by the nearest
    sample of the nearest sample. *)
Theorem moved_again_partial : forall nn P d xs q zs ws old new last, 0 < P -> zs <> [] -> ws <> [] -> carries d xs q old -> target d zs new -> target d ws last -> loc new Values = None ->
  (forall x, In x xs -> nn zs x < length zs) ->
  exists old1 new1 r new2 last1, transfer_set nn P old new = Ok (old1, new1, r) /\
    transfer_set nn P new1 last = Ok (new2, last1, map (fun j => qsum (map snd (filter (fun xq => nn ws (nth (nn zs (fst xq)) zs (fst xq)) =? j) (combine xs q)))) (seq 0 (length ws))).
Proof.
  intros nn P d xs q zs ws old new last HP NZ NW C T TL L B. destruct (transfer_set_lemma nn P d HP xs q zs old new NZ C T) as (a & b & E & _ & _ & T1 & L1 & GP & _).
  assert (C1 : carries d zs (moved nn zs xs q) b) by (apply moved_carries; [rewrite L1; exact L|exact T1|exact GP]).
  destruct (transfer_set_lemma nn P d HP _ _ ws b last NW C1 TL) as (b2 & c & E2 & _). exists a, b. eexists. exists b2, c. split; [exact E|]. rewrite E2. do 2 f_equal.
  apply (moved_again nn P HP); [|exact B]. destruct (carries_localized P d xs q old HP C) as (s1 & _ & _ & D1 & _). exact (distributed_length _ _ _ _ D1).
Qed.
Print Assumptions moved_again_partial.
(** A set with distributed arrays passes its own earlier probabilities on, or none. *)
Theorem moved_again_refuted : forall nn P d xs q zs ws old new last, 0 < P -> zs <> [] -> ws <> [] -> carries d xs q old -> target d zs new -> target d ws last ->
  exists old1 new1 r, transfer_set nn P old new = Ok (old1, new1, r) /\
    (forall q', distributed d zs q' new -> exists new2 last1, transfer_set nn P new1 last = Ok (new2, last1, moved nn ws zs q')) /\
    ((exists bs, loc new Values = Some bs /\ forall b, In b bs -> tail_shape b = [d]) -> loc new Probabilities = None -> transfer_set nn P new1 last = Raise PyTypeError).
Proof.
  intros nn P d xs q zs ws old new last HP NZ NW C T TL. destruct (transfer_set_lemma nn P d HP xs q zs old new NZ C T) as (a & b & E & _ & _ & T1 & L1 & GP & _).
  exists a, b. eexists. split; [exact E|]. split.
  - intros q' D. eapply again_old; eassumption.
  - intros V N. apply (again_none nn P d zs ws); [exact NW|exact T1|exact TL|rewrite L1; exact V|rewrite L1; exact N].
Qed.
Print Assumptions moved_again_refuted.

Definition halves : list cell := map pt [Q2Qc (1 # 4); Q2Qc (3 # 4)].
Definition five_solution := solve near 3 doubling MonteCarlo true true (values_set 1 None five) (probability_set 1 None two thirds).
Definition two_solution := solve near 3 doubling MonteCarlo true true (values_set 1 None halves) (probability_set 1 None two [1%Qc; 0%Qc]).
Definition input_of (r : result (disc cell)) : sset cell := match r with Ok d => match d_in d with Some s => s | None => new_sset 0 end | Raise _ => new_sset 0 end.
Definition show_third {A B} (r : result (A * B * list Qc)) : option (list Q) := match r with Ok (_, _, l) => Some (map this l) | Raise _ => None end.
Definition move_on (new last : sset cell) : option (list Q) :=
  match transfer_set near 3 (input_of five_solution) new with Ok (_, n, _) => show_third (transfer_set near 3 n last) | Raise _ => None end.
Lemma near_halves x : near halves x < length halves.
Proof.
  unfold near. destruct (argmin_spec (map (line_dist x) halves)) as (d & E & _); [discriminate|]. rewrite <- (map_length (line_dist x) halves). apply nth_error_Some. rewrite E. discriminate.
Qed.
Lemma values_target d dom zs : target d zs (values_set d dom zs).
Proof. split; [split; [intros a x; destruct a; try discriminate; intros [= <-]; reflexivity|exists (mk_arr zs [d]); split; reflexivity]|]. split; [left; reflexivity|]. split; reflexivity. Qed.
Example moved_case : carries 1 five [Q2Qc (1 # 9); Q2Qc (1 # 9); Q2Qc (1 # 9); Q2Qc (1 # 3); Q2Qc (1 # 3)] (input_of five_solution) /\ target 1 halves (values_set 1 None halves) /\
  posed near 3 1 1 double doubling MonteCarlo true five two /\ on_cells two thirds /\
  show_third (transfer_set near 3 (input_of five_solution) (values_set 1 None halves)) = Some [1 # 3; 2 # 3]%Q /\
  move_on (values_set 1 None halves) (values_set 1 None halves) = Some [1 # 3; 2 # 3]%Q /\
  distributed 1 halves [1%Qc; 0%Qc] (input_of two_solution) /\ move_on (input_of two_solution) (values_set 1 None halves) = Some [1; 0]%Q.
Proof.
  split; [|split; [apply values_target|]].
  - destruct (solved_carries near 3 1 1 double doubling MonteCarlo true true None None five two thirds) as (D & inp & out & E & Ei & _ & _ & C & _); [lia|exact doubling_rows|discriminate|discriminate|reflexivity|exact thirds_nonneg|intros v [=]|reflexivity|].
    unfold five_solution. rewrite E. unfold input_of. rewrite Ei. replace [Q2Qc (1 # 9); Q2Qc (1 # 9); Q2Qc (1 # 9); Q2Qc (1 # 3); Q2Qc (1 # 3)] with (solution (fun x => near two (double x)) thirds (combine five (volume_list MonteCarlo (length five)))); [exact C|].
    apply qlist_eq. vm_compute. reflexivity.
  - split; [|split; [split; [reflexivity|exact thirds_nonneg]|]].
    { split; [lia|]. split; [exact doubling_rows|]. split; [discriminate|]. split; [discriminate|]. split; [exact near_two|]. split; [intros v [=]|reflexivity]. }
    split; [vm_compute; reflexivity|]. split; [vm_compute; reflexivity|]. split; [|vm_compute; reflexivity].
    destruct (solved_carries near 3 1 1 double doubling MonteCarlo true true None None halves two [1%Qc; 0%Qc]) as (D & inp & out & E & Ei & _ & _ & C & _); [lia|exact doubling_rows|discriminate|discriminate|reflexivity|intros x [<-|[<-|[]]]; discriminate|intros v [=]|reflexivity|].
    assert (Ed : input_of two_solution = inp) by (unfold two_solution; rewrite E; unfold input_of; rewrite Ei; reflexivity).
    destruct C as (_ & _ & [C|(N & _)]); [|exfalso; rewrite <- Ed in N; vm_compute in N; discriminate]. rewrite Ed.
    replace [1%Qc; 0%Qc] with (solution (fun x => near two (double x)) [1%Qc; 0%Qc] (combine halves (volume_list MonteCarlo (length halves)))); [exact C|]. apply qlist_eq. vm_compute. reflexivity.
Qed.
