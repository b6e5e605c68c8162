From Coq Require Import List Arith QArith Qcanon.
From Verif Require Import Err Num NumPy SampleSet_Model Prob_Model Disc_Model Disc_Examples Refs_Model Refs_Spec Refs_Proofs RefsView_Proofs RefsShare_Proofs RefsNew_Proofs Refs_Examples.
Import ListNotations.
Local Open Scope nat_scope.

(** C141: discretizations without common sample sets do not influence each other,
    and a discretization whose sets are distinct objects behaves as if its sets
    were values. *)
Theorem apart_independent : forall nn P own ops w i, each_its_own own w ops ->
  let '(w1, rs) := wrun nn P ops w in let '(w2, rs2) := wrun nn P (on i ops) w in
  nth_error (snd w1) i = nth_error (snd w2) i /\ (forall a, own a = i -> nth_error (fst w1) a = nth_error (fst w2) a) /\ on i rs = rs2.
Proof. exact independent_lemma. Qed.
Print Assumptions apart_independent.
Theorem references_like_values : forall nn P o f h d v, value_call nn P o = Some f -> NoDup (refs d) -> sees h d v ->
  match f v with
  | Ok v' => exists h' d', rstep nn P o h d = (h', d', Ok tt) /\ sees h' d' v' /\ refs d' = refs d
  | Raise e => exists h' d', rstep nn P o h d = (h', d', Raise e)
  end.
Proof. exact refine_lemma. Qed.
Print Assumptions references_like_values.
Theorem setters_like_values : forall nn P o a f h d v s, value_setter nn P o = Some (a, f) -> NoDup (refs d) -> ~ In a (refs d) ->
  nth_error h a = Some s -> sees h d v ->
  match f s v with
  | Ok v' => exists h' d', rstep nn P o h d = (h', d', Ok tt) /\ sees h' d' v' /\ NoDup (refs d')
  | Raise e => exists h' d', rstep nn P o h d = (h', d', Raise e)
  end.
Proof. exact setter_lemma. Qed.
Print Assumptions setters_like_values.
Example apart_case : exists w1 rs, wrun near 2 own_ops (sets, [first; apart_from]) = (w1, rs) /\
  each_its_own (fun a => if a <? 4 then 0 else 1) (sets, [first; apart_from]) own_ops /\ forallb (fun r => is_ok (snd r)) rs = true.
Proof. exact own_example. Qed.
Example values_case : sees sets first first_seen /\ NoDup (refs first) /\ ~ In 5 (refs first).
Proof. split; [apply first_sees | split; [apply first_sees | cbn; intuition discriminate]]. Qed.

(** C142: two inverse problems with the same input set. *)
Theorem shared_input_refuted : exists h d1 d2 h1 e1 h2 e2 a,
  NoDup (refs d1) /\ NoDup (refs d2) /\ sees h d1 first_seen /\ sees h d2 second_seen /\ r_in d1 = Some a /\
  (forall b, In b (refs d1) -> In b (refs d2) -> b = a) /\
  rstep near 1 (RSolve true) h d1 = (h1, e1, Ok tt) /\ rstep near 1 (RSolve true) h1 d2 = (h2, e2, Ok tt) /\
  numbers (nth_error h1 a) = Some [[3 # 4; 1 # 4]%Q] /\ numbers (nth_error h2 a) = Some [[1 # 4; 3 # 4]%Q].
Proof. exact overwritten_witness. Qed.
Print Assumptions shared_input_refuted.
Theorem shared_input_last_wins : forall nn P g h d1 d2 v v' a, NoDup (refs d2) -> sees h d2 v -> prob_disc nn P g v = Ok v' ->
  r_in d1 = Some a -> r_in d2 = Some a ->
  exists h' d2', rstep nn P (RSolve g) h d2 = (h', d2', Ok tt) /\ sees_place h' (r_in d1) (d_in v').
Proof. exact last_wins_lemma. Qed.
Print Assumptions shared_input_last_wins.
Theorem shared_input_solve_again_partial : forall nn P g h d1 d2 a h1 e1 h2 e2 h3 f1 v1 v2,
  NoDup (refs d1) -> NoDup (refs d2) -> r_in d1 = Some a -> r_in d2 = Some a ->
  (forall b, In b (refs d1) -> In b (refs d2) -> b = a) -> sees h d1 v1 -> sees h d2 v2 -> has_samples (d_in v1) ->
  rstep nn P (RSolve g) h d1 = (h1, e1, Ok tt) -> rstep nn P (RSolve g) h1 d2 = (h2, e2, Ok tt) ->
  rstep nn P (RSolve g) h2 e1 = (h3, f1, Ok tt) ->
  exists s1 s3, nth_error h1 a = Some s1 /\ nth_error h3 a = Some s3 /\ loc s3 Probabilities = loc s1 Probabilities /\
    (g = true -> glob s3 Probabilities = glob s1 Probabilities).
Proof. exact solve_again_lemma. Qed.
Print Assumptions shared_input_solve_again_partial.
Example shared_input_case : exists h1 e1 h2 e2 h3 f1,
  has_samples (d_in first_seen) /\ solved sets first = (h1, e1, Ok tt) /\ solved h1 second = (h2, e2, Ok tt) /\ solved h2 e1 = (h3, f1, Ok tt).
Proof. exact solve_again_example. Qed.

(** C143: working on a copy, a clip or a merge leaves the originals as they were. *)
Theorem copy_same_problem : forall R (h : list (sset R)) d v h1 e, sees h d v -> r_copy h d = (h1, e) ->
  sees h1 e v /\ (exists new, h1 = h ++ new) /\ (forall a, In a (refs e) -> length h <= a < length h1) /\
  (exists m, (forall f, In f [r_in; r_out; r_prob; r_ein; r_eout; r_obs] -> f e = option_map m (f d)) /\
     (forall a b, In a (refs d) -> In b (refs d) -> m a = m b -> a = b)).
Proof. exact copy_lemma. Qed.
Print Assumptions copy_same_problem.
Theorem copy_independent : forall nn P h d v h1 e ops, sees h d v -> r_copy h d = (h1, e) ->
  (forall o a, In (0, o) ops -> In a (names o) -> a < length h) -> (forall o a, In (1, o) ops -> In a (names o) -> length h <= a) ->
  (forall i o, In (i, o) ops -> i < 2) ->
  forall i, let '(w1, rs) := wrun nn P ops (h1, [d; e]) in let '(w2, rs2) := wrun nn P (on i ops) (h1, [d; e]) in
  nth_error (snd w1) i = nth_error (snd w2) i /\
  (forall a, (i = 0 /\ a < length h) \/ (i = 1 /\ length h <= a) -> nth_error (fst w1) a = nth_error (fst w2) a) /\ on i rs = rs2.
Proof. exact copy_independent_lemma. Qed.
Print Assumptions copy_independent.
Theorem clip_new_sets : forall R P c (h : list (sset R)) d v v', sees h d v -> clip_disc P c v = Ok v' ->
  exists ci co e, r_clip P c h d = (h ++ [ci; co], Ok e) /\ sees (h ++ [ci; co]) e v' /\
    r_in e = Some (length h) /\ r_out e = Some (S (length h)) /\ r_prob e = r_prob d /\ r_ein e = r_ein d /\ r_eout e = r_eout d /\ r_obs e = None.
Proof. exact clip_lemma. Qed.
Print Assumptions clip_new_sets.
Theorem clip_solve_keeps_partial : forall nn P c g h d v v' h1 e h2 e2, NoDup (refs d) -> sees h d v -> r_clip P c h d = (h1, Ok e) ->
  clip_disc P c v = Ok v' -> rstep nn P (RSolve g) h1 e = (h2, e2, Ok tt) ->
  forall a s, nth_error h a = Some s -> exists t, nth_error h2 a = Some t /\ same_but_tree s t /\ (r_prob d <> Some a -> t = s).
Proof. exact clip_solve_lemma. Qed.
Print Assumptions clip_solve_keeps_partial.
Theorem merge_new_sets : forall R P (h : list (sset R)) d e v w m, NoDup (refs d ++ refs e) -> sees h d v -> sees h e w -> merge_disc P v w = Ok m ->
  exists h1 r, r_merge P h d e = (h1, Ok r) /\ sees h1 r m /\ extends same_but_local h h1 /\
    r_prob r = r_prob d /\ r_obs r = None /\
    (forall f a, In f [r_in; r_out; r_ein; r_eout] -> f r = Some a -> length h <= a < length h1).
Proof. exact merge_lemma. Qed.
Print Assumptions merge_new_sets.
Theorem clip_emulated_refuted : exists h d h1 e1 h2 e2 h3 e3 a,
  NoDup (refs d) /\ sees h d first_seen /\ r_ein d = Some a /\ rstep near 1 (RSolveEmulated true) h d = (h1, e1, Ok tt) /\
  r_clip 1 1 h1 e1 = (h2, Ok e2) /\ rstep near 1 (RSolveEmulated true) h2 e2 = (h3, e3, Ok tt) /\
  numbers (nth_error h2 a) = Some [[3 # 4; 1 # 8; 1 # 8]%Q] /\ numbers (nth_error h3 a) = Some [[1 # 4; 1 # 4; 1 # 4]%Q].
Proof. exact clip_emulated_witness. Qed.
Print Assumptions clip_emulated_refuted.
Example copy_case : exists h1 e, r_copy sets first = (h1, e) /\
  (forall o a, In (0, o) copy_ops -> In a (names o) -> a < length sets) /\
  (forall o a, In (1, o) copy_ops -> In a (names o) -> length sets <= a) /\ (forall i o, In (i, o) copy_ops -> i < 2) /\
  forallb (fun r => is_ok (snd r)) (snd (wrun near 1 copy_ops (h1, [first; e]))) = true.
Proof. exact copy_example. Qed.
Example clip_case : exists v' h1 e h2 e2, clip_disc 2 1 first_seen = Ok v' /\ r_clip 2 1 sets first = (h1, Ok e) /\
  rstep near 2 (RSolve true) h1 e = (h2, e2, Ok tt).
Proof. exact clip_example. Qed.
Example merge_case : exists m, NoDup (refs (full 0 1 2 3 4) ++ refs (full 5 6 7 8 9)) /\
  sees ten (full 0 1 2 3 4) (seen_full ex_pr) /\ sees ten (full 5 6 7 8 9) (seen_full other_pr) /\
  merge_disc 2 (seen_full ex_pr) (seen_full other_pr) = Ok m.
Proof. exact merge_example. Qed.
