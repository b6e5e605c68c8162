(** C118, C119: random sample sets. *)
From Coq Require Import String List Arith ZArith Lia QArith Qcanon.
From Verif Require Import Err Num Ext Show Layout_Model RvSet_Model RvSet_Spec RvSet_Proofs RvSet_Examples.
Import ListNotations.
Local Open Scope nat_scope.

(** ** C118 *)
(** Each entry of a sample is the number drawn for its dimension. *)
Theorem random_set_draws : forall stats draw P n g rv s s', 0 < P -> draws_have_length draw -> domain_fits s ->
  random_set stats draw P n g rv s = (Ok tt, s') ->
  exists blocks, r_local s' = Some blocks /\ length blocks = P /\ length (concat blocks) = n /\ (g = true -> r_values s' = Some (concat blocks)) /\
    forall r b k row, nth_error blocks r = Some b -> nth_error b k = Some row -> length row = r_dim s /\
      forall i x a, i < r_dim s -> asked (r_domain s) rv i x a -> nth_error row i = nth_error (draw r i x a (length b)) k.
Proof. exact draws_lemma. Qed.
Print Assumptions random_set_draws.
(** The set records the distributions and their supports. *)
Theorem random_set_domain : forall stats draw P n g rv s s', domain_fits s -> random_set stats draw P n g rv s = (Ok tt, s') ->
  exists dom init, r_domain s' = Some dom /\ length dom = r_dim s /\ r_init s' = Some init /\ length init = r_dim s /\
    forall i, i < r_dim s -> exists x a d, asked (r_domain s) rv i x a /\ stats x = Some d /\ nth_error dom i = Some (support d a) /\ nth_error init i = Some (EPair x a).
Proof. exact domain_lemma. Qed.
Print Assumptions random_set_domain.
Example random_set_draws_ex : exists s', random_set ex_stats ex_draw 2 3 true beta_uniform set2 = (Ok tt, s') /\
  option_map (@length _) (r_values s') = Some 3 /\ option_map (map (@length _)) (r_local s') = Some [2; 1].
Proof. eexists. split; [reflexivity|]. split; reflexivity. Qed.
(** What is accepted, and what is not. *)
Theorem random_set_accepts : forall stats draw P n g rv s, fresh s ->
  ((exists s', random_set stats draw P n g rv s = (Ok tt, s')) <->
   well_formed (r_dim s) rv /\ forall i, i < r_dim s -> exists x a d, asked (r_domain s) rv i x a /\ stats x = Some d /\ callable d a).
Proof. exact accepted_lemma. Qed.
Print Assumptions random_set_accepts.
Theorem random_set_rejects_unchanged : forall stats draw P n g rv s e s', fresh s -> random_set stats draw P n g rv s = (Raise e, s') -> s' = s.
Proof. exact rejected_lemma. Qed.
Print Assumptions random_set_rejects_unchanged.
Theorem random_set_rejects_with : forall stats draw P n g s l,
  (r_dim s <> length l -> (forall x d, l <> [EName x; EDict d]) -> random_set stats draw P n g (RSeq l) s = (Raise DimNotMatching, s)) /\
  random_set stats draw P n g ROther s = (Raise WrongInput, s).
Proof. exact rejected_with_lemma. Qed.
Print Assumptions random_set_rejects_with.
Example random_set_accepts_ex : fresh set2 /\ (well_formed 2 beta_uniform /\ forall i, i < 2 -> exists x a d, asked (r_domain set2) beta_uniform i x a /\ ex_stats x = Some d /\ callable d a) /\
  random_set ex_stats ex_draw 2 3 true (RName "beta") set2 = (Raise PyTypeError, set2) /\ random_set ex_stats ex_draw 2 3 true (RSeq [EPair "uniform" []]) set2 = (Raise DimNotMatching, set2).
Proof. split; [exact set2_fresh|]. split; [exact beta_uniform_ok|]. split; reflexivity. Qed.
(** The second argument: a set, a dimension or a domain, nothing else. *)
Theorem random_sample_set_inputs : forall stats draw P n g rv o dim dom s', 0 < P -> draws_have_length draw -> means_set o dim dom ->
  random_sample_set stats draw P n g rv o = Ok s' ->
  exists blocks, r_dim s' = dim /\ r_local s' = Some blocks /\ length (concat blocks) = n /\
    forall r b k row, nth_error blocks r = Some b -> nth_error b k = Some row -> length row = dim /\
      forall i x a, i < dim -> asked dom rv i x a -> nth_error row i = nth_error (draw r i x a (length b)) k.
Proof. exact inputs_lemma. Qed.
Print Assumptions random_sample_set_inputs.
Theorem random_sample_set_inputs_rejected : forall stats draw P n g rv, random_sample_set stats draw P n g rv IOther = Raise WrongInput.
Proof. exact inputs_rejected_lemma. Qed.
Print Assumptions random_sample_set_inputs_rejected.
Example random_sample_set_inputs_ex : exists s', random_sample_set ex_stats ex_draw 2 3 true (RName "uniform") (IDomain [(Fin q2, Fin q5)]) = Ok s' /\ option_map (@length _) (r_values s') = Some 3.
Proof. eexists. split; reflexivity. Qed.
Theorem random_set_consistent_partial : forall stats draw P n rv s s', 0 < P -> fresh s -> random_set stats draw P n true rv s = (Ok tt, s') ->
  all_have s' n /\ r_values s' <> None.
Proof. exact consistent_lemma. Qed.
Print Assumptions random_set_consistent_partial.
(** An array left from an earlier sample makes the returned set inconsistent. *)
Theorem random_set_consistent_refuted : forall stats draw P n rv s m, 0 < P -> m <> n -> r_values s = None -> domain_fits s -> r_arrays s = [(Some m, None)] ->
  well_formed (r_dim s) rv ->
  (forall i, i < r_dim s -> exists x a d, asked (r_domain s) rv i x a /\ stats x = Some d /\ callable d a) ->
  exists s', random_set stats draw P n true rv s = (Ok tt, s') /\ forall k, ~ all_have s' k.
Proof. exact stale_lemma. Qed.
Print Assumptions random_set_consistent_refuted.
Example random_set_stale_ex : domain_fits set_stale /\ exists s', random_set ex_stats ex_draw 2 3 true beta_uniform set_stale = (Ok tt, s') /\ global_lengths s' = [3; 7].
Proof. split; [exact I|]. eexists. split; reflexivity. Qed.
(** A local array of another length: the call raises, but the set has changed. *)
Theorem random_set_rejects_refuted : forall stats draw P n g rv s ls r m, r < P -> nth_error ls r = Some m -> m <> Z.to_nat (draw_count n P r) ->
  r_init s = None -> domain_fits s -> r_arrays s = [(None, Some ls)] ->
  well_formed (r_dim s) rv -> (forall i, i < r_dim s -> exists x a d, asked (r_domain s) rv i x a /\ stats x = Some d /\ callable d a) ->
  exists s', random_set stats draw P n g rv s = (Raise LengthNotMatching, s') /\ s' <> s.
Proof. exact failed_check_lemma. Qed.
Print Assumptions random_set_rejects_refuted.
Example random_set_rejects_refuted_ex : fst (random_set ex_stats ex_draw 2 3 true beta_uniform (mk_rset 2 None None None None [(None, Some [4; 4])])) = Raise LengthNotMatching.
Proof. reflexivity. Qed.
(** The second sample of a set by name is drawn with the support of the first as
    location and scale: other parameters unless the support is [0, 1], and no
    finite numbers if it is unbounded. *)
Theorem random_set_twice : forall stats draw P n g x s s' t u d, domain_fits s -> r_domain s = None -> stats x = Some d -> x <> "r"%string -> x <> "random"%string ->
  random_set stats draw P n g (RName x) s = (Ok tt, s') -> random_set stats draw P n g (RName x) s' = (Ok t, u) ->
  r_init u = Some (repeat (EPair x [("loc", fst (support d [])); ("scale", xadd (snd (support d [])) (xneg (fst (support d []))))]%string) (r_dim s)).
Proof. exact twice_lemma. Qed.
Print Assumptions random_set_twice.
Theorem random_set_twice_refuted : forall stats draw P n g x s s' t u d, 0 < P -> draws_have_length draw -> domain_fits s -> r_domain s = None ->
  stats x = Some d -> x <> "r"%string -> x <> "random"%string -> support d [] = (NInf, PInf) ->
  (forall r i m lo sc, exists us, draw r i x [("loc", lo); ("scale", sc)]%string m = map (fun q => xadd lo (xmul sc (Fin q))) us) ->
  random_set stats draw P n g (RName x) s = (Ok tt, s') -> random_set stats draw P n g (RName x) s' = (Ok t, u) ->
  exists blocks, r_local u = Some blocks /\ length (concat blocks) = n /\ forall row v, In row (concat blocks) -> In v row -> finite v = false.
Proof. exact not_finite_lemma. Qed.
Print Assumptions random_set_twice_refuted.
Example random_set_twice_ex : draws_have_length ex_draw /\
  (forall r i m lo sc, exists us, ex_draw r i "norm" [("loc", lo); ("scale", sc)]%string m = map (fun q => xadd lo (xmul sc (Fin q))) us) /\
  exists s' u, random_set ex_stats ex_draw 1 2 true (RName "norm") set1 = (Ok tt, s') /\ random_set ex_stats ex_draw 1 2 true (RName "norm") s' = (Ok tt, u) /\
    r_values s' = Some [[Fin (Q2Qc (1 # 2))]; [Fin (Q2Qc (1 # 2))]] /\ r_values u = Some [[NaN]; [NaN]].
Proof.
  split; [exact ex_draw_length|]. split; [exact ex_draw_affine|]. eexists. eexists. split; [reflexivity|]. split; [reflexivity|]. split; [|reflexivity].
  cbn. repeat f_equal; qc_compute.
Qed.

(** ** C119 *)
Theorem fitted_names : forall d A, length A = length (shapes d) + 2 ->
  shapes d = [] \/ shapes d = ["a"%string] \/ shapes d = ["a"; "b"]%string ->
  fit_parameters A = Ok (combine (shapes d ++ ["loc"; "scale"]%string) (map Fin A)).
Proof. exact fit_names_lemma. Qed.
Print Assumptions fitted_names.
(** Sampling works if the shapes are called a, or a and b. *)
Theorem fitted_sampling_partial : forall stats draw P n g fits, 0 < P -> draws_have_length draw ->
  (forall x A, In (x, A) fits -> exists d, stats x = Some d /\ length A = length (shapes d) + 2 /\
     (shapes d = [] \/ shapes d = ["a"%string] \/ shapes d = ["a"; "b"]%string) /\ valid d (combine (shapes d ++ ["loc"; "scale"]%string) (map Fin A)) = true) ->
  exists s blocks, sample_fits stats draw P n g fits = Ok s /\ r_local s = Some blocks /\ length (concat blocks) = n /\
    forall r b k row i x A d, nth_error blocks r = Some b -> nth_error b k = Some row -> nth_error fits i = Some (x, A) -> stats x = Some d ->
      nth_error row i = nth_error (draw r i x (combine (shapes d ++ ["loc"; "scale"]%string) (map Fin A)) (length b)) k.
Proof. exact fits_sampled_lemma. Qed.
Print Assumptions fitted_sampling_partial.
Example fitted_sampling_ex : exists s, sample_fits ex_stats ex_draw 2 5 true [("beta", [q2; q5; 0; 1]%Qc); ("norm", [q2; q5])]%string = Ok s /\ option_map (@length _) (r_values s) = Some 5.
Proof. eexists. split; reflexivity. Qed.
(** For any other distribution with shapes the stored parameters are unusable. *)
Theorem fitted_usable : forall d A a, length A = length (shapes d) + 2 -> NoDup (shapes d) -> ~ In "loc"%string (shapes d) -> ~ In "scale"%string (shapes d) ->
  fit_parameters A = Ok a -> (names_fit d a <-> shapes d = [] \/ shapes d = ["a"%string] \/ shapes d = ["a"; "b"]%string \/ shapes d = ["b"; "a"]%string).
Proof. exact fit_usable_lemma. Qed.
Print Assumptions fitted_usable.
Theorem fitted_sampling_refuted : forall stats draw P n g fits i x A d, nth_error fits i = Some (x, A) -> stats x = Some d ->
  length A = length (shapes d) + 2 -> NoDup (shapes d) -> ~ In "loc"%string (shapes d) -> ~ In "scale"%string (shapes d) ->
  ~ (shapes d = [] \/ shapes d = ["a"%string] \/ shapes d = ["a"; "b"]%string \/ shapes d = ["b"; "a"]%string) ->
  exists e, sample_fits stats draw P n g fits = Raise e.
Proof. exact fits_fail_lemma. Qed.
Print Assumptions fitted_sampling_refuted.
Example fitted_sampling_refuted_ex : sample_fits ex_stats ex_draw 2 5 true [("lognorm", [q2; 0; 1]%Qc)]%string = Raise PyTypeError.
Proof. reflexivity. Qed.
