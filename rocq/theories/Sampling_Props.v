From Coq Require Import List Arith Bool QArith Qcanon.
From Verif Require Import Err Num Ext Show NumPy Sampling_Model Sampling_Spec Sampling_Proofs Sampling_Examples.
Import ListNotations.
Local Open Scope nat_scope.

(** C41 *)
Theorem surrogate0_piecewise_constant : forall q dim xs outs jacs blocks, (forall x, q x < length outs) ->
  exists res, generate_for_input_set q dim dim 0 xs outs jacs blocks = Ok res /\
  map (@length _) res = map (@length _) blocks /\
  forall r i block x, nth_error blocks r = Some block -> nth_error block i = Some x ->
    exists out, nth_error res r = Some out /\ nth_error out i = nth_error outs (q x).
Proof. exact surrogate0_lemma. Qed.
Print Assumptions surrogate0_piecewise_constant.
(** The same for the error estimates, for both orders. *)
Theorem surrogate_error_estimates : forall q ees blocks, (forall x, q x < length ees) ->
  exists res, surrogate_errors q ees blocks = Ok res /\ map (@length _) res = map (@length _) blocks /\
  forall r i block x, nth_error blocks r = Some block -> nth_error block i = Some x ->
    exists out, nth_error res r = Some out /\ nth_error out i = nth_error ees (q x).
Proof. exact surrogate_errors_lemma. Qed.
Print Assumptions surrogate_error_estimates.
(** The nearest sample of a sample is itself, so its own output is returned. *)
Theorem surrogate0_interpolates : forall (dist : list Qc -> list Qc -> Qc) q xs,
  (forall x, dist x x = 0%Qc) -> (forall x y, (0 <= dist x y)%Qc) -> (forall x y, dist x y = 0%Qc -> x = y) ->
  (forall x y, nth_error xs (q x) = Some y -> forall z, In z xs -> (dist x y <= dist x z)%Qc) -> (forall x, q x < length xs) ->
  NoDup xs -> forall k x, nth_error xs k = Some x -> q x = k.
Proof. exact surrogate0_samples_lemma. Qed.
Print Assumptions surrogate0_interpolates.
Theorem surrogate_process_independent : forall q dim dim' order xs outs jacs blocks,
  match generate_for_input_set q dim dim' order xs outs jacs blocks, generate_for_input_set q dim dim' order xs outs jacs [concat blocks] with
  | Ok a, Ok b => b = [concat a]
  | Raise e, Raise e' => e = e'
  | _, _ => False
  end.
Proof. exact surrogate_process_lemma. Qed.
Print Assumptions surrogate_process_independent.
Example surrogate0_ex : generate_for_input_set (fun x => if qltb (hd 0%Qc x) q12 then 0 else 1) 1 1 0 [[q14]; [q34]] [[qn 5]; [qn 7]] None [[[0%Qc]]; [[1%Qc]; [q14]]]
  = Ok [[[qn 5]]; [[qn 7]; [qn 5]]].
Proof. vm_compute. reflexivity. Qed.

(** C42: the value is twice the value at the sample minus the true value. *)
Theorem surrogate1_reflects : forall q dim xs outs jacs blocks A b,
  (forall x, q x < length xs) -> (forall x, In x xs -> length x = dim) -> (forall block x, In block blocks -> In x block -> length x = dim) ->
  outs = map (affine A b) xs -> jacs = map (fun _ => A) xs ->
  exists res, generate_for_input_set q dim dim 1 xs outs (Some jacs) blocks = Ok res /\
  forall r i block x, nth_error blocks r = Some block -> nth_error block i = Some x ->
    exists out xp, nth_error res r = Some out /\ nth_error xs (q x) = Some xp /\ nth_error out i = Some (reflect_at (affine A b xp) (affine A b x)).
Proof. exact surrogate1_lemma. Qed.
Print Assumptions surrogate1_reflects.
Theorem surrogate1_exact_partial : forall A b xp x, reflect_at (affine A b xp) (affine A b x) = affine A b x <-> affine A b xp = affine A b x.
Proof. exact surrogate1_exact_lemma. Qed.
Print Assumptions surrogate1_exact_partial.
Theorem surrogate1_refuted : generate_for_input_set (fun _ => 0) 1 1 1 [[qn 0]] [affine [[qn 1]] [qn 0] [qn 0]] (Some [[[qn 1]]]) [[[qn 1]]] = Ok [[[(- qn 1)%Qc]]] /\
  affine [[qn 1]] [qn 0] [qn 1] = [qn 1].
Proof. exact surrogate1_refuted_lemma. Qed.
Print Assumptions surrogate1_refuted.

(** C43 *)
Theorem regular_is_grid : forall domain ns, length domain = length ns -> (forall n, In n ns -> 0 < n) -> regular_values domain ns = grid domain ns.
Proof. exact regular_lemma. Qed.
Print Assumptions regular_is_grid.
Theorem regular_inside_domain : forall domain ns x, length domain = length ns -> (forall n, In n ns -> 0 < n) -> (forall ab, In ab domain -> (fst ab < snd ab)%Qc) ->
  In x (regular_values domain ns) -> inside domain x.
Proof. exact regular_inside_lemma. Qed.
Print Assumptions regular_inside_domain.
Theorem regular_count : forall domain ns, length domain = length ns -> (forall n, In n ns -> 0 < n) -> length (regular_values domain ns) = fold_right Nat.mul 1 ns.
Proof. exact regular_count_lemma. Qed.
Print Assumptions regular_count.
Example regular_ex : regular_values [(0%Qc, 1%Qc); (qn 2, qn 5)] [2; 1] = [[q14; Q2Qc (7 # 2)]; [q34; Q2Qc (7 # 2)]].
Proof. qc_compute. Qed.

(** C44: true if all processes draw the same hypercube (in particular for one). *)
Theorem lhs_latin_partial : forall domain n H P, 0 < P -> (forall ab, In ab domain -> (fst ab < snd ab)%Qc) ->
  (forall r, r < P -> H r = H 0) -> (forall row, In row (H 0) -> length row = length domain) ->
  latin (unit_cube (length domain)) n (H 0) -> latin domain n (lhs_values domain H P).
Proof. exact lhs_same_lemma. Qed.
Print Assumptions lhs_latin_partial.
Example lhs_latin_ex : latin (unit_cube 1) 2 (two_draws 0).
Proof. exact (two_draws_latin 0). Qed.
Theorem lhs_parallel_refuted : (forall r, latin (unit_cube 1) 2 (two_draws r)) /\ ~ latin [(0%Qc, 1%Qc)] 2 (lhs_values [(0%Qc, 1%Qc)] two_draws 2).
Proof. exact lhs_refuted_lemma. Qed.
Print Assumptions lhs_parallel_refuted.

(** C45 *)
Theorem compute_qoi_pairs : forall (X Y : Type) (f : X -> Y) model P s, 0 < P -> (forall l, model l = map f l) ->
  (in_local s <> None \/ in_values s <> None) ->
  exists s' out v, compute_qoi model P true s = Ok (s', out, Some v) /\
  exists x, in_values s' = Some x /\ v = map f x /\ (in_local s = None -> in_values s = Some x) /\ concat out = v /\ in_local s' = Some (match in_local s with Some b => b | None => array_split x P end).
Proof. exact compute_qoi_lemma. Qed.
Print Assumptions compute_qoi_pairs.
Theorem compute_qoi_pairs_local : forall (X Y : Type) (f : X -> Y) model P s, 0 < P -> (forall l, model l = map f l) -> forall s' out v g,
  compute_qoi model P g s = Ok (s', out, v) -> exists blocks, in_local s' = Some blocks /\ out = map (map f) blocks.
Proof. exact compute_qoi_local_lemma. Qed.
Print Assumptions compute_qoi_pairs_local.
Example compute_qoi_ex : compute_qoi double_all 2 true (mk_in (Some [qn 1; qn 2; qn 3]) None)
  = Ok (mk_in (Some [qn 1; qn 2; qn 3]) (Some [[qn 1; qn 2]; [qn 3]]), [[qn 2; qn 4]; [qn 6]], Some [qn 2; qn 4; qn 6]).
Proof. vm_compute. reflexivity. Qed.

(** C81 *)
Theorem uniform_in_domain : forall domain U, (forall ab, In ab domain -> (fst ab < snd ab)%Qc) ->
  (forall row u, In row U -> In u row -> (0 <= u)%Qc /\ (u <= 1)%Qc) -> (forall row, In row U -> length row = length domain) ->
  uniform_domain domain = domain /\ length (uniform_values domain U) = length U /\ forall x, In x (uniform_values domain U) -> inside_closed domain x.
Proof. exact uniform_lemma. Qed.
Print Assumptions uniform_in_domain.
Example uniform_ex : uniform_values [(qn 2, qn 4)] [[q14]; [q12]] = [[Q2Qc (5 # 2)]; [qn 3]].
Proof. qc_compute. Qed.

(** C82 *)
Theorem qoi_at_current_samples_refuted : forall (X Y : Type) (model : list X -> list Y) P s blocks new, in_local s = Some blocks ->
  exists s' out v, compute_qoi model P true (set_in_values s new) = Ok (s', out, v) /\ in_values s' = Some (concat blocks).
Proof. exact compute_qoi_stale_lemma. Qed.
Print Assumptions qoi_at_current_samples_refuted.
Example qoi_stale_ex : exists s1 o1 v1 s2 o2, compute_qoi double_all 2 true (mk_in (Some [qn 1; qn 2; qn 3]) None) = Ok (s1, o1, Some v1) /\ v1 = [qn 2; qn 4; qn 6] /\
  compute_qoi double_all 2 true (set_in_values s1 [qn 10; qn 20; qn 30]) = Ok (s2, o2, Some v1) /\ in_values s2 = Some [qn 1; qn 2; qn 3].
Proof. exact stale_ex. Qed.

(** C83 *)
Theorem model_outputs_partial : forall (Y E : Type) (v : list Y) (e j : E) ee jac,
  unpack ee jac (Tup3 v e j) = Ok (v, if ee then Some e else None, if jac then Some j else None) /\
  unpack true false (Tup2 v e) = Ok (v, Some e, None) /\ unpack false true (Tup2 v j) = Ok (v, None, Some j) /\
  unpack (E := E) false false (Arr v) = Ok (v, None, None) /\ unpack (E := E) false false (Tup1 v) = Ok (v, None, None).
Proof. exact unpack_lemma. Qed.
Print Assumptions model_outputs_partial.
Theorem model_outputs_refuted : forall (Y E : Type) (v : list Y) (x : E), unpack false false (Tup2 v x) = Raise PyNameError /\ unpack true true (Tup2 v x) = Raise PyNameError /\
  (forall ee jac, ee || jac = true -> unpack (E := E) ee jac (Arr v) = Raise PyNameError).
Proof. exact unpack_refuted_lemma. Qed.
Print Assumptions model_outputs_refuted.

(** C84 *)
Theorem surrogate_update_conserves : forall num ptrs ps, map (@length _) ptrs = map (@length _) ps -> (forall l k, In l ptrs -> In k l -> k < num) ->
  length (pulled_back num ptrs ps) = num /\
  (forall i, i < num -> nth_error (pulled_back num ptrs ps) i = Some (qsum (map (fun f => ind (fst f =? i) (snd f)) (combine (concat ptrs) (concat ps))))) /\
  qsum (pulled_back num ptrs ps) = qsum (concat ps).
Proof. exact pulled_back_lemma. Qed.
Print Assumptions surrogate_update_conserves.
Theorem region_probabilities_total : forall labels pnew regions, length labels = length pnew -> NoDup regions -> (forall l, In l labels -> In l regions) ->
  qsum (map (region_probability labels pnew) regions) = qsum pnew.
Proof. exact region_total_lemma. Qed.
Print Assumptions region_probabilities_total.
Example surrogate_update_ex : pulled_back 3 [[0; 2]; [2]] [[q14; q14]; [q12]] = [q14; 0%Qc; q34] /\
  region_probability [0; 1; 0] [q14; q14; q12] 0 = q34.
Proof. split; qc_compute. Qed.
