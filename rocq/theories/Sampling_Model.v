(** bet/sampling/basicSampling.py (sample sets, running the model) and
    bet/surrogates.py. *)
From Coq Require Import List Arith Bool QArith Qcanon.
From Verif Require Import Err Num Ext NumPy Util_Model.
Import ListNotations.
Local Open Scope nat_scope.
Local Open Scope err_scope.

(** ** regular_sample_set, basicSampling.py:282-308 *)
(** np.linspace(start, stop, num), num >= 2 *)
Definition linspace (start stop : Qc) (num : nat) : list Qc :=
  map (fun k => (start + qn k * ((stop - start) / qn (num - 1)))%Qc) (seq 0 num).
(** lines 293-298; n is num_samples_per_dim[i] *)
Definition vec_samples (ab : Qc * Qc) (n : nat) : list Qc :=
  let bin_width := ((snd ab - fst ab) / qn n)%Qc in
  firstn n (skipn 1 (linspace (fst ab - Q2Qc (1 # 2) * bin_width)%Qc (snd ab + Q2Qc (1 # 2) * bin_width)%Qc (n + 2))).
(** lines 300-306; the arrays of meshgrid are flattened into the columns. *)
Definition regular_values (domain : list (Qc * Qc)) (ns : list nat) : list (list Qc) :=
  let vecs := map (fun e => vec_samples (fst e) (snd e)) (combine domain ns) in
  rows_of (prod (map (@length Qc) vecs)) (mesh_columns 1 vecs).

(** ** lhs_sample_set, basicSampling.py:223-232.  [H r] is the array of numbers
    in [0,1) that pyDOE's lhs returns on rank r. *)
Definition scale_row (domain : list (Qc * Qc)) (row : list Qc) : list Qc :=
  map (fun e => ((snd (fst e) - fst (fst e)) * snd e + fst (fst e))%Qc) (combine domain row).
Definition lhs_values (domain : list (Qc * Qc)) (H : nat -> list (list Qc)) (P : nat) : list (list Qc) :=
  concat (map (fun r => nth r (array_split (map (scale_row domain) (H r)) P) []) (seq 0 P)).

(** ** random_sample_set with rv = 'uniform' and a domain, lines 140-171: scipy
    returns loc + scale * u with u in [0,1]; the new domain is interval(1). *)
Definition uniform_values (domain : list (Qc * Qc)) (U : list (list Qc)) : list (list Qc) :=
  map (fun row => map (fun e => (fst (fst e) + (snd (fst e) - fst (fst e)) * snd e)%Qc) (combine domain row)) U.
Definition uniform_domain (domain : list (Qc * Qc)) : list (Qc * Qc) :=
  map (fun ab => (fst ab, fst ab + (snd ab - fst ab))%Qc) domain.

(** ** compute_qoi_and_create_discretization, lines 437-532 *)
Section Qoi.
Context {X Y E : Type}.
(** What the model may return: an array, tuples, something else. *)
Inductive ret := Arr (v : list Y) | Tup1 (v : list Y) | Tup2 (v : list Y) (e : E) | Tup3 (v : list Y) (e j : E) | TupN | Other.
(** lines 468-481 and 509-513: values, stored error estimates, stored Jacobians.
    A variable that was not assigned raises UnboundLocalError. *)
Definition unpack (error_estimates jacobians : bool) (r : ret) : result (list Y * option E * option E) :=
  do vej <- match r with
            | Arr v | Tup1 v => Ok (v, None, None)
            | Tup2 v x => if error_estimates then Ok (v, Some x, None) else if jacobians then Ok (v, None, Some x) else Raise PyNameError
            | Tup3 v e j => Ok (v, Some e, Some j)
            | TupN => Raise PyNameError
            | Other => Raise BadObject
            end ;
  let '(v, e, j) := vej in
  do e' <- (if error_estimates then match e with Some x => Ok (Some x) | None => Raise PyNameError end else Ok None) ;
  do j' <- (if jacobians then match j with Some x => Ok (Some x) | None => Raise PyNameError end else Ok None) ;
  Ok (v, e', j').

(** The input set: global values and the local blocks of all ranks. *)
Record inset := mk_in { in_values : option (list X); in_local : option (list (list X)) }.
(** Lines 462-466, 489-490, 515-519 for a model without flags that returns an
    array; the result is the input set afterwards and the global output values
    (None without globalize). *)
Definition compute_qoi (model : list X -> list Y) (P : nat) (globalize : bool) (s : inset) : result (inset * list (list Y) * option (list Y)) :=
  do blocks <- match in_local s with
               | Some b => Ok b
               | None => match in_values s with Some v => Ok (array_split v P) | None => Raise PyTypeError end
               end ;
  let out := map model blocks in
  if globalize then Ok (mk_in (Some (concat blocks)) (Some blocks), out, Some (concat out))
  else Ok (mk_in None (Some blocks), out, None).
(** sample.py:574-602, set_values: the local values are left alone. *)
Definition set_in_values (s : inset) (v : list X) : inset := mk_in (Some v) (in_local s).
End Qoi.
Arguments ret : clear implicits.
Arguments inset : clear implicits.

(** ** Surrogates, surrogates.py:37-115.  [q] is the index of the sample whose
    cell contains a point (set_emulated_ii_ptr). *)
Definition dot (a b : list Qc) : Qc := qsum (map (fun e => (fst e * snd e)%Qc) (combine a b)).
Definition vadd (a b : list Qc) : list Qc := map (fun e => (fst e + snd e)%Qc) (combine a b).
Definition vminus (a b : list Qc) : list Qc := map (fun e => (fst e - snd e)%Qc) (combine a b).
Definition lookup {A} (l : list A) (i : nat) : result A := match nth_error l i with Some x => Ok x | None => Raise PyIndexError end.
Definition surrogate_row (order : nat) (xs outs : list (list Qc)) (jacs : list (list (list Qc))) (p : nat) (x : list Qc) : result (list Qc) :=
  if order =? 0 then lookup outs p
  else do J <- lookup jacs p ; do xp <- lookup xs p ; do o <- lookup outs p ;
       Ok (vadd o (map (fun row => dot row (vminus xp x)) J)).
Fixpoint mapM {A B} (f : A -> result B) (l : list A) : result (list B) :=
  match l with [] => Ok [] | x :: r => do y <- f x ; do ys <- mapM f r ; Ok (y :: ys) end.
(** [blocks]: the local values of the new input set on every rank; [dim], [dim']
    the dimensions of the old and new input sets. *)
Definition generate_for_input_set (q : list Qc -> nat) (dim dim' order : nat) (xs outs : list (list Qc)) (jacs : option (list (list (list Qc))))
  (blocks : list (list (list Qc))) : result (list (list (list Qc))) :=
  if negb ((order =? 0) || (order =? 1)) then Raise WrongArgumentType
  else if negb (dim' =? dim) then Raise DimNotMatching
  else if order =? 0 then mapM (mapM (fun x => surrogate_row 0 xs outs [] (q x) x)) blocks
  else match jacs with
       | None => Raise WrongArgumentType
       | Some js => mapM (mapM (fun x => surrogate_row 1 xs outs js (q x) x)) blocks
       end.
(** Lines 108-111: error estimates. *)
Definition surrogate_errors (q : list Qc -> nat) (ees : list (list Qc)) (blocks : list (list (list Qc))) : result (list (list (list Qc))) :=
  mapM (mapM (fun x => lookup ees (q x))) blocks.

(** ** calculate_prob_for_sample_set_region, lines 154-181 *)
(** [labels] = s_set._region, [pnew] = prob_new_values. *)
Definition region_probability (labels : list nat) (pnew : list Qc) (region : nat) : Qc :=
  qsum (map snd (filter (fun e => fst e =? region) (combine labels pnew))).
(** Lines 168-181: [ptrs] and [ps] are the pointers and values (probabilities or
    error identifiers) of every rank. *)
Definition pulled_back (num : nat) (ptrs : list (list nat)) (ps : list (list Qc)) : list Qc :=
  map (fun i => qsum (map (fun e => qsum (map snd (filter (fun f => fst f =? i) (combine (fst e) (snd e))))) (combine ptrs ps))) (seq 0 num).
