(** The class sampler (bet/sampling/basicSampling.py:319-590) as a python object:
    it holds references to its input set and to its last discretization, and the
    sets it samples into may be held by the user and by earlier discretizations.

    The store of Refs_Model is extended by a list of discretizations; a reference
    to one is its position.  Calls return the state they leave behind also when
    they raise.  Simplifications: sample_set objects only (not rectangles or
    balls); the model has no error estimates, no Jacobians (C83), the set no
    reference value (C120), and nothing is saved; prob_type_init and
    prob_parameters_init are left out. *)
From Coq Require Import List Arith Bool QArith Qcanon.
From Verif Require Import Err Num NumPy SampleSet_Model Prob_Model Disc_Model Sampling_Model Workflow_Model Refs_Model.
Import ListNotations.
Local Open Scope nat_scope.

(** lines 333-338, the fields that change *)
Record swork := mk_swork {
  w_sets : list (sset cell);
  w_discs : list rdisc;
  s_in : option nat;       (* self.input_sample_set *)
  s_disc : option nat }.   (* self.discretization *)
Definition with_sets h w := mk_swork h (w_discs w) (s_in w) (s_disc w).
Definition with_discs l w := mk_swork (w_sets w) l (s_in w) (s_disc w).
Definition with_s_in a w := mk_swork (w_sets w) (w_discs w) a (s_disc w).
Definition with_s_disc j w := mk_swork (w_sets w) (w_discs w) (s_in w) j.

(** Programs on this state *)
Definition SM (X : Type) : Type := swork -> swork * result X.
Definition sret {X} (x : X) : SM X := fun w => (w, Ok x).
Definition sraise {X} (e : exn) : SM X := fun w => (w, Raise e).
Definition sbind {X Y} (m : SM X) (k : X -> SM Y) : SM Y := fun w =>
  match m w with
  | (w1, Ok x) => k x w1
  | (w1, Raise e) => (w1, Raise e)
  end.
Declare Scope sampler_scope.
Delimit Scope sampler_scope with sampler.
Notation "x <- m ;; k" := (sbind m (fun x => k)) (at level 100, m at next level, right associativity) : sampler_scope.
Notation "m ;;; k" := (sbind m (fun _ => k)) (at level 100, right associativity) : sampler_scope.
Local Open Scope sampler_scope.
Definition slift {X} (r : result X) : SM X := fun w => (w, r).
Definition modify (f : swork -> swork) : SM unit := fun w => (f w, Ok tt).
Definition the {X} (f : swork -> option X) : SM X := fun w => (w, need (f w)).
Definition sget (a : nat) : SM (sset cell) := fun w => (w, need (nth_error (w_sets w) a)).
(** A method of the set at a that leaves the set in a new state also if it raises *)
Definition on_set (a : nat) (f : sset cell -> sset cell * result unit) : SM unit := fun w =>
  match nth_error (w_sets w) a with
  | Some s => let '(s1, r) := f s in (with_sets (write (w_sets w) a s1) w, r)
  | None => (w, Raise PyAttributeError)
  end.
(** A method that leaves the set as it was if it raises *)
Definition on_set_ok (a : nat) (f : sset cell -> result (sset cell)) : SM unit :=
  on_set a (fun s => match f s with Ok s1 => (s1, Ok tt) | Raise e => (s, Raise e) end).
Definition new_set (s : sset cell) : SM nat := fun w => (with_sets (w_sets w ++ [s]) w, Ok (length (w_sets w))).
Definition new_disc_object (d : rdisc) : SM nat := fun w => (with_discs (w_discs w ++ [d]) w, Ok (length (w_discs w))).

(** ** The sets sampled into *)
(** input_obj: a sample set, a dimension, or a domain (lines 128-137, 209-216,
    255-264) *)
Inductive obj := SetAt (a : nat) | Dim (d : nat) | Box (dom : list (Qc * Qc)).
Definition with_domain (dom : list (Qc * Qc)) (s : sset cell) : sset cell :=
  mk_sset (dim s) (glob s) (loc s) (local_index s) (kd s) (Some dom) (weights s).
(** random_sample_set and lhs_sample_set work on the given set itself *)
Definition as_set (o : obj) : SM nat :=
  match o with
  | SetAt a => sret a
  | Dim d => new_set (new_sset d)
  | Box dom => new_set (with_domain dom (new_sset (length dom)))
  end.
(** regular_sample_set works on a copy, line 256 *)
Definition as_copy (o : obj) : SM (sset cell) :=
  match o with
  | SetAt a => sget a
  | Dim d => sret (new_sset d)
  | Box dom => sret (with_domain dom (new_sset (length dom)))
  end.
Definition row (l : list Qc) : cell := Vec (map Num l).
(** globalize, lines 176-179, 235-238 *)
Definition globalized (g : bool) (s : sset cell) : sset cell * result unit :=
  if g then match local_to_global s with Ok s1 => (s1, Ok tt) | Raise e => (s, Raise e) end
  else (set_glob Values None s, Ok tt).

(** random_sample_set, lines 158-179.  [draw r k] are the k rows drawn on rank r,
    [interval i] is the support of coordinate i. *)
Definition num_local (P n r : nat) : nat := n / P + (if r <? n mod P then 1 else 0).
Definition random_blocks (P n : nat) (draw : nat -> nat -> list (list Qc)) (d : nat) : list (arr cell) :=
  map (fun r => mk_arr (map row (draw r (num_local P n r))) [d]) (seq 0 P).
Definition fill_random (P n : nat) (g : bool) (draw : nat -> nat -> list (list Qc)) (interval : nat -> Qc * Qc) (s : sset cell) : sset cell * result unit :=
  let s1 := with_domain (map interval (seq 0 (dim s))) (set_loc Values (Some (random_blocks P n draw (dim s))) s) in
  match bind (sum_local s1 (seq 0 P)) (fun _ => check_num P s1) with
  | Raise e => (s1, Raise e)
  | Ok _ => globalized g s1
  end.

(** lhs_sample_set, lines 218-238, with update_bounds (bet/sample.py:635-647).
    [H r] is pyDOE's array on rank r. *)
Definition domain_or_unit (s : sset cell) : list (Qc * Qc) := match domain s with Some dom => dom | None => repeat (0, 1)%Qc (dim s) end.
Definition bound_rows (n d : nat) (l : list Qc) : option (arr cell) := Some (mk_arr (repeat (row l) n) [d]).
Definition lhs_blocks (P : nat) (dom : list (Qc * Qc)) (H : nat -> list (list Qc)) (d : nat) : list (arr cell) :=
  map (fun r => mk_arr (map row (nth r (array_split (map (scale_row dom) (H r)) P) [])) [d]) (seq 0 P).
Definition fill_lhs (P n : nat) (g : bool) (H : nat -> list (list Qc)) (s : sset cell) : sset cell * result unit :=
  let dom := domain_or_unit s in
  let s1 := with_domain dom s in
  let s2 := set_glob Left_ (bound_rows n (dim s) (map fst dom)) s1 in
  let s3 := set_glob Right_ (bound_rows n (dim s) (map snd dom)) s2 in
  let s4 := set_glob Width_ (bound_rows n (dim s) (map (fun ab => (snd ab - fst ab)%Qc) dom)) s3 in
  globalized g (set_loc Values (Some (lhs_blocks P dom H (dim s))) s4).

(** regular_sample_set, lines 266-316; [ns] = num_samples_per_dim *)
Definition fill_regular (P : nat) (ns : list nat) (s : sset cell) : result (sset cell) :=
  let dom := domain_or_unit s in
  global_to_local P (set_glob Values (Some (mk_arr (map row (regular_values dom ns)) [dim s])) (with_domain dom s)).

(** ** The methods of sampler *)
(** lines 376-378, 423-424, 402-403 *)
Definition s_random (P n : nat) (g : bool) (draw : nat -> nat -> list (list Qc)) (interval : nat -> Qc * Qc) (o : obj) : SM nat :=
  a <- as_set o ;;
  on_set a (fill_random P n g draw interval) ;;;
  modify (with_s_in (Some a)) ;;;
  sret a.
Definition s_lhs (P n : nat) (g : bool) (H : nat -> list (list Qc)) (o : obj) : SM nat :=
  a <- as_set o ;;
  on_set a (fill_lhs P n g H) ;;;
  modify (with_s_in (Some a)) ;;;
  sret a.
Definition s_regular (P : nat) (ns : list nat) (o : obj) : SM nat :=
  s <- as_copy o ;;
  s1 <- slift (fill_regular P ns s) ;;
  a <- new_set s1 ;;
  modify (with_s_in (Some a)) ;;;
  sret a.

(** lines 458-532 compute_qoi_and_create_discretization; the result is the new
    discretization.  Ranks with outputs of different dimensions as in
    Workflow_Model. *)
Definition out_set (model : arr cell -> arr cell) (bs : list (arr cell)) : result (sset cell) :=
  let out := map model bs in
  match out with
  | [] => Raise PyValueError
  | b :: _ => if forallb (fun c => output_dim c =? output_dim b) out
              then set_values_local (map two_d out) (new_sset (output_dim b)) else Raise PyValueError
  end.
Definition s_compute (model : arr cell -> arr cell) (P : nat) (inp : option nat) (g : bool) : SM nat :=
  (match inp with Some a => modify (with_s_in (Some a)) | None => sret tt end) ;;;
  a <- the s_in ;;
  on_set_ok a (localized P) ;;;
  s <- sget a ;;
  bs <- slift (loc_values s) ;;
  out <- slift (out_set model bs) ;;
  on_set a (globalized g) ;;;
  out1 <- slift (if g then local_to_global out else Ok out) ;;
  o <- new_set out1 ;;
  d <- (fun w => let '(h, r) := r_new P (w_sets w) (Some a) (Some o) None None None None in (with_sets h w, r)) ;;
  j <- new_disc_object d ;;
  modify (with_s_disc (Some j)) ;;;
  sret j.

(** lines 340-347 local_to_global *)
Definition on_disc (j : nat) (m : M cell unit) : SM unit := fun w =>
  match nth_error (w_discs w) j with
  | None => (w, Raise PyIndexError)
  | Some d => let '(h, d1, r) := m (w_sets w) d in (with_discs (write (w_discs w) j d1) (with_sets h w), r)
  end.
Definition s_local_to_global : SM unit :=
  (fun w => match s_in w with Some a => on_set_ok a local_to_global w | None => (w, Ok tt) end) ;;;
  (fun w => match s_disc w with Some j => on_disc j r_local_to_global w | None => (w, Ok tt) end).

(** lines 582-590 create_random_discretization; a sampler has no attribute
    num_samples (lines 333-338) *)
Definition s_create_random (model : arr cell -> arr cell) (P : nat) (num_samples : option nat) (g : bool)
  (draw : nat -> nat -> list (list Qc)) (interval : nat -> Qc * Qc) (o : obj) : SM nat :=
  n <- (match num_samples with Some n => sret n | None => sraise PyAttributeError end) ;;
  a <- s_random P n g draw interval o ;;
  s_compute model P (Some a) g.

(** lines 534-539 copy, copy.deepcopy: one memo for the input set and for the
    sets of the discretization.  The copy is returned as its two fields. *)
Definition s_copy : SM (option nat * option nat) := fun w =>
  let '(h1, memo1, i) := copy_place [] (w_sets w) (s_in w) in
  match s_disc w with
  | None => (with_sets h1 w, Ok (i, None))
  | Some j =>
      match nth_error (w_discs w) j with
      | None => (with_sets h1 w, Raise PyIndexError)
      | Some d => let '(h2, e) := copy_from memo1 h1 d in
                  (with_discs (w_discs w ++ [e]) (with_sets h2 w), Ok (i, Some (length (w_discs w))))
      end
  end.

(** ** Histories: calls of the sampler, and calls of the user on discretizations
    and sets *)
Inductive scall :=
| CRandom (n : nat) (g : bool) (draw : nat -> nat -> list (list Qc)) (interval : nat -> Qc * Qc) (o : obj)
| CLhs (n : nat) (g : bool) (H : nat -> list (list Qc)) (o : obj)
| CRegular (ns : list nat) (o : obj)
| CCompute (inp : option nat) (g : bool)
| CCreate (num_samples : option nat) (g : bool) (draw : nat -> nat -> list (list Qc)) (interval : nat -> Qc * Qc) (o : obj)
| CToGlobal
| CUser (j : nat) (o : rop cell).
Definition scall_step (nn : list cell -> cell -> nat) (model : arr cell -> arr cell) (P : nat) (c : scall) : SM unit :=
  match c with
  | CRandom n g draw interval o => s_random P n g draw interval o ;;; sret tt
  | CLhs n g H o => s_lhs P n g H o ;;; sret tt
  | CRegular ns o => s_regular P ns o ;;; sret tt
  | CCompute inp g => s_compute model P inp g ;;; sret tt
  | CCreate n g draw interval o => s_create_random model P n g draw interval o ;;; sret tt
  | CToGlobal => s_local_to_global
  | CUser j o => on_disc j (rstep nn P o)
  end.
Fixpoint scall_run (nn : list cell -> cell -> nat) (model : arr cell -> arr cell) (P : nat) (cs : list scall) (w : swork) : swork * list (result unit) :=
  match cs with
  | [] => (w, [])
  | c :: rest => let '(w1, r) := scall_step nn model P c w in
                 let '(w2, rs) := scall_run nn model P rest w1 in (w2, r :: rs)
  end.
