(** Discretizations as python objects: a discretization holds references to
    sample sets, so that several discretizations, the user and a sampler may
    share one set (bet/sample.py:2235-2850, bet/calculateP/calculateP.py:21-106,
    bet/sampling/basicSampling.py:92-315, 440-590).

    The store is a list of sample sets; a reference is a position in it.  Calls
    return the store they leave behind also when they raise.  Simplifications:
    an exception inside one method of a sample set leaves that set as it was
    (local_to_global with blocks of different widths is the only such method
    that changes the set before it raises); arrays are values, i.e. no array is
    changed in place through a second reference to it. *)
From Coq Require Import List Arith Bool QArith Qcanon.
From Verif Require Import Err Num NumPy SampleSet_Model Prob_Model Disc_Model Workflow_Model.
Import ListNotations.
Local Open Scope nat_scope.

(** sample.py:2271-2298, the fields of a discretization *)
Record rdisc := mk_rdisc {
  r_in : option nat; r_out : option nat; r_prob : option nat;
  r_ein : option nat; r_eout : option nat; r_obs : option nat;
  r_io : option (list nat); r_ii : option (list nat); r_oo : option (list nat);
  r_io_loc : option (list (list nat)); r_ii_loc : option (list (list nat)); r_oo_loc : option (list (list nat)) }.
Definition rwith_in x d := mk_rdisc x (r_out d) (r_prob d) (r_ein d) (r_eout d) (r_obs d) (r_io d) (r_ii d) (r_oo d) (r_io_loc d) (r_ii_loc d) (r_oo_loc d).
Definition rwith_out x d := mk_rdisc (r_in d) x (r_prob d) (r_ein d) (r_eout d) (r_obs d) (r_io d) (r_ii d) (r_oo d) (r_io_loc d) (r_ii_loc d) (r_oo_loc d).
Definition rwith_prob x d := mk_rdisc (r_in d) (r_out d) x (r_ein d) (r_eout d) (r_obs d) (r_io d) (r_ii d) (r_oo d) (r_io_loc d) (r_ii_loc d) (r_oo_loc d).
Definition rwith_ein x d := mk_rdisc (r_in d) (r_out d) (r_prob d) x (r_eout d) (r_obs d) (r_io d) (r_ii d) (r_oo d) (r_io_loc d) (r_ii_loc d) (r_oo_loc d).
Definition rwith_eout x d := mk_rdisc (r_in d) (r_out d) (r_prob d) (r_ein d) x (r_obs d) (r_io d) (r_ii d) (r_oo d) (r_io_loc d) (r_ii_loc d) (r_oo_loc d).
Definition rwith_obs x d := mk_rdisc (r_in d) (r_out d) (r_prob d) (r_ein d) (r_eout d) x (r_io d) (r_ii d) (r_oo d) (r_io_loc d) (r_ii_loc d) (r_oo_loc d).
Definition rwith_io g l d := mk_rdisc (r_in d) (r_out d) (r_prob d) (r_ein d) (r_eout d) (r_obs d) g (r_ii d) (r_oo d) l (r_ii_loc d) (r_oo_loc d).
Definition rwith_ii g l d := mk_rdisc (r_in d) (r_out d) (r_prob d) (r_ein d) (r_eout d) (r_obs d) (r_io d) g (r_oo d) (r_io_loc d) l (r_oo_loc d).
Definition rwith_oo g l d := mk_rdisc (r_in d) (r_out d) (r_prob d) (r_ein d) (r_eout d) (r_obs d) (r_io d) (r_ii d) g (r_io_loc d) (r_ii_loc d) l.

(** Writing one element of a list *)
Fixpoint write {A} (l : list A) (a : nat) (x : A) : list A :=
  match l, a with
  | [], _ => []
  | _ :: r, 0 => x :: r
  | y :: r, S k => y :: write r k x
  end.

(** ** Programs on the store and one discretization (self) *)
Definition M (R X : Type) : Type := list (sset R) -> rdisc -> list (sset R) * rdisc * result X.
Definition ret {R X} (x : X) : M R X := fun h d => (h, d, Ok x).
Definition mbind {R X Y} (m : M R X) (k : X -> M R Y) : M R Y := fun h d =>
  match m h d with
  | (h1, d1, Ok x) => k x h1 d1
  | (h1, d1, Raise e) => (h1, d1, Raise e)
  end.
Declare Scope refs_scope.
Delimit Scope refs_scope with refs.
Notation "x <- m ;; k" := (mbind m (fun x => k)) (at level 100, m at next level, right associativity) : refs_scope.
Notation "m ;;; k" := (mbind m (fun _ => k)) (at level 100, right associativity) : refs_scope.
Local Open Scope refs_scope.
(** A calculation without effect on the store; may raise. *)
Definition lift {R X} (r : result X) : M R X := fun h d => (h, d, r).
(** self, and an assignment to a field of self *)
Definition self {R} : M R rdisc := fun h d => (h, d, Ok d).
Definition assign {R} (f : rdisc -> rdisc) : M R unit := fun h d => (h, f d, Ok tt).
(** The present state of the set at a reference, and its new state.  A reference
    to nothing does not occur in a python program. *)
Definition get {R} (a : nat) : M R (sset R) := fun h d => (h, d, need (nth_error h a)).
Definition put {R} (a : nat) (s : sset R) : M R unit := fun h d => (write h a s, d, Ok tt).
(** The object in a field of self: attribute access on None raises. *)
Definition place {R} (f : rdisc -> option nat) : M R nat := d <- self ;; lift (need (f d)).
(** Calling a method f of the set at a reference *)
Definition call {R} (a : nat) (f : sset R -> result (sset R)) : M R unit :=
  s <- get a ;; s1 <- lift (f s) ;; put a s1.

Section Refs.
Context {R : Type}.
Implicit Types nn : list R -> R -> nat.

(** sample.py:2343-2360 check_nums *)
Definition r_check_nums (P : nat) : M R nat :=
  o <- place r_out ;;
  out <- get o ;;
  out_num <- lift (check_num P out) ;;
  i <- place r_in ;;
  inp <- get i ;;
  in_num <- lift (check_num P inp) ;;
  lift (match glob out Values, glob inp Values with
        | Some _, Some _ => if out_num =? in_num then Ok in_num else Raise LengthNotMatching
        | _, _ => Ok in_num
        end).

(** sample.py:1395-1412: points of the set at b, located in the set at a, whose
    tree may be built by the call. *)
Definition r_query nn (P : nat) (b a : nat) : M R (list (list nat)) :=
  t <- get b ;;
  xs <- lift (loc_values t) ;;
  s <- get a ;;
  q <- lift (query_blocks nn P xs s) ;;
  put a (snd q) ;;;
  ret (fst q).

(** sample.py:2378-2394 set_io_ptr, 2413-2434 set_emulated_ii_ptr,
    2453-2475 set_emulated_oo_ptr *)
Definition r_set_io nn (P : nat) (g : bool) : M R unit :=
  o <- place r_out ;;
  call o (localized P) ;;;
  p <- place r_prob ;;
  q <- r_query nn P o p ;;
  assign (fun d => rwith_io (if g then Some (concat q) else r_io d) (Some q) d).
Definition r_set_ii nn (P : nat) (g : bool) : M R unit :=
  o <- place r_ein ;;
  call o (localized P) ;;;
  p <- place r_in ;;
  q <- r_query nn P o p ;;
  assign (fun d => rwith_ii (if g then Some (concat q) else r_ii d) (Some q) d).
Definition r_set_oo nn (P : nat) (g : bool) : M R unit :=
  o <- place r_eout ;;
  call o (localized P) ;;;
  p <- place r_prob ;;
  q <- r_query nn P o p ;;
  assign (fun d => rwith_oo (if g then Some (concat q) else r_oo d) (Some q) d).
(** sample.py:2362-2376 globalize_ptrs *)
Definition r_globalize_ptrs : M R unit :=
  assign (fun d => rwith_io (fill (r_io d) (r_io_loc d)) (r_io_loc d) (rwith_ii (fill (r_ii d) (r_ii_loc d)) (r_ii_loc d)
                     (rwith_oo (fill (r_oo d) (r_oo_loc d)) (r_oo_loc d) d))).

(** ** Setters, sample.py:2515-2687; the argument is a reference to a set *)
Definition r_set_input (a : nat) : M R unit := assign (rwith_in (Some a)).
Definition r_set_output (a : nat) : M R unit := assign (rwith_out (Some a)).
Definition r_set_observed (a : nat) : M R unit := assign (rwith_obs (Some a)).
Definition same_dim_as (s : sset R) (f : rdisc -> option nat) : M R bool :=
  d <- self ;;
  match f d with
  | None => ret true
  | Some b => t <- get b ;; ret (dim t =? dim s)
  end.
Definition r_set_emulated_input (a : nat) : M R unit :=
  s <- get a ;;
  ok <- same_dim_as s r_in ;;
  if ok then assign (rwith_ein (Some a)) else lift (Raise DimNotMatching).
Definition r_set_emulated_output (a : nat) : M R unit :=
  s <- get a ;;
  ok1 <- same_dim_as s r_out ;;
  ok2 <- same_dim_as s r_prob ;;
  if ok1 && ok2 then assign (rwith_eout (Some a)) else lift (Raise DimNotMatching).
Definition r_set_probability nn (P : nat) (a : nat) : M R unit :=
  s <- get a ;;
  ok1 <- same_dim_as s r_out ;;
  ok2 <- same_dim_as s r_eout ;;
  if ok1 && ok2 then
    assign (rwith_prob (Some a)) ;;;
    o <- place r_out ;;
    out <- get o ;;
    match loc out Values, glob s Values with
    | Some _, Some _ => r_set_io nn P false
    | _, _ => ret tt
    end
  else lift (Raise DimNotMatching).

(** sample.py:2819-2834 local_to_global, 2835-2850 global_to_local (the last
    line of which names the method without calling it) *)
Definition each_place (f : sset R -> result (sset R)) (p : rdisc -> option nat) : M R unit :=
  d <- self ;; match p d with None => ret tt | Some a => call a f end.
Definition r_local_to_global : M R unit :=
  each_place local_to_global r_in ;;; each_place local_to_global r_out ;;; each_place local_to_global r_prob ;;;
  each_place local_to_global r_ein ;;; each_place local_to_global r_eout.
Definition r_global_to_local (P : nat) : M R unit :=
  each_place (global_to_local P) r_in ;;; each_place (global_to_local P) r_out ;;; each_place (global_to_local P) r_prob ;;;
  each_place (global_to_local P) r_ein.
End Refs.

(** calculateP.py:67-106 prob.  The array P_local is stored at the end, so the
    loop reads the sets as they are before. *)
Definition r_prob_disc (nn : list cell -> cell -> nat) (P : nat) (globalize : bool) : M cell unit :=
  _ <- r_check_nums P ;;
  p <- place r_prob ;;
  pr <- get p ;;
  op_num <- lift (check_num P pr) ;;
  d <- self ;;
  (match r_io_loc d with None => r_set_io nn P false | Some _ => ret tt end) ;;;
  i <- place r_in ;;
  call i (localized P) ;;;
  d1 <- self ;;
  ptrs <- lift (subscript (r_io_loc d1)) ;;
  p1 <- place r_prob ;;
  pr1 <- get p1 ;;
  probs <- lift (out_probs op_num pr1) ;;
  inp <- get i ;;
  vols <- lift (if existsb (qltb 0) probs then (bind (subscript (loc inp Volumes)) scalar_blocks) else Ok []) ;;
  q <- lift (prob probs ptrs vols) ;;
  put i (set_loc Probabilities (Some (map vec_arr q))
           (if globalize then set_glob Probabilities (Some (vec_arr (concat q))) inp else inp)).

(** calculateP.py:21-64 prob_on_emulated_samples *)
Definition r_emulated_disc (nn : list cell -> cell -> nat) (P : nat) (globalize : bool) : M cell unit :=
  _ <- r_check_nums P ;;
  p <- place r_prob ;;
  pr <- get p ;;
  op_num <- lift (check_num P pr) ;;
  e <- place r_ein ;;
  em <- get e ;;
  _ <- lift (check_num P em) ;;
  d <- self ;;
  (match r_io_loc d with None => r_set_io nn P true | Some _ => ret tt end) ;;;
  d1 <- self ;;
  (match r_ii_loc d1 with None => r_set_ii nn P false | Some _ => ret tt end) ;;;
  em1 <- get e ;;
  bs <- lift (need (loc em1 Values)) ;;
  d2 <- self ;;
  io_ptr <- lift (subscript (r_io d2)) ;;
  ptr <- lift (subscript (r_ii_loc d2)) ;;
  _ <- lift (follow io_ptr ptr) ;;
  pr1 <- get p ;;
  probs <- lift (out_probs op_num pr1) ;;
  q <- lift (emulated_probs probs io_ptr ptr (map (fun b => length (rows b)) bs)) ;;
  em2 <- get e ;;
  put e (set_loc Probabilities (Some (map vec_arr q)) em2) ;;;
  (if globalize then call e local_to_global else ret tt).

(** simpleFunP.py:251-253 (and the ends of the other constructions): the new
    output probability set, at reference a, is stored without check and only the
    local pointer is set. *)
Definition r_store_output_probability {R} (nn : list R -> R -> nat) (P : nat) (a : nat) : M R unit :=
  assign (rwith_prob (Some a)) ;;; r_set_io nn P false.

(** ** Histories of calls on several discretizations *)
Inductive rop (R : Type) :=
| RIn (a : nat) | ROut (a : nat) | RProb (a : nat) | REin (a : nat) | REout (a : nat) | RObs (a : nat)
| RSimple (a : nat)                                (* a function of simpleFunP *)
| RIoPtr (g : bool) | RIiPtr (g : bool) | ROoPtr (g : bool) | RGlobalize
| RToGlobal | RToLocal
| RSolve (g : bool) | RSolveEmulated (g : bool)
| RMethod (a : nat) (f : sset R -> result (sset R)).  (* any method called on the set a itself *)
Arguments RIn {R}. Arguments ROut {R}. Arguments RProb {R}. Arguments REin {R}. Arguments REout {R}. Arguments RObs {R}.
Arguments RSimple {R}. Arguments RIoPtr {R}. Arguments RIiPtr {R}. Arguments ROoPtr {R}. Arguments RGlobalize {R}.
Arguments RToGlobal {R}. Arguments RToLocal {R}. Arguments RSolve {R}. Arguments RSolveEmulated {R}. Arguments RMethod {R}.
Definition rstep (nn : list cell -> cell -> nat) (P : nat) (o : rop cell) : M cell unit :=
  match o with
  | RIn a => r_set_input a
  | ROut a => r_set_output a
  | RProb a => r_set_probability nn P a
  | REin a => r_set_emulated_input a
  | REout a => r_set_emulated_output a
  | RObs a => r_set_observed a
  | RSimple a => r_store_output_probability nn P a
  | RIoPtr g => r_set_io nn P g
  | RIiPtr g => r_set_ii nn P g
  | ROoPtr g => r_set_oo nn P g
  | RGlobalize => r_globalize_ptrs
  | RToGlobal => r_local_to_global
  | RToLocal => r_global_to_local P
  | RSolve g => r_prob_disc nn P g
  | RSolveEmulated g => r_emulated_disc nn P g
  | RMethod a f => call a f
  end.
(** The store and all discretizations; a call names the discretization it is made
    on.  An exception is caught by the user, who goes on.  Also returned: how every
    call ended. *)
Definition world : Type := list (sset cell) * list rdisc.
Definition wstep (nn : list cell -> cell -> nat) (P : nat) (io : nat * rop cell) (w : world) : world * result unit :=
  match nth_error (snd w) (fst io) with
  | None => (w, Raise PyIndexError)
  | Some d => let '(h, d1, r) := rstep nn P (snd io) (fst w) d in ((h, write (snd w) (fst io) d1), r)
  end.
Fixpoint wrun (nn : list cell -> cell -> nat) (P : nat) (ops : list (nat * rop cell)) (w : world) : world * list (nat * result unit) :=
  match ops with
  | [] => (w, [])
  | io :: rest => let '(w1, r) := wstep nn P io w in
                  let '(w2, rs) := wrun nn P rest w1 in (w2, (fst io, r) :: rs)
  end.

(** ** Calls that create discretizations *)
(** A new set object *)
Definition alloc {R} (h : list (sset R)) (s : sset R) : list (sset R) * nat := (h ++ [s], length h).
(** sample.py:2250-2303 __init__ *)
Definition r_new {R} (P : nat) (h : list (sset R)) (i o p ei eo ob : option nat) : list (sset R) * result rdisc :=
  let d := mk_rdisc i o p ei eo ob None None None None None None in
  match o with
  | None => (h, Ok d)
  | Some _ => match r_check_nums P h d with
              | (h1, d1, Ok _) => (h1, Ok d1)
              | (h1, _, Raise e) => (h1, Raise e)
              end
  end.
(** sample.py:2724-2742 clip; sample_set.clip (692-715) works on a deep copy *)
Definition r_clip {R} (P c : nat) (h : list (sset R)) (d : rdisc) : list (sset R) * result rdisc :=
  match bind (need (r_in d)) (fun a => bind (need (nth_error h a)) (clip P c)) with
  | Raise e => (h, Raise e)
  | Ok ci =>
      let '(h1, i) := alloc h ci in
      match bind (need (r_out d)) (fun a => bind (need (nth_error h1 a)) (clip P c)) with
      | Raise e => (h1, Raise e)
      | Ok co => let '(h2, o) := alloc h1 co in r_new P h2 (Some i) (Some o) (r_prob d) (r_ein d) (r_eout d) None
      end
  end.
(** sample.py:1789-1826 merge of the sets at a and b: both are localized in
    place if they have no local values *)
Definition r_merge_sets {R} (P : nat) (a b : option nat) (h : list (sset R)) : list (sset R) * result nat :=
  match a, b with
  | Some x, Some y =>
      match nth_error h x, nth_error h y with
      | Some s, Some t =>
          if negb (dim s =? dim t) then (h, Raise DimNotMatching) else
          if negb (match domain s, domain t with Some d, Some e => allclose d e | _, _ => true end) then (h, Raise DomainNotMatching) else
          match localized P s with
          | Raise e => (h, Raise e)
          | Ok s1 =>
              let h1 := write h x s1 in
              match bind (need (nth_error h1 y)) (localized P) with
              | Raise e => (h1, Raise e)
              | Ok t1 =>
                  let h2 := write h1 y t1 in
                  match merge P s1 t1 with
                  | Raise e => (h2, Raise e)
                  | Ok m => let '(h3, r) := alloc h2 m in (h3, Ok r)
                  end
              end
          end
      | _, _ => (h, Raise PyAttributeError)
      end
  | _, _ => (h, Raise PyAttributeError)
  end.
(** sample.py:2744-2766 merge *)
Definition r_merge {R} (P : nat) (h : list (sset R)) (d e : rdisc) : list (sset R) * result rdisc :=
  match r_merge_sets P (r_in d) (r_in e) h with
  | (h1, Raise x) => (h1, Raise x)
  | (h1, Ok mi) =>
  match r_merge_sets P (r_out d) (r_out e) h1 with
  | (h2, Raise x) => (h2, Raise x)
  | (h2, Ok mo) =>
  match r_merge_sets P (r_ein d) (r_ein e) h2 with
  | (h3, Raise x) => (h3, Raise x)
  | (h3, Ok mei) =>
  match r_merge_sets P (r_eout d) (r_eout e) h3 with
  | (h4, Raise x) => (h4, Raise x)
  | (h4, Ok meo) => r_new P h4 (Some mi) (Some mo) (r_prob d) (Some mei) (Some meo) None
  end end end end.
(** sample.py:2494-2502 copy, copy.deepcopy: every set that is reached is copied
    once, also if it is reached twice; [memo] maps sets to their copies. *)
Definition copy_place {R} (memo : list (nat * nat)) (h : list (sset R)) (o : option nat) : list (sset R) * list (nat * nat) * option nat :=
  match o with
  | None => (h, memo, None)
  | Some a =>
      match find (fun e => fst e =? a) memo with
      | Some e => (h, memo, Some (snd e))
      | None => match nth_error h a with
                | Some s => let '(h1, b) := alloc h s in (h1, (a, b) :: memo, Some b)
                | None => (h, memo, None)
                end
      end
  end.
Definition copy_from {R} (memo : list (nat * nat)) (h : list (sset R)) (d : rdisc) : list (sset R) * rdisc :=
  let '(h1, m1, i) := copy_place memo h (r_in d) in
  let '(h2, m2, o) := copy_place m1 h1 (r_out d) in
  let '(h3, m3, ei) := copy_place m2 h2 (r_ein d) in
  let '(h4, m4, eo) := copy_place m3 h3 (r_eout d) in
  let '(h5, m5, p) := copy_place m4 h4 (r_prob d) in
  let '(h6, _, ob) := copy_place m5 h5 (r_obs d) in
  (h6, mk_rdisc i o p ei eo ob (r_io d) (r_ii d) (r_oo d) (r_io_loc d) (r_ii_loc d) (r_oo_loc d)).
Definition r_copy {R} (h : list (sset R)) (d : rdisc) : list (sset R) * rdisc := copy_from [] h d.
