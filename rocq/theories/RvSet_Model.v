(** bet/sampling/basicSampling.py:92-187: random sample sets, and the parameters
    that calculateR.invert_to_random_variable stores for them. *)
From Coq Require Import String List Arith Bool ZArith QArith Qcanon.
From Verif Require Import Err Num Ext NumPy Layout_Model.
Import ListNotations.
Local Open Scope nat_scope.
Local Open Scope err_scope.

(** A python dictionary of numbers. *)
Definition dict := list (string * xnum).
(** The argument rv: a string; a list or tuple whose entries are strings,
    dictionaries, pairs of a string and a dictionary or something else; anything
    else. *)
Inductive entry := EName (s : string) | EDict (d : dict) | EPair (s : string) (d : dict) | EOther.
Inductive rv_arg := RName (s : string) | RSeq (l : list entry) | ROther.

(** A distribution of scipy.stats: the names of its shape parameters, whether
    values of the parameters are allowed, and interval(1). *)
Record dist := mk_dist { shapes : list string; valid : dict -> bool; support : dict -> xnum * xnum }.
Definition mem (s : string) (l : list string) : bool := existsb (String.eqb s) l.
(** Calling rvs, interval or pdf with **args: unknown names and missing shapes
    raise TypeError. *)
Definition accepts (d : dist) (a : dict) : bool :=
  forallb (fun k => mem k (shapes d ++ ["loc"; "scale"]%string)) (map fst a) && forallb (fun k => mem k (map fst a)) (shapes d).

(** The part of a sample set that matters here: [arrays] has for every other array
    (volumes, probabilities, ...) its global length and its local lengths. *)
Record rset := mk_rset { r_dim : nat; r_domain : option (list (xnum * xnum)); r_values : option (list (list xnum));
  r_local : option (list (list (list xnum))); r_init : option (list entry); r_arrays : list (option nat * option (list nat)) }.
(** sample.py:717-747 *)
Definition global_lengths (s : rset) : list nat :=
  (match r_values s with Some v => [length v] | None => [] end) ++ flat_map (fun e => match fst e with Some n => [n] | None => [] end) (r_arrays s).
Definition check_num_ok (s : rset) : bool := match global_lengths s with [] => true | n :: r => forallb (Nat.eqb n) r end.
(** sample.py:751-776, on all ranks *)
Definition check_num_local_ok (s : rset) : bool :=
  match r_local s with
  | None => true
  | Some blocks => forallb (fun e => match snd e with Some ls => forallb (fun p => fst p =? snd p) (combine (map (@length _) blocks) ls) | None => true end) (r_arrays s)
  end.
(** sample.py:1227-1235 *)
Definition r_local_to_global (s : rset) : rset :=
  mk_rset (r_dim s) (r_domain s) (match r_local s with Some b => Some (concat b) | None => r_values s end) (r_local s) (r_init s)
    (map (fun e => match snd e with Some ls => (Some (list_sum ls), snd e) | None => e end) (r_arrays s)).

Fixpoint map_result {A B} (f : A -> result B) (l : list A) : result (list B) :=
  match l with [] => Ok [] | x :: r => do y <- f x ; do ys <- map_result f r ; Ok (y :: ys) end.

Section Stats.
(** getattr(scipy.stats, name); the numbers that rank r gets for dimension i. *)
Context (stats : string -> option dist) (draw : nat -> nat -> string -> dict -> nat -> list xnum).

(** Lines 123-124 (names of earlier versions) *)
Definition current_name (s : string) : string := if (String.eqb s "r" || String.eqb s "random")%bool then "uniform"%string else s.
(** Lines 140-155 *)
Definition resolve (dim : nat) (domain : option (list (xnum * xnum))) (rv : rv_arg) : result (list entry) :=
  match rv with
  | RName s =>
      Ok (match domain with
          | None => repeat (EPair (current_name s) []) dim
          | Some dom => map (fun ab => EPair (current_name s) [("loc"%string, fst ab); ("scale"%string, xadd (snd ab) (xneg (fst ab)))]) dom
          end)
  | RSeq l =>
      match l with
      | [EName s; EDict d] => Ok (repeat (EPair s d) dim)
      | _ => if length l =? dim then Ok l else Raise DimNotMatching
      end
  | ROther => Raise WrongInput
  end.
(** Lines 165-169, the calls of one dimension; for an entry that is not a pair the
    class of the exception is not modelled (it depends on the entry). *)
Definition distribution (e : entry) : result (string * dict * dist) :=
  match e with
  | EPair s a =>
      match stats s with
      | None => Raise PyAttributeError
      | Some d => if accepts d a then if valid d a then Ok (s, a, d) else Raise PyValueError else Raise PyTypeError
      end
  | _ => Raise PyTypeError
  end.
(** Lines 158-168 on rank r *)
Definition block (n P : nat) (ds : list (string * dict * dist)) (r : nat) : list (list xnum) :=
  let m := Z.to_nat (draw_count n P r) in
  map (fun k => map (fun e => let '(i, (s, a, _)) := e in nth k (draw r i s a m) NaN) (combine (seq 0 (length ds)) ds)) (seq 0 m).
(** Lines 140-187 for a set; returns also the state of the set after an exception.
    All ranks raise together. *)
Definition random_set (P n : nat) (globalize : bool) (rv : rv_arg) (s : rset) : result unit * rset :=
  match (do es <- resolve (r_dim s) (r_domain s) rv ; do ds <- map_result distribution es ; Ok (es, ds)) with
  | Raise e => (Raise e, s)
  | Ok (es, ds) =>
      let s1 := mk_rset (r_dim s) (Some (map (fun e => support (snd e) (snd (fst e))) ds)) (r_values s)
                        (Some (map (block n P ds) (seq 0 P))) (Some es) (r_arrays s) in
      if check_num_local_ok s1 && check_num_ok s1 then
        (Ok tt, if globalize then r_local_to_global s1 else mk_rset (r_dim s1) (r_domain s1) None (r_local s1) (r_init s1) (r_arrays s1))
      else (Raise LengthNotMatching, s1)
  end.
(** Lines 127-136: a set, a dimension, a domain (rows of two numbers), anything else. *)
Inductive input_obj := ISet (s : rset) | IDim (n : nat) | IDomain (d : list (xnum * xnum)) | IOther.
Definition input_set (o : input_obj) : result rset :=
  match o with
  | ISet s => Ok s
  | IDim n => Ok (mk_rset n None None None None [])
  | IDomain d => Ok (mk_rset (length d) (Some d) None None None [])
  | IOther => Raise WrongInput
  end.
(** random_sample_set except for rv = 'lhs' (lines 125-126, lhs_sample_set). *)
Definition random_sample_set (P n : nat) (globalize : bool) (rv : rv_arg) (o : input_obj) : result rset :=
  do s <- input_set o ; match random_set P n globalize rv s with (Ok _, s') => Ok s' | (Raise e, _) => Raise e end.

(** ** invert_to_random_variable, calculateR.py:388-407: the fitted numbers A of one
    dimension, stored under names. *)
Definition fit_parameters (A : list Qc) : result dict :=
  match A with
  | [l; c] => Ok [("loc", Fin l); ("scale", Fin c)]%string
  | [a; l; c] => Ok [("a", Fin a); ("loc", Fin l); ("scale", Fin c)]%string
  | [a; b; l; c] => Ok [("a", Fin a); ("b", Fin b); ("loc", Fin l); ("scale", Fin c)]%string
  | _ => Raise WrongInput
  end.
(** [fits]: for every dimension the name of the distribution and what its fit
    method returns. *)
Definition stored_fits (fits : list (string * list Qc)) : result (list entry) :=
  map_result (fun f => do a <- fit_parameters (snd f) ; Ok (EPair (fst f) a)) fits.
(** sample_from_updated, basicSampling.py:52-54: sampling from the stored fits. *)
Definition sample_fits (P n : nat) (globalize : bool) (fits : list (string * list Qc)) : result rset :=
  do es <- stored_fits fits ; random_sample_set P n globalize (RSeq es) (IDim (length fits)).
End Stats.
