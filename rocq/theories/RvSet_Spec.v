From Coq Require Import String List Arith QArith Qcanon.
From Verif Require Import Err Num Ext RvSet_Model.
Import ListNotations.
Local Open Scope nat_scope.

(** The distribution and parameters that the argument rv asks for in dimension i. *)
Definition asked (domain : option (list (xnum * xnum))) (rv : rv_arg) (i : nat) (s : string) (a : dict) : Prop :=
  match rv with
  | RName s' =>
      s = (if String.eqb s' "r" then "uniform" else if String.eqb s' "random" then "uniform" else s')%string /\
      match domain with
      | None => a = []
      | Some dom => exists lo hi, nth_error dom i = Some (lo, hi) /\ a = [("loc", lo); ("scale", xadd hi (xneg lo))]%string
      end
  | RSeq [EName s'; EDict a'] => s = s' /\ a = a'
  | RSeq l => nth_error l i = Some (EPair s a)
  | ROther => False
  end.
(** Every shape of the distribution is given, nothing but shapes, loc and scale is. *)
Definition names_fit (d : dist) (a : dict) : Prop :=
  (forall k, In k (map fst a) -> In k (shapes d) \/ k = "loc"%string \/ k = "scale"%string) /\
  (forall k, In k (shapes d) -> In k (map fst a)).
(** The distribution can be called with these parameters. *)
Definition callable (d : dist) (a : dict) : Prop := names_fit d a /\ valid d a = true.
(** scipy returns as many numbers as it is asked for. *)
Definition draws_have_length (draw : nat -> nat -> string -> dict -> nat -> list xnum) : Prop :=
  forall r i s a m, length (draw r i s a m) = m.
(** The formats of rv: a name, a name with parameters, a list with one entry per
    dimension. *)
Definition well_formed (dim : nat) (rv : rv_arg) : Prop :=
  match rv with RName _ => True | RSeq [EName _; EDict _] => True | RSeq l => length l = dim | ROther => False end.
(** The domain, if there is one, has one row per dimension. *)
Definition domain_fits (s : rset) : Prop := match r_domain s with Some d => length d = r_dim s | None => True end.
(** A set without other arrays than the values. *)
Definition fresh (s : rset) : Prop := (forall e, In e (r_arrays s) -> e = (None, None)) /\ domain_fits s.
(** All global arrays have n entries. *)
Definition all_have (s : rset) (n : nat) : Prop :=
  (forall v, r_values s = Some v -> length v = n) /\ forall m l, In (Some m, l) (r_arrays s) -> m = n.
(** What the second argument stands for: a set, a dimension, a domain. *)
Definition means_set (o : input_obj) (dim : nat) (dom : option (list (xnum * xnum))) : Prop :=
  match o with
  | ISet s => dim = r_dim s /\ dom = r_domain s /\ domain_fits s
  | IDim n => dim = n /\ dom = None
  | IDomain d => dim = length d /\ dom = Some d
  | IOther => False
  end.
