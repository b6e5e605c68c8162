(** The per-sample arrays of sample_set_base (bet/sample.py) on P processes.

    A state describes all P ranks at once: a global array is replicated on every
    rank (the code keeps one copy per rank; the model assumes they agree), a
    local array is a list with one block per rank.  [R] is the type of one row. *)
From Coq Require Import List Arith Bool QArith Qcanon.
From Verif Require Import Err Num NumPy.
Import ListNotations.
Local Open Scope nat_scope.
Local Open Scope err_scope.

(** bet/sample.py:177-181 array_names, in this order. *)
Inductive attr :=
| Values | Volumes | Probabilities | Densities | Jacobians | ErrorEstimates
| Right_ | Left_ | Width_ | KdtreeValues | Radii | NormalizedRadii | Region | ErrorId.

Definition all_attrs : list attr :=
  [Values; Volumes; Probabilities; Densities; Jacobians; ErrorEstimates;
   Right_; Left_; Width_; KdtreeValues; Radii; NormalizedRadii; Region; ErrorId].

Definition attr_eq_dec (a b : attr) : {a = b} + {a <> b}.
Proof. decide equality. Defined.

(** A NumPy array: the list of its rows and the rest of its shape
    ([] for shape (n,), [d] for shape (n,d), [o;d] for shape (n,o,d)). *)
Record arr (R : Type) := mk_arr { rows : list R; tail_shape : list nat }.
Arguments mk_arr {R}. Arguments rows {R}. Arguments tail_shape {R}.

Definition shape_eq_dec : forall a b : list nat, {a = b} + {a <> b} := list_eq_dec Nat.eq_dec.

(** bet/sample.py:183-292: the fields used here.  [kd] is the tree built by
    set_kdtree, represented by the array it was built from.  [weights] is the
    per-sample array _weights, which is not in array_names. *)
Record sset (R : Type) := mk_sset {
  dim : nat;
  glob : attr -> option (arr R);
  loc : attr -> option (list (arr R));
  local_index : option (list (list nat));
  kd : option (arr R);
  domain : option (list (Qc * Qc));
  weights : option (arr R) }.
Arguments mk_sset {R}. Arguments dim {R}. Arguments glob {R}. Arguments loc {R}.
Arguments local_index {R}. Arguments kd {R}. Arguments domain {R}. Arguments weights {R}.

Section Ops.
Context {R : Type}.
Implicit Types s t : sset R.

(** bet/sample.py:183-292 __init__ *)
Definition new_sset (d : nat) : sset R :=
  mk_sset d (fun _ => None) (fun _ => None) None None None None.

Definition upd {V} (f : attr -> V) (a : attr) (v : V) : attr -> V :=
  fun b => if attr_eq_dec b a then v else f b.

(** Plain attribute assignment, self._x = x and self._x_local = x
    (e.g. set_volumes bet/sample.py:853-861, set_volumes_local 1117-1125). *)
Definition set_glob (a : attr) (x : option (arr R)) (s : sset R) : sset R :=
  mk_sset (dim s) (upd (glob s) a x) (loc s) (local_index s) (kd s) (domain s) (weights s).
Definition set_loc (a : attr) (x : option (list (arr R))) (s : sset R) : sset R :=
  mk_sset (dim s) (glob s) (upd (loc s) a x) (local_index s) (kd s) (domain s) (weights s).

(** bet/sample.py:728-741 (and 763-775): the first present length is compared
    with every later one. *)
Fixpoint scan_lengths (ls : list (option nat)) (num : option nat) : result (option nat) :=
  match ls with
  | [] => Ok num
  | None :: r => scan_lengths r num
  | Some n :: r =>
      match num with
      | None => scan_lengths r (Some n)
      | Some m => if m =? n then scan_lengths r num else Raise LengthNotMatching
      end
  end.

(** bet/sample.py:742-743, 776-777: self._values.shape[1] != self._dim
    (a one-dimensional array has no shape[1]). *)
Definition check_width s : result unit :=
  match glob s Values with
  | None => Ok tt
  | Some x =>
      match tail_shape x with
      | [] => Raise PyIndexError
      | w :: _ => if w =? dim s then Ok tt else Raise DimNotMatching
      end
  end.

(** bet/sample.py:751-779 check_num_local on rank r *)
Definition local_length s (r : nat) (a : attr) : option nat :=
  match loc s a with
  | None => None
  | Some bs => option_map (fun x => length (rows x)) (nth_error bs r)
  end.
Definition check_num_local s (r : nat) : result (option nat) :=
  do n <- scan_lengths (map (local_length s r) all_attrs) None ;
  do _ <- check_width s ;
  Ok n.

(** comm.allreduce(num_local, SUM) over the ranks; a rank that raises stops
    the run. *)
Fixpoint sum_local s (rs : list nat) : result nat :=
  match rs with
  | [] => Ok 0
  | r :: rest =>
      do n <- check_num_local s r ;
      do m <- sum_local s rest ;
      Ok (match n with Some k => k | None => 0 end + m)
  end.

(** bet/sample.py:717-749 check_num *)
Definition check_num (P : nat) s : result nat :=
  do n <- scan_lengths (map (fun a => option_map (fun x => length (rows x)) (glob s a)) all_attrs) None ;
  do _ <- check_width s ;
  match n with
  | Some k => Ok k
  | None => sum_local s (seq 0 P)
  end.

(** np.array_split(x, P): blocks of rows, the rest of the shape unchanged *)
Definition split_arr (P : nat) (x : arr R) : list (arr R) :=
  map (fun b => mk_arr b (tail_shape x)) (array_split (rows x) P).

(** bet/sample.py:1325-1337 global_to_local *)
Definition global_to_local (P : nat) s : result (sset R) :=
  do num <- check_num P s ;
  Ok (mk_sset (dim s) (glob s)
        (fun a => match glob s a with Some x => Some (split_arr P x) | None => loc s a end)
        (Some (array_split (seq 0 num) P)) (kd s) (domain s) (weights s)).

(** bet/util.py:76-109 get_global_values with shape=None: allgather, then
    hstack (1-D) or vstack; both reject blocks whose trailing shapes differ.
    On one process the array itself is returned. *)
Definition get_global_values (bs : list (arr R)) : result (arr R) :=
  match bs with
  | [] => Raise PyValueError
  | b :: _ =>
      if forallb (fun c => if shape_eq_dec (tail_shape c) (tail_shape b) then true else false) bs
      then Ok (mk_arr (concat (map rows bs)) (tail_shape b))
      else Raise PyValueError
  end.

(** bet/sample.py:1227-1235 local_to_global *)
Fixpoint gather_attrs (l : list attr) s : result (sset R) :=
  match l with
  | [] => Ok s
  | a :: r =>
      match loc s a with
      | None => gather_attrs r s
      | Some bs =>
          do g <- get_global_values bs ;
          gather_attrs r (set_glob a (Some g) s)
      end
  end.
Definition local_to_global s : result (sset R) := gather_attrs all_attrs s.

(** bet/sample.py:1090-1095 set_kdtree; KDTree(None) raises. *)
Definition set_kdtree s : result (sset R) :=
  match glob s Values with
  | None => Raise PyValueError
  | Some x => Ok (mk_sset (dim s) (upd (glob s) KdtreeValues (Some x)) (loc s) (local_index s)
                          (Some x) (domain s) (weights s))
  end.

(** bet/sample.py:692-715 clip (cnum >= 0; deepcopy is the identity on values;
    the slice a[0:cnum]) *)
Definition clip_arr (c : nat) (x : arr R) : arr R := mk_arr (firstn c (rows x)) (tail_shape x).
Definition clip_globals (c : nat) s : sset R :=
  mk_sset (dim s) (fun a => option_map (clip_arr c) (glob s a)) (loc s) (local_index s)
          (kd s) (domain s) (weights s).
Definition clip (P c : nat) s : result (sset R) :=
  do _ <- check_num P s ;
  do s1 <- (match glob s Values with None => local_to_global s | Some _ => Ok s end) ;
  let s2 := clip_globals c s1 in
  do s3 <- (match loc s2 Values with None => Ok s2 | Some _ => global_to_local P s2 end) ;
  set_kdtree s3.

(** numpy.allclose on two arrays of equal shape, default tolerances
    |a-b| <= 1e-8 + 1e-5*|b| *)
Definition isclose (a b : Qc) : bool :=
  qleb (qabs (a - b)%Qc) (Q2Qc (1 # 100000000) + Q2Qc (1 # 100000) * qabs b)%Qc.
Definition allclose (d e : list (Qc * Qc)) : bool :=
  forallb (fun p => isclose (fst (fst p)) (fst (snd p)) && isclose (snd (fst p)) (snd (snd p)))
          (combine d e).

(** np.concatenate((x,y),0) *)
Definition concat_arr (x y : arr R) : result (arr R) :=
  if shape_eq_dec (tail_shape x) (tail_shape y)
  then Ok (mk_arr (rows x ++ rows y) (tail_shape x)) else Raise PyValueError.
Fixpoint concat_blocks (xs ys : list (arr R)) : result (list (arr R)) :=
  match xs, ys with
  | [], [] => Ok []
  | x :: xr, y :: yr =>
      do z <- concat_arr x y ;
      do zs <- concat_blocks xr yr ;
      Ok (z :: zs)
  | _, _ => Raise PyValueError
  end.

(** bet/sample.py:1077-1088 set_values_local on all ranks.  Simplification: an
    array whose second axis is not dim is first transposed by
    fix_dimensions_data; the model rejects it at once. *)
Definition set_values_local (bs : list (arr R)) s : result (sset R) :=
  if forallb (fun b => if shape_eq_dec (tail_shape b) [dim s] then true else false) bs
  then Ok (set_loc Values (Some bs) s) else Raise DimNotMatching.

(** bet/sample.py:1789-1826 merge.  The two operands are localized in place if
    they have no local values; the new states are not returned here. *)
Definition localized (P : nat) s : result (sset R) :=
  match loc s Values with None => global_to_local P s | Some _ => Ok s end.
Definition loc_values s : result (list (arr R)) :=
  match loc s Values with None => Raise PyTypeError | Some bs => Ok bs end.
Definition merge (P : nat) s t : result (sset R) :=
  if negb (dim s =? dim t) then Raise DimNotMatching else
  do _ <- (match domain s, domain t with
           | Some d, Some e => if allclose d e then Ok tt else Raise DomainNotMatching
           | _, _ => Ok tt
           end) ;
  let dom := match domain s with Some d => Some d | None => domain t end in
  do s1 <- localized P s ;
  do t1 <- localized P t ;
  do xs <- loc_values s1 ;
  do ys <- loc_values t1 ;
  do zs <- concat_blocks xs ys ;
  let m := mk_sset (dim s) (fun _ => None) (fun _ => None) None None dom None in
  do m1 <- set_values_local zs m ;
  local_to_global m1.

(** bet/sample.py:808-818 set_values.  Simplification as in set_values_local;
    the assignment happens before the check, so the model returns the state
    only on success. *)
Definition set_values (x : arr R) s : result (sset R) :=
  if shape_eq_dec (tail_shape x) [dim s] then Ok (set_glob Values (Some x) s)
  else Raise DimNotMatching.

(** bet/sample.py:1395-1412 voronoi_sample_set.query for one point, k=1.
    [nn rows x] is scipy's nearest-neighbour answer for a tree built on rows. *)
Definition query (nn : list R -> R -> nat) (P : nat) (x : R) s : result (nat * sset R) :=
  match kd s with
  | None =>
      do s1 <- set_kdtree s ;
      match kd s1 with
      | Some t => Ok (nn (rows t) x, s1)
      | None => Raise PyAttributeError
      end
  | Some t =>
      do _ <- check_num P s ;
      Ok (nn (rows t) x, s)
  end.
End Ops.
