(** bet/Comm.py: the replacement for mpi4py, and the collective operations it
    replaces. *)
From Coq Require Import List Arith Bool QArith Qcanon.
From Verif Require Import Err Num NumPy.
Import ListNotations.
Local Open Scope nat_scope.

(** The objects that are sent: None, numbers, arrays (flattened) and lists. *)
Inductive val := VNone | VNum (q : Qc) | VArr (l : list Qc) | VList (l : list val).
Inductive mpi_op := Sum | Max.

(** The operations; the root is always 0.  The upper case ones write their result
    into a buffer; the buffer given is an argument, its contents afterwards are
    the reply.  Operations without result reply VNone. *)
Inductive call :=
| Allgather_obj (v : val) | Gather_obj (v : val) | Allreduce_obj (op : mpi_op) (v : val) | Bcast_obj (v : val) | Scatter_obj (v : val)
| Barrier
| Allgather_buf (send recv : list Qc) | Allreduce_buf (op : mpi_op) (send recv : list Qc) | Bcast_buf (buf : list Qc) | Scatter_buf (send recv : list Qc).

(** ** Comm.py:12-155, comm_for_no_mpi4py, with the Python versions 3.6-3.8 of
    .travis.yml (see [serial_version] for later ones). *)
Definition fallback (c : call) : val :=
  match c with
  | Allgather_obj v => VList [v]
  | Gather_obj v => VList [v]
  | Allreduce_obj _ v => v
  | Bcast_obj v => v
  (* lines 94-96: an iterable of length one is replaced by its element *)
  | Scatter_obj v => match v with VList [x] => x | VArr [q] => VNum q | _ => v end
  | Barrier => VNone
  (* lines 98-145: nothing is written *)
  | Allgather_buf _ recv => VArr recv
  | Allreduce_buf _ _ recv => VArr recv
  | Bcast_buf buf => VArr buf
  | Scatter_buf _ recv => VArr recv
  end.

(** ** mpi4py on several processes: one call per process, one reply per process.
    None stands for an error of mpi4py, and for processes that call different
    operations and wait for ever. *)
Definition op_num (op : mpi_op) (a b : Qc) : Qc := match op with Sum => (a + b)%Qc | Max => qmax a b end.
Definition op_arr (op : mpi_op) (a b : list Qc) : list Qc := map (fun e => op_num op (fst e) (snd e)) (combine a b).
Definition reduce_obj (op : mpi_op) (a b : val) : option val :=
  match a, b with
  | VNum x, VNum y => Some (VNum (op_num op x y))
  | VArr x, VArr y => if length x =? length y then Some (VArr (op_arr op x y)) else None
  | VList x, VList y => match op with Sum => Some (VList (x ++ y)) | Max => None end
  | _, _ => None
  end.
Fixpoint fold_option {A B} (f : A -> B -> option A) (a : A) (l : list B) : option A :=
  match l with [] => Some a | b :: r => match f a b with Some a' => fold_option f a' r | None => None end end.
Fixpoint collect {A} (f : call -> option A) (cs : list call) : option (list A) :=
  match cs with
  | [] => Some []
  | c :: r => match f c, collect f r with Some x, Some xs => Some (x :: xs) | _, _ => None end
  end.
Definition same_op (a b : mpi_op) : bool := match a, b with Sum, Sum => true | Max, Max => true | _, _ => false end.
Definition all_equal (n : nat) (l : list nat) : bool := forallb (fun m => m =? n) l.
Definition mpi (cs : list call) : option (list val) :=
  let P := length cs in
  match cs with
  | [] => Some []
  | Allgather_obj _ :: _ =>
      match collect (fun c => match c with Allgather_obj v => Some v | _ => None end) cs with
      | Some vs => Some (repeat (VList vs) P) | None => None end
  | Gather_obj _ :: _ =>
      match collect (fun c => match c with Gather_obj v => Some v | _ => None end) cs with
      | Some vs => Some (VList vs :: repeat VNone (P - 1)) | None => None end
  | Allreduce_obj op v :: r =>
      match collect (fun c => match c with Allreduce_obj op' v => if same_op op op' then Some v else None | _ => None end) r with
      | Some vs => option_map (fun x => repeat x P) (fold_option (reduce_obj op) v vs) | None => None end
  | Bcast_obj v :: _ =>
      match collect (fun c => match c with Bcast_obj v => Some v | _ => None end) cs with
      | Some _ => Some (repeat v P) | None => None end
  | Scatter_obj v :: _ =>
      match collect (fun c => match c with Scatter_obj v => Some v | _ => None end) cs with
      | Some _ => match v with
                  | VList l => if length l =? P then Some l else None
                  | VArr l => if length l =? P then Some (map VNum l) else None
                  | _ => None
                  end
      | None => None end
  | Barrier :: _ =>
      match collect (fun c => match c with Barrier => Some tt | _ => None end) cs with
      | Some _ => Some (repeat VNone P) | None => None end
  (* Equal counts are needed: the block of every process has the same length and
     the receive buffer has room for all of them. *)
  | Allgather_buf send _ :: _ =>
      match collect (fun c => match c with Allgather_buf s r => Some (s, r) | _ => None end) cs with
      | Some bs => if all_equal (length send) (map (fun b => length (fst b)) bs) && all_equal (length send * P) (map (fun b => length (snd b)) bs)
                   then Some (repeat (VArr (concat (map fst bs))) P) else None
      | None => None end
  | Allreduce_buf op send _ :: _ =>
      match collect (fun c => match c with Allreduce_buf op' s r => if same_op op op' then Some (s, r) else None | _ => None end) cs with
      | Some bs => if all_equal (length send) (map (fun b => length (fst b)) bs) && all_equal (length send) (map (fun b => length (snd b)) bs)
                   then Some (repeat (VArr (fold_left (op_arr op) (map fst (tl bs)) send)) P) else None
      | None => None end
  | Bcast_buf buf :: _ =>
      match collect (fun c => match c with Bcast_buf b => Some b | _ => None end) cs with
      | Some bs => if all_equal (length buf) (map (@length _) bs) then Some (repeat (VArr buf) P) else None
      | None => None end
  | Scatter_buf send recv :: _ =>
      match collect (fun c => match c with Scatter_buf s r => Some (s, r) | _ => None end) cs with
      | Some bs => if all_equal (length recv) (map (fun b => length (snd b)) bs) && (length send =? length recv * P)
                   then Some (map (fun r => VArr (firstn (length recv) (skipn (r * length recv) send))) (seq 0 P)) else None
      | None => None end
  end.

(** ** Programs: what one process does between and after its calls. *)
Inductive prog (A : Type) := Ret (a : A) | Call (c : call) (k : val -> prog A).
Arguments Ret {A} a.
Arguments Call {A} c k.
(** With the replacement. *)
Fixpoint serial {A} (p : prog A) : A := match p with Ret a => a | Call c k => serial (k (fallback c)) end.

(** Line 94 of Comm.py uses collections.Iterable, which Python 3.10 removed
    ([old] is false from there on): scatter then raises AttributeError for every
    argument. *)
Fixpoint serial_version {A} (old : bool) (p : prog A) : result A :=
  match p with
  | Ret a => Ok a
  | Call c k => match c, old with
                | Scatter_obj _, false => Raise PyAttributeError
                | _, _ => serial_version old (k (fallback c))
                end
  end.

(** ** The ways the package communicates *)
(** bet/sample.py:1271-1273, 1303-1307, 1581-1583, 1643-1645, 1652-1654,
    bet/calculateP/simpleFunP.py:237-241, 635-641, 726-730, 834-838,
    bet/postProcess/plotP.py:94-96, 166-169: the buffer is a copy. *)
Definition reduce_copy (op : mpi_op) (a : list Qc) : prog val := Call (Allreduce_buf op a a) (fun r => Ret r).
(** bet/util.py:91-115 get_global_values with shape=None, flat arrays: nothing is
    sent on one process, otherwise allgather and hstack. *)
Definition hstack (v : val) : val :=
  match v with VList l => VArr (flat_map (fun x => match x with VArr a => a | _ => [] end) l) | _ => VNone end.
Definition global_values (size : nat) (a : list Qc) : prog val :=
  if size =? 1 then Ret (VArr a) else Call (Allgather_obj (VArr a)) (fun r => Ret (hstack r)).
(** bet/sensitivity/chooseQoIs.py:288-352: the candidates are split and
    scattered, every process treats its share ([search]), the results are
    gathered, combined on process 0 ([best]) and broadcast. *)
Definition search_best (size rank : nat) (combs : list val) (search : val -> val) (best : val -> val) : prog val :=
  Call (Scatter_obj (if rank =? 0 then VList (map VList (array_split combs size)) else VNone)) (fun mine =>
  Call Barrier (fun _ =>
  Call (Gather_obj (search mine)) (fun all =>
  Call (Bcast_obj (if rank =? 0 then best all else all)) (fun r => Ret r)))).
(** bet/sample.py:747, 1306, bet/calculateP/calculateP.py:55, 97, 183, 194, 200, 243,
    294, bet/calculateP/calculateError.py:320-350, 441-443: a number of every process. *)
Definition reduce_number (op : mpi_op) (q : Qc) : prog val := Call (Allreduce_obj op (VNum q)) (fun r => Ret r).
