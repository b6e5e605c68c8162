(** One Python process per rank, each at its own speed.  The other files give
    all ranks in lock step; here every rank runs its own copy of the program and
    the ranks meet only in the collective calls of mpi4py.

    A rank's program is what it does from one collective call to the next.
    Simplifications: messages are never lost and the library's buffers never
    fill up; only the collective calls that return to no rank before every rank
    has called them (barrier, allreduce, allgather) are modelled; a rank that
    raises an exception stops, without calling Abort (as plain mpi4py does). *)
From Coq Require Import List Arith Bool QArith Qcanon.
From Verif Require Import Err Num Ext NumPy Prob_Model SampleSet_Model Volume_Model.
From Verif Require Sampling_Model Post_Model.
Import ListNotations.
Local Open Scope nat_scope.

(** The collective calls of the package, bet/util.py:102 comm.allgather,
    bet/calculateP/calculateP.py:97 comm.allreduce, bet/sample.py:1304
    comm.Allreduce (of a buffer), bet/sample.py:1337 comm.barrier. *)
Inductive op := Allreduce | AllreduceBuffer | Allgather | Barrier.
Definition op_eq_dec (a b : op) : {a = b} + {a <> b}.
Proof. decide equality. Defined.

(** [Call o x k]: call o with the argument x; [k] gets the arguments of all
    ranks, in the order of the ranks, and picks from them what the call returns. *)
Inductive prog (V A : Type) : Type :=
| Stop (r : result A)
| Call (o : op) (x : V) (k : list V -> prog V A).
Arguments Stop {V A} r.
Arguments Call {V A} o x k.

Fixpoint pbind {V A B} (p : prog V A) (f : A -> prog V B) : prog V B :=
  match p with
  | Stop (Ok a) => f a
  | Stop (Raise e) => Stop (Raise e)
  | Call o x k => Call o x (fun l => pbind (k l) f)
  end.

(** A rank: the calls it has made so far, whether it is inside the last of them,
    and the program it still has to run ([Call o x k] as long as it is inside
    that call). *)
Record proc (V A : Type) := mk_proc {
  sent : list (op * V);
  inside : bool;
  code : prog V A }.
Arguments mk_proc {V A}. Arguments sent {V A}. Arguments inside {V A}. Arguments code {V A}.

Definition replace_nth {B} (r : nat) (b : B) (l : list B) : list B :=
  firstn r l ++ b :: skipn (S r) l.

(** One step of one rank.  Entering a call hands over the argument.  The c-th
    call of a rank returns as soon as the c-th call of every rank has been made
    and is the same operation; a rank may then be ahead of ranks that are still
    inside that call. *)
Inductive step {V A} : list (proc V A) -> list (proc V A) -> Prop :=
| enter : forall s r h o x k,
    nth_error s r = Some (mk_proc h false (Call o x k)) ->
    step s (replace_nth r (mk_proc (h ++ [(o, x)]) true (Call o x k)) s)
| leave : forall s r h o x k xs,
    nth_error s r = Some (mk_proc (h ++ [(o, x)]) true (Call o x k)) ->
    Forall2 (fun q y => nth_error (sent q) (length h) = Some (o, y)) s xs ->
    step s (replace_nth r (mk_proc (h ++ [(o, x)]) false (k xs)) s).

Inductive steps {V A} : nat -> list (proc V A) -> list (proc V A) -> Prop :=
| steps_0 : forall s, steps 0 s s
| steps_S : forall n s t u, steps n s t -> step t u -> steps (S n) s u.

Definition start {V A} (ps : list (prog V A)) : list (proc V A) := map (mk_proc [] false) ps.

(** ** The programs *)

(** What a rank hands over: a number, a buffer, an array, a count, or nothing. *)
Inductive value (R : Type) := VNum (x : Qc) | VBuf (x : list Qc) | VArr (x : arr R) | VCount (n : nat) | VNone.
Arguments VNum {R}. Arguments VBuf {R}. Arguments VArr {R}. Arguments VCount {R}. Arguments VNone {R}.

(** comm.allreduce(x, op=MPI.SUM); adding anything but numbers raises. *)
Fixpoint add_nums {R} (l : list (value R)) : option Qc :=
  match l with
  | [] => Some 0%Qc
  | VNum x :: r => option_map (fun t => (x + t)%Qc) (add_nums r)
  | _ => None
  end.
Definition allreduce {R A} (x : Qc) (f : Qc -> prog (value R) A) : prog (value R) A :=
  Call Allreduce (VNum x) (fun l => match add_nums l with Some t => f t | None => Stop (Raise PyTypeError) end).

Fixpoint add_counts {R} (l : list (value R)) : option nat :=
  match l with
  | [] => Some 0
  | VCount n :: r => option_map (fun t => n + t) (add_counts r)
  | _ => None
  end.
Definition allreduce_count {R A} (n : nat) (f : nat -> prog (value R) A) : prog (value R) A :=
  Call Allreduce (VCount n) (fun l => match add_counts l with Some t => f t | None => Stop (Raise PyTypeError) end).

(** comm.Allreduce([a, MPI.DOUBLE], [b, MPI.DOUBLE], op=MPI.SUM), entry by entry.
    MPI does not say what happens to buffers of different lengths; the model
    raises. *)
Fixpoint add_buffers {R} (n : nat) (l : list (value R)) : option (list Qc) :=
  match l with
  | [] => Some (zeros n)
  | VBuf x :: r => if length x =? n then option_map (vadd x) (add_buffers n r) else None
  | _ => None
  end.
Definition allreduce_buffer {R A} (x : list Qc) (f : list Qc -> prog (value R) A) : prog (value R) A :=
  Call AllreduceBuffer (VBuf x)
    (fun l => match add_buffers (length x) l with Some t => f t | None => Stop (Raise PyValueError) end).

(** bet/util.py:76-109 get_global_values, allgather and hstack/vstack *)
Fixpoint all_arrays {R} (l : list (value R)) : option (list (arr R)) :=
  match l with
  | [] => Some []
  | VArr x :: r => option_map (cons x) (all_arrays r)
  | _ => None
  end.
Definition globalize {R A} (P : nat) (x : arr R) (f : arr R -> prog (value R) A) : prog (value R) A :=
  if P =? 1 then f x
  else Call Allgather (VArr x)
         (fun l => match all_arrays l with
                   | Some bs => match get_global_values bs with
                                | Ok g => f g
                                | Raise e => Stop (Raise e)
                                end
                   | None => Stop (Raise PyTypeError)
                   end).

Definition barrier {R A} (p : prog (value R) A) : prog (value R) A := Call Barrier VNone (fun _ => p).

(** bet/calculateP/calculateP.py:90-101, the loop of prob on one rank: ptr =
    _io_ptr_local, vol = _volumes_local, acc = P_local *)
Fixpoint prob_loop (ips : list (nat * Qc)) (ptr : list nat) (vol acc : list Qc) : prog (value Qc) (list Qc) :=
  match ips with
  | [] => Stop (Ok acc)
  | (i, p) :: rest =>
      if qltb 0 p then
        if length ptr =? length vol then
          allreduce (local_sum i (combine ptr vol))
            (fun total => if qltb 0 total
                          then prob_loop rest ptr vol (assign i (fun v => p * v / total)%Qc (combine ptr vol) acc)
                          else prob_loop rest ptr vol acc)
        else Stop (Raise PyIndexError)
      else prob_loop rest ptr vol acc
  end.
(** bet/calculateP/calculateP.py:67-106 prob(discretization, globalize=False)
    on one rank *)
Definition prob_local (probs : list Qc) (ptr : list nat) (vol : list Qc) : prog (value Qc) (list Qc) :=
  prob_loop (enumerate probs) ptr vol (repeat 0%Qc (length ptr)).
(** and with globalize=True: _probabilities_local and _probabilities *)
Definition prob_global (P : nat) (probs : list Qc) (ptr : list nat) (vol : list Qc)
  : prog (value Qc) (list Qc * list Qc) :=
  pbind (prob_local probs ptr vol)
        (fun l => globalize P (mk_arr l []) (fun g => Stop (Ok (l, rows g)))).

(** bet/calculateP/calculateP.py:236-243, the loop of prob_from_sample_set on
    one rank (and 287-294 of prob_from_discretization_input) *)
Fixpoint transfer_loop (cells : list nat) (ptr : list nat) (pr : list Qc) (acc : list Qc) : prog (value Qc) (list Qc) :=
  match cells with
  | [] => Stop (Ok acc)
  | i :: rest =>
      if length ptr =? length pr then
        allreduce (local_sum i (combine ptr pr)) (fun t => transfer_loop rest ptr pr (acc ++ [t]))
      else Stop (Raise PyIndexError)
  end.
Definition transfer_local (num_new : nat) (ptr : list nat) (pr : list Qc) : prog (value Qc) (list Qc) :=
  transfer_loop (seq 0 num_new) ptr pr [].

(** bet/sample.py:1294-1308, the part of estimate_volume_emulated after query on
    one rank: ptr = emulate_ptr *)
Definition volume_emulated_local (num : nat) (ptr : list nat) : prog (value Qc) (list xnum) :=
  allreduce_buffer (cell_counts num ptr) (fun cvol =>
    allreduce_count (length ptr) (fun num_emulate =>
      Stop (Ok (map (fun v => xdivq v (qn num_emulate)) cvol)))).

(** bet/postProcess/plotP.py:88-98, the loop of calculate_1D_marginal_probs over
    the parameters on one rank: [b] are the samples with their probabilities *)
Fixpoint marginals_loop (domain : list (Qc * Qc)) (nbins : list nat) (is_ : list nat) (b : list (list Qc * Qc))
    (acc : list (list Qc)) : prog (value Qc) (list (list Qc)) :=
  match is_ with
  | [] => Stop (Ok acc)
  | i :: rest =>
      let d := nth i domain (0%Qc, 0%Qc) in
      allreduce_buffer
        (Post_Model.histogram (Sampling_Model.linspace (fst d) (snd d) (nth i nbins 0 + 1)) (map (fun e => (nth i (fst e) 0%Qc, snd e)) b))
        (fun m => marginals_loop domain nbins rest b (acc ++ [m]))
  end.
Definition marginals_local (domain : list (Qc * Qc)) (nbins : list nat) (dim : nat) (b : list (list Qc * Qc))
  : prog (value Qc) (list (list Qc)) := marginals_loop domain nbins (seq 0 dim) b [].

(** The part of one rank of a sample set *)
Record rset (R : Type) := mk_rset {
  rdim : nat;
  rglob : attr -> option (arr R);
  rloc : attr -> option (arr R);
  rindex : option (list nat) }.
Arguments mk_rset {R}. Arguments rdim {R}. Arguments rglob {R}. Arguments rloc {R}. Arguments rindex {R}.

(** bet/sample.py:728-743 and 763-777 on one rank *)
Definition length_of {R} (o : option (arr R)) : option nat := option_map (fun x => length (rows x)) o.
Definition width_ok {R} (s : rset R) : result unit :=
  match rglob s Values with
  | None => Ok tt
  | Some x =>
      match tail_shape x with
      | [] => Raise PyIndexError
      | w :: _ => if w =? rdim s then Ok tt else Raise DimNotMatching
      end
  end.
Definition rcheck_num_local {R} (s : rset R) : result (option nat) :=
  bind (scan_lengths (map (fun a => length_of (rloc s a)) all_attrs) None)
       (fun n => bind (width_ok s) (fun _ => Ok n)).

(** bet/sample.py:717-749 check_num: the number of local samples is reduced
    only if there is no global array. *)
Definition rcheck_num {R} (s : rset R) : prog (value R) nat :=
  match scan_lengths (map (fun a => length_of (rglob s a)) all_attrs) None with
  | Raise e => Stop (Raise e)
  | Ok n =>
      match width_ok s with
      | Raise e => Stop (Raise e)
      | Ok _ =>
          match n with
          | Some k => Stop (Ok k)
          | None =>
              match rcheck_num_local s with
              | Raise e => Stop (Raise e)
              | Ok m => allreduce_count (match m with Some k => k | None => 0 end) (fun t => Stop (Ok t))
              end
          end
      end
  end.

(** bet/sample.py:1227-1235 local_to_global on rank r of P *)
Fixpoint rgather {R} (P : nat) (l : list attr) (s : rset R) : prog (value R) (rset R) :=
  match l with
  | [] => Stop (Ok s)
  | a :: rest =>
      match rloc s a with
      | None => rgather P rest s
      | Some b => globalize P b (fun g => rgather P rest (mk_rset (rdim s) (upd (rglob s) a (Some g)) (rloc s) (rindex s)))
      end
  end.
Definition rlocal_to_global {R} (P : nat) (s : rset R) : prog (value R) (rset R) := rgather P all_attrs s.

(** bet/sample.py:1325-1337 global_to_local on rank r of P: check_num, the
    block of every global array, barrier *)
Definition rglobal_to_local {R} (P r : nat) (s : rset R) : prog (value R) (rset R) :=
  pbind (rcheck_num s) (fun num =>
    barrier (Stop (Ok (mk_rset (rdim s) (rglob s)
      (fun a => match rglob s a with
                | Some x => nth_error (split_arr P x) r
                | None => rloc s a
                end)
      (nth_error (array_split (seq 0 num) P) r))))).

(** bet/postProcess/plotP.py:219-250, 296-366, 441-568: only rank 0 draws
    ([draw]: the files written, or the exception), then all ranks meet. *)
Definition plot_rank {A} (r : nat) (draw : result A) : prog (value Qc) (option A) :=
  if r =? 0 then
    match draw with
    | Ok a => barrier (Stop (Ok (Some a)))
    | Raise e => Stop (Raise e)
    end
  else barrier (Stop (Ok None)).
