(** bet/calculateP/simpleFunP.py: simple function approximations. *)
From Coq Require Import List Arith Bool ZArith QArith Qcanon.
From Verif Require Import Err Num Ext Layout_Model Query_Model Volume_Model.
Import ListNotations.
Local Open Scope nat_scope.
Local Open Scope err_scope.

(** ** Binning draws *)

(** lines 224-245 (uniform_partition_uniform_distribution_rectangle_size) and
    706-735 (uniform_partition_normal_distribution): rank r draws draw_count
    points, bins them (ptr is the answer of query on the replicated partition),
    the counts are allreduced and divided by num_d_emulate. *)
Definition emulate_blocks {X} (draw : nat -> nat -> list X) (n P : nat) : list (list X) :=
  map (fun r => draw r (Z.to_nat (draw_count n P r))) (seq 0 P).
Definition binned {X} (M n : nat) (ptr : X -> nat) (blocks : list (list X)) : list xnum :=
  map (fun c => xdivq c (qn n))
      (allreduce_sum (zeros M) (map (fun b => cell_counts M (map ptr b)) blocks)).

(** lines 614-651 normal_partition_normal_distribution: counts and the sums of
    1/pdf per cell; their product, divided by its sum.  [w x] is 1/pdf(x). *)
Definition weight_sums {X} (M : nat) (ptr : X -> nat) (w : X -> Qc) (b : list X) : list Qc :=
  map (fun i => qsum (map w (filter (fun x => ptr x =? i) b))) (seq 0 M).
Definition vmul (a b : list Qc) : list Qc := map (fun p => (fst p * snd p)%Qc) (combine a b).
Definition normal_partition {X} (M : nat) (ptr : X -> nat) (w : X -> Qc) (blocks : list (list X)) : list xnum :=
  let counts := allreduce_sum (zeros M) (map (fun b => cell_counts M (map ptr b)) blocks) in
  let volumes := allreduce_sum (zeros M) (map (weight_sums M ptr w) blocks) in
  let rho := vmul counts volumes in
  map (fun v => xdivq v (qsum rho)) rho.

(** lines 826-841 user_partition_user_distribution: every rank bins all the
    user's points; the sum over the ranks is divided by num * comm.size. *)
Definition user_partition {X} (M : nat) (ptr : X -> nat) (pts : list X) (P : nat) : list xnum :=
  map (fun c => xdivq c (qn (length pts * P)))
      (allreduce_sum (zeros M) (map (fun b => cell_counts M (map ptr b)) (repeat pts P))).

(** line 558 uniform_partition_uniform_distribution_data_samples *)
Definition data_samples (num : nat) : list xnum := repeat (xdivq 1%Qc (qn num)) num.

(** ** The regular partition, lines 375-423 *)

(** np.linspace(lo, hi, n + 1) *)
Definition linspace (lo hi : Qc) (n : nat) : list Qc :=
  match n with
  | 0 => [lo]
  | _ => map (fun i => lo + qn i * ((hi - lo) / qn n))%Qc (seq 0 (S n))
  end.
Definition vhalf_add (c s : Qc) : Qc := (c + half * s)%Qc.
Definition vhalf_sub (c s : Qc) : Qc := (c - half * s)%Qc.
(** A cell count list that is too short raises IndexError; Q_ref or rect_size of
    the wrong length cannot be broadcast (broadcasting of length-1 arrays is not
    modelled). *)
Definition edges_of (Q_ref rect_size : list Qc) (cells : list nat) : list (list Qc) :=
  map (fun t => linspace (vhalf_sub (fst (fst t)) (snd (fst t))) (vhalf_add (fst (fst t)) (snd (fst t))) (snd t))
      (combine (combine Q_ref rect_size) cells).
Definition box_of (Q_ref rect_size : list Qc) : list (Qc * Qc) :=
  map (fun t => (vhalf_sub (fst t) (snd t), vhalf_add (fst t) (snd t))) (combine Q_ref rect_size).
Definition uniform_probs (vols : list Qc) : list xnum :=
  let v := removelast vols in map (fun x => xdivq x (qsum v)) v ++ [Fin 0%Qc].
Definition regular_partition (dim : nat) (Q_ref rect_size : list Qc) (cells : list nat) : result (rset * list xnum) :=
  if existsb (fun s => qleb s 0) rect_size then Raise WrongArgumentType
  else if negb ((length Q_ref =? dim) && (length rect_size =? dim)) then Raise PyValueError
  else if length cells <? dim then Raise PyIndexError
  else do s <- cart_setup dim (edges_of Q_ref rect_size cells) ;
       match exact_volume_lebesgue (box_of Q_ref rect_size) s with
       | Some vols => Ok (s, uniform_probs vols)
       | None => Raise PyValueError
       end.

(** lines 455-464 regular_partition_..._rectangle_domain (and 348-358 for the
    uniform partition): center and lengths of a domain given as one row of lower
    and one row of upper bounds, in any order. *)
Definition domain_center (a b : list Qc) : list Qc := map (fun p => (fst p + snd p) / qn 2)%Qc (combine a b).
Definition domain_lengths (a b : list Qc) : list Qc := map (fun p => qmax (fst p) (snd p) - qmin (fst p) (snd p))%Qc (combine a b).
