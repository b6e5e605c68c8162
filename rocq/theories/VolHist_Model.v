(** Histories of calls that define the volumes of the input samples of a
    discretization, with calls of prob between them, on P processes.  The
    numbers that a method computes are an argument here (they are the subject of
    Volume_Model, EmVolume_Model, LocalVolume_Model, Voronoi2_Model, ...); this
    file is about where the methods store them and which of them prob reads. *)
From Coq Require Import List Arith Bool QArith Qcanon.
From Verif Require Import Err Num NumPy SampleSet_Model Prob_Model Disc_Model Workflow_Model.
Import ListNotations.
Local Open Scope nat_scope.
Local Open Scope err_scope.

Inductive vol_call :=
| EstimateMC (globalize : bool)      (* estimate_volume_mc *)
| Measure (tree : bool) (v : list Qc)   (* estimate_volume and estimate_volume_emulated (tree: the
                                        set is queried), exact_volume_1D and exact_volume_2D *)
| MeasureCells (v : list Qc)         (* exact_volume_lebesgue of rectangles, exact_volume of balls *)
| SetVolumes (v : list Qc)
| SetVolumesLocal (bs : list (list Qc))
| EstimateLocal (bs : list (list Qc))   (* estimate_local_volume; bs before normalization *)
| GlobalToLocal
| LocalToGlobal
| Prob (globalize : bool).

(** bet/sample.py:1395-1412: a query makes the tree that is not there *)
Definition queried (P : nat) (tree : bool) (s : sset cell) : result (sset cell) :=
  if tree then
    match kd s with
    | None => set_kdtree s
    | Some _ => do _ <- check_num P s ; Ok s
    end
  else Ok s.
(** bet/sample.py:1253-1276, 1278-1310, 1414-1443, 1445-1525: check_num, the
    calculation, self._volumes = vol, self.global_to_local() *)
Definition measure (P : nat) (tree : bool) (v : list Qc) (s : sset cell) : result (sset cell) :=
  do _ <- check_num P s ;
  do s1 <- queried P tree s ;
  global_to_local P (set_glob Volumes (Some (vec_arr v)) s1).
(** bet/sample.py:2003-2013, 2176-2190: check_num, the calculation,
    self._volumes[0:-1] = ..., self._volumes[-1] = ...; no global_to_local *)
Definition measure_cells (P : nat) (v : list Qc) (s : sset cell) : result (sset cell) :=
  do _ <- check_num P s ;
  Ok (set_glob Volumes (Some (vec_arr v)) s).
(** bet/sample.py:1692-1787.  Simplifications: the arrays of bounds and radii,
    which the call stores as well, are left out; a total of zero, which makes
    all volumes nan, ends the call. *)
Definition scaled (total : Qc) (l : list Qc) : list Qc := map (fun v => (v / total)%Qc) l.
Definition estimate_local (P : nat) (bs : list (list Qc)) (s : sset cell) : result (sset cell) :=
  do _ <- check_num P s ;
  do s1 <- global_to_local P s ;
  do s2 <- local_to_global (set_loc Volumes (Some (map vec_arr bs)) s1) ;
  let total := qsum (concat bs) in
  if qeqb total 0 then Raise PyZeroDivision else
  Ok (set_loc Volumes (Some (map (fun b => vec_arr (scaled total b)) bs))
       (set_glob Volumes (Some (vec_arr (scaled total (concat bs)))) s2)).

(** A method called on the input set of the discretization *)
Definition on_input (f : sset cell -> result (sset cell)) (d : disc cell) : result (disc cell) :=
  do s <- need (d_in d) ;
  do s1 <- f s ;
  Ok (with_in (Some s1) d).
Definition vol_step (nn : list cell -> cell -> nat) (P : nat) (c : vol_call) (d : disc cell) : result (disc cell) :=
  match c with
  | EstimateMC g => on_input (estimate_mc P g) d
  | Measure t v => on_input (measure P t v) d
  | MeasureCells v => on_input (measure_cells P v) d
  | SetVolumes v => on_input (fun s => Ok (set_glob Volumes (Some (vec_arr v)) s)) d        (* 853-861 *)
  | SetVolumesLocal bs => on_input (fun s => Ok (set_loc Volumes (Some (map vec_arr bs)) s)) d   (* 1117-1125 *)
  | EstimateLocal bs => on_input (estimate_local P bs) d
  | GlobalToLocal => on_input (global_to_local P) d
  | LocalToGlobal => on_input local_to_global d
  | Prob g => prob_disc nn P g d
  end.
(** The user goes on after an exception. *)
Definition vol_run (nn : list cell -> cell -> nat) (P : nat) (h : list vol_call) (d : disc cell) : disc cell :=
  fold_left (fun d c => match vol_step nn P c d with Ok d1 => d1 | Raise _ => d end) h d.
(** The discretization of Workflow_Model, before any volumes are defined *)
Definition evaluated (nn : list cell -> cell -> nat) (P : nat) (model : arr cell -> arr cell) (setter : bool) (s pr : sset cell) : result (disc cell) :=
  do d <- qoi model P true s ;
  define_output nn P setter pr d.
(** All calls, then prob *)
Definition solve_after (nn : list cell -> cell -> nat) (P : nat) (model : arr cell -> arr cell) (setter : bool) (h : list vol_call) (g : bool) (s pr : sset cell) : result (disc cell) :=
  do d <- evaluated nn P model setter s pr ;
  prob_disc nn P g (vol_run nn P h d).
