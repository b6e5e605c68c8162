(** bet/calculateP/calculateError.py *)
From Coq Require Import ZArith List Arith Bool QArith Qcanon.
From Verif Require Import Err Num Ext NumPy.
Import ListNotations.
Local Open Scope nat_scope.
Local Open Scope err_scope.

(** ** Connectivity, lines 28-89 *)

(** Lines 66-75, one-dimensional input set: [s_sort] is the argsort of the
    values.  The pairs (p, q) for which neiList[p].add(io_ptr[q]) and
    neiList[q].add(io_ptr[p]) are executed; q is the first position of order-1
    in s_sort (if there is none, args[0] raises IndexError). *)
Fixpoint position (v : nat) (l : list nat) : option nat :=
  match l with
  | [] => None
  | x :: r => if x =? v then Some 0 else match position v r with Some i => Some (S i) | None => None end
  end.
Fixpoint links_1D (s_sort : list nat) (todo : list (nat * nat)) : result (list (nat * nat)) :=
  match todo with
  | [] => Ok []
  | (p, order) :: r =>
      if 0 <? order then
        match position (order - 1) s_sort with
        | Some q => do rest <- links_1D s_sort r ; Ok ((p, q) :: rest)
        | None => Raise PyIndexError
        end
      else links_1D s_sort r
  end.
(** Lines 77-85, more dimensions: [simplices] is tri.vertices of scipy's Delaunay
    triangulation; itertools.combinations(p, 2). *)
Fixpoint pairs_of (s : list nat) : list (nat * nat) :=
  match s with
  | [] => []
  | x :: r => map (fun y => (x, y)) r ++ pairs_of r
  end.
Definition links_nD (simplices : list (list nat)) : list (nat * nat) := flat_map pairs_of simplices.

(** Lines 86-89: neiList[i] = list(set(...)).  The order of a Python set is not
    modelled; the list has each element once. *)
Definition nei_of (io_ptr : list nat) (links : list (nat * nat)) (i : nat) : list nat :=
  nodup Nat.eq_dec
    (flat_map (fun l => (if fst l =? i then match nth_error io_ptr (snd l) with Some e => [e] | None => [] end else []) ++
                        (if snd l =? i then match nth_error io_ptr (fst l) with Some e => [e] | None => [] end else [])) links).
Definition links_valid (num : nat) (links : list (nat * nat)) : bool :=
  forallb (fun l => (fst l <? num) && (snd l <? num)) links.
Definition nei_list (io_ptr : list nat) (links : list (nat * nat)) : result (list (list nat)) :=
  if links_valid (length io_ptr) links
  then Ok (map (nei_of io_ptr links) (seq 0 (length io_ptr)))
  else Raise PyIndexError.
Definition connectivity_1D (argsort : list Qc -> list nat) (values : list Qc) (io_ptr : list nat) : result (list (list nat)) :=
  let s_sort := argsort values in
  do links <- links_1D s_sort (combine (seq 0 (length values)) s_sort) ;
  nei_list io_ptr links.

(** ** Interior and boundary cells, lines 92-142 *)

(** collections.defaultdict(list): reading a missing key inserts []. *)
Definition dict := nat -> option (list nat).
Definition empty_dict : dict := fun _ => None.
Definition lookup (d : dict) (i : nat) : list nat := match d i with Some l => l | None => [] end.
Definition touch (d : dict) (i : nat) : dict := fun k => if k =? i then Some (lookup d i) else d k.
Definition append (d : dict) (i x : nat) : dict := fun k => if k =? i then Some (lookup d i ++ [x]) else d k.

Fixpoint list_eqb (a b : list nat) : bool :=
  match a, b with
  | [], [] => true
  | x :: r, y :: s => (x =? y) && list_eqb r s
  | _, _ => false
  end.
Definition boundary_step (BC : dict * dict) (c : nat * (nat * list nat)) : dict * dict :=
  let '(i, (event, nei)) := c in
  let B := if list_eqb nei [event] then append (fst BC) event i else fst BC in
  (B, fold_left (fun C j => append C j i) nei (snd BC)).
Definition boundary_sets (io_ptr : list nat) (nei : list (list nat)) : dict * dict :=
  fold_left boundary_step (combine (seq 0 (length io_ptr)) (combine io_ptr nei)) (empty_dict, empty_dict).

(** ** class sampling_error, lines 145-359 *)

(** np.sum(a[list]) *)
Definition sum_at (a : list Qc) (idx : list nat) : result Qc :=
  match take_idx a idx with Some v => Ok (qsum v) | None => Raise PyIndexError end.
(** lam_vol: the volumes of the cells of event i, zero elsewhere. *)
Definition lam_vol (io_ptr : list nat) (vols : list Qc) (i : nat) : list Qc :=
  map (fun e => if fst e =? i then snd e else 0%Qc) (combine io_ptr vols).
(** Python's max(a, b) and min(a, b). *)
Definition pymax (a b : xnum) : xnum := if xltb a b then b else a.
Definition pymin (a b : xnum) : xnum := if xltb b a then b else a.

(** One pass of the loop, lines 215-248.  The state holds self.B_N, self.C_N. *)
Definition contour_entry (io_ptr : list nat) (vols : list Qc) (p : Qc) (i : nat) (BC : dict * dict)
  : result (xnum * xnum * (dict * dict)) :=
  if qltb 0 p then
    match fst BC i with
    | Some Bi =>
        let Ci := lookup (snd BC) i in
        let lam := lam_vol io_ptr vols i in
        do val1 <- sum_at vols Bi ;
        do val2 <- sum_at lam Bi ;
        do val3 <- sum_at vols Ci ;
        do val4 <- sum_at lam Ci ;
        let term1 := xadd (xdivq val2 val3) (Fin (- (1))%Qc) in
        let term2 := xadd (xdivq val4 val1) (Fin (- (1))%Qc) in
        Ok (xmul (Fin p) (pymax term1 term2), xmul (Fin p) (pymin term1 term2), (fst BC, touch (snd BC) i))
    | None => Ok (NaN, NaN, BC)
    end
  else Ok (Fin 0%Qc, Fin 0%Qc, BC).
Fixpoint contour_loop (io_ptr : list nat) (vols : list Qc) (ips : list (nat * Qc)) (BC : dict * dict)
  : result (list xnum * list xnum * (dict * dict)) :=
  match ips with
  | [] => Ok ([], [], BC)
  | (i, p) :: r =>
      do e <- contour_entry io_ptr vols p i BC ;
      let '(up, low, BC') := e in
      do rest <- contour_loop io_ptr vols r BC' ;
      let '(ups, lows, BC'') := rest in
      Ok (up :: ups, low :: lows, BC'')
  end.
(** calculate_for_contour_events: (up_list, low_list) and the object after the
    call.  The volumes are present (estimating them is in Volume_Model). *)
Definition contour_events (io_ptr : list nat) (vols probs : list Qc) (BC : dict * dict)
  : result (list xnum * list xnum * (dict * dict)) :=
  contour_loop io_ptr vols (combine (seq 0 (length probs)) probs) BC.

(** calculate_for_sample_set_region, lines 306-359.  Every emulated point has a
    flag in_A and the index of its input cell; one block per rank; the sums are
    allreduced.  [None] is (nan, nan). *)
Definition count {A} (f : A -> bool) (blocks : list (list A)) : nat :=
  list_sum (map (fun b => length (filter f b)) blocks).
Definition event_of (io_ptr : list nat) (k : nat) : option nat := nth_error io_ptr k.
Definition in_event (io_ptr : list nat) (i : nat) (e : bool * nat) : bool :=
  match nth_error io_ptr (snd e) with Some c => c =? i | None => false end.
Definition mem (k : nat) (l : list nat) : bool := existsb (fun j => j =? k) l.
Fixpoint region_loop (io_ptr : list nat) (blocks : list (list (bool * nat))) (ips : list (nat * Qc)) (acc : Qc * Qc) (BC : dict * dict)
  : option (Qc * Qc) * (dict * dict) :=
  match ips with
  | [] => (Some acc, BC)
  | (i, p) :: r =>
      if qltb 0 p then
        let sum1 := count (fun e => fst e && in_event io_ptr i e) blocks in
        let sum2 := count (in_event io_ptr i) blocks in
        if sum2 =? 0 then (None, BC)
        else
          let E := (qn sum1 / qn sum2)%Qc in
          let Bi := lookup (fst BC) i in
          let Ci := lookup (snd BC) i in
          let BC' := (touch (fst BC) i, touch (snd BC) i) in
          let in_B := fun e : bool * nat => mem (snd e) Bi in
          let in_C := fun e : bool * nat => mem (snd e) Ci in
          let sum3 := count (fun e => fst e && in_B e) blocks in
          let sum4 := count in_C blocks in
          if sum4 =? 0 then (None, BC')
          else
            let term1 := (qn sum3 / qn sum4 - E)%Qc in
            let sum5 := count (fun e => fst e && in_C e) blocks in
            let sum6 := count in_B blocks in
            if sum6 =? 0 then (None, BC')
            else
              let term2 := (qn sum5 / qn sum6 - E)%Qc in
              region_loop io_ptr blocks r (fst acc + p * qmax term1 term2, snd acc + p * qmin term1 term2)%Qc BC'
      else region_loop io_ptr blocks r acc BC
  end.
(** A pointer outside io_ptr raises IndexError (indices[emulated_ii_ptr_local]);
    the pointers come from a query on the input set, so the model is used with
    pointers in range. *)
Definition region_bounds (io_ptr : list nat) (probs : list Qc) (blocks : list (list (bool * nat))) (BC : dict * dict)
  : option (Qc * Qc) * (dict * dict) :=
  region_loop io_ptr blocks (combine (seq 0 (length probs)) probs) (0%Qc, 0%Qc) BC.

(** A history of calls on one sampling_error object. *)
Inductive error_query :=
| AskContours
| AskRegion (blocks : list (list (bool * nat))).
Definition ask (io_ptr : list nat) (vols probs : list Qc) (q : error_query) (BC : dict * dict) : dict * dict :=
  match q with
  | AskContours => match contour_events io_ptr vols probs BC with Ok (_, _, BC') => BC' | Raise _ => BC end
  | AskRegion blocks => snd (region_bounds io_ptr probs blocks BC)
  end.
Definition ask_all (io_ptr : list nat) (vols probs : list Qc) (qs : list error_query) (BC : dict * dict) : dict * dict :=
  fold_left (fun s q => ask io_ptr vols probs q s) qs BC.

(** ** class model_error, lines 362-612 *)

(** lines 429-452.  A sample: the output cells before and after adding the error
    estimates, and the volume; one block per rank. *)
Definition vsum (f : nat * nat * Qc -> bool) (blocks : list (list (nat * nat * Qc))) : Qc :=
  qsum (map (fun b => qsum (map snd (filter f b))) blocks).
Definition model_error_entry (blocks : list (list (nat * nat * Qc))) (i : nat) (p : Qc) : xnum :=
  if qltb 0 p then
    let ind1 := fun e : nat * nat * Qc => fst (fst e) =? i in
    let ind2 := fun e : nat * nat * Qc => snd (fst e) =? i in
    let JiA := vsum ind1 blocks in
    let Ji := JiA in
    let JiAe := vsum (fun e => ind1 e && ind2 e) blocks in
    let Jie := vsum ind2 blocks in
    xmul (Fin p) (xdivq (JiA * Jie - JiAe * Ji) (Ji * Jie))
  else Fin 0%Qc.
Definition model_error_contours (blocks : list (list (nat * nat * Qc))) (probs : list Qc) : list xnum :=
  map (fun ip => model_error_entry blocks (fst ip) (snd ip)) (combine (seq 0 (length probs)) probs).

(** lines 518-549 (emulated points) and 577-601 (Monte Carlo assumption).  A
    point: in the region or not, and the cells of its input sample before and
    after adding the error estimates.  The counts are Python floats: a zero
    product raises ZeroDivisionError in the first version. *)
Record epoint := mk_ep { in_A : bool; cell1 : nat; cell2 : nat }.
Definition in1 (i : nat) (e : epoint) : bool := cell1 e =? i.
Definition in2 (i : nat) (e : epoint) : bool := cell2 e =? i.
Definition contribution (blocks : list (list epoint)) (i : nat) (p : Qc) : option Qc :=
  let JiA := count (fun e => in_A e && in1 i e) blocks in
  let Ji := count (in1 i) blocks in
  let JiAe := count (fun e => in_A e && in2 i e) blocks in
  let Jie := count (in2 i) blocks in
  if Ji * Jie =? 0 then None
  else Some (p * ((qn JiA * qn Jie - qn JiAe * qn Ji) / (qn Ji * qn Jie)))%Qc.
Fixpoint region_error_loop (blocks : list (list epoint)) (ips : list (nat * Qc)) (acc : Qc) : result Qc :=
  match ips with
  | [] => Ok acc
  | (i, p) :: r =>
      if qltb 0 p then
        match contribution blocks i p with
        | Some c => region_error_loop blocks r (acc + c)%Qc
        | None => Raise PyZeroDivision
        end
      else region_error_loop blocks r acc
  end.
Definition region_error (probs : list Qc) (blocks : list (list epoint)) : result Qc :=
  region_error_loop blocks (combine (seq 0 (length probs)) probs) 0%Qc.

(** The Monte Carlo version adds inf instead, and distributes the contribution
    evenly over the error cells (lines 588-600).  error_cells1 and error_cells2
    as written. *)
Definition error_cell (i : nat) (e : epoint) : bool :=
  let ec1 := (in1 i e && negb (in_A e)) && (in2 i e && in_A e) in
  let ec2 := (in2 i e && negb (in_A e)) && (in1 i e && in_A e) in
  let ec3 := negb (eqb (in1 i e) (in2 i e)) in
  (ec1 || ec2) || ec3.
Definition add_ids (blocks : list (list epoint)) (i : nat) (share : xnum) (ids : list (list xnum)) : list (list xnum) :=
  map (fun bi => map (fun ei => if error_cell i (fst ei) then xadd (snd ei) share else snd ei) (combine (fst bi) (snd bi)))
      (combine blocks ids).
(** er_cont / error_cells_num with er_cont possibly inf *)
Definition xdivn (x : xnum) (n : nat) : xnum :=
  match x with Fin q => xdivq q (qn n) | _ => x end.
Fixpoint region_mc_loop (blocks : list (list epoint)) (ips : list (nat * Qc)) (acc : xnum) (ids : list (list xnum))
  : xnum * list (list xnum) :=
  match ips with
  | [] => (acc, ids)
  | (i, p) :: r =>
      if qltb 0 p then
        let cont := match contribution blocks i p with Some c => Fin c | None => PInf end in
        let n := count (error_cell i) blocks in
        region_mc_loop blocks r (xadd acc cont) (if n =? 0 then ids else add_ids blocks i (xdivn cont n) ids)
      else region_mc_loop blocks r acc ids
  end.
Definition region_error_mc (probs : list Qc) (blocks : list (list epoint)) : xnum * list (list xnum) :=
  region_mc_loop blocks (combine (seq 0 (length probs)) probs) (Fin 0%Qc) (map (map (fun _ => Fin 0%Qc)) blocks).

(** The region argument, lines 487-494 and 560-567: [labels] is s_set._region;
    a point carries the index of the cell of s_set holding it and the two output
    cells.  (An index outside the labels would raise IndexError; it comes from a
    query on s_set.) *)
Definition mark (labels : list Z) (region : Z) (pts : list (list (nat * nat * nat))) : list (list epoint) :=
  map (map (fun e => mk_ep (match nth_error labels (fst (fst e)) with Some l => Z.eqb l region | None => false end)
                           (snd (fst e)) (snd e))) pts.
Definition region_exists (labels : list Z) (region : Z) : bool := existsb (fun l => Z.eqb l region) labels.
Definition sample_set_region (labels : list Z) (region : Z) (probs : list Qc) (pts : list (list (nat * nat * nat))) : result Qc :=
  if region_exists labels region then region_error probs (mark labels region pts) else Raise WrongArgumentType.
Definition sample_set_region_mc (labels : list Z) (region : Z) (probs : list Qc) (pts : list (list (nat * nat * nat)))
  : result (xnum * list (list xnum)) :=
  if region_exists labels region then Ok (region_error_mc probs (mark labels region pts)) else Raise WrongArgumentType.
