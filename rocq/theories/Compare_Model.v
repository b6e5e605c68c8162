(** bet/postProcess/compareP.py: comparison points, total variation, state. *)
From Coq Require Import List Arith Bool QArith Qcanon.
From Verif Require Import Err Num Ext Inverse_Model.
Import ListNotations.
Local Open Scope nat_scope.
Local Open Scope err_scope.

(** ** set_compare_set with an integer, lines 98-115 *)
(** The ranges (loc, loc + scale) of the uniform draws in each of the dim
    dimensions: rv_loc is never appended to rv, so the entry of the last
    dimension is used for all.  No samples: np.min raises ValueError. *)
Definition compare_ranges (dim : nat) (v1 v2 : list (list Qc)) (factor : Qc) : result (list (Qc * Qc)) :=
  let combined := v1 ++ v2 in
  if (length combined =? 0) || (dim =? 0) then Raise PyValueError
  else
    let i := dim - 1 in
    let col := map (fun r => nth i r 0%Qc) combined in
    let delt := (factor * (qlist_max col - qlist_min col))%Qc in
    let loc := (qlist_min col - delt)%Qc in
    let scale := (qlist_max col - qlist_min col + delt)%Qc in
    Ok (repeat (loc, (loc + scale)%Qc) dim).

(** ** Density arrays: None is nan.  Densities are non-negative, so a sum of zero
    means that all entries are zero and 0/0 = nan. *)
Definition arr := list (option Qc).
Definition asum (a : arr) : option Qc :=
  fold_right (fun x s => match x, s with Some u, Some t => Some (u + t)%Qc | _, _ => None end) (Some 0%Qc) a.
Definition normalized (a : arr) : arr :=
  map (fun x => match x, asum a with Some u, Some t => if qeqb t 0 then None else Some (u / t)%Qc | _, _ => None end) a.
(** factor * minkowski(p, q, 1, w=0.5), line 172 *)
Definition tv (factor : Qc) (p q : arr) : option Qc :=
  match asum (map (fun e => match e with (Some a, Some b) => Some (Q2Qc (1 # 2) * qabs (a - b))%Qc | _ => None end) (combine p q)) with
  | Some s => Some (factor * s)%Qc | None => None
  end.

(** ** The object, lines 41-62, 67-97, 117-168 *)
Section Object.
Context {X V : Type} (pdf1 pdf2 : X -> Qc).
Record cmp := mk_c { vals : option (list X); pdfs : option (arr * arr) }.
Definition new_cmp : cmp := mk_c None None.
(** set_compare_set with points: only compare_vals is replaced. *)
Definition set_compare (v : list X) (s : cmp) : cmp := mk_c (Some v) (pdfs s).
Definition evaluated (v : list X) : arr * arr := (map (fun x => Some (pdf1 x)) v, map (fun x => Some (pdf2 x)) v).
(** Lines 156-168: evaluation and normalization; the arrays of the object are
    replaced by the normalized ones. *)
Definition prepare (normalize : bool) (s : cmp) : result (Qc * arr * arr * cmp) :=
  match vals s with
  | None => Raise WrongInput
  | Some v =>
      let (p1, p2) := match pdfs s with Some pq => pq | None => evaluated v end in
      if normalize then Ok (1%Qc, normalized p1, normalized p2, mk_c (Some v) (Some (normalized p1, normalized p2)))
      else if length p1 =? 0 then Raise PyZeroDivision
      else Ok ((1 / qn (length p1))%Qc, p1, p2, mk_c (Some v) (Some (p1, p2)))
  end.
(** Lines 170-190 for every functional that is evaluated from the factor and the
    two arrays. *)
Definition distance (F : Qc -> arr -> arr -> V) (normalize : bool) (s : cmp) : result (V * cmp) :=
  do r <- prepare normalize s ; let '(f, p1, p2, s') := r in Ok (F f p1 p2, s').
(** Lines 182-183: 'hell' calls distance('sqhell'), without normalize. *)
Definition distance_hell (sqhell : Qc -> arr -> arr -> V) (root : V -> V) (normalize : bool) (s : cmp) : result (V * cmp) :=
  do r <- prepare normalize s ; let '(_, _, _, s') := r in
  do d <- distance sqhell false s' ; Ok (root (fst d), snd d).
(** A history of calls. *)
Inductive call := Points (v : list X) | Dist (F : Qc -> arr -> arr -> V) (normalize : bool).
Definition run1 (c : call) (s : cmp) : cmp :=
  match c with
  | Points v => set_compare v s
  | Dist F n => match distance F n s with Ok (_, s') => s' | Raise _ => s end
  end.
Definition run (h : list call) (s : cmp) : cmp := fold_left (fun s c => run1 c s) h s.
End Object.
Arguments cmp : clear implicits.
Arguments call : clear implicits.

(** ** distance_marginal, lines 217-235: the interval used if none is given.
    [d1], [d2]: domain of dimension i of the sets; [c1], [c2]: column i of the
    values.  Infinite ends are -inf below and inf above. *)
Definition marginal_interval (d1 d2 : option (xnum * xnum)) (c1 c2 : list Qc) (factor : Qc) : result (Qc * Qc) :=
  let from_values :=
    if negb (length c1 =? length c2) then Raise PyValueError
    else if length c1 =? 0 then Raise PyValueError
    else let m := qlist_min (c1 ++ c2) in let M := qlist_max (c1 ++ c2) in
         let delt := (factor * (M - m))%Qc in Ok ((m - delt)%Qc, (M + delt)%Qc) in
  match d1, d2 with
  | Some (Fin min1, Fin max1), Some _ => let delt := (factor * (max1 - min1))%Qc in Ok ((min1 - delt)%Qc, (max1 + delt)%Qc)
  | _, _ => from_values
  end.
