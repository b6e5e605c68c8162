(** The two-dimensional Voronoi plot (bet/postProcess/plotVoronoi.py:120-229): checks,
    colours of the cells and labels.  The polygons are those of Polygons_Model. *)
From Coq Require Import String List Arith Bool QArith Qcanon.
From Verif Require Import Err Num Ext NumPy ChooseQoIs_Model PlotVoronoi_Model.
Import ListNotations.
Local Open Scope nat_scope.

(** x / y of IEEE 754 (the sign of a zero divisor is taken to be +). *)
Definition xdiv (x y : xnum) : xnum :=
  match x, y with
  | NaN, _ | _, NaN => NaN
  | Fin a, Fin b => xdivq a b
  | Fin _, _ => Fin 0%Qc
  | PInf, Fin b => if qltb b 0%Qc then NInf else PInf
  | NInf, Fin b => if qltb b 0%Qc then PInf else NInf
  | _, _ => NaN
  end.
(** Lines 189-192: the numbers shown.  Missing volumes: division by None. *)
Definition shown (density : bool) (probs : list Qc) (volumes : option (list Qc)) : result (list xnum) :=
  if density then
    match volumes with
    | None => Raise PyTypeError
    | Some vol => if length probs =? length vol then Ok (map (fun pv => xdivq (fst pv) (snd pv)) (combine probs vol)) else Raise PyValueError
    end
  else Ok (map Fin probs).
(** Lines 206-213: if labels are given the second one is bound to label1, and label2 is
    used without a value (UnboundLocalError, a NameError). *)
Definition labels (lambda_label : option (list string)) : result (string * string) :=
  match lambda_label with
  | None => Ok ("$\lambda_1$", "$\lambda_2$")%string
  | Some (_ :: _ :: _) => Raise PyNameError
  | Some _ => Raise PyIndexError
  end.
(** The arguments of the colour map, cell by cell (lines 193, 199), and the labels of the
    axes.  An exception anywhere means that no file is written (line 227). *)
Definition plot_2D_voronoi (density : bool) (a : parg) (volumes : option (list Qc)) (lambda_label : option (list string)) : result (list xnum * (string * string)) :=
  match checked 2 a with
  | Raise e => Raise e
  | Ok (_, probs) =>
      match shown density probs volumes with
      | Raise e => Raise e
      | Ok [] => Raise PyValueError
      | Ok P => match labels lambda_label with Raise e => Raise e | Ok ls => Ok (map (fun x => xdiv x (xlist_max P)) P, ls) end
      end
  end.
