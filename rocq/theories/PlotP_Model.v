(** The plotting functions of bet/postProcess/plotP.py up to the arguments of
    matplotlib: plot_1D_marginal_probs (174-250), plot_2D_marginal_probs (253-366),
    plot_2D_marginal_contours (463-567) and plot_1d_marginal_densities (571-673).  Only process 0 draws. *)
From Coq Require Import String List Arith Bool QArith Qcanon.
From Verif Require Import Err Num Ext NumPy Sampling_Model ChooseQoIs_Model PlotDomains_Model.
Import ListNotations.
Local Open Scope nat_scope.
Local Open Scope err_scope.

(** A sample set: domain and reference value; the argument of the functions. *)
Record mset := { m_domain : option (list (Qc * Qc)); m_ref : option (list Qc) }.
Inductive marg := MDisc (input : option mset) | MSet (s : mset) | MOther.
(** Lines 206-217, 286-297, 501-511: a discretization stands for its input set. *)
Definition the_set (a : marg) : result mset :=
  match a with
  | MDisc (Some s) | MSet s => Ok s
  | MDisc None => Raise PyAttributeError
  | MOther => Raise BadObject
  end.
(** lam_domain[i] of an array or None *)
Definition domain_row (s : mset) (i : nat) : result (Qc * Qc) :=
  match m_domain s with Some d => index (nth_error d i) | None => Raise PyTypeError end.
(** lambda_label[i] or the default *)
Definition param_label (lambda_label : option (list string)) (i : nat) : result string :=
  match lambda_label with
  | None => Ok (append "$\lambda_{" (append (dec (i + 1)) "}$"))
  | Some l => index (nth_error l i)
  end.
(** bins[i][1] - bins[i][0] *)
Definition first_width (b : list Qc) : result Qc :=
  match b with x0 :: x1 :: _ => Ok (x1 - x0)%Qc | _ => Raise PyIndexError end.
Definition xscale (c : Qc) (x : xnum) : xnum := match x with Fin a => Fin (c * a)%Qc | other => other end.

(** ** plot_1D_marginal_probs *)
(** The curve, the upper end of the y-axis, the mark of the reference value. *)
Record curve_fig := { c_x : list Qc; c_y : list xnum; c_top : xnum; c_mark : option (Qc * xnum); c_label : string; c_file : string }.
(** Lines 221-249 for the key i.  Arrays of different lengths cannot be plotted. *)
Definition plot_1D_one (s : mset) (bins : list (list Qc)) (lam_ref : option (list Qc)) (filename : string) (lambda_label : option (list string))
    (ext : string) (im : nat * list Qc) : result curve_fig :=
  let '(i, m) := im in
  do d <- domain_row s i ;
  do b <- index (nth_error bins i) ;
  match b with
  | [] => Raise PyValueError
  | _ =>
      let x_range := linspace (fst d) (snd d) (length b - 1) in
      do w <- first_width b ;
      let y := map (fun p => xdivq p w) m in
      if negb (length x_range =? length y) then Raise PyValueError
      else
        match y with
        | [] => Raise PyValueError
        | _ =>
            let top := xlist_max y in
            do mark <- match lam_ref with
                       | Some r => do v <- index (nth_error r i) ; Ok (Some (v, xscale (Q2Qc (21 # 1000)) top))
                       | None => Ok None
                       end ;
            do lab <- param_label lambda_label i ;
            Ok {| c_x := x_range; c_y := y; c_top := xscale (Q2Qc (105 # 100)) top; c_mark := mark; c_label := lab;
                  c_file := append filename (append "_1D_" (append (dec i) ext)) |}
        end
  end.
(** [marginals]: the items of the dictionary in the order of the keys. *)
Definition plot_1D_marginal_probs (marginals : list (nat * list Qc)) (bins : list (list Qc)) (a : marg) (filename : string)
    (lam_ref : option (list Qc)) (lambda_label : option (list string)) (ext : string) : result (list curve_fig) :=
  do s <- the_set a ;
  let r := match lam_ref with Some r => Some r | None => m_ref s end in
  each (plot_1D_one s bins r filename lambda_label ext) marginals.

(** ** plot_2D_marginal_probs *)
(** An image: rows of pixels (the first row is the lowest one), its extent, the
    mark, the labels and the file. *)
Record image_fig := { g_pixels : list (list xnum); g_extent : (Qc * Qc) * (Qc * Qc); g_mark : option (Qc * Qc);
  g_labels : string * string; g_file : string }.
(** marg.transpose() of an array with [cols] columns *)
Definition transpose {A} (cols : nat) (d : A) (m : list (list A)) : list (list A) :=
  map (fun c => map (fun row => nth c row d) m) (seq 0 cols).
(** Lines 304-338 for the key (i, j); vmax needs an entry. *)
Definition plot_2D_one (s : mset) (bins : list (list Qc)) (lam_ref : option (list Qc)) (filename : string) (lambda_label : option (list string))
    (ext : string) (im : (nat * nat) * (nat * list (list Qc))) : result image_fig :=
  let '((i, j), (cols, m)) := im in
  do bi <- index (nth_error bins i) ; do wi <- first_width bi ;
  do bj <- index (nth_error bins j) ; do wj <- first_width bj ;
  do di <- domain_row s i ; do dj <- domain_row s j ;
  if (cols =? 0) || (length m =? 0) then Raise PyValueError
  else
    do mark <- match lam_ref with
               | Some r => do x <- index (nth_error r i) ; do y <- index (nth_error r j) ; Ok (Some (x, y))
               | None => Ok None
               end ;
    do l1 <- param_label lambda_label i ; do l2 <- param_label lambda_label j ;
    Ok {| g_pixels := map (map (fun p => xdivq p (wi * wj)%Qc)) (transpose cols 0%Qc m); g_extent := (di, dj); g_mark := mark;
          g_labels := (l1, l2);
          g_file := append filename (append "_2D_" (append (dec i) (append "_" (append (dec j) ext)))) |}.
(** Lines 340-362: the surface over the middles of the bins. *)
Record surface_fig := { u_x : list Qc; u_y : list Qc; u_z : list (list Qc); u_file : string }.
Fixpoint middles (b : list Qc) : list Qc :=
  match b with
  | x :: (y :: _) as r => (x + (y - x) / qn 2)%Qc :: middles r
  | _ => []
  end.
Definition surface_one (bins : list (list Qc)) (filename ext : string) (im : (nat * nat) * (nat * list (list Qc))) : result surface_fig :=
  let '((i, j), (cols, m)) := im in
  do bi <- index (nth_error bins i) ; do bj <- index (nth_error bins j) ;
  Ok {| u_x := middles bi; u_y := middles bj; u_z := m;
        u_file := append filename (append "_surf_" (append (dec i) (append "_" (append (dec j) ext)))) |}.
(** Every array comes with its number of columns. *)
Definition plot_2D_marginal_probs (marginals : list ((nat * nat) * (nat * list (list Qc)))) (bins : list (list Qc)) (a : marg) (filename : string)
    (lam_ref : option (list Qc)) (plot_surface : bool) (lambda_label : option (list string)) (ext : string)
    : result (list image_fig * list surface_fig) :=
  do s <- the_set a ;
  let r := match lam_ref with Some r => Some r | None => m_ref s end in
  do images <- each (plot_2D_one s bins r filename lambda_label ext) marginals ;
  do surfaces <- (if plot_surface then each (surface_one bins filename ext) marginals else Ok []) ;
  Ok (images, surfaces).

(** ** plot_2D_marginal_contours *)
(** The heights with their extent (matplotlib puts them at the middles of the
    pixels), the marks, the part of the plane that is shown. *)
Record contour_fig := { o_heights : list (list xnum); o_extent : (Qc * Qc) * (Qc * Qc); o_mark : option (Qc * Qc); o_marks : list (list Qc);
  o_axis : (Qc * Qc) * (Qc * Qc); o_labels : string * string; o_file : string }.
(** Lines 519-562.  ax.contour rejects arrays with less than two rows or columns. *)
Definition contour_one (s : mset) (bins : list (list Qc)) (lam_ref : option (list Qc)) (lam_refs : option (list (list Qc)))
    (plot_domain : option (list (Qc * Qc))) (filename : string) (lambda_label : option (list string)) (ext : string)
    (im : (nat * nat) * (nat * list (list Qc))) : result contour_fig :=
  let '((i, j), (cols, m)) := im in
  do bi <- index (nth_error bins i) ; do wi <- first_width bi ;
  do bj <- index (nth_error bins j) ; do wj <- first_width bj ;
  do di <- domain_row s i ; do dj <- domain_row s j ;
  if (cols =? 0) || (length m =? 0) then Raise PyValueError
  else if (cols =? 1) || (length m =? 1) then Raise PyTypeError
  else
    do marks <- match lam_refs with Some q => index (columns q [i; j]) | None => Ok [] end ;
    do mark <- match lam_ref with
               | Some r => do x <- index (nth_error r i) ; do y <- index (nth_error r j) ; Ok (Some (x, y))
               | None => Ok None
               end ;
    do l1 <- param_label lambda_label i ; do l2 <- param_label lambda_label j ;
    do ax <- match plot_domain with
             | None => Ok (di, dj)
             | Some p => do pi <- index (nth_error p i) ; do pj <- index (nth_error p j) ; Ok (pi, pj)
             end ;
    Ok {| o_heights := map (map (fun p => xdivq p (wi * wj)%Qc)) (transpose cols 0%Qc m); o_extent := (di, dj); o_mark := mark; o_marks := marks;
          o_axis := ax; o_labels := (l1, l2);
          o_file := append filename (append "_2D_contours_" (append (dec i) (append "_" (append (dec j) ext)))) |}.
Definition plot_2D_marginal_contours (marginals : list ((nat * nat) * (nat * list (list Qc)))) (bins : list (list Qc)) (a : marg)
    (lam_ref : option (list Qc)) (lam_refs : option (list (list Qc))) (plot_domain : option (list (Qc * Qc))) (lambda_label : option (list string))
    (filename ext : string) : result (list contour_fig) :=
  do s <- the_set a ;
  let r := match lam_ref with Some r => Some r | None => m_ref s end in
  each (contour_one s bins r lam_refs plot_domain filename lambda_label ext) marginals.

(** ** plot_1d_marginal_densities *)
(** A sample set: values, labels of the parameters, and marginal_pdf_init and
    marginal_pdf if the set has an initial or an updated density. *)
Record dset := { d_values : list (list Qc); d_labels : option (list string);
  d_init : option (list Qc -> nat -> list Qc); d_upd : option (list Qc -> nat -> list Qc) }.
Inductive darg := DSet (s : dset) | DDisc (inp out : option dset) | DOther.
(** Lines 603-617; a discretization may lack the set. *)
Definition choose_set (inputs : bool) (a : darg) : result (option dset) :=
  match a with
  | DSet s => Ok (Some s)
  | DDisc i o => Ok (if inputs then i else o)
  | DOther => Raise BadObject
  end.
Definition attr {A} (o : option A) : result A := match o with Some x => Ok x | None => Raise PyAttributeError end.
Fixpoint enum_from {A} (k : nat) (l : list A) : list (nat * A) := match l with [] => [] | x :: r => (k, x) :: enum_from (S k) r end.
(** Lines 619-640 *)
Definition x_label (label : option string) (sets : list (option dset)) (i : nat) : result string :=
  match label with
  | Some l => Ok l
  | None => do s0 <- index (nth_error sets 0) ; do s <- attr s0 ;
            match d_labels s with Some ls => index (nth_error ls i) | None => Ok (append "Parameter " (dec i)) end
  end.
Definition default_label (suffix extra : string) (i : nat) (ks : nat * option dset) : result string :=
  do s <- attr (snd ks) ;
  match d_labels s with
  | None => Ok (append "Set " (append (dec (fst ks)) suffix))
  | Some ls => do l <- index (nth_error ls i) ; Ok (append l extra)
  end.
Definition legend (given : option (list string)) (suffix extra : string) (sets : list (option dset)) (i : nat) : result (list string) :=
  match given with Some l => Ok l | None => each (default_label suffix extra i) (enum_from 0 sets) end.
(** Lines 642-656: np.min and np.max of the column i (ValueError without samples);
    the first comparison is with inf.  Without sets there is nothing to plot (the
    grid consists of nan, here it is empty). *)
Definition column_range (i : nat) (o : option dset) : result (Qc * Qc) :=
  do s <- attr o ;
  match d_values s with
  | [] => Raise PyValueError
  | rows => do col <- index (columns rows [i]) ;
            match concat col with
            | [] => Raise PyValueError
            | x :: r => Ok (fold_left (fun a b => if qltb b a then b else a) r x, fold_left (fun a b => if qltb a b then b else a) r x)
            end
  end.
Definition grid (interval : option (Qc * Qc)) (num_points : nat) (sets : list (option dset)) (i : nat) : result (list Qc) :=
  match interval with
  | Some ab => Ok (linspace (fst ab) (snd ab) num_points)
  | None => do rs <- each (column_range i) sets ;
            match rs with
            | [] => Ok []
            | r :: rest =>
                let x_min := fold_left (fun a b => if qltb (fst b) a then fst b else a) rest (fst r) in
                let x_max := fold_left (fun a b => if qltb a (snd b) then snd b else a) rest (snd r) in
                let delt := (Q2Qc (1 # 4) * (x_max - x_min))%Qc in
                Ok (linspace (x_min - delt)%Qc (x_max + delt)%Qc 100)
            end
  end.
(** Lines 658-668: the curves with their labels; true: dashed (updated). *)
Record dcurve := { e_dashed : bool; e_label : string; e_y : list Qc }.
Definition set_curves (x : list Qc) (i : nat) (initials : bool) (upd ini : list string) (ks : nat * option dset) : result (list dcurve) :=
  let '(k, o) := ks in
  do s <- attr o ;
  do c1 <- match d_init s with
           | Some f => if initials then do l <- index (nth_error ini k) ; Ok [{| e_dashed := false; e_label := l; e_y := f x i |}] else Ok []
           | None => Ok []
           end ;
  do c2 <- match d_upd s with
           | Some f => do l <- index (nth_error upd k) ; Ok [{| e_dashed := true; e_label := l; e_y := f x i |}]
           | None => Ok []
           end ;
  Ok (c1 ++ c2).
Definition plot_1d_marginal_densities (args : list darg) (i : nat) (interval : option (Qc * Qc)) (num_points : nat) (label : option string)
    (sets_label sets_label_initial : option (list string)) (initials inputs : bool) : result (string * list Qc * list dcurve) :=
  do sets <- each (choose_set inputs) args ;
  do lab <- x_label label sets i ;
  do upd <- legend sets_label " Updated" "" sets i ;
  do ini <- legend sets_label_initial " Initial" " Initial" sets i ;
  do x <- grid interval num_points sets i ;
  do cs <- each (set_curves x i initials upd ini) (enum_from 0 sets) ;
  Ok (lab, x, concat cs).
