(** bet/postProcess/plotDomains.py up to the arguments of plt.scatter,
    plt.tricontourf and plt.savefig.  Figures are saved (save=True) and closed.
    Values of a set have shape (number of samples, dim). *)
From Coq Require Import String Ascii List Arith Bool QArith Qcanon DecimalString.
From Verif Require Import Err Num NumPy.
Import ListNotations.
Local Open Scope nat_scope.
Local Open Scope err_scope.

(** A sample set; arrays that are None are missing. *)
Record vset := { v_dim : nat; v_values : list (list Qc); v_ref : option (list Qc); v_volumes : option (list Qc);
  v_probs : option (list Qc); v_radii : option (list Qc); v_nradii : option (list Qc); v_error : option (list Qc) }.
(** An argument: a sample set, a discretization with its input and output sets, or
    anything else (in particular None). *)
Inductive obj := OSet (s : vset) | ODisc (inp out : option vset) | OOther.
(** The argument color: an array or a string. *)
Inductive carg := CArray (l : list Qc) | CText (t : string).

(** str(n) *)
Definition dec (n : nat) : string := NilZero.string_of_uint (Nat.to_uint n).
(** "." in filename *)
Fixpoint has_dot (s : string) : bool :=
  match s with EmptyString => false | String c r => Ascii.eqb c "." || has_dot r end.
(** lines 120-123, 327-331 *)
Definition full_filename (filename ext : string) : string := if has_dot filename then filename else append filename ext.

(** One saved scatter plot: the markers with their colours, the marker of the
    reference value, the axis labels and the file. *)
Record figure := { f_points : list (list Qc); f_colors : list Qc; f_ref : option (list Qc);
  f_labels : list string; f_cbar : string; f_file : string }.

(** ** scatter_2D (44-129) and scatter_3D (246-337); [n] is 2 or 3 *)
(** np.ones, color[sample_nos]; a string cannot be indexed by an array. *)
Definition pick_colors (color : option carg) (num : nat) (nos : list nat) : result (list Qc) :=
  match color with
  | Some (CText _) => Raise PyTypeError
  | Some (CArray l) => match take_idx l nos with Some c => Ok c | None => Raise PyIndexError end
  | None => match take_idx (repeat 1%Qc num) nos with Some c => Ok c | None => Raise PyIndexError end
  end.
(** In two dimensions the label of the colour bar is "index" whenever there is no
    colour. *)
Definition cbar_text (n : nat) (color : option carg) (cbar : option string) : string :=
  match color, cbar with
  | None, _ => if n =? 2 then "index" else match cbar with Some c => c | None => "$\rho_\mathcal{D}(q)$" end
  | Some _, Some c => c
  | Some _, None => "$\rho_\mathcal{D}(q)$"
  end.
Definition scatter (n : nat) (o : obj) (nos : option (list nat)) (color : option carg) (ref : option (list Qc))
    (labels : list string) (cbar : option string) (filename ext : string) : result figure :=
  match o with
  | OSet s =>
      if negb (v_dim s =? n) then Raise DimNotMatching
      else
        let ref1 := match ref with Some r => Some r | None => v_ref s end in
        let nos1 := match nos with Some l => l | None => seq 0 (length (v_values s)) end in
        do c <- pick_colors color (length (v_values s)) nos1 ;
        do p <- match take_idx (v_values s) nos1 with Some p => Ok p | None => Raise PyIndexError end ;
        do r <- match ref1 with
                | None => Ok None
                | Some r => if length r <? n then Raise PyIndexError else Ok (Some (firstn n r))
                end ;
        Ok {| f_points := p; f_colors := c; f_ref := r; f_labels := labels; f_cbar := cbar_text n color cbar;
              f_file := full_filename filename ext |}
  | _ => Raise BadObject
  end.

(** ** scatter_2D_input (132-187), scatter_2D_output (190-243), scatter_3D_input
    (340-399), scatter_3D_output (402-461) *)
(** color is "volumes": identity of objects.  A string literal of the caller is
    the same object as an equal literal of this module exactly if CPython interns
    it, i.e. if it consists of letters, digits and underscores. *)
Definition name_char (c : ascii) : bool :=
  let k := nat_of_ascii c in
  ((48 <=? k) && (k <=? 57)) || ((65 <=? k) && (k <=? 90)) || ((97 <=? k) && (k <=? 122)) || (k =? 95).
Fixpoint name_like (s : string) : bool :=
  match s with EmptyString => true | String c r => name_char c && name_like r end.
Definition is_literal (s t : string) : bool := String.eqb s t && name_like t.
(** The branch taken, the label of the colour bar and the array. *)
Definition named (input : bool) (t : string) : option (string * (vset -> option (list Qc))) :=
  if is_literal t "volumes"
  then Some ((if input then "$\mu_\Lambda(\mathcal{V}_{i,N})$" else "$\mu_\mathcal{D}(\mathcal{I}_{j,M})$")%string, v_volumes)
  else if is_literal t "probabilities"
  then Some ((if input then "$\P_\Lambda(\mathcal{V}_{i,N})$" else "$\P_\mathcal{D}(\mathcal{I}_{j,M})$")%string, v_probs)
  else if is_literal t "radii"
  then Some ((if input then "$diam_\Lambda(\mathcal{V}_{i,N})$" else "$diam_\mathcal{D}(\mathcal{I}_{j,M})$")%string, v_radii)
  else if is_literal t "normalized radii"
  then Some ((if input then "$diam_\Lambda_{norm}(\mathcal{V}_{i,N})$" else "$diam_\mathcal{D}_{norm}(\mathcal{I}_{j,M})$")%string, v_nradii)
  else if is_literal t "error_id" then Some ("error id"%string, v_error)
  else None.
(** colour and label of the colour bar after the branches (None: unchanged) *)
Definition resolve (input : bool) (s : option vset) (color : option carg) : result (option carg * option string) :=
  match color with
  | Some (CText t) =>
      match named input t with
      | Some (lab, f) => match s with
                         | Some v => Ok (option_map CArray (f v), Some lab)
                         | None => Raise PyAttributeError
                         end
      | None => Ok (color, None)
      end
  | _ => Ok (color, None)
  end.
Definition set_or_none (s : option vset) : obj := match s with Some v => OSet v | None => OOther end.
Definition scatter_2D_named (input : bool) (d : obj) (nos : option (list nat)) (color : option carg) (ref : option (list Qc))
    (labels : list string) (cbar : option string) (filename ext : string) : result figure :=
  match d with
  | ODisc i o =>
      let s := if input then i else o in
      do cl <- resolve input s color ;
      scatter 2 (set_or_none s) nos (fst cl) ref labels (match snd cl with Some l => Some l | None => cbar end) filename ext
  | _ => Raise BadObject
  end.
(** Lines 396-398 and 458-460 call the function itself, not scatter_3D; a sample
    set or None is rejected by its first lines (376-377, 438-439). *)
Fixpoint scatter_3D_named (fuel : nat) (input : bool) (d : obj) (nos : option (list nat)) (color : option carg) (ref : option (list Qc))
    (labels : list string) (cbar : option string) (filename ext : string) : result figure :=
  match d with
  | ODisc i o =>
      let s := if input then i else o in
      do cl <- resolve input s color ;
      match fuel with
      | 0 => Raise BadObject
      | S k => scatter_3D_named k input (set_or_none s) nos (fst cl) ref labels (match snd cl with Some l => Some l | None => cbar end) filename ext
      end
  | _ => Raise BadObject
  end.

(** ** scatter_rhoD, lines 464-585 *)
(** l[:, idx] and l[idx] *)
Fixpoint columns (rows : list (list Qc)) (idx : list nat) : option (list (list Qc)) :=
  match rows with
  | [] => Some []
  | r :: rs => match take_idx r idx, columns rs idx with Some x, Some xs => Some (x :: xs) | _, _ => None end
  end.
Definition index {A} (o : option A) : result A := match o with Some x => Ok x | None => Raise PyIndexError end.
(** itertools.combinations(l, k) *)
Fixpoint combos {A} (k : nat) (l : list A) : list (list A) :=
  match k, l with
  | 0, _ => [[]]
  | S _, [] => []
  | S k', x :: r => map (cons x) (combos k' r) ++ combos k r
  end.
(** x - 1 as an index of n columns: -1 is the last one. *)
Definition before (n x : nat) : nat := if x =? 0 then n - 1 else x - 1.
Definition axis_label (label_char : string) (x : nat) : string := append label_char (append "{" (append (dec x) "}$")).
Fixpoint each {A B} (f : A -> result B) (l : list A) : result (list B) :=
  match l with
  | [] => Ok []
  | x :: r => do y <- f x ; do ys <- each f r ; Ok (y :: ys)
  end.
Definition plain (n : nat) (values : list (list Qc)) : vset :=
  {| v_dim := n; v_values := values; v_ref := None; v_volumes := None; v_probs := None; v_radii := None; v_nradii := None; v_error := None |}.
(** Lines 545-558 and 566-585: one plot of the coordinates [xs]; the extension is
    only passed on for triples. *)
Definition projection (s : vset) (nos : option (list nat)) (rD : list Qc) (ref : option (list Qc)) (label_char prefix ext : string)
    (xs : list nat) : result figure :=
  let idx := map (before (v_dim s)) xs in
  do vals <- index (columns (v_values s) idx) ;
  do r <- match ref with
          | Some r => do q <- index (take_idx r (map (before (length r)) xs)) ; Ok (Some q)
          | None => Ok None
          end ;
  scatter (length xs) (OSet (plain (length xs) vals)) nos (Some (CArray rD)) r (map (axis_label label_char) xs) None
    (append prefix (append "samples_x" (append (String.concat "x" (map dec xs)) "_cs")))
    (if length xs =? 2 then ".png" else ext).
Definition rhoD_label (label_char : option string) (flag : string) : string * string :=
  match label_char with
  | Some _ => ("$x_", "rhoD_")%string
  | None => if String.eqb flag "input" then ("$\lambda_", "input_")%string
            else if String.eqb flag "output" then ("$q_", "output_")%string
            else ("$x_", "rhoD_")%string
  end.
(** Lines 509-524: the set that is plotted and the colours. *)
Definition rhoD_set (rho : option (list (list Qc) -> list Qc)) (o : obj) (flag : string) : result (vset * option (list Qc)) :=
  match o with
  | ODisc i out =>
      do rD <- match rho with
               | Some f => match out with Some s => Ok (Some (f (v_values s))) | None => Raise PyAttributeError end
               | None => Ok None
               end ;
      match (if String.eqb flag "input" then i else out) with
      | Some s => Ok (s, rD)
      | None => Raise PyAttributeError
      end
  | OSet s =>
      if String.eqb flag "output"
      then match rho with Some f => Ok (s, Some (f (v_values s))) | None => Raise PyTypeError end
      else Ok (s, None)
  | OOther => Raise BadObject
  end.
Definition scatter_rhoD (rho : option (list (list Qc) -> list Qc)) (o : obj) (ref : option (list Qc)) (nos : option (list nat)) (flag : string)
    (dim_nums : option (list nat)) (label_char : option string) (showdim : option nat) (ext : string) : result (list figure) :=
  do sr <- rhoD_set rho o flag ;
  let s := fst sr in
  let ref1 := match ref with Some r => Some r | None => v_ref s end in
  let rD := match snd sr with Some c => c | None => repeat 1%Qc (length (v_values s)) end in
  let '(lab, prefix) := rhoD_label label_char flag in
  let nums := match dim_nums with Some l => l | None => seq 1 (v_dim s) end in
  do x0 <- index (nth_error nums 0) ;
  do x1 <- index (nth_error nums 1) ;
  let savename := append prefix "samples_cs" in
  if v_dim s =? 2
  then do f <- scatter 2 (OSet s) nos (Some (CArray rD)) ref1 (map (axis_label lab) [x0; x1]) None savename ".png" ; Ok [f]
  else if (2 <? v_dim s) && (match showdim with Some k => k =? 2 | None => false end)
  then each (projection s nos rD ref1 lab prefix ext) (combos 2 nums)
  else if v_dim s =? 3
  then do x2 <- index (nth_error nums 2) ;
       do f <- scatter 3 (OSet s) nos (Some (CArray rD)) ref1 (map (axis_label lab) [x0; x1; x2]) None savename ".png" ; Ok [f]
  else if (3 <? v_dim s) && (match showdim with Some k => k =? 3 | None => false end)
  then each (projection s nos rD ref1 lab prefix ext) (combos 3 nums)
  else Ok [].

(** ** scatter_2D_multi, lines 835-923 *)
(** showdim: an integer, a string (only 'all' and 'ALL' have an effect) or None. *)
Inductive show := SInt (k : nat) | SText (t : string) | SNone.
Definition show_pairs (sh : show) (nums : list nat) (skip : bool) : list (nat * nat) :=
  match sh with
  | SNone => map (fun i => (0, i)) (filter (fun i => negb (skip && (i =? 0))) nums)
  | SInt k => map (fun i => (k, i)) (filter (fun i => negb (skip && (i =? k))) nums)
  | SText t => if String.eqb t "all" || String.eqb t "ALL"
               then map (fun l => (nth 0 l 0, nth 1 l 0)) (combos 2 nums) else []
  end.
(** os.path.join(a, b) *)
Definition starts_slash (s : string) : bool := match s with String c _ => Ascii.eqb c "/" | EmptyString => false end.
Fixpoint ends_slash (s : string) : bool :=
  match s with
  | EmptyString => false
  | String c EmptyString => Ascii.eqb c "/"
  | String _ r => ends_slash r
  end.
Definition path_join (a b : string) : string :=
  if starts_slash b then b
  else if String.eqb a "" || ends_slash a then append a b
  else append a (append "/" b).
Definition multi_label (label_char : string) (i : nat) : string := append label_char (append "_{" (append (dec (i + 1)) "}$")).
Definition multi_file (folder filename : string) (x y : nat) : string :=
  path_join folder (append filename (append "_d" (append (dec (x + 1)) (append "_d" (dec (y + 1)))))).
Definition multi_one (s : vset) (color : option carg) (ref : option (list Qc)) (folder filename label_char ext : string) (cbar : option string)
    (xy : nat * nat) : result figure :=
  let '(x, y) := xy in
  do vals <- index (columns (v_values s) [x; y]) ;
  do r <- match ref with Some r => do q <- index (take_idx r [x; y]) ; Ok (Some q) | None => Ok None end ;
  scatter 2 (OSet (plain 2 vals)) None color r [multi_label label_char x; multi_label label_char y] cbar (multi_file folder filename x y) ext.
Definition scatter_2D_multi (o : obj) (color : option carg) (ref : option (list Qc)) (folder filename label_char : string) (sh : show) (ext : string)
    (cbar : option string) : result (list figure) :=
  match o with
  | OSet s => each (multi_one s color ref folder filename label_char ext cbar) (show_pairs sh (seq 0 (v_dim s)) false)
  | _ => Raise BadObject
  end.
(** scatter_2D_multi_input (926-976) and scatter_2D_multi_output (979-1028).
    cbar_label is only bound by the branches for named colours; markersize is not
    a parameter of scatter_2D_multi_input (NameError in both cases). *)
Definition scatter_2D_multi_input (d : obj) (color : option carg) (ref : option (list Qc)) (folder filename label_char : string) (sh : show) (ext : string)
    : result (list figure) :=
  match d with
  | ODisc i _ => do _ <- resolve true i color ; Raise PyNameError
  | _ => Raise BadObject
  end.
Definition scatter_2D_multi_output (d : obj) (color : option carg) (ref : option (list Qc)) (folder filename label_char : string) (sh : show) (ext : string)
    : result (list figure) :=
  match d with
  | ODisc _ o =>
      do cl <- resolve false o color ;
      match snd cl with
      | None => Raise PyNameError
      | Some lab => scatter_2D_multi (set_or_none o) (fst cl) ref folder filename label_char sh ext (Some lab)
      end
  | _ => Raise BadObject
  end.

(** ** show_data_domain_multi (588-717) and show_data_domain_2D (720-832) *)
(** The data in the plane, the reference values with marker and colour, labels and
    the two files.  The triangulation of the inputs, the creation of the folder
    and the check that both sets have the same number of samples are not
    modelled. *)
Record domain_fig := { g_points : list (list Qc); g_refs : list (list Qc * string * string); g_labels : list string; g_files : string * string }.
Definition default_colors : list string := ["b"; "g"; "r"; "c"; "m"; "y"; "k"]%string.
Fixpoint mark_refs (refs : list (list Qc)) (markers colors : list string) : result (list (list Qc * string * string)) :=
  match refs, markers, colors with
  | [], _, _ => Ok []
  | r :: rs, m :: ms, c :: cs => do l <- mark_refs rs ms cs ; Ok ((r, m, c) :: l)
  | _, _, _ => Raise PyIndexError
  end.
Definition domain_files (folder : string) (x y : nat) : string * string :=
  (append folder (append "domain_q" (append (dec (x + 1)) (append "_q" (dec (y + 1))))),
   append folder (append "q" (append (dec (x + 1)) (append "_q" (append (dec (y + 1)) "_domain_Q_cs"))))).
Definition domain_label (i : nat) : string := append "$q_{" (append (dec (i + 1)) "}$").
Definition domain_one (data : list (list Qc)) (refs : option (list (list Qc))) (markers colors : list string) (folder ext : string) (xy : nat * nat)
    : result domain_fig :=
  let '(x, y) := xy in
  do vals <- index (columns data [x; y]) ;
  do rs <- match refs with
           | Some q => do c <- index (columns q [x; y]) ; mark_refs c markers colors
           | None => Ok []
           end ;
  Ok {| g_points := vals; g_refs := rs; g_labels := [domain_label x; domain_label y];
        g_files := (full_filename (fst (domain_files folder x y)) ext, full_filename (snd (domain_files folder x y)) ext) |}.
(** [refs]: Q_ref as a list of rows (util.fix_dimensions_data); [markers]: the
    default markers, a list that depends on matplotlib. *)
Definition show_data_domain_multi (d : obj) (refs : option (list (list Qc))) (Q_nums : option (list nat)) (folder : string)
    (default_markers : list string) (ref_markers ref_colors : option (list string)) (sh : show) (ext : string) : result (list domain_fig) :=
  match d with
  | ODisc (Some i) (Some o) =>
      let markers := match ref_markers with Some l => l | None => default_markers end in
      let colors := match ref_colors with Some l => l | None => default_colors end in
      let q := match refs with Some q => Some q | None => option_map (fun r => [r]) (v_ref o) end in
      let nums := match Q_nums with Some l => l | None => seq 0 (v_dim o) end in
      each (domain_one (v_values o) q markers colors folder ext) (show_pairs sh nums true)
  | ODisc _ _ => Raise PyAttributeError
  | _ => Raise BadObject
  end.
