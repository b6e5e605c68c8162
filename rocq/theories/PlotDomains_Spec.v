From Coq Require Import String List Arith QArith Qcanon DecimalString.
From Verif Require Import Err Num PlotDomains_Model.
Import ListNotations.

(** The samples to plot: those listed, or all of them. *)
Definition chosen (nos : option (list nat)) (num : nat) : list nat := match nos with Some l => l | None => seq 0 num end.
(** The colour of sample i: its entry in the array, or one if there is none. *)
Definition colour_of (color : option carg) (num i : nat) : option Qc :=
  match color with
  | Some (CArray l) => nth_error l i
  | Some (CText _) => None
  | None => if (i <? num)%nat then Some 1%Qc else None
  end.
(** Marker k shows sample i: it is placed at the sample and has its colour. *)
Definition marker_shows (values : list (list Qc)) (colour : nat -> option Qc) (points : list (list Qc)) (colours : list Qc) (k i : nat) : Prop :=
  nth_error points k = nth_error values i /\ nth_error colours k = colour i /\ nth_error points k <> None /\ nth_error colours k <> None.

(** xs is obtained from the list by leaving out entries. *)
Inductive subseq {A} : list A -> list A -> Prop :=
| sub_nil l : subseq [] l
| sub_take x xs l : subseq xs l -> subseq (x :: xs) (x :: l)
| sub_skip x xs l : subseq xs l -> subseq xs (x :: l).

(** [new] lists the coordinates [xs] of [row]; coordinates are counted from [first]. *)
Definition restricted (first : nat) (xs : list nat) (row new : list Qc) : Prop :=
  length new = length xs /\ forall k x, nth_error xs k = Some x -> (first <= x)%nat /\ nth_error new k = nth_error row (x - first) /\ nth_error new k <> None.
(** The figure shows, for every chosen sample, its coordinates [xs] with its
    colour, and the coordinates [xs] of the reference value. *)
Definition shows_coordinates (first : nat) (xs : list nat) (values : list (list Qc)) (colour : nat -> option Qc) (ref : option (list Qc))
    (samples : list nat) (points : list (list Qc)) (colours : list Qc) (shown_ref : option (list Qc)) : Prop :=
  length points = length samples /\ length colours = length samples /\
  (forall k i, nth_error samples k = Some i -> exists row new c,
     nth_error values i = Some row /\ nth_error points k = Some new /\ restricted first xs row new /\
     colour i = Some c /\ nth_error colours k = Some c) /\
  match ref with
  | Some r => exists q, shown_ref = Some q /\ restricted first xs r q
  | None => shown_ref = None
  end.
(** Every sample and the reference value have one number per coordinate. *)
Definition well_shaped (d : nat) (values : list (list Qc)) (ref : option (list Qc)) : Prop :=
  (forall row, In row values -> length row = d) /\ (forall r, ref = Some r -> length r = d).
Definition or_own {A} (given own : option A) : option A := match given with Some x => Some x | None => own end.
(** A plot of the data domain: the data and the reference values restricted to
    the coordinates x and y, the reference value k with marker k and colour k. *)
Definition shows_domain (x y : nat) (data refs : list (list Qc)) (markers colors : list string)
    (points : list (list Qc)) (shown : list (list Qc * string * string)) : Prop :=
  Forall2 (restricted 0 [x; y]) data points /\ length shown = length refs /\
  forall k r m c, nth_error refs k = Some r -> nth_error markers k = Some m -> nth_error colors k = Some c ->
    exists q, nth_error shown k = Some (q, m, c) /\ restricted 0 [x; y] r q.
(** The reference values that are shown: those given, or that of the output set. *)
Definition domain_refs (refs : option (list (list Qc))) (o : vset) : option (list (list Qc)) :=
  or_own refs (option_map (fun r => [r]) (v_ref o)).

(** ** Texts *)
(** The decimal numeral of n. *)
Definition number (n : nat) : string := NilZero.string_of_uint (Nat.to_uint n).
(** The labels and the file of a plot of scatter_rhoD; coordinates are counted from
    one.  Any label_char gives the label x. *)
Definition rhoD_texts (label_char : option string) (flag : string) : string * string :=
  match label_char with
  | Some _ => ("$x_", "rhoD_")
  | None => if (flag =? "input")%string then ("$\lambda_", "input_") else if (flag =? "output")%string then ("$q_", "output_") else ("$x_", "rhoD_")
  end%string.
Definition rhoD_axes (label_char : option string) (flag : string) (xs : list nat) : list string :=
  map (fun x => fst (rhoD_texts label_char flag) ++ "{" ++ number x ++ "}$")%string xs.
Definition rhoD_name (label_char : option string) (flag : string) (xs : list nat) (ext : string) : string :=
  (snd (rhoD_texts label_char flag) ++ "samples_x" ++ String.concat "x" (map number xs) ++ "_cs" ++ (if (length xs =? 2)%nat then ".png" else ext))%string.
(** The other plots number coordinates from zero and name them from one. *)
Definition multi_axes (label_char : string) (x y : nat) : list string :=
  [label_char ++ "_{" ++ number (S x) ++ "}$"; label_char ++ "_{" ++ number (S y) ++ "}$"]%string.
Definition multi_name (filename : string) (x y : nat) : string := (filename ++ "_d" ++ number (S x) ++ "_d" ++ number (S y))%string.
Definition domain_axes (x y : nat) : list string := ["$q_{" ++ number (S x) ++ "}$"; "$q_{" ++ number (S y) ++ "}$"]%string.
Definition domain_names (folder : string) (x y : nat) : string * string :=
  (folder ++ "domain_q" ++ number (S x) ++ "_q" ++ number (S y), folder ++ "q" ++ number (S x) ++ "_q" ++ number (S y) ++ "_domain_Q_cs")%string.
(** The label of the colour bar if nothing else is given, and those of the named
    colours. *)
Definition density_text : string := "$\rho_\mathcal{D}(q)$".
Definition colour_text (input : bool) (name : string) : string :=
  let cell := if input then "\Lambda(\mathcal{V}_{i,N})$"%string else "\mathcal{D}(\mathcal{I}_{j,M})$"%string in
  (if (name =? "volumes")%string then "$\mu_" ++ cell
   else if (name =? "probabilities")%string then "$\P_" ++ cell
   else if (name =? "radii")%string then "$diam_" ++ cell
   else "error id")%string.
(** The same markers, colours and reference values (labels and files may differ). *)
Definition same_pictures (a b : result (list figure)) : Prop :=
  match a, b with
  | Ok l, Ok m => map f_points l = map f_points m /\ map f_colors l = map f_colors m /\ map f_ref l = map f_ref m
  | Raise e, Raise e' => e = e'
  | _, _ => False
  end.
(** Coordinate 0 stands for the last one. *)
Definition last_for_zero (d x : nat) : nat := if (x =? 0)%nat then d else x.
