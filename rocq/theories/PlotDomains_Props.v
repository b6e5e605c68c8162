(** C130-C133: scatter plots and plots of data domains. *)
From Coq Require Import String List Arith Bool QArith Qcanon Lia.
From Verif Require Import Err Num PlotDomains_Model PlotDomains_Spec PlotDomains_Proofs PlotDomains_Examples.
Import ListNotations.
Local Open Scope nat_scope.

(** ** C130: scatter_2D, scatter_3D and the versions for discretizations *)
(** Marker k shows the k-th chosen sample with its colour; the reference value is
    the given one or that of the set. *)
Theorem scatter_shows_samples n s nos color ref labels cbar filename ext f :
  scatter n (OSet s) nos color ref labels cbar filename ext = Ok f ->
  length (f_points f) = length (chosen nos (length (v_values s))) /\
  length (f_colors f) = length (chosen nos (length (v_values s))) /\
  (forall k i, nth_error (chosen nos (length (v_values s))) k = Some i ->
     marker_shows (v_values s) (colour_of color (length (v_values s))) (f_points f) (f_colors f) k i) /\
  f_ref f = option_map (firstn n) (or_own ref (v_ref s)) /\
  f_labels f = labels /\ f_file f = full_filename filename ext.
Proof. exact (scatter_shows_lemma n s nos color ref labels cbar filename ext f). Qed.
Print Assumptions scatter_shows_samples.

(** A plot is made exactly if the argument is a sample set of this dimension, the
    chosen samples exist and have a colour, and the reference value is long
    enough. *)
Theorem scatter_succeeds n o nos color ref labels cbar filename ext :
  (exists f, scatter n o nos color ref labels cbar filename ext = Ok f) <->
  exists s, o = OSet s /\ v_dim s = n /\
    (forall i, In i (chosen nos (length (v_values s))) -> i < length (v_values s) /\ colour_of color (length (v_values s)) i <> None) /\
    (forall t, color <> Some (CText t)) /\
    (forall r, or_own ref (v_ref s) = Some r -> n <= length r).
Proof. exact (scatter_ok_lemma n o nos color ref labels cbar filename ext). Qed.
Print Assumptions scatter_succeeds.
Example scatter_example : exists f,
  scatter 2 (OSet (ex_set 2)) (Some [1]) (Some (CArray [q 7; q 8])) None ["a"; "b"]%string None "out" ".png" = Ok f /\
  f_points f = [[q 10; q 11]] /\ f_colors f = [q 8] /\ f_ref f = Some [q 20; q 21] /\ f_file f = "out.png"%string.
Proof. eexists. split; [reflexivity|]. repeat split. Qed.

(** The label of the colour bar, and the two ways to refuse. *)
Theorem scatter_caption n s nos color ref labels cbar filename ext f : scatter n (OSet s) nos color ref labels cbar filename ext = Ok f ->
  f_cbar f = if (n =? 2) && (match color with None => true | Some _ => false end) then "index"%string else match cbar with Some c => c | None => density_text end.
Proof. exact (caption_lemma n s nos color ref labels cbar filename ext f). Qed.
Print Assumptions scatter_caption.
Theorem scatter_rejects n o nos color ref labels cbar filename ext :
  ((forall s, o <> OSet s) -> scatter n o nos color ref labels cbar filename ext = Raise BadObject) /\
  (forall s, o = OSet s -> v_dim s <> n -> scatter n o nos color ref labels cbar filename ext = Raise DimNotMatching).
Proof. exact (rejects_lemma n o nos color ref labels cbar filename ext). Qed.
Print Assumptions scatter_rejects.

(** The names volumes, probabilities, radii and error_id colour by the array of
    the set (with one colour if the set has none). *)
Theorem named_colours_partial input i o s t get nos ref labels cbar filename ext :
  (if input : bool then i else o) = Some s ->
  In (t, get) [("volumes", v_volumes); ("probabilities", v_probs); ("radii", v_radii); ("error_id", v_error)]%string ->
  scatter_2D_named input (ODisc i o) nos (Some (CText t)) ref labels cbar filename ext =
    scatter 2 (OSet s) nos (option_map CArray (get s)) ref labels (Some (colour_text input t)) filename ext.
Proof. exact (named_2D_lemma input i o s t get nos ref labels cbar filename ext). Qed.
Print Assumptions named_colours_partial.
Theorem array_colours input i o s color nos ref labels cbar filename ext : (if input : bool then i else o) = Some s ->
  (forall t, color <> Some (CText t)) ->
  scatter_2D_named input (ODisc i o) nos color ref labels cbar filename ext = scatter 2 (OSet s) nos color ref labels cbar filename ext.
Proof. exact (array_2D_lemma input i o s color nos ref labels cbar filename ext). Qed.
Print Assumptions array_colours.
(** The fifth name never works, although the set has the array. *)
Theorem normalized_radii_refuted input i o nos ref labels cbar filename ext :
  forall f, scatter_2D_named input (ODisc i o) nos (Some (CText "normalized radii")) ref labels cbar filename ext <> Ok f.
Proof. exact (nradii_refuted_lemma input i o nos ref labels cbar filename ext). Qed.
Print Assumptions normalized_radii_refuted.
Example normalized_radii_example :
  scatter_2D_named true (ex_disc 2 2) None (Some (CText "normalized radii")) None [] None "out" ".png" = Raise PyTypeError /\
  exists f, scatter_2D_named true (ex_disc 2 2) None (Some (CText "volumes")) None [] None "out" ".png" = Ok f /\ f_colors f = [q 3; q 4].
Proof. split; [reflexivity|]. eexists. split; reflexivity. Qed.
(** scatter_3D_input and scatter_3D_output never make a plot. *)
Theorem scatter_3D_of_discretization_refuted fuel input d nos color ref labels cbar filename ext f :
  scatter_3D_named fuel input d nos color ref labels cbar filename ext <> Ok f.
Proof. exact (never_3D_lemma fuel input d nos color ref labels cbar filename ext f). Qed.
Print Assumptions scatter_3D_of_discretization_refuted.
(** The calls end with the rejection of the set, not because fuel is missing. *)
Example scatter_3D_example fuel : scatter_3D_named (S fuel) true (ex_disc 3 3) None None None [] None "out" ".png" = Raise BadObject.
Proof. destruct fuel; reflexivity. Qed.
(** The extension is added to plain names, but not to a path that starts with "./". *)
Theorem extension_added_partial n o nos color ref labels cbar name ext f : has_dot name = false ->
  scatter n o nos color ref labels cbar name ext = Ok f -> f_file f = append name ext.
Proof. exact (no_dot_file_lemma n o nos color ref labels cbar name ext f). Qed.
Print Assumptions extension_added_partial.
Theorem extension_refuted n o nos color ref labels cbar name ext f :
  scatter n o nos color ref labels cbar (append "./" name) ext = Ok f -> f_file f = append "./" name.
Proof. exact (dot_file_lemma n o nos color ref labels cbar name ext f). Qed.
Print Assumptions extension_refuted.
Example extension_example : exists f, scatter 2 (OSet (ex_set 2)) None None None [] None "./out" ".png" = Ok f /\ f_file f = "./out"%string.
Proof. eexists. split; reflexivity. Qed.

(** ** C131: scatter_rhoD *)
(** With showdim 2 or 3 there is one plot for every pair or triple of the
    coordinates (counted from one), coloured by the density of the outputs. *)
Theorem rhoD_projections rho inp out flag ref nos nums lab ext k s :
  s = (if String.eqb flag "input" then inp else out) ->
  (k = 2 /\ 2 < v_dim s \/ k = 3 /\ 3 < v_dim s) ->
  well_shaped (v_dim s) (v_values s) (or_own ref (v_ref s)) -> length (rho (v_values out)) = length (v_values s) ->
  NoDup nums -> 2 <= length nums -> (forall x, In x nums -> 1 <= x <= v_dim s) ->
  (forall i, In i (chosen nos (length (v_values s))) -> i < length (v_values s)) ->
  exists figs, scatter_rhoD (Some rho) (ODisc (Some inp) (Some out)) ref nos flag (Some nums) lab (Some k) ext = Ok figs /\
    (forall xs, length xs = k -> subseq xs nums -> exists f, In f figs /\
      shows_coordinates 1 xs (v_values s) (nth_error (rho (v_values out))) (or_own ref (v_ref s)) (chosen nos (length (v_values s)))
        (f_points f) (f_colors f) (f_ref f) /\ f_labels f = rhoD_axes lab flag xs /\ f_file f = rhoD_name lab flag xs ext) /\
    (forall f, In f figs -> exists xs, length xs = k /\ subseq xs nums /\
      shows_coordinates 1 xs (v_values s) (nth_error (rho (v_values out))) (or_own ref (v_ref s)) (chosen nos (length (v_values s)))
        (f_points f) (f_colors f) (f_ref f) /\ f_labels f = rhoD_axes lab flag xs /\ f_file f = rhoD_name lab flag xs ext) /\
    NoDup (map f_file figs).
Proof. exact (rhoD_projections_lemma rho inp out flag ref nos nums lab ext k s). Qed.
Print Assumptions rhoD_projections.
Example rhoD_projections_example : exists figs,
  scatter_rhoD (Some ex_rho) (ex_disc 4 2) None None "input" (Some [1; 3; 4]) None (Some 2) ".pdf" = Ok figs /\
  map f_points figs = [[[q 0; q 2]; [q 10; q 12]]; [[q 0; q 3]; [q 10; q 13]]; [[q 2; q 3]; [q 12; q 13]]] /\
  map f_file figs = ["input_samples_x1x3_cs.png"; "input_samples_x1x4_cs.png"; "input_samples_x3x4_cs.png"]%string.
Proof. eexists. split; [vm_compute; reflexivity|]. split; reflexivity. Qed.
(** Without dim_nums all coordinates are used. *)
Theorem rhoD_all_coordinates rho inp out ref nos flag lab sh ext s : s = (if String.eqb flag "input" then inp else out) ->
  scatter_rhoD rho (ODisc (Some inp) (Some out)) ref nos flag None lab sh ext =
  scatter_rhoD rho (ODisc (Some inp) (Some out)) ref nos flag (Some (seq 1 (v_dim s))) lab sh ext.
Proof. exact (rhoD_all_disc rho inp out ref nos flag lab sh ext s). Qed.
Print Assumptions rhoD_all_coordinates.
(** In two dimensions, and in three unless pairs are asked for, there is one plot of
    the set itself. *)
Theorem rhoD_whole_set rho inp out flag ref nos lab sh ext s d :
  s = (if String.eqb flag "input" then inp else out) -> v_dim s = d -> d = 2 \/ d = 3 /\ sh <> Some 2 ->
  well_shaped d (v_values s) (or_own ref (v_ref s)) -> length (rho (v_values out)) = length (v_values s) ->
  (forall i, In i (chosen nos (length (v_values s))) -> i < length (v_values s)) ->
  exists f, scatter_rhoD (Some rho) (ODisc (Some inp) (Some out)) ref nos flag None lab sh ext = Ok [f] /\
    (forall k i, nth_error (chosen nos (length (v_values s))) k = Some i ->
       marker_shows (v_values s) (nth_error (rho (v_values out))) (f_points f) (f_colors f) k i) /\
    f_ref f = or_own ref (v_ref s) /\ f_labels f = rhoD_axes lab flag (seq 1 d) /\ f_file f = (snd (rhoD_texts lab flag) ++ "samples_cs.png")%string.
Proof. exact (rhoD_whole_lemma rho inp out flag ref nos lab sh ext s d). Qed.
Print Assumptions rhoD_whole_set.
Example rhoD_whole_example : exists f,
  scatter_rhoD (Some ex_rho) (ex_disc 3 2) None None "output" None None None ".pdf" = Ok [f] /\ f_colors f = [q 0; q 10] /\ f_ref f = Some [q 20; q 21].
Proof. eexists. split; [reflexivity|]. split; reflexivity. Qed.
(** A label for the coordinates is not used: any two give the same plots. *)
Theorem rhoD_label_refuted rho o ref nos flag nums c c' sh ext :
  scatter_rhoD rho o ref nos flag nums (Some c) sh ext = scatter_rhoD rho o ref nos flag nums (Some c') sh ext.
Proof. exact (rhoD_label_lemma rho o ref nos flag nums c c' sh ext). Qed.
Print Assumptions rhoD_label_refuted.
(** The file extension has no effect in up to three dimensions or for pairs. *)
Theorem rhoD_extension_refuted rho o ref nos flag nums lab sh ext ext' s r : rhoD_set rho o flag = Ok (s, r) -> v_dim s <= 3 \/ sh = Some 2 ->
  scatter_rhoD rho o ref nos flag nums lab sh ext = scatter_rhoD rho o ref nos flag nums lab sh ext'.
Proof. exact (rhoD_ext_lemma rho o ref nos flag nums lab sh ext ext' s r). Qed.
Print Assumptions rhoD_extension_refuted.
(** By default nothing is plotted in more than three dimensions, and one dimension
    is an error. *)
Theorem rhoD_default_refuted rho o ref nos flag lab ext s r : rhoD_set rho o flag = Ok (s, r) ->
  (3 < v_dim s -> scatter_rhoD rho o ref nos flag None lab None ext = Ok []) /\
  (v_dim s = 1 -> scatter_rhoD rho o ref nos flag None lab None ext = Raise PyIndexError).
Proof. exact (fun E => conj (rhoD_none_lemma rho o ref nos flag lab ext s r E) (rhoD_line_lemma rho o ref nos flag lab None ext s r E)). Qed.
Print Assumptions rhoD_default_refuted.
Example rhoD_default_example : rhoD_set (Some ex_rho) (ex_disc 4 2) "input" = Ok (ex_set 4, Some [q 0; q 10]).
Proof. reflexivity. Qed.
(** Coordinates are counted from one; coordinate 0 shows the last one. *)
Theorem rhoD_zero_refuted rho o ref nos flag nums lab k ext s r : rhoD_set rho o flag = Ok (s, r) ->
  (forall q, or_own ref (v_ref s) = Some q -> length q = v_dim s) -> k = 2 /\ 2 < v_dim s \/ k = 3 /\ 3 < v_dim s ->
  same_pictures (scatter_rhoD rho o ref nos flag (Some nums) lab (Some k) ext)
    (scatter_rhoD rho o ref nos flag (Some (map (last_for_zero (v_dim s)) nums)) lab (Some k) ext).
Proof. exact (rhoD_zero_lemma rho o ref nos flag nums lab k ext s r). Qed.
Print Assumptions rhoD_zero_refuted.
Example rhoD_zero_example : exists figs,
  scatter_rhoD (Some ex_rho) (ex_disc 4 2) None None "input" (Some [0; 1]) None (Some 2) ".pdf" = Ok figs /\
  map f_points figs = [[[q 3; q 0]; [q 13; q 10]]] /\ map f_labels figs = [["$\lambda_{0}$"; "$\lambda_{1}$"]]%string.
Proof. eexists. split; [vm_compute; reflexivity|]. split; reflexivity. Qed.
(** A sample set of inputs is not coloured by the density, and one of outputs
    needs it. *)
Theorem rhoD_set_refuted rho s ref nos nums lab sh ext :
  scatter_rhoD rho (OSet s) ref nos "input" nums lab sh ext = scatter_rhoD None (OSet s) ref nos "input" nums lab sh ext /\
  scatter_rhoD None (OSet s) ref nos "output" nums lab sh ext = Raise PyTypeError.
Proof. exact (conj (rhoD_input_lemma rho s ref nos nums lab sh ext) (rhoD_output_lemma s ref nos nums lab sh ext)). Qed.
Print Assumptions rhoD_set_refuted.

(** ** C132: scatter_2D_multi *)
(** showdim 'all': one plot for every pair of coordinates (counted from zero). *)
Theorem multi_all_pairs s color ref folder filename lab t ext cbar :
  well_shaped (v_dim s) (v_values s) ref -> (forall l, color = Some (CArray l) -> length l = length (v_values s)) -> (forall t, color <> Some (CText t)) ->
  t = "all"%string \/ t = "ALL"%string ->
  exists figs, scatter_2D_multi (OSet s) color ref folder filename lab (SText t) ext cbar = Ok figs /\
    (forall x y, x < y < v_dim s -> exists f, In f figs /\
       shows_coordinates 0 [x; y] (v_values s) (colour_of color (length (v_values s))) ref (seq 0 (length (v_values s))) (f_points f) (f_colors f) (f_ref f) /\
       f_labels f = multi_axes lab x y /\ f_file f = full_filename (path_join folder (multi_name filename x y)) ext) /\
    (forall f, In f figs -> exists x y, x < y < v_dim s /\
       shows_coordinates 0 [x; y] (v_values s) (colour_of color (length (v_values s))) ref (seq 0 (length (v_values s))) (f_points f) (f_colors f) (f_ref f) /\
       f_labels f = multi_axes lab x y /\ f_file f = full_filename (path_join folder (multi_name filename x y)) ext) /\
    NoDup (map f_file figs).
Proof. exact (multi_all_lemma s color ref folder filename lab t ext cbar). Qed.
Print Assumptions multi_all_pairs.
Example multi_all_example : exists figs,
  scatter_2D_multi (OSet (ex_set 3)) None (Some (row 30 3)) "figs/" "m" "$x" (SText "all") ".png" None = Ok figs /\
  map f_ref figs = [Some [q 30; q 31]; Some [q 30; q 32]; Some [q 31; q 32]] /\
  map f_file figs = ["figs/m_d1_d2.png"; "figs/m_d1_d3.png"; "figs/m_d2_d3.png"]%string.
Proof. eexists. split; [vm_compute; reflexivity|]. split; reflexivity. Qed.
(** An integer: the plots are those of coordinate k with every coordinate,
    including itself. *)
Theorem multi_one_coordinate_refuted s color ref folder filename lab k ext cbar :
  well_shaped (v_dim s) (v_values s) ref -> (forall l, color = Some (CArray l) -> length l = length (v_values s)) -> (forall t, color <> Some (CText t)) ->
  k < v_dim s ->
  exists figs, scatter_2D_multi (OSet s) color ref folder filename lab (SInt k) ext cbar = Ok figs /\
    (forall y, y < v_dim s -> exists f, In f figs /\
       shows_coordinates 0 [k; y] (v_values s) (colour_of color (length (v_values s))) ref (seq 0 (length (v_values s))) (f_points f) (f_colors f) (f_ref f) /\
       f_labels f = multi_axes lab k y /\ f_file f = full_filename (path_join folder (multi_name filename k y)) ext) /\
    (forall f, In f figs -> exists y, y < v_dim s /\
       shows_coordinates 0 [k; y] (v_values s) (colour_of color (length (v_values s))) ref (seq 0 (length (v_values s))) (f_points f) (f_colors f) (f_ref f) /\
       f_labels f = multi_axes lab k y /\ f_file f = full_filename (path_join folder (multi_name filename k y)) ext) /\
    NoDup (map f_file figs).
Proof. exact (multi_one_dim_lemma s color ref folder filename lab k ext cbar). Qed.
Print Assumptions multi_one_coordinate_refuted.
Example multi_one_example : exists figs,
  scatter_2D_multi (OSet (ex_set 3)) None None "figs" "m" "$x" (SInt 1) ".png" None = Ok figs /\
  map f_points figs = [[[q 1; q 0]; [q 11; q 10]]; [[q 1; q 1]; [q 11; q 11]]; [[q 1; q 2]; [q 11; q 12]]] /\
  map f_file figs = ["figs/m_d2_d1.png"; "figs/m_d2_d2.png"; "figs/m_d2_d3.png"]%string.
Proof. eexists. split; [vm_compute; reflexivity|]. split; reflexivity. Qed.
(** The folder and the name are joined by a slash if there is none. *)
Theorem multi_folder a b : starts_slash b = false ->
  path_join "" b = b /\ path_join (append a "/") b = append a (append "/" b) /\ (a <> ""%string -> (forall p, a <> append p "/") -> path_join a b = append a (append "/" b)).
Proof. exact (path_join_lemma a b). Qed.
Print Assumptions multi_folder.
(** Unlike in scatter_2D the reference value of the set is not shown. *)
Theorem multi_reference_refuted s color folder filename lab sh ext cbar figs f :
  scatter_2D_multi (OSet s) color None folder filename lab sh ext cbar = Ok figs -> In f figs -> f_ref f = None.
Proof. exact (multi_ref_lemma s color folder filename lab sh ext cbar figs f). Qed.
Print Assumptions multi_reference_refuted.
(** For the inputs of a discretization there is never a plot, for the outputs only
    with a named colour. *)
Theorem multi_input_refuted d color ref folder filename label_char sh ext f :
  scatter_2D_multi_input d color ref folder filename label_char sh ext <> Ok f.
Proof. exact (multi_input_lemma d color ref folder filename label_char sh ext f). Qed.
Print Assumptions multi_input_refuted.
Theorem multi_output_refuted d color ref folder filename label_char sh ext f : (forall t, color <> Some (CText t)) ->
  scatter_2D_multi_output d color ref folder filename label_char sh ext <> Ok f.
Proof. exact (multi_output_array_lemma d color ref folder filename label_char sh ext f). Qed.
Print Assumptions multi_output_refuted.
Theorem multi_output_named i s t get ref folder filename label_char sh ext :
  In (t, get) [("volumes", v_volumes); ("probabilities", v_probs); ("radii", v_radii); ("error_id", v_error)]%string ->
  scatter_2D_multi_output (ODisc i (Some s)) (Some (CText t)) ref folder filename label_char sh ext =
    scatter_2D_multi (OSet s) (option_map CArray (get s)) ref folder filename label_char sh ext (Some (colour_text false t)).
Proof. exact (multi_output_named_lemma i s t get ref folder filename label_char sh ext). Qed.
Print Assumptions multi_output_named.
Example multi_output_example :
  scatter_2D_multi_output (ex_disc 2 3) None None "figs/" "m" "$q" SNone ".png" = Raise PyNameError /\
  exists figs, scatter_2D_multi_output (ex_disc 2 3) (Some (CText "volumes")) None "figs/" "m" "$q" (SText "all") ".png" = Ok figs /\
    map f_colors figs = [[q 3; q 4]; [q 3; q 4]; [q 3; q 4]].
Proof. split; [reflexivity|]. eexists. split; reflexivity. Qed.

(** ** C133: show_data_domain_multi *)
Theorem domain_all_pairs i o refs nums folder dm rm rc t ext :
  let q := match domain_refs refs o with Some q => q | None => [] end in
  let markers := match rm with Some l => l | None => dm end in
  let colors := match rc with Some l => l | None => default_colors end in
  (forall row, In row (v_values o) -> length row = v_dim o) -> (forall r, In r q -> length r = v_dim o) ->
  NoDup nums -> (forall x, In x nums -> x < v_dim o) -> t = "all"%string \/ t = "ALL"%string ->
  length q <= length markers -> length q <= length colors ->
  exists figs, show_data_domain_multi (ODisc (Some i) (Some o)) refs (Some nums) folder dm rm rc (SText t) ext = Ok figs /\
    (forall x y, subseq [x; y] nums -> exists g, In g figs /\ shows_domain x y (v_values o) q markers colors (g_points g) (g_refs g) /\
       g_labels g = domain_axes x y /\ g_files g = (full_filename (fst (domain_names folder x y)) ext, full_filename (snd (domain_names folder x y)) ext)) /\
    (forall g, In g figs -> exists x y, subseq [x; y] nums /\ shows_domain x y (v_values o) q markers colors (g_points g) (g_refs g) /\
       g_labels g = domain_axes x y /\ g_files g = (full_filename (fst (domain_names folder x y)) ext, full_filename (snd (domain_names folder x y)) ext)) /\
    NoDup (map (fun g => fst (g_files g)) figs ++ map (fun g => snd (g_files g)) figs).
Proof. exact (domain_multi_all_lemma i o refs nums folder dm rm rc t ext). Qed.
Print Assumptions domain_all_pairs.
Theorem domain_one_coordinate i o refs nums folder dm rm rc k ext :
  let q := match domain_refs refs o with Some q => q | None => [] end in
  let markers := match rm with Some l => l | None => dm end in
  let colors := match rc with Some l => l | None => default_colors end in
  (forall row, In row (v_values o) -> length row = v_dim o) -> (forall r, In r q -> length r = v_dim o) ->
  NoDup nums -> (forall x, In x nums -> x < v_dim o) -> k < v_dim o ->
  length q <= length markers -> length q <= length colors ->
  exists figs, show_data_domain_multi (ODisc (Some i) (Some o)) refs (Some nums) folder dm rm rc (SInt k) ext = Ok figs /\
    (forall y, In y nums -> y <> k -> exists g, In g figs /\ shows_domain k y (v_values o) q markers colors (g_points g) (g_refs g) /\
       g_labels g = domain_axes k y /\ g_files g = (full_filename (fst (domain_names folder k y)) ext, full_filename (snd (domain_names folder k y)) ext)) /\
    (forall g, In g figs -> exists y, In y nums /\ y <> k /\ shows_domain k y (v_values o) q markers colors (g_points g) (g_refs g) /\
       g_labels g = domain_axes k y /\ g_files g = (full_filename (fst (domain_names folder k y)) ext, full_filename (snd (domain_names folder k y)) ext)) /\
    NoDup (map (fun g => fst (g_files g)) figs ++ map (fun g => snd (g_files g)) figs).
Proof. exact (domain_multi_one_lemma i o refs nums folder dm rm rc k ext). Qed.
Print Assumptions domain_one_coordinate.
(** By default all coordinates are chosen, and the first is plotted with the others. *)
Theorem domain_defaults i o refs folder dm rm rc sh ext nums :
  show_data_domain_multi (ODisc (Some i) (Some o)) refs None folder dm rm rc sh ext = show_data_domain_multi (ODisc (Some i) (Some o)) refs (Some (seq 0 (v_dim o))) folder dm rm rc sh ext /\
  show_data_domain_multi (ODisc (Some i) (Some o)) refs nums folder dm rm rc SNone ext = show_data_domain_multi (ODisc (Some i) (Some o)) refs nums folder dm rm rc (SInt 0) ext.
Proof. exact (conj (domain_default_lemma i o refs folder dm rm rc sh ext) (domain_none_lemma _ refs nums folder dm rm rc ext)). Qed.
Print Assumptions domain_defaults.
Example domain_example : exists figs,
  show_data_domain_multi (ex_disc 2 3) None None "figs/" ["o"; "x"]%string None None SNone ".png" = Ok figs /\
  map g_refs figs = [[([q 20; q 21], "o", "b")]; [([q 20; q 22], "o", "b")]]%string /\
  map g_files figs = [("figs/domain_q1_q2.png", "figs/q1_q2_domain_Q_cs.png"); ("figs/domain_q1_q3.png", "figs/q1_q3_domain_Q_cs.png")]%string.
Proof. eexists. split; [vm_compute; reflexivity|]. split; reflexivity. Qed.
(** More reference values than markers or colours: there is no plot.  There are
    seven default colours. *)
Theorem domain_many_references_refuted i o q nums folder dm rm rc k ext :
  let markers := match rm with Some l => l | None => dm end in
  let colors := match rc with Some l => l | None => default_colors end in
  (exists y, In y nums /\ y <> k) -> length markers < length q \/ length colors < length q ->
  forall figs, show_data_domain_multi (ODisc (Some i) (Some o)) (Some q) (Some nums) folder dm rm rc (SInt k) ext <> Ok figs.
Proof. exact (domain_many_one_lemma i o q nums folder dm rm rc k ext). Qed.
Print Assumptions domain_many_references_refuted.
Theorem domain_eight_references_refuted i o q nums folder dm rm k ext : 8 <= length q -> (exists y, In y nums /\ y <> k) ->
  forall figs, show_data_domain_multi (ODisc (Some i) (Some o)) (Some q) (Some nums) folder dm rm None (SInt k) ext <> Ok figs.
Proof. exact (domain_eight_lemma i o q nums folder dm rm k ext). Qed.
Print Assumptions domain_eight_references_refuted.
Example domain_many_example :
  length default_colors = 7 /\
  show_data_domain_multi (ex_disc 2 2) (Some (repeat (row 5 2) 8)) None "figs/" (repeat "o"%string 20) None None SNone ".png" = Raise PyIndexError.
Proof. split; reflexivity. Qed.
