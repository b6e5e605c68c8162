(** A problem on the line, and changes a user makes after the object was built. *)
From Coq Require Import List Arith Bool QArith Qcanon Lia.
From Verif Require Import Err Num Ext NumPy Lists SampleSet_Model SampleSet_Spec SampleSet_Proofs Prob_Model Disc_Model Disc_Spec Disc_Examples
  Workflow_Model Volume_Model Error_Model Error_Spec ErrorDisc_Model ErrorDisc_Spec ErrorDisc_Proofs ErrorDisc4_Proofs.
Import ListNotations.
Local Open Scope nat_scope.
Local Open Scope err_scope.

Definition eset (l : list Qc) (extra : attr -> option (arr cell)) : sset cell :=
  mk_sset 1 (fun a => match a with Values => Some (pts l) | _ => extra a end) (fun _ => None) None None None None.
Definition none_ (a : attr) : option (arr cell) := None.
Definition only (a0 : attr) (x : arr cell) (a : attr) : option (arr cell) := if attr_eq_dec a a0 then Some x else None.
Lemma eset_points P l extra : extra KdtreeValues = None -> (forall a x, extra a = Some x -> length (rows x) = length l) -> points_are P 1 (eset l extra) (map pt l).
Proof.
  intros K H. split; [|split; reflexivity]. rewrite map_length. split; [|split].
  - split; [|exists (pts l); split; reflexivity]. intros a x G. cbn in G. destruct a; try exact (H _ _ G). injection G as <-. cbn. apply map_length.
  - split; [left; reflexivity|left; exact K].
  - intros a bs E. discriminate.
Qed.
Lemma only_length a0 x (l : list Qc) : length (rows x) = length l -> forall a y, only a0 x a = Some y -> length (rows y) = length l.
Proof. intros H a y. unfold only. destruct (attr_eq_dec a a0); [intros [= <-]; exact H|discriminate]. Qed.

(** Three samples 0, 1, 2 with outputs 0, 3/4, 2; the output of the second has
    error 1/2 and moves to the other output cell.  The output cells are 0 and 2,
    with probabilities 3/4 and 1/4.  The region is the cell of 0 among 0 and 2. *)
Definition q_ (a : Z) (c : positive) : Qc := Q2Qc (a # c).
Definition xs_ : list Qc := [0; 1; q_ 2 1]%Qc.
Definition zs_ : list Qc := [0; q_ 3 4; q_ 2 1]%Qc.
Definition es_ : list Qc := [0; half; 0]%Qc.
Definition ys_ : list Qc := [0; q_ 2 1]%Qc.
Definition ps_ : list Qc := [q_ 3 4; quarter].
Definition vs_ : list Qc := [half; quarter; quarter].
Definition b_ (em : option (list Qc)) : problem :=
  mk_problem 1 1 (map pt xs_) (map (fun q => [q]) zs_) (map (fun q => [q]) es_) (map pt ys_) ps_ (option_map (map pt) em).
Definition out_ (e : list Qc) : sset cell := eset zs_ (only ErrorEstimates (pts e)).
Definition prob_ (y p : list Qc) : sset cell := eset y (only Probabilities (vec_arr p)).
Definition d_ (v : option (list Qc)) (em : option (list Qc)) : disc cell :=
  mk_disc (Some (eset xs_ (match v with Some v => only Volumes (vec_arr v) | None => none_ end))) (Some (out_ es_)) (Some (prob_ ys_ ps_))
    (option_map (fun l => eset l none_) em) None None None None None None None None.
Definition region_set : sset cell := eset ys_ (only Region (vec_arr [0; 1]%Qc)).
Definition about (em : option (list Qc)) : question :=
  Region_ region_set (map pt ys_) [0; 1]%Qc 0%Qc (option_map (fun l => (eset l none_, map pt l)) em).
Definition emu_ : list Qc := [0; half; q_ 3 2; q_ 2 1; q_ 5 2]%Qc.

Lemma b_posed em : em <> Some [] -> well_posed (b_ em).
Proof.
  intros N. split; [discriminate|]. split; [discriminate|]. do 2 (split; [reflexivity|]). split; [|split; [reflexivity|]].
  - cbn. intros z [H|H]; repeat (destruct H as [<-|H]; [reflexivity|]); contradiction.
  - destruct em as [[|a l]|]; cbn; congruence.
Qed.
Lemma d_holds P v em : match v with Some v => length v = 3 | None => True end -> holds_problem near P (b_ em) (d_ v em).
Proof.
  intros Lv. split; [|split; [|split; [|split]]].
  - eexists. split; [reflexivity|]. apply eset_points; destruct v; try reflexivity; [apply only_length; cbn; rewrite map_length; exact Lv|discriminate].
  - eexists. split; [reflexivity|]. split; [|reflexivity]. apply eset_points; [reflexivity|]. apply only_length. reflexivity.
  - eexists. split; [reflexivity|]. split; [|reflexivity]. apply eset_points; [reflexivity|]. apply only_length. reflexivity.
  - destruct em as [l|]; [|exact I]. cbn. apply eset_points; [reflexivity|discriminate].
  - split; [discriminate|]. split; discriminate.
Qed.
Lemma about_proper P em em0 : proper_question P (b_ em0) (about em).
Proof.
  split; [discriminate|]. split; [split; [|reflexivity]; apply eset_points; [reflexivity|]; apply only_length; reflexivity|].
  destruct em; [cbn|exact I]. apply eset_points; [reflexivity|discriminate].
Qed.
Lemma near_bound l x : l <> [] -> near l x < length l.
Proof.
  intros N. unfold near. rewrite <- (map_length (line_dist x) l). destruct (argmin_spec (map (line_dist x) l)) as (d & E & _); [destruct l; [contradiction|discriminate]|]. apply nth_error_Some. congruence.
Qed.

(** *** Changes after the object was built *)
Definition show_x (x : xnum) : option Q := match x with Fin q => Some (this q) | _ => None end.
Definition with_disc (f : disc cell -> disc cell) (m : model_error) : model_error := mk_merr (f (me_disc m)) (me_new m).
Definition set_vols (v : list Qc) (d : disc cell) : disc cell := with_in (option_map (set_glob Volumes (Some (vec_arr v))) (d_in d)) d.
Definition vols_of (d : disc cell) : option (list Qc) :=
  match d_in d with Some s => match glob s Volumes with Some x => match scalars (rows x) with Ok v => Some v | Raise _ => None end | None => None end | None => None end.
(** the cells in the other order *)
Definition prob_back : sset cell := prob_ (rev ys_) (rev ps_).
Definition vs2_ : list Qc := [quarter; half; quarter].

Definition m0_ : model_error := mk_merr (d_ None None) (d_ None None).
Definition built (d : disc cell) : model_error := get m0_ (new_model_error near 2 d).
Definition answered (m : model_error) : list xnum * model_error := get ([], m0_) (contour_errors near 2 m).
Lemma shown (l l' : list xnum) : map show_x l <> map show_x l' -> l <> l'.
Proof. intros N ->. apply N. reflexivity. Qed.

Definition m1_ : model_error := get m0_ (do m <- new_model_error near 2 (d_ (Some vs_) None) ; rmap snd (contour_errors near 2 m)).
Lemma m1_ok : (do m <- new_model_error near 2 (d_ (Some vs_) None) ; rmap snd (contour_errors near 2 m)) = Ok m1_.
Proof. apply get_ok. vm_compute. reflexivity. Qed.
Definition moved_ : list xnum * model_error := get ([], m0_) (pose near 2 (about (Some emu_)) (with_disc (set_vols vs2_) m1_)).
Lemma keeps_refuted_lemma : exists nn P d v q m1 m2 a,
  (do m <- new_model_error nn P d ; rmap snd (contour_errors nn P m)) = Ok m1 /\
  pose nn P q (with_disc (set_vols v) m1) = Ok (a, m2) /\
  vols_of (set_vols v (me_disc m1)) = Some v /\ vols_of (me_disc m2) <> Some v.
Proof.
  exists near, 2, (d_ (Some vs_) None), vs2_, (about (Some emu_)), m1_, (snd moved_), (fst moved_). split; [exact m1_ok|].
  split; [rewrite <- surjective_pairing; apply get_ok; vm_compute; reflexivity|]. split; [vm_compute; reflexivity|].
  intros E. apply (f_equal (option_map (map this))) in E. vm_compute in E. discriminate.
Qed.

Lemma done_ok (o : disc cell * option exn) : snd o = None -> done o = Ok (fst o).
Proof. unfold done. intros ->. reflexivity. Qed.

Definition d_later : disc cell := fst (set_emulated_input (eset emu_ none_) (me_disc (built (d_ None None)))).
Definition later_ : xnum * model_error := get (NaN, m0_) (do m' <- new_model_error near 2 d_later ; region_errors near 2 region_set 0%Qc None m').
Lemma emulated_refuted_lemma : exists nn P d e d1 m s region x m2,
  new_model_error nn P d = Ok m /\ done (set_emulated_input e (me_disc m)) = Ok d1 /\
  region_errors nn P s region None (mk_merr d1 (me_new m)) = Raise PyAttributeError /\
  (do m' <- new_model_error nn P d1 ; region_errors nn P s region None m') = Ok (x, m2).
Proof.
  exists near, 2, (d_ None None), (eset emu_ none_), d_later, (built (d_ None None)), region_set, 0%Qc, (fst later_), (snd later_).
  split; [apply get_ok; vm_compute; reflexivity|]. split; [apply done_ok; vm_compute; reflexivity|]. split; [vm_compute; reflexivity|]. rewrite <- surjective_pairing. apply get_ok. vm_compute. reflexivity.
Qed.

Definition d_back : disc cell := fst (set_probability near 2 prob_back (me_disc (built (d_ (Some vs_) None)))).
Lemma probability_refuted_lemma : exists nn P d pr d1 m r r' m1 m2,
  new_model_error nn P d = Ok m /\ done (set_probability nn P pr (me_disc m)) = Ok d1 /\
  contour_errors nn P (mk_merr d1 (me_new m)) = Ok (r, m1) /\
  (do m' <- new_model_error nn P d1 ; contour_errors nn P m') = Ok (r', m2) /\ r <> r'.
Proof.
  pose (old := answered (mk_merr d_back (me_new (built (d_ (Some vs_) None))))). pose (new := answered (built d_back)).
  exists near, 2, (d_ (Some vs_) None), prob_back, d_back, (built (d_ (Some vs_) None)), (fst old), (fst new), (snd old), (snd new).
  split; [apply get_ok; vm_compute; reflexivity|].
  split; [apply done_ok; vm_compute; reflexivity|].
  split; [rewrite <- surjective_pairing; apply get_ok; vm_compute; reflexivity|]. split.
  - rewrite <- surjective_pairing. assert (E : new_model_error near 2 d_back = Ok (built d_back)) by (apply get_ok; vm_compute; reflexivity). rewrite E. cbn [bind]. apply get_ok. vm_compute. reflexivity.
  - apply shown. vm_compute. discriminate.
Qed.

Lemma volumes_refuted_lemma : exists nn P b v v' d m1 r m2 r' m3,
  holds_problem nn P b d /\ stored_volumes d (Some v) /\
  (do m <- new_model_error nn P d ; rmap snd (contour_errors nn P m)) = Ok m1 /\
  contour_errors nn P (with_disc (set_vols v') m1) = Ok (r, m2) /\ r <> contour_answer nn b v' /\
  (do m' <- new_model_error nn P (set_vols v' (me_disc m1)) ; contour_errors nn P m') = Ok (r', m3) /\ r' <> contour_answer nn b v'.
Proof.
  pose (old := answered (with_disc (set_vols vs2_) m1_)). pose (new := answered (built (set_vols vs2_ (me_disc m1_)))).
  exists near, 2, (b_ None), vs_, vs2_, (d_ (Some vs_) None), m1_, (fst old), (snd old), (fst new), (snd new).
  split; [apply d_holds; reflexivity|]. split; [eexists; split; reflexivity|]. split; [exact m1_ok|].
  split; [rewrite <- surjective_pairing; apply get_ok; vm_compute; reflexivity|]. split; [apply shown; vm_compute; discriminate|]. split; [|apply shown; vm_compute; discriminate].
  rewrite <- surjective_pairing. assert (E : new_model_error near 2 (set_vols vs2_ (me_disc m1_)) = Ok (built (set_vols vs2_ (me_disc m1_)))) by (apply get_ok; vm_compute; reflexivity).
  rewrite E. cbn [bind]. apply get_ok. vm_compute. reflexivity.
Qed.
