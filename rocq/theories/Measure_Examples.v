(** Histories of inversions of the samples of Fits_Examples. *)
From Coq Require Import String ZArith List Arith Bool QArith Qcanon Lia.
From Verif Require Import Err Num Ext NumPy SampleSet_Model Disc_Model Disc_Examples Inverse_Model Inverse_Spec Density_Model Density_Spec Density_Proofs Density_Examples Fits_Model Fits_Spec Fits_Examples
  Measure_Model Measure_Spec.
Import RvSet_Model(EName, EPair, RName, RSeq, ROther).
Import ListNotations.
Local Open Scope nat_scope.

(** A fit: location and scale, and for "gamma" a shape; "student" has five numbers. *)
Definition simple_fit (s : string) (a : RvSet_Model.dict) (col : list Qc) : result (list Qc) :=
  Ok (if String.eqb s "gamma" then [1; qsum col; qn (length col)] else if String.eqb s "student" then [1; 1; 1; 1; 1] else [qsum col; qn (length col)])%Qc.
Definition first_disc : rdisc := fit_disc 2 in_points out_points out_labels seen seen_labels.
Definition other_seen : rset := r_obs (fit_disc 2 in_points out_points out_labels mixed_seen seen_labels).
Definition some_calls : list call :=
  [CKde; CRv (RSeq [EName "norm"]) 10; CObserve other_seen; CRv (RName "gamma") 10; CReject unequal; CRv (RName "student") 10; CRv ROther 10; CInvert].
Lemma first_ready P : 0 < P -> forall r, In r (r_obs first_disc :: observed_sets some_calls) ->
  exists oo zs mo, both_invertible window P 2 (observing r (fit_disc P in_points out_points out_labels seen seen_labels)) (observing r first_disc) 1 1 in_points out_points (Some out_labels) None oo zs mo.
Proof.
  intros HP r [<-|[<-|[]]].
  - exists 1, seen, (Some seen_labels), out_labels, seen_labels, p2, o2, 2. split; [exact (two_example P HP)|apply (two_example 2); lia].
  - exists 1, mixed_seen, (Some seen_labels), out_labels, seen_labels, mixed_p, mixed_o, 2. split; [exact (mixed_example P HP)|apply (mixed_example 2); lia].
Qed.
Lemma first_agree P : labels_agree (fit_disc P in_points out_points out_labels seen seen_labels) some_calls.
Proof. right. split; [left; discriminate|]. intros r [<-|[<-|[]]]; discriminate. Qed.

Definition show_entry (e : RvSet_Model.entry) : string * list (string * option Q) :=
  match e with EPair s a => (s, map (fun x => (fst x, match snd x with Fin q => Some (this q) | _ => None end)) a) | _ => (EmptyString, []) end.
Definition show_law (l : option law) : option (list (string * list (string * option Q))) := match l with Some (LRv es) => Some (map show_entry es) | _ => None end.

(** Outputs without labels and observations without labels, then with labels. *)
Definition bare_disc : rdisc := cluster_disc 2 true false in_points out_points None None seen None.
Definition labelled_seen : rset := r_obs first_disc.
Definition zeros (n : nat) : list Z := repeat 0%Z n.
Lemma bare_clusters n : n <> 0 -> clusters (zeros n) 1.
Proof. intros N. split; [intros l H; apply repeat_spec in H; subst l; lia|]. right. destruct n; [contradiction|]. left. reflexivity. Qed.
Lemma bare_inversion zs mo ms : length ms = length zs -> (mo = None \/ mo = Some ms) -> ms = zeros (length zs) -> 2 <= length (members (combine zs ms) 0) ->
  invertible window 2 (cluster_disc 2 true false in_points out_points None None zs mo) 1 1 in_points out_points None None 1 zs mo.
Proof.
  intros L O E T. exists (zeros 5), ms, (predicted out_points (zeros 5) None), (observed zs ms), 1. split; [lia|]. split; [split; [discriminate|]; split; [reflexivity|]; split; [each_point|]; split; [discriminate|]; split; [destruct O as [-> | ->]; [discriminate|intros m [= <-]; exact L]|discriminate]|].
  split; [unfold used_labels; rewrite E; destruct mo; reflexivity|]. split; [apply cluster_stores; left; reflexivity|]. split; [reflexivity|]. split; [|apply bare_clusters; discriminate].
  apply window_estimated. intros l H _. apply repeat_spec in H. subst l. split; [vm_compute; lia|exact T].
Qed.
Lemma bare_ready : invertible window 2 bare_disc 1 1 in_points out_points None None 1 seen None.
Proof. apply (bare_inversion seen None (zeros 5)); [reflexivity|left; reflexivity|reflexivity|vm_compute; lia]. Qed.
Lemma labelled_ready : invertible window 2 (observing labelled_seen bare_disc) 1 1 in_points out_points None None 1 seen (Some seen_labels).
Proof.
  exists (zeros 5), (zeros 5), (predicted out_points (zeros 5) None), (observed seen (zeros 5)), 1. split; [lia|].
  split; [split; [discriminate|]; split; [reflexivity|]; split; [each_point|]; split; [discriminate|]; split; [intros m [= <-]; reflexivity|discriminate]|].
  split; [reflexivity|]. split; [apply (cluster_stores 2 true false in_points out_points None None seen (Some seen_labels)); left; reflexivity|]. split; [reflexivity|]. split; [|apply bare_clusters; discriminate].
  apply window_estimated. intros l H _. apply repeat_spec in H. subst l. split; vm_compute; lia.
Qed.
Definition gmm_shares (l : option law) : option (list Q) := match l with Some (LGmm g) => Some (map this (gshares g)) | _ => None end.
Lemma labels_witness : exists gkde gkde1 fit P d r di o xs ys w oo zs oo' zs' ms',
  invertible gkde P d di o xs ys None w oo zs None /\ invertible gkde P (observing r d) di o xs ys None w oo' zs' (Some ms') /\
  m_law (run gkde gkde1 fit P [CInvert; CObserve r; CGmm] (mk_m d None None)) <> m_law (fst (alone gkde gkde1 fit P CGmm (observing r d))).
Proof.
  exists window, window1, simple_fit, 2, bare_disc, labelled_seen, 1, 1, in_points, out_points, None, 1, seen, 1, seen, seen_labels. split; [exact bare_ready|]. split; [exact labelled_ready|].
  intros E. apply (f_equal gmm_shares) in E. vm_compute in E. discriminate.
Qed.
(** A gap in the labels. *)
Definition gap_disc : rdisc := fit_disc 2 in_points out_points gap_labels seen gap_seen.
Definition show_w (s : mstate) : option (list (option Q)) := option_map show_x (sample_weights (r_in (m_disc s))).
