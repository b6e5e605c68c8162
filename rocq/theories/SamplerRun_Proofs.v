(** Proofs about samplers: sampling and computing in turn. *)
From Coq Require Import List Arith Bool Lia QArith Qcanon.
From Verif Require Import Err Num NumPy Lists SampleSet_Model SampleSet_Spec SampleSet_Proofs Prob_Model Disc_Model Sampling_Model Workflow_Model Workflow_Spec Workflow_Proofs Refs_Model Refs_Spec Refs_Proofs Sampler_Model Sampler_Spec Sampler_Proofs SamplerFill_Proofs.
Import ListNotations.
Local Open Scope nat_scope.
Local Open Scope sampler_scope.

(** ** Evaluating compute *)
Lemma write_id {A} : forall (l : list A) a x, nth_error l a = Some x -> write l a x = l.
Proof. induction l as [|y l IH]; intros [|a] x E; cbn in *; try discriminate; [now injection E as -> |]. now rewrite IH. Qed.
Lemma write_write {A} : forall (l : list A) a x y, write (write l a x) a y = write l a y.
Proof. induction l as [|z l IH]; intros [|a] x y; cbn; auto. now rewrite IH. Qed.
Definition nums_check (P : nat) (out inp : sset cell) : result nat :=
  bind (check_num P out) (fun n => bind (check_num P inp) (fun m =>
    match glob out Values, glob inp Values with
    | Some _, Some _ => if n =? m then Ok m else Raise LengthNotMatching
    | _, _ => Ok m
    end)).
Lemma r_new_eq P (h : list (sset cell)) a o inp out : nth_error h a = Some inp -> nth_error h o = Some out ->
  r_new P h (Some a) (Some o) None None None None = (h, match nums_check P out inp with Ok _ => Ok (pair_disc a o) | Raise e => Raise e end).
Proof.
  intros Ea Eo. unfold r_new, r_check_nums, mbind, place, Refs_Model.get, lift, self, nums_check. cbn. rewrite Eo, Ea. cbn.
  destruct (check_num P out) as [n|]; cbn; [| reflexivity]. destruct (check_num P inp) as [m|]; cbn; [| reflexivity].
  destruct (glob out Values), (glob inp Values); cbn; try reflexivity. destruct (n =? m); reflexivity.
Qed.
Lemma sbind_ok {X Y} (m : SM X) (k : X -> SM Y) w w1 x : m w = (w1, Ok x) -> sbind m k w = k x w1.
Proof. intros E. unfold sbind. now rewrite E. Qed.
Lemma sbind_inv {X Y} (m : SM X) (k : X -> SM Y) w w2 y : sbind m k w = (w2, Ok y) -> exists w1 x, m w = (w1, Ok x) /\ k x w1 = (w2, Ok y).
Proof. unfold sbind. destruct (m w) as [w1 [x|e]]; [eauto | discriminate]. Qed.
Lemma on_set_at a f w s : nth_error (w_sets w) a = Some s -> on_set a f w = (with_sets (write (w_sets w) a (fst (f s))) w, snd (f s)).
Proof. intros E. unfold on_set. rewrite E. now destruct (f s). Qed.
Lemma s_compute_eq model P inp g w a s s1 bs out s2 out1 :
  match inp with Some b => Some b | None => s_in w end = Some a -> nth_error (w_sets w) a = Some s -> localized P s = Ok s1 -> loc_values s1 = Ok bs ->
  out_set model bs = Ok out -> globalized g s1 = (s2, Ok tt) -> (if g then local_to_global out else Ok out) = Ok out1 ->
  s_compute model P inp g w =
    let h := write (w_sets w) a s2 ++ [out1] in
    let o := length (w_sets w) in
    match nums_check P out1 s2 with
    | Ok _ => (mk_swork h (w_discs w ++ [pair_disc a o]) (Some a) (Some (length (w_discs w))), Ok (length (w_discs w)))
    | Raise e => (mk_swork h (w_discs w) (Some a) (s_disc w), Raise e)
    end.
Proof.
  intros Ei En El Ev Eo Eg Eg1.
  assert (Hin : (match inp with Some b => modify (with_s_in (Some b)) | None => sret tt end) w = (with_s_in (Some a) w, Ok tt)).
  { destruct inp as [b|]; [injection Ei as ->; reflexivity |]. cbn. unfold sret, with_s_in. rewrite <- Ei. destruct w; reflexivity. }
  assert (La : a < length (w_sets w)) by (apply nth_error_Some; congruence).
  set (w1 := with_s_in (Some a) w) in *. set (w2 := with_sets (write (w_sets w) a s1) w1).
  assert (E2 : nth_error (w_sets w2) a = Some s1) by (cbn; now apply write_same).
  assert (Ea : nth_error (write (w_sets w) a s2 ++ [out1]) a = Some s2) by (rewrite nth_error_app1 by (rewrite write_length; lia); now apply write_same).
  assert (Eo1 : nth_error (write (w_sets w) a s2 ++ [out1]) (length (w_sets w)) = Some out1).
  { rewrite nth_error_app2 by (rewrite write_length; lia). rewrite write_length, Nat.sub_diag. reflexivity. }
  unfold s_compute. rewrite (sbind_ok _ _ _ _ _ Hin). rewrite (sbind_ok (the s_in) _ w1 w1 a eq_refl).
  rewrite (sbind_ok _ _ w1 w2 tt); [| unfold on_set_ok; rewrite (on_set_at _ _ w1 s En), El; reflexivity].
  rewrite (sbind_ok _ _ w2 w2 s1) by (unfold sget; rewrite E2; reflexivity).
  unfold slift. rewrite (sbind_ok _ _ w2 w2 bs) by (now rewrite Ev). rewrite (sbind_ok _ _ w2 w2 out) by (now rewrite Eo).
  rewrite (sbind_ok _ _ w2 (with_sets (write (w_sets w) a s2) w1) tt).
  2: { rewrite (on_set_at _ _ w2 s1 E2), Eg. cbn. now rewrite write_write. }
  set (w3 := with_sets (write (w_sets w) a s2) w1). rewrite (sbind_ok _ _ w3 w3 out1) by (now rewrite Eg1).
  rewrite (sbind_ok _ _ w3 (with_sets (write (w_sets w) a s2 ++ [out1]) w1) (length (w_sets w))).
  2: { unfold new_set. cbn [w3 with_sets w_sets]. rewrite write_length. reflexivity. }
  unfold sbind. cbn [with_sets w_sets w1 with_s_in]. rewrite (r_new_eq P _ a (length (w_sets w)) s2 out1 Ea Eo1).
  destruct (nums_check P out1 s2); reflexivity.
Qed.
Lemma s_compute_ok model P inp g w w1 j : s_compute model P inp g w = (w1, Ok j) ->
  exists a s s1 bs out s2 out1, match inp with Some b => Some b | None => s_in w end = Some a /\ nth_error (w_sets w) a = Some s /\ localized P s = Ok s1 /\ loc_values s1 = Ok bs /\
  out_set model bs = Ok out /\ globalized g s1 = (s2, Ok tt) /\ (if g then local_to_global out else Ok out) = Ok out1.
Proof.
  intros E. assert (Hin : exists o, (match inp with Some b => modify (with_s_in (Some b)) | None => sret tt end) w = (with_s_in o w, Ok tt) /\ match inp with Some b => Some b | None => s_in w end = o).
  { destruct inp as [b|]; [eexists; split; reflexivity |]. exists (s_in w). split; [| reflexivity]. unfold sret, with_s_in. destruct w; reflexivity. }
  destruct Hin as (o & Hin & ->). unfold s_compute in E. rewrite (sbind_ok _ _ _ _ _ Hin) in E. set (w0 := with_s_in o w) in *.
  apply sbind_inv in E. destruct E as (w2 & a & E1 & E). unfold the in E1. injection E1 as <- E1. unfold need in E1. cbn in E1. destruct o as [a'|]; [| discriminate]. injection E1 as ->.
  apply sbind_inv in E. destruct E as (w3 & [] & E1 & E). unfold on_set_ok, on_set in E1. change (w_sets w0) with (w_sets w) in E1.
  destruct (nth_error (w_sets w) a) as [s|] eqn:En; [| discriminate].
  assert (La : a < length (w_sets w)) by (apply nth_error_Some; congruence).
  destruct (localized P s) as [s1|] eqn:El; [| discriminate]. injection E1 as <-.
  apply sbind_inv in E. destruct E as (w4 & s1' & E1 & E). unfold sget in E1. cbn [with_sets w_sets] in E1. rewrite write_same in E1 by exact La. injection E1 as <- <-.
  apply sbind_inv in E. destruct E as (w5 & bs & E1 & E). unfold slift in E1. injection E1 as <- Ev.
  apply sbind_inv in E. destruct E as (w6 & out & E1 & E). unfold slift in E1. injection E1 as <- Eo.
  apply sbind_inv in E. destruct E as (w7 & [] & E1 & E). unfold on_set in E1. cbn [with_sets w_sets] in E1. rewrite write_same in E1 by exact La.
  destruct (globalized g s1) as [s2 [[]|]] eqn:Eg; [| discriminate].
  apply sbind_inv in E. destruct E as (w8 & out1 & E2 & E). unfold slift in E2. injection E2 as <- Eg1.
  now exists a, s, s1, bs, out, s2, out1.
Qed.

(** ** Numbers of rows *)
Lemma num_local_sum P n : 0 < P -> list_sum (map (num_local P n) (seq 0 P)) = n.
Proof.
  intros HP. pose proof (split_sum (repeat tt n) P HP) as E. rewrite repeat_length in E. rewrite <- E at 2. f_equal. apply map_ext_in. intros r Hr.
  apply in_seq in Hr. rewrite array_split_nth_length by lia. rewrite repeat_length. reflexivity.
Qed.
Lemma concat_blocks_length {A B} (f : A -> list B) l : length (concat (map f l)) = list_sum (map (fun x => length (f x)) l).
Proof. induction l as [|x l IH]; [reflexivity |]. cbn. rewrite app_length. f_equal. exact IH. Qed.
Lemma random_rows P n draw d : 0 < P -> full_draws draw -> length (concat (map rows (random_blocks P n draw d))) = n.
Proof.
  intros HP F. unfold random_blocks. rewrite map_map. rewrite concat_blocks_length. transitivity (list_sum (map (num_local P n) (seq 0 P))); [| now apply num_local_sum]. f_equal. apply map_ext. intros r.
  cbn. now rewrite map_length, F.
Qed.
Lemma lhs_rows P dom H d n : 0 < P -> (forall r, length (H r) = n) -> length (concat (map rows (lhs_blocks P dom H d))) = n.
Proof.
  intros HP F. unfold lhs_blocks. rewrite map_map. rewrite concat_blocks_length. transitivity (list_sum (map (num_local P n) (seq 0 P))); [| now apply num_local_sum]. f_equal. apply map_ext_in. intros r Hr.
  apply in_seq in Hr. cbn. rewrite map_length, array_split_nth_length by lia. now rewrite map_length, F.
Qed.

(** ** Outputs *)
Lemma row_model_block d o f model b : row_model d o f model -> tail_shape b = [d] -> model b = mk_arr (map f (rows b)) [o].
Proof. intros M E. destruct b as [rs ts]. cbn in E. subst. apply M. Qed.
Lemma out_set_rows d o f model bs : row_model d o f model -> bs <> [] -> (forall b, In b bs -> tail_shape b = [d]) ->
  out_set model bs = Ok (set_loc Values (Some (map (fun b => mk_arr (map f (rows b)) [o]) bs)) (new_sset o)).
Proof.
  intros M N Sh. assert (E : map model bs = map (fun b => mk_arr (map f (rows b)) [o]) bs).
  { apply map_ext_in. intros b Hb. apply (row_model_block d); auto. }
  unfold out_set. rewrite E. destruct bs as [|b bs]; [congruence |]. cbn [map].
  assert (A1 : forall c, In c (map (fun b => mk_arr (map f (rows b)) [o]) (b :: bs)) -> tail_shape c = [o]).
  { intros c. rewrite in_map_iff. intros (b' & <- & _). reflexivity. }
  change (mk_arr (map f (rows b)) [o] :: map (fun b => mk_arr (map f (rows b)) [o]) bs) with (map (fun b => mk_arr (map f (rows b)) [o]) (b :: bs)).
  rewrite (proj2 (forallb_forall _ _)) by (intros c Hc; unfold output_dim at 1; rewrite (A1 c Hc); apply Nat.eqb_refl).
  replace (two_d (mk_arr (map f (rows b)) [o]) :: map two_d (map (fun b => mk_arr (map f (rows b)) [o]) bs)) with (map (fun b => mk_arr (map f (rows b)) [o]) (b :: bs)) by (symmetry; apply (two_d_same o _ A1)).
  unfold set_values_local. rewrite (proj2 (forallb_forall _ _)); [reflexivity |].
  intros c Hc. rewrite (A1 c Hc). cbn [new_sset dim output_dim tail_shape]. destruct (shape_eq_dec [o] [o]); congruence.
Qed.
Lemma outputs_rows o f bs : concat (map rows (outputs o f bs)) = map f (concat (map rows bs)).
Proof. unfold outputs. rewrite map_map. cbn. rewrite concat_map, map_map. reflexivity. Qed.
Lemma samples_count P d bs g s : 0 < P -> length bs = P -> only_samples d bs g nothing s ->
  check_num P s = Ok (length (concat (map rows bs))).
Proof.
  intros HP Lb (D & L & G & K & W). destruct g.
  - unfold check_num, check_width, all_attrs. cbn [map]. rewrite !G. cbn. rewrite D, Nat.eqb_refl. reflexivity.
  - rewrite (check_num_locals_only P s (fun r => length (nth r (map rows bs) []))).
    + rewrite concat_blocks_length. replace (seq 0 P) with (seq 0 (length (map rows bs))) by (rewrite map_length; congruence).
      rewrite <- (map_map (fun r => nth r (map rows bs) []) (@length cell)). rewrite nth_all, map_map. reflexivity.
    + intros a. rewrite G. destruct (attr_eq_dec a Values); reflexivity.
    + intros r Hr. split.
      * destruct (nth_error bs r) as [b|] eqn:E; [| apply nth_error_None in E; lia]. exists Values, bs, b. rewrite L. auto.
      * intros a bs' b La E. rewrite L in La. destruct (attr_eq_dec a Values); [| discriminate]. injection La as <-.
        symmetry. f_equal. apply nth_error_nth. now rewrite nth_error_map, E.
Qed.
Lemma out_set_samples o bs : only_samples o bs false nothing (set_loc Values (Some bs) (new_sset o)).
Proof.
  split; [reflexivity |]. split; [| split; [| split; reflexivity]]; intros a; cbn; unfold upd; destruct (attr_eq_dec a Values); reflexivity.
Qed.
Lemma samples_l2g d bs g extra s : bs <> [] -> (forall b, In b bs -> tail_shape b = [d]) -> only_samples d bs g extra s ->
  exists s1, local_to_global s = Ok s1 /\ only_samples d bs true extra s1 /\ domain s1 = domain s /\ local_index s1 = local_index s.
Proof.
  intros N Sh (D & L & G & K & W). destruct (globalized_samples s bs d true extra D N Sh L) as (s1 & E & O & Dm); auto.
  - intros a n. rewrite G. destruct (attr_eq_dec a Values); congruence.
  - unfold globalized in E. destruct (local_to_global s) as [t|] eqn:El; [| discriminate]. injection E as ->. exists s1. split; auto. split; auto. split; auto.
    now destruct (local_to_global_spec s s1 El) as (_ & _ & D3 & _).
Qed.
Lemma samples_globalized d bs g g' extra s : bs <> [] -> (forall b, In b bs -> tail_shape b = [d]) -> only_samples d bs g extra s ->
  exists s1, globalized g' s = (s1, Ok tt) /\ only_samples d bs g' extra s1 /\ domain s1 = domain s.
Proof.
  intros N Sh (D & L & G & K & W). apply globalized_samples; auto. intros a n. rewrite G. destruct (attr_eq_dec a Values); congruence.
Qed.

(** Models that return one-dimensional arrays *)
Lemma out_set_column model model' bs : (forall x, column_of (model x) (model' x)) -> out_set model bs = out_set model' bs.
Proof.
  intros H. unfold out_set. cbv zeta. destruct (column_outputs model model' bs H) as (T & D). destruct bs as [|b bs]; [reflexivity|].
  assert (D0 : output_dim (model b) = output_dim (model' b)) by (cbn [map] in D; congruence).
  assert (F : forallb (fun c => output_dim c =? output_dim (model b)) (map model (b :: bs)) = forallb (fun c => output_dim c =? output_dim (model' b)) (map model' (b :: bs))).
  { rewrite <- D0, <- !(forallb_map output_dim (fun n => n =? output_dim (model b))), D. reflexivity. }
  cbn [map] in F, T |- *. rewrite F, D0, T. reflexivity.
Qed.
Lemma sbind_ext {X Y} (m : SM X) (k k' : X -> SM Y) w : (forall x w1, k x w1 = k' x w1) -> sbind m k w = sbind m k' w.
Proof. intros H. unfold sbind. destruct (m w) as [w1 [x|e]]; [apply H|reflexivity]. Qed.
Lemma compute_column_lemma : forall model model' P inp g w, (forall x, column_of (model x) (model' x)) -> s_compute model P inp g w = s_compute model' P inp g w.
Proof.
  intros model model' P inp g w H. unfold s_compute. do 5 (apply sbind_ext; intros). rewrite (out_set_column model model' _ H). reflexivity.
Qed.
