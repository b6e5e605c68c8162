From Coq Require Import List Arith Lia Bool QArith Qcanon.
From Verif Require Import Err Num Ext Lists Query_Model Query_Spec Query_Proofs SelfQuery_Spec.
Import ListNotations.
Local Open Scope nat_scope.

Lemma rect_setup_iff_lemma d mx mn :
  ((exists s, rect_setup d mx mn = Ok s) <-> length mx = length mn /\ rows_have d mx /\ rows_have d mn) /\
  (forall e, rect_setup d mx mn = Raise e -> e = LengthNotMatching).
Proof.
  split; [split|].
  - intros (s & H). destruct (rect_setup_ok _ _ _ _ H) as (_ & _ & _ & L & _ & A & B). split; [exact L | split; [exact A | exact B]].
  - intros (L & A & B). unfold rect_setup. rewrite L, Nat.eqb_refl. cbn [negb].
    replace (forallb _ _) with true; [eexists; reflexivity|]. symmetry. apply forallb_forall. intros [a b] I. cbn [fst snd].
    rewrite (A a) by (eapply in_combine_l; exact I). rewrite (B b) by (eapply in_combine_r; exact I). rewrite Nat.eqb_refl. reflexivity.
  - intros e. unfold rect_setup. destruct (negb (length mx =? length mn)); [congruence|]. destruct (negb _); congruence.
Qed.
Lemma ball_setup_iff_lemma d cs rs :
  ((exists s, ball_setup d cs rs = Ok s) <-> length cs = length rs /\ rows_have d cs) /\
  (forall e, ball_setup d cs rs = Raise e -> e = LengthNotMatching).
Proof.
  split; [split|].
  - intros (s & H). unfold ball_setup in H. destruct (Nat.eqb_spec (length cs) (length rs)) as [L|]; [|discriminate]. cbn [negb] in H.
    destruct (forallb _ _) eqn:F; [|discriminate]. split; [exact L|]. intros r I. rewrite forallb_forall in F. apply Nat.eqb_eq, F, I.
  - intros (L & A). unfold ball_setup. rewrite L, Nat.eqb_refl. cbn [negb].
    replace (forallb _ _) with true; [eexists; reflexivity|]. symmetry. apply forallb_forall. intros c I. apply Nat.eqb_eq, A, I.
  - intros e. unfold ball_setup. destruct (negb (length cs =? length rs)); [congruence|]. destruct (negb _); congruence.
Qed.
Lemma midpoint_middle l r : length l = length r -> exists v, midpoint r l = map Fin v /\ middle_of l r v.
Proof.
  intro L. exists (map (fun p => (Q2Qc (1 # 2) * (fst p + snd p))%Qc) (combine r l)). split; [unfold midpoint; rewrite map_map; reflexivity|].
  unfold middle_of. rewrite map_length, combine_length. split; [lia|]. split; [lia|].
  intros j a b c Ha Hb Hc. rewrite nth_error_map_eq, nth_error_combine, Ha, Hb in Hc. cbn in Hc. assert (c = (Q2Qc (1 # 2) * (b + a))%Qc) as -> by congruence. qc_lra.
Qed.
Lemma rect_values_lemma d mx mn s : rect_setup d mx mn = Ok s ->
  stored_rows d (rvalues s) (length mx) PInf (fun i v => exists l r, nth_error mn i = Some l /\ nth_error mx i = Some r /\ middle_of l r v).
Proof.
  intro H. destruct (rect_setup_ok _ _ _ _ H) as (_ & _ & _ & L & _ & A & B).
  assert (rvalues s = map (fun p => midpoint (fst p) (snd p)) (combine mx mn) ++ [repeat PInf d]) as V.
  { unfold rect_setup in H. destruct (negb (length mx =? length mn)); [discriminate|]. destruct (negb _); [discriminate|]. injection H as <-. reflexivity. }
  rewrite V. assert (length (map (fun p : point * point => midpoint (fst p) (snd p)) (combine mx mn)) = length mx) as LM by (rewrite map_length, combine_length; lia).
  split; [rewrite app_length, LM; cbn [length]; lia|]. split.
  - rewrite nth_error_app2 by lia. rewrite LM, Nat.sub_diag. reflexivity.
  - intros i Hi. destruct (nth_error mx i) as [r|] eqn:Er; [|apply nth_error_None in Er; lia].
    destruct (nth_error mn i) as [l|] eqn:El; [|apply nth_error_None in El; lia].
    rewrite nth_error_app1 by lia. rewrite nth_error_map_eq, nth_error_combine, Er, El. cbn -[midpoint].
    destruct (midpoint_middle l r) as (v & E & M); [rewrite (A r), (B l) by (eapply nth_error_In; eassumption); reflexivity|].
    exists v. rewrite E. split; [reflexivity|]. exists l, r. split; [reflexivity | split; [reflexivity | exact M]].
Qed.
Lemma ball_values_lemma d cs rs s : ball_setup d cs rs = Ok s ->
  stored_rows d (bvalues s) (length cs) NaN (fun i v => nth_error cs i = Some v).
Proof.
  intro H. assert (bvalues s = map (map Fin) cs ++ [repeat NaN d]) as V.
  { unfold ball_setup in H. destruct (negb (length cs =? length rs)); [discriminate|]. destruct (negb _); [discriminate|]. injection H as <-. reflexivity. }
  rewrite V. split; [rewrite app_length, map_length; cbn [length]; lia|]. split.
  - rewrite nth_error_app2, map_length, Nat.sub_diag by (rewrite map_length; lia). reflexivity.
  - intros i Hi. destruct (nth_error cs i) as [c|] eqn:Ec; [|apply nth_error_None in Ec; lia]. exists c.
    rewrite nth_error_app1, nth_error_map_eq, Ec by (rewrite map_length; lia). split; reflexivity.
Qed.
Lemma cell_answer_only n (contains : nat -> Prop) i a dist : i < n -> contains i -> (forall j, contains j -> j = i) -> cell_answer n contains a dist -> a = i /\ dist = Fin 0%Qc.
Proof.
  intros Hi Ci U [[(Ha & Ca & _) Hd]|(-> & _ & N)].
  - split; [apply U, Ca | exact Hd].
  - exfalso. apply (N i Hi Ci).
Qed.
Lemma middle_in_box l r v : middle_of l r v -> has_width l r -> in_box v l r.
Proof.
  intros (L1 & L2 & M) W. split; [exact L1|]. split; [exact L2|]. intros j a x y Ha Hx Hy.
  specialize (M j x y a Hx Hy Ha). specialize (W j x y Hx Hy). split; qc_lra.
Qed.
Lemma rect_self_lemma d mx mn s i l r : rect_setup d mx mn = Ok s -> nth_error mn i = Some l -> nth_error mx i = Some r ->
  has_width l r -> no_overlap d (box_contains mn mx) ->
  exists v, nth_error (rvalues s) i = Some (map Fin v) /\ rect_query s v 1 = Ok [(i, Fin 0%Qc)].
Proof.
  intros H Hl Hr W N. destruct (rect_values_lemma d mx mn s H) as (_ & _ & V).
  assert (i < length mx) as Hi by (apply nth_error_Some; rewrite Hr; discriminate).
  destruct (V i Hi) as (v & Ev & l' & r' & Hl' & Hr' & M). assert (l' = l) as -> by (assert (Some l' = Some l) by (etransitivity; [symmetry; exact Hl' | exact Hl]); congruence). assert (r' = r) as -> by (assert (Some r' = Some r) by (etransitivity; [symmetry; exact Hr' | exact Hr]); congruence).
  exists v. split; [exact Ev|]. destruct (rect_setup_ok _ _ _ _ H) as (_ & _ & _ & _ & _ & A & B).
  assert (length v = d) as Lv by (destruct M as (M & _); rewrite M; apply B; eapply nth_error_In; exact Hl).
  destruct (rect_query_first d mx mn s v H Lv) as (a & dist & -> & C).
  assert (box_contains mn mx v i) as Ci by (exists l, r; split; [exact Hl | split; [exact Hr | apply middle_in_box; assumption]]).
  destruct (cell_answer_only _ _ i a dist Hi Ci (fun j Cj => N v j i Lv Cj Ci) C) as [-> ->]. reflexivity.
Qed.
Lemma ball_self_lemma norm_lt d cs rs s i c r : ball_setup d cs rs = Ok s -> nth_error cs i = Some c -> nth_error rs i = Some r ->
  norm_lt (map (fun _ => 0%Qc) c) r = true -> no_overlap d (ball_contains (fun v r => norm_lt v r = true) cs rs) ->
  exists v, nth_error (bvalues s) i = Some (map Fin v) /\ ball_query norm_lt s v 1 = Ok [(i, Fin 0%Qc)].
Proof.
  intros H Hc Hr W N. destruct (ball_values_lemma d cs rs s H) as (_ & _ & V).
  assert (i < length cs) as Hi by (apply nth_error_Some; rewrite Hc; discriminate).
  destruct (V i Hi) as (v & Ev & Hv). assert (v = c) as -> by (assert (Some v = Some c) by (etransitivity; [symmetry; exact Hv | exact Hc]); congruence).
  exists c. split; [exact Ev|].
  assert (length c = d) as Lc by (apply (proj1 (proj1 (ball_setup_iff_lemma d cs rs)) (ex_intro _ s H)); eapply nth_error_In; exact Hc).
  destruct (ball_query_first norm_lt d cs rs s c H Lc) as (a & dist & -> & C).
  assert (ball_contains (fun v r => norm_lt v r = true) cs rs c i) as Ci.
  { exists c, r. split; [exact Hc|]. split; [exact Hr|]. rewrite <- W. f_equal. clear. induction c as [|x c IH]; [reflexivity|]. cbn [combine map fst snd]. f_equal; [ring | exact IH]. }
  destruct (cell_answer_only _ _ i a dist Hi Ci (fun j Cj => N c j i Lc Cj Ci) C) as [-> ->]. reflexivity.
Qed.
