From Coq Require Import List Arith Bool Lia Permutation Sorted QArith Qcanon.
From Verif Require Import Err Num Ext NumPy Lists Sampling_Model Sampling_Proofs Post_Model Post_Spec Post_Proofs Query_Proofs Inverse_Proofs SampleSet_Proofs Volume_Proofs Gradient_Proofs ChooseQoIs_Model ChooseQoIs_Spec.
Import ListNotations.
Local Open Scope nat_scope.
Local Open Scope err_scope.

(** ** order of extended numbers *)
Lemma xle_refl x : x <> NaN -> xleb x x = true.
Proof. destruct x; simpl; try reflexivity; [|congruence]. intros _. apply qleb_true, Qcle_refl. Qed.
Lemma xle_trans x y z : xleb x y = true -> xleb y z = true -> xleb x z = true.
Proof. destruct x, y, z; simpl; try reflexivity; try discriminate. rewrite !qleb_true. apply Qcle_trans. Qed.
Lemma xlt_le x y : xltb x y = true -> xleb x y = true.
Proof. destruct x, y; simpl; try reflexivity; try discriminate. rewrite negb_true_iff, qleb_false, qleb_true. apply Qclt_le_weak. Qed.
Lemma xnlt_le x y : x <> NaN -> y <> NaN -> xltb x y = false -> xleb y x = true.
Proof. destruct x, y; simpl; try reflexivity; try discriminate; try congruence. intros _ _ H. apply negb_false_iff in H. exact H. Qed.
Lemma xlt_nle x y : xltb x y = true -> xleb y x = false.
Proof. destruct x, y; simpl; try reflexivity; try discriminate. intro H. apply negb_true_iff in H. exact H. Qed.
Lemma xle_nlt x y : x <> NaN -> y <> NaN -> xleb x y = false -> xltb y x = true.
Proof. destruct x, y; simpl; try reflexivity; try discriminate; try congruence. intros _ _ H. apply negb_true_iff. exact H. Qed.
Lemma xlt_inf x y : xltb x y = true -> x <> PInf.
Proof. destruct x, y; simpl; congruence. Qed.
Lemma xle_inf x : x <> NaN -> xleb x PInf = true.
Proof. destruct x; simpl; congruence. Qed.
Lemma xinf_le x : xleb PInf x = true -> x = PInf.
Proof. destruct x; simpl; congruence. Qed.
Lemma xlt_inf_iff x : x <> NaN -> (xltb x PInf = true <-> x <> PInf).
Proof. destruct x; simpl; split; congruence. Qed.
Lemma xle_antisym x y : xleb x y = true -> xleb y x = true -> x = y.
Proof. destruct x, y; simpl; try reflexivity; try discriminate. rewrite !qleb_true. intros. f_equal. apply Qcle_antisym; assumption. Qed.
Lemma xeqb_iff x y : x <> NaN -> (xeqb x y = true <-> x = y).
Proof. intro N. split; [apply xeqb_true|]. intros <-. apply xeqb_refl. destruct x; simpl; congruence. Qed.

(** ** combinations *)
Lemma combs_length {A} : forall (l : list A) n c, In c (combs n l) -> length c = n.
Proof.
  induction l as [|x l IH]; intros [|n] c H; cbn [combs] in H.
  - destruct H as [<-|[]]; reflexivity.
  - contradiction.
  - destruct H as [<-|[]]; reflexivity.
  - apply in_app_or in H. destruct H as [H|H]; [|exact (IH _ _ H)]. apply in_map_iff in H. destruct H as (c' & <- & H). simpl. f_equal. exact (IH _ _ H).
Qed.
Lemma combs_incl {A} : forall (l : list A) n c, In c (combs n l) -> incl c l.
Proof.
  induction l as [|x l IH]; intros [|n] c H; cbn [combs] in H.
  - destruct H as [<-|[]]; intros y Hy; exact Hy.
  - contradiction.
  - destruct H as [<-|[]]; intros y [].
  - apply in_app_or in H. destruct H as [H|H].
    + apply in_map_iff in H. destruct H as (c' & <- & H). intros y [<-|Hy]; [left; reflexivity | right; exact (IH _ _ H y Hy)].
    + intros y Hy. right. exact (IH _ _ H y Hy).
Qed.
Lemma combs_nodup_in {A} : forall (l : list A) n c, NoDup l -> In c (combs n l) -> NoDup c.
Proof.
  induction l as [|x l IH]; intros [|n] c N H; cbn [combs] in H.
  - destruct H as [<-|[]]; constructor.
  - contradiction.
  - destruct H as [<-|[]]; constructor.
  - inversion N; subst. apply in_app_or in H. destruct H as [H|H]; [|exact (IH _ _ H3 H)].
    apply in_map_iff in H. destruct H as (c' & <- & H). constructor; [|exact (IH _ _ H3 H)]. intro I. apply H2. exact (combs_incl _ _ _ H x I).
Qed.
Lemma combs_filter {A} (f : A -> bool) : forall l, In (filter f l) (combs (length (filter f l)) l).
Proof.
  induction l as [|x l IH]; [left; reflexivity|]. cbn [filter]. destruct (f x).
  - cbn [length combs]. apply in_or_app. left. apply in_map, IH.
  - destruct (length (filter f l)) eqn:E; cbn [combs].
    + left. destruct (filter f l); [reflexivity | discriminate].
    + apply in_or_app. right. exact IH.
Qed.
Definition mem (c : list nat) (x : nat) : bool := existsb (Nat.eqb x) c.
Lemma mem_true c x : mem c x = true <-> In x c.
Proof. unfold mem. rewrite existsb_exists. split; [intros (y & I & E); apply Nat.eqb_eq in E; subst; exact I | intro I; exists x; split; [exact I | apply Nat.eqb_refl]]. Qed.
Lemma mem_false c x : mem c x = false <-> ~ In x c.
Proof. rewrite <- mem_true. destruct (mem c x); split; congruence. Qed.
Lemma combs_is_filter : forall (l : list nat) n c, NoDup l -> In c (combs n l) -> c = filter (mem c) l.
Proof.
  induction l as [|x l IH]; intros [|n] c N H; cbn [combs] in H.
  - destruct H as [<-|[]]; reflexivity.
  - contradiction.
  - destruct H as [<-|[]]. symmetry. clear. induction (x :: l) as [|a m IH]; [reflexivity|exact IH].
  - inversion N; subst. apply in_app_or in H. destruct H as [H|H].
    + apply in_map_iff in H. destruct H as (c' & <- & H). cbn [filter]. replace (mem (x :: c') x) with true by (symmetry; apply mem_true; left; reflexivity). f_equal.
      rewrite (IH _ _ H3 H) at 1. apply filter_ext_in. intros y Hy. destruct (mem c' y) eqn:E; symmetry.
      * apply mem_true. right. apply mem_true, E.
      * apply mem_false. intros [<-|I]; [contradiction|]. apply mem_false in E. contradiction.
    + cbn [filter]. replace (mem c x) with false by (symmetry; apply mem_false; intro I; apply H2; exact (combs_incl _ _ _ H x I)). exact (IH _ _ H3 H).
Qed.
Lemma combs_perm_eq (l : list nat) n c c' : NoDup l -> In c (combs n l) -> In c' (combs n l) -> Permutation c c' -> c = c'.
Proof.
  intros N H H' P. transitivity (filter (mem c) l); [exact (combs_is_filter _ _ _ N H)|]. transitivity (filter (mem c') l); [|symmetry; exact (combs_is_filter _ _ _ N H')].
  apply filter_ext. intro x.
  destruct (mem c x) eqn:E; symmetry.
  - apply mem_true. apply (Permutation_in _ P). apply mem_true, E.
  - apply mem_false. intro I. apply mem_false in E. apply E. exact (Permutation_in _ (Permutation_sym P) I).
Qed.
Lemma combs_nodup {A} : forall (l : list A) n, NoDup l -> NoDup (combs n l).
Proof.
  induction l as [|x l IH]; intros [|n] N; cbn [combs].
  - constructor; [intros [] | constructor].
  - constructor.
  - constructor; [intros [] | constructor].
  - inversion N; subst. apply NoDup_app.
    + apply FinFun.Injective_map_NoDup; [intros a b E; congruence | apply IH; assumption].
    + apply IH; assumption.
    + intros c I J. apply in_map_iff in I. destruct I as (c' & <- & I). apply H1. exact (combs_incl _ _ _ J x (or_introl eq_refl)).
Qed.

(** ** sorting *)
Definition sorted_by {A} (key : A -> xnum) (l : list A) : Prop :=
  forall i j r s, i < j -> nth_error l i = Some r -> nth_error l j = Some s -> xleb (key r) (key s) = true.
Lemma fancy_sort {A} (key : A -> xnum) srt (l : list A) : good_sort srt -> (forall x, In x l -> key x <> NaN) ->
  exists l', fancy l (srt (map key l)) = Ok l' /\ Permutation l l' /\ sorted_by key l' /\
    forall B (m : list B), length m = length l -> exists m', fancy m (srt (map key l)) = Ok m' /\ Permutation (combine l m) (combine l' m') /\ length m' = length l'.
Proof.
  intros S N. destruct (S (map key l)) as [P Q]. set (p := srt (map key l)) in *. rewrite map_length in P.
  assert (B : forall i, In i p -> i < length l).
  { intros i I. apply (Permutation_in _ P) in I. apply in_seq in I. lia. }
  destruct (take_idx_some l p B) as [l' E]. destruct (take_idx_nth _ _ _ E) as [T1 T2].
  assert (Lp : length p = length l) by (rewrite (Permutation_length P); apply seq_length).
  exists l'. split; [unfold fancy; rewrite E; reflexivity|].
  assert (G : forall B (m : list B) d, length m = length l -> Permutation m (map (fun i => nth i m d) p)).
  { intros B0 m d Lm. rewrite <- (map_nth_seq d m) at 1. rewrite Lm. apply Permutation_map. symmetry. exact P. }
  split; [|split].
  - destruct l as [|d l0] eqn:El.
    + assert (p = []) by (destruct p; [reflexivity | discriminate]). assert (l' = []) by (destruct l'; [reflexivity | rewrite H in T1; discriminate]). subst. constructor.
    + rewrite <- El in *. rewrite (take_idx_spec l p B d) in E. injection E as <-. apply (G _ l d eq_refl).
  - intros i j r s Hij Hi Hj.
    assert (Li : i < length p) by (rewrite <- T1; apply nth_error_Some; congruence). assert (Lj : j < length p) by (rewrite <- T1; apply nth_error_Some; congruence).
    destruct (nth_error p i) as [a|] eqn:Ea; [|apply nth_error_None in Ea; lia]. destruct (nth_error p j) as [b|] eqn:Eb; [|apply nth_error_None in Eb; lia].
    rewrite (T2 _ _ Ea) in Hi. rewrite (T2 _ _ Eb) in Hj.
    apply before_le; [apply N; exact (nth_error_In _ _ Hi) | apply N; exact (nth_error_In _ _ Hj)|].
    apply (Q i j a b); [exact Hij | exact Ea | exact Eb | rewrite nth_error_map, Hi; reflexivity | rewrite nth_error_map, Hj; reflexivity].
  - intros B0 m Lm.
    assert (B' : forall i, In i p -> i < length m) by (intros i I; rewrite Lm; exact (B i I)).
    destruct (take_idx_some m p B') as [m' E']. destruct (take_idx_nth _ _ _ E') as [T1' _]. exists m'. split; [unfold fancy; rewrite E'; reflexivity|]. split; [|lia].
    destruct l as [|d l0] eqn:El.
    + destruct l'; [constructor|]. simpl in T1. destruct p; discriminate.
    + rewrite <- El in *. destruct m as [|dm m0] eqn:Em; [subst; discriminate|]. rewrite <- Em in *.
      rewrite (take_idx_spec l p B d) in E. injection E as <-. rewrite (take_idx_spec m p B' dm) in E'. injection E' as <-.
      assert (Z : combine (map (fun i => nth i l d) p) (map (fun i => nth i m dm) p) = map (fun i => nth i (combine l m) (d, dm)) p).
      { rewrite combine_maps. apply map_ext. intro i. rewrite combine_nth by congruence. reflexivity. }
      rewrite Z. apply G. rewrite combine_length, Lm. apply Nat.min_id.
Qed.

(** ** the table of the best rows *)
Lemma filter_le {A} (f : A -> bool) l : length (filter f l) <= length l.
Proof. induction l as [|x l IH]; simpl; [lia|]. destruct (f x); simpl; lia. Qed.
Lemma filter_all {A} (f : A -> bool) l : (forall x, In x l -> f x = true) -> filter f l = l.
Proof. induction l as [|x l IH]; intro H; [reflexivity|]. simpl. rewrite (H x (or_introl eq_refl)). f_equal. apply IH. intros; apply H; right; assumption. Qed.
Lemma filter_nothing {A} (f : A -> bool) l : (forall x, In x l -> f x = false) -> filter f l = [].
Proof. induction l as [|x l IH]; intro H; [reflexivity|]. simpl. rewrite (H x (or_introl eq_refl)). apply IH. intros; apply H; right; assumption. Qed.
Definition somes {A} (l : list (option A)) : list A := flat_map (fun x => match x with Some c => [c] | None => [] end) l.
Lemma somes_in {A} (l : list (option A)) c : In c (somes l) <-> In (Some c) l.
Proof.
  unfold somes. rewrite in_flat_map. split.
  - intros (x & I & J). destruct x as [d|]; [destruct J as [<-|[]]; exact I | destruct J].
  - intro I. exists (Some c). split; [exact I | left; reflexivity].
Qed.
Lemma somes_app {A} (l m : list (option A)) : somes (l ++ m) = somes l ++ somes m.
Proof. apply flat_map_app. Qed.
Lemma somes_perm {A} (l m : list (option A)) : Permutation l m -> Permutation (somes l) (somes m).
Proof. apply Permutation_flat_map. Qed.

Section Table.
Context {A : Type} (key : A -> xnum) (g : option (list nat) -> A) (mu : list nat -> xnum).
Hypothesis key_none : key (g None) = PInf.
Hypothesis key_some : forall c, key (g (Some c)) = mu c.
Hypothesis mu_num : forall c, mu c <> NaN.

Definition Inv (k : nat) (seen : list (list nat)) (t : list A) : Prop :=
  exists tags dropped, t = map g tags /\ Permutation seen (somes tags ++ dropped) /\ length tags = k /\ sorted_by key t /\
    (forall c, In (Some c) tags -> mu c <> PInf) /\ (forall d r, In d dropped -> In r t -> xleb (key r) (mu d) = true).

Lemma key_num x : key (g x) <> NaN.
Proof. destruct x; [rewrite key_some; apply mu_num | rewrite key_none; discriminate]. Qed.
Lemma inv_init k : Inv k [] (repeat (g None) k).
Proof.
  exists (repeat None k), []. rewrite repeat_length. repeat split.
  - induction k as [|k IH]; [reflexivity | simpl; f_equal; exact IH].
  - rewrite app_nil_r. replace (somes (repeat None k)) with (@nil (list nat)); [constructor|]. induction k; [reflexivity | exact IHk].
  - intros i j r s _ Hi Hj. apply nth_error_In, repeat_spec in Hi. apply nth_error_In, repeat_spec in Hj. subst. rewrite key_none. reflexivity.
  - intros c I. apply repeat_spec in I. discriminate.
  - intros d r [].
Qed.
Lemma sorted_le_last t x r : sorted_by key (t ++ [x]) -> In r t -> xleb (key r) (key x) = true.
Proof.
  intros S I. destruct (In_nth_error _ _ I) as [i Hi]. assert (L : i < length t) by (apply nth_error_Some; congruence).
  apply (S i (length t)); [exact L | rewrite nth_error_app1 by exact L; exact Hi |]. rewrite nth_error_app2, Nat.sub_diag by lia. reflexivity.
Qed.
Lemma inv_insert k seen t0 x c t' : Inv k seen (t0 ++ [x]) -> xltb (mu c) (key x) = true ->
  Permutation (t0 ++ [g (Some c)]) t' -> sorted_by key t' -> Inv k (seen ++ [c]) t'.
Proof.
  intros (tags & dropped & E & P & L & S & K & D) Hlt Pt St.
  destruct (map_eq_app _ _ _ _ (eq_sym E)) as (tags0 & tx & -> & E0 & Ex). destruct tx as [|y [|? ?]]; try discriminate. injection Ex as Ex. subst t0.
  rewrite <- (map_app g tags0 [Some c]) in Pt || change (map g tags0 ++ [g (Some c)]) with (map g tags0 ++ map g [Some c]) in Pt. rewrite <- map_app in Pt.
  apply Permutation_sym in Pt. destruct (Permutation_map_inv _ _ Pt) as (tags' & -> & Pt').
  exists tags', (somes [y] ++ dropped). repeat split.
  - rewrite somes_app in P.
    eapply Permutation_trans; [apply Permutation_app; [exact P | apply Permutation_refl]|].
    eapply Permutation_trans; [|apply Permutation_app; [apply somes_perm; exact Pt' | apply Permutation_refl]]. rewrite somes_app. change (somes [Some c]) with [c].
    rewrite <- !app_assoc. apply Permutation_app_head. rewrite (app_assoc (somes [y])). apply Permutation_app_comm.
  - rewrite <- (Permutation_length Pt'). rewrite app_length in *. exact L.
  - exact St.
  - intros d I. apply (Permutation_in _ (Permutation_sym Pt')) in I. apply in_app_or in I. destruct I as [I|[I|[]]].
    + apply K. apply in_or_app. left. exact I.
    + injection I as <-. exact (xlt_inf _ _ Hlt).
  - intros d r Id Ir.
    assert (Hr : In r (map g tags0) \/ r = g (Some c)).
    { apply (Permutation_in _ Pt) in Ir. rewrite map_app in Ir. apply in_app_or in Ir. destruct Ir as [Ir|[Ir|[]]]; [left; exact Ir | right; symmetry; exact Ir]. }
    apply in_app_or in Id. destruct Id as [Id|Id].
    + apply somes_in in Id. destruct Id as [->|[]].
      assert (Z : key x = mu d) by (rewrite <- Ex; apply key_some). rewrite <- Z. destruct Hr as [Hr| ->].
      * exact (sorted_le_last _ _ _ S Hr).
      * rewrite key_some. apply xlt_le, Hlt.
    + destruct Hr as [Hr| ->].
      * apply D; [exact Id | apply in_or_app; left; exact Hr].
      * rewrite key_some. eapply xle_trans; [apply xlt_le, Hlt|]. apply D; [exact Id | apply in_or_app; right; left; reflexivity].
Qed.
Lemma inv_skip k seen t0 x c : Inv k seen (t0 ++ [x]) -> xltb (mu c) (key x) = false -> Inv k (seen ++ [c]) (t0 ++ [x]).
Proof.
  intros (tags & dropped & E & P & L & S & K & D) Hlt. exists tags, (c :: dropped). split; [exact E|]. split; [|split; [exact L | split; [exact S | split; [exact K|]]]].
  - eapply Permutation_trans; [apply Permutation_app_comm|]. simpl. eapply Permutation_trans; [apply perm_skip; exact P | apply Permutation_middle].
  - intros d r [<-|Id] Ir; [|apply D; assumption].
    assert (Hx : xleb (key x) (mu c) = true).
    { apply xnlt_le; [apply mu_num | | exact Hlt]. assert (I : In x (map g tags)) by (rewrite <- E; apply in_or_app; right; left; reflexivity).
      apply in_map_iff in I. destruct I as (y & <- & _). apply key_num. }
    apply in_app_or in Ir. destruct Ir as [Ir|[<-|[]]]; [|exact Hx]. eapply xle_trans; [exact (sorted_le_last _ _ _ S Ir) | exact Hx].
Qed.

Lemma sorted_app l m a b : sorted_by key (l ++ m) -> In a l -> In b m -> xleb (key a) (key b) = true.
Proof.
  intros S I J. destruct (In_nth_error _ _ I) as [i Hi]. destruct (In_nth_error _ _ J) as [j Hj]. assert (L : i < length l) by (apply nth_error_Some; congruence).
  apply (S i (length l + j)); [lia | rewrite nth_error_app1 by exact L; exact Hi|]. rewrite nth_error_app2 by lia. replace (length l + j - length l) with j by lia. exact Hj.
Qed.
Lemma sorted_firstn l n : sorted_by key l -> sorted_by key (firstn n l).
Proof.
  intros S i j r s Hij Hi Hj. rewrite nth_error_firstn in Hi, Hj. destruct (i <? n); [|discriminate]. destruct (j <? n); [|discriminate]. exact (S i j r s Hij Hi Hj).
Qed.
(** k rows below v leave no room above v among the first k *)
Lemma first_k_le k t rest L v r : length t = k -> Permutation (t ++ rest) L -> sorted_by key L -> (forall x, In x L -> key x <> NaN) ->
  (forall x, In x t -> xleb (key x) v = true) -> v <> NaN -> In r (firstn k L) -> xleb (key r) v = true.
Proof.
  intros Lt P S N Ht Nv I. destruct (xleb (key r) v) eqn:E; [reflexivity|]. exfalso.
  assert (IL : In r L) by (rewrite <- (firstn_skipn k L); apply in_or_app; left; exact I).
  assert (Hv : xltb v (key r) = true) by (apply xle_nlt; [apply N; exact IL | exact Nv | exact E]).
  set (f := fun x => xleb (key x) v).
  assert (C1 : k <= length (filter f L)).
  { rewrite <- (Permutation_length (Permutation_filter' f _ _ P)), filter_app, app_length.
    replace (filter f t) with t; [lia|]. symmetry. apply filter_all. exact Ht. }
  destruct (In_nth_error _ _ I) as [p Hp]. assert (Lp : p < length (firstn k L)) by (apply nth_error_Some; congruence). rewrite firstn_length in Lp.
  rewrite nth_error_firstn in Hp. destruct (p <? k); [|discriminate].
  assert (C2 : length (filter f L) <= p).
  { rewrite <- (firstn_skipn p L), filter_app, app_length.
    replace (filter f (skipn p L)) with (@nil A).
    - simpl. rewrite Nat.add_0_r. etransitivity; [apply filter_le|]. rewrite firstn_length. lia.
    - symmetry. apply filter_nothing. intros x Ix. destruct (In_nth_error _ _ Ix) as [q Hq]. rewrite nth_error_skipn in Hq. unfold f.
      assert (Hrx : xleb (key r) (key x) = true).
      { destruct (Nat.eq_dec q 0) as [->|Nq].
        - rewrite Nat.add_0_r, Hp in Hq. injection Hq as <-. apply xle_refl, N, IL.
        - apply (S p (p + q)); [lia | exact Hp | exact Hq]. }
      destruct (xleb (key x) v) eqn:Ex; [|reflexivity]. rewrite (xle_trans _ _ _ Hrx Ex) in E. discriminate. }
  lia.
Qed.
Lemma inv_merge k blocks tables L : Forall2 (Inv k) blocks tables -> blocks <> [] -> Permutation (concat tables) L -> sorted_by key L ->
  Inv k (concat blocks) (firstn k L).
Proof.
  intros F NE PL SL.
  assert (H : exists tags dropped, concat tables = map g tags /\ Permutation (concat blocks) (somes tags ++ dropped) /\ k * length blocks = length tags /\
    (forall c, In (Some c) tags -> mu c <> PInf) /\
    (forall d, In d dropped -> exists t rest, length t = k /\ Permutation (t ++ rest) (concat tables) /\ forall r, In r t -> xleb (key r) (mu d) = true)).
  { clear NE PL SL. induction F as [|b t bs ts HI F IH].
    - exists [], []. repeat split; try constructor; try (simpl; lia); intros ? [].
    - destruct IH as (tags & dropped & E & P & Len & K & D). destruct HI as (tags1 & dropped1 & E1 & P1 & L1 & S1 & K1 & D1).
      exists (tags1 ++ tags), (dropped1 ++ dropped). cbn [concat]. rewrite map_app, <- E1, <- E. split; [reflexivity|]. split; [|split; [|split]].
      + rewrite somes_app. eapply Permutation_trans; [apply Permutation_app; [exact P1 | exact P]|].
        rewrite <- !app_assoc. apply Permutation_app_head. rewrite !app_assoc. apply Permutation_app_tail. apply Permutation_app_comm.
      + rewrite app_length. cbn [length]. lia.
      + intros c I. apply in_app_or in I. destruct I; auto.
      + intros d I. apply in_app_or in I. destruct I as [I|I].
        * exists t, (concat ts). split; [rewrite E1, map_length; exact L1|]. split; [apply Permutation_refl|]. intros r Hr. apply D1; assumption.
        * destruct (D d I) as (t2 & rest & Lt2 & Pt2 & Ht2). exists t2, (t ++ rest). split; [exact Lt2|]. split; [|exact Ht2].
          eapply Permutation_trans; [|apply Permutation_app_head; exact Pt2]. rewrite !app_assoc. apply Permutation_app_tail. apply Permutation_app_comm. }
  destruct H as (tags & dropped & E & P & Len & K & D). rewrite E in PL. apply Permutation_sym in PL. destruct (Permutation_map_inv _ _ PL) as (tags' & -> & Pt).
  assert (Lk : k <= length tags').
  { rewrite <- (Permutation_length Pt), <- Len. destruct blocks; [congruence|]. simpl. lia. }
  exists (firstn k tags'), (somes (skipn k tags') ++ dropped). split; [apply firstn_map|]. split; [|split; [rewrite firstn_length; lia | split; [apply sorted_firstn, SL | split]]].
  - rewrite app_assoc, <- somes_app, firstn_skipn. eapply Permutation_trans; [exact P|]. apply Permutation_app_tail, somes_perm, Pt.
  - intros c I. apply K. apply (Permutation_in _ (Permutation_sym Pt)). rewrite <- (firstn_skipn k tags'). apply in_or_app. left. exact I.
  - intros d r Id Ir. apply in_app_or in Id. destruct Id as [Id|Id].
    + apply somes_in in Id. apply (in_map g) in Id. rewrite <- key_some. rewrite <- (firstn_skipn k (map g tags')) in SL.
      apply (sorted_app _ _ _ _ SL); [exact Ir|]. rewrite <- skipn_map in Id || rewrite skipn_map. exact Id.
    + destruct (D d Id) as (t2 & rest & Lt2 & Pt2 & Ht2). apply (first_k_le k t2 rest (map g tags')).
      * exact Lt2.
      * eapply Permutation_trans; [exact Pt2|]. rewrite E. apply Permutation_sym, PL.
      * exact SL.
      * intros x Ix. apply in_map_iff in Ix. destruct Ix as (y & <- & _). apply key_num.
      * exact Ht2.
      * apply mu_num.
      * exact Ir.
Qed.
End Table.

Section Scan.
Context {V : Type} (v0 : V) (eval : list nat -> result (xnum * list V)) (srt : list xnum -> list nat).
Context (mu : list nat -> xnum) (sv : list nat -> list V) (nq msize : nat).
Hypothesis SRT : good_sort srt.
Hypothesis mu_num : forall c, mu c <> NaN.
Definition tag_row (x : option (list nat)) : row (V:=V) :=
  match x with Some c => mk_row (mu c) c (sv c) | None => mk_row PInf (repeat 0 nq) (repeat v0 msize) end.
Definition RInv := Inv r_m tag_row mu.

Lemma insert_inv k seen t c : 0 < k -> RInv k seen t -> exists t', insert srt t c (mu c, sv c) = Ok t' /\ RInv k (seen ++ [c]) t'.
Proof.
  intros Hk I. assert (Lt : length t = k) by (destruct I as (tags & d & -> & _ & L & _); rewrite map_length; exact L).
  destruct (exists_last (l := t)) as (t0 & x & ->); [intros ->; simpl in Lt; lia|].
  unfold insert. rewrite rev_unit, removelast_last. cbn [fst snd]. destruct (xltb (mu c) (r_m x)) eqn:E.
  - destruct (fancy_sort r_m srt (t0 ++ [mk_row (mu c) c (sv c)]) SRT) as (t' & Ft & Pt & St & _).
    { intros r Hr. apply in_app_or in Hr. destruct Hr as [Hr|[<-|[]]]; [|apply mu_num].
      destruct I as (tags & d & E' & _). assert (Hr' : In r (map tag_row tags)) by (rewrite <- E'; apply in_or_app; left; exact Hr).
      apply in_map_iff in Hr'. destruct Hr' as ([c'|] & <- & _); [apply mu_num | discriminate]. }
    exists t'. split; [exact Ft|]. apply (inv_insert r_m tag_row mu (fun c => eq_refl) k seen t0 x c t' I E Pt St).
  - exists (t0 ++ [x]). split; [reflexivity|]. apply (inv_skip r_m tag_row mu eq_refl (fun c => eq_refl) mu_num); assumption.
Qed.
Lemma scan_inv k items : 0 < k -> (forall c, In c items -> eval c = Ok (mu c, sv c)) -> forall seen t, RInv k seen t ->
  exists t', scan eval srt items t = Ok t' /\ RInv k (seen ++ items) t'.
Proof.
  intros Hk. induction items as [|c items IH]; intros HE seen t I; cbn [scan].
  - exists t. rewrite app_nil_r. split; [reflexivity | exact I].
  - rewrite (HE c (or_introl eq_refl)). cbn [bind]. destruct (insert_inv k seen t c Hk I) as (t1 & E1 & I1). rewrite E1. cbn [bind].
    destruct (IH (fun d Hd => HE d (or_intror Hd)) _ _ I1) as (t' & E & I'). exists t'. split; [exact E|]. rewrite <- app_assoc in I'. exact I'.
Qed.
Lemma scan_good_inv k tol items : 0 < k -> (forall c, In c items -> eval c = Ok (mu c, sv c)) -> forall seen gd t, RInv k seen t ->
  exists t', scan_good eval srt tol items (gd, t) = Ok (gd ++ filter (fun c => xltb (mu c) tol) items, t') /\ RInv k (seen ++ filter (fun c => xltb (mu c) tol) items) t'.
Proof.
  intros Hk. induction items as [|c items IH]; intros HE seen gd t I; cbn [scan_good].
  - exists t. cbn [filter]. rewrite !app_nil_r. split; [reflexivity | exact I].
  - rewrite (HE c (or_introl eq_refl)). cbn [bind fst snd filter]. destruct (xltb (mu c) tol).
    + destruct (insert_inv k seen t c Hk I) as (t1 & E1 & I1). rewrite E1. cbn [bind].
      destruct (IH (fun d Hd => HE d (or_intror Hd)) _ (gd ++ [c]) _ I1) as (t' & E & I'). exists t'. rewrite <- !app_assoc in *. split; [exact E | exact I'].
    + apply IH; [|exact I]. intros d Hd. apply HE. right. exact Hd.
Qed.
End Scan.

Lemma mapM_exists {A B} (f : A -> result B) (R : A -> B -> Prop) l : (forall x, In x l -> exists y, f x = Ok y /\ R x y) -> exists ys, mapM f l = Ok ys /\ Forall2 R l ys.
Proof.
  induction l as [|x l IH]; intro H; cbn [mapM].
  - exists []. split; [reflexivity | constructor].
  - destruct (H x (or_introl eq_refl)) as (y & E & Hy). destruct IH as (ys & E' & F); [intros; apply H; right; assumption|].
    exists (y :: ys). rewrite E. cbn [bind]. rewrite E'. split; [reflexivity | constructor; assumption].
Qed.
Definition pair_row {V} (r : row (V:=V)) : xnum * list nat := (r_m r, r_set r).
Definition tag_pair (mu : list nat -> xnum) (nq : nat) (x : option (list nat)) : xnum * list nat :=
  match x with Some c => (mu c, c) | None => (PInf, repeat 0 nq) end.
Lemma pair_inv {V} (v0 : V) mu sv nq msize k seen t : RInv v0 mu sv nq msize k seen t -> Inv fst (tag_pair mu nq) mu k seen (map pair_row t).
Proof.
  intros (tags & d & -> & P & L & S & K & D). exists tags, d. split; [|split; [exact P | split; [exact L | split; [|split; [exact K|]]]]].
  - rewrite map_map. apply map_ext. intros [c|]; reflexivity.
  - intros i j r s Hij Hi Hj. rewrite nth_error_map in Hi, Hj. destruct (nth_error (map (tag_row v0 mu sv nq msize) tags) i) as [a|] eqn:Ea; [|discriminate].
    destruct (nth_error (map (tag_row v0 mu sv nq msize) tags) j) as [b|] eqn:Eb; [|discriminate]. injection Hi as <-. injection Hj as <-. exact (S i j a b Hij Ea Eb).
  - intros e r Ie Ir. apply in_map_iff in Ir. destruct Ir as (x & <- & Ix). exact (D e x Ie Ix).
Qed.

(** ** the tensor of one process survives the reshape *)
Lemma flat_tensor_nth {V} (v0 : V) msize slices a t : a < msize -> t < length slices -> nth (a * length slices + t) (flat_tensor v0 msize slices) v0 = nth a (nth t slices []) v0.
Proof.
  intros Ha Ht. apply nth_error_nth. unfold flat_tensor.
  assert (G : forall n s, a < n -> nth_error (flat_map (fun a => map (fun s => nth a s v0) slices) (seq s n)) (a * length slices + t) = Some (nth (s + a) (nth t slices []) v0)).
  { clear Ha. induction a as [|a IH]; intros [|n] s Hn; try lia; cbn [seq flat_map].
    - rewrite nth_error_app1 by (rewrite map_length; simpl; lia). simpl (0 * _ + t). rewrite nth_error_map, (nth_error_nth' slices []) by exact Ht. rewrite Nat.add_0_r. reflexivity.
    - rewrite nth_error_app2 by (rewrite map_length; simpl; lia). rewrite map_length. replace (S a * length slices + t - length slices) with (a * length slices + t) by (simpl; lia).
      rewrite (IH n (S s)) by lia. do 2 f_equal. lia. }
  exact (G msize 0 Ha).
Qed.
Lemma regather_one {V} (v0 : V) k msize slices : length slices = k -> (forall s, In s slices -> length s = msize) -> regather v0 k 1 msize [slices] = slices.
Proof.
  intros L H. unfold regather. cbn [map concat]. rewrite app_nil_r, Nat.mul_1_r, <- L.
  transitivity (map (fun i => nth i slices []) (seq 0 (length slices))); [|apply map_nth_seq].
  apply map_ext_in. intros t Ht. apply in_seq in Ht. assert (Lt : t < length slices) by lia.
  pose proof (H _ (nth_In slices [] Lt)) as Ls.
  transitivity (map (fun a => nth a (nth t slices []) v0) (seq 0 msize)); [|rewrite <- Ls; apply map_nth_seq].
  apply map_ext_in. intros a Ha. apply in_seq in Ha. apply flat_tensor_nth; lia.
Qed.

(** ** chooseOptQoIs *)
Lemma somes_position {A} (tags : list (option A)) i j c : NoDup (somes tags) -> nth_error tags i = Some (Some c) -> nth_error tags j = Some (Some c) -> i = j.
Proof.
  revert i j. induction tags as [|x tags IH]; intros i j N Hi Hj; [destruct i; discriminate|].
  destruct i as [|i], j as [|j]; simpl in Hi, Hj.
  - reflexivity.
  - injection Hi as ->. exfalso. unfold somes in N. cbn [flat_map app] in N. inversion N; subst. apply H1. apply (somes_in tags). exact (nth_error_In _ _ Hj).
  - injection Hj as ->. exfalso. unfold somes in N. cbn [flat_map app] in N. inversion N; subst. apply H1. apply (somes_in tags). exact (nth_error_In _ _ Hi).
  - f_equal. apply (IH i j); [|exact Hi | exact Hj]. destruct x; unfold somes in N; cbn [flat_map app] in N; [inversion N; assumption | exact N].
Qed.
Lemma choice_listed n qs c : NoDup qs -> set_of n qs c -> exists c', Permutation c c' /\ In c' (combs n qs).
Proof.
  intros N (L & Nc & I). exists (filter (mem c) qs).
  assert (P : Permutation c (filter (mem c) qs)).
  { apply NoDup_Permutation; [exact Nc | apply NoDup_filter, N|]. intro x. rewrite filter_In, mem_true. split; [intro H; split; [exact (I x H) | exact H] | tauto]. }
  split; [exact P|]. rewrite <- L, (Permutation_length P). apply combs_filter.
Qed.
Lemma listed_choice n qs c : NoDup qs -> In c (combs n qs) -> set_of n qs c.
Proof. intros N H. split; [exact (combs_length _ _ _ H)|]. split; [exact (combs_nodup_in _ _ _ N H) | exact (combs_incl _ _ _ H)]. Qed.

Lemma inv_best k n nq qs mu rows : NoDup qs -> set_criterion mu -> Inv fst (tag_pair mu nq) mu k (combs n qs) rows -> best_table k n qs mu rows.
Proof.
  intros N [Sym Num] (tags & dropped & -> & P & L & S & K & D).
  assert (NC : NoDup (somes tags)).
  { pose proof (Permutation_NoDup P (combs_nodup qs n N)) as ND. clear -ND. induction (somes tags) as [|a l IH]; [constructor|]. inversion ND; subst. constructor; [intro I; apply H1, in_or_app; left; exact I | apply IH, H2]. }
  assert (IC : forall c, In (Some c) tags -> In c (combs n qs)).
  { intros c I. apply (Permutation_in _ (Permutation_sym P)), in_or_app. left. apply somes_in, I. }
  assert (Tag : forall j m c, nth_error (map (tag_pair mu nq) tags) j = Some (m, c) -> m <> PInf -> nth_error tags j = Some (Some c) /\ m = mu c).
  { intros j m c H Hm. rewrite nth_error_map in H. destruct (nth_error tags j) as [[c'|]|]; simpl in H; [|injection H as <- _; congruence|discriminate].
    injection H as <- <-. split; reflexivity. }
  split; [rewrite map_length; exact L|]. split; [exact S|]. split; [|split].
  - intros m c I Hm. destruct (In_nth_error _ _ I) as [j Hj]. destruct (Tag j m c Hj Hm) as [T ->]. split; [|reflexivity]. apply listed_choice; [exact N|]. apply IC, (nth_error_In _ _ T).
  - intros i j m m' c c' Hij Hi Hj Hm Hm' Pc. destruct (Tag _ _ _ Hi Hm) as [Ti _]. destruct (Tag _ _ _ Hj Hm') as [Tj _].
    assert (c = c') as <- by (apply (combs_perm_eq qs n); [exact N | apply IC, (nth_error_In _ _ Ti) | apply IC, (nth_error_In _ _ Tj) | exact Pc]).
    apply Hij. exact (somes_position _ _ _ _ NC Ti Tj).
  - intros c Hc Hm. destruct (choice_listed n qs c N Hc) as (c' & Pc & Ic). apply (Permutation_in _ P) in Ic. apply in_app_or in Ic. destruct Ic as [Ic|Ic].
    + left. exists c'. split; [exact Pc|]. rewrite (Sym _ _ Pc). apply somes_in in Ic. apply (in_map (tag_pair mu nq)) in Ic. exact Ic.
    + right. intros m c2 I2. rewrite (Sym _ _ Pc). exact (D c' (m, c2) Ic I2).
Qed.

Lemma verbose_lemma : forall (V : Type) (v0 : V) eval srt mu sv P k nq msize qois,
  0 < P -> 0 < k -> NoDup qois -> good_sort srt -> set_criterion mu ->
  (forall c, set_of nq qois c -> eval c = Ok (mu c, sv c) /\ length (sv c) = msize) ->
  exists rows svs, chooseOptQoIs_verbose v0 eval srt P k nq msize qois = Ok (rows, svs) /\ best_table k nq qois mu rows /\ (P = 1 -> aligned sv rows svs).
Proof.
  intros V v0 eval srt mu sv P k nq msize qois HP Hk N SRT [Sym Num] HE. unfold chooseOptQoIs_verbose.
  destruct (mapM_exists (fun block => scan eval srt block (init_table v0 k nq msize)) (RInv v0 mu sv nq msize k) (array_split (combs nq qois) P)) as (tables & E & F).
  { intros b Hb. destruct (scan_inv v0 eval srt mu sv nq msize SRT Num k b Hk) with (seen := @nil (list nat)) (t := init_table v0 k nq msize) as (t' & Et & It).
    - intros c Ic. apply HE, listed_choice; [exact N|]. rewrite <- (array_split_concat (combs nq qois) P HP). apply in_concat. exists b. split; assumption.
    - apply (inv_init r_m (tag_row v0 mu sv nq msize) mu eq_refl).
    - exists t'. split; [exact Et | exact It]. }
  rewrite E. cbn [bind].
  assert (FP : Forall2 (Inv fst (tag_pair mu nq) mu k) (array_split (combs nq qois) P) (map (map pair_row) tables)).
  { clear E. induction F as [|b t bs ts HI F IH]; cbn [map]; constructor; [exact (pair_inv _ _ _ _ _ _ _ _ HI) | exact IH]. }
  assert (LT : length tables = P) by (rewrite <- (array_split_length (combs nq qois) P HP); symmetry; exact (Forall2_length _ _ _ F)).
  assert (LC : length (concat tables) = k * P).
  { rewrite <- LT. clear -F. induction F as [|b t bs ts HI F IH]; cbn [concat length]; [lia|]. rewrite app_length, IH. destruct HI as (tags & d & -> & _ & L & _). rewrite map_length. lia. }
  change (fun r : row => (r_m r, r_set r)) with (@pair_row V).
  set (rows := map pair_row (concat tables)). set (svs := regather v0 k P msize (map (map r_sv) tables)).
  destruct (fancy_sort fst srt rows SRT) as (rows' & Er & Pr & Sr & Hsv).
  { intros x Hx. unfold rows in Hx. rewrite concat_map in Hx. apply in_concat in Hx. destruct Hx as (t & It & Ix).
    assert (G : exists b, Inv fst (tag_pair mu nq) mu k b t).
    { clear -FP It. induction FP as [|b t' bs ts HI FP IH]; [contradiction|]. destruct It as [<-|It]; [exists b; exact HI | exact (IH It)]. }
    destruct G as (b & tags & d & -> & _). apply in_map_iff in Ix. destruct Ix as ([c|] & <- & _); [apply Num | discriminate]. }
  destruct (Hsv _ svs) as (svs' & Es & Ps & Ls).
  { unfold svs, rows, regather. rewrite !map_length, seq_length. symmetry. exact LC. }
  rewrite Er. cbn [bind]. rewrite Es. cbn [bind]. exists (firstn k rows'), (firstn k svs'). split; [reflexivity|]. split.
  - apply (inv_best k nq nq); [exact N | split; assumption|]. rewrite <- (array_split_concat (combs nq qois) P HP).
    apply (inv_merge fst (tag_pair mu nq) mu eq_refl (fun c => eq_refl) Num k (array_split (combs nq qois) P) (map (map pair_row) tables) rows' FP).
    + intro Z. pose proof (array_split_length (combs nq qois) P HP) as Z'. rewrite Z in Z'. simpl in Z'. lia.
    + unfold rows in Pr. rewrite concat_map in Pr. exact Pr.
    + exact Sr.
  - intros ->. split; [rewrite !firstn_length; congruence|]. intros j m c Hj Hm.
    rewrite nth_error_firstn in Hj. rewrite nth_error_firstn. destruct (j <? k); [|discriminate].
    destruct tables as [|t [|? ?]]; try discriminate. rewrite array_split_1 in F. inversion F as [|? ? ? ? HI FN]; subst.
    unfold svs, rows in Ps. cbn [map concat] in Ps. rewrite app_nil_r in Ps.
    destruct HI as (tags & d & -> & P1 & L1 & _ & K1 & _).
    rewrite regather_one in Ps.
    + rewrite combine_maps in Ps. 
      assert (Lj : j < length svs') by (rewrite Ls; apply nth_error_Some; congruence). destruct (nth_error svs' j) as [s|] eqn:Ej; [|apply nth_error_None in Ej; lia].
      assert (Ic : In ((m, c), s) (combine rows' svs')) by (apply (nth_error_In _ j); rewrite nth_error_combine, Hj, Ej; reflexivity).
      apply (Permutation_in _ (Permutation_sym Ps)) in Ic. apply in_map_iff in Ic. destruct Ic as (x & Ex & Ix). apply in_map_iff in Ix. destruct Ix as ([c'|] & <- & _); cbn in Ex.
      * injection Ex as <- <- <-. reflexivity.
      * injection Ex as <- _ _. congruence.
    + rewrite !map_length. exact L1.
    + intros s Is. rewrite map_map in Is. apply in_map_iff in Is. destruct Is as ([c'|] & <- & Ix); cbn; [|apply repeat_length].
      apply HE, listed_choice; [exact N|]. apply (Permutation_in _ (Permutation_sym P1)), in_or_app. left. apply somes_in, Ix.
Qed.
Lemma choose_lemma : forall (V : Type) (v0 : V) eval srt mu sv P k nq msize qois,
  0 < P -> 0 < k -> NoDup qois -> good_sort srt -> set_criterion mu ->
  (forall c, set_of nq qois c -> eval c = Ok (mu c, sv c) /\ length (sv c) = msize) ->
  exists rows, chooseOptQoIs v0 eval srt P k nq msize qois = Ok rows /\ best_table k nq qois mu rows.
Proof.
  intros V v0 eval srt mu sv P k nq msize qois HP Hk N S C HE. destruct (verbose_lemma V v0 eval srt mu sv P k nq msize qois HP Hk N S C HE) as (rows & svs & E & B & _).
  exists rows. unfold chooseOptQoIs. rewrite E. split; [reflexivity | exact B].
Qed.
Lemma aligned_lemma : forall (V : Type) (v0 : V) eval srt mu sv k nq msize qois,
  0 < k -> NoDup qois -> good_sort srt -> set_criterion mu ->
  (forall c, set_of nq qois c -> eval c = Ok (mu c, sv c) /\ length (sv c) = msize) ->
  exists rows svs, chooseOptQoIs_verbose v0 eval srt 1 k nq msize qois = Ok (rows, svs) /\ aligned sv rows svs.
Proof.
  intros V v0 eval srt mu sv k nq msize qois Hk N S C HE. destruct (verbose_lemma V v0 eval srt mu sv 1 k nq msize qois ltac:(lia) Hk N S C HE) as (rows & svs & E & _ & A).
  exists rows, svs. split; [exact E | exact (A eq_refl)].
Qed.

(** ** find_good_sets *)
Lemma flat_map_split {B C} (F G : B -> list C) lb : Permutation (flat_map (fun b => F b ++ G b) lb) (flat_map F lb ++ flat_map G lb).
Proof.
  induction lb as [|b lb IHb]; cbn [flat_map]; [constructor|].
  rewrite <- !app_assoc. apply Permutation_app_head. eapply Permutation_trans; [apply Permutation_app_head; exact IHb|].
  rewrite !app_assoc. apply Permutation_app_tail. apply Permutation_app_comm.
Qed.
Lemma flat_map_swap {A B C} (h : A -> B -> list C) la lb :
  Permutation (flat_map (fun b => flat_map (fun a => h a b) la) lb) (flat_map (fun a => flat_map (h a) lb) la).
Proof.
  induction la as [|a la IH]; cbn [flat_map].
  - induction lb as [|b lb IHb]; [constructor | exact IHb].
  - eapply Permutation_trans; [|apply Permutation_app_head; exact IH]. apply (flat_map_split (h a) (fun b => flat_map (fun a0 => h a0 b) la)).
Qed.
Lemma items_perm {A} (exts : list (list A)) P : 0 < P ->
  Permutation (flat_map (fun r => flat_map (fun e => nth r (array_split e P) []) exts) (seq 0 P)) (concat exts).
Proof.
  intro HP. eapply Permutation_trans; [apply (flat_map_swap (fun e r => nth r (array_split e P) []))|].
  replace (flat_map (fun e => flat_map (fun r => nth r (array_split e P) []) (seq 0 P)) exts) with (concat exts); [apply Permutation_refl|].
  induction exts as [|e exts IH]; [reflexivity|]. cbn [concat flat_map]. rewrite IH. f_equal.
  transitivity (concat (array_split e P)); [symmetry; apply array_split_concat, HP|].
  pose proof (flat_map_nth (fun x : list A => x) [] (array_split e P)) as Z. rewrite (array_split_length e P HP) in Z. rewrite Z, flat_map_concat_map, map_id. reflexivity.
Qed.
Section First.
Lemma first_rows_incl seen l r : In r (first_rows seen l) -> In r l.
Proof. revert seen. induction l as [|x l IH]; intros seen H; [exact H|]. cbn [first_rows] in H. destruct (existsb _ _); [right; exact (IH _ H)|]. destruct H as [<-|H]; [left; reflexivity | right; exact (IH _ H)]. Qed.
Lemma seen_true x seen : x <> NaN -> (existsb (xeqb x) seen = true <-> In x seen).
Proof.
  intro N. rewrite existsb_exists. split.
  - intros (y & I & E). apply xeqb_true in E. subst. exact I.
  - intro I. exists x. split; [exact I | apply xeqb_iff; [exact N | reflexivity]].
Qed.
Lemma first_rows_nodup l : forall seen, (forall r, In r l -> fst r <> NaN) -> NoDup (map fst (first_rows seen l)) /\ forall r, In r (first_rows seen l) -> ~ In (fst r) seen.
Proof.
  induction l as [|x l IH]; intros seen N; cbn [first_rows]; [split; [constructor | intros r []]|].
  assert (Nx : fst x <> NaN) by (apply N; left; reflexivity). assert (Nl : forall r, In r l -> fst r <> NaN) by (intros; apply N; right; assumption).
  destruct (existsb (xeqb (fst x)) seen) eqn:E; [exact (IH seen Nl)|].
  destruct (IH (fst x :: seen) Nl) as [I1 I2]. split.
  - cbn [map]. constructor; [|exact I1]. intro I. apply in_map_iff in I. destruct I as (r & Er & Ir). apply (I2 r Ir). left. symmetry. exact Er.
  - intros r [<-|Ir].
    + intro I. apply (seen_true _ _ Nx) in I. congruence.
    + intro I. apply (I2 r Ir). right. exact I.
Qed.
Lemma first_rows_cover l : forall seen r, In r l -> fst r <> NaN -> In (fst r) seen \/ exists r', In r' (first_rows seen l) /\ fst r' = fst r.
Proof.
  induction l as [|x l IH]; intros seen r I N; [contradiction|]. cbn [first_rows]. destruct (existsb (xeqb (fst x)) seen) eqn:E.
  - destruct I as [<-|I]; [left; apply (seen_true _ _ N), E | exact (IH seen r I N)].
  - destruct I as [<-|I]; [right; exists x; split; [left; reflexivity | reflexivity]|].
    destruct (IH (fst x :: seen) r I N) as [[H|H]|(r' & I' & E')].
    + right. exists x. split; [left; reflexivity | exact H].
    + left. exact H.
    + right. exists r'. split; [right; exact I' | exact E'].
Qed.
End First.

Lemma list_max_all g : g <> [] -> forall u, list_max g < u <-> forall x, In x g -> x < u.
Proof.
  intros NE u. rewrite list_max_lt by exact NE. rewrite Forall_forall. reflexivity.
Qed.
Definition exts_of (ord : list nat -> list nat) (unique g : list nat) : list (list nat) :=
  map (fun u => g ++ [u]) (filter (fun u => list_max g <? u) (ord (set_diff unique g))).
Lemma exts_in ord unique g s : set_order ord -> g <> [] -> (In s (exts_of ord unique g) <-> exists u, In u unique /\ (forall x, In x g -> x < u) /\ s = g ++ [u]).
Proof.
  intros O NE. unfold exts_of. rewrite in_map_iff. split.
  - intros (u & <- & I). apply filter_In in I. destruct I as [I M]. apply (proj1 (proj2 (O _) u)) in I. unfold set_diff in I. apply filter_In in I. destruct I as [I _].
    apply Nat.ltb_lt in M. exists u. split; [exact I|]. split; [apply list_max_all; assumption | reflexivity].
  - intros (u & I & M & ->). exists u. split; [reflexivity|]. apply filter_In. split.
    + apply (proj2 (proj2 (O _) u)). unfold set_diff. apply filter_In. split; [exact I|]. apply negb_true_iff. apply (mem_false g u). intro H. specialize (M u H). lia.
    + apply Nat.ltb_lt. apply list_max_all; assumption.
Qed.
Lemma exts_nodup ord unique g : set_order ord -> NoDup (exts_of ord unique g).
Proof. intro O. apply FinFun.Injective_map_NoDup; [intros a b E; apply app_inj_tail in E; tauto | apply NoDup_filter, O]. Qed.

Lemma good_sets_lemma : forall (V : Type) (v0 : V) eval srt ord mu sv P k nq msize tol prev unique,
  0 < P -> 0 < k -> good_sort srt -> set_order ord -> (forall c, mu c <> NaN) -> tol <> NaN -> ~ In [] prev ->
  (forall g u, In g prev -> In u unique -> (forall x, In x g -> x < u) -> eval (g ++ [u]) = Ok (mu (g ++ [u]), sv (g ++ [u]))) ->
  exists good best svs, find_good_sets v0 eval srt ord P k nq msize tol prev unique = Ok (good, best, svs) /\
    (forall s, In s good <-> acceptable prev unique mu tol s) /\ (NoDup prev -> NoDup good) /\
    leading_table k prev unique mu tol best /\ distinct_values best.
Proof.
  intros V v0 eval srt ord mu sv P k nq msize tol prev unique HP Hk SRT O Num NT NE HE. unfold find_good_sets.
  rewrite (mapM_ok _ (exts_of ord unique)) by (intros g Hg; destruct g; [contradiction | reflexivity]). cbn [bind].
  set (exts := map (exts_of ord unique) prev). set (items := fun r => flat_map (fun e => nth r (array_split e P) []) exts).
  set (f := fun c => xltb (mu c) tol).
  assert (PI : Permutation (flat_map items (seq 0 P)) (concat exts)) by exact (items_perm exts P HP).
  assert (EI : forall s, In s (concat exts) <-> exists g u, In g prev /\ In u unique /\ (forall x, In x g -> x < u) /\ s = g ++ [u]).
  { intro s. unfold exts. rewrite in_concat. split.
    - intros (e & Ie & Is). apply in_map_iff in Ie. destruct Ie as (g & <- & Ig). apply exts_in in Is; [|exact O | intros ->; contradiction]. destruct Is as (u & ? & ? & ?). exists g, u. repeat split; assumption.
    - intros (g & u & Ig & Iu & M & Es). exists (exts_of ord unique g). split; [apply in_map, Ig|]. apply exts_in; [exact O | intros ->; contradiction|]. exists u. repeat split; assumption. }
  destruct (mapM_exists (fun r => scan_good eval srt tol (items r) ([], init_table v0 k nq msize))
     (fun r st => fst st = filter f (items r) /\ RInv v0 mu sv nq msize k (filter f (items r)) (snd st)) (seq 0 P)) as (states & E & F).
  { intros r Hr. destruct (scan_good_inv v0 eval srt mu sv nq msize SRT Num k tol (items r) Hk) with (seen := @nil (list nat)) (gd := @nil (list nat)) (t := init_table v0 k nq msize) as (t' & Et & It).
    - intros c Ic. assert (I : In c (concat exts)) by (apply (Permutation_in _ PI), in_flat_map; exists r; split; assumption).
      apply EI in I. destruct I as (g & u & Ig & Iu & M & ->). apply HE; assumption.
    - apply (inv_init r_m (tag_row v0 mu sv nq msize) mu eq_refl).
    - exists ([] ++ filter f (items r), t'). split; [exact Et|]. split; [reflexivity | exact It]. }
  cbv zeta. match goal with |- context [mapM ?h (seq 0 P)] => change h with (fun r => scan_good eval srt tol (items r) ([], init_table v0 k nq msize)) end.
  rewrite E. cbn [bind]. change (fun r : row => (r_m r, r_set r)) with (@pair_row V).
  set (rows := map pair_row (concat (map snd states))).
  assert (GD : concat (map fst states) = filter f (flat_map items (seq 0 P))).
  { clear -F. generalize dependent states. induction (seq 0 P) as [|r l IH]; intros st F; inversion F; subst; [reflexivity|]. cbn [map concat flat_map]. rewrite filter_app, (IH _ H3). destruct H1 as [-> _]. reflexivity. }
  assert (TB : forall st, In st states -> exists r, In r (seq 0 P) /\ RInv v0 mu sv nq msize k (filter f (items r)) (snd st)).
  { clear -F. induction F as [|r st rs sts HI F IH]; intros s I; [contradiction|]. destruct I as [<-|I]; [exists r; split; [left; reflexivity | apply HI]|].
    destruct (IH s I) as (r' & Ir & HR). exists r'. split; [right; exact Ir | exact HR]. }
  assert (BT : forall r, In r (seq 0 P) -> exists st, In st states /\ RInv v0 mu sv nq msize k (filter f (items r)) (snd st)).
  { clear -F. induction F as [|r st rs sts HI F IH]; intros s I; [contradiction|]. destruct I as [<-|I]; [exists st; split; [left; reflexivity | apply HI]|].
    destruct (IH s I) as (r' & Ir & HR). exists r'. split; [right; exact Ir | exact HR]. }
  assert (RW : forall x, In x rows -> x = tag_pair mu nq None \/ exists c r, In r (seq 0 P) /\ In c (filter f (items r)) /\ mu c <> PInf /\ x = (mu c, c)).
  { intros x Ix. unfold rows in Ix. apply in_map_iff in Ix. destruct Ix as (y & <- & Iy). apply in_concat in Iy. destruct Iy as (t & It & Iy). apply in_map_iff in It. destruct It as (st & <- & Ist).
    destruct (TB st Ist) as (r & Ir & tags & d & Et & Pd & _ & _ & K & _). rewrite Et in Iy. apply in_map_iff in Iy. destruct Iy as ([c|] & <- & Ic); [right|left; reflexivity].
    exists c, r. split; [exact Ir|]. split; [apply (Permutation_in _ (Permutation_sym Pd)), in_or_app; left; apply somes_in, Ic|]. split; [exact (K c Ic) | reflexivity]. }
  assert (NR : forall x, In x rows -> fst x <> NaN).
  { intros x Ix. destruct (RW x Ix) as [->|(c & r & _ & _ & _ & ->)]; [discriminate | apply Num]. }
  destruct (first_rows_nodup rows [] NR) as [ND _].
  assert (NU : forall x, In x (first_rows [] rows) -> fst x <> NaN) by (intros x Ix; apply NR, (first_rows_incl _ _ _ Ix)).
  destruct (fancy_sort fst srt (first_rows [] rows) SRT NU) as (best & Eb & Pb & Sb & _).
  rewrite Eb. cbn [bind]. exists (concat (map fst states)), (firstn k best), (map (fun s => map r_sv (snd s)) states). split; [reflexivity|].
  assert (AC : forall s, In s (concat (map fst states)) <-> acceptable prev unique mu tol s).
  { intro s. rewrite GD, filter_In. assert (II : In s (flat_map items (seq 0 P)) <-> In s (concat exts)) by (split; apply Permutation_in; [exact PI | apply Permutation_sym, PI]). rewrite II, EI. unfold f, acceptable. split.
    - intros ((g & u & ? & ? & ? & ?) & ?). exists g, u. repeat split; assumption.
    - intros (g & u & ? & ? & ? & ? & ?). split; [exists g, u; repeat split; assumption | assumption]. }
  split; [exact AC|]. split; [|split].
  - intro NP. rewrite GD. apply NoDup_filter. apply (Permutation_NoDup (Permutation_sym PI)). unfold exts. rewrite <- flat_map_concat_map. apply NoDup_flat_map.
    + exact NP.
    + intros g Ig. apply exts_nodup, O.
    + intros g g' s Ig Ig' Is Is'. apply exts_in in Is; [|exact O | intros ->; contradiction]. apply exts_in in Is'; [|exact O | intros ->; contradiction].
      destruct Is as (u & _ & _ & ->). destruct Is' as (u' & _ & _ & Eq). apply app_inj_tail in Eq. apply Eq.
  - split; [rewrite firstn_length; lia|]. split; [apply sorted_firstn, Sb|]. split.
    + intros m c I Hm. assert (Ib : In (m, c) rows).
      { apply (first_rows_incl []). apply (Permutation_in _ (Permutation_sym Pb)). rewrite <- (firstn_skipn k best). apply in_or_app. left. exact I. }
      destruct (RW _ Ib) as [Ex|(c' & r & Ir & Ic & _ & Ex)]; [injection Ex as -> _; congruence|]. injection Ex as -> ->. split; [|reflexivity].
      apply AC. rewrite GD. apply filter_In in Ic. apply filter_In. split; [|apply Ic]. apply in_flat_map. exists r. split; [exact Ir | apply Ic].
    + intros s Hs. apply AC in Hs. rewrite GD in Hs. apply filter_In in Hs. destruct Hs as [Is Fs]. apply in_flat_map in Is. destruct Is as (r & Ir & Is).
      destruct (BT r Ir) as (st & Ist & tags & d & Et & Pd & Lt & _ & _ & D).
      assert (Hx : exists x, In x rows /\ xleb (fst x) (mu s) = true).
      { assert (IsF : In s (filter f (items r))) by (apply filter_In; split; assumption). apply (Permutation_in _ Pd) in IsF. apply in_app_or in IsF.
        assert (Sub : forall y, In y (snd st) -> In (pair_row y) rows).
        { intros y Iy. apply in_map, in_concat. exists (snd st). split; [apply in_map, Ist | exact Iy]. }
        destruct IsF as [I|I].
        - exists (mu s, s). split; [|apply xle_refl, Num]. apply somes_in in I. apply (in_map (tag_row v0 mu sv nq msize)) in I. rewrite <- Et in I. exact (Sub _ I).
        - destruct (snd st) as [|y t] eqn:Es.
          + destruct tags; [simpl in Lt; lia | discriminate].
          + exists (pair_row y). split; [apply Sub; left; reflexivity|]. exact (D s y I (or_introl eq_refl)). }
      destruct Hx as (x & Ix & Lx). destruct (first_rows_cover rows [] x Ix (NR x Ix)) as [[]|(x' & Ix' & Ex')].
      apply (Permutation_in _ Pb) in Ix'. destruct best as [|[m c] rest] eqn:EB; [contradiction|]. destruct k as [|k']; [lia|]. cbn [firstn]. exists m, c, (firstn k' rest). split; [reflexivity|].
      destruct Ix' as [<-|Ix']; [cbn [fst] in Ex'; rewrite Ex'; exact Lx|]. destruct (In_nth_error _ _ Ix') as [j Hj].
      eapply xle_trans; [exact (Sb 0 (S j) (m, c) x' ltac:(lia) eq_refl Hj)|]. rewrite Ex'. exact Lx.
  - unfold distinct_values. rewrite <- firstn_map. apply (Permutation_NoDup (Permutation_map fst Pb)) in ND. rewrite <- (firstn_skipn k (map fst best)) in ND.
    clear -ND. induction (firstn k (map fst best)) as [|a l IH]; [constructor|]. inversion ND; subst. constructor; [intro I; apply H1, in_or_app; left; exact I | apply IH, H2].
Qed.

(** ** chooseOptQoIs_large *)
Lemma sorted_seq_filter f n s : StronglySorted lt (filter f (seq s n)).
Proof.
  revert s. induction n as [|n IH]; intro s; cbn [seq filter]; [constructor|]. destruct (f s); [|apply IH]. constructor; [apply IH|].
  apply Forall_forall. intros x I. apply filter_In in I. destruct I as [I _]. apply in_seq in I. lia.
Qed.
Lemma list_max_ge x c : In x c -> x <= list_max c.
Proof. intro I. pose proof (proj1 (list_max_le c (list_max c)) (Nat.le_refl _)) as F. rewrite Forall_forall in F. exact (F x I). Qed.
Lemma sorted_perm c : NoDup c -> exists c', Permutation c c' /\ StronglySorted lt c'.
Proof.
  intro N. exists (filter (mem c) (seq 0 (list_max c + 1))). split; [|apply sorted_seq_filter].
  apply NoDup_Permutation; [exact N | apply NoDup_filter, seq_NoDup|]. intro x. rewrite filter_In, mem_true, in_seq. split; [|tauto].
  intro I. split; [|exact I]. pose proof (list_max_ge x c I). lia.
Qed.
Lemma ss_snoc g u : StronglySorted lt (g ++ [u]) <-> StronglySorted lt g /\ forall x, In x g -> x < u.
Proof.
  induction g as [|a g IH]; cbn [app].
  - split; [intros _; split; [constructor | intros x []] | intros _; repeat constructor].
  - split.
    + intro H. inversion H as [|? ? H1 H2]; subst. apply IH in H1. destruct H1 as [H1 H3]. rewrite Forall_app in H2. destruct H2 as [H2 H4]. split; [constructor; assumption|].
      intros x [<-|Ix]; [inversion H4; assumption | exact (H3 x Ix)].
    + intros [H1 H2]. inversion H1; subst. constructor; [apply IH; split; [assumption | intros; apply H2; right; assumption]|].
      apply Forall_app. split; [assumption|]. constructor; [apply H2; left; reflexivity | constructor].
Qed.
Lemma ss_nodup c : StronglySorted lt c -> NoDup c.
Proof. induction 1 as [|a l S IH F]; constructor; [|exact IH]. intro I. rewrite Forall_forall in F. specialize (F a I). lia. Qed.

Definition level (unique : list nat) (mu : list nat -> xnum) (n : nat) (good : list (list nat)) : Prop :=
  forall s, In s good <-> length s = n /\ StronglySorted lt s /\ incl s unique /\ (2 <= n -> mu s <> PInf).
Lemma level_step unique mu n good s : 0 < n -> (forall c, mu c <> NaN) -> hereditary mu -> level unique mu n good ->
  (acceptable good unique mu PInf s <-> length s = n + 1 /\ StronglySorted lt s /\ incl s unique /\ (2 <= n + 1 -> mu s <> PInf)).
Proof.
  intros Hn Num H L. unfold acceptable. split.
  - intros (g & u & Ig & Iu & M & -> & Lt). apply L in Ig. destruct Ig as (Lg & Sg & Ic & _). rewrite app_length, Lg. split; [reflexivity|]. split; [apply ss_snoc; split; assumption|].
    split; [|intros _; exact (xlt_inf _ _ Lt)]. intros x Ix. apply in_app_or in Ix. destruct Ix as [Ix|[<-|[]]]; [exact (Ic x Ix) | exact Iu].
  - intros (Ls & Ss & Ic & Hf). specialize (Hf ltac:(lia)). destruct (exists_last (l := s)) as (g & u & ->); [intros ->; simpl in Ls; lia|].
    pose proof (ss_nodup _ Ss) as Ns. apply ss_snoc in Ss. destruct Ss as [Sg M]. rewrite app_length in Ls. simpl in Ls.
    exists g, u. split; [|split; [apply Ic, in_or_app; right; left; reflexivity | split; [exact M | split; [reflexivity | apply xlt_inf_iff; [apply Num | exact Hf]]]]].
    apply L. split; [lia|]. split; [exact Sg|]. split; [intros x Ix; apply Ic, in_or_app; left; exact Ix|].
    intro H2. apply (H (g ++ [u])); [exact Ns | apply ss_nodup, Sg | intros x Ix; apply in_or_app; left; exact Ix | lia | exact Hf].
Qed.
Lemma large_loop_lemma (V : Type) (v0 : V) eval srt ord mu sv P k nc unique : 0 < P -> 0 < k -> good_sort srt -> set_order ord -> set_criterion mu -> hereditary mu ->
  forall steps n good, 0 < n -> level unique mu n good ->
  (forall c, NoDup c -> incl c unique -> 2 <= length c <= n + steps -> eval c = Ok (mu c, sv c)) ->
  exists out, large_loop v0 eval srt ord P k (n + 1) nc PInf unique steps good = Ok out /\ length out = steps /\
    forall i gd rows, nth_error out i = Some (gd, rows) -> optimal_first (n + 1 + i) unique mu rows.
Proof.
  intros HP Hk SRT O [Sym Num] H. induction steps as [|steps IH]; intros n good Hn L HE; cbn [large_loop].
  - exists []. split; [reflexivity|]. split; [reflexivity|]. intros [|i] ? ? E; discriminate.
  - destruct (good_sets_lemma V v0 eval srt ord mu sv P k (n + 1) (nc * (n + 1)) PInf good unique HP Hk SRT O Num ltac:(discriminate)) as (gd & best & svs & E & AC & _ & LT & _).
    { intro I. apply L in I. destruct I as [I _]. simpl in I. lia. }
    { intros g u Ig Iu M. apply L in Ig. destruct Ig as (Lg & Sg & Ic & _). apply HE.
      - apply ss_nodup, ss_snoc. split; assumption.
      - intros x Ix. apply in_app_or in Ix. destruct Ix as [Ix|[<-|[]]]; [exact (Ic x Ix) | exact Iu].
      - rewrite app_length, Lg. simpl. lia. }
    rewrite E. cbn [bind fst snd].
    assert (L' : level unique mu (n + 1) gd) by (intro s; rewrite AC; apply level_step; assumption).
    destruct (IH (n + 1) gd ltac:(lia) L') as (out & Eo & Lo & Ho).
    { intros c Nc Ic Lc. apply HE; [exact Nc | exact Ic | lia]. }
    rewrite Eo. cbn [bind]. exists ((gd, best) :: out). split; [reflexivity|]. split; [simpl; f_equal; exact Lo|].
    intros [|i] gd' rows Ei; cbn [nth_error] in Ei.
    + injection Ei as <- <-. rewrite Nat.add_0_r. destruct LT as (_ & LS & LR & LF). split; [exact LS|]. split.
      * intros m c I Hm. destruct (LR m c I Hm) as [A ->]. split; [|reflexivity]. apply (level_step _ _ n) in A; try assumption.
        destruct A as (A1 & A2 & A3 & _). split; [exact A1|]. split; [apply ss_nodup, A2 | exact A3].
      * intros c (Lc & Nc & Ic) Hm. destruct (sorted_perm c Nc) as (c' & Pc & Sc). rewrite (Sym _ _ Pc). apply LF.
        apply (level_step _ _ n); try assumption. split; [rewrite <- (Permutation_length Pc); exact Lc|]. split; [exact Sc|].
        split; [intros x Ix; apply Ic, (Permutation_in _ (Permutation_sym Pc) Ix)|]. intros _. rewrite <- (Sym _ _ Pc). exact Hm.
    + replace (n + 1 + S i) with (n + 1 + 1 + i) by lia. exact (Ho i gd' rows Ei).
Qed.
Lemma large_lemma : forall (V : Type) (v0 : V) eval srt ord mu sv P k nc max_qois unique,
  0 < P -> 0 < k -> good_sort srt -> set_order ord -> set_criterion mu -> hereditary mu ->
  (forall c, NoDup c -> incl c unique -> 2 <= length c <= max_qois -> eval c = Ok (mu c, sv c)) ->
  exists out, chooseOptQoIs_large v0 eval srt ord P k nc max_qois PInf unique = Ok out /\ length out = max_qois - 1 /\
    forall i rows, nth_error out i = Some rows -> optimal_first (i + 2) unique mu rows.
Proof.
  intros V v0 eval srt ord mu sv P k nc max_qois unique HP Hk SRT O C H HE. unfold chooseOptQoIs_large.
  destruct (large_loop_lemma V v0 eval srt ord mu sv P k nc unique HP Hk SRT O C H (max_qois - 1) 1 (map (fun u => [u]) unique) ltac:(lia)) as (out & E & L & Ho).
  { intro s. rewrite in_map_iff. split.
    - intros (u & <- & I). split; [reflexivity|]. split; [repeat constructor|]. split; [intros x [<-|[]]; exact I | lia].
    - intros (Ls & _ & Ic & _). destruct s as [|u [|? ?]]; try discriminate. exists u. split; [reflexivity | apply Ic; left; reflexivity]. }
  { intros c Nc Ic Lc. apply HE; [exact Nc | exact Ic | lia]. }
  change (1 + 1) with 2 in E. rewrite E. cbn [bind]. exists (map snd out). split; [reflexivity|]. split; [rewrite map_length; exact L|].
  intros i rows Hi. rewrite nth_error_map in Hi. destruct (nth_error out i) as [[gd r]|] eqn:Eo; [|discriminate]. injection Hi as <-.
  replace (i + 2) with (1 + 1 + i) by lia. exact (Ho i gd r Eo).
Qed.
