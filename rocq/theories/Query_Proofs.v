From Coq Require Import List Arith Bool QArith Qcanon Lia.
From Verif Require Import Err Num Ext Lists Query_Model Query_Spec.
Import ListNotations.
Local Open Scope nat_scope.

(** ** The query loop *)
Fixpoint alt {A} (k : nat) (x y : A) : list A :=
  match k with 0 => [] | S k' => x :: alt k' y x end.

Lemma alt_same {A} k (x : A) : alt k x x = repeat x k.
Proof. induction k as [|k IH]; simpl; [reflexivity | rewrite IH; reflexivity]. Qed.

Lemma alt_nth {A} k (x y : A) j : j < k -> nth_error (alt k x y) j = Some (if Nat.even j then x else y).
Proof.
  revert x y j; induction k as [|k IH]; intros x y j H; [lia|]. destruct j as [|j]; [reflexivity|].
  simpl nth_error. rewrite IH by lia. rewrite Nat.even_succ, <- Nat.negb_even. destruct (Nat.even j); reflexivity.
Qed.
Lemma alt_length {A} k (x y : A) : length (alt k x y) = k.
Proof. revert x y; induction k as [|k IH]; intros; simpl; [reflexivity | rewrite IH; reflexivity]. Qed.

Definition hitE (i : nat) : nat * xnum := (i, Fin 0%Qc).
Definition remE (n : nat) : nat * xnum := (n, PInf).

Ltac eqbs := repeat match goal with
  | |- context [?a =? ?a] => rewrite (Nat.eqb_refl a)
  | H : ?a <> ?b |- context [?a =? ?b] => rewrite (proj2 (Nat.eqb_neq a b) H)
  | H : ?b <> ?a |- context [?a =? ?b] => rewrite (proj2 (Nat.eqb_neq a b) (not_eq_sym H))
  end.

Lemma fill_false i rem prev row : fill i rem false prev row = row.
Proof.
  revert prev; induction row as [|[p d] row IH]; intro prev; simpl; [reflexivity|].
  rewrite andb_false_r. simpl. rewrite IH. reflexivity.
Qed.

Lemma fill_rem i rem k : i <> rem ->
  fill i rem true (Some i) (repeat (remE rem) k) = alt k (remE rem) (hitE i) /\
  fill i rem true (Some rem) (repeat (remE rem) k) = alt k (hitE i) (remE rem) /\
  fill i rem true None (repeat (remE rem) k) = alt k (hitE i) (remE rem).
Proof.
  intro N. induction k as [|k (IH1 & IH2 & IH3)]; [repeat split|].
  cbn [repeat fill alt remE fst]. eqbs. cbn [andb negb fst]. fold (remE rem). fold (hitE i).
  repeat split; f_equal; assumption.
Qed.

Lemma fill_alt1 i a rem k : i <> rem -> a <> rem -> a <> i ->
  fill i rem true (Some a) (alt k (remE rem) (hitE a)) = alt k (hitE i) (hitE a) /\
  fill i rem true (Some i) (alt k (hitE a) (remE rem)) = alt k (hitE a) (hitE i) /\
  fill i rem true None (alt k (hitE a) (remE rem)) = alt k (hitE a) (hitE i).
Proof.
  intros N1 N2 N3. induction k as [|k (IH1 & IH2 & IH3)]; [repeat split|].
  cbn [alt fill remE hitE fst]. eqbs. cbn [andb negb fst]. fold (remE rem). fold (hitE i). fold (hitE a).
  repeat split; f_equal; assumption.
Qed.

Lemma fill_alt2 i a b rem k prev : a <> rem -> b <> rem ->
  fill i rem true prev (alt k (hitE a) (hitE b)) = alt k (hitE a) (hitE b).
Proof.
  intros N1 N2. revert a b prev N1 N2. induction k as [|k IH]; intros a b prev N1 N2; [reflexivity|].
  cbn [alt fill hitE fst]. eqbs. cbn [andb fst]. fold (hitE b). fold (hitE a). f_equal. apply IH; assumption.
Qed.

(** The indices of the hits, in increasing order. *)
Fixpoint hit_list (i : nat) (hits : list bool) : list nat :=
  match hits with [] => [] | b :: r => (if b then [i] else []) ++ hit_list (S i) r end.
Definition row_of (rem k : nat) (I : list nat) : list (nat * xnum) :=
  match I with
  | [] => alt k (remE rem) (remE rem)
  | [a] => alt k (hitE a) (remE rem)
  | a :: b :: _ => alt k (hitE a) (hitE b)
  end.

Lemma query_fold rem k hits : forall i I, (forall a, In a I -> a < i) -> i + length hits <= rem ->
  fold_left (fun row ih => fill (fst ih) rem (snd ih) None row) (combine (seq i (length hits)) hits) (row_of rem k I)
  = row_of rem k (I ++ hit_list i hits).
Proof.
  induction hits as [|b hits IH]; intros i I HI L; cbn [length seq combine fold_left hit_list] in *; [rewrite app_nil_r; reflexivity|].
  cbn [fst snd]. destruct b.
  - assert (E : fill i rem true None (row_of rem k I) = row_of rem k (I ++ [i])).
    { destruct I as [|a [|b I]]; cbn [row_of app].
      - rewrite alt_same. apply fill_rem. lia.
      - specialize (HI a (or_introl eq_refl)). apply fill_alt1; lia.
      - pose proof (HI a (or_introl eq_refl)). pose proof (HI b (or_intror (or_introl eq_refl))).
        apply fill_alt2; lia. }
    rewrite E, IH, <- app_assoc; [reflexivity | | lia].
    intros a Ha. apply in_app_or in Ha. destruct Ha as [Ha|[<-|[]]]; [specialize (HI a Ha); lia | lia].
  - rewrite fill_false, IH; [reflexivity | intros a Ha; specialize (HI a Ha); lia | lia].
Qed.

Lemma query_hits_eq hits k : query_hits hits k = row_of (length hits) k (hit_list 0 hits).
Proof.
  unfold query_hits. change (repeat (length hits, PInf) k) with (repeat (remE (length hits)) k).
  rewrite <- alt_same. apply (query_fold (length hits) k hits 0 []); [intros a [] | lia].
Qed.

Lemma hit_list_In i hits a : In a (hit_list i hits) <-> i <= a /\ nth_error hits (a - i) = Some true.
Proof.
  revert i; induction hits as [|b hits IH]; intro i; simpl.
  - split; [intros [] | intros [_ H]; destruct (a - i); discriminate].
  - rewrite in_app_iff, IH. destruct (Nat.eq_dec a i) as [->|N].
    + rewrite Nat.sub_diag. simpl. destruct b; simpl.
      * split; [intros _; split; [lia | reflexivity] | intros _; left; left; reflexivity].
      * split; [intros [[]|[H _]]; lia | intros [_ H]; discriminate].
    + assert (D : (if b then [i] else []) = [] \/ (if b then [i] else []) = [i]) by (destruct b; auto).
      split.
      * intros [H|[H1 H2]]; [destruct D as [D|D]; rewrite D in H; simpl in H; [destruct H | destruct H as [H|[]]; congruence]|].
        split; [lia|]. replace (a - i) with (S (a - S i)) by lia. exact H2.
      * intros [H1 H2]. right. split; [lia|]. replace (a - i) with (S (a - S i)) in H2 by lia. exact H2.
Qed.

Lemma hit_list_sorted i hits l1 a l2 : hit_list i hits = l1 ++ a :: l2 ->
  (forall b, In b l1 -> b < a) /\ (forall b, In b l2 -> a < b).
Proof.
  revert i l1; induction hits as [|h hits IH]; intros i l1 E; simpl in E; [destruct l1; discriminate|].
  destruct h; simpl in E.
  - destruct l1 as [|c l1]; simpl in E; injection E as -> E.
    + subst l2. split; [intros b [] |]. intros b Hb. apply hit_list_In in Hb. lia.
    + destruct (IH _ _ E) as [H1 H2]. split; [|exact H2].
      intros b [<-|Hb]; [|apply H1, Hb]. assert (In a (hit_list (S c) hits)) as Ha by (rewrite E; apply in_or_app; right; left; reflexivity).
      apply hit_list_In in Ha. lia.
  - eapply IH, E.
Qed.

Lemma hit_list_first hits : match hit_list 0 hits with
  | [] => forall j, nth_error hits j <> Some true
  | a :: _ => a < length hits /\ nth_error hits a = Some true /\ forall j, j < a -> nth_error hits j <> Some true
  end.
Proof.
  destruct (hit_list 0 hits) as [|a I] eqn:E.
  - intros j H. assert (In j (hit_list 0 hits)) as Hj by (apply hit_list_In; rewrite Nat.sub_0_r; split; [lia | exact H]).
    rewrite E in Hj. destruct Hj.
  - assert (In a (hit_list 0 hits)) as Ha by (rewrite E; left; reflexivity).
    apply hit_list_In in Ha. rewrite Nat.sub_0_r in Ha. destruct Ha as [_ Ha].
    split; [apply nth_error_Some; congruence | split; [exact Ha|]].
    intros j Hj H. assert (In j (hit_list 0 hits)) as Hin by (apply hit_list_In; rewrite Nat.sub_0_r; split; [lia | exact H]).
    rewrite E in Hin. destruct Hin as [->|Hin]; [lia|].
    destruct (hit_list_sorted 0 hits [] a I E) as [_ H2]. specialize (H2 j Hin). lia.
Qed.

Lemma query_one hits (contains : nat -> Prop) :
  (forall i, i < length hits -> (nth_error hits i = Some true <-> contains i)) ->
  exists i d, query_hits hits 1 = [(i, d)] /\ cell_answer (length hits) contains i d.
Proof.
  intro H. rewrite query_hits_eq. pose proof (hit_list_first hits) as F.
  destruct (hit_list 0 hits) as [|a I].
  - exists (length hits), PInf. split; [reflexivity|]. right. repeat split; try reflexivity.
    intros j Hj C. apply H in C; [|exact Hj]. exact (F j C).
  - destruct F as (F1 & F2 & F3). exists a, (Fin 0%Qc). split; [destruct I; reflexivity|]. left. split; [|reflexivity].
    split; [exact F1|]. split; [apply H; assumption|].
    intros j Hj C. apply H in C; [|lia]. exact (F3 j Hj C).
Qed.

(** ** Boxes *)
Lemma forallb_combine {A B} (f : A * B -> bool) l m : length l = length m ->
  forallb f (combine l m) = true <-> forall j a b, nth_error l j = Some a -> nth_error m j = Some b -> f (a, b) = true.
Proof.
  revert m; induction l as [|x l IH]; intros [|y m] L; simpl in *; try discriminate.
  - split; [intros _ j a b H; destruct j; discriminate | reflexivity].
  - rewrite andb_true_iff, IH by lia. split.
    + intros [H1 H2] [|j] a b Ha Hb; simpl in *; [congruence | eapply H2; eassumption].
    + intro H. split; [apply (H 0); reflexivity | intros j a b Ha Hb; apply (H (S j)); assumption].
Qed.

Lemma in_rec_spec x l r : length x = length l -> length x = length r ->
  in_rec x l r = true <-> in_box x l r.
Proof.
  intros L1 L2. unfold in_rec, in_box. rewrite andb_true_iff, !forallb_combine by assumption. split.
  - intros [H1 H2]. split; [exact L1|]. split; [exact L2|]. intros j a lo hi Ha Hl Hr. split.
    + apply qltb_true. exact (H2 j a lo Ha Hl).
    + apply qleb_true. exact (H1 j a hi Ha Hr).
  - intros (_ & _ & H). split; intros j a b Ha Hb.
    + destruct (nth_error l j) as [lo|] eqn:E.
      * apply qleb_true. eapply H; eassumption.
      * apply nth_error_None in E. assert (j < length x) by (apply nth_error_Some; congruence). lia.
    + destruct (nth_error r j) as [hi|] eqn:E.
      * apply qltb_true. eapply H; eassumption.
      * apply nth_error_None in E. assert (j < length x) by (apply nth_error_Some; congruence). lia.
Qed.

Lemma nth_error_combine {A B} (l : list A) (m : list B) i :
  nth_error (combine l m) i = match nth_error l i, nth_error m i with Some a, Some b => Some (a, b) | _, _ => None end.
Proof.
  revert m i; induction l as [|a l IH]; intros [|b m] [|i]; simpl; try reflexivity.
  - destruct (nth_error l i); reflexivity.
  - apply IH.
Qed.

Lemma nth_error_map_eq {A B} (f : A -> B) l i : nth_error (map f l) i = option_map f (nth_error l i).
Proof. revert i; induction l as [|a l IH]; intros [|i]; simpl; try reflexivity. apply IH. Qed.

Lemma nth_error_lt {A} (l : list A) i x : nth_error l i = Some x -> i < length l.
Proof. intro H. apply nth_error_Some. congruence. Qed.

Lemma rect_setup_ok d mx mn s : rect_setup d mx mn = Ok s ->
  rdim s = d /\ lefts s = mn /\ rights s = mx /\ length mx = length mn /\ rnum s = S (length mx) /\
  (forall c, In c mx -> length c = d) /\ (forall c, In c mn -> length c = d).
Proof.
  unfold rect_setup. destruct (Nat.eqb_spec (length mx) (length mn)) as [L|]; [|discriminate]. simpl.
  destruct (forallb _ _) eqn:F; [|discriminate]. simpl. intro E. injection E as <-. simpl.
  assert (G : forall i a b, nth_error mx i = Some a -> nth_error mn i = Some b -> length a = d /\ length b = d).
  { intros i a b Ha Hb. rewrite forallb_combine in F by exact L. specialize (F i a b Ha Hb).
    simpl in F. apply andb_true_iff in F. destruct F as [F1 F2]. apply Nat.eqb_eq in F1, F2. auto. }
  repeat split; auto.
  - unfold rnum. simpl. rewrite app_length, map_length, combine_length, <- L, Nat.min_id. simpl. lia.
  - intros c Hc. apply In_nth_error in Hc. destruct Hc as [i Hi].
    destruct (nth_error mn i) as [b|] eqn:E; [exact (proj1 (G i c b Hi E))|].
    apply nth_error_None in E. apply nth_error_lt in Hi. lia.
  - intros c Hc. apply In_nth_error in Hc. destruct Hc as [i Hi].
    destruct (nth_error mx i) as [b|] eqn:E; [exact (proj2 (G i b c E Hi))|].
    apply nth_error_None in E. apply nth_error_lt in Hi. lia.
Qed.

Lemma rect_query_first d mx mn s x : rect_setup d mx mn = Ok s -> length x = d ->
  exists i dist, rect_query s x 1 = Ok [(i, dist)] /\
    cell_answer (length mx) (box_contains mn mx x) i dist.
Proof.
  intros HS Hx. destruct (rect_setup_ok _ _ _ _ HS) as (E1 & E2 & E3 & L & _ & W1 & W2).
  unfold rect_query. rewrite E1, E2, E3, Hx, Nat.eqb_refl. simpl.
  set (hits := map _ _). assert (Lh : length hits = length mx).
  { unfold hits. rewrite map_length, combine_length, <- L. apply Nat.min_id. }
  destruct (query_one hits (box_contains mn mx x)) as (i & dd & Hq & Ha).
  - intros i Hi. unfold hits. rewrite nth_error_map_eq, nth_error_combine. rewrite Lh in Hi.
    destruct (nth_error mn i) as [l|] eqn:El; [|apply nth_error_None in El; lia].
    destruct (nth_error mx i) as [r|] eqn:Er; [|apply nth_error_None in Er; lia].
    simpl. assert (length l = d) by (apply W2; eapply nth_error_In; eassumption).
    assert (length r = d) by (apply W1; eapply nth_error_In; eassumption).
    split.
    + intro H1. injection H1 as H1. exists l, r. repeat split; try assumption. 1,2: lia. all: apply in_rec_spec in H1; try lia; eapply H1; eassumption.
    + intros (l' & r' & Hl & Hr & Hb). pose proof (eq_trans (eq_sym El) Hl) as El'. injection El' as <-. pose proof (eq_trans (eq_sym Er) Hr) as Er'. injection Er' as <-.
      f_equal. apply in_rec_spec; [lia | lia | exact Hb].
  - exists i, dd. rewrite Hq. split; [reflexivity|]. rewrite <- Lh. exact Ha.
Qed.

(** ** Balls *)
Lemma ball_setup_ok d cs rs s : ball_setup d cs rs = Ok s ->
  bdim s = d /\ centers s = cs /\ radii s = rs /\ length cs = length rs /\ bnum s = S (length cs).
Proof.
  unfold ball_setup. destruct (Nat.eqb_spec (length cs) (length rs)) as [L|]; [|discriminate]. simpl.
  destruct (forallb _ _) eqn:F; [|discriminate]. simpl. intro E. injection E as <-. simpl.
  repeat split; auto. unfold bnum. simpl. rewrite app_length, map_length. simpl. lia.
Qed.

Lemma ball_query_first (norm_lt : point -> Qc -> bool) d cs rs s x : ball_setup d cs rs = Ok s -> length x = d ->
  exists i dist, ball_query norm_lt s x 1 = Ok [(i, dist)] /\
    cell_answer (length cs) (ball_contains (fun v r => norm_lt v r = true) cs rs x) i dist.
Proof.
  intros HS Hx. destruct (ball_setup_ok _ _ _ _ HS) as (E1 & E2 & E3 & L & _).
  unfold ball_query. rewrite E1, E2, E3, Hx, Nat.eqb_refl. simpl.
  set (hits := map _ _). assert (Lh : length hits = length cs).
  { unfold hits. rewrite map_length, combine_length, <- L. apply Nat.min_id. }
  destruct (query_one hits (ball_contains (fun v r => norm_lt v r = true) cs rs x)) as (i & dd & Hq & Ha).
  - intros i Hi. unfold hits. rewrite nth_error_map_eq, nth_error_combine. rewrite Lh in Hi.
    destruct (nth_error cs i) as [l|] eqn:El; [|apply nth_error_None in El; lia].
    destruct (nth_error rs i) as [r|] eqn:Er; [|apply nth_error_None in Er; lia].
    simpl. split.
    + intro H1. injection H1 as H1. exists l, r. auto.
    + intros (l' & r' & Hl & Hr & Hb). pose proof (eq_trans (eq_sym El) Hl) as El'. injection El' as <-. pose proof (eq_trans (eq_sym Er) Hr) as Er'. injection Er' as <-.
      f_equal. exact Hb.
  - exists i, dd. rewrite Hq. split; [reflexivity|]. rewrite <- Lh. exact Ha.
Qed.

(** ** k > 1 *)
Lemma query_k_entries hits k : exists a b : nat * xnum,
  (forall j, j < k -> nth_error (query_hits hits k) j = Some (if Nat.even j then a else b)) /\
  length (query_hits hits k) = k.
Proof.
  rewrite query_hits_eq. unfold row_of. destruct (hit_list 0 hits) as [|a [|b I]];
    eexists; eexists; (split; [intros j Hj; apply alt_nth, Hj | apply alt_length]).
Qed.

Lemma query_k_repeats hits k : 3 <= k -> ~ NoDup (map fst (query_hits hits k)).
Proof.
  intros H N. destruct (query_k_entries hits k) as (a & b & E & L).
  assert (E0 := E 0 ltac:(lia)). assert (E2 := E 2 ltac:(lia)). simpl in E0, E2.
  assert (F : forall j, nth_error (query_hits hits k) j = Some a -> nth_error (map fst (query_hits hits k)) j = Some (fst a)).
  { intros j Hj. rewrite nth_error_map_eq, Hj. reflexivity. }
  assert (0 = 2); [|discriminate].
  apply (proj1 (NoDup_nth_error _) N); [rewrite map_length; lia|].
  rewrite (F 0 E0), (F 2 E2). reflexivity.
Qed.

Lemma query_two_distinct hits : (exists i, nth_error hits i = Some true) -> NoDup (map fst (query_hits hits 2)).
Proof.
  intros [i Hi]. rewrite query_hits_eq. pose proof (hit_list_first hits) as F.
  destruct (hit_list 0 hits) as [|a [|b I]] eqn:E.
  - exfalso. exact (F i Hi).
  - destruct F as (F & _). simpl. constructor; [|constructor; [intros []|constructor]]. intros [H|[]]. lia.
  - simpl. destruct (hit_list_sorted 0 hits [] a (b :: I) E) as [_ H2]. specialize (H2 b (or_introl eq_refl)).
    constructor; [|constructor; [intros []|constructor]]. intros [H|[]]. lia.
Qed.

Lemma rect_query_k_repeats s x k row : 3 <= k -> rect_query s x k = Ok row -> ~ NoDup (map fst row).
Proof.
  unfold rect_query. intros Hk. destruct (negb _); [discriminate|]. intro H. injection H as <-.
  apply query_k_repeats, Hk.
Qed.
Lemma ball_query_k_repeats norm_lt s x k row : 3 <= k -> ball_query norm_lt s x k = Ok row -> ~ NoDup (map fst row).
Proof.
  unfold ball_query. intros Hk. destruct (negb _); [discriminate|]. intro H. injection H as <-.
  apply query_k_repeats, Hk.
Qed.
Lemma rect_query_2 d mx mn s x row : rect_setup d mx mn = Ok s -> length x = d ->
  (exists i, box_contains mn mx x i) -> rect_query s x 2 = Ok row -> NoDup (map fst row).
Proof.
  intros HS Hx (i & l & r & Hl & Hr & Hb). destruct (rect_setup_ok _ _ _ _ HS) as (E1 & E2 & E3 & L & _ & W1 & W2).
  unfold rect_query. rewrite E1, E2, E3, Hx, Nat.eqb_refl. simpl. intro H. injection H as <-.
  apply query_two_distinct. exists i. rewrite nth_error_map_eq, nth_error_combine, Hl, Hr. simpl. f_equal.
  apply in_rec_spec; try apply Hb.
Qed.

Definition unit_boxes : list point * list point := ([[1%Qc]; [Q2Qc 2]; [Q2Qc 3]], [[0%Qc]; [1%Qc]; [Q2Qc 2]]).
Lemma k_query_witness : exists s x row, rect_setup 1 (fst unit_boxes) (snd unit_boxes) = Ok s /\ 3 <= rnum s /\
  rect_query s x 3 = Ok row /\ map fst row = [0; 3; 0].
Proof. eexists. exists [1%Qc]. eexists. split; [reflexivity|]. split; [unfold rnum; simpl; lia|]. split; reflexivity. Qed.

(** ** Cartesian grids *)
Lemma grid_rest_map {A B} (f : A -> B) ls : grid_rest (map (map f) ls) = map (map f) (grid_rest ls).
Proof.
  induction ls as [|l ls IH]; [reflexivity|]. cbn [map grid_rest]. rewrite IH.
  rewrite flat_map_concat_map, map_map, flat_map_concat_map, concat_map, map_map. f_equal.
  apply map_ext. intro t. rewrite !map_map. reflexivity.
Qed.
Lemma mesh_rows_map {A B} (f : A -> B) ls : mesh_rows (map (map f) ls) = map (map f) (mesh_rows ls).
Proof.
  destruct ls as [|l0 [|l1 r]]; [reflexivity | cbn [map mesh_rows]; rewrite !map_map; reflexivity |].
  cbn [map mesh_rows]. rewrite grid_rest_map.
  rewrite !flat_map_concat_map, concat_map, !map_map. f_equal.
  apply map_ext. intro t. rewrite !flat_map_concat_map, concat_map, !map_map. f_equal.
  apply map_ext. intro a. rewrite !map_map. reflexivity.
Qed.

Lemma grid_rest_In {A} ls (c : list A) : In c (grid_rest ls) <-> Forall2 (@In A) c ls.
Proof.
  revert c; induction ls as [|l ls IH]; intro c; simpl.
  - split; [intros [<-|[]]; constructor | intro H; inversion H; left; reflexivity].
  - rewrite in_flat_map. split.
    + intros (t & Ht & Hc). apply in_map_iff in Hc. destruct Hc as (x & <- & Hx). constructor; [exact Hx | apply IH, Ht].
    + intro H. inversion H as [|x ? t ? Hx Ht]; subst. exists t. split; [apply IH, Ht | apply (in_map (fun y => y :: t)), Hx].
Qed.
Lemma mesh_rows_In {A} ls (c : list A) : ls <> [] -> In c (mesh_rows ls) <-> Forall2 (@In A) c ls.
Proof.
  destruct ls as [|l0 [|l1 r]]; intro N; [congruence | |]; simpl.
  - rewrite in_map_iff. split.
    + intros (x & <- & Hx). repeat constructor. exact Hx.
    + intro H. inversion H as [|x ? t ? Hx Ht]; subst. inversion Ht; subst. exists x. auto.
  - rewrite in_flat_map. split.
    + intros (t & Ht & Hc). apply in_flat_map in Hc. destruct Hc as (a & Ha & Hc).
      apply in_map_iff in Hc. destruct Hc as (b & <- & Hb). repeat constructor; try assumption. apply grid_rest_In, Ht.
    + intro H. inversion H as [|a ? t ? Ha Ht]; subst. inversion Ht as [|b ? u ? Hb Hu]; subst.
      exists u. split; [apply grid_rest_In, Hu|]. apply in_flat_map. exists a. split; [exact Ha|].
      apply in_map_iff. exists b. auto.
Qed.

Lemma NoDup_flat_map {A B} (f : A -> list B) l : NoDup l -> (forall a, In a l -> NoDup (f a)) ->
  (forall a b x, In a l -> In b l -> In x (f a) -> In x (f b) -> a = b) -> NoDup (flat_map f l).
Proof.
  induction l as [|a l IH]; intros N F D; simpl; [constructor|]. inversion N as [|? ? Na Nl]; subst.
  apply NoDup_app; [apply F; left; reflexivity | |].
  - apply IH; [exact Nl | intros; apply F; right; assumption | intros; eapply D; try (right; eassumption); eassumption].
  - intros x Hx Hx2. apply in_flat_map in Hx2. destruct Hx2 as (b & Hb & Hxb).
    assert (a = b) by (eapply D; [left; reflexivity | right; exact Hb | exact Hx | exact Hxb]). subst. contradiction.
Qed.
Lemma NoDup_map_inj {A B} (f : A -> B) l : (forall x y, f x = f y -> x = y) -> NoDup l -> NoDup (map f l).
Proof.
  intros I N. induction N as [|x l Hx N IH]; simpl; constructor; [|exact IH].
  intro H. apply in_map_iff in H. destruct H as (y & E & Hy). apply I in E. subst. contradiction.
Qed.
Lemma grid_rest_NoDup {A} (ls : list (list A)) : (forall l, In l ls -> NoDup l) -> NoDup (grid_rest ls).
Proof.
  induction ls as [|l ls IH]; intro H; simpl; [repeat constructor; intros []|].
  apply NoDup_flat_map.
  - apply IH. intros; apply H; right; assumption.
  - intros t _. apply NoDup_map_inj; [congruence | apply H; left; reflexivity].
  - intros a b x _ _ Ha Hb. apply in_map_iff in Ha, Hb. destruct Ha as (? & <- & _), Hb as (? & E & _). congruence.
Qed.
Lemma mesh_rows_NoDup {A} (ls : list (list A)) : (forall l, In l ls -> NoDup l) -> NoDup (mesh_rows ls).
Proof.
  destruct ls as [|l0 [|l1 r]]; intro H; cbn [mesh_rows]; [constructor | apply NoDup_map_inj; [congruence | apply H; left; reflexivity] |].
  apply NoDup_flat_map.
  - apply grid_rest_NoDup. intros; apply H; right; right; assumption.
  - intros t _. apply NoDup_flat_map.
    + apply H; left; reflexivity.
    + intros a _. apply NoDup_map_inj; [congruence | apply H; right; left; reflexivity].
    + intros a b x _ _ Ha Hb. apply in_map_iff in Ha, Hb. destruct Ha as (? & <- & _), Hb as (? & E & _). congruence.
  - intros t u x _ _ Ha Hb. apply in_flat_map in Ha, Hb. destruct Ha as (? & _ & Ha), Hb as (? & _ & Hb).
    apply in_map_iff in Ha, Hb. destruct Ha as (? & <- & _), Hb as (? & E & _). congruence.
Qed.

Lemma flat_map_const_length {A B} (f : A -> list B) l n : (forall a, length (f a) = n) -> length (flat_map f l) = length l * n.
Proof. intro H. induction l as [|a l IH]; simpl; [reflexivity|]. rewrite app_length, IH, H. reflexivity. Qed.
Lemma grid_rest_length {A} (ls : list (list A)) : length (grid_rest ls) = nat_prod (map (@length A) ls).
Proof.
  induction ls as [|l ls IH]; simpl; [reflexivity|].
  rewrite (flat_map_const_length _ _ (length l)) by (intro; apply map_length). rewrite IH. unfold nat_prod. lia.
Qed.
Lemma mesh_rows_length {A} (ls : list (list A)) : ls <> [] -> length (mesh_rows ls) = nat_prod (map (@length A) ls).
Proof.
  destruct ls as [|l0 [|l1 r]]; intro N; [congruence | |]; cbn [mesh_rows map].
  - rewrite map_length. unfold nat_prod. simpl. lia.
  - rewrite (flat_map_const_length _ _ (length l0 * length l1)).
    + rewrite grid_rest_length. unfold nat_prod. simpl. lia.
    + intro t. apply flat_map_const_length. intro. apply map_length.
Qed.

Definition ivs (l : list Qc) : list (Qc * Qc) := combine (lowers l) (uppers l).
Lemma ivs_cons a b l : ivs (a :: b :: l) = (a, b) :: ivs (b :: l).
Proof. reflexivity. Qed.
Lemma ivs_fst l : map fst (ivs l) = lowers l.
Proof.
  induction l as [|a [|b l] IH]; try reflexivity.
  rewrite ivs_cons. cbn [map fst]. rewrite IH. reflexivity.
Qed.
Lemma ivs_snd l : map snd (ivs l) = uppers l.
Proof.
  induction l as [|a [|b l] IH]; try reflexivity.
  rewrite ivs_cons. cbn [map snd]. rewrite IH. reflexivity.
Qed.
Lemma ivs_length l : length (ivs l) = length l - 1.
Proof. rewrite <- (map_length snd), ivs_snd. unfold uppers. destruct l; simpl; lia. Qed.
Lemma ivs_consecutive l a b : In (a, b) (ivs l) <-> exists m, nth_error l m = Some a /\ nth_error l (S m) = Some b.
Proof.
  induction l as [|x [|y l] IH].
  - simpl. split; [intros [] | intros (m & H & _); destruct m; discriminate].
  - simpl. split; [intros [] | intros (m & _ & H)]. destruct m; discriminate.
  - rewrite ivs_cons. simpl In. rewrite IH. split.
    + intros [E|(m & H1 & H2)]; [injection E as -> ->; exists 0; auto | exists (S m); auto].
    + intros ([|m] & H1 & H2); [left; simpl in *; congruence | right; exists m; auto].
Qed.
Lemma increasing_lt l : increasing l -> forall i j a b, i < j -> nth_error l i = Some a -> nth_error l j = Some b -> (a < b)%Qc.
Proof.
  induction l as [|x l IH]; intros H i j a b Hij Ha Hb; [destruct i; discriminate|].
  destruct j as [|j]; [lia|]. simpl in Hb. destruct l as [|y l]; [destruct j; discriminate|].
  destruct H as [H1 H2]. destruct i as [|i].
  - simpl in Ha. injection Ha as ->. destruct j as [|j]; [simpl in Hb; injection Hb as <-; exact H1|].
    eapply Qclt_trans; [exact H1|]. eapply (IH H2 0 (S j)); [lia | reflexivity | exact Hb].
  - apply (IH H2 i j); [lia | exact Ha | exact Hb].
Qed.
Lemma ivs_cover l v : increasing l -> 2 <= length l -> (hd 0 l < v)%Qc -> (v <= last l 0)%Qc ->
  exists p, In p (ivs l) /\ (fst p < v)%Qc /\ (v <= snd p)%Qc.
Proof.
  induction l as [|x [|y l] IH]; intros I L H1 H2; simpl in L; try lia.
  destruct (qleb v y) eqn:E.
  - apply qleb_true in E. exists (x, y). rewrite ivs_cons. repeat split; [left; reflexivity | exact H1 | exact E].
  - apply qleb_false in E. destruct l as [|z l].
    + exfalso. simpl in H2. eapply Qcle_not_lt; eassumption.
    + destruct IH as (p & Hp & Hv); [apply I | simpl; lia | exact E | exact H2 |].
      exists p. rewrite ivs_cons. split; [right; exact Hp | exact Hv].
Qed.
Lemma ivs_unique l v p q : increasing l -> In p (ivs l) -> In q (ivs l) ->
  (fst p < v)%Qc -> (v <= snd p)%Qc -> (fst q < v)%Qc -> (v <= snd q)%Qc -> p = q.
Proof.
  destruct p as [a b], q as [c d]. intros I Hp Hq. rewrite ivs_consecutive in Hp, Hq.
  destruct Hp as (i & Hi & Hi'), Hq as (j & Hj & Hj'). simpl. intros A1 A2 B1 B2.
  destruct (Nat.lt_trichotomy i j) as [H|[H|H]].
  - exfalso. assert (b <= c)%Qc; [|apply (Qcle_not_lt v b A2); eapply Qcle_lt_trans; eassumption].
    destruct (Nat.eq_dec (S i) j) as [<-|N]; [replace c with b by congruence; apply Qcle_refl|].
    apply Qclt_le_weak. eapply (increasing_lt l I (S i) j); [lia | eassumption | eassumption].
  - subst j. congruence.
  - exfalso. assert (d <= a)%Qc; [|apply (Qcle_not_lt v d B2); eapply Qcle_lt_trans; eassumption].
    destruct (Nat.eq_dec (S j) i) as [<-|N]; [replace a with d by congruence; apply Qcle_refl|].
    apply Qclt_le_weak. eapply (increasing_lt l I (S j) i); [lia | eassumption | eassumption].
Qed.
Lemma ivs_inside l p v : increasing l -> In p (ivs l) -> (fst p < v)%Qc -> (v <= snd p)%Qc -> (hd 0 l < v)%Qc /\ (v <= last l 0)%Qc.
Proof.
  induction l as [|x [|y l] IH]; intros I Hp H1 H2; try destruct Hp.
  - subst p. simpl in H1, H2. split; [exact H1|]. 
    clear IH. destruct I as [_ I]. revert y I H2. induction l as [|z l IHl]; intros y I H2; [exact H2|].
    change (v <= last (y :: z :: l) 0)%Qc. simpl. apply (IHl z); [apply I|]. eapply Qcle_trans; [exact H2 | apply Qclt_le_weak, I].
  - destruct IH as [G1 G2]; [apply I | exact H | exact H1 | exact H2 |]. split; [|exact G2].
    eapply Qclt_trans; [apply I | exact G1].
Qed.
Lemma ivs_NoDup l : increasing l -> NoDup (ivs l).
Proof.
  intro I. apply (NoDup_map_inv fst). rewrite ivs_fst.
  assert (N : NoDup l).
  { apply NoDup_nth_error. intros i j Hi E. destruct (nth_error l i) as [a|] eqn:Ea; [|apply nth_error_None in Ea; lia].
    destruct (Nat.lt_trichotomy i j) as [H|[H|H]]; [|exact H|]; exfalso;
      eapply (Qclt_not_eq a a); try reflexivity; eapply (increasing_lt l I); try exact H; congruence. }
  destruct l as [|x l]; [constructor|]. unfold lowers.
  assert (D : x :: l <> []) by discriminate. rewrite (app_removelast_last 0%Qc D) in N.
  apply NoDup_remove_1 in N. rewrite app_nil_r in N. exact N.
Qed.

(** ** The grid as a rectangle set *)
Lemma cart_setup_ok d xi : length xi = d -> 1 <= d -> (forall l, In l xi -> breakpoints l) ->
  exists s, cart_setup d xi = Ok s /\ lefts s = map (map fst) (mesh_rows (map ivs xi)) /\
    rights s = map (map snd) (mesh_rows (map ivs xi)) /\ rdim s = d /\
    rect_setup d (map (map snd) (mesh_rows (map ivs xi))) (map (map fst) (mesh_rows (map ivs xi))) = Ok s.
Proof.
  intros L D B.
  assert (EU : map uppers xi = map (map snd) (map ivs xi)).
  { rewrite map_map. apply map_ext. intro l. symmetry. apply ivs_snd. }
  assert (EL : map lowers xi = map (map fst) (map ivs xi)).
  { rewrite map_map. apply map_ext. intro l. symmetry. apply ivs_fst. }
  assert (NE : forall l, In l (map uppers xi) -> l <> []).
  { intros l Hl. apply in_map_iff in Hl. destruct Hl as (k & <- & Hk). destruct (B k Hk) as [L2 _].
    destruct k as [|a [|b k]]; simpl in L2; try lia. discriminate. }
  unfold cart_setup. rewrite L, Nat.eqb_refl. cbn [negb].
  assert (O : exists o, outer_axis (map uppers xi) = Some o /\ o <> []).
  { destruct (map uppers xi) as [|l0 [|l1 [|l2 r]]] eqn:E.
    - destruct xi; [simpl in L; lia | discriminate].
    - exists [0%Qc]. split; [reflexivity | discriminate].
    - exists l0. split; [reflexivity | apply NE; left; reflexivity].
    - exists (last (l0 :: l1 :: l2 :: r) []). split; [reflexivity|]. apply NE.
      assert (N : l0 :: l1 :: l2 :: r <> []) by discriminate.
      rewrite (app_removelast_last [] N) at 2. apply in_or_app. right. left. reflexivity. }
  destruct O as (o & -> & No). destruct o as [|o1 o2]; [congruence|].
  rewrite EU, EL, !mesh_rows_map.
  set (M := mesh_rows (map ivs xi)).
  assert (W : forall c, In c M -> length c = d).
  { intros c Hc. apply mesh_rows_In in Hc; [|destruct xi; [simpl in L; lia | discriminate]].
    apply Forall2_length in Hc. rewrite Hc, map_length. exact L. }
  assert (RS : exists s, rect_setup d (map (map snd) M) (map (map fst) M) = Ok s).
  { unfold rect_setup. rewrite !map_length, Nat.eqb_refl. cbn [negb].
    match goal with |- context [forallb ?f ?l] => assert (F : forallb f l = true) end;
      [|rewrite F; eexists; reflexivity].
    apply forallb_combine; [rewrite !map_length; reflexivity|].
    intros j a b Ha Hb. simpl. rewrite nth_error_map_eq in Ha, Hb.
    destruct (nth_error M j) as [c|] eqn:Ec; [|discriminate]. simpl in Ha, Hb. injection Ha as <-. injection Hb as <-.
    rewrite !map_length, (W c) by (eapply nth_error_In; eassumption). rewrite Nat.eqb_refl. reflexivity. }
  destruct RS as (s & HS). exists s. split; [exact HS|].
  destruct (rect_setup_ok _ _ _ _ HS) as (E1 & E2 & E3 & _). auto.
Qed.

Lemma Forall2_nth {A B} (R : A -> B -> Prop) l m : Forall2 R l m <->
  length l = length m /\ forall j a b, nth_error l j = Some a -> nth_error m j = Some b -> R a b.
Proof.
  split.
  - intro F. split; [eapply Forall2_length; eassumption|]. induction F as [|x y l m H F IH]; intros [|j] a b Ha Hb; simpl in *; try discriminate.
    + congruence.
    + eapply IH; eassumption.
  - revert m; induction l as [|x l IH]; intros [|y m] [L H]; simpl in L; try discriminate; constructor.
    + apply (H 0); reflexivity.
    + apply IH. split; [lia|]. intros j a b Ha Hb. apply (H (S j)); assumption.
Qed.

Lemma in_box_pairs x (c : list (Qc * Qc)) : in_box x (map fst c) (map snd c) <->
  Forall2 (fun v p => (fst p < v)%Qc /\ (v <= snd p)%Qc) x c.
Proof.
  rewrite Forall2_nth. unfold in_box. rewrite !map_length. split.
  - intros (L & _ & H). split; [exact L|]. intros j a p Ha Hp. eapply H; [exact Ha | |]; rewrite nth_error_map_eq, Hp; reflexivity.
  - intros [L H]. repeat split; try exact L; rewrite nth_error_map_eq in *;
      destruct (nth_error c j) as [p|] eqn:Ep; try discriminate; simpl in *;
      specialize (H j a p H0 Ep); injection H1 as <-; injection H2 as <-; apply H.
Qed.

Lemma grid_point xi x : (forall l, In l xi -> breakpoints l) ->
  in_outer_box xi x <-> exists c, In c (grid_rest (map ivs xi)) /\ in_box x (map fst c) (map snd c).
Proof.
  intro B. split.
  - intros [L H]. revert x L H. induction xi as [|l xi IH]; intros [|v x] L H; simpl in L; try discriminate.
    + exists []. split; [left; reflexivity|]. apply in_box_pairs. constructor.
    + destruct (IH) with (x := x) as (c & Hc & Hb); [intros; apply B; right; assumption | lia | intros j a k Ha Hk; apply (H (S j)); assumption |].
      destruct (B l (or_introl eq_refl)) as [L2 I]. destruct (H 0 v l eq_refl eq_refl) as [H1 H2].
      destruct (ivs_cover l v I L2 H1 H2) as (p & Hp & Hv).
      exists (p :: c). split.
      * apply grid_rest_In. constructor; [exact Hp | apply grid_rest_In, Hc].
      * apply in_box_pairs. constructor; [exact Hv | apply in_box_pairs, Hb].
  - intros (c & Hc & Hb). apply grid_rest_In in Hc. apply in_box_pairs in Hb.
    revert x Hb. revert c Hc. induction xi as [|l xi IH]; intros c Hc x Hb.
    + inversion Hc; subst. inversion Hb; subst. split; [reflexivity|]. intros j a l _ Hl. destruct j; discriminate.
    + inversion Hc as [|p ? c' ? Hp Hc']; subst. inversion Hb as [|v ? x' ? Hv Hb']; subst.
      destruct (IH (fun k Hk => B k (or_intror Hk)) c' Hc' x' Hb') as [L H].
      split; [simpl; lia|]. intros [|j] a k Ha Hk; simpl in *; [|eapply H; eassumption].
      injection Ha as <-. injection Hk as <-.
      destruct (B l (or_introl eq_refl)) as [_ I]. apply (ivs_inside l p v I Hp); apply Hv.
Qed.

Lemma grid_point_unique xi x c c' : (forall l, In l xi -> breakpoints l) ->
  Forall2 (@In _) c (map ivs xi) -> Forall2 (@In _) c' (map ivs xi) ->
  in_box x (map fst c) (map snd c) -> in_box x (map fst c') (map snd c') -> c = c'.
Proof.
  intros B. revert c c' x. induction xi as [|l xi IH]; intros c c' x Hc Hc' Hb Hb'.
  - inversion Hc; inversion Hc'; subst. reflexivity.
  - rewrite in_box_pairs in Hb, Hb'.
    inversion Hc as [|p ? d ? Hp Hd]; subst. inversion Hc' as [|p' ? d' ? Hp' Hd']; subst.
    inversion Hb as [|v ? x' ? Hv Hb1]; subst. inversion Hb' as [|? ? ? ? Hv' Hb1']; subst.
    f_equal.
    + destruct (B l (or_introl eq_refl)) as [_ I]. apply (ivs_unique l v p p' I Hp Hp'); [apply Hv | apply Hv | apply Hv' | apply Hv'].
    + apply (IH (fun k Hk => B k (or_intror Hk)) d d' x'); try assumption; apply in_box_pairs; assumption.
Qed.

Lemma same_cells xi (c : list (Qc * Qc)) : xi <> [] -> In c (mesh_rows (map ivs xi)) <-> In c (grid_rest (map ivs xi)).
Proof. intro N. rewrite mesh_rows_In, grid_rest_In by (destruct xi; [congruence | discriminate]). reflexivity. Qed.

Lemma cart_partition d xi : length xi = d -> 1 <= d -> (forall l, In l xi -> breakpoints l) ->
  exists s, cart_setup d xi = Ok s /\
    (* one cell per combination of consecutive breakpoints, and the remainder *)
    rnum s = S (nat_prod (map (fun l => length l - 1) xi)) /\
    (forall l r, grid_cell xi l r <-> exists i, nth_error (lefts s) i = Some l /\ nth_error (rights s) i = Some r) /\
    NoDup (combine (lefts s) (rights s)) /\
    (* each point of the outer box lies in exactly one cell, and query finds it *)
    (forall x, in_outer_box xi x -> exists i, i < rnum s - 1 /\ box_contains (lefts s) (rights s) x i /\
       (forall j, box_contains (lefts s) (rights s) x j -> j = i) /\ rect_query s x 1 = Ok [(i, Fin 0%Qc)]) /\
    (* any other point is in the remainder *)
    (forall x, length x = d -> ~ in_outer_box xi x ->
       (forall j, ~ box_contains (lefts s) (rights s) x j) /\ rect_query s x 1 = Ok [(rnum s - 1, PInf)]).
Proof.
  intros L D B. destruct (cart_setup_ok d xi L D B) as (s & HS & EL & ER & Ed & HR). exists s. split; [exact HS|].
  assert (NX : xi <> []) by (destruct xi; [simpl in L; lia | discriminate]).
  set (M := mesh_rows (map ivs xi)) in *.
  destruct (rect_setup_ok _ _ _ _ HR) as (_ & _ & _ & _ & EN & _).
  assert (LM : length M = nat_prod (map (fun l => length l - 1) xi)).
  { unfold M. rewrite mesh_rows_length by (destruct xi; [congruence | discriminate]). rewrite map_map. f_equal.
    apply map_ext. intro l. apply ivs_length. }
  rewrite map_length, LM in EN.
  assert (NM : NoDup M).
  { apply mesh_rows_NoDup. intros l Hl. apply in_map_iff in Hl. destruct Hl as (k & <- & Hk). apply ivs_NoDup, B, Hk. }
  assert (CM : combine (lefts s) (rights s) = map (fun c => (map fst c, map snd c)) M).
  { rewrite EL, ER. clear. induction M as [|c M IH]; simpl; [reflexivity | rewrite IH; reflexivity]. }
  assert (BC : forall x i, box_contains (lefts s) (rights s) x i <-> exists c, nth_error M i = Some c /\ in_box x (map fst c) (map snd c)).
  { intros x i. unfold box_contains. rewrite EL, ER. setoid_rewrite nth_error_map_eq. split.
    - intros (l & r & Hl & Hr & Hb). destruct (nth_error M i) as [c|]; [|discriminate]. simpl in *.
      injection Hl as <-. injection Hr as <-. eauto.
    - intros (c & Hc & Hb). rewrite Hc. simpl. eauto. }
  split; [exact EN|]. split; [|split; [|split]].
  - intros l r. split.
    + intros (L1 & L2 & H).
      assert (Hin : In (combine l r) M).
      { apply mesh_rows_In; [destruct xi; [congruence | discriminate]|].
        apply Forall2_nth. split; [rewrite combine_length, map_length; lia|].
        intros j p m Hp Hm. rewrite nth_error_combine in Hp. rewrite nth_error_map_eq in Hm.
        destruct (nth_error xi j) as [k|] eqn:Ek; [|discriminate]. simpl in Hm. injection Hm as <-.
        destruct (nth_error l j) as [a|] eqn:Ea; [|discriminate]. destruct (nth_error r j) as [b|] eqn:Eb; [|discriminate].
        injection Hp as <-. apply ivs_consecutive. eapply H; eassumption. }
      apply In_nth_error in Hin. destruct Hin as (i & Hi). exists i. rewrite EL, ER, !nth_error_map_eq, Hi. simpl.
      assert (C1 : forall (u w : list Qc), length u = length w -> map fst (combine u w) = u /\ map snd (combine u w) = w).
      { induction u as [|a u IH]; intros [|b w] E; simpl in *; try discriminate; [auto|].
        destruct (IH w ltac:(lia)) as [-> ->]. auto. }
      destruct (C1 l r ltac:(lia)) as [-> ->]. auto.
    + intros (i & Hl & Hr). rewrite EL, nth_error_map_eq in Hl. rewrite ER, nth_error_map_eq in Hr.
      destruct (nth_error M i) as [c|] eqn:Ec; [|discriminate]. simpl in Hl, Hr. injection Hl as <-. injection Hr as <-.
      apply nth_error_In in Ec. apply mesh_rows_In in Ec; [|destruct xi; [congruence | discriminate]].
      apply Forall2_nth in Ec. rewrite map_length in Ec. destruct Ec as [Lc Hc].
      split; [rewrite map_length; exact Lc|]. split; [rewrite map_length; exact Lc|].
      intros j l a b Hl Ha Hb. rewrite nth_error_map_eq in Ha, Hb.
      destruct (nth_error c j) as [[p q]|] eqn:Ep; [|discriminate]. simpl in Ha, Hb. injection Ha as <-. injection Hb as <-.
      apply ivs_consecutive. apply (Hc j); [exact Ep|]. rewrite nth_error_map_eq, Hl. reflexivity.
  - rewrite CM. apply NoDup_map_inj; [|exact NM].
    intros c c' E. injection E as E1 E2. clear -E1 E2. revert c' E1 E2.
    induction c as [|[a b] c IH]; intros [|[a' b'] c'] E1 E2; simpl in *; try discriminate; [reflexivity|].
    injection E1 as -> E1. injection E2 as -> E2. f_equal. apply IH; assumption.
  - intros x Hx. destruct (proj1 (grid_point xi x B) Hx) as (c & Hc & Hb).
    apply same_cells in Hc; [|exact NX]. fold M in Hc.
    assert (U : forall c', In c' M -> in_box x (map fst c') (map snd c') -> c' = c).
    { intros c' Hc' Hb'. eapply (grid_point_unique xi x); [exact B | | | exact Hb' | exact Hb];
        (apply mesh_rows_In; [destruct xi; [congruence | discriminate] | assumption]). }
    apply In_nth_error in Hc. destruct Hc as (i & Hi). exists i.
    assert (Hil : i < rnum s - 1) by (rewrite EN; pose proof (nth_error_lt _ _ _ Hi) as Hlt; rewrite LM in Hlt; lia).
    assert (Hbi : box_contains (lefts s) (rights s) x i) by (apply BC; eauto).
    assert (Hu : forall j, box_contains (lefts s) (rights s) x j -> j = i).
    { intros j Hj. apply BC in Hj. destruct Hj as (c' & Hj & Hb'). assert (c' = c) by (apply U; [eapply nth_error_In; eassumption | exact Hb']). subst c'.
      apply (proj1 (NoDup_nth_error M) NM); [eapply nth_error_lt; eassumption | congruence]. }
    repeat split; try assumption.
    destruct (rect_query_first _ _ _ _ x HR ltac:(destruct Hx; lia)) as (k & dd & Hq & Ha).
    rewrite Hq. rewrite map_length, <- EL, <- ER in Ha. destruct Ha as [[Ha ->]|(_ & _ & Ha)].
    + destruct Ha as (_ & Hk & _). rewrite (Hu k Hk). reflexivity.
    + exfalso. apply (Ha i); [eapply nth_error_lt; eassumption | exact Hbi].
  - intros x Lx Hx. assert (No : forall j, ~ box_contains (lefts s) (rights s) x j).
    { intros j Hj. apply BC in Hj. destruct Hj as (c & Hj & Hb). apply Hx. apply grid_point; [exact B|].
      exists c. split; [apply same_cells; [exact NX|]; eapply nth_error_In; eassumption | exact Hb]. }
    split; [exact No|].
    destruct (rect_query_first _ _ _ _ x HR ltac:(lia)) as (k & dd & Hq & Ha).
    rewrite Hq. rewrite map_length, <- EL, <- ER in Ha. destruct Ha as [[(_ & Hk & _) _]|(-> & -> & _)].
    + destruct (No k Hk).
    + rewrite EN, LM. simpl. rewrite Nat.sub_0_r. reflexivity.
Qed.
