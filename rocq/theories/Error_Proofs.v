From Coq Require Import List Arith Lia Bool QArith Qcanon Permutation.
From Verif Require Import Err Num Ext NumPy Lists Query_Proofs Volume_Spec Volume_Proofs Prob_Model Prob_Spec Prob_Proofs Error_Model Error_Spec.
Import ListNotations.
Local Open Scope nat_scope.

(** * Connectivity *)
Lemma position_some v l i : position v l = Some i -> nth_error l i = Some v.
Proof.
  revert i; induction l as [|x l IH]; simpl; intros i H; [discriminate|].
  destruct (x =? v) eqn:E.
  - injection H as <-. apply Nat.eqb_eq in E. subst. reflexivity.
  - destruct (position v l) as [j|]; [|discriminate]. injection H as <-. simpl. apply IH. reflexivity.
Qed.
Lemma position_in v l : In v l -> exists i, position v l = Some i.
Proof.
  induction l as [|x l IH]; simpl; [easy|]. intros H.
  destruct (x =? v) eqn:E; [eexists; reflexivity|].
  destruct H as [->|H]; [rewrite Nat.eqb_refl in E; discriminate|].
  destruct (IH H) as [i ->]. eexists; reflexivity.
Qed.

Lemma links_1D_spec s todo : (forall p o, In (p, o) todo -> 0 < o -> In (o - 1) s) -> exists links,
  links_1D s todo = Ok links /\
  forall p q, In (p, q) links <-> exists o, In (p, S o) todo /\ position o s = Some q.
Proof.
  induction todo as [|[p o] todo IH]; intros H.
  - exists []. split; [reflexivity|]. intros p q. simpl. split; [easy|]. intros (o & [] & _).
  - destruct IH as (links & E & Hl); [intros p' o' Hin; apply (H p' o'); right; exact Hin|].
    simpl. destruct (0 <? o) eqn:Eo.
    + apply Nat.ltb_lt in Eo. destruct (position_in (o - 1) s (H p o (or_introl eq_refl) Eo)) as [q Hq].
      rewrite Hq, E. simpl. exists ((p, q) :: links). split; [reflexivity|].
      intros p' q'. simpl. split.
      * intros [Heq|Hin].
        -- injection Heq as <- <-. exists (o - 1). split; [|exact Hq]. left. f_equal. lia.
        -- apply Hl in Hin. destruct Hin as (o' & Ho & Hp). exists o'. auto.
      * intros (o' & [Heq|Ho] & Hp).
        -- injection Heq as <- ->. left. f_equal. replace (S o' - 1) with o' in Hq by lia. congruence.
        -- right. apply Hl. eauto.
    + exists links. split; [exact E|]. apply Nat.ltb_ge in Eo. intros p' q'. rewrite Hl. split.
      * intros (o' & Ho & Hp). exists o'. auto.
      * intros (o' & [Heq|Ho] & Hp); [injection Heq as <- ->; lia|eauto].
Qed.

Lemma nei_of_spec io links i e : In e (nei_of io links i) <->
  exists q, (In (i, q) links \/ In (q, i) links) /\ nth_error io q = Some e.
Proof.
  unfold nei_of. rewrite nodup_In, in_flat_map. split.
  - intros ([a b] & Hin & H). simpl in H. apply in_app_or in H. destruct H as [H|H].
    + destruct (a =? i) eqn:E; [|easy]. apply Nat.eqb_eq in E. subst.
      destruct (nth_error io b) eqn:Eb; [|easy]. destruct H as [->|[]]. exists b. auto.
    + destruct (b =? i) eqn:E; [|easy]. apply Nat.eqb_eq in E. subst.
      destruct (nth_error io a) eqn:Eb; [|easy]. destruct H as [->|[]]. exists a. auto.
  - intros (q & [H|H] & E).
    + exists (i, q). split; [exact H|]. simpl. rewrite Nat.eqb_refl, E. apply in_or_app. left. left. reflexivity.
    + exists (q, i). split; [exact H|]. simpl. rewrite Nat.eqb_refl, E. apply in_or_app. right. left. reflexivity.
Qed.
Lemma nei_list_spec io links : (forall p q, In (p, q) links -> p < length io /\ q < length io) -> exists nei,
  nei_list io links = Ok nei /\ neighbour_table io nei /\
  forall p l, nth_error nei p = Some l -> forall e, In e l <->
    exists q, (In (p, q) links \/ In (q, p) links) /\ nth_error io q = Some e.
Proof.
  intro H. unfold nei_list.
  assert (V : links_valid (length io) links = true).
  { apply forallb_forall. intros [p q] Hin. apply H in Hin. simpl. apply andb_true_iff. rewrite !Nat.ltb_lt. exact Hin. }
  rewrite V. eexists. split; [reflexivity|]. split.
  - split; [rewrite map_length, seq_length; reflexivity|].
    intros l Hl. apply in_map_iff in Hl. destruct Hl as (i & <- & _). apply NoDup_nodup.
  - intros p l Hp e. rewrite nth_error_map in Hp. destruct (nth_error (seq 0 (length io)) p) as [k|] eqn:Ek; [|discriminate].
    injection Hp as <-. assert (k = p) as ->.
    { rewrite nth_error_seq in Ek. destruct (p <? length io); simpl in Ek; congruence. }
    apply nei_of_spec.
Qed.

Section Line.
Variable x : list Qc.
Variable s : list nat.
Hypothesis Hs : is_argsort x s.
Hypothesis Hx : NoDup x.
Hypothesis Hinv : forall i j, nth_error s i = Some j -> nth_error s j = Some i.

Lemma s_length : length s = length x.
Proof. destruct Hs as [P _]. apply Permutation_length in P. rewrite seq_length in P. exact P. Qed.
Lemma s_range i j : nth_error s i = Some j -> j < length x.
Proof. intro H. destruct Hs as [P _]. apply nth_error_In in H. apply (Permutation_in _ P) in H. apply in_seq in H. lia. Qed.
Lemma s_nodup : NoDup s.
Proof. destruct Hs as [P _]. apply (Permutation_NoDup (Permutation_sym P)). apply seq_NoDup. Qed.
Lemma rank_lt p q rp rq : nth_error s p = Some rp -> nth_error s q = Some rq -> rp < rq -> (nth p x 0 < nth q x 0)%Qc.
Proof.
  intros Hp Hq Hlt. destruct Hs as [_ S].
  pose proof (S rp rq p q Hlt (Hinv _ _ Hp) (Hinv _ _ Hq)) as L.
  apply Qcle_lt_or_eq in L. destruct L as [L|L]; [exact L|].
  exfalso. assert (p = q); [|subst; rewrite Hp in Hq; injection Hq; lia].
  apply (proj1 (NoDup_nth x 0%Qc) Hx); [eapply s_range, Hinv, Hp|eapply s_range, Hinv, Hq|exact L].
Qed.
Lemma rank_of p : p < length x -> exists r, nth_error s p = Some r.
Proof. intro H. destruct (nth_error s p) eqn:E; [eauto|]. apply nth_error_None in E. rewrite s_length in E. lia. Qed.
Lemma rank_lt_iff p q rp rq : nth_error s p = Some rp -> nth_error s q = Some rq -> ((nth p x 0 < nth q x 0)%Qc <-> rp < rq).
Proof.
  intros Hp Hq. split; [|apply rank_lt; assumption]. intro L.
  destruct (Nat.lt_trichotomy rp rq) as [H|[H|H]]; [exact H| |].
  - subst. assert (p = q) by (apply (proj1 (NoDup_nth_error s) s_nodup); [rewrite s_length; eapply s_range, Hinv, Hp|congruence]).
    subst. exfalso. revert L. apply Qcle_not_lt. apply Qcle_refl.
  - exfalso. revert L. apply Qcle_not_lt. apply Qclt_le_weak. eapply rank_lt; eassumption.
Qed.

Lemma adjacent_rank p q rp rq : nth_error s p = Some rp -> nth_error s q = Some rq ->
  (adjacent x p q <-> (rp = S rq \/ rq = S rp)).
Proof.
  intros Hp Hq.
  pose proof (s_range _ _ (Hinv _ _ Hp)) as Lp. pose proof (s_range _ _ (Hinv _ _ Hq)) as Lq.
  assert (Ep : nth_error x p = Some (nth p x 0%Qc)) by (apply nth_error_nth'; exact Lp).
  assert (Eq : nth_error x q = Some (nth q x 0%Qc)) by (apply nth_error_nth'; exact Lq).
  split.
  - intros (Hne & a & b & Ha & Hb & Hno).
    assert (a = nth p x 0%Qc) by congruence. assert (b = nth q x 0%Qc) by congruence. subst a b.
    destruct (Nat.lt_trichotomy rp rq) as [H|[H|H]].
    + destruct (Nat.eq_dec rq (S rp)) as [E|E]; [auto|]. exfalso.
      assert (L : S rp < length x) by (pose proof (s_range _ _ Hq); lia).
      destruct (rank_of _ L) as [k Hk]. apply Hinv in Hk.
      apply (proj1 (Hno (nth k x 0%Qc) (nth_In x 0%Qc (s_range _ _ (Hinv _ _ Hk))))).
      split; [apply (rank_lt_iff p k rp (S rp))|apply (rank_lt_iff k q (S rp) rq)]; auto; lia.
    + subst. exfalso. apply Hne. apply (proj1 (NoDup_nth_error s) s_nodup); [rewrite s_length; exact Lp|congruence].
    + destruct (Nat.eq_dec rp (S rq)) as [E|E]; [auto|]. exfalso.
      assert (L : S rq < length x) by (pose proof (s_range _ _ Hp); lia).
      destruct (rank_of _ L) as [k Hk]. apply Hinv in Hk.
      apply (proj2 (Hno (nth k x 0%Qc) (nth_In x 0%Qc (s_range _ _ (Hinv _ _ Hk))))).
      split; [apply (rank_lt_iff q k rq (S rq))|apply (rank_lt_iff k p (S rq) rp)]; auto; lia.
  - intro H. split.
    + intro E. subst. rewrite Hp in Hq. injection Hq. lia.
    + exists (nth p x 0%Qc), (nth q x 0%Qc). split; [exact Ep|]. split; [exact Eq|]. intros c Hc.
      destruct (In_nth x c 0%Qc Hc) as (k & Lk & <-). destruct (rank_of k Lk) as [rk Hk].
      rewrite (rank_lt_iff p k rp rk Hp Hk), (rank_lt_iff k q rk rq Hk Hq), (rank_lt_iff q k rq rk Hq Hk), (rank_lt_iff k p rk rp Hk Hp).
      lia.
Qed.
End Line.

Lemma in_combine_seq' {A} (l : list A) a p v : In (p, v) (combine (seq a (length l)) l) <-> a <= p /\ nth_error l (p - a) = Some v.
Proof.
  revert a. induction l as [|y l IH]; intro a; simpl.
  - split; [easy|]. intros [_ H]. destruct (p - a); discriminate.
  - rewrite IH. split.
    + intros [H|[H E]].
      * injection H as -> ->. rewrite Nat.sub_diag. auto.
      * split; [lia|]. replace (p - a) with (S (p - S a)) by lia. exact E.
    + intros [H E]. destruct (Nat.eq_dec p a) as [->|N].
      * rewrite Nat.sub_diag in E. injection E as ->. auto.
      * right. split; [lia|]. replace (p - a) with (S (p - S a)) in E by lia. exact E.
Qed.
Lemma in_enum {A} (l : list A) p v : In (p, v) (combine (seq 0 (length l)) l) <-> nth_error l p = Some v.
Proof. rewrite in_combine_seq', Nat.sub_0_r. split; [easy|]. split; [lia|assumption]. Qed.

Lemma connectivity_1D_lemma argsort x io : is_argsort x (argsort x) -> NoDup x -> length io = length x ->
  (forall i j, nth_error (argsort x) i = Some j -> nth_error (argsort x) j = Some i) ->
  exists nei, connectivity_1D argsort x io = Ok nei /\ neighbour_table io nei /\
  forall p l, nth_error nei p = Some l -> forall e,
    In e l <-> exists q, adjacent x p q /\ nth_error io q = Some e.
Proof.
  intros Hs Hx Hio Hinv. unfold connectivity_1D. set (s := argsort x) in *.
  pose proof (s_length _ _ Hs) as Ls. rewrite <- Ls.
  destruct (links_1D_spec s (combine (seq 0 (length s)) s)) as (links & E & Hl).
  { intros p o Hin Ho. apply in_enum in Hin. destruct Hs as [P _].
    apply (Permutation_in _ (Permutation_sym P)). apply in_seq.
    apply nth_error_In in Hin. apply (Permutation_in _ P) in Hin. apply in_seq in Hin. lia. }
  rewrite E. simpl.
  assert (HL : forall p q, In (p, q) links <-> exists o, nth_error s p = Some (S o) /\ nth_error s q = Some o).
  { intros p q. rewrite Hl. split; intros (o & A & B); exists o; split.
    - apply in_enum. exact A.
    - apply position_some. exact B.
    - apply in_enum. exact A.
    - destruct (position_in o s (nth_error_In _ _ B)) as [i Hi]. rewrite Hi. f_equal.
      apply (proj1 (NoDup_nth_error s) (s_nodup _ _ Hs)); [apply nth_error_Some; rewrite (position_some _ _ _ Hi); discriminate|].
      rewrite (position_some _ _ _ Hi). auto. }
  destruct (nei_list_spec io links) as (nei & En & Ht & Hn).
  { intros p q Hin. apply HL in Hin. destruct Hin as (o & A & B). rewrite Hio, <- Ls.
    split; apply nth_error_Some; [rewrite A|rewrite B]; discriminate. }
  exists nei. split; [exact En|]. split; [exact Ht|]. intros p l Hp e. rewrite (Hn p l Hp e).
  assert (Lp : p < length x).
  { rewrite <- Hio. destruct Ht as [Ht _]. rewrite <- Ht. apply nth_error_Some. rewrite Hp. discriminate. }
  destruct (rank_of _ _ Hs p Lp) as [rp Hrp].
  split; intros (q & A & B); exists q; split; auto.
  - assert (Lq : q < length x) by (rewrite <- Hio; apply nth_error_Some; rewrite B; discriminate).
    destruct (rank_of _ _ Hs q Lq) as [rq Hrq].
    apply (adjacent_rank _ _ Hs Hx Hinv p q rp rq Hrp Hrq).
    destruct A as [A|A]; apply HL in A; destruct A as (o & A1 & A2); [left|right]; congruence.
  - assert (Lq : q < length x) by (rewrite <- Hio; apply nth_error_Some; rewrite B; discriminate).
    destruct (rank_of _ _ Hs q Lq) as [rq Hrq].
    apply (adjacent_rank _ _ Hs Hx Hinv p q rp rq Hrp Hrq) in A.
    destruct A as [->| ->]; [left|right]; apply HL; eauto.
Qed.

Lemma pairs_of_spec s : NoDup s -> forall p q, (In (p, q) (pairs_of s) \/ In (q, p) (pairs_of s)) <-> In p s /\ In q s /\ p <> q.
Proof.
  induction s as [|x s IH]; intros Hd p q; simpl; [tauto|].
  inversion Hd as [|? ? Hx Hs]; subst. specialize (IH Hs p q).
  rewrite !in_app_iff, !in_map_iff. split.
  - intros [[(y & E & Hy)|H]|[(y & E & Hy)|H]].
    + injection E as -> ->. repeat split; auto. intros ->. auto.
    + destruct (proj1 IH (or_introl H)) as (A & B & C). auto.
    + injection E as -> ->. repeat split; auto. intros ->. auto.
    + destruct (proj1 IH (or_intror H)) as (A & B & C). auto.
  - intros ([->|A] & [->|B] & C).
    + congruence.
    + left. left. eauto.
    + right. left. eauto.
    + destruct (proj2 IH (conj A (conj B C))); auto.
Qed.
Lemma connectivity_nD_lemma simplices io : (forall s, In s simplices -> NoDup s /\ forall k, In k s -> k < length io) ->
  exists nei, nei_list io (links_nD simplices) = Ok nei /\ neighbour_table io nei /\
  forall p l, nth_error nei p = Some l -> forall e,
    In e l <-> exists q s, In s simplices /\ In p s /\ In q s /\ p <> q /\ nth_error io q = Some e.
Proof.
  intro H. destruct (nei_list_spec io (links_nD simplices)) as (nei & En & Ht & Hn).
  { intros p q Hin. apply in_flat_map in Hin. destruct Hin as (s & Hs & Hp). destruct (H s Hs) as [Hd Hr].
    destruct (proj1 (pairs_of_spec s Hd p q) (or_introl Hp)) as (A & B & _). auto. }
  exists nei. split; [exact En|]. split; [exact Ht|]. intros p l Hp e. rewrite (Hn p l Hp e). unfold links_nD. split.
  - intros (q & A & B). exists q. rewrite !in_flat_map in A.
    destruct A as [(s & Hs & A)|(s & Hs & A)]; exists s; destruct (H s Hs) as [Hd _].
    + destruct (proj1 (pairs_of_spec s Hd p q) (or_introl A)) as (? & ? & ?). auto.
    + destruct (proj1 (pairs_of_spec s Hd p q) (or_intror A)) as (? & ? & ?). auto.
  - intros (q & s & Hs & A & B & C & D). exists q. split; [|exact D]. rewrite !in_flat_map. destruct (H s Hs) as [Hd _].
    destruct (proj2 (pairs_of_spec s Hd p q) (conj A (conj B C))); [left|right]; eauto.
Qed.

(** * Interior and boundary cells *)
Lemma lookup_append d i x k : lookup (append d i x) k = if k =? i then lookup d k ++ [x] else lookup d k.
Proof. unfold lookup at 1, append. destruct (k =? i) eqn:E; [apply Nat.eqb_eq in E; subst|]; reflexivity. Qed.
Lemma lookup_touch d i k : lookup (touch d i) k = lookup d k.
Proof. unfold lookup at 1, touch. destruct (k =? i) eqn:E; [apply Nat.eqb_eq in E; subst|]; reflexivity. Qed.

Lemma list_eqb_eq a b : list_eqb a b = true <-> a = b.
Proof.
  revert b; induction a as [|x a IH]; intros [|y b]; simpl; split; try easy.
  - intro H. apply andb_true_iff in H. destruct H as [H1 H2]. apply Nat.eqb_eq in H1. apply IH in H2. congruence.
  - intro H. injection H as -> ->. rewrite Nat.eqb_refl. apply IH. reflexivity.
Qed.

Lemma fold_append nei C i j : NoDup nei ->
  lookup (fold_left (fun C j => append C j i) nei C) j = lookup C j ++ (if mem j nei then [i] else []).
Proof.
  revert C. induction nei as [|e nei IH]; intros C Hd; simpl; [rewrite app_nil_r; reflexivity|].
  inversion Hd as [|? ? Hn Hd']; subst. rewrite IH by exact Hd'. rewrite lookup_append, (Nat.eqb_sym e j).
  destruct (j =? e) eqn:E; simpl; [|reflexivity].
  apply Nat.eqb_eq in E. subst. replace (mem e nei) with false; [rewrite app_nil_r; reflexivity|].
  symmetry. unfold mem. apply not_true_is_false. intro H. apply existsb_exists in H. destruct H as (k & Hk & E). apply Nat.eqb_eq in E. subst. auto.
Qed.

Definition is_int (i : nat) (c : nat * (nat * list nat)) : bool := list_eqb (snd (snd c)) [fst (snd c)] && (fst (snd c) =? i).
Definition is_touch (i : nat) (c : nat * (nat * list nat)) : bool := mem i (snd (snd c)).
Lemma boundary_fold cs : forall BC, (forall c, In c cs -> NoDup (snd (snd c))) ->
  let BC' := fold_left boundary_step cs BC in
  (forall i, lookup (fst BC') i = lookup (fst BC) i ++ map fst (filter (is_int i) cs)) /\
  (forall i, lookup (snd BC') i = lookup (snd BC) i ++ map fst (filter (is_touch i) cs)) /\
  (forall i, fst BC' i = None <-> fst BC i = None /\ filter (is_int i) cs = []).
Proof.
  induction cs as [|[k [e nei]] cs IH]; intros BC Hd; cbn [fold_left].
  - simpl. repeat split; try (intro; rewrite app_nil_r; reflexivity); try tauto.
  - destruct (IH (boundary_step BC (k, (e, nei))) (fun c H => Hd c (or_intror H))) as (H1 & H2 & H3).
    assert (Hn : NoDup nei) by (apply (Hd (k, (e, nei))); left; reflexivity).
    repeat split.
    + intro i. rewrite H1. cbn [boundary_step fst filter]. unfold is_int at 2. cbn [fst snd].
      destruct (list_eqb nei [e]) eqn:E; cbn [andb]; [|reflexivity].
      rewrite lookup_append, (Nat.eqb_sym e i). destruct (i =? e); [|reflexivity]. cbn [map fst]. rewrite <- app_assoc. reflexivity.
    + intro i. rewrite H2. cbn [boundary_step snd filter]. rewrite fold_append by exact Hn. unfold is_touch at 2. cbn [fst snd].
      destruct (mem i nei); [|rewrite app_nil_r; reflexivity]. cbn [map fst]. rewrite <- app_assoc. reflexivity.
    + apply H3 in H. destruct H as [H _]. revert H. cbn [boundary_step fst]. destruct (list_eqb nei [e]); [|auto].
      unfold append. destruct (i =? e); [discriminate|auto].
    + apply H3 in H. destruct H as [H H']. revert H. cbn [boundary_step fst filter]. unfold is_int at 1. cbn [fst snd].
      destruct (list_eqb nei [e]); cbn [andb]; [|auto].
      unfold append. rewrite (Nat.eqb_sym e i). destruct (i =? e); [discriminate|auto].
    + intros [H H']. apply H3. revert H'. cbn [boundary_step fst filter]. unfold is_int at 1. cbn [fst snd].
      destruct (list_eqb nei [e]); cbn [andb]; [|auto].
      unfold append. rewrite (Nat.eqb_sym e i). destruct (i =? e); [discriminate|auto].
Qed.

Lemma in_cells (io : list nat) (nei : list (list nat)) k e l : length nei = length io ->
  In (k, (e, l)) (combine (seq 0 (length io)) (combine io nei)) <-> nth_error io k = Some e /\ nth_error nei k = Some l.
Proof.
  intro H. replace (length io) with (length (combine io nei)) by (rewrite combine_length; lia).
  rewrite in_enum, nth_error_combine. destruct (nth_error io k), (nth_error nei k); split; intro E; try easy; try (injection E as -> ->; auto); destruct E as [A B]; congruence.
Qed.
Lemma NoDup_singleton (l : list nat) i : NoDup l -> (forall j, In j l <-> j = i) -> l = [i].
Proof.
  intros Hd H. destruct l as [|a [|b l]].
  - exfalso. apply (proj2 (H i) eq_refl).
  - f_equal. apply H. left. reflexivity.
  - exfalso. assert (a = i) by (apply H; left; reflexivity). assert (b = i) by (apply H; right; left; reflexivity).
    subst. inversion Hd as [|? ? N _]. apply N. left. reflexivity.
Qed.
Lemma mem_In j l : mem j l = true <-> In j l.
Proof. unfold mem. rewrite existsb_exists. split; [intros (k & H & E); apply Nat.eqb_eq in E; subst; exact H|intro H; exists j; rewrite Nat.eqb_refl; auto]. Qed.

Lemma NoDup_map_filter {A B} (f : A -> B) g l : NoDup (map f l) -> NoDup (map f (filter g l)).
Proof.
  induction l as [|a l IH]; simpl; intro H; [constructor|]. inversion H as [|? ? N H']; subst.
  destruct (g a); simpl; [|auto]. constructor; [|auto]. intro Hin. apply N. apply in_map_iff in Hin.
  destruct Hin as (b & <- & Hb). apply filter_In in Hb. apply in_map. apply Hb.
Qed.

Lemma boundary_sets_lemma (io : list nat) nei : neighbour_table io nei ->
  forall i, lists_set (lookup (fst (boundary_sets io nei)) i) (interior io nei i) /\
            lists_set (lookup (snd (boundary_sets io nei)) i) (touching nei i) /\
            (fst (boundary_sets io nei) i = None <-> ~ exists k, interior io nei i k).
Proof.
  intros [Hl Hd] i. unfold boundary_sets.
  set (cs := combine (seq 0 (length io)) (combine io nei)).
  assert (Hc : forall k e l, In (k, (e, l)) cs <-> nth_error io k = Some e /\ nth_error nei k = Some l) by (intros; apply in_cells; exact Hl).
  assert (Hnd : NoDup (map fst cs)).
  { unfold cs. rewrite combine_fst by (rewrite seq_length, combine_length; lia). apply seq_NoDup. }
  destruct (boundary_fold cs (empty_dict, empty_dict)) as (H1 & H2 & H3).
  { intros [k [e l]] Hin. apply Hc in Hin. apply Hd. eapply nth_error_In, (proj2 Hin). }
  assert (HB : forall k, In k (map fst (filter (is_int i) cs)) <-> interior io nei i k).
  { intro k. rewrite in_map_iff. split.
    - intros ([k' [e l]] & <- & Hin). apply filter_In in Hin. destruct Hin as [Hin F]. apply Hc in Hin. destruct Hin as [A B].
      unfold is_int in F. cbn [fst snd] in *. apply andb_true_iff in F. destruct F as [F1 F2]. apply list_eqb_eq in F1. apply Nat.eqb_eq in F2. subst.
      split; [exact A|]. exists [i]. split; [exact B|]. intro j. simpl. split; [intros [->|[]]; reflexivity|auto].
    - intros (A & l & B & F). exists (k, (i, l)). split; [reflexivity|]. apply filter_In. split; [apply Hc; auto|].
      unfold is_int. cbn [fst snd]. rewrite Nat.eqb_refl, andb_true_r. apply list_eqb_eq.
      apply NoDup_singleton; [|exact F]. apply Hd. eapply nth_error_In, B. }
  split; [|split].
  - rewrite H1. simpl. split; [apply NoDup_map_filter; exact Hnd|exact HB].
  - rewrite H2. simpl. split; [apply NoDup_map_filter; exact Hnd|]. intro k. rewrite in_map_iff. split.
    + intros ([k' [e l]] & <- & Hin). apply filter_In in Hin. destruct Hin as [Hin F]. apply Hc in Hin. destruct Hin as [A B].
      exists l. split; [exact B|]. apply mem_In. exact F.
    + intros (l & B & F). assert (L : k < length io) by (rewrite <- Hl; apply nth_error_Some; rewrite B; discriminate).
      destruct (nth_error io k) as [e|] eqn:A; [|apply nth_error_None in A; lia].
      exists (k, (e, l)). split; [reflexivity|]. apply filter_In. split; [apply Hc; auto|]. apply mem_In. exact F.
  - rewrite H3. split.
    + intros [_ F] (k & Hk). apply HB in Hk. rewrite F in Hk. exact Hk.
    + intro N. split; [reflexivity|]. destruct (filter (is_int i) cs) as [|c r] eqn:E; [reflexivity|].
      exfalso. apply N. exists (fst c). apply HB. left. reflexivity.
Qed.

(** * Sampling error of contour events *)
Lemma sum_at_ok a idx : (forall k, In k idx -> k < length a) -> sum_at a idx = Ok (vol a idx).
Proof. intro H. unfold sum_at. rewrite (take_idx_spec a idx H 0%Qc). reflexivity. Qed.
Lemma lam_length io vols i : length io = length vols -> length (lam_vol io vols i) = length vols.
Proof. intro H. unfold lam_vol. rewrite map_length, combine_length. lia. Qed.
Lemma lam_nth io vols i k : length io = length vols -> k < length vols ->
  nth k (lam_vol io vols i) 0%Qc = if nth k io 0 =? i then nth k vols 0%Qc else 0%Qc.
Proof.
  intros H L. apply nth_error_nth. unfold lam_vol.
  rewrite nth_error_map, nth_error_combine, (nth_error_nth' io 0), (nth_error_nth' vols 0%Qc) by lia. reflexivity.
Qed.
Lemma vol_perm v a b : Permutation a b -> vol v a = vol v b.
Proof. intro P. unfold vol. apply qsum_perm. apply Permutation_map. exact P. Qed.
Lemma lists_set_perm a b P : lists_set a P -> lists_set b P -> Permutation a b.
Proof. intros [A1 A2] [B1 B2]. apply NoDup_Permutation; auto. intro k. rewrite A2, B2. reflexivity. Qed.
Lemma lists_set_ext a P Q : (forall k, P k <-> Q k) -> lists_set a P -> lists_set a Q.
Proof. intros H [A B]. split; [exact A|]. intro k. rewrite B. apply H. Qed.
Lemma vol_lam io vols i l : length io = length vols -> (forall k, In k l -> k < length vols) ->
  vol (lam_vol io vols i) l = vol vols (filter (fun k => nth k io 0 =? i) l).
Proof.
  intros H. induction l as [|k l IH]; intro L; [reflexivity|]. unfold vol in *. simpl.
  rewrite IH by (intros; apply L; right; assumption). rewrite lam_nth by (auto; apply L; left; reflexivity).
  destruct (nth k io 0 =? i); simpl; [reflexivity|]. ring.
Qed.
Lemma vol_pos vols l : all_positive vols -> (forall k, In k l -> k < length vols) -> l <> [] -> (0 < vol vols l)%Qc.
Proof.
  intros Hp. induction l as [|k l IH]; intros L N; [congruence|]. unfold vol in *. simpl.
  assert (0 < nth k vols 0)%Qc by (apply Hp, nth_In, L; left; reflexivity).
  destruct l as [|k' l']; [simpl; qc_lra|].
  assert (0 < qsum (map (fun k => nth k vols 0%Qc) (k' :: l')))%Qc by (apply IH; [intros; apply L; right; assumption|discriminate]).
  qc_lra.
Qed.
Lemma vol_nonneg vols l : (forall x, In x vols -> (0 <= x)%Qc) -> (0 <= vol vols l)%Qc.
Proof.
  intros Hp. unfold vol. apply qsum_nonneg. intros x Hx. apply in_map_iff in Hx. destruct Hx as (k & <- & _).
  destruct (Nat.lt_ge_cases k (length vols)) as [L|L]; [apply Hp, nth_In, L|rewrite nth_overflow by exact L; apply Qcle_refl].
Qed.
Lemma vol_incl vols a b : (forall x, In x vols -> (0 <= x)%Qc) -> NoDup a -> incl a b -> (vol vols a <= vol vols b)%Qc.
Proof.
  intros Hp Ha Hi. revert b Hi. induction a as [|k a IH]; intros b Hi.
  - apply vol_nonneg; exact Hp.
  - inversion Ha as [|? ? N Ha']; subst.
    assert (Hk : In k b) by (apply Hi; left; reflexivity). apply in_split in Hk. destruct Hk as (b1 & b2 & ->).
    assert (E : vol vols (b1 ++ k :: b2) = vol vols (k :: b1 ++ b2)) by (apply vol_perm; symmetry; apply Permutation_middle).
    rewrite E. unfold vol. simpl. fold (vol vols a) (vol vols (b1 ++ b2)).
    assert (vol vols a <= vol vols (b1 ++ b2))%Qc; [|qc_lra].
    apply IH; [exact Ha'|]. intros j Hj. assert (In j (b1 ++ k :: b2)) as J by (apply Hi; right; exact Hj).
    apply in_app_or in J. apply in_or_app. destruct J as [J|[J|J]]; auto. subst. contradiction.
Qed.
Lemma touching_lt (io : list nat) nei i k : length nei = length io -> touching nei i k -> k < length io.
Proof. intros H (l & E & _). rewrite <- H. apply nth_error_Some. rewrite E. discriminate. Qed.

Lemma pymax_fin a b : (a <= b)%Qc -> pymax (Fin a) (Fin b) = Fin b /\ pymin (Fin a) (Fin b) = Fin a.
Proof.
  intro H. unfold pymax, pymin, xltb, xleb. split.
  - destruct (qleb b a) eqn:E; simpl; [|reflexivity]. apply qleb_true in E. f_equal. apply Qcle_antisym; assumption.
  - destruct (qleb a b) eqn:E; simpl; [reflexivity|]. apply qleb_false in E. exfalso. revert E. apply Qcle_not_lt. exact H.
Qed.

Section Contour.
Variables (io : list nat) (nei : list (list nat)) (vols : list Qc).
Hypothesis Ht : neighbour_table io nei.
Hypothesis Hv : length vols = length io.
Hypothesis Hp : all_positive vols.

Definition fresh := boundary_sets io nei.
(** The states reachable from the constructor. *)
Definition reach (BC : dict * dict) : Prop :=
  (forall i, lookup (fst BC) i = lookup (fst fresh) i) /\ (forall i, lookup (snd BC) i = lookup (snd fresh) i) /\
  (forall i, fst fresh i <> None -> fst BC i = fst fresh i).
Lemma reach_fresh : reach fresh. Proof. repeat split; auto. Qed.
Lemma reach_touchC BC i : reach BC -> reach (fst BC, touch (snd BC) i).
Proof. intros (A & B & C). repeat split; cbn [fst snd]; auto. intro k. rewrite lookup_touch. apply B. Qed.
Lemma reach_touch BC i : reach BC -> reach (touch (fst BC) i, touch (snd BC) i).
Proof.
  intros (A & B & C). repeat split; cbn [fst snd]; intro k; rewrite ?lookup_touch; auto.
  intro N. unfold touch. destruct (k =? i) eqn:E; [|auto]. apply Nat.eqb_eq in E. subst.
  unfold lookup. rewrite (C i N). destruct (fst fresh i); congruence.
Qed.

Lemma entry_ok BC i p : reach BC -> exists up low BC', contour_entry io vols p i BC = Ok (up, low, BC') /\ reach BC'.
Proof.
  intros R. unfold contour_entry. destruct (qltb 0 p); [|eexists _, _, _; split; [reflexivity|exact R]].
  destruct (fst BC i) as [Bi|] eqn:E; [|eexists _, _, _; split; [reflexivity|exact R]].
  destruct (boundary_sets_lemma io nei Ht i) as ((_ & HB) & (_ & HC) & _).
  assert (EB : Bi = lookup (fst fresh) i) by (destruct R as (R1 & _); rewrite <- R1; unfold lookup; rewrite E; reflexivity).
  assert (EC : lookup (snd BC) i = lookup (snd fresh) i) by apply R.
  assert (LB : forall k, In k Bi -> k < length vols).
  { intros k Hk. rewrite EB in Hk. apply HB in Hk. destruct Hk as [Hk _]. rewrite Hv. apply nth_error_Some. rewrite Hk. discriminate. }
  assert (LC : forall k, In k (lookup (snd BC) i) -> k < length vols).
  { intros k Hk. rewrite EC in Hk. apply HC in Hk. rewrite Hv. destruct Ht. eapply touching_lt; eassumption. }
  rewrite !sum_at_ok by (rewrite ?lam_length by (symmetry; exact Hv); assumption). cbn [bind].
  eexists _, _, _. split; [reflexivity|]. apply reach_touchC. exact R.
Qed.

(** the first two components *)
Definition bounds (r : result (xnum * xnum * (dict * dict))) : option (xnum * xnum) :=
  match r with Ok (u, l, _) => Some (u, l) | Raise _ => None end.
Lemma entry_history BC i p : reach BC -> ((p <= 0)%Qc \/ exists k, interior io nei i k) ->
  bounds (contour_entry io vols p i BC) = bounds (contour_entry io vols p i fresh).
Proof.
  intros R [Hp0|Hi]; unfold contour_entry.
  - replace (qltb 0 p) with false by (symmetry; apply qltb_false; exact Hp0). reflexivity.
  - destruct (qltb 0 p); [|reflexivity].
    destruct (boundary_sets_lemma io nei Ht i) as (_ & _ & HN).
    destruct R as (R1 & R2 & R3). unfold fresh in *.
    destruct (fst (boundary_sets io nei) i) as [Bi|] eqn:E; [|exfalso; apply (proj1 HN eq_refl); exact Hi].
    rewrite (R3 i) by (rewrite E; discriminate). rewrite E, R2.
    destruct (sum_at vols Bi); [|reflexivity]. cbn [bind].
    destruct (sum_at (lam_vol io vols i) Bi); [|reflexivity]. cbn [bind].
    destruct (sum_at vols (lookup (snd (boundary_sets io nei)) i)); [|reflexivity]. cbn [bind].
    destruct (sum_at (lam_vol io vols i) (lookup (snd (boundary_sets io nei)) i)); reflexivity.
Qed.

Lemma entry_value i p : 
  ((p <= 0)%Qc -> bounds (contour_entry io vols p i fresh) = Some (Fin 0%Qc, Fin 0%Qc)) /\
  ((0 < p)%Qc -> ~ (exists k, interior io nei i k) -> bounds (contour_entry io vols p i fresh) = Some (NaN, NaN)) /\
  ((0 < p)%Qc -> (exists k, interior io nei i k) -> forall B C AC,
     lists_set B (interior io nei i) -> lists_set C (touching nei i) ->
     lists_set AC (fun k => nth_error io k = Some i /\ touching nei i k) ->
     bounds (contour_entry io vols p i fresh) =
       Some (Fin (p * (vol vols AC / vol vols B - 1)), Fin (p * (vol vols B / vol vols C - 1)))%Qc /\
     (p * (vol vols B / vol vols C - 1) <= 0)%Qc /\ (0 <= p * (vol vols AC / vol vols B - 1))%Qc).
Proof.
  unfold contour_entry. split; [|split].
  - intro H. replace (qltb 0 p) with false by (symmetry; apply qltb_false; exact H). reflexivity.
  - intros H N. replace (qltb 0 p) with true by (symmetry; apply qltb_true; exact H).
    destruct (boundary_sets_lemma io nei Ht i) as (_ & _ & HN). unfold fresh. rewrite (proj2 HN N). reflexivity.
  - intros H [k0 Hk0] B C AC HB HC HAC. replace (qltb 0 p) with true by (symmetry; apply qltb_true; exact H).
    destruct (boundary_sets_lemma io nei Ht i) as (B1 & C1 & HN). fold fresh in *.
    destruct (fst fresh i) as [Bi|] eqn:E; [|exfalso; apply (proj1 HN eq_refl); exists k0; exact Hk0].
    replace (lookup (fst fresh) i) with Bi in B1 by (unfold lookup; rewrite E; reflexivity).
    set (Ci := lookup (snd fresh) i) in *.
    assert (LB : forall k, In k Bi -> k < length vols).
    { intros k Hk. apply B1 in Hk. destruct Hk as [Hk _]. rewrite Hv. apply nth_error_Some. rewrite Hk. discriminate. }
    assert (LC : forall k, In k Ci -> k < length vols).
    { intros k Hk. apply C1 in Hk. rewrite Hv. destruct Ht. eapply touching_lt; eassumption. }
    rewrite !sum_at_ok by (rewrite ?lam_length by (symmetry; exact Hv); assumption). cbn [bind bounds].
    rewrite !vol_lam by (auto; symmetry; exact Hv).
    assert (FB : lists_set (filter (fun k => nth k io 0 =? i) Bi) (interior io nei i)).
    { split; [apply NoDup_filter, B1|]. intro k. rewrite filter_In. rewrite (proj2 B1 k). split; [tauto|].
      intro I. split; [exact I|]. destruct I as [I _]. apply Nat.eqb_eq. apply nth_error_nth. exact I. }
    assert (FC : lists_set (filter (fun k => nth k io 0 =? i) Ci) (fun k => nth_error io k = Some i /\ touching nei i k)).
    { split; [apply NoDup_filter, C1|]. intro k. rewrite filter_In, (proj2 C1 k), Nat.eqb_eq. split; intros [X Y]; split; auto.
      - rewrite <- Y. apply nth_error_nth'. destruct Ht. eapply touching_lt; eassumption.
      - apply nth_error_nth. exact X. }
    rewrite (vol_perm vols _ _ (lists_set_perm _ _ _ FB HB)), (vol_perm vols _ _ (lists_set_perm _ _ _ FC HAC)),
      (vol_perm vols _ _ (lists_set_perm _ _ _ B1 HB)), (vol_perm vols _ _ (lists_set_perm _ _ _ C1 HC)).
    assert (Hnn : forall x, In x vols -> (0 <= x)%Qc) by (intros x Hx; apply Qclt_le_weak, Hp, Hx).
    assert (I1 : incl B AC).
    { intros k Hk. apply HAC. apply HB in Hk. destruct Hk as (A & l & D & F). split; [exact A|]. exists l. split; [exact D|]. apply F. reflexivity. }
    assert (I2 : incl AC C) by (intros k Hk; apply HC; apply HAC in Hk; apply Hk).
    assert (PB : (0 < vol vols B)%Qc).
    { apply vol_pos; [exact Hp| |].
      - intros k Hk. apply HB in Hk. destruct Hk as [Hk _]. rewrite Hv. apply nth_error_Some. rewrite Hk. discriminate.
      - intro N. apply HB in Hk0. rewrite N in Hk0. exact Hk0. }
    pose proof (vol_incl vols B AC Hnn (proj1 HB) I1) as L1.
    pose proof (vol_incl vols AC C Hnn (proj1 HAC) I2) as L2.
    assert (PC : (0 < vol vols C)%Qc) by qc_lra.
    rewrite !xdivq_fin by (intro Z; rewrite Z in *; qc_lra). cbn [xadd].
    assert (T1 : (vol vols B / vol vols C + - (1) <= 0)%Qc).
    { assert (vol vols B / vol vols C <= 1)%Qc; [|qc_lra]. apply qc_div_le; [exact PC|]. qc_lra. }
    assert (T2 : (0 <= vol vols AC / vol vols B + - (1))%Qc).
    { assert (1 <= vol vols AC / vol vols B)%Qc; [|qc_lra]. apply qc_le_div; [exact PB|]. qc_lra. }
    destruct (pymax_fin _ _ (Qcle_trans _ _ _ T1 T2)) as [-> ->]. cbn [xmul]. split; [reflexivity|].
    change (vol vols B / vol vols C - 1)%Qc with (vol vols B / vol vols C + - (1))%Qc.
    change (vol vols AC / vol vols B - 1)%Qc with (vol vols AC / vol vols B + - (1))%Qc.
    split.
    + assert (0 <= p * - (vol vols B / vol vols C + - (1)))%Qc; [apply qc_mul_nonneg; qc_lra|].
      replace (p * - (vol vols B / vol vols C + - (1)))%Qc with (- (p * (vol vols B / vol vols C + - (1))))%Qc in H0 by ring. qc_lra.
    + apply qc_mul_nonneg; qc_lra.
Qed.

Lemma contour_loop_spec ips : forall BC, reach BC -> exists ups lows BC',
  contour_loop io vols ips BC = Ok (ups, lows, BC') /\ reach BC' /\ length ups = length ips /\ length lows = length ips /\
  forall n i p, nth_error ips n = Some (i, p) -> exists BC1, reach BC1 /\
    exists u l, nth_error ups n = Some u /\ nth_error lows n = Some l /\ bounds (contour_entry io vols p i BC1) = Some (u, l).
Proof.
  induction ips as [|[i p] ips IH]; intros BC R.
  - exists [], [], BC. repeat split; auto; try apply R. intros n i p H. destruct n; discriminate.
  - destruct (entry_ok BC i p R) as (u & l & BC1 & E & R1).
    destruct (IH BC1 R1) as (ups & lows & BC2 & E2 & R2 & L1 & L2 & H).
    exists (u :: ups), (l :: lows), BC2. simpl. rewrite E. cbn [bind]. rewrite E2. cbn [bind].
    split; [reflexivity|]. split; [exact R2|]. split; [lia|]. split; [lia|].
    intros [|n] i' p' Hn.
    + simpl in Hn. injection Hn as <- <-. exists BC. split; [exact R|]. exists u, l. rewrite E. auto.
    + apply (H n i' p' Hn).
Qed.

Lemma enum_nth {A} (l : list A) n x : nth_error l n = Some x -> nth_error (combine (seq 0 (length l)) l) n = Some (n, x).
Proof.
  intro H. rewrite nth_error_combine, H, nth_error_seq.
  replace (n <? length l) with true; [reflexivity|]. symmetry. apply Nat.ltb_lt, nth_error_Some. rewrite H. discriminate.
Qed.
Lemma contour_events_spec probs BC : reach BC -> exists ups lows BC',
  contour_events io vols probs BC = Ok (ups, lows, BC') /\ reach BC' /\ length ups = length probs /\ length lows = length probs /\
  forall i p, nth_error probs i = Some p -> exists BC1, reach BC1 /\
    exists u l, nth_error ups i = Some u /\ nth_error lows i = Some l /\ bounds (contour_entry io vols p i BC1) = Some (u, l).
Proof.
  intro R. destruct (contour_loop_spec (combine (seq 0 (length probs)) probs) BC R) as (ups & lows & BC' & E & R' & L1 & L2 & H).
  exists ups, lows, BC'. split; [exact E|]. split; [exact R'|].
  rewrite combine_length, seq_length, Nat.min_id in L1, L2. split; [exact L1|]. split; [exact L2|].
  intros i p Hi. apply (H i i p). apply enum_nth. exact Hi.
Qed.

Lemma entry_none BC i p : reach BC -> (0 < p)%Qc -> ~ (exists k, interior io nei i k) -> forall u l,
  bounds (contour_entry io vols p i BC) = Some (u, l) -> fst BC i = None -> u = NaN /\ l = NaN.
Proof.
  intros R H N u l E EN. unfold contour_entry in E. rewrite EN in E.
  replace (qltb 0 p) with true in E by (symmetry; apply qltb_true; exact H). simpl in E. injection E as <- <-. auto.
Qed.

(** In the fresh object no key is ever added to B_N by asking for contours. *)
Lemma contour_loop_fst ips : forall BC ups lows BC', contour_loop io vols ips BC = Ok (ups, lows, BC') -> fst BC' = fst BC.
Proof.
  induction ips as [|[i p] ips IH]; intros BC ups lows BC' E; simpl in E; [injection E as <- <- <-; reflexivity|].
  destruct (contour_entry io vols p i BC) as [[[u l] BC1]|] eqn:E1; [|discriminate]. cbn [bind] in E.
  destruct (contour_loop io vols ips BC1) as [[[us ls] BC2]|] eqn:E2; [|discriminate]. cbn [bind] in E. injection E as <- <- <-.
  rewrite (IH _ _ _ _ E2). unfold contour_entry in E1. destruct (qltb 0 p); [|injection E1 as _ _ <-; reflexivity].
  destruct (fst BC i) as [Bi|]; [|injection E1 as _ _ <-; reflexivity].
  destruct (sum_at vols Bi); [|discriminate]. destruct (sum_at (lam_vol io vols i) Bi); [|discriminate].
  destruct (sum_at vols (lookup (snd BC) i)); [|discriminate]. destruct (sum_at (lam_vol io vols i) (lookup (snd BC) i)); [|discriminate].
  cbn [bind] in E1. injection E1 as _ _ <-. reflexivity.
Qed.
Lemma contour_loop_entries ips : forall BC ups lows BC', contour_loop io vols ips BC = Ok (ups, lows, BC') ->
  forall n i p, nth_error ips n = Some (i, p) -> exists BC1 u l, fst BC1 = fst BC /\
   (forall k, lookup (snd BC1) k = lookup (snd BC) k) /\
   nth_error ups n = Some u /\ nth_error lows n = Some l /\ bounds (contour_entry io vols p i BC1) = Some (u, l).
Proof.
  induction ips as [|[i p] ips IH]; intros BC ups lows BC' E n i' p' Hn; [destruct n; discriminate|].
  simpl in E. destruct (contour_entry io vols p i BC) as [[[u l] BC1]|] eqn:E1; [|discriminate]. cbn [bind] in E.
  destruct (contour_loop io vols ips BC1) as [[[us ls] BC2]|] eqn:E2; [|discriminate]. cbn [bind] in E. injection E as <- <- <-.
  destruct n as [|n].
  - simpl in Hn. injection Hn as <- <-. exists BC, u, l. rewrite E1. repeat split; auto.
  - destruct (IH _ _ _ _ E2 n i' p' Hn) as (BC3 & u' & l' & F & G & H1 & H2 & H3). exists BC3, u', l'.
    assert (contour_loop io vols [(i, p)] BC = Ok ([u], [l], BC1)) as Eone by (simpl; rewrite E1; reflexivity).
    assert (K : forall k, lookup (snd BC1) k = lookup (snd BC) k).
    { unfold contour_entry in E1. destruct (qltb 0 p); [|injection E1 as _ _ <-; reflexivity].
      destruct (fst BC i) as [Bi|]; [|injection E1 as _ _ <-; reflexivity].
      destruct (sum_at vols Bi); [|discriminate]. destruct (sum_at (lam_vol io vols i) Bi); [|discriminate].
      destruct (sum_at vols (lookup (snd BC) i)); [|discriminate]. destruct (sum_at (lam_vol io vols i) (lookup (snd BC) i)); [|discriminate].
      cbn [bind] in E1. injection E1 as _ _ <-. intro k. apply lookup_touch. }
    split; [rewrite F; apply (contour_loop_fst _ _ _ _ _ Eone)|]. split; [intro k; rewrite G; apply K|]. auto.
Qed.
Lemma entry_lookup BC BC2 i p : fst BC = fst BC2 -> (forall k, lookup (snd BC) k = lookup (snd BC2) k) ->
  bounds (contour_entry io vols p i BC) = bounds (contour_entry io vols p i BC2).
Proof.
  intros H1 H2. unfold contour_entry. destruct (qltb 0 p); [|reflexivity]. rewrite H1, H2. destruct (fst BC2 i); [|reflexivity].
  destruct (sum_at vols l); [|reflexivity]. destruct (sum_at (lam_vol io vols i) l); [|reflexivity].
  destruct (sum_at vols (lookup (snd BC2) i)); [|reflexivity]. destruct (sum_at (lam_vol io vols i) (lookup (snd BC2) i)); reflexivity.
Qed.
Lemma contour_fresh probs : exists ups lows BC', contour_events io vols probs fresh = Ok (ups, lows, BC') /\
  length ups = length probs /\ length lows = length probs /\
  forall i p, nth_error probs i = Some p -> exists u l,
    nth_error ups i = Some u /\ nth_error lows i = Some l /\ bounds (contour_entry io vols p i fresh) = Some (u, l).
Proof.
  destruct (contour_events_spec probs fresh reach_fresh) as (ups & lows & BC' & E & R & L1 & L2 & _).
  exists ups, lows, BC'. split; [exact E|]. split; [exact L1|]. split; [exact L2|]. intros i p Hi.
  destruct (contour_loop_entries _ _ _ _ _ E i i p (enum_nth _ _ _ Hi)) as (BC1 & u & l & F & G & H1 & H2 & H3).
  exists u, l. split; [exact H1|]. split; [exact H2|]. rewrite <- H3. symmetry. apply entry_lookup; assumption.
Qed.

Lemma contour_bounds_lemma probs : exists ups lows BC', contour_events io vols probs (boundary_sets io nei) = Ok (ups, lows, BC') /\
  length ups = length probs /\ length lows = length probs /\
  forall i p, nth_error probs i = Some p ->
  ((p <= 0)%Qc -> nth_error ups i = Some (Fin 0%Qc) /\ nth_error lows i = Some (Fin 0%Qc)) /\
  ((0 < p)%Qc -> ~ (exists k, interior io nei i k) -> nth_error ups i = Some NaN /\ nth_error lows i = Some NaN) /\
  ((0 < p)%Qc -> (exists k, interior io nei i k) -> forall B C AC,
     lists_set B (interior io nei i) -> lists_set C (touching nei i) ->
     lists_set AC (fun k => nth_error io k = Some i /\ touching nei i k) ->
     exists u l, nth_error ups i = Some (Fin u) /\ nth_error lows i = Some (Fin l) /\
       u = (p * (vol vols AC / vol vols B - 1))%Qc /\ l = (p * (vol vols B / vol vols C - 1))%Qc /\
       (l <= 0)%Qc /\ (0 <= u)%Qc).
Proof.
  destruct (contour_fresh probs) as (ups & lows & BC' & E & L1 & L2 & H). exists ups, lows, BC'.
  split; [exact E|]. split; [exact L1|]. split; [exact L2|]. intros i p Hi.
  destruct (H i p Hi) as (u & l & H1 & H2 & H3). rewrite H1, H2. destruct (entry_value i p) as (V1 & V2 & V3).
  split; [|split].
  - intro Hp0. rewrite (V1 Hp0) in H3. injection H3 as <- <-. auto.
  - intros Hp0 N. rewrite (V2 Hp0 N) in H3. injection H3 as <- <-. auto.
  - intros Hp0 I B C AC HB HC HAC. destruct (V3 Hp0 I B C AC HB HC HAC) as (F & G1 & G2). rewrite F in H3. injection H3 as <- <-.
    eexists _, _. split; [reflexivity|]. split; [reflexivity|]. auto.
Qed.

(** * Histories *)
Lemma region_reach ips blocks : forall acc BC, reach BC -> reach (snd (region_loop io blocks ips acc BC)).
Proof.
  induction ips as [|[i p] ips IH]; intros acc BC R; simpl; [exact R|].
  destruct (qltb 0 p); [|apply IH; exact R]. destruct (_ =? 0); [exact R|].
  destruct (_ =? 0); [apply reach_touch; exact R|]. destruct (_ =? 0); [apply reach_touch; exact R|].
  apply IH. apply reach_touch. exact R.
Qed.
Lemma ask_reach probs qs : forall BC, reach BC -> reach (ask_all io vols probs qs BC).
Proof.
  induction qs as [|q qs IH]; intros BC R; [exact R|]. apply IH. destruct q as [|blocks]; simpl.
  - destruct (contour_events_spec probs BC R) as (ups & lows & BC' & E & R' & _). rewrite E. exact R'.
  - apply region_reach. exact R.
Qed.
Lemma history_lemma probs qs : exists ups lows BC1 ups' lows' BC2,
  contour_events io vols probs (boundary_sets io nei) = Ok (ups, lows, BC1) /\
  contour_events io vols probs (ask_all io vols probs qs (boundary_sets io nei)) = Ok (ups', lows', BC2) /\
  forall i p, nth_error probs i = Some p -> ((p <= 0)%Qc \/ exists k, interior io nei i k) ->
    nth_error ups' i = nth_error ups i /\ nth_error lows' i = nth_error lows i.
Proof.
  destruct (contour_fresh probs) as (ups & lows & BC1 & E & L1 & L2 & H).
  destruct (contour_events_spec probs _ (ask_reach probs qs _ reach_fresh)) as (ups' & lows' & BC2 & E' & _ & L1' & L2' & H').
  exists ups, lows, BC1, ups', lows', BC2. split; [exact E|]. split; [exact E'|]. intros i p Hi Hok.
  destruct (H i p Hi) as (u & l & A1 & A2 & A3). destruct (H' i p Hi) as (BC3 & R3 & u' & l' & B1 & B2 & B3).
  rewrite (entry_history BC3 i p R3 Hok), A3 in B3. injection B3 as <- <-. rewrite A1, A2, B1, B2. auto.
Qed.

(** * Regions *)
Lemma region_lookup blocks ips : forall acc BC BC2, (forall k, lookup (fst BC) k = lookup (fst BC2) k) -> (forall k, lookup (snd BC) k = lookup (snd BC2) k) ->
  fst (region_loop io blocks ips acc BC) = fst (region_loop io blocks ips acc BC2).
Proof.
  induction ips as [|[i p] ips IH]; intros acc BC BC2 H1 H2; simpl; [reflexivity|].
  destruct (qltb 0 p); [|apply IH; assumption]. rewrite H1, H2.
  destruct (_ =? 0); [reflexivity|]. destruct (_ =? 0); [reflexivity|]. destruct (_ =? 0); [reflexivity|].
  apply IH; cbn [fst snd]; intro k; rewrite !lookup_touch; auto.
Qed.
Lemma region_history probs qs blocks :
  fst (region_bounds io probs blocks (ask_all io vols probs qs (boundary_sets io nei))) = fst (region_bounds io probs blocks (boundary_sets io nei)).
Proof. destruct (ask_reach probs qs _ reach_fresh) as (R1 & R2 & _). apply region_lookup; assumption. Qed.
End Contour.

Lemma count_concat {A} (f : A -> bool) blocks : count f blocks = length (filter f (concat blocks)).
Proof. unfold count. induction blocks as [|b r IH]; simpl; [reflexivity|]. rewrite IH, filter_app, app_length. reflexivity. Qed.
Lemma count_le {A} (f g : A -> bool) blocks : (forall e, In e (concat blocks) -> f e = true -> g e = true) -> count f blocks <= count g blocks.
Proof.
  rewrite !count_concat. generalize (concat blocks) as l. induction l as [|e l IH]; intro H; simpl; [lia|].
  assert (length (filter f l) <= length (filter g l)) by (apply IH; intros; apply H; [right|]; assumption).
  destruct (f e) eqn:E; [rewrite (H e (or_introl eq_refl) E); simpl; lia|]. destruct (g e); simpl; lia.
Qed.
Lemma div_mono a b c d : (0 <= qn a)%Qc -> a <= b -> 0 < d -> d <= c -> (qn a / qn c <= qn b / qn d)%Qc.
Proof.
  intros _ H1 H2 H3.
  assert (0 < qn d)%Qc by (apply qn_pos; exact H2). pose proof (qn_le _ _ H3). pose proof (qn_le _ _ H1). pose proof (qn_nonneg a).
  assert (0 < qn c)%Qc by (apply qn_pos; lia).
  apply qc_div_le; [assumption|].
  assert (0 <= qn b / qn d)%Qc by (apply qc_div_nonneg; [apply qn_nonneg|assumption]).
  assert (qn b / qn d * qn d = qn b)%Qc as Em by (apply qc_div_mul; apply Qclt_neq0; assumption).
  assert (qn b / qn d * qn d <= qn b / qn d * qn c)%Qc by (apply qc_mul_le_l; assumption).
  eapply Qcle_trans; [|eassumption]. rewrite Em. assumption.
Qed.

Lemma add_up (a p t : Qc) : (0 <= a -> 0 <= p -> 0 <= t -> 0 <= a + p * t)%Qc.
Proof. intros. qc_nra. Qed.
Lemma add_low (a p t : Qc) : (a <= 0 -> 0 <= p -> t <= 0 -> a + p * t <= 0)%Qc.
Proof. intros. qc_nra. Qed.
Lemma sub_nonneg (a b : Qc) : (b <= a -> 0 <= a - b)%Qc.
Proof. intros. qc_lra. Qed.
Lemma sub_nonpos (a b : Qc) : (a <= b -> a - b <= 0)%Qc.
Proof. intros. qc_lra. Qed.
Lemma region_bracket io nei blocks ips : neighbour_table io nei ->
  (forall i p, In (i, p) ips -> (0 < p)%Qc -> connected_event io nei i) -> 
  forall acc BC, reach io nei BC -> (0 <= fst acc)%Qc -> (snd acc <= 0)%Qc ->
  forall u l, fst (region_loop io blocks ips acc BC) = Some (u, l) -> (l <= 0)%Qc /\ (0 <= u)%Qc.
Proof.
  intros Ht. induction ips as [|[i p] ips IH]; intros Hc acc BC R A1 A2 u l E; simpl in E.
  - injection E as E. subst acc. auto.
  - assert (Hc' : forall i p, In (i, p) ips -> (0 < p)%Qc -> connected_event io nei i) by (intros j q Hin; apply (Hc j q); right; exact Hin).
    destruct (qltb 0 p) eqn:Ep; [|eapply IH; eassumption]. apply qltb_true in Ep.
    destruct (count (in_event io i) blocks =? 0) eqn:E2; [discriminate|].
    destruct (count (fun e => mem (snd e) (lookup (snd BC) i)) blocks =? 0) eqn:E4; [discriminate|].
    destruct (count (fun e => mem (snd e) (lookup (fst BC) i)) blocks =? 0) eqn:E6; [discriminate|].
    apply Nat.eqb_neq in E2, E4, E6.
    destruct (boundary_sets_lemma io nei Ht i) as ((_ & HB) & (_ & HC) & _).
    pose proof R as (R1 & R2 & _). fold (fresh io nei) in *.
    assert (SB : forall e : bool * nat, mem (snd e) (lookup (fst BC) i) = true -> in_event io i e = true).
    { intros e He. rewrite R1 in He. apply mem_In, HB in He. destruct He as [He _]. unfold in_event. rewrite He. apply Nat.eqb_refl. }
    assert (SC : forall e : bool * nat, in_event io i e = true -> mem (snd e) (lookup (snd BC) i) = true).
    { intros e He. rewrite R2. apply mem_In, HC. apply (Hc i p (or_introl eq_refl) Ep). unfold in_event in He.
      destruct (nth_error io (snd e)); [|discriminate]. apply Nat.eqb_eq in He. subst. reflexivity. }
    revert E. apply IH; cbn [fst snd]; auto.
    + apply reach_touch. exact R.
    + apply add_up; [exact A1|apply Qclt_le_weak; exact Ep|].
      eapply Qcle_trans; [|apply qmax_ge_r]. apply sub_nonneg.
      apply div_mono; [apply qn_nonneg| |lia|].
      * apply count_le. intros e _ He. apply andb_true_iff in He. apply andb_true_iff. split; [apply He|apply SC, He].
      * apply count_le. intros e _. apply SB.
    + apply add_low; [exact A2|apply Qclt_le_weak; exact Ep|].
      eapply Qcle_trans; [apply qmin_le_l|]. apply sub_nonpos.
      apply div_mono; [apply qn_nonneg| |lia|].
      * apply count_le. intros e _ He. apply andb_true_iff in He. apply andb_true_iff. split; [apply He|apply SB, He].
      * apply count_le. intros e _. apply SC.
Qed.
Lemma region_bracket_lemma io nei probs blocks : neighbour_table io nei ->
  (forall i p, nth_error probs i = Some p -> (0 < p)%Qc -> connected_event io nei i) ->
  forall u l, fst (region_bounds io probs blocks (boundary_sets io nei)) = Some (u, l) -> (l <= 0)%Qc /\ (0 <= u)%Qc.
Proof.
  intros Ht H u l. apply (region_bracket io nei blocks _ Ht).
  - intros i p Hin. apply H, in_enum, Hin.
  - apply reach_fresh.
  - apply Qcle_refl.
  - apply Qcle_refl.
Qed.
