From Coq Require Import List Arith Bool QArith Qcanon Lia.
From Verif Require Import Err Num Ext CompareInit_Model CompareInit_Spec.
Import ListNotations.
Local Open Scope nat_scope.

Lemma stands_extract inputs o s : stands_for inputs o s <-> extract inputs o = Some s.
Proof.
  split.
  - destruct 1; reflexivity.
  - destruct o as [t|i out|]; cbn; [intro H; injection H as <-; constructor | | discriminate]. destruct inputs; [intro H; injection H as <-; constructor | intros ->; constructor].
Qed.
Lemma new_lemma : forall a b inputs i1 i2 c, compare_new a b inputs i1 i2 = Ok c <->
  exists s t, usable inputs a s /\ usable inputs b t /\ mdim s = mdim t /\ c = mk_comparison s t i1 i2 None None None.
Proof.
  intros a b inputs i1 i2 c. unfold usable. split.
  - unfold compare_new. destruct (extract inputs a) as [s|] eqn:Ea; [|discriminate]. destruct (extract inputs b) as [t|] eqn:Eb; [|discriminate].
    destruct (is_sample_set s) eqn:Is; [|discriminate]. destruct (is_sample_set t) eqn:It; [|discriminate]. cbn. destruct (Nat.eqb_spec (mdim s) (mdim t)) as [D|]; [|discriminate].
    intro H. injection H as <-. exists s, t. rewrite !stands_extract. auto.
  - intros (s & t & (A & Is) & (B & It) & D & ->). apply stands_extract in A, B. unfold compare_new. rewrite A, B, Is, It, D, Nat.eqb_refl. reflexivity.
Qed.
Lemma reject_lemma : forall a b inputs i1 i2,
  (forall s t, usable inputs a s -> usable inputs b t -> mdim s <> mdim t -> compare_new a b inputs i1 i2 = Raise DimNotMatching) /\
  ((~ exists s, usable inputs a s) \/ (~ exists t, usable inputs b t) -> compare_new a b inputs i1 i2 = Raise WrongInput).
Proof.
  intros a b inputs i1 i2. unfold usable, compare_new. split.
  - intros s t (A & Is) (B & It) D. apply stands_extract in A, B. rewrite A, B, Is, It. apply Nat.eqb_neq in D. cbn. rewrite D. reflexivity.
  - intro H. destruct (extract inputs a) as [s|] eqn:Ea; [|reflexivity]. destruct (extract inputs b) as [t|] eqn:Eb; [|reflexivity].
    destruct (is_sample_set s) eqn:Is; [|reflexivity]. destruct (is_sample_set t) eqn:It; [|reflexivity]. exfalso. destruct H as [H|H]; apply H; eexists; rewrite stands_extract; eauto.
Qed.
Lemma filter_length_seq {A} (f : A -> bool) (l : list A) : exists idx, NoDup idx /\ length idx = length (filter f l) /\ forall k, In k idx <-> exists x, nth_error l k = Some x /\ f x = true.
Proof.
  induction l as [|a l (idx & N & L & H)].
  - exists []. split; [constructor|]. split; [reflexivity|]. intro k. split; [intros [] | intros (x & E & _); destruct k; discriminate E].
  - assert (forall k, In k (map S idx) <-> exists j, k = S j /\ In j idx) as HS. { intro k. rewrite in_map_iff. split; intros (j & U & V); exists j; auto. }
    assert (NoDup (map S idx)) as NS. { apply FinFun.Injective_map_NoDup; [|exact N]. intros x y E. injection E. auto. }
    destruct (f a) eqn:Fa.
    + exists (0 :: map S idx). split; [|split].
      * constructor; [|exact NS]. rewrite HS. intros (j & E & _). discriminate E.
      * cbn. rewrite Fa. cbn. rewrite map_length, L. reflexivity.
      * intros [|k]; cbn [In].
        -- split; [intros _; exists a; auto | auto].
        -- rewrite HS. cbn. rewrite <- H. split; [intros [E|(j & E & I)]; [discriminate E | injection E as ->; exact I] | intro I; right; exists k; auto].
    + exists (map S idx). split; [exact NS|]. split.
      * cbn. rewrite Fa, map_length, L. reflexivity.
      * intros k. rewrite HS. destruct k as [|k]; cbn.
        -- split; [intros (j & E & _); discriminate E | intros (x & E & F); injection E as <-; congruence].
        -- rewrite <- H. split; [intros (j & E & I); injection E as ->; exact I | intro I; exists k; auto].
Qed.
Lemma zero_true x : zero x = true <-> x = Fin 0%Qc.
Proof.
  unfold zero, xeqb. destruct x as [q| | |]; split; try discriminate.
  - intro H. apply qeqb_true in H. congruence.
  - intro H. injection H as ->. apply qeqb_true. reflexivity.
Qed.
Lemma nth_error_combine_some {A B} (l : list A) (m : list B) k x y : nth_error (combine l m) k = Some (x, y) <-> nth_error l k = Some x /\ nth_error m k = Some y.
Proof.
  revert m k. induction l as [|a l IH]; intros [|b m] [|k]; cbn; try (split; [discriminate | intros (U & V); discriminate]).
  - split; [intro H; injection H as -> ->; auto | intros (U & V); injection U as ->; injection V as ->; reflexivity].
  - apply IH.
Qed.
Lemma count_lemma p q : counts_common_zeros p q (length (filter (fun e => zero (fst e) && zero (snd e)) (combine p q))).
Proof.
  destruct (filter_length_seq (fun e => zero (fst e) && zero (snd e)) (combine p q)) as (idx & N & L & H). exists idx. split; [exact N|]. split; [exact L|]. intro k. rewrite H. split.
  - intros ([x y] & E & F). apply nth_error_combine_some in E. cbn in F. apply andb_true_iff in F. rewrite !zero_true in F. destruct F as (-> & ->). exact E.
  - intro E. exists (Fin 0%Qc, Fin 0%Qc). split; [apply nth_error_combine_some; exact E | reflexivity].
Qed.
Lemma evaluate_lemma : forall c v p q, cvals c = Some v -> measure (init1 c) (set1 c) v = Ok p -> measure (init2 c) (set2 c) v = Ok q -> length p = length q ->
  exists c' n, evaluate_pdfs c = Ok c' /\ cpdfs c' = Some (p, q) /\ czero c' = Some n /\ counts_common_zeros p q n /\ densities_of c' = Ok c' /\
    cvals c' = Some v /\ set1 c' = set1 c /\ set2 c' = set2 c /\ init1 c' = init1 c /\ init2 c' = init2 c.
Proof.
  intros c v p q V P Q L. unfold measure in *. do 2 eexists. unfold evaluate_pdfs. rewrite V.
  replace (if init1 c then mpdf_init (set1 c) v else mpdf (set1 c) v) with (Ok p) by (rewrite <- P; destruct (init1 c); reflexivity). cbn [bind].
  replace (if init2 c then mpdf_init (set2 c) v else mpdf (set2 c) v) with (Ok q) by (rewrite <- Q; destruct (init2 c); reflexivity). cbn [bind].
  rewrite L, Nat.eqb_refl. split; [reflexivity|]. cbn. split; [reflexivity|]. split; [reflexivity|]. split; [apply count_lemma|]. repeat split.
Qed.
Lemma stale_init_lemma : forall c v p q, cvals c = Some v -> cpdfs c = Some (p, q) -> densities_of c = Ok c.
Proof. intros c v p q V P. unfold densities_of. rewrite V, P. reflexivity. Qed.
Lemma points_lemma : forall draw c c' a, set_compare_set draw a c = Ok c' <->
  exists v, match a with
            | ArgSet s => is_sample_set s = true /\ mdim s = mdim (set1 c) /\ v = mvals s
            | ArgArr n rows => n = mdim (set1 c) /\ v = Some rows
            | ArgInt n => exists p, draw n = Ok p /\ v = Some p
            | _ => False end /\
    c' = mk_comparison (set1 c) (set2 c) (init1 c) (init2 c) v (cpdfs c) (czero c).
Proof.
  intros draw c c' a. destruct a as [s|l|n rows|n|]; cbn [set_compare_set].
  - destruct (is_sample_set s); [|split; [discriminate | intros (v & (H & _) & _); discriminate H]]. destruct (Nat.eqb_spec (mdim s) (mdim (set1 c))) as [E|E].
    + split; [intro H; injection H as <-; exists (mvals s); auto | intros (v & (_ & _ & ->) & ->); reflexivity].
    + split; [discriminate | intros (v & (_ & H & _) & _); contradiction].
  - split; [discriminate | intros (v & [] & _)].
  - destruct (Nat.eqb_spec n (mdim (set1 c))) as [E|E].
    + split; [intro H; injection H as <-; exists (Some rows); auto | intros (v & (_ & ->) & ->); reflexivity].
    + split; [discriminate | intros (v & (H & _) & _); contradiction].
  - destruct (draw n) as [p|e]; cbn.
    + split; [intro H; injection H as <-; exists (Some p); eauto | intros (v & (p' & E & ->) & ->); injection E as ->; reflexivity].
    + split; [discriminate | intros (v & (p' & E & _) & _); discriminate E].
  - split; [discriminate | intros (v & [] & _)].
Qed.
Lemma refresh_lemma : forall draw a c c1 v p q, set_compare_set draw a c = Ok c1 -> cvals c1 = Some v -> measure (init1 c) (set1 c) v = Ok p -> measure (init2 c) (set2 c) v = Ok q -> length p = length q ->
  exists c2, evaluate_pdfs c1 = Ok c2 /\ densities_of c2 = Ok c2 /\ cpdfs c2 = Some (p, q).
Proof.
  intros draw a c c1 v p q H V P Q L. apply points_lemma in H. destruct H as (w & _ & ->). cbn in V. destruct (evaluate_lemma (mk_comparison (set1 c) (set2 c) (init1 c) (init2 c) w (cpdfs c) (czero c)) v p q V P Q L) as (c2 & n & E & D & _ & _ & F & _). exists c2. auto.
Qed.
Lemma points_rejected_lemma : forall draw c a,
  (forall s, a = ArgSet s -> is_sample_set s = false -> set_compare_set draw a c = Raise WrongInput) /\
  (forall s, a = ArgSet s -> is_sample_set s = true -> mdim s <> mdim (set1 c) -> set_compare_set draw a c = Raise DimNotMatching) /\
  (forall l, a = ArgFlat l -> set_compare_set draw a c = Raise PyIndexError) /\
  (forall n rows, a = ArgArr n rows -> n <> mdim (set1 c) -> set_compare_set draw a c = Raise DimNotMatching) /\
  (forall n e, a = ArgInt n -> draw n = Raise e -> set_compare_set draw a c = Raise e) /\
  (a = ArgOther -> set_compare_set draw a c = Raise WrongInput).
Proof.
  intros draw c a. unfold set_compare_set. split; [|split; [|split; [|split; [|split]]]].
  - intros s -> H. rewrite H. reflexivity.
  - intros s -> H D. apply Nat.eqb_neq in D. rewrite H, D. reflexivity.
  - intros l ->. reflexivity.
  - intros n rows -> D. apply Nat.eqb_neq in D. rewrite D. reflexivity.
  - intros n e -> D. rewrite D. reflexivity.
  - intros ->. reflexivity.
Qed.
