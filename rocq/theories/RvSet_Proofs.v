From Coq Require Import String List Arith Bool ZArith Lia QArith Qcanon.
From Verif Require Import Err Num Ext NumPy Lists Query_Proofs Layout_Model Layout_Proofs RvSet_Model RvSet_Spec.
Import ListNotations.
Local Open Scope nat_scope.
Local Open Scope err_scope.

Lemma mem_In s l : mem s l = true <-> In s l.
Proof.
  unfold mem. rewrite existsb_exists. split.
  - intros (x & I & E). apply String.eqb_eq in E. subst. exact I.
  - intro I. exists s. split; [exact I | apply String.eqb_refl].
Qed.
Lemma names_fit_iff d a : accepts d a = true <-> names_fit d a.
Proof.
  unfold accepts, names_fit. rewrite andb_true_iff, !forallb_forall. split.
  - intros (H1 & H2). split.
    + intros k I. apply H1, mem_In, in_app_or in I. destruct I as [I|[I|[I|[]]]]; [left; exact I | right; left; auto | right; right; auto].
    + intros k I. apply mem_In, H2, I.
  - intros (H1 & H2). split.
    + intros k I. apply mem_In, in_or_app. destruct (H1 k I) as [J|[->| ->]]; [left; exact J | right; left; reflexivity | right; right; left; reflexivity].
    + intros k I. apply mem_In, H2, I.
Qed.
Lemma callable_iff d a : accepts d a = true /\ valid d a = true <-> callable d a.
Proof. unfold callable. rewrite names_fit_iff. reflexivity. Qed.
Lemma map_result_ok {A B} (f : A -> result B) l ys : map_result f l = Ok ys <-> length ys = length l /\ forall i x y, nth_error l i = Some x -> nth_error ys i = Some y -> f x = Ok y.
Proof.
  revert ys. induction l as [|a l IH]; intro ys.
  - cbn. split.
    + intro H. injection H as <-. split; [reflexivity|]. intros [|i] x y E; discriminate E.
    + intros (L & _). destruct ys; [reflexivity | discriminate L].
  - cbn [map_result]. destruct (f a) as [b|e] eqn:Fa; cbn [bind].
    + destruct (map_result f l) as [bs|e] eqn:Fl; cbn [bind].
      * split.
        -- intro H. injection H as <-. destruct (proj1 (IH bs) eq_refl) as (L & H). split; [cbn; congruence|]. intros [|i] x y; cbn; [intros [= <-] [= <-]; exact Fa | apply H].
        -- intros (L & H). destruct ys as [|y ys]; [discriminate L|]. injection L as L. assert (Ok bs = Ok ys) as E by (apply IH; split; [exact L | intros i; exact (H (S i))]). injection E as ->.
           specialize (H 0 a y eq_refl eq_refl). congruence.
      * split; [discriminate|]. intros (L & H). destruct ys as [|y ys]; [discriminate L|]. injection L as L.
        assert (Raise e = Ok ys) as E by (apply IH; split; [exact L | intros i; exact (H (S i))]). discriminate E.
    + split; [discriminate|]. intros (L & H). destruct ys as [|y ys]; [discriminate L|]. specialize (H 0 a y eq_refl eq_refl). congruence.
Qed.
Lemma map_result_total {A B} (f : A -> result B) l : (forall x, In x l -> exists y, f x = Ok y) -> exists ys, map_result f l = Ok ys.
Proof.
  induction l as [|a l IH]; intro H; [exists []; reflexivity|]. destruct (H a (or_introl eq_refl)) as [b Hb]. destruct IH as [bs Hbs]; [intros x I; apply H; right; exact I|].
  exists (b :: bs). cbn [map_result]. rewrite Hb. cbn [bind]. rewrite Hbs. reflexivity.
Qed.
Lemma current_name_spec s : current_name s = (if String.eqb s "r" then "uniform" else if String.eqb s "random" then "uniform" else s)%string.
Proof. unfold current_name. destruct (String.eqb s "r"); [reflexivity|]. destruct (String.eqb s "random"); reflexivity. Qed.

Lemma resolve_seq l dim : (exists s d, l = [EName s; EDict d] /\ resolve dim None (RSeq l) = Ok (repeat (EPair s d) dim)) \/
  ((forall D, resolve dim D (RSeq l) = if length l =? dim then Ok l else Raise DimNotMatching) /\ (forall D i s a, asked D (RSeq l) i s a <-> nth_error l i = Some (EPair s a)) /\ (well_formed dim (RSeq l) <-> length l = dim)).
Proof.
  destruct l as [|e1 [|e2 [|e3 l]]]; [right | right | | right]; try destruct e1; try destruct e2;
    first [ left; do 2 eexists; split; reflexivity | try right; split; [reflexivity | split; [intros; reflexivity | reflexivity]] ].
Qed.
Lemma nth_error_repeat_iff {A} (x y : A) n i : nth_error (repeat x n) i = Some y <-> i < n /\ y = x.
Proof.
  revert i. induction n as [|n IH]; intros [|i]; cbn; try (split; [discriminate | lia]).
  - split; [intros [= <-]; split; [lia | reflexivity] | intros (_ & ->); reflexivity].
  - rewrite IH. split; intros (H & ->); (split; [lia | reflexivity]).
Qed.
Lemma resolve_spec dim dom rv : match dom with Some d => length d = dim | None => True end ->
  (forall es, resolve dim dom rv = Ok es -> well_formed dim rv /\ length es = dim /\ forall i s a, i < dim -> (nth_error es i = Some (EPair s a) <-> asked dom rv i s a)) /\
  (well_formed dim rv -> exists es, resolve dim dom rv = Ok es).
Proof.
  intro HD. destruct rv as [s|l|].
  - split; [|intros _; eexists; reflexivity]. intros es H. injection H as <-. split; [exact I|]. destruct dom as [d|].
    + split; [rewrite map_length; exact HD|]. intros i s' a Hi. rewrite nth_error_map. cbn [asked]. rewrite <- current_name_spec. destruct (nth_error d i) as [(lo, hi)|] eqn:E.
      * cbn. split; [intros [= <- <-]; split; [reflexivity|]; exists lo, hi; split; reflexivity|]. intros (-> & lo' & hi' & [= <- <-] & ->). reflexivity.
      * apply nth_error_None in E. lia.
    + split; [apply repeat_length|]. intros i s' a Hi. rewrite nth_error_repeat_iff. cbn [asked]. rewrite <- current_name_spec. split; [intros (_ & [= -> ->]); split; reflexivity | intros (-> & ->); split; [exact Hi | reflexivity]].
  - destruct (resolve_seq l dim) as [(s & d & -> & _)|(R1 & R2 & R3)].
    + cbn [resolve asked well_formed]. split; [|intros _; eexists; reflexivity]. intros es H. injection H as <-. split; [exact I|]. split; [apply repeat_length|].
      intros i s' a Hi. rewrite nth_error_repeat_iff. split; [intros (_ & [= -> ->]); split; reflexivity | intros (-> & ->); split; [exact Hi | reflexivity]].
    + rewrite R1. destruct (Nat.eqb_spec (length l) dim) as [E|E].
      * split; [|intros _; eexists; reflexivity]. intros es H. injection H as <-. split; [apply R3, E|]. split; [exact E|]. intros i s a _. symmetry. apply R2.
      * split; [discriminate | intro W; apply R3 in W; contradiction].
  - split; [discriminate | intros []].
Qed.
Lemma distribution_ok stats e s a d : distribution stats e = Ok (s, a, d) <-> e = EPair s a /\ stats s = Some d /\ callable d a.
Proof.
  rewrite <- callable_iff. destruct e as [x|x|x y|]; cbn [distribution]; try (split; [discriminate | intros (H & _); discriminate H]).
  destruct (stats x) as [d'|] eqn:E.
  - destruct (accepts d' y) eqn:A; [destruct (valid d' y) eqn:V|].
    + split; [intros [= <- <- <-]; auto | intros ([= -> ->] & H & _); congruence].
    + split; [discriminate | intros ([= -> ->] & H & H'); rewrite E in H; injection H as <-; destruct H'; congruence].
    + split; [discriminate | intros ([= -> ->] & H & H'); rewrite E in H; injection H as <-; destruct H'; congruence].
  - split; [discriminate | intros ([= -> ->] & H & _); congruence].
Qed.
Definition prepared (stats : string -> option dist) (s : rset) (rv : rv_arg) : result (list entry * list (string * dict * dist)) :=
  do es <- resolve (r_dim s) (r_domain s) rv ; do ds <- map_result (distribution stats) es ; Ok (es, ds).
Lemma prepared_ok stats s rv es ds : domain_fits s -> prepared stats s rv = Ok (es, ds) ->
  well_formed (r_dim s) rv /\ length es = r_dim s /\ length ds = r_dim s /\
  (forall i x a d, nth_error ds i = Some (x, a, d) -> asked (r_domain s) rv i x a /\ nth_error es i = Some (EPair x a) /\ stats x = Some d /\ callable d a) /\
  (forall i x a, i < r_dim s -> asked (r_domain s) rv i x a -> exists d, nth_error ds i = Some (x, a, d)).
Proof.
  intros HD H. unfold prepared in H. destruct (resolve (r_dim s) (r_domain s) rv) as [es'|] eqn:R; [|discriminate H]. cbn [bind] in H.
  destruct (map_result (distribution stats) es') as [ds'|] eqn:M; [|discriminate H]. cbn [bind] in H. injection H as -> ->.
  destruct (proj1 (resolve_spec _ _ _ HD) _ R) as (W & Le & As). apply map_result_ok in M. destruct M as (Ld & M). split; [exact W|]. split; [exact Le|]. split; [congruence|].
  assert (forall i x a d, nth_error ds i = Some (x, a, d) -> nth_error es i = Some (EPair x a) /\ stats x = Some d /\ callable d a /\ i < r_dim s) as K.
  { intros i x a d Hi. assert (i < r_dim s) as Li by (rewrite <- Le, <- Ld; apply nth_error_Some; rewrite Hi; discriminate).
    destruct (nth_error es i) as [e|] eqn:Ee; [|apply nth_error_None in Ee; lia]. pose proof (M i e _ Ee Hi) as D. apply distribution_ok in D. destruct D as (-> & ? & ?). auto. }
  split.
  - intros i x a d Hi. destruct (K i x a d Hi) as (E & S1 & C & L). split; [apply As; assumption|]. auto.
  - intros i x a L Ha. apply (As i x a L) in Ha. destruct (nth_error ds i) as [((x', a'), d)|] eqn:Ed; [|apply nth_error_None in Ed; lia].
    destruct (K i _ _ _ Ed) as (E & _). rewrite Ha in E. injection E as <- <-. exists d. reflexivity.
Qed.
Lemma blocks_total draw n P ds : 0 < P -> length (concat (map (block draw n P ds) (seq 0 P))) = n.
Proof.
  intro HP. assert (Z.of_nat (length (concat (map (block draw n P ds) (seq 0 P)))) = fold_right Z.add 0%Z (map (draw_count n P) (seq 0 P))) as E.
  { enough (forall q b, Z.of_nat (length (concat (map (block draw n P ds) (seq b q)))) = fold_right Z.add 0%Z (map (draw_count n P) (seq b q))) as K by apply K.
    induction q as [|q IH]; intro b; [reflexivity|]. cbn [seq map concat fold_right]. rewrite app_length, Nat2Z.inj_add, IH. f_equal.
    unfold block. rewrite map_length, seq_length, Z2Nat.id; [reflexivity|]. apply (draw_count_balanced n P b b HP). }
  rewrite draw_count_sum in E by exact HP. lia.
Qed.
Lemma random_set_ok stats draw P n g rv s s' : random_set stats draw P n g rv s = (Ok tt, s') ->
  exists es ds, prepared stats s rv = Ok (es, ds) /\ r_dim s' = r_dim s /\ r_domain s' = Some (map (fun e => support (snd e) (snd (fst e))) ds) /\
    r_local s' = Some (map (block draw n P ds) (seq 0 P)) /\ r_init s' = Some es /\ (g = true -> r_values s' = Some (concat (map (block draw n P ds) (seq 0 P)))).
Proof.
  unfold random_set. fold (prepared stats s rv). destruct (prepared stats s rv) as [(es, ds)|e]; [|discriminate]. cbv zeta. match goal with |- context [if ?c then _ else _] => destruct c end; [|discriminate].
  intro H. injection H as <-. exists es, ds. split; [reflexivity|]. destruct g; cbn; repeat split; try reflexivity; intro X; discriminate X.
Qed.
Lemma block_row draw n P ds r k row : draws_have_length draw -> nth_error (block draw n P ds r) k = Some row -> length row = length ds /\
  forall i x a d, nth_error ds i = Some (x, a, d) -> nth_error row i = nth_error (draw r i x a (length (block draw n P ds r))) k.
Proof.
  intros HL H. unfold block in *. rewrite map_length, seq_length. set (m := Z.to_nat (draw_count n P r)) in *. rewrite nth_error_map, nth_error_seq in H.
  destruct (Nat.ltb_spec k m) as [L|L]; [|discriminate H]. cbn in H. injection H as <-. split.
  - rewrite map_length, combine_length, seq_length. lia.
  - intros i x a d Hi. rewrite nth_error_map, nth_error_combine, Hi, nth_error_seq. assert (i < length ds) as Li by (apply nth_error_Some; rewrite Hi; discriminate).
    rewrite (proj2 (Nat.ltb_lt _ _) Li). cbn. symmetry. apply nth_error_nth'. rewrite HL. exact L.
Qed.
Lemma draws_lemma : forall stats draw P n g rv s s', 0 < P -> draws_have_length draw -> domain_fits s -> random_set stats draw P n g rv s = (Ok tt, s') ->
  exists blocks, r_local s' = Some blocks /\ length blocks = P /\ length (concat blocks) = n /\ (g = true -> r_values s' = Some (concat blocks)) /\
    forall r b k row, nth_error blocks r = Some b -> nth_error b k = Some row -> length row = r_dim s /\
      forall i x a, i < r_dim s -> asked (r_domain s) rv i x a -> nth_error row i = nth_error (draw r i x a (length b)) k.
Proof.
  intros stats draw P n g rv s s' HP HL HD H. destruct (random_set_ok _ _ _ _ _ _ _ _ H) as (es & ds & Pr & _ & _ & Lo & _ & Va). destruct (prepared_ok _ _ _ _ _ HD Pr) as (_ & _ & Ld & _ & As).
  exists (map (block draw n P ds) (seq 0 P)). split; [exact Lo|]. split; [rewrite map_length; apply seq_length|]. split; [apply blocks_total, HP|]. split; [exact Va|].
  intros r b k row Hb Hk. rewrite nth_error_map, nth_error_seq in Hb. destruct (Nat.ltb_spec r P) as [Lr|]; [|discriminate Hb]. cbn in Hb. injection Hb as <-.
  destruct (block_row _ _ _ _ _ _ _ HL Hk) as (Lr' & R). split; [congruence|]. intros i x a Li Ha. destruct (As i x a Li Ha) as [d Hd]. exact (R i x a d Hd).
Qed.
Lemma domain_lemma : forall stats draw P n g rv s s', domain_fits s -> random_set stats draw P n g rv s = (Ok tt, s') ->
  exists dom init, r_domain s' = Some dom /\ length dom = r_dim s /\ r_init s' = Some init /\ length init = r_dim s /\
    forall i, i < r_dim s -> exists x a d, asked (r_domain s) rv i x a /\ stats x = Some d /\ nth_error dom i = Some (support d a) /\ nth_error init i = Some (EPair x a).
Proof.
  intros stats draw P n g rv s s' HD H. destruct (random_set_ok _ _ _ _ _ _ _ _ H) as (es & ds & Pr & _ & Do & _ & In_ & _). destruct (prepared_ok _ _ _ _ _ HD Pr) as (_ & Le & Ld & As & _).
  eexists _, es. split; [exact Do|]. split; [rewrite map_length; exact Ld|]. split; [exact In_|]. split; [exact Le|]. intros i Li.
  destruct (nth_error ds i) as [((x, a), d)|] eqn:E; [|apply nth_error_None in E; lia]. destruct (As i x a d E) as (A1 & A2 & A3 & _). exists x, a, d. split; [exact A1|]. split; [exact A3|]. split; [|exact A2].
  rewrite nth_error_map, E. reflexivity.
Qed.
Lemma fresh_arrays s : fresh s -> flat_map (fun e : option nat * option (list nat) => match fst e with Some n => [n] | None => [] end) (r_arrays s) = [] /\
  forall b : list (list (list xnum)), forallb (fun e : option nat * option (list nat) => match snd e with Some ls => forallb (fun p => fst p =? snd p) (combine (map (@length (list xnum)) b) ls) | None => true end) (r_arrays s) = true.
Proof.
  intros (F & _). split.
  - induction (r_arrays s) as [|e l IH]; [reflexivity|]. cbn [flat_map]. rewrite (F e (or_introl eq_refl)). cbn. apply IH. intros x I. apply F. right. exact I.
  - intro b. apply forallb_forall. intros e I. rewrite (F e I). reflexivity.
Qed.
Lemma fresh_checks s v b i do_ : fresh s -> check_num_local_ok (mk_rset (r_dim s) do_ v (Some b) i (r_arrays s)) && check_num_ok (mk_rset (r_dim s) do_ v (Some b) i (r_arrays s)) = true.
Proof.
  intro F. destruct (fresh_arrays s F) as (F1 & F2). unfold check_num_local_ok, check_num_ok, global_lengths. cbn [r_local r_arrays r_values]. rewrite F2, F1, app_nil_r. destruct v; reflexivity.
Qed.
Lemma accepted_lemma : forall stats draw P n g rv s, fresh s ->
  ((exists s', random_set stats draw P n g rv s = (Ok tt, s')) <->
   well_formed (r_dim s) rv /\
   forall i, i < r_dim s -> exists x a d, asked (r_domain s) rv i x a /\ stats x = Some d /\ callable d a).
Proof.
  intros stats draw P n g rv s F. pose proof (proj2 F) as HD. split.
  - intros (s' & H). destruct (random_set_ok _ _ _ _ _ _ _ _ H) as (es & ds & Pr & _). destruct (prepared_ok _ _ _ _ _ HD Pr) as (W & _ & Ld & As & _). split; [exact W|]. intros i Li.
    destruct (nth_error ds i) as [((x, a), d)|] eqn:E; [|apply nth_error_None in E; lia]. destruct (As i x a d E) as (A1 & A2 & A3 & A4). exists x, a, d. auto.
  - intros (W & H). destruct (proj2 (resolve_spec _ (r_domain s) _ HD) W) as [es R]. destruct (proj1 (resolve_spec _ _ _ HD) _ R) as (_ & Le & As).
    destruct (map_result_total (distribution stats) es) as [ds M].
    { intros e I. apply In_nth_error in I. destruct I as [i Hi]. assert (i < r_dim s) as Li by (rewrite <- Le; apply nth_error_Some; rewrite Hi; discriminate). destruct (H i Li) as (x & a & d & Ha & Hs & Hc).
      apply (As i x a Li) in Ha. rewrite Hi in Ha. injection Ha as ->. exists (x, a, d). apply distribution_ok. auto. }
    unfold random_set. rewrite R. cbn [bind]. rewrite M. cbn [bind]. cbv zeta. rewrite fresh_checks by exact F. eexists. reflexivity.
Qed.
Lemma rejected_lemma : forall stats draw P n g rv s e s', fresh s -> random_set stats draw P n g rv s = (Raise e, s') -> s' = s.
Proof.
  intros stats draw P n g rv s e s' F. unfold random_set. fold (prepared stats s rv). destruct (prepared stats s rv) as [(es, ds)|e']; [|intros [= _ <-]; reflexivity]. cbv zeta. rewrite fresh_checks by exact F. discriminate.
Qed.
Lemma rejected_with_lemma : forall stats draw P n g s l, (r_dim s <> length l -> (forall x d, l <> [EName x; EDict d]) -> random_set stats draw P n g (RSeq l) s = (Raise DimNotMatching, s)) /\
  random_set stats draw P n g ROther s = (Raise WrongInput, s).
Proof.
  intros stats draw P n g s l. split; [|reflexivity]. intros N X. unfold random_set. destruct (resolve_seq l (r_dim s)) as [(x & d & -> & _)|(R & _)]; [exfalso; eapply X; reflexivity|].
  rewrite R. destruct (Nat.eqb_spec (length l) (r_dim s)) as [E|E]; [congruence|]. reflexivity.
Qed.
Lemma consistent_lemma : forall stats draw P n rv s s', 0 < P -> fresh s -> random_set stats draw P n true rv s = (Ok tt, s') -> all_have s' n /\ r_values s' <> None.
Proof.
  intros stats draw P n rv s s' HP F H. destruct (random_set_ok _ _ _ _ _ _ _ _ H) as (es & ds & Pr & _ & _ & _ & _ & Va). specialize (Va eq_refl). split; [|rewrite Va; discriminate].
  split.
  - intros v Hv. rewrite Va in Hv. injection Hv as <-. apply blocks_total, HP.
  - assert (r_arrays s' = r_arrays s) as ->.
    { unfold random_set in H. fold (prepared stats s rv) in H. rewrite Pr in H. cbv zeta in H. rewrite fresh_checks in H by exact F. injection H as <-. cbn [r_local_to_global r_arrays]. rewrite <- map_id. apply map_ext_in. intros e I. rewrite (proj1 F e I). reflexivity. }
    intros m l I. apply (proj1 F) in I. discriminate I.
Qed.
(** arrays of an earlier sample *)
Lemma stale_lemma : forall stats draw P n rv s m, 0 < P -> m <> n -> r_values s = None -> domain_fits s -> r_arrays s = [(Some m, None)] ->
  well_formed (r_dim s) rv ->
  (forall i, i < r_dim s -> exists x a d, asked (r_domain s) rv i x a /\ stats x = Some d /\ callable d a) ->
  exists s', random_set stats draw P n true rv s = (Ok tt, s') /\ forall k, ~ all_have s' k.
Proof.
  intros stats draw P n rv s m HP N V HD A W H. set (t := mk_rset (r_dim s) (r_domain s) None (r_local s) (r_init s) []).
  assert (fresh t) as F by (split; [intros e [] | exact HD]).
  destruct (proj2 (accepted_lemma stats draw P n true rv t F)) as (t' & Ht); [split; [exact W | exact H]|].
  destruct (random_set_ok _ _ _ _ _ _ _ _ Ht) as (es & ds & Pr & _). change (prepared stats t rv) with (prepared stats s rv) in Pr.
  unfold random_set. fold (prepared stats s rv). rewrite Pr. cbv zeta. rewrite V, A. cbn. eexists. split; [reflexivity|]. intros k (H1 & H2). cbn in H1, H2.
  specialize (H1 _ eq_refl). rewrite blocks_total in H1 by exact HP. specialize (H2 m None (or_introl eq_refl)). congruence.
Qed.
(** ** Sampling a set twice *)
Lemma twice_lemma : forall stats draw P n g x s s' t u d, domain_fits s -> r_domain s = None -> stats x = Some d -> x <> "r"%string -> x <> "random"%string ->
  random_set stats draw P n g (RName x) s = (Ok tt, s') -> random_set stats draw P n g (RName x) s' = (Ok t, u) ->
  r_init u = Some (repeat (EPair x [("loc", fst (support d [])); ("scale", xadd (snd (support d [])) (xneg (fst (support d []))))]%string) (r_dim s)).
Proof.
  intros stats draw P n g x s s' t u d HD Dn Sx N1 N2 H1 H2. destruct t. destruct (random_set_ok _ _ _ _ _ _ _ _ H1) as (es & ds & Pr & Di & Do & _). destruct (prepared_ok _ _ _ _ _ HD Pr) as (_ & _ & Ld & As & _).
  assert (current_name x = x) as Cx by (rewrite current_name_spec; destruct (String.eqb_spec x "r"); [contradiction|]; destruct (String.eqb_spec x "random"); [contradiction | reflexivity]).
  assert (map (fun e : string * dict * dist => support (snd e) (snd (fst e))) ds = repeat (support d []) (r_dim s)) as E.
  { rewrite <- Ld. assert (forall e, In e ds -> e = (x, [], d)) as K.
    { intros ((y, a), d') I. apply In_nth_error in I. destruct I as [i Hi]. destruct (As _ _ _ _ Hi) as (A1 & _ & A3 & _). cbn [asked] in A1. rewrite Dn in A1. rewrite <- current_name_spec, Cx in A1. destruct A1 as (E1 & E2). rewrite E1, E2 in *. rewrite Sx in A3. injection A3 as <-. reflexivity. }
    clear - K. induction ds as [|e ds IH]; [reflexivity|]. cbn [map length repeat]. rewrite (K e (or_introl eq_refl)). cbn. f_equal. apply IH. intros; apply K; right; assumption. }
  rewrite E in Do. destruct (random_set_ok _ _ _ _ _ _ _ _ H2) as (es2 & ds2 & Pr2 & _ & _ & _ & In2 & _). rewrite In2. f_equal.
  unfold prepared in Pr2. cbn [resolve bind] in Pr2. rewrite Do in Pr2. cbv iota in Pr2. destruct (map_result (distribution stats) _) as [x2|] in Pr2; [|discriminate Pr2]. cbn [bind] in Pr2. injection Pr2 as <- _.
  rewrite Cx. clear. induction (r_dim s) as [|k IH]; [reflexivity|]. cbn [repeat map]. f_equal. exact IH.
Qed.
Lemma not_finite_lemma : forall stats draw P n g x s s' t u d, 0 < P -> draws_have_length draw -> domain_fits s -> r_domain s = None -> stats x = Some d -> x <> "r"%string -> x <> "random"%string -> support d [] = (NInf, PInf) ->
  (forall r i m lo sc, exists us, draw r i x [("loc", lo); ("scale", sc)]%string m = map (fun q => xadd lo (xmul sc (Fin q))) us) ->
  random_set stats draw P n g (RName x) s = (Ok tt, s') -> random_set stats draw P n g (RName x) s' = (Ok t, u) ->
  exists blocks, r_local u = Some blocks /\ length (concat blocks) = n /\ forall row v, In row (concat blocks) -> In v row -> finite v = false.
Proof.
  intros stats draw P n g x s s' t u d HP HL HD Dn Sx N1 N2 Su LS H1 H2. destruct t. pose proof (twice_lemma stats draw P n g x s s' tt u d HD Dn Sx N1 N2 H1 H2) as T.
  destruct (random_set_ok _ _ _ _ _ _ _ _ H1) as (es & ds & Pr & Di & Do & _). destruct (prepared_ok _ _ _ _ _ HD Pr) as (_ & _ & Ld & _).
  assert (domain_fits s') as HD' by (unfold domain_fits; rewrite Do, map_length; congruence).
  destruct (random_set_ok _ _ _ _ _ _ _ _ H2) as (es2 & ds2 & Pr2 & _ & _ & Lo & In2 & _). destruct (prepared_ok _ _ _ _ _ HD' Pr2) as (_ & _ & Ld2 & As2 & _).
  eexists. split; [exact Lo|]. split; [apply blocks_total, HP|]. intros row v Ir Iv. apply in_concat in Ir. destruct Ir as (b & Ib & Ir). apply in_map_iff in Ib. destruct Ib as (r & <- & _).
  apply In_nth_error in Ir. destruct Ir as [k Hk]. destruct (block_row _ _ _ _ _ _ _ HL Hk) as (Lr & R). apply In_nth_error in Iv. destruct Iv as [i Hi].
  assert (i < length ds2) as Li by (rewrite <- Lr; apply nth_error_Some; rewrite Hi; discriminate). destruct (nth_error ds2 i) as [((y, a), d2)|] eqn:E; [|apply nth_error_None in E; lia].
  rewrite (R i y a d2 E) in Hi. destruct (As2 i y a d2 E) as (_ & A2 & _). rewrite In2 in T. injection T as ->. apply nth_error_repeat_iff in A2. destruct A2 as (_ & [= -> ->]). rewrite Su in Hi. cbn [fst snd xneg xadd] in Hi.
  destruct (LS r i (length (block draw n P ds2 r)) NInf PInf) as [us Hus]. cbn in Hus. rewrite Hus in Hi. apply nth_error_In, in_map_iff in Hi. destruct Hi as (q & <- & _). unfold xmul, sgn_inf. destruct (qeqb q 0); [reflexivity|]. destruct (qltb 0 q); reflexivity.
Qed.
(** ** Stored fits *)
Lemma fit_names_lemma : forall d A, length A = length (shapes d) + 2 ->
  shapes d = [] \/ shapes d = ["a"%string] \/ shapes d = ["a"; "b"]%string ->
  fit_parameters A = Ok (combine (shapes d ++ ["loc"; "scale"]%string) (map Fin A)).
Proof.
  intros d A L [E|[E|E]]; rewrite E in *; cbn in L.
  - destruct A as [|x [|y [|z A]]]; try discriminate L. reflexivity.
  - destruct A as [|x [|y [|z [|w A]]]]; try discriminate L. reflexivity.
  - destruct A as [|x [|y [|z [|w [|v A]]]]]; try discriminate L. reflexivity.
Qed.
Lemma fit_usable_lemma : forall d A a, length A = length (shapes d) + 2 -> NoDup (shapes d) -> ~ In "loc"%string (shapes d) -> ~ In "scale"%string (shapes d) ->
  fit_parameters A = Ok a -> (names_fit d a <-> shapes d = [] \/ shapes d = ["a"%string] \/ shapes d = ["a"; "b"]%string \/ shapes d = ["b"; "a"]%string).
Proof.
  intros d A a L ND N1 N2 H. rewrite <- names_fit_iff. unfold accepts. rewrite andb_true_iff, !forallb_forall.
  destruct A as [|x1 [|x2 [|x3 [|x4 [|x5 A]]]]]; try discriminate H; injection H as <-; cbn [map fst]; cbn [length] in L.
  - destruct (shapes d) as [|y l]; [|cbn in L; lia]. split; [left; reflexivity|]. intros _. split; [|intros k []]. intros k [<-|[<-|[]]]; reflexivity.
  - destruct (shapes d) as [|y [|z l]]; try (cbn in L; lia). split.
    + intros (_ & H). right. left. specialize (H y (or_introl eq_refl)). apply mem_In in H. destruct H as [<-|[<-|[<-|[]]]]; [reflexivity | exfalso; apply N1; left; reflexivity | exfalso; apply N2; left; reflexivity].
    + intros [H|[H|[H|H]]]; try discriminate H. injection H as ->. split; intros k I; cbn in I; repeat (destruct I as [<-|I]; [reflexivity|]); destruct I.
  - destruct (shapes d) as [|y [|z [|w l]]]; try (cbn in L; lia). split.
    + intros (_ & H). right. right. pose proof (H y (or_introl eq_refl)) as Hy. pose proof (H z (or_intror (or_introl eq_refl))) as Hz. apply mem_In in Hy. apply mem_In in Hz. inversion ND as [|? ? Ny _]. subst.
      destruct Hy as [<-|[<-|[<-|[<-|[]]]]], Hz as [<-|[<-|[<-|[<-|[]]]]]; try (exfalso; apply N1; cbn; tauto); try (exfalso; apply N2; cbn; tauto); try (exfalso; apply Ny; left; reflexivity); auto.
    + intros [H|[H|[H|H]]]; try discriminate H; injection H as -> ->; split; intros k I; cbn in I; repeat (destruct I as [<-|I]; [reflexivity|]); destruct I.
Qed.
Lemma stored_length fits es : stored_fits fits = Ok es -> length es = length fits.
Proof. intro H. apply map_result_ok in H. apply H. Qed.
Lemma random_set_seq_pairs stats draw P n g es : (forall e, In e es -> exists s a, e = EPair s a) ->
  random_sample_set stats draw P n g (RSeq es) (IDim (length es)) =
  do ds <- map_result (distribution stats) es ; match random_set stats draw P n g (RSeq es) (mk_rset (length es) None None None None []) with (Ok _, s') => Ok s' | (Raise e, _) => Raise e end.
Proof.
  intro H. unfold random_sample_set. cbn [input_set bind]. unfold random_set. cbn [r_dim r_domain]. destruct (resolve_seq es (length es)) as [(x & d & -> & _)|(R & _)].
  - destruct (H (EName x) (or_introl eq_refl)) as (? & ? & E). discriminate E.
  - rewrite R, Nat.eqb_refl. cbn [bind]. destruct (map_result (distribution stats) es); reflexivity.
Qed.
Lemma stored_pairs fits es : stored_fits fits = Ok es -> forall i x A, nth_error fits i = Some (x, A) -> exists a, fit_parameters A = Ok a /\ nth_error es i = Some (EPair x a).
Proof.
  intros H i x A Hi. apply map_result_ok in H. destruct H as (L & H). destruct (nth_error es i) as [e|] eqn:E; [|apply nth_error_None in E; assert (i < length fits) by (apply nth_error_Some; rewrite Hi; discriminate); lia].
  specialize (H i _ _ Hi E). cbn in H. destruct (fit_parameters A) as [a|]; [|discriminate H]. cbn in H. injection H as <-. exists a. auto.
Qed.
Lemma stored_all_pairs fits es : stored_fits fits = Ok es -> forall e, In e es -> exists s a, e = EPair s a.
Proof.
  intros H e I. apply In_nth_error in I. destruct I as [i Hi]. destruct (nth_error fits i) as [(x, A)|] eqn:E.
  - destruct (stored_pairs _ _ H i x A E) as (a & _ & E'). rewrite Hi in E'. injection E' as ->. eauto.
  - apply nth_error_None in E. rewrite <- (stored_length _ _ H) in E. apply nth_error_None in E. congruence.
Qed.
(** the fitted distribution of every dimension has standard names and valid values *)
Lemma fits_sampled_lemma : forall stats draw P n g fits, 0 < P -> draws_have_length draw ->
  (forall x A, In (x, A) fits -> exists d, stats x = Some d /\ length A = length (shapes d) + 2 /\ (shapes d = [] \/ shapes d = ["a"%string] \/ shapes d = ["a"; "b"]%string) /\ valid d (combine (shapes d ++ ["loc"; "scale"]%string) (map Fin A)) = true) ->
  exists s blocks, sample_fits stats draw P n g fits = Ok s /\ r_local s = Some blocks /\ length (concat blocks) = n /\
    forall r b k row i x A d, nth_error blocks r = Some b -> nth_error b k = Some row -> nth_error fits i = Some (x, A) -> stats x = Some d ->
      nth_error row i = nth_error (draw r i x (combine (shapes d ++ ["loc"; "scale"]%string) (map Fin A)) (length b)) k.
Proof.
  intros stats draw P n g fits HP HL HF.
  destruct (map_result_total (fun f => do a <- fit_parameters (snd f) ; Ok (EPair (fst f) a)) fits) as [es Hes].
  { intros (x, A) I. destruct (HF x A I) as (d & _ & L & S_ & _). cbn [fst snd]. rewrite (fit_names_lemma d A L S_). eexists. reflexivity. }
  fold (stored_fits fits) in Hes. pose proof (stored_length _ _ Hes) as Le. set (s0 := mk_rset (length es) None None None None []).
  assert (forall i x A d, nth_error fits i = Some (x, A) -> stats x = Some d -> nth_error es i = Some (EPair x (combine (shapes d ++ ["loc"; "scale"]%string) (map Fin A)))) as Es.
  { intros i x A d Hi Hd. destruct (HF x A (nth_error_In _ _ Hi)) as (d' & Hd' & L & S_ & _). rewrite Hd in Hd'. injection Hd' as <-. destruct (stored_pairs _ _ Hes i x A Hi) as (a & Ha & E). rewrite (fit_names_lemma d A L S_) in Ha. injection Ha as <-. exact E. }
  destruct (resolve_seq es (length es)) as [(x & d & E & _)|(R1 & R2 & R3)].
  { exfalso. subst es. destruct (stored_all_pairs _ _ Hes (EName x) (or_introl eq_refl)) as (? & ? & X). discriminate X. }
  assert (fresh s0) as F by (split; [intros e [] | exact I]).
  destruct (proj2 (accepted_lemma stats draw P n g (RSeq es) s0 F)) as (s' & Hs').
  { split; [apply R3; reflexivity|]. intros i Li. cbn in Li. destruct (nth_error fits i) as [(x, A)|] eqn:E; [|apply nth_error_None in E; lia].
    destruct (HF x A (nth_error_In _ _ E)) as (d & Hd & L & S_ & V). exists x, (combine (shapes d ++ ["loc"; "scale"]%string) (map Fin A)), d. split; [apply R2, Es; assumption|]. split; [exact Hd|].
    apply callable_iff. split; [|exact V]. clear - L S_. destruct S_ as [E|[E|E]]; unfold accepts; rewrite E in *; cbn in L.
    - destruct A as [|a1 [|a2 [|a3 A]]]; try discriminate L. reflexivity.
    - destruct A as [|a1 [|a2 [|a3 [|a4 A]]]]; try discriminate L. reflexivity.
    - destruct A as [|a1 [|a2 [|a3 [|a4 [|a5 A]]]]]; try discriminate L. reflexivity. }
  destruct (draws_lemma stats draw P n g (RSeq es) s0 s' HP HL I Hs') as (blocks & B1 & B2 & B3 & _ & B4).
  exists s', blocks. split; [|split; [exact B1 | split; [exact B3|]]].
  - unfold sample_fits. rewrite Hes. cbn [bind]. rewrite <- Le. unfold random_sample_set. cbn [input_set bind]. fold s0. rewrite Hs'. reflexivity.
  - intros r b k row i x A d Hb Hk Hi Hd. apply (proj2 (B4 r b k row Hb Hk)); [cbn; rewrite Le; apply nth_error_Some; rewrite Hi; discriminate|]. apply R2, Es; assumption.
Qed.
Lemma fits_fail_lemma : forall stats draw P n g fits i x A d, nth_error fits i = Some (x, A) -> stats x = Some d -> length A = length (shapes d) + 2 -> NoDup (shapes d) -> ~ In "loc"%string (shapes d) -> ~ In "scale"%string (shapes d) ->
  ~ (shapes d = [] \/ shapes d = ["a"%string] \/ shapes d = ["a"; "b"]%string \/ shapes d = ["b"; "a"]%string) ->
  exists e, sample_fits stats draw P n g fits = Raise e.
Proof.
  intros stats draw P n g fits i x A d Hi Hd L ND N1 N2 N. unfold sample_fits. destruct (stored_fits fits) as [es|e] eqn:Hes; [|exists e; reflexivity]. cbn [bind].
  destruct (stored_pairs _ _ Hes i x A Hi) as (a & Ha & Ee). rewrite <- (stored_length _ _ Hes), random_set_seq_pairs by exact (stored_all_pairs _ _ Hes).
  destruct (map_result (distribution stats) es) as [ds|e] eqn:M; [|exists e; reflexivity]. exfalso. apply map_result_ok in M. destruct M as (Ld & M).
  destruct (nth_error ds i) as [((y, b), d')|] eqn:E; [|apply nth_error_None in E; rewrite Ld in E; apply nth_error_None in E; congruence].
  specialize (M i _ _ Ee E). apply distribution_ok in M. destruct M as ([= <- <-] & Hd' & C). rewrite Hd in Hd'. injection Hd' as <-. apply N, (fit_usable_lemma d A a L ND N1 N2 Ha), C.
Qed.
(** ** Kinds of input, and a failing check *)
Lemma inputs_lemma : forall stats draw P n g rv o dim dom s', 0 < P -> draws_have_length draw -> means_set o dim dom -> random_sample_set stats draw P n g rv o = Ok s' ->
  exists blocks, r_dim s' = dim /\ r_local s' = Some blocks /\ length (concat blocks) = n /\
    forall r b k row, nth_error blocks r = Some b -> nth_error b k = Some row -> length row = dim /\
      forall i x a, i < dim -> asked dom rv i x a -> nth_error row i = nth_error (draw r i x a (length b)) k.
Proof.
  intros stats draw P n g rv o dim dom s' HP HL Ho H. unfold random_sample_set in H. destruct (input_set o) as [s|] eqn:E; [|discriminate H]. cbn [bind] in H.
  assert (dim = r_dim s /\ dom = r_domain s /\ domain_fits s) as (-> & -> & HD).
  { destruct o as [s0|k|d|]; cbn [input_set] in E; [injection E as <-; exact Ho | injection E as <- | injection E as <- | discriminate E]; destruct Ho as (-> & ->); repeat split. }
  destruct (random_set stats draw P n g rv s) as ([u|e], s1) eqn:R; [|discriminate H]. injection H as ->. destruct u.
  destruct (draws_lemma _ _ _ _ _ _ _ _ HP HL HD R) as (blocks & B1 & _ & B3 & _ & B4). destruct (random_set_ok _ _ _ _ _ _ _ _ R) as (_ & _ & _ & D & _). exists blocks. auto.
Qed.
Lemma inputs_rejected_lemma : forall stats draw P n g rv, random_sample_set stats draw P n g rv IOther = Raise WrongInput.
Proof. reflexivity. Qed.
Lemma failed_check_lemma : forall stats draw P n g rv s ls r m, r < P -> nth_error ls r = Some m -> m <> Z.to_nat (draw_count n P r) -> r_init s = None -> domain_fits s -> r_arrays s = [(None, Some ls)] ->
  well_formed (r_dim s) rv -> (forall i, i < r_dim s -> exists x a d, asked (r_domain s) rv i x a /\ stats x = Some d /\ callable d a) ->
  exists s', random_set stats draw P n g rv s = (Raise LengthNotMatching, s') /\ s' <> s.
Proof.
  intros stats draw P n g rv s ls r m Hr Hm N Hi HD A W H. set (t := mk_rset (r_dim s) (r_domain s) None (r_local s) (r_init s) []).
  assert (fresh t) as F by (split; [intros e [] | exact HD]).
  destruct (proj2 (accepted_lemma stats draw P n g rv t F)) as (t' & Ht); [split; [exact W | exact H]|].
  destruct (random_set_ok _ _ _ _ _ _ _ _ Ht) as (es & ds & Pr & _). change (prepared stats t rv) with (prepared stats s rv) in Pr.
  unfold random_set. fold (prepared stats s rv). rewrite Pr. cbv zeta.
  match goal with |- context [check_num_local_ok ?x] => set (s1 := x) end.
  assert (check_num_local_ok s1 = false) as ->.
  { unfold check_num_local_ok, s1. cbn [r_local r_arrays]. rewrite A. cbn [forallb snd]. rewrite andb_true_r. apply not_true_is_false. intro B. rewrite forallb_forall in B.
    assert (In (Z.to_nat (draw_count n P r), m) (combine (map (@length (list xnum)) (map (block draw n P ds) (seq 0 P))) ls)) as I.
    { apply nth_error_In with (n := r). rewrite nth_error_combine, Hm, !nth_error_map, nth_error_seq, (proj2 (Nat.ltb_lt _ _) Hr). cbn. unfold block. rewrite map_length, seq_length. reflexivity. }
    specialize (B _ I). cbn in B. apply Nat.eqb_eq in B. apply N. symmetry. exact B. }
  cbn [andb]. exists s1. split; [reflexivity|]. intro E. apply (f_equal r_init) in E. cbn in E. rewrite Hi in E. discriminate E.
Qed.
