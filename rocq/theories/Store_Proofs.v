From Coq Require Import Ascii String DecimalString DecimalNat Arith Bool Lia Permutation List.
From Verif Require Import Err Lists Query_Proofs Store_Model Store_Spec.
Import ListNotations.
Local Open Scope nat_scope.
Local Open Scope list_scope.

(** ** Strings *)
Lemma streqb_true a b : streqb a b = true <-> a = b.
Proof. unfold streqb. destruct (list_eq_dec ascii_dec a b); split; congruence. Qed.
Lemma streqb_refl a : streqb a a = true.
Proof. apply streqb_true. reflexivity. Qed.
Lemma streqb_false a b : streqb a b = false <-> a <> b.
Proof. unfold streqb. destruct (list_eq_dec ascii_dec a b); split; congruence. Qed.
Lemma prefixb_true p s : prefixb p s = true <-> exists t, s = p ++ t.
Proof.
  revert s; induction p as [|x p IH]; intro s; simpl; [split; eauto|].
  destruct s as [|y s]; [split; [discriminate | intros (t & H); discriminate]|].
  destruct (ascii_dec x y) as [<-|N].
  - rewrite IH. split; intros (t & H); exists t; congruence.
  - split; [discriminate | intros (t & H); congruence].
Qed.
Lemma suffixb_true p s : suffixb p s = true <-> exists t, s = t ++ p.
Proof.
  unfold suffixb. rewrite prefixb_true. split; intros (t & H).
  - exists (rev t). rewrite <- (rev_involutive s), H, rev_app_distr, rev_involutive. reflexivity.
  - exists (rev t). rewrite H, rev_app_distr. reflexivity.
Qed.
Lemma lit_inj s t : lit s = lit t -> s = t.
Proof. intro H. rewrite <- (string_of_list_ascii_of_string s), <- (string_of_list_ascii_of_string t). unfold lit in H. rewrite H. reflexivity. Qed.
Lemma show_inj a b : show a = show b -> a = b.
Proof.
  unfold show. intro H. apply lit_inj in H. apply (f_equal NilEmpty.uint_of_string) in H. rewrite !NilEmpty.usu in H.
  injection H as H. apply (f_equal Nat.of_uint) in H. rewrite !Unsigned.of_to in H. exact H.
Qed.

(** ** Files *)
Section FS.
Context {O : Type}.
Implicit Types s : fs O.
Lemma lookup_filter_neq p q s : p <> q -> lookup p (filter (fun e => negb (streqb (fst e) q)) s) = lookup p s.
Proof.
  intro N. induction s as [|[a c] s IH]; simpl; [reflexivity|]. destruct (streqb a q) eqn:E; simpl.
  - apply streqb_true in E. subst a. rewrite IH. destruct (streqb q p) eqn:E; [apply streqb_true in E; congruence | reflexivity].
  - rewrite IH. reflexivity.
Qed.
Lemma lookup_write p q c s : lookup p (write q c s) = if streqb q p then Some c else lookup p s.
Proof. unfold write. simpl. destruct (streqb q p) eqn:E; [reflexivity|]. apply lookup_filter_neq. apply streqb_false in E. congruence. Qed.
Lemma lookup_None p s : lookup p s = None <-> ~ In p (map fst s).
Proof.
  induction s as [|[a c] s IH]; simpl; [tauto|]. destruct (streqb a p) eqn:E.
  - apply streqb_true in E. split; [discriminate | tauto].
  - apply streqb_false in E. rewrite IH. tauto.
Qed.
Lemma write_keys p q c s : In p (map fst (write q c s)) <-> p = q \/ In p (map fst s).
Proof.
  destruct (list_eq_dec ascii_dec p q) as [->|N]; [simpl; tauto|].
  assert (L := lookup_write p q c s). replace (streqb q p) with false in L by (symmetry; apply streqb_false; congruence).
  assert (lookup p (write q c s) = None <-> lookup p s = None) by (rewrite L; reflexivity).
  rewrite !lookup_None in H. destruct (in_dec (list_eq_dec ascii_dec) p (map fst s)); destruct (in_dec (list_eq_dec ascii_dec) p (map fst (write q c s))); tauto.
Qed.
Lemma NoDup_keys_filter (k : str * content O -> bool) s : NoDup (map fst s) -> NoDup (map fst (filter k s)).
Proof.
  induction s as [|e s IH]; simpl; intro H; [constructor|]. inversion H; subst. destruct (k e); simpl; auto. constructor; auto.
  intro Hin. apply in_map_iff in Hin. destruct Hin as (x & Ex & Hx). apply filter_In in Hx. apply H2. rewrite <- Ex. apply in_map, Hx.
Qed.
Lemma write_NoDup q c s : NoDup (map fst s) -> NoDup (map fst (write q c s)).
Proof.
  intro H. unfold write. simpl. constructor; [|apply NoDup_keys_filter, H].
  intro Hin. apply in_map_iff in Hin. destruct Hin as (x & Hx & Hin). apply filter_In in Hin. destruct Hin as [_ Hin].
  rewrite Hx, streqb_refl in Hin. discriminate.
Qed.

Definition path_of (e : event O) : str := match e with Open p => p | Dump p _ => p end.
Definition content_of (e : event O) : content O := match e with Open _ => Truncated | Dump _ o => Complete o end.
Lemma step_write s e : step s e = write (path_of e) (content_of e) s.
Proof. destruct e; reflexivity. Qed.
Lemma run_app es es' s : run (es ++ es') s = run es' (run es s).
Proof. apply fold_left_app. Qed.
(** Only the events on a path matter for the path. *)
Lemma run_lookup p es : forall s, lookup p (run es s) = lookup p (run (filter (fun e => streqb (path_of e) p) es) s).
Proof.
  assert (G : forall es s s', lookup p s = lookup p s' ->
    lookup p (run es s) = lookup p (run (filter (fun e => streqb (path_of e) p) es) s')).
  { clear es. induction es as [|e es IH]; intros s s' H; simpl; [exact H|]. destruct (streqb (path_of e) p) eqn:E.
    - simpl. apply IH. rewrite !step_write, !lookup_write, E. reflexivity.
    - apply IH. rewrite step_write, lookup_write, E. exact H. }
  intro s. apply G. reflexivity.
Qed.
Lemma run_keys p es : forall s, In p (map fst (run es s)) <-> In p (map fst s) \/ exists e, In e es /\ path_of e = p.
Proof.
  induction es as [|e es IH]; intro s; simpl.
  - split; [tauto | intros [H|(e & [] & _)]; exact H].
  - rewrite IH, step_write, write_keys. split.
    + intros [[->|H]|(x & Hx & <-)]; [right; exists e; auto | auto | right; exists x; auto].
    + intros [H|(x & [->|Hx] & <-)]; [auto | auto | right; exists x; auto].
Qed.
Lemma run_NoDup es : forall s, NoDup (map fst s) -> NoDup (map fst (run es s)).
Proof. induction es as [|e es IH]; intros s H; simpl; [exact H|]. apply IH. rewrite step_write. apply write_NoDup, H. Qed.
End FS.

(** ** Interleavings *)
Lemma interleaving_In {A} ls (l : list A) : interleaving ls l -> forall x, In x l <-> In x (concat ls).
Proof.
  induction 1 as [ls H|pre y t post l H IH]; intro x.
  - split; [intros []|]. intro Hx. apply in_concat in Hx. destruct Hx as (m & Hm & Hx). rewrite (H m Hm) in Hx. exact Hx.
  - simpl. rewrite IH, !concat_app. simpl. rewrite !in_app_iff. simpl. rewrite in_app_iff. tauto.
Qed.
Lemma interleaving_filter {A} (p : A -> bool) ls l : interleaving ls l -> interleaving (map (filter p) ls) (filter p l).
Proof.
  induction 1 as [ls H|pre x t post l H IH]; simpl.
  - apply inter_nil. intros m Hm. apply in_map_iff in Hm. destruct Hm as (m' & <- & Hm'). rewrite (H m' Hm'). reflexivity.
  - rewrite map_app in *. simpl in *. destruct (p x); [apply inter_step|]; exact IH.
Qed.
Lemma interleaving_single {A} (pre post : list (list A)) m l : interleaving (pre ++ m :: post) l ->
  (forall k, In k pre \/ In k post -> k = []) -> l = m.
Proof.
  intro H. remember (pre ++ m :: post) as ls eqn:E. revert pre m post E.
  induction H as [ls H|pre x t post l H IH]; intros pre' m post' E K.
  - subst ls. symmetry. apply H. apply in_or_app. right. left. reflexivity.
  - assert (L : List.length pre = List.length pre').
    { destruct (Nat.lt_trichotomy (List.length pre) (List.length pre')) as [C|[C|C]]; [|exact C|]; exfalso.
      - assert (In (x :: t) pre'); [|assert (Z : x :: t = []) by (apply K; auto); discriminate].
        apply nth_error_In with (n := List.length pre). rewrite <- (nth_error_app1 pre' (m :: post')) by exact C. rewrite <- E, nth_error_app2 by lia.
        rewrite Nat.sub_diag. reflexivity.
      - assert (In (x :: t) post'); [|assert (Z : x :: t = []) by (apply K; auto); discriminate].
        destruct (List.length pre - List.length pre') as [|n] eqn:En; [lia|].
        apply nth_error_In with (n := n). change (nth_error post' n) with (nth_error (m :: post') (S n)). rewrite <- En.
        rewrite <- nth_error_app2 by lia. rewrite <- E, nth_error_app2 by lia. rewrite Nat.sub_diag. reflexivity. }
    assert (E1 : pre = pre' /\ (x :: t) :: post = m :: post').
    { clear -E L. revert pre' L E. induction pre as [|a pre IH]; intros [|b pre'] L E; simpl in *; try discriminate; [auto|].
      injection E as -> E. destruct (IH pre' ltac:(lia) E) as [-> E']. auto. }
    destruct E1 as [-> E1]. injection E1 as <- ->. f_equal. apply (IH pre' t post'); [reflexivity | exact K].
Qed.

Section Save.
Context {O : Type}.
Implicit Types s : fs O.

(** ** One process *)
Lemma path_ext f g : f ++ lit ".p" = g ++ lit ".p" -> f = g.
Proof. apply app_inv_tail. Qed.
Definition expected (f : str) (st : stored O) (s : fs O) : Prop :=
  match st with
  | Nothing => True
  | Object o => lookup (f ++ lit ".p") s = Some (Complete o)
  | Unknown => lookup (f ++ lit ".p") s = Some Truncated
  end.
Lemma run_saved p (o : O) s : lookup p (run [Open p; Dump p o] s) = Some (Complete o).
Proof. change (run [Open p; Dump p o] s) with (write p (Complete o) (write p Truncated s)). rewrite lookup_write, streqb_refl. reflexivity. Qed.
Lemma run_opened p s : lookup p (run [Open p] s) = Some Truncated.
Proof. change (run [Open p] s) with (write p Truncated s). rewrite lookup_write, streqb_refl. reflexivity. Qed.
Lemma after_expected f st x s : expected f st s -> expected f (after f st x) (run (op_events x) s).
Proof.
  assert (Other : forall g o k, g <> f -> forall st', expected f st' s -> expected f st' (run (firstn k (save_events 1 0 true g o)) s)).
  { intros g o k N st' H. assert (L : lookup (f ++ lit ".p") (run (firstn k (save_events 1 0 true g o)) s) = lookup (f ++ lit ".p") s).
    { rewrite run_lookup. replace (filter _ _) with (@nil (event O)); [reflexivity|]. symmetry.
      assert (D : streqb (g ++ lit ".p") (f ++ lit ".p") = false) by (apply streqb_false; intro E; apply path_ext in E; contradiction).
      unfold save_events, save_name. cbn [Nat.ltb Nat.leb andb]. destruct k as [|[|[|k]]]; cbn [firstn filter path_of]; rewrite ?D; reflexivity. }
    destruct st'; simpl in *; rewrite ?L; auto. }
  intro H. destruct x as [g o|g o k]; cbn [after op_events].
  - destruct (list_eq_dec ascii_dec g f) as [->|N].
    + apply run_saved.
    + apply (Other g o 2 N), H.
  - destruct (list_eq_dec ascii_dec g f) as [->|N].
    + destruct k as [|[|k]]; [exact H | apply run_opened|].
      replace (firstn (S (S k)) (save_events 1 0 true f o)) with (save_events 1 0 true f o) by (destruct k; reflexivity).
      apply run_saved.
    + apply (Other g o k N), H.
Qed.
Lemma history_expected f h : forall st s, expected f st s -> expected f (fold_left (after f) h st) (run_history h s).
Proof. induction h as [|x h IH]; intros st s H; simpl; [exact H|]. apply IH, after_expected, H. Qed.
Lemma load_present P rank s f c : lookup (f ++ lit ".p") s = Some c ->
  load_object P rank s f = match c with Complete o => Ok o | Truncated => Raise PyEOFError end.
Proof.
  intro H. unfold load_object. cbn [load_fuel]. unfold exists_file at 1. rewrite H. cbn [negb andb]. unfold read. rewrite H.
  destruct (prefixb _ f); reflexivity.
Qed.
Lemma load_last_stored f h s : 
  match last_stored f h with
  | Object o => load_object 1 0 (run_history h s) f = Ok o
  | Unknown => load_object 1 0 (run_history h s) f = Raise PyEOFError
  | Nothing => True
  end.
Proof.
  pose proof (history_expected f h Nothing s I) as H. fold (last_stored f h) in H.
  destruct (last_stored f h); simpl in H; [exact I | |]; rewrite (load_present 1 0 _ _ _ H); reflexivity.
Qed.

(** ** All ranks into one file *)
Definition saved_in (p : str) (objs : list O) : list (list (event O)) := map (fun o => [Open p; Dump p o]) objs.

Lemma shared_file_invariant p objs (ls : list (list (event O))) l s :
  (forall m, In m ls -> m = [] \/ exists o, In o objs /\ (m = [Dump p o] \/ m = [Open p; Dump p o])) ->
  interleaving ls l -> l <> [] -> exists o, In o objs /\ lookup p (run l s) = Some (Complete o).
Proof.
  intros H I. revert s. induction I as [ls E|pre x t post l I IH]; intros s N; [congruence|].
  assert (Hx : t = [] /\ (exists o, In o objs /\ x = Dump p o) \/ exists o, In o objs /\ x = Open p /\ t = [Dump p o]).
  { destruct (H (x :: t)) as [D|(o & Ho & [D|D])]; [apply in_or_app; right; left; reflexivity | discriminate | |];
      injection D as -> ->; [left | right]; eauto. }
  assert (H' : forall m, In m (pre ++ t :: post) -> m = [] \/ exists o, In o objs /\ (m = [Dump p o] \/ m = [Open p; Dump p o])).
  { intros m Hm. apply in_app_or in Hm. destruct Hm as [Hm|[<-|Hm]].
    - apply H, in_or_app. auto.
    - destruct Hx as [[-> _]|(o & Ho & _ & ->)]; [auto | right; exists o; auto].
    - apply H, in_or_app. right. right. exact Hm. }
  simpl. destruct l as [|y l].
  - destruct Hx as [[_ (o & Ho & ->)]|(o & Ho & _ & ->)].
    + exists o. split; [exact Ho|]. simpl. rewrite streqb_refl. reflexivity.
    + exfalso. assert (D : In (Dump p o) (concat (pre ++ [Dump p o] :: post))).
      { rewrite concat_app. apply in_or_app. right. simpl. left. reflexivity. }
      apply (interleaving_In _ _ I) in D. exact D.
  - apply IH; [exact H' | discriminate].
Qed.
Lemma combine_seq_snd (objs : list O) P : List.length objs = P -> map snd (combine (seq 0 P) objs) = objs.
Proof.
  intro L. assert (G : forall a, map snd (combine (seq a (List.length objs)) objs) = objs).
  { clear. induction objs as [|o r IH]; intro a; simpl; [reflexivity | rewrite IH; reflexivity]. }
  subst P. apply G.
Qed.
Lemma globalized_save P f objs l s : List.length objs = P -> 0 < P -> interleaving (save_all P true f objs) l ->
  exists o, In o objs /\ forall rank, load_object P rank (run l s) f = Ok o.
Proof.
  intros L HP I.
  assert (E : save_all P true f objs = saved_in (f ++ lit ".p") objs).
  { unfold save_all, saved_in. rewrite <- (combine_seq_snd objs P L) at 2. rewrite map_map. apply map_ext. intros [r o].
    unfold save_events, save_name. rewrite andb_false_r. reflexivity. }
  rewrite E in I. destruct objs as [|o0 objs]; [simpl in L; lia|].
  destruct (shared_file_invariant (f ++ lit ".p") (o0 :: objs) (saved_in (f ++ lit ".p") (o0 :: objs)) l s) as (o & Ho & Hl).
  - intros m Hm. right. apply in_map_iff in Hm. destruct Hm as (o & <- & Ho). exists o. auto.
  - exact I.
  - intro N. subst l. assert (D : In (Open (f ++ lit ".p")) (concat (saved_in (f ++ lit ".p") (o0 :: objs)))) by (left; reflexivity).
    apply (interleaving_In _ _ I) in D. exact D.
  - exists o. split; [exact Ho|]. intro rank. apply (load_present P rank _ _ _ Hl).
Qed.

(** ** One file per rank *)
Lemma take_while_all p (l : str) : (forall c, In c l -> p c = true) -> take_while p l = l.
Proof. induction l as [|c l IH]; intro H; simpl; [reflexivity|]. rewrite H by (left; reflexivity). rewrite IH; [reflexivity|]. intros; apply H; right; assumption. Qed.
Lemma take_while_app p (l r : str) c : (forall c, In c l -> p c = true) -> p c = false -> take_while p (l ++ c :: r) = l.
Proof. intros H Hc. induction l as [|a l IH]; simpl; [rewrite Hc; reflexivity|]. rewrite H by (left; reflexivity). rewrite IH; [reflexivity|]. intros; apply H; right; assumption. Qed.
Lemma drop_while_all p (l : str) : (forall c, In c l -> p c = true) -> drop_while p l = [].
Proof. induction l as [|c l IH]; intro H; simpl; [reflexivity|]. rewrite H by (left; reflexivity). apply IH. intros; apply H; right; assumption. Qed.
Lemma not_slash c : c <> slash -> negb (is_slash c) = true.
Proof. intro H. unfold is_slash. destruct (ascii_dec c slash); [contradiction | reflexivity]. Qed.
Lemma basename_plain n : no_slash n -> basename n = n.
Proof.
  intro H. unfold basename. rewrite take_while_all; [apply rev_involutive|]. intros c Hc. apply not_slash. intros ->. apply H, in_rev, Hc.
Qed.
Lemma basename_after a n : no_slash n -> basename (a ++ slash :: n) = n.
Proof.
  intro H. unfold basename. rewrite rev_app_distr. simpl. rewrite <- app_assoc. simpl. rewrite take_while_app; [apply rev_involutive| |reflexivity].
  intros c Hc. apply not_slash. intros ->. apply H, in_rev, Hc.
Qed.
Lemma dirname_plain n : no_slash n -> dirname n = [].
Proof.
  intro H. unfold dirname. rewrite drop_while_all; [reflexivity|]. intros c Hc. apply not_slash. intros ->. apply H, in_rev, Hc.
Qed.
Lemma basename_no_slash f : no_slash (basename f).
Proof.
  unfold no_slash, basename. rewrite <- in_rev. generalize (rev f) as l. intro l. induction l as [|c l IH]; simpl; [tauto|].
  destruct (negb (is_slash c)) eqn:E; [|intros []]. intros [->|H]; [discriminate | tauto].
Qed.
Lemma digits_no_slash u : no_slash (lit (NilEmpty.string_of_uint u)).
Proof. unfold no_slash, lit, slash. induction u; simpl; [tauto|..]; intros [H|H]; try discriminate; auto. Qed.
Lemma no_slash_app a b : no_slash a -> no_slash b -> no_slash (a ++ b).
Proof. unfold no_slash. intros A B H. apply in_app_or in H. tauto. Qed.
Lemma lit_no_slash_proc : no_slash (lit "proc").
Proof. unfold no_slash, slash. simpl. intuition discriminate. Qed.
Lemma proc_base_no_slash r f : no_slash (lit "proc" ++ show r ++ lit "_" ++ basename f).
Proof.
  repeat apply no_slash_app; [apply lit_no_slash_proc | apply digits_no_slash | | apply basename_no_slash].
  unfold no_slash, slash. simpl. intuition discriminate.
Qed.
Lemma join_nil n : join [] n = n.
Proof. destruct n as [|c n]; simpl; [reflexivity | destruct (is_slash c); reflexivity]. Qed.
Lemma proc_name_plain r f : no_slash f -> proc_name r f = lit "proc" ++ show r ++ lit "_" ++ f.
Proof. intro H. unfold proc_name. rewrite dirname_plain, join_nil, basename_plain by exact H. reflexivity. Qed.
Lemma proc_name_inj r r' f : no_slash f -> proc_name r f = proc_name r' f -> r = r'.
Proof.
  intro H. rewrite !proc_name_plain by exact H. intro E. apply app_inv_head in E. rewrite !app_assoc in E. do 2 apply app_inv_tail in E.
  apply show_inj, E.
Qed.

Lemma per_rank_lookup_any P f objs l s r o : (forall r r', proc_name r f = proc_name r' f -> r = r') -> 1 < P -> List.length objs = P -> interleaving (save_all P false f objs) l ->
  nth_error objs r = Some o -> lookup (proc_name r f ++ lit ".p") (run l s) = Some (Complete o).
Proof.
  intros NS HP L I Hr. rewrite run_lookup. set (p := proc_name r f ++ lit ".p").
  pose proof (interleaving_filter (fun e => streqb (path_of e) p) _ _ I) as IF.
  assert (Lt : r < P) by (apply nth_error_lt in Hr; lia).
  assert (Hn : nth_error (combine (seq 0 P) objs) r = Some (r, o)).
  { rewrite nth_error_combine, nth_error_seq, Hr. apply Nat.ltb_lt in Lt. rewrite Lt. reflexivity. }
  apply nth_error_split in Hn. destruct Hn as (pre & post & E & Lp).
  unfold save_all in IF. rewrite E, !map_app in IF. cbn [map] in IF.
  assert (G : (1 <? P) && negb false = true) by (apply Nat.ltb_lt in HP; rewrite HP; reflexivity).
  assert (Own : filter (fun e => streqb (path_of e) p) (save_events P r false f o) = [Open p; Dump p o]).
  { unfold save_events, save_name. rewrite G. cbn [filter path_of]. fold p. rewrite streqb_refl. reflexivity. }
  cbn [fst snd] in IF. rewrite Own in IF.
  apply interleaving_single in IF.
  - rewrite IF. apply run_saved.
  - assert (Other : forall r' (o' : O), r' <> r -> filter (fun e => streqb (path_of e) p) (save_events P r' false f o') = []).
    { intros r' o' N. unfold save_events, save_name. rewrite G. cbn [filter path_of].
      assert (D : streqb (proc_name r' f ++ lit ".p") p = false).
      { apply streqb_false. intro Ep. apply path_ext in Ep. apply NS in Ep. contradiction. }
      rewrite D. reflexivity. }
    assert (ND : NoDup (map fst (combine (seq 0 P) objs))).
    { replace (map fst (combine (seq 0 P) objs)) with (seq 0 P); [apply seq_NoDup|].
      assert (Q : forall a (l : list O), map fst (combine (seq a (List.length l)) l) = seq a (List.length l)).
      { intros a l0; revert a; induction l0 as [|x l0 IH]; intro a; simpl; [reflexivity | rewrite IH; reflexivity]. }
      rewrite <- L. symmetry. apply Q. }
    rewrite E, map_app in ND. simpl in ND.
    intros k [Hk|Hk]; apply in_map_iff in Hk; destruct Hk as (m & <- & Hm); apply in_map_iff in Hm; destruct Hm as ([r' o'] & <- & Hin);
      cbn [fst snd]; apply Other; intros ->.
    + apply NoDup_remove_2 in ND. apply ND, in_or_app. left. apply (in_map fst _ (r, o')), Hin.
    + apply NoDup_remove_2 in ND. apply ND, in_or_app. right. apply (in_map fst _ (r, o')), Hin.
Qed.
Lemma per_rank_lookup P f objs l s r o : no_slash f -> 1 < P -> List.length objs = P -> interleaving (save_all P false f objs) l ->
  nth_error objs r = Some o -> lookup (proc_name r f ++ lit ".p") (run l s) = Some (Complete o).
Proof. intros NS. apply per_rank_lookup_any. intros a b. apply proc_name_inj, NS. Qed.
(** Names in a directory *)
Lemma dirname_in d c n : c <> slash -> no_slash n -> dirname ((d ++ [c]) ++ slash :: n) = d ++ [c].
Proof.
  intros C H. unfold dirname. rewrite rev_app_distr. cbn [rev]. rewrite <- app_assoc. cbn [app].
  assert (D : forall l, no_slash l -> forall r, drop_while (fun c => negb (is_slash c)) (l ++ slash :: r) = slash :: r).
  { induction l as [|x l IH]; intros N r; [reflexivity|]. cbn [app drop_while]. rewrite not_slash; [apply IH; intro; apply N; right; assumption|]. intros ->. apply N. left. reflexivity. }
  rewrite D by (intro I; apply H, in_rev; exact I). cbn [rev]. rewrite rev_involutive.
  assert (F : forallb is_slash ((d ++ [c]) ++ [slash]) = false).
  { rewrite !forallb_app. cbn [forallb]. replace (is_slash c) with false; [|symmetry; unfold is_slash; destruct (ascii_dec c slash); [contradiction|reflexivity]].
    rewrite andb_false_r. reflexivity. }
  rewrite F, rev_app_distr. cbn [rev app drop_while]. replace (is_slash slash) with true by reflexivity. rewrite rev_app_distr. cbn [rev app drop_while].
  replace (is_slash c) with false; [|symmetry; unfold is_slash; destruct (ascii_dec c slash); [contradiction|reflexivity]]. cbn [rev]. rewrite rev_involutive. reflexivity.
Qed.
Lemma proc_name_in r d c n : c <> slash -> no_slash n -> proc_name r ((d ++ [c]) ++ slash :: n) = (d ++ [c]) ++ slash :: lit "proc" ++ show r ++ lit "_" ++ n.
Proof.
  intros C H. unfold proc_name. rewrite (dirname_in d c n C H), (basename_after _ n H). cbn [lit list_ascii_of_string app]. unfold join.
  rewrite rev_app_distr. cbn [rev app]. replace (is_slash c) with false; [|symmetry; unfold is_slash; destruct (ascii_dec c slash); [contradiction|reflexivity]].
  reflexivity.
Qed.
Lemma directory_files P d c n objs l s r o : c <> slash -> no_slash n -> 1 < P -> List.length objs = P ->
  interleaving (save_all P false ((d ++ [c]) ++ slash :: n) objs) l -> nth_error objs r = Some o ->
  read ((d ++ [c]) ++ slash :: lit "proc" ++ show r ++ lit "_" ++ n ++ lit ".p") (run l s) = Ok o.
Proof.
  intros C H HP L I Hr. assert (E : lookup (proc_name r ((d ++ [c]) ++ slash :: n) ++ lit ".p") (run l s) = Some (Complete o)).
  { apply (per_rank_lookup_any P _ objs); try assumption. intros a b. rewrite !(proc_name_in _ d c n C H). intro E. apply app_inv_head in E. apply (f_equal (@tl ascii)) in E. cbn [tl] in E.
    apply app_inv_head in E. rewrite !app_assoc in E. do 2 apply app_inv_tail in E. apply show_inj, E. }
  rewrite (proc_name_in r d c n C H) in E. rewrite <- app_assoc in E. cbn [app] in E. rewrite <- !app_assoc in E. cbn [app] in E.
  unfold read. rewrite <- app_assoc. cbn [app]. rewrite E. reflexivity.
Qed.

Lemma glob_own f r : no_slash f -> glob_match f (proc_name r f ++ lit ".p") = true.
Proof.
  intro NS. rewrite proc_name_plain by exact NS. set (n := (lit "proc" ++ show r ++ lit "_" ++ f) ++ lit ".p").
  assert (Nn : no_slash n).
  { unfold n. apply no_slash_app; [|unfold no_slash, slash; simpl; intuition discriminate].
    pose proof (proc_base_no_slash r f) as H. rewrite basename_plain in H by exact NS. exact H. }
  unfold glob_match. rewrite (basename_plain n Nn), (dirname_plain f NS), join_nil, streqb_refl, (basename_plain f NS). cbn [andb].
  assert (A : prefixb (lit "proc") n = true) by (apply prefixb_true; exists (show r ++ lit "_" ++ f ++ lit ".p"); unfold n; rewrite <- !app_assoc; reflexivity).
  assert (B : suffixb (lit "_" ++ f ++ lit ".p") n = true) by (apply suffixb_true; exists (lit "proc" ++ show r); unfold n; rewrite <- !app_assoc; reflexivity).
  rewrite A, B. cbn [andb]. apply Nat.leb_le. unfold n. rewrite !app_length. lia.
Qed.

Lemma per_rank_glob P f objs l s : no_slash f -> 1 < P -> List.length objs = P -> NoDup (map fst s) ->
  (forall p, In p (map fst s) -> glob_match f p = true -> exists r, r < P /\ p = proc_name r f ++ lit ".p") ->
  interleaving (save_all P false f objs) l -> glob_count f (run l s) = P.
Proof.
  intros NS HP L ND H I.
  assert (G : (1 <? P) && negb false = true) by (apply Nat.ltb_lt in HP; rewrite HP; reflexivity).
  assert (K : forall p, In p (map fst (filter (fun q => glob_match f (fst q)) (run l s))) <-> In p (map (fun r => proc_name r f ++ lit ".p") (seq 0 P))).
  { intro p. rewrite in_map_iff. split.
    - intros (q & <- & Hq). apply filter_In in Hq. destruct Hq as [Hq Gq]. apply (in_map fst) in Hq. apply run_keys in Hq.
      apply in_map_iff. destruct Hq as [Hq|(e & He & Hp)].
      + destruct (H _ Hq Gq) as (r & Hr & ->). exists r. split; [reflexivity | apply in_seq; lia].
      + apply (interleaving_In _ _ I) in He. apply in_concat in He. destruct He as (m & Hm & He).
        apply in_map_iff in Hm. destruct Hm as ([r o] & <- & Hin). cbn [fst snd] in He.
        unfold save_events, save_name in He. rewrite G in He. apply in_combine_l, in_seq in Hin.
        exists r. split; [|apply in_seq; lia]. destruct He as [<-|[<-|[]]]; exact Hp.
    - intro Hp. apply in_map_iff in Hp. destruct Hp as (r & <- & Hr). apply in_seq in Hr.
      destruct (nth_error objs r) as [o|] eqn:Eo; [|apply nth_error_None in Eo; lia].
      pose proof (per_rank_lookup P f objs l s r o NS HP L I Eo) as Lk.
      assert (Hin : In (proc_name r f ++ lit ".p") (map fst (run l s))).
      { destruct (in_dec (list_eq_dec ascii_dec) (proc_name r f ++ lit ".p") (map fst (run l s))) as [X|X]; [exact X|].
        apply lookup_None in X. congruence. }
      apply in_map_iff in Hin. destruct Hin as (q & Eq & Hq). exists q. split; [exact Eq|]. apply filter_In. split; [exact Hq|].
      rewrite Eq. apply glob_own, NS. }
  assert (Pm : Permutation (map fst (filter (fun q => glob_match f (fst q)) (run l s))) (map (fun r => proc_name r f ++ lit ".p") (seq 0 P))).
  { apply NoDup_Permutation; [apply NoDup_keys_filter, run_NoDup, ND | | exact K].
    apply NoDup_map_inj; [|apply seq_NoDup]. intros a b E. apply path_ext in E. eapply proc_name_inj, E. exact NS. }
  unfold glob_count. apply Permutation_length in Pm. rewrite !map_length, seq_length in Pm. exact Pm.
Qed.

Lemma plain_name_absent (P : nat) f objs l s : no_slash f -> 1 < P -> ~ In (f ++ lit ".p") (map fst s) ->
  interleaving (save_all P false f objs) l -> lookup (f ++ lit ".p") (run l s) = None.
Proof.
  intros NS HP H I. apply lookup_None. intro Hin. apply run_keys in Hin. destruct Hin as [Hin|(e & He & Hp)]; [contradiction|].
  assert (G : (1 <? P) && negb false = true) by (apply Nat.ltb_lt in HP; rewrite HP; reflexivity).
  apply (interleaving_In _ _ I) in He. apply in_concat in He. destruct He as (m & Hm & He).
  apply in_map_iff in Hm. destruct Hm as ([r o] & <- & Hin'). cbn [fst snd] in He.
  unfold save_events, save_name in He. rewrite G in He.
  assert (Ep : proc_name r f ++ lit ".p" = f ++ lit ".p") by (destruct He as [<-|[<-|[]]]; exact Hp).
  apply path_ext in Ep. rewrite proc_name_plain in Ep by exact NS. apply (f_equal (@List.length ascii)) in Ep. rewrite !app_length in Ep. simpl in Ep. lia.
Qed.

Lemma per_rank_load P f objs l s r o : no_slash f -> prefixb (lit "proc_") f = false -> 1 < P -> List.length objs = P ->
  NoDup (map fst s) -> ~ In (f ++ lit ".p") (map fst s) ->
  (forall p, In p (map fst s) -> glob_match f p = true -> exists r, r < P /\ p = proc_name r f ++ lit ".p") ->
  interleaving (save_all P false f objs) l -> nth_error objs r = Some o ->
  load_object P r (run l s) f = Ok o.
Proof.
  intros NS NP HP L ND Ab H I Hr. unfold load_object. cbn [load_fuel]. rewrite NP.
  unfold exists_file. rewrite (plain_name_absent P f objs l s NS HP Ab I). cbn [negb andb].
  assert (Z : exists o0, lookup (lit "proc0_" ++ f ++ lit ".p") (run l s) = Some (Complete o0)).
  { destruct objs as [|o0 objs']; [simpl in L; lia|]. exists o0.
    pose proof (per_rank_lookup P f (o0 :: objs') l s 0 o0 NS HP L I eq_refl) as Lk. rewrite proc_name_plain in Lk by exact NS. exact Lk. }
  destruct Z as (o0 & ->). rewrite (per_rank_glob P f objs l s NS HP L ND H I), Nat.eqb_refl.
  pose proof (per_rank_lookup P f objs l s r o NS HP L I Hr) as Lk.
  destruct (List.length (run l s)) as [|k]; cbn [load_fuel]; unfold exists_file, read; rewrite Lk; cbn [negb andb];
    destruct (prefixb (lit "proc_") (proc_name r f)); reflexivity.
Qed.

(** With a directory in the name the files are looked up in the wrong place. *)
Lemma join_basename d n : no_slash n -> n <> [] -> basename (join d n) = n.
Proof.
  intros NS N. destruct n as [|c n]; [congruence|]. unfold join.
  assert (Hc : is_slash c = false) by (unfold is_slash; destruct (ascii_dec c slash) as [->|]; [exfalso; apply NS; left; reflexivity | reflexivity]).
  rewrite Hc. destruct (rev d) as [|x rd] eqn:E; [apply basename_plain, NS|].
  destruct (is_slash x) eqn:Ex; [|apply basename_after, NS].
  unfold is_slash in Ex. destruct (ascii_dec x slash) as [->|]; [|discriminate].
  assert (Ed : d = rev rd ++ [slash]) by (rewrite <- (rev_involutive d), E; reflexivity).
  rewrite Ed, <- app_assoc. apply basename_after, NS.
Qed.
Lemma basename_ext f : ~ no_slash f -> exists a, f = a ++ slash :: basename f.
Proof.
  intro H. unfold basename. 
  assert (G : forall l : str, In slash l -> exists b, l = take_while (fun c => negb (is_slash c)) l ++ slash :: b).
  { induction l as [|c l IH]; intro Hin; [destruct Hin|]. simpl. unfold is_slash at 1. destruct (ascii_dec c slash) as [->|N]; simpl; [eauto|].
    destruct Hin as [->|Hin]; [congruence|]. destruct (IH Hin) as (b & E). exists b. rewrite E at 1. reflexivity. }
  assert (Hs : In slash f) by (destruct (in_dec ascii_dec slash f); [assumption | contradiction]).
  destruct (G (rev f)) as (b & E); [apply in_rev; rewrite rev_involutive; exact Hs|]. exists (rev b).
  rewrite <- (rev_involutive f) at 1. rewrite E at 1. rewrite rev_app_distr. simpl. rewrite <- app_assoc. reflexivity.
Qed.
Lemma directory_load P f objs l s r : ~ no_slash f -> prefixb (lit "proc_") f = false -> 1 < P ->
  ~ In (f ++ lit ".p") (map fst s) -> ~ In (lit "proc0_" ++ f ++ lit ".p") (map fst s) ->
  interleaving (save_all P false f objs) l -> load_object P r (run l s) f = Raise PyFileNotFound.
Proof.
  intros S NP HP A1 A2 I.
  assert (G : (1 <? P) && negb false = true) by (apply Nat.ltb_lt in HP; rewrite HP; reflexivity).
  destruct (basename_ext f S) as (a & Ef). pose proof (basename_no_slash f) as NB.
  assert (Bp : forall pre, basename (pre ++ f) = basename f).
  { intro pre. revert NB Ef. generalize (basename f) as b. intros b NB Ef. rewrite Ef, app_assoc. apply basename_after, NB. }
  assert (K : forall pre, ~ In (pre ++ f ++ lit ".p") (map fst s) -> lookup (pre ++ f ++ lit ".p") (run l s) = None).
  { intros pre A. apply lookup_None. intro Hin. apply run_keys in Hin. destruct Hin as [Hin|(e & He & Hp)]; [contradiction|].
    apply (interleaving_In _ _ I) in He. apply in_concat in He. destruct He as (m & Hm & He).
    apply in_map_iff in Hm. destruct Hm as ([r' o] & <- & Hin'). cbn [fst snd] in He.
    unfold save_events, save_name in He. rewrite G in He.
    assert (Ep : proc_name r' f ++ lit ".p" = pre ++ f ++ lit ".p") by (destruct He as [<-|[<-|[]]]; exact Hp).
    rewrite app_assoc in Ep. apply path_ext in Ep. apply (f_equal basename) in Ep. unfold proc_name in Ep.
    rewrite join_basename in Ep; [|apply proc_base_no_slash | destruct (show r'); discriminate].
    rewrite Bp in Ep.
    apply (f_equal (@List.length ascii)) in Ep. rewrite !app_length in Ep. simpl in Ep. lia. }
  unfold load_object. cbn [load_fuel]. rewrite NP. unfold exists_file, read.
  pose proof (K [] A1) as K1. cbn [app] in K1. rewrite K1, (K (lit "proc0_") A2). reflexivity.
Qed.
End Save.

(** ** Witnesses *)
Lemma crash_witness {O} (old new : O) (f : str) : load_object 1 0 (run_history [Save f old; Crash f new 1] []) f = Raise PyEOFError.
Proof.
  pose proof (load_last_stored f [Save f old; Crash f new 1] []) as H. unfold last_stored in H. cbn [fold_left after] in H.
  destruct (list_eq_dec ascii_dec f f); [exact H | congruence].
Qed.
Lemma globalized_same_object {O} P f (objs : list O) l s r r' a b : List.length objs = P -> 0 < P ->
  interleaving (save_all P true f objs) l -> nth_error objs r = Some a -> nth_error objs r' = Some b -> a <> b ->
  ~ (load_object P r (run l s) f = Ok a /\ load_object P r' (run l s) f = Ok b).
Proof.
  intros L HP I Ha Hb N. destruct (globalized_save P f objs l s L HP I) as (o & _ & H). rewrite !H. intros [A B]. congruence.
Qed.
(** A file of another object whose name ends alike changes the count. *)
Lemma glob_clash_witness : exists (l : list (event nat)) (s : fs nat),
  interleaving (save_all 2 false (lit "x") [1; 2]) l /\ map fst s = [lit "proc0_a_x.p"] /\
  forall r, load_object 2 r (run l s) (lit "x") = Raise DimNotMatching.
Proof.
  exists (concat (save_all 2 false (lit "x") [1; 2])), [(lit "proc0_a_x.p", Complete 7)]. split; [|split; [reflexivity | intro r; vm_compute; reflexivity]].
  apply (inter_step [] _ [Dump _ 1] [[Open _; Dump _ 2]]). apply (inter_step [] _ [] [[Open _; Dump _ 2]]).
  apply (inter_step [[]] _ [Dump _ 2] []). apply (inter_step [[]] _ [] []). apply inter_nil. intros m [<-|[<-|[]]]; reflexivity.
Qed.
(** An older file without the prefix is loaded instead. *)
Lemma old_file_witness : exists (l : list (event nat)) (s : fs nat),
  interleaving (save_all 2 false (lit "x") [1; 2]) l /\ forall r, load_object 2 r (run l s) (lit "x") = Ok 7.
Proof.
  exists (concat (save_all 2 false (lit "x") [1; 2])), [(lit "x.p", Complete 7)]. split; [|intro r; vm_compute; reflexivity].
  apply (inter_step [] _ [Dump _ 1] [[Open _; Dump _ 2]]). apply (inter_step [] _ [] [[Open _; Dump _ 2]]).
  apply (inter_step [[]] _ [Dump _ 2] []). apply (inter_step [[]] _ [] []). apply inter_nil. intros m [<-|[<-|[]]]; reflexivity.
Qed.
