(** Proofs about processes that meet in collective calls. *)
From Coq Require Import List Arith Bool Lia QArith Qcanon.
From Verif Require Import Err Num Ext NumPy Lists Prob_Model SampleSet_Model Volume_Model Spmd_Model Spmd_Spec Spmd_Examples.
From Verif Require Sampling_Model Post_Model.
Import ListNotations.
Local Open Scope nat_scope.

(** ** Lock step *)
Section Lock.
Context {V A : Type}.
Implicit Types (p : prog V A) (ps : list (prog V A)).

Fixpoint calls (o : op) (ps : list (prog V A)) : option (list V) :=
  match ps with
  | [] => Some []
  | Call o' x _ :: r => if op_eq_dec o o' then option_map (cons x) (calls o r) else None
  | Stop _ :: _ => None
  end.
Definition resume (xs : list V) p := match p with Call _ _ k => k xs | Stop r => Stop r end.
Definition round ps : option (list (prog V A)) :=
  match ps with
  | Call o _ _ :: _ => option_map (fun xs => map (resume xs) ps) (calls o ps)
  | _ => None
  end.
Fixpoint stage ps (n : nat) : option (list (prog V A)) :=
  match n with
  | 0 => Some ps
  | S m => match stage ps m with Some qs => round qs | None => None end
  end.

Lemma calls_spec o ps xs :
  calls o ps = Some xs <-> Forall2 (fun p x => exists k, p = Call o x k) ps xs.
Proof.
  revert xs; induction ps as [|p ps IH]; intros xs; cbn.
  - split. intros [= <-]; constructor. intros H; inversion H; reflexivity.
  - destruct p as [r|o' x k].
    + split. discriminate. intros H; inversion H as [|? ? ? ? [k E]]; discriminate.
    + destruct (op_eq_dec o o') as [<-|N].
      * destruct (calls o ps) as [ys|] eqn:E; cbn.
        -- split.
           ++ intros [= <-]. constructor. now exists k. now apply IH.
           ++ intros H; inversion H as [|? ? ? ? [k' E'] H']; subst.
              injection E' as <- _. apply IH in H'. now injection H' as <-.
        -- split. discriminate. intros H; inversion H as [|? ? ? ? [k' E'] H']; subst.
           apply IH in H'. discriminate.
      * split. discriminate. intros H; inversion H as [|? ? ? ? [k' E'] H']; subst. congruence.
Qed.

Lemma round_spec ps qs : round ps = Some qs <->
  ps <> [] /\ exists o xs, Forall2 (fun p x => exists k, p = Call o x k) ps xs /\ qs = map (resume xs) ps.
Proof.
  unfold round. split.
  - destruct ps as [|[r|o x k] ps]; try discriminate. intros E. split; [discriminate|].
    destruct (calls o (Call o x k :: ps)) as [xs|] eqn:C; [|discriminate].
    cbv [option_map] in E. injection E as <-. exists o, xs. split; [now apply calls_spec|reflexivity].
  - intros [N (o & xs & F & ->)]. destruct ps as [|p ps]; [easy|].
    pose proof (proj2 (calls_spec o (p :: ps) xs) F) as C.
    inversion F as [|? ? ? ? [k E] H]; subst. rewrite C. reflexivity.
Qed.

Lemma round_length ps qs : round ps = Some qs -> length qs = length ps.
Proof. intros (_ & o & xs & _ & ->)%round_spec. apply map_length. Qed.

Lemma stage_length ps n qs : stage ps n = Some qs -> length qs = length ps.
Proof.
  revert qs; induction n as [|n IH]; cbn; intros qs.
  - now intros [= <-].
  - destruct (stage ps n) as [rs|]; [|discriminate]. intros H%round_length.
    now rewrite H, (IH rs).
Qed.

Lemma stage_down ps n m qs : stage ps n = Some qs -> m <= n -> exists rs, stage ps m = Some rs.
Proof.
  revert qs; induction n as [|n IH]; intros qs H L.
  - replace m with 0 by lia. now exists ps.
  - destruct (Nat.eq_dec m (S n)) as [->|N]; [eauto|].
    cbn in H. destruct (stage ps n) as [rs|] eqn:E; [|discriminate].
    apply (IH rs); [reflexivity|lia].
Qed.

Lemma stage_call ps n m qs r : stage ps n = Some qs -> m < n -> r < length ps ->
  exists rs o x k, stage ps m = Some rs /\ nth_error rs r = Some (Call o x k).
Proof.
  intros H L R. destruct (stage_down ps n (S m) qs H L) as [ts E]. cbn in E.
  destruct (stage ps m) as [rs|] eqn:E0; [|discriminate].
  pose proof (stage_length _ _ _ E0) as LL.
  apply round_spec in E as (_ & o & xs & F & _).
  destruct (nth_error rs r) as [p|] eqn:N; [|apply nth_error_None in N; lia].
  exists rs, o.
  clear - F N. revert r N. induction F as [|q x rs xs [k E] F IH]; intros r N.
  - destruct r; discriminate.
  - destruct r as [|r]; cbn in N.
    + injection N as <-. exists x, k. now rewrite E.
    + destruct (IH r N) as (x' & k' & _ & Q). exists x', k'. split; [reflexivity|exact Q].
Qed.

Lemma stage_ends p ps : exists n qs, stage (p :: ps) n = Some qs /\ round qs = None.
Proof.
  revert ps; induction p as [r|o x k IH]; intros ps.
  - exists 0, (Stop r :: ps). now split.
  - destruct (round (Call o x k :: ps)) as [qs|] eqn:E.
    + pose proof E as E2. apply round_spec in E2 as (_ & o' & xs & F & ->).
      cbn [map resume] in *.
      destruct (IH xs (map (resume xs) ps)) as (n & ts & S1 & S2).
      exists (S n), ts. split; [|exact S2].
      clear - E S1. revert ts S1; induction n as [|n IH]; intros ts; cbn.
      * intros [= <-]. exact E.
      * cbn in IH. destruct (stage (k xs :: map (resume xs) ps) n) as [us|]; [|discriminate].
        intros H. now rewrite (IH us eq_refl).
    + exists 0, (Call o x k :: ps). now split.
Qed.

(** what rank r hands over in its calls number 0 .. c-1 *)
Definition sent_at ps (r j : nat) : list (op * V) :=
  match stage ps j with
  | Some qs => match nth_error qs r with Some (Call o x _) => [(o, x)] | _ => [] end
  | None => []
  end.
Definition past ps (r c : nat) : list (op * V) := flat_map (sent_at ps r) (seq 0 c).

Lemma past_S ps r c : past ps r (S c) = past ps r c ++ sent_at ps r c.
Proof. unfold past. rewrite seq_S, flat_map_app. cbn. now rewrite app_nil_r. Qed.

Lemma past_length ps r c qs : stage ps c = Some qs -> r < length ps -> length (past ps r c) = c.
Proof.
  revert qs; induction c as [|c IH]; intros qs H L; [reflexivity|].
  rewrite past_S, app_length.
  destruct (stage_call ps (S c) c qs r H ltac:(lia) L) as (rs & o & x & k & E & N).
  rewrite (IH rs E L). unfold sent_at. rewrite E, N. cbn. lia.
Qed.

Lemma past_nth ps r c j qs : stage ps c = Some qs -> r < length ps -> j < c ->
  exists rs o x k, stage ps j = Some rs /\ nth_error rs r = Some (Call o x k)
                   /\ nth_error (past ps r c) j = Some (o, x).
Proof.
  intros H L J. destruct (stage_call ps c j qs r H J L) as (rs & o & x & k & E & N).
  exists rs, o, x, k. split; [exact E|split; [exact N|]].
  revert qs H J; induction c as [|c IH]; intros qs H J; [lia|].
  destruct (stage_down ps (S c) c qs H ltac:(lia)) as [ts T].
  rewrite past_S. destruct (Nat.eq_dec j c) as [->|D].
  - rewrite nth_error_app2 by (rewrite (past_length ps r c ts T L); lia).
    rewrite (past_length ps r c ts T L), Nat.sub_diag.
    unfold sent_at. now rewrite E, N.
  - rewrite nth_error_app1 by (rewrite (past_length ps r c ts T L); lia).
    apply (IH ts T). lia.
Qed.

(** rank r has left c calls *)
Definition at_stage ps (r : nat) (q : proc V A) (c : nat) : Prop :=
  exists qs, stage ps c = Some qs /\ nth_error qs r = Some (code q) /\
    (if inside q then exists o x k, code q = Call o x k /\ sent q = past ps r c ++ [(o, x)]
     else sent q = past ps r c).

Definition inv ps (s : list (proc V A)) (cs : list nat) : Prop :=
  length s = length ps /\ length cs = length ps /\
  forall r q c, nth_error s r = Some q -> nth_error cs r = Some c -> at_stage ps r q c.

Definition done (q : proc V A) (c : nat) : nat := 2 * c + (if inside q then 1 else 0).
Definition total (s : list (proc V A)) (cs : list nat) : nat :=
  list_sum (map (fun e => done (fst e) (snd e)) (combine s cs)).

Lemma nth_error_replace {B} (l : list B) r b i : r < length l ->
  nth_error (replace_nth r b l) i = if i =? r then Some b else nth_error l i.
Proof.
  intros L. unfold replace_nth.
  assert (F : length (firstn r l) = r) by (rewrite firstn_length; lia).
  destruct (Nat.eqb_spec i r) as [->|N].
  - rewrite nth_error_app2 by lia. rewrite F, Nat.sub_diag. reflexivity.
  - destruct (Nat.lt_ge_cases i r) as [H|H].
    + rewrite nth_error_app1 by lia.
      rewrite <- (firstn_skipn r l) at 2. rewrite nth_error_app1 by lia. reflexivity.
    + rewrite nth_error_app2 by lia. rewrite F.
      replace (i - r) with (S (i - S r)) by lia. cbn [nth_error].
      rewrite <- (firstn_skipn (S r) l) at 2.
      assert (F2 : length (firstn (S r) l) = S r) by (rewrite firstn_length; lia).
      rewrite nth_error_app2 by lia. rewrite F2. reflexivity.
Qed.

Lemma replace_length {B} (l : list B) r b : r < length l -> length (replace_nth r b l) = length l.
Proof.
  intros L. unfold replace_nth. rewrite app_length, firstn_length. cbn [length]. rewrite skipn_length. lia.
Qed.

Lemma combine_replace {B C} (l : list B) (m : list C) r b c :
  r < length l -> length l = length m ->
  combine (replace_nth r b l) (replace_nth r c m) = replace_nth r (b, c) (combine l m).
Proof.
  revert l m; induction r as [|r IH]; intros l m L E; destruct l as [|y l], m as [|z m]; cbn in *; try lia.
  - unfold replace_nth; cbn. reflexivity.
  - unfold replace_nth in *; cbn. f_equal. apply IH; lia.
Qed.

Lemma replace_self {B} (l : list B) r b : nth_error l r = Some b -> replace_nth r b l = l.
Proof.
  revert l; induction r as [|r IH]; intros [|y l]; cbn; try discriminate.
  - intros [= ->]. reflexivity.
  - intros H. unfold replace_nth in *; cbn. f_equal. now apply IH.
Qed.

Lemma sum_replace {B} (f : B -> nat) (l : list B) r b b' :
  nth_error l r = Some b -> f b' = S (f b) ->
  list_sum (map f (replace_nth r b' l)) = S (list_sum (map f l)).
Proof.
  revert l; induction r as [|r IH]; intros [|y l]; cbn; try discriminate.
  - intros [= ->] E. unfold replace_nth; cbn. lia.
  - intros H E. specialize (IH l H E). unfold replace_nth, list_sum in *; cbn in *. lia.
Qed.

Lemma nth_combine {B C} (l : list B) (m : list C) r b c :
  nth_error l r = Some b -> nth_error m r = Some c -> nth_error (combine l m) r = Some (b, c).
Proof.
  revert l m; induction r as [|r IH]; intros [|y l] [|z m]; cbn; try discriminate.
  - intros [= ->] [= ->]. reflexivity.
  - apply IH.
Qed.

Lemma inv_start ps : inv ps (start ps) (repeat 0 (length ps)).
Proof.
  unfold inv, start. rewrite map_length, repeat_length. do 2 (split; [reflexivity|]).
  intros r q c Q C. rewrite nth_error_map in Q.
  destruct (nth_error ps r) as [p|] eqn:N; [|discriminate]. injection Q as <-.
  assert (C0 : c = 0).
  { apply nth_error_In in C. apply repeat_spec in C. exact C. }
  subst c. exists ps. cbn. now rewrite N.
Qed.

Lemma total_start ps : total (start ps) (repeat 0 (length ps)) = 0.
Proof. unfold total, start. induction ps as [|p ps IH]; cbn; [reflexivity|exact IH]. Qed.

Lemma Forall2_of_nth {B C} (Q : B -> C -> Prop) (l : list B) (m : list C) :
  length l = length m -> (forall i b c, nth_error l i = Some b -> nth_error m i = Some c -> Q b c) ->
  Forall2 Q l m.
Proof.
  revert m; induction l as [|b l IH]; intros [|c m] E H; cbn in *; try lia; constructor.
  - exact (H 0 b c eq_refl eq_refl).
  - apply IH; [lia|]. intros i. exact (H (S i)).
Qed.

Lemma Forall2_nth_ex {B C} (Q : B -> C -> Prop) l m i b : Forall2 Q l m -> nth_error l i = Some b ->
  exists c, nth_error m i = Some c /\ Q b c.
Proof.
  intros F; revert i; induction F as [|x y l m H F IH]; intros [|i]; cbn; try discriminate.
  - intros [= <-]. eauto.
  - apply IH.
Qed.

(** the c-th call of a rank that has made it *)
Lemma sent_nth ps s cs r q c j o x :
  inv ps s cs -> nth_error s r = Some q -> nth_error cs r = Some c ->
  nth_error (sent q) j = Some (o, x) ->
  exists qs k, stage ps j = Some qs /\ nth_error qs r = Some (Call o x k).
Proof.
  intros (L1 & L2 & I) Q C N. destruct (I r q c Q C) as (qs & Sg & E & H).
  assert (Lr : r < length ps). { rewrite <- L1. apply nth_error_Some. congruence. }
  pose proof (past_length ps r c qs Sg Lr) as PL.
  assert (Past : nth_error (past ps r c) j = Some (o, x) ->
                 exists qs k, stage ps j = Some qs /\ nth_error qs r = Some (Call o x k)).
  { intros H0. assert (J : j < c). { rewrite <- PL. apply nth_error_Some. congruence. }
    destruct (past_nth ps r c j qs Sg Lr J) as (rs & o' & x' & k & E1 & E2 & E3).
    rewrite E3 in H0. injection H0 as -> ->. eauto. }
  destruct (inside q).
  - destruct H as (o' & x' & k & Ec & Es). rewrite Es in N.
    destruct (Nat.lt_ge_cases j c) as [J|J].
    + rewrite nth_error_app1 in N by lia. now apply Past.
    + rewrite nth_error_app2 in N by lia. rewrite PL in N.
      destruct (j - c) as [|d] eqn:D.
      * cbn in N. injection N as -> ->. replace j with c by lia. exists qs, k.
        split; [exact Sg|]. now rewrite E, Ec.
      * destruct d; discriminate.
  - rewrite H in N. now apply Past.
Qed.

Lemma leave_round ps s cs r h o x k xs c qs : inv ps s cs ->
  nth_error s r = Some (mk_proc (h ++ [(o, x)]) true (Call o x k)) -> nth_error cs r = Some c ->
  Forall2 (fun q y => nth_error (sent q) (length h) = Some (o, y)) s xs ->
  stage ps c = Some qs -> round qs = Some (map (resume xs) qs).
Proof.
  intros I Q C F Sg0. pose proof I as (L1 & L2 & I3).
  assert (Lr : r < length s) by (apply nth_error_Some; congruence).
  assert (Lp : r < length ps) by lia.
  destruct (I3 r _ c Q C) as (qs' & Sg & E & P). rewrite Sg in Sg0. injection Sg0 as ->. cbn in P, E.
  destruct P as (o' & x' & k' & Ec & Es). injection Ec as <- <- <-.
  apply app_inj_tail in Es as [-> _].
  rewrite (past_length ps r c qs Sg Lp) in F.
  assert (Lq : length qs = length ps) by exact (stage_length _ _ _ Sg).
  apply round_spec. split. { intros ->. cbn in Lq. lia. }
    exists o, xs. split; [|reflexivity]. apply Forall2_of_nth.
    { rewrite Lq, <- L1. exact (Forall2_length _ _ _ F). }
    intros i p y Pi Yi.
    destruct (nth_error s i) as [q|] eqn:Qi.
    2:{ apply nth_error_None in Qi. assert (i < length qs) by (apply nth_error_Some; congruence). lia. }
    destruct (Forall2_nth_ex _ _ _ _ _ F Qi) as (y' & Yi' & Sy).
    rewrite Yi in Yi'. injection Yi' as <-.
    destruct (nth_error cs i) as [ci|] eqn:Ci.
    2:{ apply nth_error_None in Ci. assert (i < length s) by (apply nth_error_Some; congruence). lia. }
    destruct (sent_nth ps s cs i q ci c o y I Qi Ci Sy) as (qs' & k' & Sg' & N').
    rewrite Sg in Sg'. injection Sg' as <-. rewrite Pi in N'. injection N' as ->. now exists k'.
Qed.

Lemma inv_step ps s cs t : inv ps s cs -> step s t ->
  exists cs', inv ps t cs' /\ total t cs' = S (total s cs).
Proof.
  intros I H. pose proof I as (L1 & L2 & I3).
  inversion H as [s0 r h o x k Q | s0 r h o x k xs Q F]; subst s0 t; clear H.
  - assert (Lr : r < length s) by (apply nth_error_Some; congruence).
    destruct (nth_error cs r) as [c|] eqn:C; [|apply nth_error_None in C; lia].
    exists cs. split; [|].
    + split; [now rewrite replace_length|]. split; [exact L2|].
      intros i q c' Qi Ci. rewrite nth_error_replace in Qi by exact Lr.
      destruct (Nat.eqb_spec i r) as [->|N]; [|now apply I3].
      injection Qi as <-. rewrite C in Ci. injection Ci as <-.
      destruct (I3 r _ c Q C) as (qs & Sg & E & P). cbn in P.
      exists qs. split; [exact Sg|]. split; [exact E|]. cbn. exists o, x, k. now rewrite P.
    + unfold total. rewrite <- (replace_self cs r c C) at 1.
      rewrite combine_replace by lia.
      apply (sum_replace _ _ _ (mk_proc h false (Call o x k), c)).
      * now apply nth_combine.
      * unfold done; cbn. lia.
  - assert (Lr : r < length s) by (apply nth_error_Some; congruence).
    assert (Lp : r < length ps) by lia.
    destruct (nth_error cs r) as [c|] eqn:C; [|apply nth_error_None in C; lia].
    destruct (I3 r _ c Q C) as (qs & Sg & E & P). cbn in P, E.
    destruct P as (o' & x' & k' & Ec & Es). injection Ec as <- <- <-.
    assert (R : round qs = Some (map (resume xs) qs)) by (eapply leave_round; eassumption).
    apply app_inj_tail in Es as [-> _].
    exists (replace_nth r (1 + c) cs). split.
    + split; [now rewrite replace_length|]. split; [rewrite replace_length; lia|].
      intros i q c' Qi Ci. rewrite nth_error_replace in Qi by exact Lr.
      rewrite nth_error_replace in Ci by lia.
      destruct (Nat.eqb_spec i r) as [->|N]; [|now apply I3].
      injection Qi as <-. injection Ci as <-.
      exists (map (resume xs) qs). cbn [stage Nat.add]. rewrite Sg. split; [exact R|].
      cbn [inside sent code]. split. { rewrite nth_error_map, E. reflexivity. }
      replace (past ps r (S c)) with (past ps r c ++ sent_at ps r c) by (symmetry; apply past_S). unfold sent_at. now rewrite Sg, E.
    + unfold total. rewrite combine_replace by lia.
      apply (sum_replace _ _ _ (mk_proc (past ps r c ++ [(o, x)]) true (Call o x k), c)).
      * now apply nth_combine.
      * unfold done; cbn. lia.
Qed.

Lemma inv_steps ps n s : steps n (start ps) s -> exists cs, inv ps s cs /\ total s cs = n.
Proof.
  intros H. remember (start ps) as s0 eqn:E0. induction H as [s|n s t u H IH St].
  - exists (repeat 0 (length ps)). subst s. split; [apply inv_start|apply total_start].
  - destruct (IH E0) as (cs & I & T). destruct (inv_step ps t cs u I St) as (cs' & I' & T').
    exists cs'. split; [exact I'|lia].
Qed.

Lemma stage_max ps n qs m rs : stage ps n = Some qs -> round qs = None -> stage ps m = Some rs -> m <= n.
Proof.
  intros H N M. destruct (Nat.le_gt_cases m n) as [L|L]; [exact L|].
  destruct (stage_down ps m (S n) rs M L) as [ts T]. cbn in T. rewrite H in T. congruence.
Qed.

Lemma sum_bound {B} (f : B -> nat) (b : nat) (l : list B) :
  (forall x, In x l -> f x <= b) -> list_sum (map f l) <= length l * b.
Proof.
  induction l as [|x l IH]; cbn; intros H; [lia|].
  pose proof (H x (or_introl eq_refl)). pose proof (IH (fun y Y => H y (or_intror Y))). unfold list_sum in *; cbn in *; lia.
Qed.

Lemma least (cs : list nat) : cs <> [] -> exists r c, nth_error cs r = Some c /\ forall i d, nth_error cs i = Some d -> c <= d.
Proof.
  induction cs as [|c cs IH]; [easy|]. intros _. destruct cs as [|d cs].
  - exists 0, c. split; [reflexivity|]. intros [|[|i]] d; cbn; try discriminate. now intros [= ->].
  - destruct IH as (r & m & R & M); [discriminate|].
    destruct (Nat.le_gt_cases c m) as [L|L].
    + exists 0, c. split; [reflexivity|]. intros [|i] e; cbn [nth_error].
      * now intros [= ->]. * intros E. pose proof (M i e E). lia.
    + exists (S r), m. split; [exact R|]. intros [|i] e; cbn [nth_error].
      * intros [= <-]. lia. * apply M.
Qed.

Lemma enter_or_not (s : list (proc V A)) :
  (exists t, step s t) \/ (forall r q, nth_error s r = Some q -> inside q = false -> exists v, code q = Stop v).
Proof.
  assert (D : (exists r h o x k, nth_error s r = Some (mk_proc h false (Call o x k)))
              \/ (forall r q, nth_error s r = Some q -> inside q = false -> exists v, code q = Stop v)).
  { induction s as [|[h b p] s IH].
    - right. intros [|r]; discriminate.
    - destruct IH as [(r & h' & o & x & k & N)|IH].
      + left. exists (S r), h', o, x, k. exact N.
      + destruct b; [|destruct p as [v|o x k]].
        * right. intros [|r] q; cbn; [intros [= <-]; discriminate|apply IH].
        * right. intros [|r] q; cbn; [intros [= <-]; cbn; eauto|apply IH].
        * left. exists 0, h, o, x, k. reflexivity. }
  destruct D as [(r & h & o & x & k & N)|D]; [left|right; exact D].
  eexists. exact (enter s r h o x k N).
Qed.

(** either some rank can go on, or all ranks are at the last stage *)
Lemma progress ps s cs n qs : ps <> [] -> inv ps s cs -> stage ps n = Some qs -> round qs = None ->
  (exists t, step s t) \/
  ((forall r c, nth_error cs r = Some c -> c = n)
   /\ (forall r q, nth_error s r = Some q -> inside q = false -> exists v, code q = Stop v)).
Proof.
  intros NE I H N. pose proof I as (L1 & L2 & I3).
  destruct (enter_or_not s) as [G|NoEnter]; [now left|].
  assert (LPS : 0 < length ps). { destruct ps; [easy|cbn; lia]. }
  assert (B : forall r c, nth_error cs r = Some c -> c <= n).
  { intros r c C. assert (r < length s). { rewrite L1, <- L2. apply nth_error_Some. congruence. }
    destruct (nth_error s r) as [q|] eqn:Q; [|apply nth_error_None in Q; lia].
    destruct (I3 r q c Q C) as (ts & T & _). exact (stage_max ps n qs c ts H N T). }
  destruct (least cs) as (r & c & C & M). { intros ->. cbn in L2. lia. }
  destruct (Nat.eq_dec c n) as [->|D].
  { right. split; [|exact NoEnter]. intros i d Di. pose proof (M i d Di). pose proof (B i d Di). lia. }
  left.
    assert (CL : c < n) by (pose proof (B r c C); lia).
    destruct (stage_down ps n (S c) qs H CL) as [us U]. pose proof U as U0. cbn in U.
    destruct (stage ps c) as [ts|] eqn:T; [|discriminate].
    apply round_spec in U as (_ & o & xs & F & ->).
    assert (Lts : length ts = length ps) by exact (stage_length _ _ _ T).
    (* every rank has made its call number c *)
    assert (All : forall i q, nth_error s i = Some q ->
      exists x k, nth_error ts i = Some (Call o x k) /\ nth_error xs i = Some x /\ nth_error (sent q) c = Some (o, x)).
    { intros i q Q. assert (Li : i < length s) by (apply nth_error_Some; congruence).
      destruct (nth_error cs i) as [d|] eqn:Di; [|apply nth_error_None in Di; lia].
      destruct (nth_error ts i) as [p|] eqn:Ti; [|apply nth_error_None in Ti; lia].
      destruct (Forall2_nth_ex _ _ _ _ _ F Ti) as (x & Xi & [k ->]).
      exists x, k. split; [reflexivity|]. split; [exact Xi|].
      destruct (I3 i q d Q Di) as (vs & Sg & E & P).
      pose proof (M i d Di) as Md.
      assert (PL : length (past ps i d) = d) by (apply (past_length ps i d vs Sg); lia).
      destruct (Nat.eq_dec d c) as [->|Dd].
      - rewrite T in Sg. injection Sg as <-. rewrite Ti in E. injection E as E.
        destruct (inside q) eqn:IQ.
        + destruct P as (o' & x' & k' & Ec & Es). rewrite Ec in E. injection E as -> -> ->.
          rewrite Es, nth_error_app2 by lia. now rewrite PL, Nat.sub_diag.
        + destruct (NoEnter i q Q IQ) as [v V0]. congruence.
      - destruct (past_nth ps i d c vs Sg ltac:(lia) ltac:(lia)) as (ws & o' & x' & k' & W & Wi & Pw).
        rewrite T in W. injection W as <-. rewrite Ti in Wi. injection Wi as <- <- <-.
        destruct (inside q).
        + destruct P as (? & ? & ? & _ & ->). rewrite nth_error_app1 by lia. exact Pw.
        + now rewrite P. }
    assert (Lr : r < length s). { rewrite L1, <- L2. apply nth_error_Some. congruence. }
    destruct (nth_error s r) as [q|] eqn:Q; [|apply nth_error_None in Q; lia].
    destruct (All r q Q) as (x & k & Tr & Xr & Sr).
    destruct (I3 r q c Q C) as (vs & Sg & E & P). rewrite T in Sg. injection Sg as <-.
    rewrite Tr in E. injection E as E.
    assert (PL : length (past ps r c) = c) by (apply (past_length ps r c ts T); lia).
    destruct (inside q) eqn:IQ.
    - destruct P as (o' & x' & k' & Ec & Es). rewrite Ec in E. injection E as <- <- <-.
      destruct q as [h b p]. cbn in *. subst b p h.
      eexists. refine (leave s r (past ps r c) o x k xs Q _). rewrite PL.
      apply Forall2_of_nth. { rewrite L1, <- Lts. exact (Forall2_length _ _ _ F). }
      intros i qi y Qi Yi. destruct (All i qi Qi) as (y' & k' & _ & Y' & Sy). congruence.
    - destruct (NoEnter r q Q IQ) as [v V0]. congruence.
Qed.

(** at the last stage no rank can go on *)
Lemma last_stuck ps s cs n qs : inv ps s cs -> stage ps n = Some qs -> round qs = None ->
  (forall r c, nth_error cs r = Some c -> c = n) ->
  (forall r q, nth_error s r = Some q -> inside q = false -> exists v, code q = Stop v) -> stuck s.
Proof.
  intros I H N All NoEnter t St. pose proof I as (L1 & L2 & I3).
  inversion St as [s0 r h o x k Q | s0 r h o x k xs Q F]; subst s0 t.
  - destruct (NoEnter r _ Q eq_refl) as [v E]. discriminate.
  - assert (Lr : r < length s) by (apply nth_error_Some; congruence).
    destruct (nth_error cs r) as [c|] eqn:C; [|apply nth_error_None in C; lia].
    pose proof (All r c C) as ->.
    rewrite (leave_round ps s cs r h o x k xs n qs I Q C F H) in N. discriminate.
Qed.

Lemma ends_bound ps n qs : ps <> [] -> stage ps n = Some qs -> round qs = None ->
  forall m s, steps m (start ps) s ->
    m <= length ps * (2 * n + 1) /\
    ((exists t, step s t) \/
     (stuck s /\ map code s = qs /\ forall q, In q s -> waits q \/ exists v, code q = Stop v)).
Proof.
  intros NE H N m s R. destruct (inv_steps ps m s R) as (cs & I & T). pose proof I as (L1 & L2 & I3).
  split.
  - subst m. unfold total. rewrite <- L1.
    replace (length s) with (length (combine s cs)) by (rewrite combine_length; lia).
    apply sum_bound. intros [q c] X. apply In_nth_error in X as [r X].
    assert (Lr : r < length (combine s cs)) by (apply nth_error_Some; congruence).
    rewrite combine_length in Lr.
    destruct (nth_error s r) as [q'|] eqn:Q; [|apply nth_error_None in Q; lia].
    destruct (nth_error cs r) as [c'|] eqn:C; [|apply nth_error_None in C; lia].
    rewrite (nth_combine _ _ _ _ _ Q C) in X. injection X as <- <-.
    destruct (I3 r q' c' Q C) as (ts & Sg & _). pose proof (stage_max ps n qs c' ts H N Sg).
    unfold done; cbn. destruct (inside q'); lia.
  - destruct (progress ps s cs n qs NE I H N) as [G|[All St]]; [now left|right].
    split; [exact (last_stuck ps s cs n qs I H N All St)|]. split.
    + assert (Lqs : length qs = length ps) by exact (stage_length _ _ _ H).
      apply nth_ext with (d := Stop (Raise PyValueError)) (d' := Stop (Raise PyValueError)).
      { rewrite map_length. lia. }
      intros r Lr. rewrite map_length in Lr.
      destruct (nth_error s r) as [q|] eqn:Q; [|apply nth_error_None in Q; lia].
      destruct (nth_error cs r) as [c|] eqn:C; [|apply nth_error_None in C; lia].
      pose proof (All r c C) as ->. destruct (I3 r q n Q C) as (ts & Sg & E & _).
      rewrite H in Sg. injection Sg as <-.
      apply nth_error_nth with (d := Stop (Raise PyValueError)) in E. rewrite E.
      apply nth_error_nth. now rewrite nth_error_map, Q.
    + intros q Iq. apply In_nth_error in Iq as [r Q].
      destruct (inside q) eqn:IQ; [left|right; now apply (St r)].
      assert (Lr : r < length s) by (apply nth_error_Some; congruence).
      destruct (nth_error cs r) as [c|] eqn:C; [|apply nth_error_None in C; lia].
      destruct (I3 r q c Q C) as (ts & Sg & E & P). rewrite IQ in P.
      destruct P as (o & x & k & Ec & Es). exists (past ps r c), o, x, k.
      destruct q as [h b p]; cbn in *. now subst.
Qed.

Lemma always_ends_lemma ps : exists fs, always_ends ps fs.
Proof.
  destruct ps as [|p ps].
  - exists []. exists 0. intros n s H. destruct (inv_steps [] n s H) as (cs & (L & L2 & _) & T).
    destruct s; [|discriminate]. cbn in T. split; [lia|]. right. split; [|reflexivity].
    intros t St. inversion St as [s0 r h o x k Q|s0 r h o x k xs Q F]; destruct r; discriminate.
  - destruct (stage_ends p ps) as (n & qs & H & N). exists qs, (length (p :: ps) * (2 * n + 1)).
    intros m s R. destruct (ends_bound (p :: ps) n qs ltac:(discriminate) H N m s R) as [B K].
    split; [exact B|]. destruct K as [G|(St & E & _)]; [now left|right; now split].
Qed.

(** ** Running in lock step *)
Inductive lock : list (prog V A) -> list (prog V A) -> Prop :=
| lock_end : forall ps, round ps = None -> lock ps ps
| lock_round : forall ps qs fs, round ps = Some qs -> lock qs fs -> lock ps fs.

Lemma stage_cons ps qs n : round ps = Some qs -> stage ps (S n) = stage qs n.
Proof.
  intros H. induction n as [|n IH]; [cbn; exact H|].
  change (stage ps (S (S n))) with (match stage ps (S n) with Some x => round x | None => None end).
  rewrite IH. reflexivity.
Qed.

Lemma lock_stage ps fs : lock ps fs -> exists n, stage ps n = Some fs /\ round fs = None.
Proof.
  induction 1 as [ps N|ps qs fs R L (n & Sg & N)].
  - now exists 0.
  - exists (S n). now rewrite (stage_cons ps qs n R).
Qed.

Lemma lock_ends ps fs : ps <> [] -> lock ps fs -> always_ends ps fs.
Proof.
  intros NE (n & Sg & N)%lock_stage. exists (length ps * (2 * n + 1)). intros m s R.
  destruct (ends_bound ps n fs NE Sg N m s R) as [B K]. split; [exact B|].
  destruct K as [G|(St & E & _)]; [now left|right; now split].
Qed.

Lemma lock_hangs ps fs : ps <> [] -> lock ps fs -> (exists o x k, In (Call o x k) fs) -> hangs ps.
Proof.
  intros NE (n & Sg & N)%lock_stage (o & x & k & I). exists (length ps * (2 * n + 1)). intros m s R.
  destruct (ends_bound ps n fs NE Sg N m s R) as [B K]. split; [exact B|].
  destruct K as [G|(St & E & W)]; [now left|right]. split; [exact St|]. rewrite <- E in I. apply in_map_iff in I as (q & Eq & Iq).
  exists q. split; [exact Iq|]. destruct (W q Iq) as [Wq|[v V0]]; [exact Wq|congruence].
Qed.

Lemma round_stops (rs : list (result A)) : round (map Stop rs) = None.
Proof. destruct rs; reflexivity. Qed.

Lemma lock_finishes ps rs : ps <> [] -> lock ps (map Stop rs) -> finishes ps rs.
Proof. intros. now apply lock_ends. Qed.

Lemma round_calls {B} (o : op) (x : B -> V) (k : B -> list V -> prog V A) (l : list B) :
  l <> [] -> round (map (fun b => Call o (x b) (k b)) l) = Some (map (fun b => k b (map x l)) l).
Proof.
  intros NE. apply round_spec. split. { destruct l; [easy|discriminate]. }
  exists o, (map x l). split.
  - clear NE. induction l as [|b l IH]; cbn; constructor; eauto.
  - rewrite map_map. reflexivity.
Qed.
End Lock.

(** ** The programs *)
Lemma add_nums_map {R B} (f : B -> Qc) (l : list B) :
  add_nums (R := R) (map (fun b => VNum (f b)) l) = Some (qsum (map f l)).
Proof. induction l as [|b l IH]; cbn; [reflexivity|]. now rewrite IH. Qed.

Lemma add_counts_map {R B} (f : B -> nat) (l : list B) :
  add_counts (R := R) (map (fun b => VCount (f b)) l) = Some (list_sum (map f l)).
Proof. induction l as [|b l IH]; cbn; [reflexivity|]. now rewrite IH. Qed.

Lemma all_arrays_map {R B} (f : B -> arr R) (l : list B) :
  all_arrays (map (fun b => VArr (f b)) l) = Some (map f l).
Proof. induction l as [|b l IH]; cbn; [reflexivity|]. now rewrite IH. Qed.

Lemma add_buffers_map {R B} n (f : B -> list Qc) (l : list B) : (forall b, In b l -> length (f b) = n) ->
  add_buffers (R := R) n (map (fun b => VBuf (f b)) l) = Some (allreduce_sum (zeros n) (map f l)).
Proof.
  induction l as [|b l IH]; cbn; intros H; [reflexivity|].
  rewrite (H b (or_introl eq_refl)), Nat.eqb_refl, IH by auto. reflexivity.
Qed.

Section Calls.
Context {R A B : Type}.
Variable l : list B.
Hypothesis NE : l <> [].

Lemma lock_allreduce (x : B -> Qc) (f : B -> Qc -> prog (value R) A) fs :
  lock (map (fun b => f b (qsum (map x l))) l) fs ->
  lock (map (fun b => allreduce (x b) (f b)) l) fs.
Proof.
  intros H. unfold allreduce. eapply lock_round.
  - apply (round_calls Allreduce (fun b => VNum (x b))
      (fun b ys => match add_nums ys with Some t => f b t | None => Stop (Raise PyTypeError) end)).
    exact NE.
  - cbv beta. rewrite add_nums_map. exact H.
Qed.

Lemma lock_allreduce_count (x : B -> nat) (f : B -> nat -> prog (value R) A) fs :
  lock (map (fun b => f b (list_sum (map x l))) l) fs ->
  lock (map (fun b => allreduce_count (x b) (f b)) l) fs.
Proof.
  intros H. unfold allreduce_count. eapply lock_round.
  - apply (round_calls Allreduce (fun b => VCount (x b))
      (fun b ys => match add_counts ys with Some t => f b t | None => Stop (Raise PyTypeError) end)).
    exact NE.
  - cbv beta. rewrite add_counts_map. exact H.
Qed.

Lemma lock_allreduce_buffer n (x : B -> list Qc) (f : B -> list Qc -> prog (value R) A) fs :
  (forall b, In b l -> length (x b) = n) ->
  lock (map (fun b => f b (allreduce_sum (zeros n) (map x l))) l) fs ->
  lock (map (fun b => allreduce_buffer (x b) (f b)) l) fs.
Proof.
  intros E H. unfold allreduce_buffer. eapply lock_round.
  - apply (round_calls AllreduceBuffer (fun b => VBuf (x b))
      (fun b ys => match add_buffers (length (x b)) ys with Some t => f b t | None => Stop (Raise PyValueError) end)).
    exact NE.
  - cbv beta. rewrite (map_ext_in _ (fun b => f b (allreduce_sum (zeros n) (map x l)))); [exact H|].
    intros b Ib. rewrite (E b Ib). rewrite add_buffers_map by exact E. reflexivity.
Qed.

Lemma lock_barrier (f : B -> prog (value R) A) fs :
  lock (map f l) fs -> lock (map (fun b => barrier (f b)) l) fs.
Proof.
  intros H. unfold barrier. eapply lock_round.
  - apply (round_calls Barrier (fun _ => VNone) (fun b _ => f b)). exact NE.
  - exact H.
Qed.

Lemma lock_globalize (x : B -> arr R) (f : B -> arr R -> prog (value R) A) fs :
  lock (map (fun b => match get_global_values (map x l) with
                      | Ok g => f b g | Raise e => Stop (Raise e) end) l) fs ->
  lock (map (fun b => globalize (length l) (x b) (f b)) l) fs.
Proof.
  intros H. unfold globalize. destruct (length l =? 1) eqn:E.
  - apply Nat.eqb_eq in E. destruct l as [|b [|c m]]; try discriminate. cbn in *.
    destruct (shape_eq_dec (tail_shape (x b)) (tail_shape (x b))) as [_|N]; [|easy]. cbn in H.
    rewrite app_nil_r in H. destruct (x b); exact H.
  - eapply lock_round.
    + apply (round_calls Allgather (fun b => VArr (x b))
        (fun b ys => match all_arrays ys with
                   | Some bs => match get_global_values bs with
                                | Ok g => f b g | Raise e => Stop (Raise e) end
                   | None => Stop (Raise PyTypeError) end)). exact NE.
    + cbv beta. rewrite all_arrays_map. exact H.
Qed.

Lemma lock_stops (v : B -> result A) : lock (V := value R) (map (fun b => Stop (v b)) l) (map Stop (map v l)).
Proof.
  rewrite <- (map_map v Stop). apply lock_end. apply round_stops.
Qed.
End Calls.

Lemma lock_bind_idx {V A B C} (l : list C) (p : C -> prog V A) (f : C -> A -> prog V B) (v : C -> A) fs :
  lock (map p l) (map (fun c => Stop (Ok (v c))) l) ->
  lock (map (fun c => f c (v c)) l) fs -> lock (map (fun c => pbind (p c) (f c)) l) fs.
Proof.
  intros H. remember (map p l) as ps eqn:Ep. remember (map (fun c => Stop (Ok (v c))) l) as qs eqn:Eq.
  revert p Ep. induction H as [ps N|ps qs' gs Rd L IH]; intros p Ep K; subst.
  - replace (map (fun c => pbind (p c) (f c)) l) with (map (fun c => f c (v c)) l); [exact K|].
    apply map_ext_in. intros c Ic.
    assert (Ec : p c = Stop (Ok (v c))).
    { revert Ep. clear - Ic. induction l as [|d l IH]; [easy|]. cbn. intros [= E1 E2].
      destruct Ic as [<-|Ic]; auto. }
    now rewrite Ec.
  - pose proof Rd as Rd2. apply round_spec in Rd2 as (NE & o & xs & F & ->).
    rewrite map_map in *.
    eapply lock_round; [|apply (IH eq_refl (fun c => resume xs (p c)) eq_refl K)].
    apply round_spec. split. { destruct l; [easy|discriminate]. }
    exists o, xs. split.
    + clear - F. remember (map p l) as ps eqn:E. revert l E. induction F as [|q x ps xs [k Ek] F IH]; intros [|c l] E; try discriminate.
      * constructor.
      * cbn in E. injection E as -> ->. cbn. constructor; [|now apply IH].
        rewrite Ek. cbn. eauto.
    + rewrite map_map. apply map_ext_in. intros c Ic.
      assert (exists x k, p c = Call o x k) as (x & k & ->).
      { apply (in_map p) in Ic. revert Ic F. generalize (map p l) as ps. generalize (p c) as q. clear.
        intros q ps Ic F. induction F as [|q' x ps xs [k Ek] F IH]; [easy|].
        destruct Ic as [<-|Ic]; eauto. }
      reflexivity.
Qed.

Lemma lock_bind {V A B C} (l : list C) (p : C -> prog V A) (f : A -> prog V B) (v : C -> A) fs :
  lock (map p l) (map (fun c => Stop (Ok (v c))) l) ->
  lock (map (fun c => f (v c)) l) fs -> lock (map (fun c => pbind (p c) f) l) fs.
Proof. apply (lock_bind_idx l p (fun _ => f) v fs). Qed.

(** *** prob *)
Definition rk (t : list nat * list Qc * list Qc) : list (nat * Qc) := combine (fst (fst t)) (snd (fst t)).

Lemma combine_maps {B C D} (f : B -> C) (g : B -> D) (l : list B) :
  combine (map f l) (map g l) = map (fun b => (f b, g b)) l.
Proof. induction l as [|b l IH]; cbn; [reflexivity|now rewrite IH]. Qed.

Lemma prob_loop_lock ips (l : list (list nat * list Qc * list Qc)) : l <> [] ->
  (forall t, In t l -> length (fst (fst t)) = length (snd (fst t))) ->
  lock (map (fun t => prob_loop ips (fst (fst t)) (snd (fst t)) (snd t)) l)
       (map Stop (map Ok (fold_left (prob_step (map rk l)) ips (map snd l)))).
Proof.
  revert l; induction ips as [|[i p] ips IH]; intros l NE E; cbn [prob_loop fold_left].
  - rewrite !map_map. apply lock_end. rewrite <- (map_map (fun t => Ok (snd t)) Stop). apply round_stops.
  - cbn [prob_step]. destruct (qltb 0 p); [|now apply IH].
    rewrite (map_ext_in _ (fun t => allreduce (local_sum i (rk t)) (fun total =>
        if qltb 0 total
        then prob_loop ips (fst (fst t)) (snd (fst t)) (assign i (fun v => p * v / total)%Qc (rk t) (snd t))
        else prob_loop ips (fst (fst t)) (snd (fst t)) (snd t)))).
    2:{ intros t It. rewrite (E t It), Nat.eqb_refl. reflexivity. }
    apply (lock_allreduce l NE (fun t => local_sum i (rk t))
      (fun t total => if qltb 0 total
        then prob_loop ips (fst (fst t)) (snd (fst t)) (assign i (fun v => p * v / total)%Qc (rk t) (snd t))
        else prob_loop ips (fst (fst t)) (snd (fst t)) (snd t))).
    replace (cell_sum i (map rk l)) with (qsum (map (fun t => local_sum i (rk t)) l))
      by (unfold cell_sum; now rewrite map_map).
    set (total := qsum (map (fun t => local_sum i (rk t)) l)).
    destruct (qltb 0 total); [|now apply IH].
    rewrite combine_maps.
    set (g := fun t : list nat * list Qc * list Qc => (fst t, assign i (fun v => p * v / total)%Qc (rk t) (snd t))).
    specialize (IH (map g l)).
    rewrite (map_map g (fun t => prob_loop ips (fst (fst t)) (snd (fst t)) (snd t))), (map_map g rk), (map_map g snd) in IH.
    assert (M : map (fun bo : list (nat * Qc) * list Qc => assign i (fun v => p * v / total)%Qc (fst bo) (snd bo))
                  (map (fun b => (rk b, snd b)) l) = map (fun x => snd (g x)) l) by (rewrite map_map; reflexivity).
    rewrite M. apply IH. { destruct l; [easy|discriminate]. }
    intros t (u & <- & Iu)%in_map_iff. exact (E u Iu).
Qed.

Lemma zip_blocks_ok (ptrs : list (list nat)) (vols : list (list Qc)) blocks :
  zip_blocks ptrs vols = Ok blocks ->
  length ptrs = length vols /\ blocks = map (fun b => combine (fst b) (snd b)) (combine ptrs vols)
  /\ forall b, In b (combine ptrs vols) -> length (fst b) = length (snd b).
Proof.
  revert vols blocks; induction ptrs as [|p ptrs IH]; intros [|v vols] blocks; cbn; try discriminate.
  - intros [= <-]. repeat split. easy.
  - destruct (Nat.eqb_spec (length p) (length v)) as [E|E]; [|discriminate].
    destruct (zip_blocks ptrs vols) as [bs|] eqn:Z; [|discriminate]. cbn. intros [= <-].
    destruct (IH vols bs Z) as (L & -> & F). split; [lia|]. split; [reflexivity|].
    intros b [<-|Ib]; [exact E|now apply F].
Qed.

Lemma zip_blocks_raise (ptrs : list (list nat)) (vols : list (list Qc)) e :
  length ptrs = length vols -> zip_blocks ptrs vols = Raise e ->
  e = PyIndexError /\ exists b, In b (combine ptrs vols) /\ length (fst b) <> length (snd b).
Proof.
  revert vols; induction ptrs as [|p ptrs IH]; intros [|v vols]; cbn; try discriminate.
  intros L. destruct (Nat.eqb_spec (length p) (length v)) as [E|E].
  - destruct (zip_blocks ptrs vols) as [bs|] eqn:Z; [discriminate|]. cbn. intros [= ->].
    destruct (IH vols ltac:(lia) Z) as (-> & b & Ib & N). split; [reflexivity|]. exists b. auto.
  - intros [= <-]. split; [reflexivity|]. exists (p, v). auto.
Qed.

Lemma combine_nil {B C} (l : list B) (m : list C) : length l = length m -> l <> [] -> combine l m <> [].
Proof. destruct l, m; easy. Qed.

(** no cell of positive probability: nothing is reduced *)
Lemma prob_loop_none ips ptr vol acc :
  existsb (fun ip => qltb 0 (snd ip)) ips = false -> prob_loop ips ptr vol acc = Stop (Ok acc).
Proof.
  induction ips as [|[i p] ips IH]; cbn; [reflexivity|].
  destruct (qltb 0 p); [discriminate|]. exact IH.
Qed.

Lemma existsb_enumerate_from (probs : list Qc) n :
  existsb (fun ip : nat * Qc => qltb 0 (snd ip)) (combine (seq n (length probs)) probs) = existsb (qltb 0) probs.
Proof. revert n; induction probs as [|p probs IH]; intros n; cbn; [reflexivity|]. now rewrite IH. Qed.
Lemma existsb_enumerate (probs : list Qc) :
  existsb (fun ip : nat * Qc => qltb 0 (snd ip)) (enumerate probs) = existsb (qltb 0) probs.
Proof. apply existsb_enumerate_from. Qed.

Lemma fst_combine {B C} (l : list B) (m : list C) : length l = length m -> map fst (combine l m) = l.
Proof. revert m; induction l as [|b l IH]; intros [|c m]; cbn; try discriminate; [reflexivity|]. intros E. f_equal. apply IH. lia. Qed.

Lemma prob_local_lock probs ptrs vols res : ptrs <> [] -> length ptrs = length vols ->
  prob probs ptrs vols = Ok res ->
  lock (map (fun b => prob_local probs (fst b) (snd b)) (combine ptrs vols)) (map Stop (map Ok res)).
Proof.
  intros NE L. unfold prob, prob_local.
  destruct (existsb (qltb 0) probs) eqn:X.
  - destruct (zip_blocks ptrs vols) as [blocks|] eqn:Z; [|discriminate]. cbn. intros [= <-].
    destruct (zip_blocks_ok _ _ _ Z) as (_ & -> & F).
    set (g := fun b : list nat * list Qc => (b, repeat 0%Qc (length (fst b)))).
    pose proof (prob_loop_lock (enumerate probs) (map g (combine ptrs vols))) as H.
    rewrite (map_map g (fun t => prob_loop (enumerate probs) (fst (fst t)) (snd (fst t)) (snd t))),
            (map_map g rk), (map_map g snd) in H. cbn [g fst snd] in H.
    replace (map (fun p => repeat 0%Qc (length p)) ptrs)
      with (map (fun x => repeat 0%Qc (length (@fst (list nat) (list Qc) x))) (combine ptrs vols)).
    2:{ rewrite <- (map_map fst (fun p => repeat 0%Qc (length p))). now rewrite fst_combine. }
    apply H.
    + pose proof (combine_nil ptrs vols L NE) as N. now destruct (combine ptrs vols).
    + intros t (u & <- & Iu)%in_map_iff. exact (F u Iu).
  - intros [= <-].
    rewrite (map_ext_in _ (fun b => Stop (Ok (repeat 0%Qc (length (fst b)))))).
    2:{ intros b _. apply prob_loop_none. now rewrite existsb_enumerate. }
    replace (map Ok (map (fun p : list nat => repeat 0%Qc (length p)) ptrs))
      with (map (fun b : list nat * list Qc => Ok (repeat 0%Qc (length (fst b)))) (combine ptrs vols)).
    + apply lock_stops.
    + rewrite <- (map_map fst (fun p => Ok (repeat 0%Qc (length p)))).
      rewrite fst_combine by exact L. now rewrite map_map.
Qed.

Lemma prob_local_finishes probs ptrs vols res : ptrs <> [] -> length ptrs = length vols ->
  prob probs ptrs vols = Ok res ->
  finishes (map (fun b => prob_local probs (fst b) (snd b)) (combine ptrs vols)) (map Ok res).
Proof.
  intros NE L H. apply lock_finishes.
  - pose proof (combine_nil ptrs vols L NE) as N. now destruct (combine ptrs vols).
  - now apply prob_local_lock.
Qed.

(** the first cell of positive probability *)
Lemma prob_loop_first ips ptr vol acc :
  existsb (fun ip => qltb 0 (snd ip)) ips = true ->
  if length ptr =? length vol
  then exists x k, prob_loop ips ptr vol acc = Call Allreduce x k
  else prob_loop ips ptr vol acc = Stop (Raise PyIndexError).
Proof.
  induction ips as [|[i p] ips IH]; cbn; [discriminate|].
  destruct (qltb 0 p); cbn; [intros _|exact IH].
  destruct (length ptr =? length vol); [|reflexivity]. unfold allreduce. eauto.
Qed.

Lemma round_some_all {V A} (ps qs : list (prog V A)) r : round ps = Some qs -> ~ In (Stop r) ps.
Proof.
  intros (_ & o & xs & F & _)%round_spec I.
  induction F as [|p x ps xs [k E] F IH]; [exact I|]. destruct I as [->|I]; [discriminate|auto].
Qed.

Lemma lock_mixed {V A} (ps : list (prog V A)) r o x k : In (Stop r) ps -> In (Call o x k) ps -> hangs ps.
Proof.
  intros I J. apply (lock_hangs ps ps).
  - intros ->. exact I.
  - apply lock_end. destruct (round ps) as [qs|] eqn:E; [|reflexivity].
    exfalso. exact (round_some_all ps qs r E I).
  - eauto.
Qed.

Lemma prob_hangs probs (bs : list (list nat * list Qc)) b c :
  existsb (qltb 0) probs = true -> In b bs -> In c bs ->
  length (fst b) = length (snd b) -> length (fst c) <> length (snd c) ->
  hangs (map (fun b => prob_local probs (fst b) (snd b)) bs).
Proof.
  intros X Ib Ic Eb Ec. rewrite <- existsb_enumerate in X. unfold prob_local.
  pose proof (prob_loop_first (enumerate probs) (fst b) (snd b) (repeat 0%Qc (length (fst b))) X) as Pb.
  pose proof (prob_loop_first (enumerate probs) (fst c) (snd c) (repeat 0%Qc (length (fst c))) X) as Pc.
  apply Nat.eqb_eq in Eb. apply Nat.eqb_neq in Ec. rewrite Eb in Pb. rewrite Ec in Pc.
  destruct Pb as (x & k & Pb).
  apply (lock_mixed _ (Raise PyIndexError) Allreduce x k).
  - rewrite <- Pc. exact (in_map (fun b => prob_loop _ (fst b) (snd b) (repeat 0%Qc (length (fst b)))) bs c Ic).
  - rewrite <- Pb. exact (in_map (fun b => prob_loop _ (fst b) (snd b) (repeat 0%Qc (length (fst b)))) bs b Ib).
Qed.

Lemma prob_all_raise probs (bs : list (list nat * list Qc)) :
  existsb (qltb 0) probs = true -> bs <> [] ->
  (forall b, In b bs -> length (fst b) <> length (snd b)) ->
  finishes (map (fun b => prob_local probs (fst b) (snd b)) bs) (map (fun _ => Raise PyIndexError) bs).
Proof.
  intros X NE F. rewrite <- existsb_enumerate in X. apply lock_finishes. { now destruct bs. }
  rewrite (map_ext_in _ (fun _ => Stop (Raise PyIndexError))); [apply lock_stops|].
  intros b Ib. unfold prob_local.
  pose proof (prob_loop_first (enumerate probs) (fst b) (snd b) (repeat 0%Qc (length (fst b))) X) as Pb.
  rewrite (proj2 (Nat.eqb_neq _ _) (F b Ib)) in Pb. exact Pb.
Qed.

Lemma list_as_map {B C} (l : list B) (m : list C) : length l = length m ->
  m = map snd (combine l m).
Proof. revert m; induction l as [|b l IH]; intros [|c m]; cbn; try discriminate; [reflexivity|]. intros E. f_equal. apply IH. lia. Qed.

Lemma lock_bind2 {V A B} (ps : list (prog V A)) (f : A -> prog V B) (vs : list A) fs :
  lock ps (map Stop (map Ok vs)) -> lock (map f vs) fs -> lock (map (fun p => pbind p f) ps) fs.
Proof.
  intros H K.
  assert (L : length ps = length vs).
  { apply lock_stage in H as (n & Sg & _). apply stage_length in Sg. now rewrite !map_length in Sg. }
  pose proof (lock_bind (combine ps vs) fst f snd fs) as G.
  rewrite fst_combine in G by exact L.
  rewrite <- (map_map snd f) in G.
  rewrite <- (map_map snd (fun v => Stop (Ok v))) in G.
  rewrite <- (map_map fst (fun p => pbind p f)) in G.
  rewrite fst_combine in G by exact L.
  replace (map snd (combine ps vs)) with vs in G by (now apply list_as_map).
  apply G; [|exact K]. now rewrite <- (map_map Ok Stop).
Qed.

Lemma prob_global_finishes probs ptrs vols res : ptrs <> [] -> length ptrs = length vols ->
  prob probs ptrs vols = Ok res ->
  finishes (map (fun b => prob_global (length ptrs) probs (fst b) (snd b)) (combine ptrs vols))
           (map (fun l => Ok (l, concat res)) res).
Proof.
  intros NE L H. pose proof (prob_local_lock probs ptrs vols res NE L H) as K.
  assert (NC : combine ptrs vols <> []) by (now apply combine_nil).
  assert (LR : length ptrs = length res).
  { apply lock_stage in K as (n & Sg & _). apply stage_length in Sg.
    rewrite !map_length, combine_length in Sg. lia. }
  apply lock_finishes. { now destruct (combine ptrs vols). }
  unfold prob_global.
  rewrite <- (map_map (fun b => prob_local probs (fst b) (snd b))
    (fun p => pbind p (fun l => globalize (length ptrs) (mk_arr l []) (fun g => Stop (Ok (l, rows g)))))).
  apply (lock_bind2 _ _ res _ K).
  rewrite LR. assert (NR : res <> []) by (destruct res; [destruct ptrs; [easy|discriminate]|discriminate]).
  apply (lock_globalize res NR (fun l => mk_arr l []) (fun l g => Stop (Ok (l, rows g)))).
  assert (G : get_global_values (map (fun l => mk_arr l []) res) = Ok (mk_arr (concat res) [])).
  { destruct res as [|b res']; [easy|]. cbn [map get_global_values].
    match goal with |- (if ?c then _ else _) = _ => replace c with true end.
    - f_equal. f_equal. cbn [map rows]. rewrite map_map. cbn [rows]. now rewrite map_id.
    - symmetry. apply forallb_forall. intros c Ic.
      change (mk_arr b [] :: map (fun l => mk_arr l []) res') with (map (fun l : list Qc => mk_arr l []) (b :: res')) in Ic.
      apply in_map_iff in Ic as (l & <- & _). reflexivity. }
  rewrite G. cbn [rows]. apply lock_stops.
Qed.

(** *** transfer *)
Lemma transfer_loop_lock cells (l : list (list nat * list Qc)) acc : l <> [] ->
  (forall t, In t l -> length (fst t) = length (snd t)) ->
  lock (map (fun t => transfer_loop cells (fst t) (snd t) acc) l)
       (map Stop (map (fun _ => Ok (acc ++ map (fun i => cell_sum i (map (fun t => combine (fst t) (snd t)) l)) cells)) l)).
Proof.
  intros NE E. revert acc; induction cells as [|i cells IH]; intros acc; cbn [transfer_loop].
  - cbn [map]. rewrite app_nil_r. apply lock_stops.
  - rewrite (map_ext_in _ (fun t => allreduce (local_sum i (combine (fst t) (snd t)))
      (fun x => transfer_loop cells (fst t) (snd t) (acc ++ [x])))).
    2:{ intros t It. rewrite (E t It), Nat.eqb_refl. reflexivity. }
    apply (lock_allreduce l NE (fun t => local_sum i (combine (fst t) (snd t)))
      (fun t x => transfer_loop cells (fst t) (snd t) (acc ++ [x]))).
    specialize (IH (acc ++ [qsum (map (fun t => local_sum i (combine (fst t) (snd t))) l)])).
    rewrite <- app_assoc in IH. cbn [app] in IH.
    replace (qsum (map (fun t => local_sum i (combine (fst t) (snd t))) l))
      with (cell_sum i (map (fun t => combine (fst t) (snd t)) l)) in *
      by (unfold cell_sum; now rewrite map_map).
    exact IH.
Qed.

Lemma transfer_finishes num_new ptrs prs res : ptrs <> [] -> transfer num_new ptrs prs = Ok res ->
  finishes (map (fun b => transfer_local num_new (fst b) (snd b)) (combine ptrs prs))
           (map (fun _ => Ok res) ptrs).
Proof.
  intros NE. unfold transfer. destruct (zip_blocks ptrs prs) as [blocks|] eqn:Z; [|discriminate].
  cbn [bind]. intros [= <-]. destruct (zip_blocks_ok _ _ _ Z) as (L & -> & F).
  assert (NC : combine ptrs prs <> []) by (now apply combine_nil).
  apply lock_finishes. { now destruct (combine ptrs prs). }
  pose proof (transfer_loop_lock (seq 0 num_new) (combine ptrs prs) [] NC F) as K.
  cbn [app] in K. rewrite <- (map_map fst (fun _ : list nat => Ok _)) in K. rewrite fst_combine in K by exact L.
  exact K.
Qed.

Lemma transfer_hangs num_new (bs : list (list nat * list Qc)) b c : 0 < num_new -> In b bs -> In c bs ->
  length (fst b) = length (snd b) -> length (fst c) <> length (snd c) ->
  hangs (map (fun b => transfer_local num_new (fst b) (snd b)) bs).
Proof.
  intros N Ib Ic Eb Ec. destruct num_new as [|n]; [lia|].
  apply (in_map (fun b => transfer_local (S n) (fst b) (snd b))) in Ib, Ic.
  unfold transfer_local in Ib at 1, Ic at 1. cbn [seq transfer_loop] in Ib, Ic.
  rewrite Eb, Nat.eqb_refl in Ib. rewrite (proj2 (Nat.eqb_neq _ _) Ec) in Ic.
  exact (lock_mixed _ _ _ _ _ Ic Ib).
Qed.

(** *** sample sets *)
Section Sets.
Context {R : Type}.
Implicit Types s : sset R.

Lemma part_length s r a : length_of (rloc (part s r) a) = local_length s r a.
Proof. unfold local_length, part, length_of; cbn. destruct (loc s a); reflexivity. Qed.

Lemma rcheck_num_local_part s r : rcheck_num_local (part s r) = check_num_local s r.
Proof.
  unfold rcheck_num_local, check_num_local. f_equal.
  f_equal. apply map_ext. intros a. apply part_length.
Qed.

Lemma sum_local_ok s rs n : sum_local s rs = Ok n ->
  exists f, (forall r, In r rs -> check_num_local s r = Ok (f r))
            /\ n = list_sum (map (fun r => match f r with Some k => k | None => 0 end) rs).
Proof.
  revert n; induction rs as [|r rs IH]; intros n; cbn [sum_local].
  - intros [= <-]. exists (fun _ => None). now split.
  - destruct (check_num_local s r) as [m|] eqn:C; [|discriminate]. cbn [bind].
    destruct (sum_local s rs) as [k|] eqn:K; [|discriminate]. cbn [bind]. intros [= <-].
    destruct (IH k eq_refl) as (f & Hf & ->).
    exists (fun q => match check_num_local s q with Ok v => v | Raise _ => None end). split.
    + intros q [<-|Iq]; [now rewrite C|]. now rewrite (Hf q Iq).
    + cbn [map]. change (list_sum (?a :: ?b)) with (a + list_sum b). rewrite C. f_equal. f_equal.
      apply map_ext_in. intros q Iq. now rewrite (Hf q Iq).
Qed.

Lemma lock_done {V A C} (l : list C) (v : C -> result A) :
  lock (V := V) (map (fun c => Stop (v c)) l) (map (fun c => Stop (v c)) l).
Proof. apply lock_end. rewrite <- (map_map v Stop). apply round_stops. Qed.

Lemma seq_nonempty P : 0 < P -> seq 0 P <> [].
Proof. destruct P; [lia|discriminate]. Qed.

Lemma rcheck_num_lock P s n : 0 < P -> check_num P s = Ok n ->
  lock (map (fun r => rcheck_num (part s r)) (seq 0 P)) (map (fun _ => Stop (Ok n)) (seq 0 P)).
Proof.
  intros HP. unfold check_num, rcheck_num.
  change (map (fun a => length_of (rglob (part s ?r) a)) all_attrs)
    with (map (fun a => option_map (fun x => length (rows x)) (glob s a)) all_attrs).
  assert (W : forall r, width_ok (part s r) = check_width s) by reflexivity.
  destruct (scan_lengths (map (fun a => option_map (fun x => length (rows x)) (glob s a)) all_attrs) None)
    as [o|e] eqn:Sc; [|discriminate].
  cbn [bind]. destruct (check_width s) as [u|e] eqn:Cw; [|discriminate]. cbn [bind].
  intros H.
  rewrite (map_ext _ (fun r => match o with
     | Some k => Stop (Ok k)
     | None => match check_num_local s r with
               | Ok m => allreduce_count (match m with Some k => k | None => 0 end) (fun t => Stop (Ok t))
               | Raise e => Stop (Raise e) end end)).
  2:{ intros r. rewrite W, rcheck_num_local_part.
      change (map (fun a => length_of (rglob (part s r) a)) all_attrs)
        with (map (fun a => option_map (fun x => length (rows x)) (glob s a)) all_attrs).
      try rewrite Sc. destruct o; [reflexivity|]. destruct (check_num_local s r); reflexivity. }
  destruct o as [k|].
  - injection H as ->. rewrite <- (map_map (fun _ => Ok n) Stop). apply lock_end, round_stops.
  - destruct (sum_local_ok s (seq 0 P) n H) as (f & Hf & ->).
    rewrite (map_ext_in _ (fun r => allreduce_count (match f r with Some k => k | None => 0 end) (fun t => Stop (Ok t)))).
    2:{ intros r Ir. now rewrite (Hf r Ir). }
    apply (lock_allreduce_count (seq 0 P) (seq_nonempty P HP) (fun r => match f r with Some k => k | None => 0 end)
      (fun _ t => Stop (Ok t))).
    apply lock_done.
Qed.

Lemma rcheck_num_finishes P s n : 0 < P -> check_num P s = Ok n ->
  finishes (map (fun r => rcheck_num (part s r)) (seq 0 P)) (repeat (Ok n) P).
Proof.
  intros HP H. apply lock_finishes. { pose proof (seq_nonempty P HP). now destruct (seq 0 P). }
  pose proof (rcheck_num_lock P s n HP H) as K. rewrite <- (map_map (fun _ => Ok n) Stop) in K.
  replace (repeat (Ok n) P) with (map (fun _ : nat => Ok n) (seq 0 P)); [exact K|].
  clear. generalize 0. induction P as [|P IH]; intros k; cbn; [reflexivity|now rewrite IH].
Qed.

Lemma rgather_lock P l s : 0 < P -> blocks_per_rank P s ->
  lock (map (fun r => rgather P l (part s r)) (seq 0 P))
       (map (fun r => Stop (rmap (fun s' => part s' r) (gather_attrs l s))) (seq 0 P)).
Proof.
  intros HP. revert s; induction l as [|a l IH]; intros s B; cbn [rgather gather_attrs].
  - cbn [rmap]. apply lock_done.
  - destruct (loc s a) as [bs|] eqn:La.
    + pose proof (B a bs La) as Lb.
      destruct bs as [|b0 bs']; [cbn in Lb; lia|]. set (bs := b0 :: bs') in *.
      rewrite (map_ext_in _ (fun r => globalize (length (seq 0 P)) (nth r bs b0)
         (fun g => rgather P l (part (set_glob a (Some g) s) r)))).
      2:{ intros r Ir. apply in_seq in Ir. rewrite seq_length. cbn [part rloc]. rewrite La.
          rewrite (nth_error_nth' bs b0) by lia. reflexivity. }
      apply (lock_globalize (seq 0 P) (seq_nonempty P HP) (fun r => nth r bs b0)
        (fun r g => rgather P l (part (set_glob a (Some g) s) r))).
      replace (map (fun r => nth r bs b0) (seq 0 P)) with bs.
      2:{ rewrite <- Lb. symmetry. apply nth_ext with (d := b0) (d' := b0).
          - now rewrite map_length, seq_length.
          - intros i Hi. rewrite map_length, seq_length in Hi.
            rewrite (nth_indep _ b0 (nth 0 bs b0)) by (now rewrite map_length, seq_length).
            rewrite (map_nth (fun r => nth r bs b0)). now rewrite seq_nth. }
      destruct (get_global_values bs) as [g|e]; cbn [bind].
      * apply IH. exact B.
      * cbn [rmap]. apply lock_done.
    + rewrite (map_ext _ (fun r => rgather P l (part s r))).
      2:{ intros r. cbn [part rloc]. now rewrite La. }
      now apply IH.
Qed.

Lemma rlocal_to_global_finishes P s : 0 < P -> blocks_per_rank P s ->
  finishes (map (fun r => rlocal_to_global P (part s r)) (seq 0 P))
           (map (fun r => rmap (fun s' => part s' r) (local_to_global s)) (seq 0 P)).
Proof.
  intros HP B. apply lock_finishes. { pose proof (seq_nonempty P HP). now destruct (seq 0 P). }
  rewrite map_map. exact (rgather_lock P all_attrs s HP B).
Qed.

Lemma rglobal_to_local_finishes P s s' : 0 < P -> blocks_per_rank P s -> global_to_local P s = Ok s' ->
  exists rs, finishes (map (fun r => rglobal_to_local P r (part s r)) (seq 0 P)) rs /\ length rs = P /\ forall r x, nth_error rs r = Some x -> exists y, x = Ok y /\ same_part y (part s' r).
Proof.
  intros HP B. unfold global_to_local.
  destruct (check_num P s) as [n|] eqn:C; [|discriminate]. cbn [bind]. intros [= <-].
  set (out := fun r => mk_rset (dim s) (glob s)
      (fun a => match glob s a with
                | Some x => nth_error (split_arr P x) r
                | None => rloc (part s r) a
                end)
      (nth_error (array_split (seq 0 n) P) r)).
  exists (map (fun r => Ok (out r)) (seq 0 P)). split; [|split].
  - apply lock_finishes. { pose proof (seq_nonempty P HP). now destruct (seq 0 P). }
    unfold rglobal_to_local.
    pose proof (rcheck_num_lock P s n HP C) as K.
    pose proof (lock_bind_idx (seq 0 P) (fun r => rcheck_num (part s r))
      (fun r num => barrier (Stop (Ok (mk_rset (rdim (part s r)) (rglob (part s r))
          (fun a => match rglob (part s r) a with
                    | Some x => nth_error (split_arr P x) r
                    | None => rloc (part s r) a
                    end)
          (nth_error (array_split (seq 0 num) P) r))))) (fun _ => n)) as G.
    apply G; [exact K|].
    apply (lock_barrier (seq 0 P) (seq_nonempty P HP)).
    rewrite map_map. apply lock_done.
  - now rewrite map_length, seq_length.
  - intros r x H. rewrite nth_error_map in H.
    destruct (nth_error (seq 0 P) r) as [r'|] eqn:N; [|discriminate]. cbn in H. injection H as <-.
    assert (r' = r).
    { assert (L : r < length (seq 0 P)) by (apply nth_error_Some; congruence).
      apply nth_error_nth with (d := 0) in N.
      rewrite seq_length in L. rewrite seq_nth in N by exact L. lia. }
    subst r'. exists (out r). split; [reflexivity|]. unfold out, same_part; cbn.
    split; [reflexivity|]. split; [reflexivity|]. split; [|reflexivity].
    intros a. destruct (glob s a); reflexivity.
Qed.
End Sets.

(** *** volumes and marginals *)
Lemma cell_counts_length num ptr : length (cell_counts num ptr) = num.
Proof. unfold cell_counts. now rewrite map_length, seq_length. Qed.

Lemma volume_emulated_finishes {X} num (ptr : X -> nat) (blocks : list (list X)) : blocks <> [] ->
  finishes (map (fun b => volume_emulated_local num (map ptr b)) blocks)
           (map (fun _ => Ok (estimate_volume_emulated num ptr blocks)) blocks).
Proof.
  intros NE. apply lock_finishes. { now destruct blocks. }
  unfold volume_emulated_local.
  apply (lock_allreduce_buffer blocks NE num (fun b => cell_counts num (map ptr b))
    (fun b cvol => allreduce_count (length (map ptr b)) (fun num_emulate =>
      Stop (Ok (map (fun v => xdivq v (qn num_emulate)) cvol))))).
  { intros b _. apply cell_counts_length. }
  apply (lock_allreduce_count blocks NE (fun b => length (map ptr b)) (fun b num_emulate =>
      Stop (Ok (map (fun v => xdivq v (qn num_emulate)) _)))).
  rewrite (map_ext (fun b => length (map ptr b)) (@length X)) by (intros b; apply map_length).
  unfold estimate_volume_emulated. cbv zeta. apply lock_stops.
Qed.

Lemma histogram_length (e : list Qc) vw : length (Post_Model.histogram e vw) = length e - 1.
Proof. unfold Post_Model.histogram. now rewrite map_length, seq_length. Qed.

Lemma linspace_length a b n : length (Sampling_Model.linspace a b n) = n.
Proof. unfold Sampling_Model.linspace. rewrite map_length, seq_length. reflexivity. Qed.

Lemma marginals_loop_lock domain nbins is_ (blocks : list (list (list Qc * Qc))) acc : blocks <> [] ->
  lock (map (fun b => marginals_loop domain nbins is_ b acc) blocks)
       (map Stop (map (fun _ => Ok (acc ++ map (Post_Model.marginal_1D domain nbins blocks) is_)) blocks)).
Proof.
  intros NE. revert acc; induction is_ as [|i is_ IH]; intros acc; cbn [marginals_loop].
  - cbn [map]. rewrite app_nil_r. apply lock_stops.
  - cbv zeta.
    apply (lock_allreduce_buffer blocks NE (nth i nbins 0)
      (fun b => Post_Model.histogram
          (Sampling_Model.linspace (fst (nth i domain (0%Qc, 0%Qc))) (snd (nth i domain (0%Qc, 0%Qc))) (nth i nbins 0 + 1))
          (map (fun e => (nth i (fst e) 0%Qc, snd e)) b))
      (fun b m => marginals_loop domain nbins is_ b (acc ++ [m]))).
    { intros b _. rewrite histogram_length, linspace_length. lia. }
    specialize (IH (acc ++ [Post_Model.marginal_1D domain nbins blocks i])).
    rewrite <- app_assoc in IH. exact IH.
Qed.

Lemma marginals_finishes domain nbins dim (blocks : list (list (list Qc * Qc))) : blocks <> [] ->
  finishes (map (marginals_local domain nbins dim) blocks)
           (map (fun _ => Ok (map (Post_Model.marginal_1D domain nbins blocks) (seq 0 dim))) blocks).
Proof.
  intros NE. apply lock_finishes. { now destruct blocks. }
  exact (marginals_loop_lock domain nbins (seq 0 dim) blocks [] NE).
Qed.

(** *** errors *)
Lemma check_num_hangs {R} P (s : sset R) r q e m :
  (forall a, glob s a = None) -> r < P -> q < P ->
  check_num_local s r = Raise e -> check_num_local s q = Ok m ->
  hangs (map (fun r => rcheck_num (part s r)) (seq 0 P)).
Proof.
  intros G Hr Hq Cr Cq.
  assert (E : forall i, rcheck_num (part s i) = match check_num_local s i with
     | Raise e => Stop (Raise e)
     | Ok m => allreduce_count (match m with Some k => k | None => 0 end) (fun t => Stop (Ok t)) end).
  { intros i. unfold rcheck_num. rewrite rcheck_num_local_part.
    replace (map (fun a => length_of (rglob (part s i) a)) all_attrs) with (map (fun _ : attr => @None nat) all_attrs).
    2:{ apply map_ext. intros a. cbn. now rewrite G. }
    cbn [all_attrs map scan_lengths]. unfold width_ok. cbn [part rglob]. rewrite G. reflexivity. }
  assert (Ir : In r (seq 0 P)) by (apply in_seq; lia).
  assert (Iq : In q (seq 0 P)) by (apply in_seq; lia).
  apply (in_map (fun r => rcheck_num (part s r))) in Ir, Iq. rewrite E in Ir, Iq.
  rewrite Cr in Ir. rewrite Cq in Iq. exact (lock_mixed _ _ _ _ _ Ir Iq).
Qed.

Lemma plot_finishes {A} P (a : A) : 0 < P ->
  finishes (map (fun r => plot_rank r (Ok a)) (seq 0 P)) (map (fun r => Ok (if r =? 0 then Some a else None)) (seq 0 P)).
Proof.
  intros HP. apply lock_finishes. { pose proof (seq_nonempty P HP). now destruct (seq 0 P). }
  rewrite (map_ext _ (fun r => barrier (Stop (Ok (if r =? 0 then Some a else None))))).
  2:{ intros r. unfold plot_rank. now destruct (r =? 0). }
  apply (lock_barrier (seq 0 P) (seq_nonempty P HP)). rewrite map_map. apply lock_done.
Qed.

Lemma plot_hangs {A} P e : 1 < P -> hangs (map (fun r => @plot_rank A r (Raise e)) (seq 0 P)).
Proof.
  intros HP.
  assert (I0 : In 0 (seq 0 P)) by (apply in_seq; lia).
  assert (I1 : In 1 (seq 0 P)) by (apply in_seq; lia).
  apply (in_map (fun r => @plot_rank A r (Raise e))) in I0, I1.
  cbn [plot_rank Nat.eqb] in I0, I1. exact (lock_mixed _ _ _ _ _ I0 I1).
Qed.

(** ** What the definitions of the specification give *)
Lemma run_exists {V A} (ps : list (prog V A)) (Q : list (proc V A) -> Prop) most :
  (forall n s, steps n (start ps) s -> n <= most /\ ((exists t, step s t) \/ Q s)) ->
  exists n s, steps n (start ps) s /\ Q s.
Proof.
  intros H.
  assert (G : forall d n s, most - n <= d -> steps n (start ps) s -> exists m t, steps m (start ps) t /\ Q t).
  { induction d as [|d IH]; intros n s D R.
    - destruct (H n s R) as [L [[t T]|K]]; [|eauto].
      destruct (H (S n) t (steps_S n _ s t R T)) as [L2 _]. lia.
    - destruct (H n s R) as [L [[t T]|K]]; [|eauto].
      apply (IH (S n) t); [lia|]. exact (steps_S n _ s t R T). }
  exact (G most 0 (start ps) ltac:(lia) (steps_0 _)).
Qed.

Lemma outcome_unique_lemma {V A} (ps fs gs : list (prog V A)) : always_ends ps fs -> always_ends ps gs -> fs = gs.
Proof.
  intros [b1 H1] [b2 H2]. destruct (run_exists ps _ b1 H1) as (n & s & R & St & E).
  destruct (H2 n s R) as [_ [[t T]|[_ E2]]]; [exfalso; exact (St t T)|]. congruence.
Qed.

Lemma hangs_not_finishes {V A} (ps : list (prog V A)) rs : hangs ps -> ~ finishes ps rs.
Proof.
  intros [b1 H1] [b2 H2]. destruct (run_exists ps _ b1 H1) as (n & s & R & St & (p & Ip & h & o & x & k & Wp)).
  destruct (H2 n s R) as [_ [[t T]|[_ E]]]; [exact (St t T)|].
  apply (in_map code) in Ip. rewrite E in Ip. apply in_map_iff in Ip as (v & Ev & _). subst p. discriminate.
Qed.

(** ** Different arrays on two processes *)
Lemma mixes_lemma {R} (x y : arr R) : tail_shape x = tail_shape y -> exists a b,
  finishes [rlocal_to_global 2 (ex_left x); rlocal_to_global 2 (ex_right y)] [Ok a; Ok b] /\
  rglob a Probabilities = Some (mk_arr (rows x ++ rows y) (tail_shape x)) /\ rglob a Volumes = None /\
  rglob b Volumes = Some (mk_arr (rows x ++ rows y) (tail_shape x)) /\ rglob b Probabilities = None.
Proof.
  intros T.
  set (put := fun (s : rset R) a g => mk_rset (rdim s) (upd (rglob s) a (Some g)) (rloc s) (rindex s)).
  assert (G : get_global_values [x; y] = Ok (mk_arr (rows x ++ rows y) (tail_shape x))).
  { unfold get_global_values. cbn [forallb map concat].
    destruct (shape_eq_dec (tail_shape x) (tail_shape x)) as [_|N]; [|easy].
    destruct (shape_eq_dec (tail_shape y) (tail_shape x)) as [_|N]; [|congruence].
    cbn. now rewrite app_nil_r. }
  exists (put (ex_left x) Probabilities (mk_arr (rows x ++ rows y) (tail_shape x))).
  exists (put (ex_right y) Volumes (mk_arr (rows x ++ rows y) (tail_shape x))).
  split; [|repeat split].
  apply lock_finishes; [discriminate|].
  pose proof (lock_globalize [(x, ex_left x, Probabilities); (y, ex_right y, Volumes)] ltac:(discriminate)
    (fun b => fst (fst b)) (fun b g => Stop (Ok (put (snd (fst b)) (snd b) g)))) as L.
  cbn [map fst snd length] in L. rewrite G in L.
  change (rlocal_to_global 2 (ex_left x)) with (globalize 2 x (fun g => Stop (V := value R) (Ok (put (ex_left x) Probabilities g)))).
  change (rlocal_to_global 2 (ex_right y)) with (globalize 2 y (fun g => Stop (V := value R) (Ok (put (ex_right y) Volumes g)))).
  apply L. apply lock_end. reflexivity.
Qed.
