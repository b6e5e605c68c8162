From Coq Require Import List Arith Bool Lia.
From Verif Require Import Err NumPy SampleSet_Model SampleSet_Spec SampleSet_Proofs Disc_Proofs Extend_Model Extend_Spec.
Import ListNotations.
Local Open Scope nat_scope.
Local Open Scope err_scope.

Lemma attr_array p : attr_of p = array_of p.
Proof. destruct p; reflexivity. Qed.
Lemma array_of_inj p q : array_of p = array_of q -> p = q.
Proof. destruct p, q; cbn; congruence. Qed.
Lemma append_lemma {R} (sh : part -> list nat) : forall (l : list (part * arr R)) f s, has_parts s f sh -> fitting_shapes sh l ->
  exists s1, append_parts Appending l s = Ok s1 /\ has_parts s1 (fun p => f p ++ given_to p l) sh /\ (forall a, (forall p, a <> array_of p) -> glob s1 a = glob s a) /\ dim s1 = dim s /\ loc s1 = loc s.
Proof.
  induction l as [|[p x] l IH]; intros f s H F; [exists s; split; [reflexivity|]; split; [intros q; unfold given_to; cbn; rewrite app_nil_r; apply H|auto]|].
  inversion F as [|? ? Hx F1]; subst. cbn [fst snd] in Hx. cbn [append_parts append_part]. rewrite !attr_array, (H p). cbn [bind]. unfold concat_arr. cbn [tail_shape rows]. destruct (shape_eq_dec (sh p) (tail_shape x)) as [_|N]; [|congruence]. cbn [bind].
  set (s0 := set_glob (array_of p) (Some (mk_arr (f p ++ rows x) (sh p))) s).
  assert (H0 : has_parts s0 (fun q => if part_eqb q p then f p ++ rows x else f q) sh).
  { intros q. unfold s0. cbn [set_glob glob]. unfold upd. destruct (attr_eq_dec (array_of q) (array_of p)) as [E|N]; [apply array_of_inj in E; subst; destruct p; reflexivity|]. rewrite H. destruct p, q; try reflexivity; contradiction N; reflexivity. }
  destruct (IH _ s0 H0 F1) as (s1 & E1 & H1 & O1 & D1 & L1). exists s1. split; [exact E1|]. split.
  - intros q. rewrite H1. f_equal. f_equal. unfold given_to. cbn [filter fst]. destruct p, q; cbn [part_eqb map concat snd]; rewrite <- ?app_assoc; reflexivity.
  - split; [|split; [exact D1|exact L1]]. intros a Ha. rewrite O1 by exact Ha. unfold s0. cbn [set_glob glob]. apply upd_other. apply Ha.
Qed.
Lemma append_raises {R} (l1 l2 : list (part * arr R)) k p x f sh s : k = Appending -> has_parts s f sh -> fitting_shapes sh l1 -> tail_shape x <> sh p -> append_parts k (l1 ++ (p, x) :: l2) s = Raise PyValueError.
Proof.
  intros -> H F N. revert f s H. induction l1 as [|[q y] l1 IH]; intros f s H; cbn [app append_parts append_part].
  - rewrite attr_array, (H p). unfold concat_arr. cbn [tail_shape]. destruct (shape_eq_dec _ _) as [E|_]; [congruence|]. reflexivity.
  - inversion F as [|? ? Hy F1]; subst. rewrite !attr_array, (H q). unfold concat_arr. cbn [tail_shape rows bind]. cbn [fst snd] in Hy. destruct (shape_eq_dec _ _) as [_|C]; [|congruence]. cbn [bind].
    apply (IH F1 (fun r => if part_eqb r q then f q ++ rows y else f r)). intros r. cbn [set_glob glob]. unfold upd. destruct (attr_eq_dec (array_of r) (array_of q)) as [E|M]; [apply array_of_inj in E; subst; destruct q; reflexivity|]. rewrite H. destruct q, r; try reflexivity; contradiction M; reflexivity.
Qed.
Lemma fixed_lemma {R} (l : list (part * arr R)) s : append_parts Fixed l s = Ok s.
Proof. induction l as [|[p x] l IH]; [reflexivity|]. exact IH. Qed.
Lemma count_iff {R} P (s : sset R) f sh n : has_parts s f sh -> sh PValues = [dim s] -> (check_num P s = Ok n <-> (forall p, length (f p) = n) /\ forall a x, (forall p, a <> array_of p) -> glob s a = Some x -> length (rows x) = n).
Proof.
  intros H W. rewrite check_num_ok by (do 2 eexists; apply (H PValues)). split.
  - intros [A _]. split; [intros p; apply (A (array_of p) _ (H p))|]. intros a x _ G. apply (A a x G).
  - intros [A B]. split.
    + intros a x G. assert (D : (exists p, a = array_of p) \/ forall p, a <> array_of p).
      { destruct a; ((left; exists PValues; reflexivity) || (left; exists PJacobians; reflexivity) || (left; exists PErrors; reflexivity) || (right; intros []; discriminate)). }
      destruct D as [[p ->]|D]; [rewrite (H p) in G; injection G as <-; apply A|apply (B a x D G)].
    + intros x G. pose proof (H PValues) as V. cbn [array_of] in V. rewrite V in G. injection G as <-. exists []. exact W.
Qed.
Lemma refuse_iff {R} P (s : sset R) f sh : has_parts s f sh -> only_parts s -> (check_num P s = Raise LengthNotMatching <-> exists p q, length (f p) <> length (f q)).
Proof.
  intros H O. rewrite check_num_length by (do 2 eexists; apply (H PValues)). split.
  - intros (a & b & x & y & Ga & Gb & N).
    assert (D : forall a, (exists p, a = array_of p) \/ forall p, a <> array_of p).
    { intros c. destruct c; ((left; exists PValues; reflexivity) || (left; exists PJacobians; reflexivity) || (left; exists PErrors; reflexivity) || (right; intros []; discriminate)). }
    destruct (D a) as [[p ->]|Da]; [|rewrite (O a Da) in Ga; discriminate]. destruct (D b) as [[q ->]|Db]; [|rewrite (O b Db) in Gb; discriminate]. rewrite (H p) in Ga. rewrite (H q) in Gb. injection Ga as <-. injection Gb as <-. eauto.
  - intros (p & q & N). exists (array_of p), (array_of q). do 2 eexists. split; [apply H|]. split; [apply H|]. exact N.
Qed.
Lemma split_lengths {A B} (x : list A) (y : list B) P : 0 < P -> length x = length y -> map (@length A) (array_split x P) = map (@length B) (array_split y P).
Proof. intros HP E. rewrite !array_split_lengths by exact HP. rewrite E. reflexivity. Qed.
Lemma append_missing {R} p (x : arr R) l s : glob s (array_of p) = None -> append_parts Appending ((p, x) :: l) s = Raise PyValueError.
Proof. intros E. cbn [append_parts append_part]. rewrite attr_array, E. reflexivity. Qed.
