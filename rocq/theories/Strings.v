(** Decimal numerals inside strings; nothing here models a particular function. *)
From Coq Require Import String Ascii List Arith Bool Lia DecimalString DecimalNat Decimal.
From Verif Require Import PlotDomains_Model.
Import ListNotations.
Local Open Scope string_scope.

Lemma app_assoc_s a b c : append (append a b) c = append a (append b c).
Proof. induction a as [|x a IH]; simpl; [reflexivity|]. rewrite IH. reflexivity. Qed.
Lemma app_nil_s a : append a "" = a.
Proof. induction a as [|x a IH]; simpl; [reflexivity|]. rewrite IH. reflexivity. Qed.
Lemma app_inj_l a b c : append a b = append a c -> b = c.
Proof. induction a as [|x a IH]; simpl; intros H; [exact H|]. injection H as H. auto. Qed.
Lemma length_app_s a b : String.length (append a b) = (String.length a + String.length b)%nat.
Proof. induction a as [|x a IH]; simpl; congruence. Qed.
Lemma app_inj_r a b c : append a c = append b c -> a = b.
Proof.
  revert b. induction a as [|x a IH]; intros [|y b] H; simpl in *; [reflexivity|..].
  - exfalso. apply (f_equal String.length) in H. simpl in H. rewrite length_app_s in H. lia.
  - exfalso. apply (f_equal String.length) in H. simpl in H. rewrite length_app_s in H. lia.
  - injection H as -> H. f_equal. auto.
Qed.

Definition digit (c : ascii) : bool := (Nat.leb 48 (nat_of_ascii c) && Nat.leb (nat_of_ascii c) 57)%bool.
Fixpoint digits (s : string) : bool := match s with EmptyString => true | String c r => (digit c && digits r)%bool end.

Lemma empty_digits d : digits (NilEmpty.string_of_uint d) = true.
Proof. induction d; simpl; auto. Qed.
Lemma dec_digits n : digits (dec n) = true.
Proof.
  unfold dec, NilZero.string_of_uint. destruct (Nat.to_uint n) eqn:E; [reflexivity|..]; apply empty_digits.
Qed.
Lemma to_uint_some n : Nat.to_uint n <> Nil.
Proof. intros H. pose proof (Unsigned.of_to n) as E. rewrite H in E. simpl in E. subst n. discriminate. Qed.
Lemma dec_inj m n : dec m = dec n -> m = n.
Proof.
  intros H. apply Unsigned.to_uint_inj.
  pose proof (NilZero.usu _ (to_uint_some m)) as E1. pose proof (NilZero.usu _ (to_uint_some n)) as E2.
  unfold dec in H. rewrite H in E1. congruence.
Qed.
(** A numeral followed by something that is not a digit can be read back. *)
Lemma digits_split a a' c c' r r' : digits a = true -> digits a' = true -> digit c = false -> digit c' = false ->
  append a (String c r) = append a' (String c' r') -> a = a' /\ c = c' /\ r = r'.
Proof.
  revert a'. induction a as [|x a IH]; intros [|y a'] D D' N N' H; simpl in *.
  - injection H as -> ->. auto.
  - injection H as -> H. apply andb_prop in D'. destruct D'. congruence.
  - injection H as -> H. apply andb_prop in D. destruct D. congruence.
  - injection H as -> H. apply andb_prop in D, D'. destruct (IH a' (proj2 D) (proj2 D') N N' H) as (-> & -> & ->). auto.
Qed.
Lemma dec_split m n c c' r r' : digit c = false -> digit c' = false ->
  append (dec m) (String c r) = append (dec n) (String c' r') -> m = n /\ c = c' /\ r = r'.
Proof.
  intros N N' H. destruct (digits_split _ _ _ _ _ _ (dec_digits m) (dec_digits n) N N' H) as (E & -> & ->).
  apply dec_inj in E. auto.
Qed.

Lemma has_dot_app a b : has_dot (append a b) = (has_dot a || has_dot b)%bool.
Proof. induction a as [|x a IH]; simpl; [reflexivity|]. rewrite IH. apply orb_assoc. Qed.
Lemma has_dot_digits s : digits s = true -> has_dot s = false.
Proof.
  induction s as [|c s IH]; simpl; intros H; [reflexivity|]. apply andb_prop in H. destruct H as [H1 H2].
  rewrite IH by exact H2. rewrite orb_false_r. destruct (Ascii.eqb_spec c "."); [subst; discriminate|reflexivity].
Qed.
Lemma has_dot_dec n : has_dot (dec n) = false.
Proof. apply has_dot_digits, dec_digits. Qed.
(** Adding the extension keeps different names different if they have dots in the
    same part. *)
Lemma full_inj a b ext : has_dot a = has_dot b -> full_filename a ext = full_filename b ext -> a = b.
Proof.
  unfold full_filename. intros ->. destruct (has_dot b); [auto|apply app_inj_r].
Qed.

Lemma path_join_app a b c : starts_slash c = false -> exists p, path_join a (append b c) = append p c /\
  forall c', starts_slash c' = false -> path_join a (append b c') = append p c'.
Proof.
  intros H.
  assert (S : forall c, starts_slash c = false -> starts_slash (append b c) = starts_slash b).
  { intros d Hd. destruct b; [exact Hd|reflexivity]. }
  unfold path_join. rewrite S by exact H. destruct (starts_slash b) eqn:E.
  - exists b. split; [reflexivity|]. intros c' H'. rewrite S by exact H'. reflexivity.
  - destruct (String.eqb a "" || ends_slash a).
    + exists (append a b). split; [symmetry; apply app_assoc_s|]. intros c' H'. rewrite S by exact H'. symmetry. apply app_assoc_s.
    + exists (append a (append "/" b)). split.
      * rewrite app_assoc_s. reflexivity.
      * intros c' H'. rewrite S by exact H'. rewrite app_assoc_s. reflexivity.
Qed.
