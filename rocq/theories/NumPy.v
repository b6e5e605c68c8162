(** List models of the NumPy primitives that the modelled functions call.
    A one-dimensional array is a list; an array with more axes is a list of
    rows (first axis first). *)
From Coq Require Import List Arith Lia.
Import ListNotations.

(** [take_blocks sizes l] cuts [l] into consecutive blocks. *)
Fixpoint take_blocks {A} (sizes : list nat) (l : list A) : list (list A) :=
  match sizes with
  | [] => []
  | s :: ss => firstn s l :: take_blocks ss (skipn s l)
  end.

(** numpy.array_split(l, P) along the first axis, used by
    bet/sample.py:1331,1336 (global_to_local),
    bet/sampling/basicSampling.py:228 and bet/sensitivity/chooseQoIs.py:
    Neach, extras = divmod(len(l), P);
    sizes = extras*[Neach+1] + (P-extras)*[Neach]. *)
Definition split_sizes (n P : nat) : list nat :=
  repeat (S (n / P)) (n mod P) ++ repeat (n / P) (P - n mod P).
Definition array_split {A} (l : list A) (P : nat) : list (list A) :=
  take_blocks (split_sizes (length l) P) l.

(** a[[i0,i1,...]] : gather by an index array.  An index out of range raises
    IndexError in NumPy; the model returns [None]. *)
Fixpoint take_idx {A} (l : list A) (idx : list nat) : option (list A) :=
  match idx with
  | [] => Some []
  | i :: is =>
      match nth_error l i, take_idx l is with
      | Some x, Some r => Some (x :: r)
      | _, _ => None
      end
  end.

(** a[i] = v for one index; out of range raises IndexError ([None]). *)
Fixpoint set_nth {A} (i : nat) (v : A) (l : list A) : option (list A) :=
  match l, i with
  | [], _ => None
  | _ :: r, O => Some (v :: r)
  | x :: r, S j => option_map (cons x) (set_nth j v r)
  end.

(** a[idx] = vs : scatter by an index array (later entries win). *)
Fixpoint scatter {A} (l : list A) (idx : list nat) (vs : list A) : option (list A) :=
  match idx, vs with
  | [], [] => Some l
  | i :: is, v :: r =>
      match set_nth i v l with Some l' => scatter l' is r | None => None end
  | _, _ => None
  end.

(** numpy.arange(start, stop, step) for naturals, step >= 1. *)
Definition arange (start stop step : nat) : list nat :=
  map (fun k => start + k * step) (seq 0 ((stop - start + step - 1) / step)).

(** numpy.repeat(l, k, axis=0) and numpy.tile(l, (k,1)) *)
Definition np_repeat {A} (l : list A) (k : nat) : list A := flat_map (fun x => repeat x k) l.
Definition np_tile {A} (l : list A) (k : nat) : list A := concat (repeat l k).

(** ** Facts *)
Lemma take_blocks_length {A} sizes (l : list A) : length (take_blocks sizes l) = length sizes.
Proof. revert l; induction sizes as [|s ss IH]; intro l; simpl; [reflexivity | rewrite IH; reflexivity]. Qed.

Lemma take_blocks_concat {A} sizes (l : list A) :
  length l <= list_sum sizes -> concat (take_blocks sizes l) = l.
Proof.
  revert l; induction sizes as [|s ss IH]; intros l H; simpl in *.
  - destruct l; [reflexivity | simpl in H; lia].
  - rewrite IH; [apply firstn_skipn | rewrite skipn_length; lia].
Qed.

Lemma list_sum_repeat a k : list_sum (repeat a k) = a * k.
Proof. induction k as [|k IH]; simpl; [lia | rewrite IH; lia]. Qed.

Lemma split_sizes_sum n P : 0 < P -> list_sum (split_sizes n P) = n.
Proof.
  intro HP. unfold split_sizes. rewrite list_sum_app, !list_sum_repeat.
  pose proof (Nat.div_mod n P ltac:(lia)). pose proof (Nat.mod_upper_bound n P ltac:(lia)).
  nia.
Qed.

Lemma split_sizes_length n P : 0 < P -> length (split_sizes n P) = P.
Proof.
  intro HP. unfold split_sizes. rewrite app_length, !repeat_length.
  pose proof (Nat.mod_upper_bound n P ltac:(lia)). lia.
Qed.

Lemma nth_repeat_lt {A} (a d : A) k i : i < k -> nth i (repeat a k) d = a.
Proof. revert i; induction k as [|k IH]; intros [|i] H; simpl; try lia; [reflexivity | apply IH; lia]. Qed.

Lemma split_sizes_nth n P r : r < P ->
  nth r (split_sizes n P) 0 = n / P + (if r <? n mod P then 1 else 0).
Proof.
  intro HP. unfold split_sizes. pose proof (Nat.mod_upper_bound n P ltac:(lia)).
  destruct (Nat.ltb_spec r (n mod P)) as [H1|H1].
  - rewrite app_nth1 by (rewrite repeat_length; lia). rewrite nth_repeat_lt by lia. lia.
  - rewrite app_nth2 by (rewrite repeat_length; lia). rewrite repeat_length.
    rewrite nth_repeat_lt by lia. lia.
Qed.

Lemma skipn_skipn {A} a b (l : list A) : skipn a (skipn b l) = skipn (b + a) l.
Proof. revert l; induction b as [|b IH]; intros [|x l]; simpl; try reflexivity; [destruct a; reflexivity | apply IH]. Qed.

Lemma take_blocks_nth {A} sizes (l : list A) r d : r < length sizes ->
  nth r (take_blocks sizes l) d =
  firstn (nth r sizes 0) (skipn (list_sum (firstn r sizes)) l).
Proof.
  revert l r; induction sizes as [|s ss IH]; intros l r Hr; simpl in *; [lia|].
  destruct r as [|r]; [reflexivity|]. rewrite IH by lia. cbn [firstn list_sum fold_right].
  rewrite skipn_skipn. reflexivity.
Qed.

Lemma array_split_length {A} (l : list A) P : 0 < P -> length (array_split l P) = P.
Proof. intro H. unfold array_split. rewrite take_blocks_length. apply split_sizes_length, H. Qed.

Lemma array_split_concat {A} (l : list A) P : 0 < P -> concat (array_split l P) = l.
Proof. intro H. apply take_blocks_concat. rewrite split_sizes_sum; [lia | exact H]. Qed.

Lemma firstn_split_sizes_sum n P r : r <= P -> 0 < P ->
  list_sum (firstn r (split_sizes n P)) = r * (n / P) + Nat.min r (n mod P).
Proof.
  intros Hr HP. unfold split_sizes.
  pose proof (Nat.mod_upper_bound n P ltac:(lia)).
  assert (F : forall (a k j : nat), firstn j (repeat a k) = repeat a (Nat.min j k)).
  { intros a k; induction k as [|k IH]; intros [|j]; simpl; [reflexivity..|]. rewrite IH. reflexivity. }
  rewrite firstn_app, repeat_length, !F, list_sum_app, !list_sum_repeat.
  destruct (Nat.le_gt_cases r (n mod P)).
  - rewrite !Nat.min_l by lia. replace (r - n mod P) with 0 by lia. simpl. nia.
  - rewrite (Nat.min_r r) by lia. rewrite Nat.min_l by lia. nia.
Qed.

Lemma array_split_nth {A} (l : list A) P r : r < P ->
  nth r (array_split l P) [] =
  firstn (length l / P + (if r <? length l mod P then 1 else 0))
         (skipn (r * (length l / P) + Nat.min r (length l mod P)) l).
Proof.
  intro HP. unfold array_split. rewrite take_blocks_nth by (rewrite split_sizes_length; lia).
  rewrite split_sizes_nth by lia. rewrite firstn_split_sizes_sum by lia. reflexivity.
Qed.

Lemma array_split_nth_length {A} (l : list A) P r : r < P ->
  length (nth r (array_split l P) []) = length l / P + (if r <? length l mod P then 1 else 0).
Proof.
  intro HP. rewrite array_split_nth by exact HP. rewrite firstn_length, skipn_length.
  pose proof (Nat.div_mod (length l) P ltac:(lia)). pose proof (Nat.mod_upper_bound (length l) P ltac:(lia)).
  set (q := length l / P) in *. set (m := length l mod P) in *.
  destruct (Nat.ltb_spec r m); [rewrite (Nat.min_l r) by lia | rewrite (Nat.min_r r) by lia]; nia.
Qed.

Lemma array_split_1 {A} (l : list A) : array_split l 1 = [l].
Proof.
  unfold array_split, split_sizes. rewrite Nat.div_1_r, Nat.mod_1_r. simpl. rewrite firstn_all. reflexivity.
Qed.

Lemma array_split_map {A B} (f : A -> B) l P : array_split (map f l) P = map (map f) (array_split l P).
Proof.
  unfold array_split. rewrite map_length. generalize (split_sizes (length l) P) as ss.
  intro ss. revert l. induction ss as [|s ss IH]; intro l; simpl; [reflexivity|].
  rewrite firstn_map, skipn_map, IH. reflexivity.
Qed.

Lemma set_nth_nth {A} i v (l l' : list A) : set_nth i v l = Some l' ->
  i < length l /\ length l' = length l /\
  (forall j, nth_error l' j = if j =? i then Some v else nth_error l j).
Proof.
  revert l l'; induction i as [|i IH]; intros [|x l] l' H; simpl in H; try discriminate.
  - injection H as <-. simpl. repeat split; [lia|]. intros [|j]; reflexivity.
  - destruct (set_nth i v l) as [m|] eqn:E; [|discriminate]. injection H as <-.
    destruct (IH _ _ E) as (H1 & H2 & H3). simpl. repeat split; [lia..|].
    intros [|j]; simpl; [reflexivity | apply H3].
Qed.

Lemma set_nth_some {A} i v (l : list A) : i < length l -> exists l', set_nth i v l = Some l'.
Proof.
  revert l; induction i as [|i IH]; intros [|x l] H; simpl in *; try lia; [eauto|].
  destruct (IH l ltac:(lia)) as [m ->]. simpl. eauto.
Qed.
