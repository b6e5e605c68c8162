From Coq Require Import String Ascii List Arith Bool QArith Qcanon Lia.
From Verif Require Import Err Num NumPy Lists PlotDomains_Model PlotDomains_Spec Strings.
Import ListNotations.
Local Open Scope nat_scope.

(** ** take_idx *)
Lemma take_idx_nth {A} (l : list A) idx r : take_idx l idx = Some r ->
  length r = length idx /\ forall k i, nth_error idx k = Some i -> nth_error r k = nth_error l i /\ i < length l.
Proof.
  revert r. induction idx as [|i idx IH]; intros r; cbn [take_idx].
  - intros [= <-]. split; [reflexivity|]. intros [|k] j; discriminate.
  - destruct (nth_error l i) as [x|] eqn:E; [|discriminate]. destruct (take_idx l idx) as [xs|]; [|discriminate]. intros [= <-].
    destruct (IH xs eq_refl) as [L N]. split; [cbn [length]; congruence|]. intros [|k] j; cbn [nth_error].
    + intros [= <-]. split; [symmetry; exact E|]. apply nth_error_Some. congruence.
    + apply N.
Qed.
Lemma take_idx_some {A} (l : list A) idx : (forall i, In i idx -> i < length l) -> exists r, take_idx l idx = Some r.
Proof.
  induction idx as [|i idx IH]; intros H; cbn [take_idx]; [eauto|].
  destruct (nth_error l i) as [x|] eqn:E.
  - destruct IH as [r ->]; [intros; apply H; right; assumption|]. eauto.
  - apply nth_error_None in E. specialize (H i (or_introl eq_refl)). lia.
Qed.
Lemma take_idx_range {A} (l : list A) idx r : take_idx l idx = Some r -> forall i, In i idx -> i < length l.
Proof.
  intros H i Hi. apply In_nth_error in Hi. destruct Hi as [k Hk]. destruct (take_idx_nth l idx r H) as [_ N]. apply (N k i Hk).
Qed.

(** ** scatter *)
Lemma nth_repeat_error {A} (a : A) n i : nth_error (repeat a n) i = if i <? n then Some a else None.
Proof.
  revert i. induction n as [|n IH]; intros [|i]; cbn [repeat nth_error]; try reflexivity. rewrite IH. reflexivity.
Qed.
Lemma pick_nth color num nos c : pick_colors color num nos = Ok c ->
  length c = length nos /\ forall k i, nth_error nos k = Some i -> nth_error c k = colour_of color num i /\ nth_error c k <> None.
Proof.
  unfold pick_colors, colour_of. destruct color as [[l|t]|]; [|discriminate|].
  - destruct (take_idx l nos) as [r|] eqn:E; [|discriminate]. intros [= <-]. destruct (take_idx_nth l nos r E) as [L N]. split; [exact L|].
    intros k i H. destruct (N k i H) as [N1 N2]. split; [exact N1|]. rewrite N1. apply nth_error_Some. exact N2.
  - destruct (take_idx (repeat 1%Qc num) nos) as [r|] eqn:E; [|discriminate]. intros [= <-]. destruct (take_idx_nth _ nos r E) as [L N]. split; [exact L|].
    intros k i H. destruct (N k i H) as [N1 N2]. rewrite N1, nth_repeat_error. rewrite repeat_length in N2. apply Nat.ltb_lt in N2. rewrite N2.
    split; [reflexivity|discriminate].
Qed.
Lemma scatter_shows_lemma n s nos color ref labels cbar filename ext f :
  scatter n (OSet s) nos color ref labels cbar filename ext = Ok f ->
  length (f_points f) = length (chosen nos (length (v_values s))) /\
  length (f_colors f) = length (chosen nos (length (v_values s))) /\
  (forall k i, nth_error (chosen nos (length (v_values s))) k = Some i ->
     marker_shows (v_values s) (colour_of color (length (v_values s))) (f_points f) (f_colors f) k i) /\
  f_ref f = option_map (firstn n) (match ref with Some r => Some r | None => v_ref s end) /\
  f_labels f = labels /\ f_file f = full_filename filename ext.
Proof.
  unfold scatter. destruct (negb (v_dim s =? n)); [discriminate|].
  change (match nos with Some l => l | None => seq 0 (length (v_values s)) end) with (chosen nos (length (v_values s))).
  destruct (pick_colors color (length (v_values s)) (chosen nos (length (v_values s)))) as [c|e] eqn:E1; [|discriminate]. cbn [bind].
  destruct (take_idx (v_values s) (chosen nos (length (v_values s)))) as [p|] eqn:E2; [|discriminate]. cbn [bind].
  destruct (pick_nth _ _ _ _ E1) as [L1 N1]. destruct (take_idx_nth _ _ _ E2) as [L2 N2].
  set (ref1 := match ref with Some r => Some r | None => v_ref s end).
  destruct ref1 as [r|]; [destruct (length r <? n); [discriminate|]|]; cbn [bind]; intros [= <-]; cbn [f_points f_colors f_ref f_labels f_file option_map].
  all: split; [exact L2|]; split; [exact L1|]; split; [|auto]; intros k i H.
  all: destruct (N1 k i H) as [A B], (N2 k i H) as [C D]; repeat split; [exact C|exact A| |exact B]; rewrite C; apply nth_error_Some; exact D.
Qed.
Lemma scatter_ok_lemma n o nos color ref labels cbar filename ext :
  (exists f, scatter n o nos color ref labels cbar filename ext = Ok f) <->
  exists s, o = OSet s /\ v_dim s = n /\
    (forall i, In i (chosen nos (length (v_values s))) -> i < length (v_values s) /\ colour_of color (length (v_values s)) i <> None) /\
    (forall t, color <> Some (CText t)) /\
    (forall r, (match ref with Some r => Some r | None => v_ref s end) = Some r -> n <= length r).
Proof.
  split.
  - intros [f H]. destruct o as [s| |]; [|discriminate..]. exists s. split; [reflexivity|]. pose proof H as H0.
    unfold scatter in H. destruct (Nat.eqb_spec (v_dim s) n) as [E|]; [|discriminate]. cbn [negb] in H. split; [exact E|].
    destruct (scatter_shows_lemma _ _ _ _ _ _ _ _ _ _ H0) as (L1 & L2 & M & R & _). split; [|split].
    + intros i Hi. apply In_nth_error in Hi. destruct Hi as [k Hk]. destruct (M k i Hk) as (A & B & C & D). split.
      * apply nth_error_Some. congruence.
      * congruence.
    + intros t ->. discriminate H.
    + intros r Hr. rewrite Hr in H. destruct (pick_colors _ _ _); [|discriminate]. cbn [bind] in H.
      destruct (take_idx (v_values s) _); [|discriminate]. cbn [bind] in H.
      destruct (Nat.ltb_spec (length r) n); [discriminate|exact H1].
  - intros (s & -> & D & C & T & R). unfold scatter. rewrite D, Nat.eqb_refl. cbn [negb].
    change (match nos with Some l => l | None => seq 0 (length (v_values s)) end) with (chosen nos (length (v_values s))).
    assert (P : exists c, pick_colors color (length (v_values s)) (chosen nos (length (v_values s))) = Ok c).
    { unfold pick_colors. destruct color as [[l|t]|].
      - destruct (take_idx_some l (chosen nos (length (v_values s)))) as [r ->]; [|eauto]. intros i Hi. apply nth_error_Some. apply (C i Hi).
      - destruct (T t eq_refl).
      - destruct (take_idx_some (repeat 1%Qc (length (v_values s))) (chosen nos (length (v_values s)))) as [r ->]; [|eauto].
        intros i Hi. rewrite repeat_length. apply (C i Hi). }
    destruct P as [c ->]. cbn [bind]. destruct (take_idx_some (v_values s) (chosen nos (length (v_values s)))) as [p ->]; [intros i Hi; apply (C i Hi)|].
    cbn [bind]. destruct (match ref with Some r => Some r | None => v_ref s end) as [r|]; cbn [bind]; [|eauto].
    specialize (R r eq_refl). destruct (Nat.ltb_spec (length r) n); [lia|]. cbn [bind]. eauto.
Qed.

(** ** Named colours *)
Lemma named_2D_lemma input i o s t get nos ref labels cbar filename ext :
  (if input : bool then i else o) = Some s ->
  In (t, get) [("volumes", v_volumes); ("probabilities", v_probs); ("radii", v_radii); ("error_id", v_error)]%string ->
  scatter_2D_named input (ODisc i o) nos (Some (CText t)) ref labels cbar filename ext =
    scatter 2 (OSet s) nos (option_map CArray (get s)) ref labels (Some (colour_text input t)) filename ext.
Proof.
  intros E H. unfold scatter_2D_named. rewrite E. unfold resolve.
  repeat (destruct H as [[= <- <-] | H]; [first [reflexivity | destruct input; reflexivity]|]). destruct H.
Qed.
Lemma nradii_refuted_lemma input i o nos ref labels cbar filename ext :
  forall f, scatter_2D_named input (ODisc i o) nos (Some (CText "normalized radii")) ref labels cbar filename ext <> Ok f.
Proof.
  intros f H. unfold scatter_2D_named, resolve in H.
  change (named input "normalized radii") with (@None (string * (vset -> option (list Qc)))) in H. cbn [bind fst snd] in H.
  unfold set_or_none, scatter in H. destruct (if input then i else o) as [s|]; [|discriminate].
  destruct (negb (v_dim s =? 2)); discriminate.
Qed.
Lemma array_2D_lemma input i o s color nos ref labels cbar filename ext : (if input : bool then i else o) = Some s ->
  (forall t, color <> Some (CText t)) ->
  scatter_2D_named input (ODisc i o) nos color ref labels cbar filename ext = scatter 2 (OSet s) nos color ref labels cbar filename ext.
Proof.
  intros E T. unfold scatter_2D_named. rewrite E. unfold resolve. destruct color as [[l|t]|]; [reflexivity|destruct (T t eq_refl)|reflexivity].
Qed.
Lemma never_3D_lemma fuel input d nos color ref labels cbar filename ext f :
  scatter_3D_named fuel input d nos color ref labels cbar filename ext <> Ok f.
Proof.
  destruct d as [s|i o|]; [destruct fuel; discriminate| |destruct fuel; discriminate].
  destruct fuel; cbn [scatter_3D_named].
  - destruct (resolve input (if input then i else o) color) as [cl|]; cbn [bind]; discriminate.
  - destruct (resolve input (if input then i else o) color) as [cl|]; cbn [bind]; [|discriminate].
    destruct (if input then i else o) as [s|]; destruct fuel; discriminate.
Qed.
Lemma multi_input_lemma d color ref folder filename label_char sh ext f :
  scatter_2D_multi_input d color ref folder filename label_char sh ext <> Ok f.
Proof.
  destruct d as [s|i o|]; [discriminate| |discriminate]. unfold scatter_2D_multi_input. destruct (resolve true i color); discriminate.
Qed.
Lemma multi_output_array_lemma d color ref folder filename label_char sh ext f : (forall t, color <> Some (CText t)) ->
  scatter_2D_multi_output d color ref folder filename label_char sh ext <> Ok f.
Proof.
  intros T. destruct d as [s|i o|]; [discriminate| |discriminate]. unfold scatter_2D_multi_output, resolve.
  destruct color as [[l|t]|]; [discriminate|destruct (T t eq_refl)|discriminate].
Qed.
Lemma multi_output_named_lemma i s t get ref folder filename label_char sh ext :
  In (t, get) [("volumes", v_volumes); ("probabilities", v_probs); ("radii", v_radii); ("error_id", v_error)]%string ->
  scatter_2D_multi_output (ODisc i (Some s)) (Some (CText t)) ref folder filename label_char sh ext =
    scatter_2D_multi (OSet s) (option_map CArray (get s)) ref folder filename label_char sh ext (Some (colour_text false t)).
Proof.
  intros H. repeat (destruct H as [[= <- <-] | H]; [reflexivity|]). destruct H.
Qed.

(** ** each, combinations *)
Lemma each_forall2 {A B} (f : A -> result B) l r : each f l = Ok r <-> Forall2 (fun x y => f x = Ok y) l r.
Proof.
  revert r. induction l as [|x l IH]; intros r; cbn [each].
  - split; [intros [= <-]; constructor|]. intros H. inversion H. reflexivity.
  - split.
    + destruct (f x) as [y|] eqn:E; [|discriminate]. cbn [bind]. destruct (each f l) as [ys|]; [|discriminate]. intros [= <-].
      constructor; [exact E|]. apply IH. reflexivity.
    + intros H. inversion H as [|? y ? ys Ey Eys]; subst. rewrite Ey. cbn [bind]. apply IH in Eys. rewrite Eys. reflexivity.
Qed.
Lemma each_total {A B} (f : A -> result B) l : (forall x, In x l -> exists y, f x = Ok y) -> exists r, each f l = Ok r.
Proof.
  induction l as [|x l IH]; intros H; cbn [each]; [eauto|]. destruct (H x (or_introl eq_refl)) as [y ->]. cbn [bind].
  destruct IH as [ys ->]; [intros; apply H; right; assumption|]. cbn [bind]. eauto.
Qed.
Lemma forall2_in_l {A B} (R : A -> B -> Prop) l r : Forall2 R l r -> forall x, In x l -> exists y, In y r /\ R x y.
Proof. induction 1 as [|x y l r H H2 IH]; intros z Hz; [destruct Hz|destruct Hz as [<- | Hz]]; [exists y; split; [left; reflexivity|exact H]|]. destruct (IH z Hz) as (w & W1 & W2). exists w. split; [right; exact W1|exact W2]. Qed.
Lemma forall2_in_r {A B} (R : A -> B -> Prop) l r : Forall2 R l r -> forall y, In y r -> exists x, In x l /\ R x y.
Proof. induction 1 as [|x y l r H H2 IH]; intros z Hz; [destruct Hz|destruct Hz as [<- | Hz]]; [exists x; split; [left; reflexivity|exact H]|]. destruct (IH z Hz) as (w & W1 & W2). exists w. split; [right; exact W1|exact W2]. Qed.
Lemma forall2_nodup {A B C} (R : A -> B -> Prop) (g : B -> C) l r : Forall2 R l r -> NoDup l ->
  (forall x x' y y', In x l -> In x' l -> R x y -> R x' y' -> g y = g y' -> x = x') -> NoDup (map g r).
Proof.
  induction 1 as [|x y l r H H2 IH]; intros ND I; cbn [map]; [constructor|]. inversion ND as [|? ? N1 N2]; subst. constructor.
  - intros Hin. apply in_map_iff in Hin. destruct Hin as (y' & E & Hy'). destruct (forall2_in_r _ _ _ H2 y' Hy') as (x' & Hx' & Rx').
    apply N1. rewrite (I x x' y y'); [exact Hx'|left; reflexivity|right; exact Hx'|exact H|exact Rx'|symmetry; exact E].
  - apply IH; [exact N2|]. intros; eapply I; eauto; right; assumption.
Qed.

Lemma combos_in {A} k (l : list A) xs : In xs (combos k l) <-> length xs = k /\ subseq xs l.
Proof.
  revert k xs. induction l as [|x l IH]; intros k xs.
  - destruct k; cbn [combos In].
    + split; [intros [<- | []]; split; [reflexivity|constructor]|]. intros [L _]. destruct xs; [left; reflexivity|discriminate].
    + split; [intros []|]. intros [L S]. inversion S; subst; discriminate.
  - destruct k; cbn [combos].
    + cbn [In]. split; [intros [<- | []]; split; [reflexivity|constructor]|]. intros [L _]. destruct xs; [left; reflexivity|discriminate].
    + rewrite in_app_iff, in_map_iff, IH. split.
      * intros [(ys & <- & H)|[L S]]; [apply IH in H; destruct H as [L S]; split; [cbn [length]; congruence|constructor; exact S]|].
        split; [exact L|constructor; exact S].
      * intros [L S]. inversion S; subst; [discriminate|left|right].
        -- eexists. split; [reflexivity|]. apply IH. split; [cbn [length] in L; congruence|assumption].
        -- split; assumption.
Qed.
Lemma subseq_in {A} (xs l : list A) : subseq xs l -> forall x, In x xs -> In x l.
Proof. induction 1 as [|x xs l H IH|x xs l H IH]; intros y Hy; [destruct Hy| |right; auto]. destruct Hy as [<- | Hy]; [left; reflexivity|right; auto]. Qed.
Lemma subseq_nodup {A} (xs l : list A) : subseq xs l -> NoDup l -> NoDup xs.
Proof.
  induction 1 as [|x xs l H IH|x xs l H IH]; intros N; [constructor| |]; inversion N; subst; [|auto].
  constructor; [|auto]. intros Hx. apply (subseq_in _ _ H) in Hx. contradiction.
Qed.
Lemma combos_nodup {A} k (l : list A) : NoDup l -> NoDup (combos k l).
Proof.
  revert k. induction l as [|x l IH]; intros [|k] N; cbn [combos]; try (constructor; [intros []|constructor]); [constructor|].
  inversion N as [|? ? N1 N2]; subst. apply NoDup_app; [|apply IH; exact N2|].
  - apply FinFun.Injective_map_NoDup; [intros a b [= E]; exact E|apply IH; exact N2].
  - intros a Ha Hb. apply in_map_iff in Ha. destruct Ha as (b & <- & Hb'). apply combos_in in Hb. destruct Hb as [_ S].
    apply N1. apply (subseq_in _ _ S). left. reflexivity.
Qed.
Lemma pair_seq a n x y : subseq [x; y] (seq a n) <-> a <= x /\ x < y /\ y < a + n.
Proof.
  revert a. induction n as [|n IH]; intros a; cbn [seq].
  - split; [intros H; inversion H|lia].
  - split.
    + intros H. inversion H as [|? ? ? H1|? ? ? H1]; subst.
      * apply (subseq_in _ _ ) with (x := y) in H1; [|left; reflexivity]. apply in_seq in H1. lia.
      * apply IH in H1. lia.
    + intros (H1 & H2 & H3). destruct (Nat.eq_dec a x) as [<-|Ne].
      * apply sub_take. assert (G : forall m b, b <= y -> y < b + m -> subseq [y] (seq b m)).
        { induction m as [|m IHm]; intros b B1 B2; [lia|]. cbn [seq]. destruct (Nat.eq_dec b y) as [<-|]; [apply sub_take; constructor|apply sub_skip; apply IHm; lia]. }
        apply G; lia.
      * apply sub_skip. apply IH. lia.
Qed.

(** ** Columns *)
Lemma columns_forall2 rows idx vals : columns rows idx = Some vals <-> Forall2 (fun row new => take_idx row idx = Some new) rows vals.
Proof.
  revert vals. induction rows as [|r rows IH]; intros vals; cbn [columns].
  - split; [intros [= <-]; constructor|]. intros H. inversion H. reflexivity.
  - split.
    + destruct (take_idx r idx) as [x|] eqn:E; [|discriminate]. destruct (columns rows idx) as [xs|]; [|discriminate]. intros [= <-].
      constructor; [exact E|apply IH; reflexivity].
    + intros H. inversion H as [|? y ? ys Ey Eys]; subst. rewrite Ey. apply IH in Eys. rewrite Eys. reflexivity.
Qed.
Lemma columns_total rows idx d : (forall row, In row rows -> length row = d) -> (forall i, In i idx -> i < d) -> exists vals, columns rows idx = Some vals.
Proof.
  induction rows as [|r rows IH]; intros H I; cbn [columns]; [eauto|].
  destruct (take_idx_some r idx) as [x ->]; [intros i Hi; rewrite (H r (or_introl eq_refl)); auto|].
  destruct IH as [xs ->]; [intros; apply H; right; assumption|exact I|]. eauto.
Qed.
Lemma columns_length rows idx vals : columns rows idx = Some vals -> length vals = length rows.
Proof. intros H. apply columns_forall2 in H. symmetry. apply (Forall2_length _ _ _ H). Qed.

(** ** Projections *)
Lemma before_map n xs : (forall x, In x xs -> 1 <= x) -> map (before n) xs = map pred xs.
Proof. intros H. apply map_ext_in. intros x Hx. specialize (H x Hx). unfold before. destruct x; [lia|]. cbn [Nat.eqb Nat.pred]. lia. Qed.
Lemma restricted_take first xs row new : (forall x, In x xs -> first <= x) -> take_idx row (map (fun x => x - first) xs) = Some new -> restricted first xs row new.
Proof.
  intros F H. destruct (take_idx_nth _ _ _ H) as [L N]. rewrite map_length in L. split; [exact L|]. intros k x Hk.
  destruct (N k (x - first) (map_nth_error _ _ _ Hk)) as [A B]. split; [apply F; eapply nth_error_In; eauto|]. split; [exact A|].
  rewrite A. apply nth_error_Some. exact B.
Qed.
Lemma restricted_length_le first xs row new : restricted first xs row new -> length new = length xs.
Proof. intros [L _]. exact L. Qed.

(** One plot of a set with the columns xs. *)
Lemma scatter_columns first xs n vals0 vals nos color ref q labels cbar filename ext :
  length xs = n -> (forall x, In x xs -> first <= x) ->
  columns vals0 (map (fun x => x - first) xs) = Some vals ->
  (forall i, In i (chosen nos (length vals0)) -> i < length vals0 /\ colour_of color (length vals0) i <> None) ->
  (forall t, color <> Some (CText t)) ->
  match ref with Some r => exists q', q = Some q' /\ restricted first xs r q' | None => q = None end ->
  exists f, scatter n (OSet (plain n vals)) nos color q labels cbar filename ext = Ok f /\
    shows_coordinates first xs vals0 (colour_of color (length vals0)) ref (chosen nos (length vals0)) (f_points f) (f_colors f) (f_ref f) /\
    f_labels f = labels /\ f_file f = full_filename filename ext.
Proof.
  intros Ln F HC Hch HT HR. pose proof (columns_length _ _ _ HC) as LV.
  assert (Hq : forall r, (match q with Some r => Some r | None => v_ref (plain n vals) end) = Some r -> length r = n).
  { intros r E. destruct ref as [r0|]; [destruct HR as (q' & -> & R)|subst q; discriminate E]. injection E as <-. destruct R as [R _]. congruence. }
  destruct (proj2 (scatter_ok_lemma n (OSet (plain n vals)) nos color q labels cbar filename ext)) as [f Hf].
  { exists (plain n vals). split; [reflexivity|]. split; [reflexivity|]. cbn [v_values plain]. rewrite LV. split; [exact Hch|]. split; [exact HT|].
    intros r E. rewrite (Hq r E). lia. }
  exists f. split; [exact Hf|]. destruct (scatter_shows_lemma _ _ _ _ _ _ _ _ _ _ Hf) as (L1 & L2 & M & R & Lab & Fl).
  cbn [v_values plain] in *. rewrite LV in *. split; [|auto]. split; [exact L1|]. split; [exact L2|]. split.
  - intros k i Hk. destruct (M k i Hk) as (A & B & C & D).
    assert (Hi : i < length vals0) by (apply Hch; eapply nth_error_In; eauto).
    destruct (nth_error vals0 i) as [row|] eqn:Er; [|apply nth_error_None in Er; lia].
    destruct (nth_error vals i) as [new|] eqn:En; [|apply nth_error_None in En; lia].
    destruct (colour_of color (length vals0) i) as [c|] eqn:Ec; [|congruence].
    exists row, new, c. split; [reflexivity|]. split; [exact A|]. split; [|split; [reflexivity|exact B]].
    apply restricted_take; [exact F|]. apply columns_forall2 in HC.
    clear -HC Er En. revert i Er En. induction HC as [|x y l r H HC IH]; intros [|i]; cbn [nth_error]; try discriminate.
    + intros [= <-] [= <-]. exact H.
    + apply IH.
  - destruct ref as [r0|].
    + destruct HR as (q' & -> & R'). exists q'. split; [|exact R']. rewrite R. cbn [option_map]. f_equal. apply firstn_all2. destruct R' as [R' _]. lia.
    + subst q. cbn [plain v_ref option_map] in R. exact R.
Qed.

Lemma sub_pred xs : (forall x, In x xs -> 1 <= x) -> map pred xs = map (fun x => x - 1) xs.
Proof. intros H. apply map_ext_in. intros x Hx. lia. Qed.

Lemma projection_lemma s nos rD ref lab prefix ext xs : well_shaped (v_dim s) (v_values s) ref -> length rD = length (v_values s) ->
  (forall x, In x xs -> 1 <= x <= v_dim s) -> (forall i, In i (chosen nos (length (v_values s))) -> i < length (v_values s)) ->
  exists f, projection s nos rD ref lab prefix ext xs = Ok f /\
    shows_coordinates 1 xs (v_values s) (nth_error rD) ref (chosen nos (length (v_values s))) (f_points f) (f_colors f) (f_ref f) /\
    f_labels f = map (axis_label lab) xs /\
    f_file f = full_filename (append prefix (append "samples_x" (append (String.concat "x" (map dec xs)) "_cs")))
                 (if length xs =? 2 then ".png" else ext).
Proof.
  intros [W1 W2] LD Hx Hn. unfold projection.
  assert (H1 : forall x, In x xs -> 1 <= x) by (intros x Hi; apply Hx; exact Hi).
  rewrite (before_map _ _ H1), (sub_pred xs H1).
  destruct (columns_total (v_values s) (map (fun x => x - 1) xs) (v_dim s) W1) as [vals E].
  { intros i Hi. apply in_map_iff in Hi. destruct Hi as (x & <- & Hi). specialize (Hx x Hi). lia. }
  rewrite E. cbn [index bind].
  assert (HR : exists q, (match ref with Some r => bind (index (take_idx r (map (before (length r)) xs))) (fun q => Ok (Some q)) | None => Ok None end) = Ok q /\
     match ref with Some r => exists q', q = Some q' /\ restricted 1 xs r q' | None => q = None end).
  { destruct ref as [r|]; [|eauto]. rewrite (before_map _ _ H1), (sub_pred xs H1).
    destruct (take_idx_some r (map (fun x => x - 1) xs)) as [q' Eq].
    { intros i Hi. apply in_map_iff in Hi. destruct Hi as (x & <- & Hi). specialize (Hx x Hi). rewrite (W2 r eq_refl). lia. }
    rewrite Eq. cbn [index bind]. eexists. split; [reflexivity|]. eexists. split; [reflexivity|]. apply restricted_take; assumption. }
  destruct HR as (q & -> & HR). cbn [bind].
  apply (scatter_columns 1 xs (length xs) (v_values s) vals nos (Some (CArray rD)) ref q); auto.
  - intros i Hi. split; [auto|]. cbn [colour_of]. apply nth_error_Some. rewrite LD. auto.
  - discriminate.
Qed.

Lemma concat_dec_inj xs ys t : xs <> [] -> ys <> [] ->
  append (String.concat "x" (map dec xs)) (String "_" t) = append (String.concat "x" (map dec ys)) (String "_" t) -> xs = ys.
Proof.
  revert ys. induction xs as [|x xs IH]; intros ys X Y H; [congruence|]. destruct ys as [|y ys]; [congruence|].
  destruct xs as [|x2 xs], ys as [|y2 ys].
  - cbn [map String.concat] in H. apply dec_split in H; [|reflexivity..]. destruct H as [-> _]. reflexivity.
  - exfalso. cbn [map String.concat] in H. rewrite !app_assoc_s in H. cbn [append] in H.
    apply dec_split in H; [|reflexivity..]. destruct H as (_ & H & _). discriminate.
  - exfalso. cbn [map String.concat] in H. rewrite !app_assoc_s in H. cbn [append] in H.
    apply dec_split in H; [|reflexivity..]. destruct H as (_ & H & _). discriminate.
  - change (String.concat "x" (map dec (x :: x2 :: xs))) with (append (dec x) (append "x" (String.concat "x" (map dec (x2 :: xs))))) in H.
    change (String.concat "x" (map dec (y :: y2 :: ys))) with (append (dec y) (append "x" (String.concat "x" (map dec (y2 :: ys))))) in H.
    rewrite !app_assoc_s in H. cbn [append] in H. apply dec_split in H; [|reflexivity..]. destruct H as (-> & _ & H).
    f_equal. apply IH; [discriminate..|exact H].
Qed.
Lemma has_dot_concat xs : has_dot (String.concat "x" (map dec xs)) = false.
Proof.
  induction xs as [|x xs IH]; [reflexivity|]. destruct xs as [|y xs]; [apply has_dot_dec|].
  change (String.concat "x" (map dec (x :: y :: xs))) with (append (dec x) (append "x" (String.concat "x" (map dec (y :: xs))))).
  rewrite !has_dot_app, has_dot_dec, IH. reflexivity.
Qed.

(** ** scatter_rhoD *)
Definition rhoD_file (prefix : string) (xs : list nat) (ext : string) : string :=
  full_filename (append prefix (append "samples_x" (append (String.concat "x" (map dec xs)) "_cs"))) (if length xs =? 2 then ".png" else ext).
Lemma rhoD_file_inj prefix xs ys ext : xs <> [] -> length xs = length ys -> rhoD_file prefix xs ext = rhoD_file prefix ys ext -> xs = ys.
Proof.
  intros X L H. unfold rhoD_file in H. rewrite <- L in H. apply full_inj in H.
  - apply app_inj_l in H. apply app_inj_l in H. apply concat_dec_inj in H; [exact H|exact X|]. destruct ys; [destruct xs; [congruence|discriminate]|discriminate].
  - rewrite !has_dot_app, !has_dot_concat. reflexivity.
Qed.
Lemma rhoD_texts_eq lab flag : rhoD_label lab flag = rhoD_texts lab flag.
Proof. reflexivity. Qed.
Lemma full_no_dot name ext : has_dot name = false -> full_filename name ext = append name ext.
Proof. intro H. unfold full_filename. rewrite H. reflexivity. Qed.
Lemma append_assoc_s (a b c : string) : append (append a b) c = append a (append b c).
Proof. induction a as [|x a IH]; [reflexivity|]. cbn. rewrite IH. reflexivity. Qed.
Lemma rhoD_name_eq lab flag xs ext : rhoD_file (snd (rhoD_label lab flag)) xs ext = rhoD_name lab flag xs ext.
Proof.
  unfold rhoD_file, rhoD_name. rewrite full_no_dot.
  - rewrite rhoD_texts_eq, !append_assoc_s. reflexivity.
  - rewrite !has_dot_app, has_dot_concat. unfold rhoD_label. destruct lab; [reflexivity|]. destruct (String.eqb flag "input"); [reflexivity|]. destruct (String.eqb flag "output"); reflexivity.
Qed.
Lemma projections_lemma s nos rD ref lab prefix ext k nums : 0 < k -> well_shaped (v_dim s) (v_values s) ref -> length rD = length (v_values s) ->
  NoDup nums -> (forall x, In x nums -> 1 <= x <= v_dim s) -> (forall i, In i (chosen nos (length (v_values s))) -> i < length (v_values s)) ->
  exists figs, each (projection s nos rD ref lab prefix ext) (combos k nums) = Ok figs /\
    (forall xs, length xs = k -> subseq xs nums -> exists f, In f figs /\
      shows_coordinates 1 xs (v_values s) (nth_error rD) ref (chosen nos (length (v_values s))) (f_points f) (f_colors f) (f_ref f) /\ f_labels f = map (axis_label lab) xs /\ f_file f = rhoD_file prefix xs ext) /\
    (forall f, In f figs -> exists xs, length xs = k /\ subseq xs nums /\
      shows_coordinates 1 xs (v_values s) (nth_error rD) ref (chosen nos (length (v_values s))) (f_points f) (f_colors f) (f_ref f) /\ f_labels f = map (axis_label lab) xs /\ f_file f = rhoD_file prefix xs ext) /\
    NoDup (map f_file figs).
Proof.
  intros K W LD ND Hx Hn.
  assert (P : forall xs, length xs = k -> subseq xs nums -> exists f, projection s nos rD ref lab prefix ext xs = Ok f /\
     shows_coordinates 1 xs (v_values s) (nth_error rD) ref (chosen nos (length (v_values s))) (f_points f) (f_colors f) (f_ref f) /\
     f_labels f = map (axis_label lab) xs /\ f_file f = rhoD_file prefix xs ext).
  { intros xs _ Sx. apply (projection_lemma s nos rD ref lab prefix ext xs W LD); [|exact Hn]. intros x Hi. apply Hx. apply (subseq_in _ _ Sx). exact Hi. }
  destruct (each_total (projection s nos rD ref lab prefix ext) (combos k nums)) as [figs E].
  { intros xs Hxs. apply combos_in in Hxs. destruct (P xs (proj1 Hxs) (proj2 Hxs)) as (f & Ef & _). eauto. }
  exists figs. split; [exact E|]. apply each_forall2 in E. split; [|split].
  - intros xs L Sx. destruct (forall2_in_l _ _ _ E xs) as (f & Hf & Ef); [apply combos_in; auto|].
    destruct (P xs L Sx) as (f' & Ef' & A & B & B'). rewrite Ef in Ef'. injection Ef' as <-. exists f. auto.
  - intros f Hf. destruct (forall2_in_r _ _ _ E f Hf) as (xs & Hxs & Ef). apply combos_in in Hxs. destruct Hxs as [L Sx].
    destruct (P xs L Sx) as (f' & Ef' & A & B & B'). rewrite Ef in Ef'. injection Ef' as <-. exists xs. auto 6.
  - apply (forall2_nodup _ f_file _ _ E); [apply combos_nodup; exact ND|].
    intros xs ys f g Hxs Hys Ef Eg EQ. apply combos_in in Hxs, Hys. destruct Hxs as [L1 S1], Hys as [L2 S2].
    destruct (P xs L1 S1) as (f' & Ef' & _ & _ & F1). rewrite Ef in Ef'. injection Ef' as <-.
    destruct (P ys L2 S2) as (g' & Eg' & _ & _ & F2). rewrite Eg in Eg'. injection Eg' as <-.
    rewrite F1, F2 in EQ. apply rhoD_file_inj in EQ; [exact EQ| |congruence]. intros ->. cbn [length] in L1. lia.
Qed.

Lemma rhoD_projections_lemma rho inp out flag ref nos nums lab ext k s :
  s = (if String.eqb flag "input" then inp else out) ->
  (k = 2 /\ 2 < v_dim s \/ k = 3 /\ 3 < v_dim s) ->
  well_shaped (v_dim s) (v_values s) (or_own ref (v_ref s)) -> length (rho (v_values out)) = length (v_values s) ->
  NoDup nums -> 2 <= length nums -> (forall x, In x nums -> 1 <= x <= v_dim s) ->
  (forall i, In i (chosen nos (length (v_values s))) -> i < length (v_values s)) ->
  exists figs, scatter_rhoD (Some rho) (ODisc (Some inp) (Some out)) ref nos flag (Some nums) lab (Some k) ext = Ok figs /\
    (forall xs, length xs = k -> subseq xs nums -> exists f, In f figs /\
      shows_coordinates 1 xs (v_values s) (nth_error (rho (v_values out))) (or_own ref (v_ref s)) (chosen nos (length (v_values s)))
        (f_points f) (f_colors f) (f_ref f) /\ f_labels f = rhoD_axes lab flag xs /\ f_file f = rhoD_name lab flag xs ext) /\
    (forall f, In f figs -> exists xs, length xs = k /\ subseq xs nums /\
      shows_coordinates 1 xs (v_values s) (nth_error (rho (v_values out))) (or_own ref (v_ref s)) (chosen nos (length (v_values s)))
        (f_points f) (f_colors f) (f_ref f) /\ f_labels f = rhoD_axes lab flag xs /\ f_file f = rhoD_name lab flag xs ext) /\
    NoDup (map f_file figs).
Proof.
  intros Es HK W LD ND L2 Hx Hn. unfold scatter_rhoD, rhoD_set. cbn [bind].
  assert (R : (if String.eqb flag "input" then Some inp else Some out) = Some s) by (subst s; destruct (String.eqb flag "input"); reflexivity).
  rewrite R. cbn [bind fst snd]. change (match ref with Some r => Some r | None => v_ref s end) with (or_own ref (v_ref s)).
  pose proof (fun xs => rhoD_name_eq lab flag xs ext) as NE. unfold rhoD_axes. change (rhoD_texts lab flag) with (rhoD_label lab flag) in *. destruct (rhoD_label lab flag) as [lb prefix]. cbn [fst snd] in *. destruct nums as [|x0 [|x1 nums]]; [cbn [length] in L2; lia..|].
  cbn [nth_error index bind]. set (nn := x0 :: x1 :: nums) in *.
  destruct (projections_lemma s nos (rho (v_values out)) (or_own ref (v_ref s)) lb prefix ext k nn) as (figs & E & A & B & C); auto; [lia|].
  exists figs. split; [|split; [|split; [|exact C]]].
  - destruct (Nat.eqb_spec (v_dim s) 2); [lia|]. destruct HK as [[-> Hd]|[-> Hd]].
    + cbn [Nat.eqb]. apply Nat.ltb_lt in Hd. rewrite Hd. exact E.
    + cbn [Nat.eqb]. rewrite andb_false_r. destruct (Nat.eqb_spec (v_dim s) 3); [lia|]. apply Nat.ltb_lt in Hd. rewrite Hd. exact E.
  - intros xs L S. destruct (A xs L S) as (f & F1 & F2 & F3 & F4). exists f. split; [exact F1|]. split; [exact F2|]. split; [exact F3|]. rewrite F4. apply NE.
  - intros f Hf. destruct (B f Hf) as (xs & F1 & F2 & F3 & F4 & F5). exists xs. do 4 (split; [assumption|]). rewrite F5. apply NE.
Qed.
Lemma rhoD_all_lemma rho o ref nos flag lab sh ext s r : rhoD_set rho o flag = Ok (s, r) ->
  scatter_rhoD rho o ref nos flag None lab sh ext = scatter_rhoD rho o ref nos flag (Some (seq 1 (v_dim s))) lab sh ext.
Proof. intros E. unfold scatter_rhoD. rewrite E. reflexivity. Qed.
Lemma rhoD_all_disc rho inp out ref nos flag lab sh ext s : s = (if String.eqb flag "input" then inp else out) ->
  scatter_rhoD rho (ODisc (Some inp) (Some out)) ref nos flag None lab sh ext =
  scatter_rhoD rho (ODisc (Some inp) (Some out)) ref nos flag (Some (seq 1 (v_dim s))) lab sh ext.
Proof.
  intros ->. unfold scatter_rhoD, rhoD_set. destruct rho; cbn [bind]; destruct (String.eqb flag "input"); reflexivity.
Qed.
Lemma rhoD_whole_lemma rho inp out flag ref nos lab sh ext s d :
  s = (if String.eqb flag "input" then inp else out) -> v_dim s = d -> d = 2 \/ d = 3 /\ sh <> Some 2 ->
  well_shaped d (v_values s) (or_own ref (v_ref s)) -> length (rho (v_values out)) = length (v_values s) ->
  (forall i, In i (chosen nos (length (v_values s))) -> i < length (v_values s)) ->
  exists f, scatter_rhoD (Some rho) (ODisc (Some inp) (Some out)) ref nos flag None lab sh ext = Ok [f] /\
    (forall k i, nth_error (chosen nos (length (v_values s))) k = Some i ->
       marker_shows (v_values s) (nth_error (rho (v_values out))) (f_points f) (f_colors f) k i) /\
    f_ref f = or_own ref (v_ref s) /\ f_labels f = rhoD_axes lab flag (seq 1 d) /\ f_file f = (snd (rhoD_texts lab flag) ++ "samples_cs.png")%string.
Proof.
  intros Es Hd D [W1 W2] LD Hn. rewrite (rhoD_all_disc _ _ _ _ _ _ _ _ _ s Es), Hd. unfold scatter_rhoD, rhoD_set. cbn [bind].
  assert (R : (if String.eqb flag "input" then Some inp else Some out) = Some s) by (subst s; destruct (String.eqb flag "input"); reflexivity).
  rewrite R. cbn [bind fst snd]. change (match ref with Some r => Some r | None => v_ref s end) with (or_own ref (v_ref s)).
  assert (FN : full_filename (append (snd (rhoD_label lab flag)) "samples_cs") ".png" = (snd (rhoD_texts lab flag) ++ "samples_cs.png")%string).
  { rewrite full_no_dot; [rewrite append_assoc_s; reflexivity|]. rewrite has_dot_app. unfold rhoD_label. destruct lab; [reflexivity|]. destruct (String.eqb flag "input"); [reflexivity|]. destruct (String.eqb flag "output"); reflexivity. }
  unfold rhoD_axes. change (rhoD_texts lab flag) with (rhoD_label lab flag) in *. destruct (rhoD_label lab flag) as [lb prefix]. cbn [fst snd] in *.
  destruct (proj2 (scatter_ok_lemma d (OSet s) nos (Some (CArray (rho (v_values out)))) (or_own ref (v_ref s)) (map (axis_label lb) (seq 1 d)) None (append prefix "samples_cs") ".png")) as [f Hf].
  { exists s. split; [reflexivity|]. split; [exact Hd|]. split; [|split; [discriminate|]].
    - intros i Hi. split; [auto|]. cbn [colour_of]. apply nth_error_Some. rewrite LD. auto.
    - intros r E. assert (or_own ref (v_ref s) = Some r) as E' by (unfold or_own in *; destruct ref; [exact E|]; destruct (v_ref s); exact E).
      rewrite (W2 r E'). lia. }
  exists f. split.
  - destruct D as [Ed|[Ed D]]; rewrite Ed in Hd, Hf |- *; rewrite Hd.
    + cbn [seq nth_error index bind Nat.eqb]. cbn [seq] in Hf. rewrite Hf. reflexivity.
    + cbn [seq nth_error index bind Nat.eqb]. replace (match sh with Some k => k =? 2 | None => false end) with false by (destruct sh as [k|]; [|reflexivity]; destruct (Nat.eqb_spec k 2); [congruence|reflexivity]).
      rewrite andb_false_r. cbn [nth_error index bind]. cbn [seq] in Hf. rewrite Hf. reflexivity.
  - destruct (scatter_shows_lemma _ _ _ _ _ _ _ _ _ _ Hf) as (_ & _ & M & R2 & Lb & Fl).
    split; [exact M|]. split; [|split; [exact Lb | rewrite Fl; exact FN]]. rewrite R2.
    assert (match or_own ref (v_ref s) with Some r => Some r | None => v_ref s end = or_own ref (v_ref s)) as ->
      by (unfold or_own; destruct ref; [reflexivity|destruct (v_ref s); reflexivity]).
    destruct (or_own ref (v_ref s)) as [r|] eqn:Er; [|reflexivity]. cbn [option_map]. f_equal. apply firstn_all2. rewrite (W2 r eq_refl). lia.
Qed.

(** Coordinate zero *)
Lemma combos_map {A B} (g : A -> B) k l : combos k (map g l) = map (map g) (combos k l).
Proof.
  revert l. induction k as [|k IH]; [intros [|x l]; reflexivity|]. induction l as [|x l IHl]; [reflexivity|]. cbn [map combos]. rewrite map_app, !map_map, IHl. f_equal.
  rewrite IH, map_map. reflexivity.
Qed.
Lemma each_map {A B C} (f : B -> result C) (g : A -> B) l : each f (map g l) = each (fun x => f (g x)) l.
Proof. induction l as [|x l IH]; [reflexivity|]. cbn. rewrite IH. reflexivity. Qed.
Lemma pictures_each {A} (f g : A -> result figure) l :
  (forall x, match f x, g x with Ok a, Ok b => f_points a = f_points b /\ f_colors a = f_colors b /\ f_ref a = f_ref b | Raise e, Raise e' => e = e' | _, _ => False end) ->
  same_pictures (each f l) (each g l).
Proof.
  intro H. induction l as [|x l IH]; [cbn; auto|]. cbn [each]. specialize (H x). destruct (f x) as [a|e], (g x) as [b|e']; try contradiction; [|cbn; exact H]. cbn [bind].
  destruct (each f l) as [r|], (each g l) as [r'|]; try contradiction; [|exact IH]. cbn in IH |- *. destruct H as (-> & -> & ->), IH as (-> & -> & ->). auto.
Qed.
Lemma pictures_scatter n s nos c ref labels labels' cbar name name' ext :
  match scatter n s nos c ref labels cbar name ext, scatter n s nos c ref labels' cbar name' ext with
  | Ok a, Ok b => f_points a = f_points b /\ f_colors a = f_colors b /\ f_ref a = f_ref b | Raise e, Raise e' => e = e' | _, _ => False end.
Proof.
  unfold scatter. destruct s as [s| |]; try reflexivity. destruct (negb _); [reflexivity|]. cbv zeta. destruct (pick_colors _ _ _); [|reflexivity]. cbn [bind].
  destruct (take_idx _ _); [|reflexivity]. cbn [bind]. destruct (match ref with Some r => Some r | None => v_ref s end) as [r|]; [|cbn; auto]. destruct (length r <? n); cbn; auto.
Qed.
Lemma projection_zero s nos rD ref lab prefix ext xs : (forall r, ref = Some r -> length r = v_dim s) ->
  match projection s nos rD ref lab prefix ext xs, projection s nos rD ref lab prefix ext (map (last_for_zero (v_dim s)) xs) with
  | Ok a, Ok b => f_points a = f_points b /\ f_colors a = f_colors b /\ f_ref a = f_ref b | Raise e, Raise e' => e = e' | _, _ => False end.
Proof.
  intro W. assert (E : map (before (v_dim s)) (map (last_for_zero (v_dim s)) xs) = map (before (v_dim s)) xs).
  { rewrite map_map. apply map_ext. intros [|x]; [|reflexivity]. unfold before, last_for_zero. cbn [Nat.eqb]. destruct (v_dim s); reflexivity. }
  unfold projection. rewrite E. destruct (index (columns (v_values s) _)) as [vals|]; [|reflexivity]. cbn [bind]. rewrite map_length.
  destruct ref as [r|].
  - rewrite (W r eq_refl), E. destruct (index (take_idx r _)); [|reflexivity]. cbn [bind]. apply pictures_scatter.
  - cbn [bind]. apply pictures_scatter.
Qed.
Lemma rhoD_zero_lemma rho o ref nos flag nums lab k ext s r : rhoD_set rho o flag = Ok (s, r) ->
  (forall q, or_own ref (v_ref s) = Some q -> length q = v_dim s) -> k = 2 /\ 2 < v_dim s \/ k = 3 /\ 3 < v_dim s ->
  same_pictures (scatter_rhoD rho o ref nos flag (Some nums) lab (Some k) ext)
    (scatter_rhoD rho o ref nos flag (Some (map (last_for_zero (v_dim s)) nums)) lab (Some k) ext).
Proof.
  intros E W K. unfold scatter_rhoD. rewrite E. cbn [bind fst snd]. change (match ref with Some r => Some r | None => v_ref s end) with (or_own ref (v_ref s)).
  destruct (rhoD_label lab flag) as [lb prefix]. destruct nums as [|x0 [|x1 nums]]; [reflexivity..|]. cbn [map nth_error index bind].
  change (last_for_zero (v_dim s) x0 :: last_for_zero (v_dim s) x1 :: map (last_for_zero (v_dim s)) nums) with (map (last_for_zero (v_dim s)) (x0 :: x1 :: nums)). rewrite !combos_map, !each_map.
  destruct (Nat.eqb_spec (v_dim s) 2); [lia|]. destruct K as [[-> Hd]|[-> Hd]].
  - cbn [Nat.eqb]. apply Nat.ltb_lt in Hd. rewrite Hd. cbn [andb]. apply pictures_each. intro xs. apply projection_zero, W.
  - cbn [Nat.eqb]. rewrite andb_false_r. destruct (Nat.eqb_spec (v_dim s) 3); [lia|]. apply Nat.ltb_lt in Hd. rewrite Hd. cbn [andb]. apply pictures_each. intro xs. apply projection_zero, W.
Qed.
Lemma caption_lemma n s nos color ref labels cbar filename ext f : scatter n (OSet s) nos color ref labels cbar filename ext = Ok f ->
  f_cbar f = if (n =? 2) && (match color with None => true | Some _ => false end) then "index"%string else match cbar with Some c => c | None => density_text end.
Proof.
  unfold scatter. destruct (negb _); [discriminate|]. cbv zeta. destruct (pick_colors _ _ _); [|discriminate]. cbn [bind]. destruct (take_idx _ _); [|discriminate]. cbn [bind].
  destruct (match match ref with Some r => Some r | None => v_ref s end with Some _ => _ | None => _ end) as [r|]; [|discriminate]. cbn [bind]. intros [= <-]. cbn [f_cbar]. unfold cbar_text. destruct color, cbar, (n =? 2); reflexivity.
Qed.
Lemma rejects_lemma n o nos color ref labels cbar filename ext :
  ((forall s, o <> OSet s) -> scatter n o nos color ref labels cbar filename ext = Raise BadObject) /\
  (forall s, o = OSet s -> v_dim s <> n -> scatter n o nos color ref labels cbar filename ext = Raise DimNotMatching).
Proof.
  split.
  - intro H. destruct o as [s| |]; [destruct (H s eq_refl) | reflexivity | reflexivity].
  - intros s -> H. unfold scatter. destruct (Nat.eqb_spec (v_dim s) n); [contradiction | reflexivity].
Qed.
Lemma path_join_lemma a b : starts_slash b = false ->
  path_join "" b = b /\ path_join (append a "/") b = append a (append "/" b) /\ (a <> ""%string -> (forall p, a <> append p "/") -> path_join a b = append a (append "/" b)).
Proof.
  intro H. unfold path_join. rewrite H. split; [reflexivity|]. split.
  - assert (ends_slash (append a "/") = true) as ->. { induction a as [|c a IH]; [reflexivity|]. cbn. destruct (append a "/") eqn:E; [destruct a; discriminate E | exact IH]. }
    rewrite orb_true_r. rewrite append_assoc_s. reflexivity.
  - intros N P. destruct (String.eqb_spec a ""); [contradiction|]. assert (ends_slash a = false) as ->; [|reflexivity].
    clear - N P. induction a as [|c a IH]; [contradiction|]. destruct a as [|c' a].
    + cbn. destruct (Ascii.eqb_spec c "/"); [subst; destruct (P ""%string eq_refl) | reflexivity].
    + cbn [ends_slash]. cbn [ends_slash] in IH. apply IH; [discriminate|]. intros p Hp. apply (P (String c p)). rewrite Hp. reflexivity.
Qed.
(** What fails *)
Lemma rhoD_label_lemma rho o ref nos flag nums c c' sh ext :
  scatter_rhoD rho o ref nos flag nums (Some c) sh ext = scatter_rhoD rho o ref nos flag nums (Some c') sh ext.
Proof. reflexivity. Qed.
Lemma rhoD_ext_lemma rho o ref nos flag nums lab sh ext ext' s r : rhoD_set rho o flag = Ok (s, r) -> v_dim s <= 3 \/ sh = Some 2 ->
  scatter_rhoD rho o ref nos flag nums lab sh ext = scatter_rhoD rho o ref nos flag nums lab sh ext'.
Proof.
  intros E H. unfold scatter_rhoD. rewrite E. cbn [bind fst snd]. destruct (rhoD_label lab flag) as [lb prefix].
  generalize (match nums with Some l => l | None => seq 1 (v_dim s) end). intros ns.
  destruct (index (nth_error ns 0)) as [x0|]; [|reflexivity]. cbn [bind]. destruct (index (nth_error ns 1)) as [x1|]; [|reflexivity]. cbn [bind].
  destruct (v_dim s =? 2); [reflexivity|].
  assert (P : each (projection s nos (match r with Some c => c | None => repeat 1%Qc (length (v_values s)) end)
      (match ref with Some r0 => Some r0 | None => v_ref s end) lb prefix ext) (combos 2 ns) =
      each (projection s nos (match r with Some c => c | None => repeat 1%Qc (length (v_values s)) end)
      (match ref with Some r0 => Some r0 | None => v_ref s end) lb prefix ext') (combos 2 ns)).
  { assert (G : forall l, (forall xs, In xs l -> length xs = 2) -> each (projection s nos (match r with Some c => c | None => repeat 1%Qc (length (v_values s)) end)
      (match ref with Some r0 => Some r0 | None => v_ref s end) lb prefix ext) l = each (projection s nos (match r with Some c => c | None => repeat 1%Qc (length (v_values s)) end)
      (match ref with Some r0 => Some r0 | None => v_ref s end) lb prefix ext') l).
    { induction l as [|xs l IH]; intros Hl; cbn [each]; [reflexivity|]. rewrite IH by (intros; apply Hl; right; assumption).
      assert (projection s nos (match r with Some c => c | None => repeat 1%Qc (length (v_values s)) end) (match ref with Some r0 => Some r0 | None => v_ref s end) lb prefix ext xs =
              projection s nos (match r with Some c => c | None => repeat 1%Qc (length (v_values s)) end) (match ref with Some r0 => Some r0 | None => v_ref s end) lb prefix ext' xs) as ->; [|reflexivity].
      unfold projection. rewrite (Hl xs (or_introl eq_refl)). reflexivity. }
    apply G. intros xs Hxs. apply combos_in in Hxs. tauto. }
  destruct ((2 <? v_dim s) && match sh with Some k => k =? 2 | None => false end)%bool eqn:B; [exact P|].
  destruct (v_dim s =? 3); [reflexivity|]. destruct H as [H|H].
  - destruct (Nat.ltb_spec 3 (v_dim s)); [lia|]. reflexivity.
  - subst sh. cbn [Nat.eqb]. rewrite andb_false_r. reflexivity.
Qed.
Lemma rhoD_none_lemma rho o ref nos flag lab ext s r : rhoD_set rho o flag = Ok (s, r) -> 3 < v_dim s ->
  scatter_rhoD rho o ref nos flag None lab None ext = Ok [].
Proof.
  intros E H. unfold scatter_rhoD. rewrite E. cbn [bind fst snd]. destruct (rhoD_label lab flag) as [lb prefix].
  destruct (v_dim s) as [|[|[|[|d]]]] eqn:D; try lia. reflexivity.
Qed.
Lemma rhoD_line_lemma rho o ref nos flag lab sh ext s r : rhoD_set rho o flag = Ok (s, r) -> v_dim s = 1 ->
  scatter_rhoD rho o ref nos flag None lab sh ext = Raise PyIndexError.
Proof. intros E H. unfold scatter_rhoD. rewrite E. cbn [bind fst snd]. destruct (rhoD_label lab flag) as [lb prefix]. rewrite H. reflexivity. Qed.
Lemma rhoD_output_lemma s ref nos nums lab sh ext : scatter_rhoD None (OSet s) ref nos "output" nums lab sh ext = Raise PyTypeError.
Proof. reflexivity. Qed.
Lemma rhoD_input_lemma rho s ref nos nums lab sh ext :
  scatter_rhoD rho (OSet s) ref nos "input" nums lab sh ext = scatter_rhoD None (OSet s) ref nos "input" nums lab sh ext.
Proof. reflexivity. Qed.

(** ** Pairs of coordinates *)
Lemma restricted_take0 x y (row new : list Qc) : take_idx row [x; y] = Some new -> restricted 0 [x; y] row new.
Proof.
  intros H. apply (restricted_take 0 [x; y]); [intros; lia|]. cbn [map]. rewrite !Nat.sub_0_r. exact H.
Qed.
Lemma take_pair (r : list Qc) x y : x < length r -> y < length r -> exists q, take_idx r [x; y] = Some q.
Proof. intros A B. apply take_idx_some. intros i [<- | [<- | []]]; assumption. Qed.
Lemma columns_pair rows x y d : (forall row, In row rows -> length row = d) -> x < d -> y < d -> exists v, columns rows [x; y] = Some v.
Proof. intros H A B. apply (columns_total rows [x; y] d H). intros i [<- | [<- | []]]; assumption. Qed.

Definition pair_in (sh : show) (skip : bool) (nums : list nat) (x y : nat) : Prop := In (x, y) (show_pairs sh nums skip).
Lemma show_all_in t nums skip x y : t = "all"%string \/ t = "ALL"%string -> (In (x, y) (show_pairs (SText t) nums skip) <-> subseq [x; y] nums).
Proof.
  intros Ht. assert (E : (String.eqb t "all" || String.eqb t "ALL")%bool = true) by (destruct Ht; subst; reflexivity).
  cbn [show_pairs]. rewrite E. split.
  - intros H. apply in_map_iff in H. destruct H as (l & E1 & H). apply combos_in in H. destruct H as [L H].
    destruct l as [|a [|b [|]]]; try discriminate. injection E1 as <- <-. exact H.
  - intros H. apply in_map_iff. exists [x; y]. split; [reflexivity|]. apply combos_in. auto.
Qed.
Lemma show_all_nodup t nums skip : NoDup nums -> NoDup (show_pairs (SText t) nums skip).
Proof.
  intros H. cbn [show_pairs]. destruct (String.eqb t "all" || String.eqb t "ALL")%bool; [|constructor].
  assert (G : forall l, NoDup l -> (forall a, In a l -> length a = 2) -> NoDup (map (fun l => (nth 0 l 0, nth 1 l 0)) l)).
  { induction l as [|a l IH]; intros N L; cbn [map]; [constructor|]. inversion N as [|? ? N1 N2]; subst. constructor.
    - intros Hin. apply in_map_iff in Hin. destruct Hin as (b & E & Hb). pose proof (L a (or_introl eq_refl)) as La. pose proof (L b (or_intror Hb)) as Lb.
      destruct a as [|a1 [|a2 [|]]]; try discriminate. destruct b as [|b1 [|b2 [|]]]; try discriminate. injection E as -> ->. contradiction.
    - apply IH; [exact N2|]. intros; apply L; right; assumption. }
  apply G; [apply combos_nodup; exact H|]. intros a Ha. apply combos_in in Ha. tauto.
Qed.
Lemma show_int_in k nums skip x y : In (x, y) (show_pairs (SInt k) nums skip) <-> x = k /\ In y nums /\ (skip = true -> y <> k).
Proof.
  cbn [show_pairs]. rewrite in_map_iff. split.
  - intros (i & [= <- <-] & H). apply filter_In in H. destruct H as [H1 H2]. split; [reflexivity|]. split; [exact H1|].
    intros ->. cbn [andb] in H2. apply negb_true_iff, Nat.eqb_neq in H2. exact H2.
  - intros (-> & H1 & H2). exists y. split; [reflexivity|]. apply filter_In. split; [exact H1|].
    destruct skip; [|reflexivity]. cbn [andb]. apply negb_true_iff, Nat.eqb_neq. auto.
Qed.
Lemma show_none nums skip : show_pairs SNone nums skip = show_pairs (SInt 0) nums skip.
Proof. reflexivity. Qed.
Lemma show_nodup sh nums skip : NoDup nums -> NoDup (show_pairs sh nums skip).
Proof.
  intros H. destruct sh as [k|t|]; [|apply show_all_nodup; exact H|]; cbn [show_pairs].
  - apply FinFun.Injective_map_NoDup; [intros a b [= E]; exact E|]. apply NoDup_filter. exact H.
  - apply FinFun.Injective_map_NoDup; [intros a b [= E]; exact E|]. apply NoDup_filter. exact H.
Qed.

(** ** scatter_2D_multi *)
Lemma multi_one_lemma s color ref folder filename lab ext cbar x y :
  well_shaped (v_dim s) (v_values s) ref -> (forall l, color = Some (CArray l) -> length l = length (v_values s)) -> (forall t, color <> Some (CText t)) ->
  x < v_dim s -> y < v_dim s ->
  exists f, multi_one s color ref folder filename lab ext cbar (x, y) = Ok f /\
    shows_coordinates 0 [x; y] (v_values s) (colour_of color (length (v_values s))) ref (seq 0 (length (v_values s))) (f_points f) (f_colors f) (f_ref f) /\
    f_labels f = [multi_label lab x; multi_label lab y] /\ f_file f = full_filename (multi_file folder filename x y) ext.
Proof.
  intros [W1 W2] HC HT Hx Hy. unfold multi_one.
  destruct (columns_pair (v_values s) x y (v_dim s) W1 Hx Hy) as [vals E]. rewrite E. cbn [index bind].
  assert (HR : exists q, (match ref with Some r => bind (index (take_idx r [x; y])) (fun q => Ok (Some q)) | None => Ok None end) = Ok q /\
     match ref with Some r => exists q', q = Some q' /\ restricted 0 [x; y] r q' | None => q = None end).
  { destruct ref as [r|]; [|eauto]. destruct (take_pair r x y) as [q' Eq]; [rewrite (W2 r eq_refl); assumption..|].
    rewrite Eq. cbn [index bind]. eexists. split; [reflexivity|]. eexists. split; [reflexivity|]. apply restricted_take0. exact Eq. }
  destruct HR as (q & -> & HR). cbn [bind].
  apply (scatter_columns 0 [x; y] 2 (v_values s) vals None color ref q); auto.
  - intros; lia.
  - cbn [map]. rewrite !Nat.sub_0_r. exact E.
  - intros i Hi. cbn [chosen] in Hi. apply in_seq in Hi. split; [lia|]. destruct color as [[l|t]|]; cbn [colour_of].
    + apply nth_error_Some. rewrite (HC l eq_refl). lia.
    + destruct (HT t eq_refl).
    + destruct (Nat.ltb_spec i (length (v_values s))); [discriminate|lia].
Qed.
Lemma multi_file_app folder filename : exists p, forall a b, multi_file folder filename a b = append p (append "_d" (append (dec (a + 1)) (append "_d" (dec (b + 1))))).
Proof.
  unfold multi_file. destruct (path_join_app folder filename (append "_d" (append (dec 1) (append "_d" (dec 1))))) as (p & _ & P); [reflexivity|].
  exists p. intros a b. apply P. reflexivity.
Qed.
Lemma dec_pair_inj x y x' y' sep t : digit sep = false -> has_dot t = false ->
  append (dec x) (String sep (append t (dec y))) = append (dec x') (String sep (append t (dec y'))) -> x = x' /\ y = y'.
Proof.
  intros S T H. apply dec_split in H; [|exact S..]. destruct H as (-> & _ & H). apply app_inj_l in H. apply dec_inj in H. auto.
Qed.
Lemma multi_file_inj folder filename ext x y x' y' :
  full_filename (multi_file folder filename x y) ext = full_filename (multi_file folder filename x' y') ext -> (x, y) = (x', y').
Proof.
  destruct (multi_file_app folder filename) as [p P]. rewrite !P. intros H. apply full_inj in H.
  - apply app_inj_l in H. apply app_inj_l in H. cbn [append] in H. apply (dec_pair_inj _ _ _ _ "_" "d") in H; [|reflexivity..]. f_equal; lia.
  - rewrite !has_dot_app, !has_dot_dec. reflexivity.
Qed.
Lemma multi_axes_eq lab x y : [multi_label lab x; multi_label lab y] = multi_axes lab x y.
Proof. unfold multi_label, multi_axes. rewrite !Nat.add_1_r. reflexivity. Qed.
Lemma multi_file_eq folder filename x y : multi_file folder filename x y = path_join folder (multi_name filename x y).
Proof. unfold multi_file, multi_name. rewrite !Nat.add_1_r. reflexivity. Qed.
Lemma multi_lemma s color ref folder filename lab sh ext cbar :
  well_shaped (v_dim s) (v_values s) ref -> (forall l, color = Some (CArray l) -> length l = length (v_values s)) -> (forall t, color <> Some (CText t)) ->
  (forall k, sh = SInt k -> k < v_dim s) ->
  exists figs, scatter_2D_multi (OSet s) color ref folder filename lab sh ext cbar = Ok figs /\
    (forall x y, pair_in sh false (seq 0 (v_dim s)) x y -> exists f, In f figs /\
       shows_coordinates 0 [x; y] (v_values s) (colour_of color (length (v_values s))) ref (seq 0 (length (v_values s))) (f_points f) (f_colors f) (f_ref f) /\
       f_labels f = multi_axes lab x y /\ f_file f = full_filename (path_join folder (multi_name filename x y)) ext) /\
    (forall f, In f figs -> exists x y, pair_in sh false (seq 0 (v_dim s)) x y /\
       shows_coordinates 0 [x; y] (v_values s) (colour_of color (length (v_values s))) ref (seq 0 (length (v_values s))) (f_points f) (f_colors f) (f_ref f) /\
       f_labels f = multi_axes lab x y /\ f_file f = full_filename (path_join folder (multi_name filename x y)) ext) /\
    NoDup (map f_file figs).
Proof.
  intros W HC HT HK. unfold scatter_2D_multi. set (ps := show_pairs sh (seq 0 (v_dim s)) false).
  assert (R : forall x y, In (x, y) ps -> x < v_dim s /\ y < v_dim s).
  { intros x y H. unfold ps in H. destruct sh as [k|t|].
    - apply show_int_in in H. destruct H as (-> & H & _). apply in_seq in H. specialize (HK k eq_refl). lia.
    - cbn [show_pairs] in H. destruct (String.eqb t "all" || String.eqb t "ALL")%bool eqn:Et; [|destruct H].
      assert (Ht : t = "all"%string \/ t = "ALL"%string).
      { apply orb_true_iff in Et. destruct Et as [Et|Et]; apply String.eqb_eq in Et; auto. }
      assert (H' : In (x, y) (show_pairs (SText t) (seq 0 (v_dim s)) false)) by (cbn [show_pairs]; rewrite Et; exact H).
      apply (show_all_in t (seq 0 (v_dim s)) false x y Ht) in H'. apply pair_seq in H'. lia.
    - rewrite show_none in H. apply show_int_in in H. destruct H as (-> & H & _). apply in_seq in H. lia. }
  assert (P : forall x y, In (x, y) ps -> exists f, multi_one s color ref folder filename lab ext cbar (x, y) = Ok f /\
    shows_coordinates 0 [x; y] (v_values s) (colour_of color (length (v_values s))) ref (seq 0 (length (v_values s))) (f_points f) (f_colors f) (f_ref f) /\
    f_labels f = [multi_label lab x; multi_label lab y] /\ f_file f = full_filename (multi_file folder filename x y) ext).
  { intros x y H. destruct (R x y H). apply multi_one_lemma; assumption. }
  destruct (each_total (multi_one s color ref folder filename lab ext cbar) ps) as [figs E].
  { intros [x y] H. destruct (P x y H) as (f & Ef & _). eauto. }
  exists figs. split; [exact E|]. apply each_forall2 in E. split; [|split].
  - intros x y H. destruct (forall2_in_l _ _ _ E (x, y) H) as (f & Hf & Ef). destruct (P x y H) as (f' & Ef' & A & B & C). rewrite Ef in Ef'. injection Ef' as <-. rewrite <- multi_file_eq, <- multi_axes_eq. exists f. auto.
  - intros f Hf. destruct (forall2_in_r _ _ _ E f Hf) as ([x y] & H & Ef). destruct (P x y H) as (f' & Ef' & A & B & C). rewrite Ef in Ef'. injection Ef' as <-. exists x, y. rewrite <- multi_file_eq, <- multi_axes_eq. auto.
  - apply (forall2_nodup _ f_file _ _ E); [apply show_nodup, seq_NoDup|].
    intros [x y] [x' y'] f g H H' Ef Eg EQ.
    destruct (P x y H) as (f' & Ef' & _ & _ & F1). rewrite Ef in Ef'. injection Ef' as <-.
    destruct (P x' y' H') as (g' & Eg' & _ & _ & F2). rewrite Eg in Eg'. injection Eg' as <-.
    rewrite F1, F2 in EQ. apply multi_file_inj in EQ. exact EQ.
Qed.
Lemma multi_all_lemma s color ref folder filename lab t ext cbar :
  well_shaped (v_dim s) (v_values s) ref -> (forall l, color = Some (CArray l) -> length l = length (v_values s)) -> (forall t, color <> Some (CText t)) ->
  t = "all"%string \/ t = "ALL"%string ->
  exists figs, scatter_2D_multi (OSet s) color ref folder filename lab (SText t) ext cbar = Ok figs /\
    (forall x y, x < y < v_dim s -> exists f, In f figs /\
       shows_coordinates 0 [x; y] (v_values s) (colour_of color (length (v_values s))) ref (seq 0 (length (v_values s))) (f_points f) (f_colors f) (f_ref f) /\
       f_labels f = multi_axes lab x y /\ f_file f = full_filename (path_join folder (multi_name filename x y)) ext) /\
    (forall f, In f figs -> exists x y, x < y < v_dim s /\
       shows_coordinates 0 [x; y] (v_values s) (colour_of color (length (v_values s))) ref (seq 0 (length (v_values s))) (f_points f) (f_colors f) (f_ref f) /\
       f_labels f = multi_axes lab x y /\ f_file f = full_filename (path_join folder (multi_name filename x y)) ext) /\
    NoDup (map f_file figs).
Proof.
  intros W HC HT Ht. destruct (multi_lemma s color ref folder filename lab (SText t) ext cbar W HC HT) as (figs & E & A & B & C); [discriminate|].
  exists figs. split; [exact E|]. split; [|split; [|exact C]].
  - intros x y H. apply A. unfold pair_in. apply show_all_in; [exact Ht|]. apply pair_seq. lia.
  - intros f Hf. destruct (B f Hf) as (x & y & H & S). exists x, y. split; [|exact S]. unfold pair_in in H. apply show_all_in in H; [|exact Ht]. apply pair_seq in H. lia.
Qed.
Lemma multi_one_dim_lemma s color ref folder filename lab k ext cbar :
  well_shaped (v_dim s) (v_values s) ref -> (forall l, color = Some (CArray l) -> length l = length (v_values s)) -> (forall t, color <> Some (CText t)) ->
  k < v_dim s ->
  exists figs, scatter_2D_multi (OSet s) color ref folder filename lab (SInt k) ext cbar = Ok figs /\
    (forall y, y < v_dim s -> exists f, In f figs /\
       shows_coordinates 0 [k; y] (v_values s) (colour_of color (length (v_values s))) ref (seq 0 (length (v_values s))) (f_points f) (f_colors f) (f_ref f) /\
       f_labels f = multi_axes lab k y /\ f_file f = full_filename (path_join folder (multi_name filename k y)) ext) /\
    (forall f, In f figs -> exists y, y < v_dim s /\
       shows_coordinates 0 [k; y] (v_values s) (colour_of color (length (v_values s))) ref (seq 0 (length (v_values s))) (f_points f) (f_colors f) (f_ref f) /\
       f_labels f = multi_axes lab k y /\ f_file f = full_filename (path_join folder (multi_name filename k y)) ext) /\
    NoDup (map f_file figs).
Proof.
  intros W HC HT Hk. destruct (multi_lemma s color ref folder filename lab (SInt k) ext cbar W HC HT) as (figs & E & A & B & C); [intros k' [= <-]; exact Hk|].
  exists figs. split; [exact E|]. split; [|split; [|exact C]].
  - intros y H. apply A. unfold pair_in. apply show_int_in. split; [reflexivity|]. split; [apply in_seq; lia|discriminate].
  - intros f Hf. destruct (B f Hf) as (x & y & H & S). unfold pair_in in H. apply show_int_in in H. destruct H as (-> & H & _). apply in_seq in H. exists y. split; [lia|exact S].
Qed.
Lemma multi_ref_lemma s color folder filename lab sh ext cbar figs f :
  scatter_2D_multi (OSet s) color None folder filename lab sh ext cbar = Ok figs -> In f figs -> f_ref f = None.
Proof.
  unfold scatter_2D_multi. intros E Hf. apply each_forall2 in E. destruct (forall2_in_r _ _ _ E f Hf) as ([x y] & H & Ef).
  unfold multi_one in Ef. destruct (index (columns (v_values s) [x; y])) as [vals|]; [|discriminate]. cbn [bind] in Ef.
  apply scatter_shows_lemma in Ef. destruct Ef as (_ & _ & _ & R & _). exact R.
Qed.

(** ** show_data_domain_multi *)
Lemma mark_refs_lemma refs markers colors : length refs <= length markers -> length refs <= length colors ->
  exists l, mark_refs refs markers colors = Ok l /\ length l = length refs /\
    forall k r m c, nth_error refs k = Some r -> nth_error markers k = Some m -> nth_error colors k = Some c -> nth_error l k = Some (r, m, c).
Proof.
  revert markers colors. induction refs as [|r refs IH]; intros markers colors A B.
  - exists []. cbn [mark_refs]. split; [reflexivity|]. split; [reflexivity|]. intros [|k]; discriminate.
  - destruct markers as [|m ms]; [cbn [length] in A; lia|]. destruct colors as [|c cs]; [cbn [length] in B; lia|].
    cbn [length] in A, B. destruct (IH ms cs) as (l & E & L & N); [lia..|]. cbn [mark_refs]. rewrite E. cbn [bind].
    eexists. split; [reflexivity|]. split; [cbn [length]; congruence|]. intros [|k] r0 m0 c0; cbn [nth_error].
    + intros [= <-] [= <-] [= <-]. reflexivity.
    + apply N.
Qed.
Lemma mark_refs_fail refs markers colors : length markers < length refs \/ length colors < length refs -> mark_refs refs markers colors = Raise PyIndexError.
Proof.
  revert markers colors. induction refs as [|r refs IH]; intros markers colors H; cbn [length] in H; [lia|].
  destruct markers as [|m ms]; [reflexivity|]. destruct colors as [|c cs]; [reflexivity|]. cbn [mark_refs]. cbn [length] in H.
  rewrite IH by lia. reflexivity.
Qed.
Lemma columns_restricted rows x y vals : columns rows [x; y] = Some vals -> Forall2 (restricted 0 [x; y]) rows vals.
Proof.
  intros H. apply columns_forall2 in H. induction H as [|a b l r H H2 IH]; constructor; [apply restricted_take0; exact H|exact IH].
Qed.
Lemma forall2_nth {A B} (R : A -> B -> Prop) l r k x : Forall2 R l r -> nth_error l k = Some x -> exists y, nth_error r k = Some y /\ R x y.
Proof.
  intros H. revert k. induction H as [|a b l r H H2 IH]; intros [|k]; cbn [nth_error]; try discriminate; [intros [= <-]; eauto|apply IH].
Qed.
Lemma domain_one_lemma data refs markers colors folder ext x y d : (forall row, In row data -> length row = d) ->
  (forall q r, refs = Some q -> In r q -> length r = d) -> x < d -> y < d ->
  (forall q, refs = Some q -> length q <= length markers /\ length q <= length colors) ->
  exists g, domain_one data refs markers colors folder ext (x, y) = Ok g /\
    shows_domain x y data (match refs with Some q => q | None => [] end) markers colors (g_points g) (g_refs g) /\
    g_labels g = [domain_label x; domain_label y] /\
    g_files g = (full_filename (fst (domain_files folder x y)) ext, full_filename (snd (domain_files folder x y)) ext).
Proof.
  intros HD HQ Hx Hy HL. unfold domain_one. destruct (columns_pair data x y d HD Hx Hy) as [vals E]. rewrite E. cbn [index bind].
  destruct refs as [q|].
  - destruct (columns_pair q x y d) as [c Ec]; [intros; eapply HQ; eauto|assumption..|]. rewrite Ec. cbn [index bind].
    destruct (HL q eq_refl) as [A B]. pose proof (columns_length _ _ _ Ec) as LC.
    destruct (mark_refs_lemma c markers colors) as (l & El & L & N); [lia..|]. rewrite El. cbn [bind]. eexists. split; [reflexivity|].
    cbn [g_points g_refs g_labels g_files]. split; [|auto]. split; [apply columns_restricted; exact E|]. split; [congruence|].
    intros k r m cc Hr Hm Hc. destruct (forall2_nth _ _ _ _ _ (columns_restricted _ _ _ _ Ec) Hr) as (r' & Hr' & R). exists r'. split; [|exact R].
    apply N; assumption.
  - cbn [bind]. eexists. split; [reflexivity|]. cbn [g_points g_refs g_labels g_files]. split; [|auto]. split; [apply columns_restricted; exact E|].
    split; [reflexivity|]. intros [|k]; discriminate.
Qed.
Lemma domain_file1_inj folder ext x y x' y' :
  full_filename (fst (domain_files folder x y)) ext = full_filename (fst (domain_files folder x' y')) ext -> (x, y) = (x', y').
Proof.
  unfold domain_files. cbn [fst]. intros H. apply full_inj in H.
  - apply app_inj_l in H. apply app_inj_l in H. cbn [append] in H. apply (dec_pair_inj _ _ _ _ "_" "q") in H; [|reflexivity..]. f_equal; lia.
  - rewrite !has_dot_app, !has_dot_dec. reflexivity.
Qed.
Lemma domain_file2_inj folder ext x y x' y' :
  full_filename (snd (domain_files folder x y)) ext = full_filename (snd (domain_files folder x' y')) ext -> (x, y) = (x', y').
Proof.
  unfold domain_files. cbn [snd]. intros H. apply full_inj in H.
  - apply app_inj_l in H. apply app_inj_l in H. cbn [append] in H. apply dec_split in H; [|reflexivity..]. destruct H as (E & _ & H).
    injection H as H. apply dec_split in H; [|reflexivity..]. destruct H as (E2 & _). f_equal; lia.
  - rewrite !has_dot_app, !has_dot_dec. reflexivity.
Qed.
Lemma domain_file12 folder ext x y x' y' :
  full_filename (fst (domain_files folder x y)) ext <> full_filename (snd (domain_files folder x' y')) ext.
Proof.
  unfold domain_files. cbn [fst snd]. intros H. apply full_inj in H.
  - apply app_inj_l in H. cbn [append] in H. discriminate.
  - rewrite !has_dot_app, !has_dot_dec. reflexivity.
Qed.
Lemma domain_axes_eq x y : [domain_label x; domain_label y] = domain_axes x y.
Proof. unfold domain_label, domain_axes. rewrite !Nat.add_1_r. reflexivity. Qed.
Lemma domain_names_eq folder x y : domain_files folder x y = domain_names folder x y.
Proof. unfold domain_files, domain_names. rewrite !Nat.add_1_r. reflexivity. Qed.
Lemma domain_multi_lemma i o refs nums folder dm rm rc sh ext :
  let q := match domain_refs refs o with Some q => q | None => [] end in
  let markers := match rm with Some l => l | None => dm end in
  let colors := match rc with Some l => l | None => default_colors end in
  (forall row, In row (v_values o) -> length row = v_dim o) -> (forall r, In r q -> length r = v_dim o) ->
  NoDup nums -> (forall x, In x nums -> x < v_dim o) -> (forall k, sh = SInt k -> k < v_dim o) ->
  length q <= length markers -> length q <= length colors ->
  exists figs, show_data_domain_multi (ODisc (Some i) (Some o)) refs (Some nums) folder dm rm rc sh ext = Ok figs /\
    (forall x y, pair_in sh true nums x y -> exists g, In g figs /\ shows_domain x y (v_values o) q markers colors (g_points g) (g_refs g) /\
       g_labels g = domain_axes x y /\ g_files g = (full_filename (fst (domain_names folder x y)) ext, full_filename (snd (domain_names folder x y)) ext)) /\
    (forall g, In g figs -> exists x y, pair_in sh true nums x y /\ shows_domain x y (v_values o) q markers colors (g_points g) (g_refs g) /\
       g_labels g = domain_axes x y /\ g_files g = (full_filename (fst (domain_names folder x y)) ext, full_filename (snd (domain_names folder x y)) ext)) /\
    NoDup (map (fun g => fst (g_files g)) figs ++ map (fun g => snd (g_files g)) figs).
Proof.
  intros q markers colors HD HQ ND HN HK LM LC. unfold show_data_domain_multi.
  change (match refs with Some q => Some q | None => option_map (fun r => [r]) (v_ref o) end) with (domain_refs refs o).
  fold markers colors. set (ps := show_pairs sh nums true).
  assert (R : forall x y, In (x, y) ps -> x < v_dim o /\ y < v_dim o).
  { intros x y H. unfold ps in H. destruct sh as [k|t|].
    - apply show_int_in in H. destruct H as (-> & H & _). specialize (HK k eq_refl). specialize (HN y H). lia.
    - cbn [show_pairs] in H. destruct (String.eqb t "all" || String.eqb t "ALL")%bool eqn:Et; [|destruct H].
      apply in_map_iff in H. destruct H as (l & El & H). apply combos_in in H. destruct H as [L H]. destruct l as [|a [|b [|]]]; try discriminate.
      injection El as <- <-. split; apply HN; apply (subseq_in _ _ H); cbn [In]; auto.
    - rewrite show_none in H. apply show_int_in in H. destruct H as (-> & H & _). specialize (HN y H). lia. }
  assert (P : forall x y, In (x, y) ps -> exists g, domain_one (v_values o) (domain_refs refs o) markers colors folder ext (x, y) = Ok g /\
    shows_domain x y (v_values o) q markers colors (g_points g) (g_refs g) /\
    g_labels g = [domain_label x; domain_label y] /\
    g_files g = (full_filename (fst (domain_files folder x y)) ext, full_filename (snd (domain_files folder x y)) ext)).
  { intros x y H. destruct (R x y H). apply (domain_one_lemma _ _ _ _ _ _ _ _ (v_dim o)); auto.
    - intros q0 r E Hr. apply HQ. unfold q. rewrite E. exact Hr.
    - intros q0 E. unfold q in LM, LC. rewrite E in LM, LC. auto. }
  destruct (each_total (domain_one (v_values o) (domain_refs refs o) markers colors folder ext) ps) as [figs E].
  { intros [x y] H. destruct (P x y H) as (f & Ef & _). eauto. }
  exists figs. split; [exact E|]. apply each_forall2 in E.
  assert (FW : forall g, In g figs -> exists x y, In (x, y) ps /\ shows_domain x y (v_values o) q markers colors (g_points g) (g_refs g) /\ g_labels g = [domain_label x; domain_label y] /\
     g_files g = (full_filename (fst (domain_files folder x y)) ext, full_filename (snd (domain_files folder x y)) ext)).
  { intros g Hg. destruct (forall2_in_r _ _ _ E g Hg) as ([x y] & H & Eg). destruct (P x y H) as (g' & Eg' & A & B & F). rewrite Eg in Eg'. injection Eg' as <-. exists x, y. auto. }
  split; [|split].
  - intros x y H. destruct (forall2_in_l _ _ _ E (x, y) H) as (f & Hf & Ef). destruct (P x y H) as (f' & Ef' & A & B & C). rewrite Ef in Ef'. injection Ef' as <-. rewrite <- domain_axes_eq, <- domain_names_eq. exists f. auto.
  - intros g Hg. destruct (FW g Hg) as (x & y & H & A & B & C). exists x, y. rewrite <- domain_axes_eq, <- domain_names_eq. auto.
  - assert (NP : NoDup ps) by (apply show_nodup; exact ND). apply NoDup_app.
    + apply (forall2_nodup _ (fun g => fst (g_files g)) _ _ E NP). intros [x y] [x' y'] f g H H' Ef Eg EQ.
      destruct (P x y H) as (f' & Ef' & _ & _ & F1). rewrite Ef in Ef'. injection Ef' as <-.
      destruct (P x' y' H') as (g' & Eg' & _ & _ & F2). rewrite Eg in Eg'. injection Eg' as <-.
      rewrite F1, F2 in EQ. cbn [fst] in EQ. apply domain_file1_inj in EQ. exact EQ.
    + apply (forall2_nodup _ (fun g => snd (g_files g)) _ _ E NP). intros [x y] [x' y'] f g H H' Ef Eg EQ.
      destruct (P x y H) as (f' & Ef' & _ & _ & F1). rewrite Ef in Ef'. injection Ef' as <-.
      destruct (P x' y' H') as (g' & Eg' & _ & _ & F2). rewrite Eg in Eg'. injection Eg' as <-.
      rewrite F1, F2 in EQ. cbn [snd] in EQ. apply domain_file2_inj in EQ. exact EQ.
    + intros a Ha Hb. apply in_map_iff in Ha, Hb. destruct Ha as (g1 & <- & G1), Hb as (g2 & E2 & G2).
      destruct (FW g1 G1) as (x & y & _ & _ & _ & F1), (FW g2 G2) as (x' & y' & _ & _ & _ & F2). rewrite F1, F2 in E2. cbn [fst snd] in E2.
      symmetry in E2. apply domain_file12 in E2. exact E2.
Qed.
Lemma domain_multi_all_lemma i o refs nums folder dm rm rc t ext :
  let q := match domain_refs refs o with Some q => q | None => [] end in
  let markers := match rm with Some l => l | None => dm end in
  let colors := match rc with Some l => l | None => default_colors end in
  (forall row, In row (v_values o) -> length row = v_dim o) -> (forall r, In r q -> length r = v_dim o) ->
  NoDup nums -> (forall x, In x nums -> x < v_dim o) -> t = "all"%string \/ t = "ALL"%string ->
  length q <= length markers -> length q <= length colors ->
  exists figs, show_data_domain_multi (ODisc (Some i) (Some o)) refs (Some nums) folder dm rm rc (SText t) ext = Ok figs /\
    (forall x y, subseq [x; y] nums -> exists g, In g figs /\ shows_domain x y (v_values o) q markers colors (g_points g) (g_refs g) /\
       g_labels g = domain_axes x y /\ g_files g = (full_filename (fst (domain_names folder x y)) ext, full_filename (snd (domain_names folder x y)) ext)) /\
    (forall g, In g figs -> exists x y, subseq [x; y] nums /\ shows_domain x y (v_values o) q markers colors (g_points g) (g_refs g) /\
       g_labels g = domain_axes x y /\ g_files g = (full_filename (fst (domain_names folder x y)) ext, full_filename (snd (domain_names folder x y)) ext)) /\
    NoDup (map (fun g => fst (g_files g)) figs ++ map (fun g => snd (g_files g)) figs).
Proof.
  intros q markers colors HD HQ ND HN Ht LM LC.
  destruct (domain_multi_lemma i o refs nums folder dm rm rc (SText t) ext) as (figs & E & A & B & C); [assumption..|discriminate|assumption|assumption|].
  exists figs. split; [exact E|]. split; [|split; [|exact C]].
  - intros x y H. apply A. unfold pair_in. apply show_all_in; [exact Ht|exact H].
  - intros g Hg. destruct (B g Hg) as (x & y & H & S). exists x, y. split; [|exact S]. apply (show_all_in t nums true x y Ht). exact H.
Qed.
Lemma domain_multi_one_lemma i o refs nums folder dm rm rc k ext :
  let q := match domain_refs refs o with Some q => q | None => [] end in
  let markers := match rm with Some l => l | None => dm end in
  let colors := match rc with Some l => l | None => default_colors end in
  (forall row, In row (v_values o) -> length row = v_dim o) -> (forall r, In r q -> length r = v_dim o) ->
  NoDup nums -> (forall x, In x nums -> x < v_dim o) -> k < v_dim o ->
  length q <= length markers -> length q <= length colors ->
  exists figs, show_data_domain_multi (ODisc (Some i) (Some o)) refs (Some nums) folder dm rm rc (SInt k) ext = Ok figs /\
    (forall y, In y nums -> y <> k -> exists g, In g figs /\ shows_domain k y (v_values o) q markers colors (g_points g) (g_refs g) /\
       g_labels g = domain_axes k y /\ g_files g = (full_filename (fst (domain_names folder k y)) ext, full_filename (snd (domain_names folder k y)) ext)) /\
    (forall g, In g figs -> exists y, In y nums /\ y <> k /\ shows_domain k y (v_values o) q markers colors (g_points g) (g_refs g) /\
       g_labels g = domain_axes k y /\ g_files g = (full_filename (fst (domain_names folder k y)) ext, full_filename (snd (domain_names folder k y)) ext)) /\
    NoDup (map (fun g => fst (g_files g)) figs ++ map (fun g => snd (g_files g)) figs).
Proof.
  intros q markers colors HD HQ ND HN Hk LM LC.
  destruct (domain_multi_lemma i o refs nums folder dm rm rc (SInt k) ext) as (figs & E & A & B & C); [assumption..|intros k' [= <-]; exact Hk|assumption|assumption|].
  exists figs. split; [exact E|]. split; [|split; [|exact C]].
  - intros y H N. apply A. unfold pair_in. apply show_int_in. auto.
  - intros g Hg. destruct (B g Hg) as (x & y & H & S). unfold pair_in in H. apply show_int_in in H. destruct H as (-> & H & N). exists y. auto.
Qed.
Lemma domain_none_lemma d refs nums folder dm rm rc ext :
  show_data_domain_multi d refs nums folder dm rm rc SNone ext = show_data_domain_multi d refs nums folder dm rm rc (SInt 0) ext.
Proof. reflexivity. Qed.
Lemma domain_many_lemma i o q nums folder dm rm rc sh ext x y :
  let markers := match rm with Some l => l | None => dm end in
  let colors := match rc with Some l => l | None => default_colors end in
  pair_in sh true nums x y -> length markers < length q \/ length colors < length q ->
  forall figs, show_data_domain_multi (ODisc (Some i) (Some o)) (Some q) (Some nums) folder dm rm rc sh ext <> Ok figs.
Proof.
  intros markers colors H HL figs E. unfold show_data_domain_multi in E. fold markers colors in E.
  apply each_forall2 in E. destruct (forall2_in_l _ _ _ E (x, y) H) as (g & _ & Eg). unfold domain_one in Eg.
  destruct (index (columns (v_values o) [x; y])) as [vals|]; [|discriminate]. cbn [bind] in Eg.
  destruct (columns q [x; y]) as [c|] eqn:Ec; [|discriminate]. cbn [index bind] in Eg.
  rewrite mark_refs_fail in Eg; [discriminate|]. rewrite (columns_length _ _ _ Ec). exact HL.
Qed.
Lemma domain_many_one_lemma i o q nums folder dm rm rc k ext :
  let markers := match rm with Some l => l | None => dm end in
  let colors := match rc with Some l => l | None => default_colors end in
  (exists y, In y nums /\ y <> k) -> length markers < length q \/ length colors < length q ->
  forall figs, show_data_domain_multi (ODisc (Some i) (Some o)) (Some q) (Some nums) folder dm rm rc (SInt k) ext <> Ok figs.
Proof.
  intros markers colors (y & Hy & N) H. apply (domain_many_lemma i o q nums folder dm rm rc (SInt k) ext k y); [|exact H].
  unfold pair_in. apply show_int_in. auto.
Qed.
Lemma dot_file_lemma n o nos color ref labels cbar name ext f :
  scatter n o nos color ref labels cbar (append "./" name) ext = Ok f -> f_file f = append "./" name.
Proof.
  destruct o as [s| |]; [|discriminate..]. intros H. apply scatter_shows_lemma in H. destruct H as (_ & _ & _ & _ & _ & F). rewrite F. reflexivity.
Qed.
Lemma no_dot_file_lemma n o nos color ref labels cbar name ext f : has_dot name = false ->
  scatter n o nos color ref labels cbar name ext = Ok f -> f_file f = append name ext.
Proof.
  intros D. destruct o as [s| |]; [|discriminate..]. intros H. apply scatter_shows_lemma in H. destruct H as (_ & _ & _ & _ & _ & F). rewrite F. unfold full_filename. rewrite D. reflexivity.
Qed.
Lemma domain_eight_lemma i o q nums folder dm rm k ext : 8 <= length q -> (exists y, In y nums /\ y <> k) ->
  forall figs, show_data_domain_multi (ODisc (Some i) (Some o)) (Some q) (Some nums) folder dm rm None (SInt k) ext <> Ok figs.
Proof. intros H Y. apply (domain_many_one_lemma i o q nums folder dm rm None k ext Y). right. cbn [default_colors length]. lia. Qed.
Lemma domain_default_lemma i o refs folder dm rm rc sh ext :
  show_data_domain_multi (ODisc (Some i) (Some o)) refs None folder dm rm rc sh ext = show_data_domain_multi (ODisc (Some i) (Some o)) refs (Some (seq 0 (v_dim o))) folder dm rm rc sh ext.
Proof. reflexivity. Qed.
