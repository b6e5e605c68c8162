From Coq Require Import List Arith Lia QArith Qcanon Lqa.
From Verif Require Import Num Voronoi2_Model Voronoi2_Spec Voronoi2_Proofs.
Import ListNotations.
Local Open Scope Qc_scope.

Definition z (n : Z) : Qc := Q2Qc (n # 1).
Definition at_ (x y : Z) : point := (z x, z y).

(** One sample in the middle of a square: the reflections close its cell. *)
Definition dom1 : box := ((z 0, z 2), (z 0, z 2)).
Definition vals1 : list point := [at_ 1 1].
Definition simp1 (pts : list point) (i : nat) : option (list triangle) :=
  match i with 0%nat => Some [(at_ 0 0, at_ 2 0, at_ 2 2); (at_ 0 0, at_ 0 2, at_ 2 2)] | _ => None end.
Ltac zz := unfold z in *.
Lemma inside1 : forall q, In q vals1 -> inside dom1 q.
Proof. intros q [<-|[]] []; reflexivity. Qed.
Lemma extended1 : extended dom1 1 vals1 = [at_ 1 1; at_ (-1) 1; at_ 3 1; at_ 1 (-1); at_ 1 3].
Proof. reflexivity. Qed.
Lemma reach1_ : forall k q b, In q vals1 -> on_side dom1 k b -> in_cell vals1 q b -> close_to dom1 1 k q.
Proof. intros k q b I _ _. apply wide_ratio; [apply inside1, I | apply Qcle_refl]. Qed.
Lemma square_tiled : tiles [(at_ 0 0, at_ 2 0, at_ 2 2); (at_ 0 0, at_ 0 2, at_ 2 2)] (in_domain dom1).
Proof.
  split.
  - intro p. rewrite in_domain_alt. unfold dom1, at_. cbn [fst snd In in_triangle]. split.
    + intros (A & B & C & D). destruct (qleb_spec (snd p) (fst p)) as [L|L]; [|apply Qcnot_le_lt in L].
      * exists ((z 0, z 0), (z 2, z 0), (z 2, z 2)). split; [left; reflexivity|].
        exists (1 - fst p * Q2Qc (1 # 2)), ((fst p - snd p) * Q2Qc (1 # 2)), (snd p * Q2Qc (1 # 2)). cbn [fst snd]. zz.
        split; [qc_lra|]. split; [qc_lra|]. split; [qc_lra|]. split; [qc_lra|]. split; qc_lra.
      * exists ((z 0, z 0), (z 0, z 2), (z 2, z 2)). split; [right; left; reflexivity|].
        exists (1 - snd p * Q2Qc (1 # 2)), ((snd p - fst p) * Q2Qc (1 # 2)), (fst p * Q2Qc (1 # 2)). cbn [fst snd]. zz.
        split; [qc_lra|]. split; [qc_lra|]. split; [qc_lra|]. split; [qc_lra|]. split; qc_lra.
    + intros (t & [<-|[<-|[]]] & u & v & w & U & V & W & E & X & Y); cbn [fst snd] in X, Y; zz; (split; [qc_lra|]); (split; [qc_lra|]); split; qc_lra.
  - intros i j s t Hi Hj NE (p & S1 & S2).
    destruct i as [|[|i]], j as [|[|j]]; cbn [nth_error] in Hi, Hj; try (exfalso; apply NE; reflexivity); try (destruct i; discriminate); try (destruct j; discriminate);
      injection Hi as <-; injection Hj as <-; cbn [inside_triangle at_ fst snd] in S1, S2;
      destruct S1 as (u & v & w & U & V & W & E & X & Y); destruct S2 as (u' & v' & w' & U' & V' & W' & E' & X' & Y'); zz; qc_lra.
Qed.
Ltac extreme k := apply (extreme_unbounded dom1 _ k); cbn [In]; intros r; 
  repeat (intros [<-|I]; [cbn; discriminate | revert I]); contradiction.
Lemma diagram1 : diagram_of simp1 (extended dom1 1 vals1).
Proof.
  intros i q Hq. destruct i as [|i]; cbn [simp1].
  - rewrite extended1 in Hq. injection Hq as <-. apply tiles_ext with (2 := square_tiled). intro p.
    rewrite (cell_eq dom1 1 vals1 inside1 reach1_ (at_ 1 1) p (or_introl eq_refl)). split; [|tauto].
    intro H. split; [exact H|]. intros r [<-|[]]. apply Qcle_refl.
  - rewrite extended1 in *. destruct i as [|[|[|[|i]]]]; cbn [nth_error] in Hq; [injection Hq as <-..|destruct i; discriminate].
    + extreme West.
    + extreme East.
    + extreme South.
    + extreme North.
Qed.

(** Five samples in the middle of a square: with the default ratio nothing is
    reflected, only the cell of the middle sample is bounded. *)
Definition dom2 : box := ((z 0, z 8), (z 0, z 8)).
Definition vals2 : list point := [at_ 3 3; at_ 5 3; at_ 3 5; at_ 5 5; at_ 4 4].
Definition simp2 (pts : list point) (i : nat) : option (list triangle) :=
  match i with 4%nat => Some [(at_ 3 4, at_ 5 4, at_ 4 5); (at_ 3 4, at_ 5 4, at_ 4 3)] | _ => None end.
Definition quarter : Qc := Q2Qc (1 # 4).
Lemma inside2 : forall q, In q vals2 -> inside dom2 q.
Proof. intros q I. cbn [In vals2] in I. repeat (destruct I as [<-|I]; [intros []; reflexivity|]). contradiction. Qed.
Lemma far2 : forall q, In q vals2 -> ~ close_to dom2 quarter West q.
Proof. intros q I. cbn [In vals2] in I. repeat (destruct I as [<-|I]; [intro H; discriminate H|]). contradiction. Qed.
Lemma extended2 : extended dom2 quarter vals2 = vals2.
Proof. reflexivity. Qed.
Lemma diamond (p : point) : in_cell vals2 (at_ 4 4) p <->
  z 7 <= fst p + snd p /\ fst p + snd p <= z 9 /\ - (1) <= fst p - snd p /\ fst p - snd p <= 1.
Proof.
  assert (forall q, dist2 p q - dist2 p (at_ 4 4) = fst q * fst q + snd q * snd q - z 32 - (1 + 1) * (fst p * (fst q - z 4) + snd p * (snd q - z 4))) as ID.
  { intro q. unfold dist2, at_. cbn [fst snd]. replace (z 32) with (z 4 * z 4 + z 4 * z 4) by reflexivity. ring. }
  assert (forall q, dist2 p (at_ 4 4) <= dist2 p q <-> 0 <= fst q * fst q + snd q * snd q - z 32 - (1 + 1) * (fst p * (fst q - z 4) + snd p * (snd q - z 4))) as LE.
  { intro q. rewrite <- ID. generalize (dist2 p (at_ 4 4)) (dist2 p q). intros; split; intro; qc_lra. }
  split.
  - intro H. pose proof (proj1 (LE _) (H (at_ 3 3) ltac:(cbn; tauto))) as A. pose proof (proj1 (LE _) (H (at_ 5 3) ltac:(cbn; tauto))) as B.
    pose proof (proj1 (LE _) (H (at_ 3 5) ltac:(cbn; tauto))) as C. pose proof (proj1 (LE _) (H (at_ 5 5) ltac:(cbn; tauto))) as D.
    clear - A B C D. cbn [at_ fst snd] in *. zz. split; [qc_lra|]. split; [qc_lra|]. split; qc_lra.
  - intros (A & B & C & D) r I. apply LE. clear - A B C D I. cbn [In vals2] in I.
    repeat (destruct I as [<-|I]; [cbn [at_ fst snd]; zz; qc_lra|]). contradiction.
Qed.
Lemma diamond_tiled : tiles [(at_ 3 4, at_ 5 4, at_ 4 5); (at_ 3 4, at_ 5 4, at_ 4 3)] (in_cell vals2 (at_ 4 4)).
Proof.
  split.
  - intro p. rewrite diamond. cbn [In in_triangle]. split.
    + intros (A & B & C & D). destruct (qleb_spec (z 4) (snd p)) as [L|L]; [|apply Qcnot_le_lt in L].
      * eexists. split; [left; reflexivity|]. unfold in_triangle.
        exists ((z 9 - fst p - snd p) * Q2Qc (1 # 2)), ((fst p - snd p + 1) * Q2Qc (1 # 2)), (snd p - z 4). cbn [at_ fst snd]. zz.
        split; [qc_lra|]. split; [qc_lra|]. split; [qc_lra|]. split; [qc_lra|]. split; qc_lra.
      * eexists. split; [right; left; reflexivity|]. unfold in_triangle.
        exists ((1 + snd p - fst p) * Q2Qc (1 # 2)), ((fst p + snd p - z 7) * Q2Qc (1 # 2)), (z 4 - snd p). cbn [at_ fst snd]. zz.
        split; [qc_lra|]. split; [qc_lra|]. split; [qc_lra|]. split; [qc_lra|]. split; qc_lra.
    + intros (t & [<-|[<-|[]]] & u & v & w & U & V & W & E & X & Y); cbn [at_ fst snd] in X, Y; zz; (split; [qc_lra|]); (split; [qc_lra|]); split; qc_lra.
  - intros i j s t Hi Hj NE (p & S1 & S2).
    destruct i as [|[|i]], j as [|[|j]]; cbn [nth_error] in Hi, Hj; try (exfalso; apply NE; reflexivity); try (destruct i; discriminate); try (destruct j; discriminate);
      injection Hi as <-; injection Hj as <-; cbn [inside_triangle at_ fst snd] in S1, S2;
      destruct S1 as (u & v & w & U & V & W & E & X & Y); destruct S2 as (u' & v' & w' & U' & V' & W' & E' & X' & Y'); zz; qc_lra.
Qed.
Lemma diagram2 : diagram_of simp2 (extended dom2 quarter vals2).
Proof.
  intros i q Hq. rewrite extended2 in *. destruct i as [|[|[|[|[|i]]]]]; cbn [simp2]; cbn [vals2 nth_error] in Hq; [injection Hq as <-..|destruct i; discriminate].
  - extreme West.
  - extreme East.
  - extreme West.
  - extreme East.
  - exact diamond_tiled.
Qed.
