From Coq Require Import ZArith List Arith Bool Reals Lra Lia Psatz Permutation.
From Verif Require Import Err Polygons_Model Polygons_Spec Polygons_Proofs.
Import ListNotations.
Local Open Scope R_scope.

Ltac each I := cbn in I; repeat (destruct I as [<-|I]); try contradiction.
Ltac cell := eexists; split; [reflexivity|]; let q := fresh "q" in let I := fresh "I" in intros q I; each I; unfold dist2, Rsqr; cbn; lra.
Ltac edge := unfold hull_edge; split; [(left; let q := fresh in let I := fresh "I" in intros q I; each I; unfold side; cbn; lra) || (right; let q := fresh in let I := fresh "I" in intros q I; each I; unfold side; cbn; lra)|].

(** Four corners of a square and its middle: one finite cell. *)
Definition square : vor := {|
  v_points := [(0, 0); (1, 1); (1, -1); (-1, -1); (-1, 1)];
  v_ridge_points := [(0, 1); (0, 2); (0, 3); (0, 4); (1, 2); (2, 3); (3, 4); (4, 1)]%nat;
  v_ridge_vertices := [(0, 1); (3, 0); (2, 3); (1, 2); (-1, 0); (-1, 3); (2, -1); (1, -1)]%Z;
  v_vertices := [(1, 0); (0, 1); (-1, 0); (0, -1)];
  v_point_region := [0; 1; 2; 3; 4]%nat;
  v_regions := [[0; 1; 2; 3]; [1; -1; 0]; [0; -1; 3]; [3; -1; 2]; [2; -1; 1]; []]%Z |}.
Lemma square_contract : contract square.
Proof.
  split; [reflexivity|]. split.
  - intros i r H. do 5 (destruct i as [|i]; [cbn in H; injection H as <-; eexists; split; [reflexivity|]; split;
      [intros z Iz Pz; each Iz; try lia; (eexists; split; [reflexivity|]; cell) |
       intros (z & Iz & Nz); each Iz; try lia; eexists _, _; cbn; tauto]|]). destruct i; discriminate.
  - intros i j z1 z2 I. cbn in I. unfold ridge_ok.
    repeat (destruct I as [I|I]; [injection I as <- <- <- <-; eexists _, _; split; [reflexivity|]; split; [reflexivity|]; split; [intro E; injection E; lra|]; split;
      [intros z [-> | ->] Pz; try lia; (eexists; split; [reflexivity | split; cell]) |
       intros [F|F]; try lia; (split; [lia|]; edge; exists (0, 0); split; [left; reflexivity | unfold side; cbn; lra])]|]). contradiction.
Qed.
(** Three points that are nearly on a line. *)
Definition flat : vor := {|
  v_points := [(-1, 0); (0, / 10); (1, 0)];
  v_ridge_points := [(0, 1); (1, 2); (0, 2)]%nat;
  v_ridge_vertices := [(-1, 0); (-1, 0); (-1, 0)]%Z;
  v_vertices := [(0, - (99 / 20))];
  v_point_region := [0; 1; 2]%nat;
  v_regions := [[-1; 0]; [-1; 0]; [-1; 0]; []]%Z |}.
Lemma flat_contract : contract flat.
Proof.
  split; [reflexivity|]. split.
  - intros i r H. do 3 (destruct i as [|i]; [cbn in H; injection H as <-; eexists; split; [reflexivity|]; split;
      [intros z Iz Pz; each Iz; try lia; (eexists; split; [reflexivity|]; cell) |
       intros (z & Iz & Nz); each Iz; try lia; eexists _, _; cbn; tauto]|]). destruct i; discriminate.
  - intros i j z1 z2 I. cbn in I. unfold ridge_ok.
    repeat (destruct I as [I|I]; [injection I as <- <- <- <-; eexists _, _; split; [reflexivity|]; split; [reflexivity|]; split; [intro E; injection E; lra|]; split;
      [intros z [-> | ->] Pz; try lia; (eexists; split; [reflexivity | split; cell]) |
       intros [F|F]; try lia; (split; [lia|]; edge);
       (exists (-1, 0); split; [left; reflexivity | unfold side; cbn; lra]) || (exists (1, 0); split; [right; right; left; reflexivity | unfold side; cbn; lra]) || (exists (0, / 10); split; [right; left; reflexivity | unfold side; cbn; lra])]|]). contradiction.
Qed.
Lemma flat_radius : the_radius flat None = 2.
Proof.
  unfold the_radius, ptp, flat, coordinates. cbn. unfold Rmax, Rmin. repeat (destruct (Rle_dec _ _)); lra.
Qed.
Lemma flat_blank : forall order regs verts, orders order -> finite_polygons order flat None = Ok (regs, verts) ->
  forall i reg k w, nth_error regs i = Some reg -> In k reg -> nth_error verts k = Some (Some w) -> snd w <= -2.
Proof.
  intros order regs verts HO E i reg k w Hi Ik Hk. destruct (main_lemma order flat None flat_contract HO) as (regs' & fs & E' & L & G); [discriminate|]. rewrite E in E'. injection E' as <- ->.
  assert (i < 3)%nat as Li. { change 3%nat with (length (v_points flat)). rewrite <- L. apply nth_error_Some. congruence. }
  assert (exists r, nth_error (v_point_region flat) i = Some r /\ nth_error (v_regions flat) r = Some [-1; 0]%Z) as (r & Er & E0). { do 3 (destruct i as [|i]; [eexists; split; reflexivity|]). lia. }
  destruct (infinite_lemma order flat None regs _ i r [-1; 0]%Z reg flat_contract HO ltac:(discriminate) E Er E0) as (new & P & A & _); [exists (-1)%Z; split; [left; reflexivity | lia] | exact Hi|].
  apply (Permutation_in _ P) in Ik. cbn in Ik. destruct Ik as [<-|Ik]; [cbn in Hk; injection Hk as <-; cbn; lra|].
  destruct (A k Ik) as (f & j & w0 & Ef & (z1 & z2 & fz & I & R & Pz & Ew) & D & _). rewrite Hk in Ef. injection Ef as <-. rewrite flat_radius in D. destruct (Z.to_nat fz) as [|n]; [|destruct n; discriminate]. cbn in Ew. injection Ew as <-. unfold dist2, Rsqr in D. cbn [fst snd] in D. nra.
Qed.
Lemma flat_refuted : exists v, contract v /\ (forall q, In q (v_points v) -> 0 <= snd q) /\
  (exists regs verts, finite_polygons (fun l => seq 0 (length l)) v None = Ok (regs, verts) /\ length regs = 3%nat) /\
  forall order regs verts, orders order -> finite_polygons order v None = Ok (regs, verts) ->
  forall i reg k w, nth_error regs i = Some reg -> In k reg -> nth_error verts k = Some (Some w) -> snd w <= -2.
Proof.
  exists flat. split; [exact flat_contract|]. split; [intros q I; each I; cbn; lra|]. split; [|exact flat_blank].
  destruct (cells_lemma (fun l => seq 0 (length l)) flat None flat_contract) as (regs & verts & E & L & _); [intro l; apply Permutation_refl | discriminate|]. exists regs, verts. split; [exact E | exact L].
Qed.
