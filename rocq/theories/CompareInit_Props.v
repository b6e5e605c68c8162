(** C122: a comparison uses the measures and points asked for. *)
From Coq Require Import List Arith QArith Qcanon.
From Verif Require Import Err Num Ext CompareInit_Model CompareInit_Spec CompareInit_Proofs CompareInit_Examples.
Import ListNotations.
Local Open Scope nat_scope.

Theorem compare_accepts_iff : forall a b inputs i1 i2 c, compare_new a b inputs i1 i2 = Ok c <->
  exists s t, usable inputs a s /\ usable inputs b t /\ mdim s = mdim t /\ c = mk_comparison s t i1 i2 None None None.
Proof. exact new_lemma. Qed.
Print Assumptions compare_accepts_iff.
Theorem compare_rejects : forall a b inputs i1 i2,
  (forall s t, usable inputs a s -> usable inputs b t -> mdim s <> mdim t -> compare_new a b inputs i1 i2 = Raise DimNotMatching) /\
  ((~ exists s, usable inputs a s) \/ (~ exists t, usable inputs b t) -> compare_new a b inputs i1 i2 = Raise WrongInput).
Proof. exact reject_lemma. Qed.
Print Assumptions compare_rejects.
Example compare_accepts_ex : usable false (CDisc voronoi_ex (Some set_ex)) set_ex /\ ~ (exists s, usable true (CDisc voronoi_ex (Some set_ex)) s) /\ ~ (exists s, usable false (CDisc set_ex None) s).
Proof.
  split; [split; [constructor | reflexivity]|]. split; intros (s & A & B); inversion A; subst; discriminate B.
Qed.
Theorem comparison_points_iff : forall draw c c' a, set_compare_set draw a c = Ok c' <->
  exists v, match a with
            | ArgSet s => is_sample_set s = true /\ mdim s = mdim (set1 c) /\ v = mvals s
            | ArgArr n rows => n = mdim (set1 c) /\ v = Some rows
            | ArgInt n => exists p, draw n = Ok p /\ v = Some p
            | _ => False end /\
    c' = mk_comparison (set1 c) (set2 c) (init1 c) (init2 c) v (cpdfs c) (czero c).
Proof. exact points_lemma. Qed.
Print Assumptions comparison_points_iff.
(** Everything else is refused. *)
Theorem comparison_points_rejected : forall draw c a,
  (forall s, a = ArgSet s -> is_sample_set s = false -> set_compare_set draw a c = Raise WrongInput) /\
  (forall s, a = ArgSet s -> is_sample_set s = true -> mdim s <> mdim (set1 c) -> set_compare_set draw a c = Raise DimNotMatching) /\
  (forall l, a = ArgFlat l -> set_compare_set draw a c = Raise PyIndexError) /\
  (forall n rows, a = ArgArr n rows -> n <> mdim (set1 c) -> set_compare_set draw a c = Raise DimNotMatching) /\
  (forall n e, a = ArgInt n -> draw n = Raise e -> set_compare_set draw a c = Raise e) /\
  (a = ArgOther -> set_compare_set draw a c = Raise WrongInput).
Proof. exact points_rejected_lemma. Qed.
Print Assumptions comparison_points_rejected.
Example comparison_points_rejected_ex : is_sample_set voronoi_ex = false /\ exists c, compare_new (CSet set_ex) (CSet set_ex) true false true = Ok c /\
  set_compare_set (fun _ => Raise PyValueError) (ArgSet voronoi_ex) c = Raise WrongInput /\ set_compare_set (fun _ => Raise PyValueError) (ArgArr 2 []) c = Raise DimNotMatching.
Proof. split; [reflexivity|]. eexists. split; [reflexivity|]. split; reflexivity. Qed.
Theorem evaluate_pdfs_correct : forall c v p q, cvals c = Some v -> measure (init1 c) (set1 c) v = Ok p -> measure (init2 c) (set2 c) v = Ok q -> length p = length q ->
  exists c' n, evaluate_pdfs c = Ok c' /\ cpdfs c' = Some (p, q) /\ czero c' = Some n /\ counts_common_zeros p q n /\ densities_of c' = Ok c' /\
    cvals c' = Some v /\ set1 c' = set1 c /\ set2 c' = set2 c /\ init1 c' = init1 c /\ init2 c' = init2 c.
Proof. exact evaluate_lemma. Qed.
Print Assumptions evaluate_pdfs_correct.
(** evaluate_pdfs after set_compare_set makes distances refer to the new points
    (without it they keep the densities at the old ones, see C85). *)
Theorem evaluate_pdfs_refreshes : forall draw a c c1 v p q, set_compare_set draw a c = Ok c1 -> cvals c1 = Some v -> measure (init1 c) (set1 c) v = Ok p -> measure (init2 c) (set2 c) v = Ok q -> length p = length q ->
  exists c2, evaluate_pdfs c1 = Ok c2 /\ densities_of c2 = Ok c2 /\ cpdfs c2 = Some (p, q).
Proof. exact refresh_lemma. Qed.
Print Assumptions evaluate_pdfs_refreshes.
Example evaluate_pdfs_ex : exists c c1 c2, compare_new (CSet set_ex) (CSet set_ex) true false true = Ok c /\ set_compare_set (fun _ => Raise PyValueError) (ArgSet set_ex) c = Ok c1 /\
  evaluate_pdfs c1 = Ok c2 /\ cpdfs c2 = Some ([Fin 1; Fin 0], [Fin 0; Fin 1])%Qc /\ czero c2 = Some 0.
Proof. do 3 eexists. split; [reflexivity|]. split; [reflexivity|]. split; [reflexivity|]. split; vm_compute; reflexivity. Qed.
