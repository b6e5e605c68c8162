From Coq Require Import ZArith List Arith Reals Lra.
From Verif Require Import Err CompareR_Model Smooth_Spec.
Import ListNotations.
Local Open Scope R_scope.
Lemma smooth_ok_ex1 : marginal_ok [/ 4; / 2; / 4].
Proof. split; [intros x [<-|[<-|[<-|[]]]]; lra | exists (/ 4); split; [left; reflexivity | lra]]. Qed.
Lemma smooth_ok_ex2 : marginal_ok [0; 1].
Proof. split; [intros x [<-|[<-|[]]]; lra | exists 1; split; [right; left; reflexivity | lra]]. Qed.
