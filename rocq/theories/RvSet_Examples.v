(** A small library of distributions to show that the hypotheses can be met. *)
From Coq Require Import String List Arith Bool ZArith Lia QArith Qcanon.
From Verif Require Import Err Num Ext Show RvSet_Model RvSet_Spec RvSet_Proofs.
Import ListNotations.
Local Open Scope nat_scope.

Fixpoint get (k : string) (a : dict) (z : xnum) : xnum := match a with [] => z | (k', v) :: r => if String.eqb k k' then v else get k r z end.
Definition interval (a : dict) : xnum * xnum := (get "loc" a (Fin 0), xadd (get "loc" a (Fin 0)) (get "scale" a (Fin 1))).
Definition ex_stats (s : string) : option dist :=
  if String.eqb s "uniform" then Some (mk_dist [] (fun a => xleb (Fin 0) (get "scale" a (Fin 1))) interval)
  else if String.eqb s "beta" then Some (mk_dist ["a"; "b"]%string (fun a => xltb (Fin 0) (get "a" a NaN) && xltb (Fin 0) (get "b" a NaN)) interval)
  else if String.eqb s "norm" then Some (mk_dist [] (fun _ => true) (fun _ => (NInf, PInf)))
  else if String.eqb s "lognorm" then Some (mk_dist ["s"]%string (fun _ => true) (fun a => (get "loc" a (Fin 0), PInf)))
  else None.
(** [loc + scale * u] with u = 1/2 or 1/3 *)
Definition ex_draw (r i : nat) (s : string) (a : dict) (m : nat) : list xnum :=
  repeat (xadd (get "loc" a (Fin 0)) (xmul (get "scale" a (Fin 1)) (Fin (if Nat.even (r + i) then Q2Qc (1 # 2) else Q2Qc (1 # 3))))) m.
Lemma ex_draw_length : draws_have_length ex_draw.
Proof. intros r i s a m. apply repeat_length. Qed.
Lemma ex_draw_affine : forall r i m lo sc, exists us, ex_draw r i "norm" [("loc", lo); ("scale", sc)]%string m = map (fun q => xadd lo (xmul sc (Fin q))) us.
Proof.
  intros r i m lo sc. exists (repeat (if Nat.even (r + i) then Q2Qc (1 # 2) else Q2Qc (1 # 3)) m). unfold ex_draw. cbn [get]. change (String.eqb "loc" "loc") with true. change (String.eqb "scale" "loc") with false. change (String.eqb "scale" "scale") with true.
  induction m as [|m IH]; [reflexivity|]. cbn [repeat map]. f_equal. exact IH.
Qed.
Definition q2 : Qc := Q2Qc (2 # 1). Definition q5 : Qc := Q2Qc (5 # 1).
Definition set2 : rset := mk_rset 2 (Some [(Fin q2, Fin q5); (Fin 0, Fin 1)]) None None None [].
Definition set1 : rset := mk_rset 1 None None None None [].
Definition beta_uniform : rv_arg := RSeq [EPair "beta" [("a", Fin q2); ("b", Fin q5)]%string; EPair "uniform" [("loc", Fin q2)]%string].
Lemma set2_fresh : fresh set2. Proof. split; [intros e [] | reflexivity]. Qed.
Lemma set1_fresh : fresh set1. Proof. split; [intros e [] | exact I]. Qed.
Lemma beta_uniform_ok : well_formed 2 beta_uniform /\ forall i, i < 2 -> exists x a d, asked (r_domain set2) beta_uniform i x a /\ ex_stats x = Some d /\ callable d a.
Proof.
  split; [reflexivity|]. intros [|[|i]] Hi; [| |lia]; do 3 eexists; (split; [reflexivity|]); (split; [reflexivity|]); apply callable_iff; split; vm_compute; reflexivity.
Qed.
Definition set_stale : rset := mk_rset 2 None None None None [(Some 7, None)].
