From Coq Require Import ZArith List Arith Bool Lia.
From Verif Require Import Err Luq_Model Luq_Spec LuqObj_Model LuqObj_Spec.
Import ListNotations.
Local Open Scope nat_scope.

(** A small learner: series are lists of numbers, one per sample; it labels even
    and odd entries once it is asked to learn. *)
Record toy := mk_toy { toy_predict : list nat; toy_obs : option (list nat); toy_done : bool }.
Definition parity (l : list nat) : list Z := map (fun v => if Nat.even v then 0%Z else 1%Z) l.
Definition halves (l : list nat) : list (list nat) := [filter Nat.even l; filter Nat.odd l].
Definition toy_attributes (l : toy) : learned_data nat :=
  if toy_done l then mk_learned (Some [1; 1]) (Some (parity (toy_predict l))) (Some (halves (toy_predict l)))
                                (option_map parity (toy_obs l)) (option_map halves (toy_obs l))
  else mk_learned None None None None None.
Definition toy_env (P : nat) : environment nat nat (list nat) toy nat :=
  mk_env P (fun v t => match v with Some l => Ok (map (fun a => a + t) l) | None => Raise PyTypeError end) true
         (fun p o _ => match p with Some p => Ok (mk_toy p o false) | None => Raise PyTypeError end) toy_attributes.
Definition toy_learn (l : toy) : toy * option exn := (mk_toy (toy_predict l) (toy_obs l) true, None).
Definition toy_start : luq_object nat nat (list nat) toy := use_luq (mk_lset (Some [1; 2; 4; 5; 7]) None) (Some (mk_lset (Some [3; 4; 5; 6]) None)) 10.
(** Both sets are evaluated by setup; then the learner works and make_disc is called. *)
Definition toy_history : list (@call nat nat (list nat) toy) := [Setup; Learn toy_learn; MakeDisc; MakeDisc].
(** Observations made elsewhere. *)
Definition toy_history_by_hand : list (@call nat nat (list nat) toy) :=
  [GetPredictions; SetObserved (Some [1; 2; 3; 4]); Initialize None None None; Learn toy_learn; SetObserved None].
Definition toy_result : luq nat := mk_luq (parity [11; 12; 14; 15; 17]) (halves [11; 12; 14; 15; 17]) (parity [13; 14; 15; 16]) (halves [13; 14; 15; 16]).
