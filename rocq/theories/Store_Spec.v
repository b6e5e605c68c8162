From Coq Require Import List Arith Ascii.
From Verif Require Import Err Store_Model.
Import ListNotations.

(** l is an interleaving of the lists ls. *)
Inductive interleaving {A} : list (list A) -> list A -> Prop :=
| inter_nil ls : (forall l, In l ls -> l = []) -> interleaving ls []
| inter_step pre x t post l : interleaving (pre ++ t :: post) l -> interleaving (pre ++ (x :: t) :: post) (x :: l).

(** A history of one process: completed saves, and saves that crash after the
    given number of steps (of opening and writing). *)
Inductive op (O : Type) := Save (f : str) (o : O) | Crash (f : str) (o : O) (steps : nat).
Arguments Save {O}. Arguments Crash {O}.

(** What a reliable store would answer: the object of the last save to that
    name, if the last operation on the name was a completed save. *)
Inductive stored (O : Type) := Nothing | Object (o : O) | Unknown.
Arguments Nothing {O}. Arguments Object {O}. Arguments Unknown {O}.
Definition after {O} (f : str) (cur : stored O) (x : op O) : stored O :=
  match x with
  | Save g o => if list_eq_dec ascii_dec g f then Object o else cur
  | Crash g o steps => if list_eq_dec ascii_dec g f then
                         match steps with 0 => cur | 1 => Unknown | _ => Object o end
                       else cur
  end.
Definition last_stored {O} (f : str) (h : list (op O)) : stored O := fold_left (after f) h Nothing.

(** Running a history of one process: what reaches the file system of each
    operation. *)
Definition op_events {O} (x : op O) : list (event O) :=
  match x with
  | Save f o => save_events 1 0 true f o
  | Crash f o k => firstn k (save_events 1 0 true f o)
  end.
Definition run_history {O} (h : list (op O)) (s : fs O) : fs O := fold_left (fun s x => run (op_events x) s) h s.

(** A file name without directory. *)
Definition no_slash (n : str) : Prop := ~ In slash n.
