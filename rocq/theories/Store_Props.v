(** C23, C24, C64: save_object and load_object. *)
From Coq Require Import Ascii String Arith Lia List.
From Verif Require Import Err Store_Model Store_Spec Store_Proofs.
Import ListNotations.
Local Open Scope nat_scope.
Local Open Scope list_scope.

(** C23 on one process, for every history of completed and crashed saves, every
    name and every initial content: a completed save is read back until the next
    operation on the same name, whatever happens to other names; a save that
    crashed after opening the file leaves EOFError. *)
Theorem load_returns_last_save_partial : forall O (f : str) (h : list (op O)) s,
  match last_stored f h with
  | Object o => load_object 1 0 (run_history h s) f = Ok o
  | Unknown => load_object 1 0 (run_history h s) f = Raise PyEOFError
  | Nothing => True
  end.
Proof. exact @load_last_stored. Qed.
Print Assumptions load_returns_last_save_partial.
Example load_returns_last_save_ex :
  last_stored (lit "a") [Save (lit "a") 1; Save (lit "b") 2; Crash (lit "b") 3 1; Save (lit "a") 4; Crash (lit "a") 5 0] = Object 4.
Proof. reflexivity. Qed.

(** The crash clause of C23 is false: neither the old nor the new object is
    readable. *)
Theorem crash_keeps_old_or_new_refuted : forall O (old new : O) (f : str),
  load_object 1 0 (run_history [Save f old; Crash f new 1] []) f = Raise PyEOFError.
Proof. exact @crash_witness. Qed.
Print Assumptions crash_keeps_old_or_new_refuted.

(** On P processes, with globalize: for every order in which the ranks open and
    write the one file, all ranks load the same object, namely that of one of
    the ranks. *)
Theorem globalized_save_load_partial : forall O P f (objs : list O) l s,
  List.length objs = P -> 0 < P -> interleaving (save_all P true f objs) l ->
  exists o, In o objs /\ forall rank, load_object P rank (run l s) f = Ok o.
Proof. exact @globalized_save. Qed.
Print Assumptions globalized_save_load_partial.

(** C64 is false: objects that differ between ranks (for instance by their
    local arrays) are never all read back. *)
Theorem globalized_own_object_refuted : forall O P f (objs : list O) l s r r' a b,
  List.length objs = P -> 0 < P -> interleaving (save_all P true f objs) l ->
  nth_error objs r = Some a -> nth_error objs r' = Some b -> a <> b ->
  ~ (load_object P r (run l s) f = Ok a /\ load_object P r' (run l s) f = Ok b).
Proof. exact @globalized_same_object. Qed.
Print Assumptions globalized_own_object_refuted.
Example globalized_ex : exists l, interleaving (save_all 2 true (lit "a") [1; 2]) l.
Proof.
  exists [Open (lit "a.p"); Open (lit "a.p"); Dump (lit "a.p") 1; Dump (lit "a.p") 2].
  apply (inter_step [] _ [Dump _ 1] [[Open _; Dump _ 2]]). apply (inter_step [[Dump _ 1]] _ [Dump _ 2] []).
  apply (inter_step [] _ [] [[Dump _ 2]]). apply (inter_step [[]] _ [] []). apply inter_nil. intros m [<-|[<-|[]]]; reflexivity.
Qed.

(** C24 for a name without directory, if no other file gets in the way: for
    every interleaving, every rank reads back what it saved. *)
Theorem per_process_save_load_partial : forall O P f (objs : list O) l s r o,
  no_slash f -> prefixb (lit "proc_") f = false -> 1 < P -> List.length objs = P ->
  NoDup (map fst s) -> ~ In (f ++ lit ".p") (map fst s) ->
  (forall p, In p (map fst s) -> glob_match f p = true -> exists r, r < P /\ p = proc_name r f ++ lit ".p") ->
  interleaving (save_all P false f objs) l -> nth_error objs r = Some o ->
  load_object P r (run l s) f = Ok o.
Proof. exact @per_rank_load. Qed.
Print Assumptions per_process_save_load_partial.
Example per_process_save_load_ex : no_slash (lit "x") /\ prefixb (lit "proc_") (lit "x") = false /\
  load_object 2 1 (run (concat (save_all 2 false (lit "x") [1; 2])) [(lit "y.p", Complete 7); (lit "proc0_x.p", Complete 8)]) (lit "x") = Ok 2.
Proof. split; [intros [H|[]]; discriminate|]. split; vm_compute; reflexivity. Qed.

(** C24 is false as soon as the name has a directory: *)
Theorem per_process_directory_refuted : forall O P f (objs : list O) l s r,
  ~ no_slash f -> prefixb (lit "proc_") f = false -> 1 < P ->
  ~ In (f ++ lit ".p") (map fst s) -> ~ In (lit "proc0_" ++ f ++ lit ".p") (map fst s) ->
  interleaving (save_all P false f objs) l -> load_object P r (run l s) f = Raise PyFileNotFound.
Proof. exact @directory_load. Qed.
Print Assumptions per_process_directory_refuted.
(** although the objects are there, in that directory: *)
Theorem per_process_directory_files : forall O P d c n (objs : list O) l s r o, c <> slash -> no_slash n -> 1 < P -> length objs = P ->
  interleaving (save_all P false ((d ++ [c]) ++ slash :: n) objs) l -> nth_error objs r = Some o ->
  read ((d ++ [c]) ++ slash :: lit "proc" ++ show r ++ lit "_" ++ n ++ lit ".p") (run l s) = Ok o.
Proof. exact @directory_files. Qed.
Print Assumptions per_process_directory_files.
Example per_process_directory_ex :
  map fst (run (concat (save_all 2 false (lit "out/x") [1; 2])) []) = [lit "out/proc1_x.p"; lit "out/proc0_x.p"] /\
  load_object 2 0 (run (concat (save_all 2 false (lit "out/x") [1; 2])) []) (lit "out/x") = Raise PyFileNotFound.
Proof. split; vm_compute; reflexivity. Qed.

(** and other files can interfere: files of another set whose name ends alike,
    or an older file under the plain name. *)
Theorem per_process_similar_name_refuted : exists (l : list (event nat)) (s : fs nat),
  interleaving (save_all 2 false (lit "x") [1; 2]) l /\ map fst s = [lit "proc0_a_x.p"] /\
  forall r, load_object 2 r (run l s) (lit "x") = Raise DimNotMatching.
Proof. exact glob_clash_witness. Qed.
Print Assumptions per_process_similar_name_refuted.
Theorem per_process_old_file_refuted : exists (l : list (event nat)) (s : fs nat),
  interleaving (save_all 2 false (lit "x") [1; 2]) l /\ forall r, load_object 2 r (run l s) (lit "x") = Ok 7.
Proof. exact old_file_witness. Qed.
Print Assumptions per_process_old_file_refuted.
