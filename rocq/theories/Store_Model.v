(** Saving and loading objects (bet/util.py:228-303) on P processes that share
    a file system. *)
From Coq Require Import List Arith Bool Ascii String DecimalString.
From Verif Require Import Err.
Import ListNotations.
Local Open Scope nat_scope.
Local Open Scope list_scope.

Notation str := (list ascii).
Definition lit (s : string) : str := list_ascii_of_string s.
Definition streqb (a b : str) : bool := if list_eq_dec ascii_dec a b then true else false.
Fixpoint prefixb (p s : str) : bool :=
  match p, s with
  | [], _ => true
  | x :: p', y :: s' => if ascii_dec x y then prefixb p' s' else false
  | _ :: _, [] => false
  end.
Definition suffixb (p s : str) : bool := prefixb (rev p) (rev s).
(** "{}".format(rank) *)
Definition show (n : nat) : str := lit (NilEmpty.string_of_uint (Nat.to_uint n)).

(** ** posixpath *)
Definition slash : ascii := "/"%char.
Definition is_slash (c : ascii) : bool := if ascii_dec c slash then true else false.
Fixpoint take_while (p : ascii -> bool) (s : str) : str :=
  match s with [] => [] | c :: r => if p c then c :: take_while p r else [] end.
Fixpoint drop_while (p : ascii -> bool) (s : str) : str :=
  match s with [] => [] | c :: r => if p c then drop_while p r else s end.
(** os.path.basename: everything after the last slash *)
Definition basename (f : str) : str := rev (take_while (fun c => negb (is_slash c)) (rev f)).
(** os.path.dirname: everything up to the last slash; trailing slashes are
    stripped unless there is nothing else *)
Definition dirname (f : str) : str :=
  let head := rev (drop_while (fun c => negb (is_slash c)) (rev f)) in
  if forallb is_slash head then head else rev (drop_while is_slash (rev head)).
(** os.path.join(a, b) *)
Definition join (a b : str) : str :=
  match b with
  | c :: _ => if is_slash c then b else
      match rev a with
      | [] => b
      | l :: _ => if is_slash l then a ++ b else a ++ slash :: b
      end
  | [] => match rev a with
          | [] => b
          | l :: _ => if is_slash l then a ++ b else a ++ slash :: b
          end
  end.

(** ** Files.  Different path strings are taken to be different files. *)
Inductive content (O : Type) := Complete (o : O) | Truncated.
Arguments Complete {O}. Arguments Truncated {O}.
Definition fs (O : Type) := list (str * content O).
Section FS.
Context {O : Type}.
Fixpoint lookup (p : str) (s : fs O) : option (content O) :=
  match s with
  | [] => None
  | (q, c) :: r => if streqb q p then Some c else lookup p r
  end.
Definition exists_file (p : str) (s : fs O) : bool :=
  match lookup p s with Some _ => true | None => false end.
Definition write (p : str) (c : content O) (s : fs O) : fs O :=
  (p, c) :: filter (fun q => negb (streqb (fst q) p)) s.

(** The two steps of pickle.dump(obj, open(name, "wb")), line 253: opening
    truncates the file; afterwards the bytes are written.  Simplification: the
    bytes of one dump arrive at once, so when several ranks dump into the same
    file the last dump is what a later load reads. *)
Inductive event := Open (p : str) | Dump (p : str) (o : O).
Definition step (s : fs O) (e : event) : fs O :=
  match e with
  | Open p => write p Truncated s
  | Dump p o => write p (Complete o) s
  end.
Definition run (es : list event) (s : fs O) : fs O := fold_left step es s.

(** lines 239-245: the file written by one rank *)
Definition proc_name (rank : nat) (f : str) : str :=
  join (dirname f) (lit "proc" ++ show rank ++ lit "_" ++ basename f).
Definition save_name (P rank : nat) (globalize : bool) (f : str) : str :=
  if (1 <? P) && negb globalize then proc_name rank f else f.
(** The events of one rank's save_object (o is the object after
    local_to_global if globalize). *)
Definition save_events (P rank : nat) (globalize : bool) (f : str) (o : O) : list event :=
  let name := save_name P rank globalize f ++ lit ".p" in [Open name; Dump name o].
(** One list of events per rank; an execution is an interleaving of them. *)
Definition save_all (P : nat) (globalize : bool) (f : str) (objs : list O) : list (list event) :=
  map (fun p => save_events P (fst p) globalize f (snd p)) (combine (seq 0 P) objs).

(** line 275: pickle.load(open(name, "rb")) *)
Definition read (p : str) (s : fs O) : result O :=
  match lookup p s with
  | None => Raise PyFileNotFound
  | Some Truncated => Raise PyEOFError
  | Some (Complete o) => Ok o
  end.
(** line 290: glob of dir/proc*_base.p, for a base name without wildcard
    characters.  A listed name lies directly in the directory. *)
Definition glob_match (f p : str) : bool :=
  let n := basename p in
  streqb p (join (dirname f) n) &&
  prefixb (lit "proc") n && suffixb (lit "_" ++ basename f ++ lit ".p") n &&
  (List.length (lit "proc" ++ lit "_" ++ basename f ++ lit ".p") <=? List.length n).
Definition glob_count (f : str) (s : fs O) : nat := List.length (filter (fun q => glob_match f (fst q)) s).

(** load_object without localize (lines 257-277) and load_object_parallel
    (lines 280-303).  Each nested call needs a file with a longer name, so the
    number of files is enough fuel. *)
Fixpoint load_fuel (fuel P rank : nat) (s : fs O) (f : str) : result O :=
  if prefixb (lit "proc_") f then read (f ++ lit ".p") s
  else if negb (exists_file (f ++ lit ".p") s) && exists_file (lit "proc0_" ++ f ++ lit ".p") s then
    if glob_count f s =? P then
      match fuel with
      | 0 => Raise PyFileNotFound
      | S k => load_fuel k P rank s (proc_name rank f)
      end
    else Raise DimNotMatching
  else read (f ++ lit ".p") s.
Definition load_object (P rank : nat) (s : fs O) (f : str) : result O :=
  load_fuel (S (List.length s)) P rank s f.
End FS.
Arguments event : clear implicits.
