(** Exceptions as values.  Every Python [raise], and every NumPy error that a
    modelled call can trigger, becomes a constructor of [exn]. *)
From Coq Require Import List.
Import ListNotations.

Inductive exn : Type :=
| LengthNotMatching      (* bet/sample.py:36  class length_not_matching *)
| DimNotMatching         (* bet/sample.py:42  class dim_not_matching *)
| DomainNotMatching      (* bet/sample.py:48  class domain_not_matching *)
| WrongInput             (* bet/sample.py:60  class wrong_input *)
| WrongArgumentType      (* bet/calculateP/{simpleFunP,calculateError}.py wrong_argument_type *)
| BadObject              (* bet/postProcess/postTools.py:17, bet/sampling/basicSampling.py:27 *)
| MissingModule          (* bet/sampling/useLUQ.py:11  class missing_module *)
| MissingAttribute       (* bet/postProcess/{plotP,plotDomains,plotVoronoi}.py missing_attribute *)
| PyValueError
| PyTypeError
| PyIndexError
| PyKeyError
| PyAttributeError
| PyNameError
| PyZeroDivision
| PyFileNotFound
| PyEOFError.

Inductive result (A : Type) : Type :=
| Ok (a : A)
| Raise (e : exn).
Arguments Ok {A} a.
Arguments Raise {A} e.

Definition bind {A B} (r : result A) (f : A -> result B) : result B :=
  match r with Ok a => f a | Raise e => Raise e end.

Definition rmap {A B} (f : A -> B) (r : result A) : result B :=
  match r with Ok a => Ok (f a) | Raise e => Raise e end.

Definition exn_eqb (a b : exn) : bool :=
  match a, b with
  | LengthNotMatching, LengthNotMatching | DimNotMatching, DimNotMatching
  | DomainNotMatching, DomainNotMatching
  | WrongInput, WrongInput | WrongArgumentType, WrongArgumentType
  | BadObject, BadObject | MissingModule, MissingModule | MissingAttribute, MissingAttribute | PyValueError, PyValueError
  | PyTypeError, PyTypeError | PyIndexError, PyIndexError | PyKeyError, PyKeyError
  | PyAttributeError, PyAttributeError | PyNameError, PyNameError
  | PyZeroDivision, PyZeroDivision | PyFileNotFound, PyFileNotFound
  | PyEOFError, PyEOFError => true
  | _, _ => false
  end.

Declare Scope err_scope.
Notation "'do' x <- r ; k" := (bind r (fun x => k))
  (at level 200, x name, r at level 100, k at level 200) : err_scope.
