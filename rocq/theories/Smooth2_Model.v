(** Smoothing of two-dimensional marginals (bet/postProcess/plotP.py:417-471).  An
    array of shape (N, M) is a function on pairs of indices. *)
From Coq Require Import ZArith List Arith Bool Reals.
From Verif Require Import Err CompareR_Model MarginalDist_Model Smooth_Model.
Import ListNotations.
Local Open Scope R_scope.

(** Lines 446-450: the kernel on the grid of the points of the two linspaces. *)
Definition kernel2 (nx ny : nat) (sx sy dx dy : R) (i j : nat) : R :=
  exp (- Rsqr (x_kernel nx dx i / sx) - Rsqr (x_kernel ny dy j / sy)).
(** Lines 451-455: zeros around the block of shape (nx, ny). *)
Definition padded2 (augx nx augy ny : nat) (f : nat -> nat -> R) (i j : nat) : R :=
  if Nat.leb augx i && Nat.ltb i (augx + nx) && Nat.leb augy j && Nat.ltb j (augy + ny) then f (i - augx)%nat (j - augy)%nat else 0.
(** Lines 457-458: fftshift along axis 0 and along axis 1. *)
Definition fftshift_0 (N : nat) (a : nat -> nat -> R) : nat -> nat -> R := fun i j => fftshift N (fun i' => a i' j) i.
Definition fftshift_1 (M : nat) (a : nat -> nat -> R) : nat -> nat -> R := fun i j => fftshift M (a i) j.
(** Lines 459-460: real(ifft2(fft2(a) * fft2(b))), the circular convolution. *)
Definition circular2 (N M : nat) (a b : nat -> nat -> R) (n m : nat) : R :=
  sum_to N (fun i => sum_to M (fun j => a i j * b ((n + N - i) mod N)%nat ((m + M - j) mod M)%nat)).
(** The entry of an array of shape (rows, cols) that is stored at position (i, j) of a
    block of shape (nx, ny): a length one is repeated. *)
Definition stored_at (nx ny : nat) (marg : list (list R)) (i j : nat) : R :=
  let row := nth (if Nat.eqb (length marg) nx then i else 0%nat) marg [] in
  nth (if Nat.eqb (length row) ny then j else 0%nat) row 0.
Definition fits (n len : nat) : bool := Nat.eqb len n || Nat.eqb len 1.
(** One pair of directions; None is nan (0/0). *)
Definition smooth_2D (nx ny : nat) (sx sy dx dy : R) (marg : list (list R)) : result (list (list (option R))) :=
  if fits nx (length marg) && forallb (fun row => fits ny (length row)) marg then
    let augx := padding sx dx in
    let augy := padding sy dy in
    let N := (nx + 2 * augx)%nat in
    let M := (ny + 2 * augy)%nat in
    let k := fftshift_1 M (fftshift_0 N (padded2 augx nx augy ny (kernel2 nx ny sx sy dx dy))) in
    let s := map (fun n => map (fun m => circular2 N M k (padded2 augx nx augy ny (stored_at nx ny marg)) (augx + n) (augy + m)) (seq 0 ny)) (seq 0 nx) in
    Ok (map (map (fun v => if Req_EM_T (rsum (map rsum s)) 0 then None else Some (v / rsum (map rsum s)))) s)
  else Raise PyValueError.
