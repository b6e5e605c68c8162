(** Smoothing of marginals (bet/postProcess/plotP.py:369-414).  An array of length N
    is a function on the indices 0, ..., N-1. *)
From Coq Require Import ZArith List Arith Bool Reals.
From Verif Require Import Err CompareR_Model MarginalDist_Model.
Import ListNotations.
Local Open Scope R_scope.

Fixpoint sum_to (n : nat) (f : nat -> R) : R := match n with O => 0 | S k => sum_to k f + f k end.
(** int(math.ceil(x)) for x > 0 *)
Definition ceil_nat (x : R) : nat := Z.to_nat (1 - up (- x)).
(** Lines 395-397: number of padding entries, and the kernel at the points of
    np.linspace(-nx*dx/2, nx*dx/2, nx). *)
Definition padding (sigma dx : R) : nat := ceil_nat (3 * sigma / dx).
Definition x_kernel (nx : nat) (dx : R) (k : nat) : R := nth k (linspace (- (INR nx * dx / 2)) (INR nx * dx / 2) nx) 0.
Definition kernel (nx : nat) (sigma dx : R) (k : nat) : R := exp (- Rsqr (x_kernel nx dx k / sigma)).
(** Lines 398-402: zeros around the entries 0, ..., nx-1. *)
Definition padded (augx nx : nat) (f : nat -> R) (j : nat) : R :=
  if Nat.leb augx j then if Nat.ltb j (augx + nx) then f (j - augx)%nat else 0 else 0.
(** fftshift: roll by N // 2 *)
Definition fftshift (N : nat) (a : nat -> R) (j : nat) : R := a ((j + (N - N / 2)) mod N)%nat.
(** real(ifft(fft(a) * fft(b))): the circular convolution *)
Definition circular (N : nat) (a b : nat -> R) (n : nat) : R := sum_to N (fun j => a j * b ((n + N - j) mod N)%nat).
(** Lines 404-409, one marginal; None is nan (0/0).  [nx] is the number of bins; the
    assignment of line 402 needs nx entries (or one, which is repeated). *)
Definition smooth_1D (nx : nat) (sigma dx : R) (marg : list R) : result (list (option R)) :=
  if Nat.eqb (length marg) nx || Nat.eqb (length marg) 1 then
    let m := fun j => if Nat.eqb (length marg) nx then nth j marg 0 else nth 0 marg 0 in
    let augx := padding sigma dx in
    let N := (nx + 2 * augx)%nat in
    let s := map (fun n => circular N (fftshift N (padded augx nx (kernel nx sigma dx))) (padded augx nx m) (augx + n)) (seq 0 nx) in
    Ok (map (fun v => if Req_EM_T (rsum s) 0 then None else Some (v / rsum s)) s)
  else Raise PyValueError.
