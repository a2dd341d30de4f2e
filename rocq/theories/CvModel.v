(* Covariance matrices: validity check and reordering.  eigen_ext/include/eigen_ext/covariance.hpp (CV),
   eigen_ext/include/eigen_ext/matrix.hpp (MX).  double is read as R with one extra value for the non finite numbers. *)
From Coq Require Import ZArith Reals Lra Lia Bool.
From Verif Require Import Base Mx.
Open Scope R_scope.

(* A dense matrix: sizes known at run time; None is an infinite or undefined number. *)
Record dmat := mkD { d_rows : nat; d_cols : nat; d_at : nat -> nat -> option R }.
(* the number at an entry; used only after all entries were found finite *)
Definition num (m : dmat) (i j : nat) : R := match d_at m i j with Some x => x | None => 0 end.
Definition all_below (n : nat) (f : nat -> bool) : bool := forallb f (seq 0 n).
(* Eigen allFinite *)
Definition all_finite (m : dmat) : bool := all_below (d_rows m) (fun i => all_below (d_cols m) (fun j => match d_at m i j with Some _ => true | None => false end)).

(* Eigen LLT<Derived> (lower triangle), column k of L from the columns before it; Eigen llt_inplace::unblocked, the blocked form
   for large matrices computes the same numbers over R.  Only entries on and below the diagonal of A are read. *)
Definition pivot (A L : mx) (k : nat) : R := A k k - sum k (fun j => L k j * L k j).
Definition llt_step (A L : mx) (k : nat) : option mx :=
  let x := pivot A L k in
  if Rle_dec x 0 then None
  else Some (fun i j => if Nat.eqb j k then (if Nat.ltb i k then 0 else if Nat.eqb i k then sqrt x else (A i k - sum k (fun l => L i l * L k l)) / sqrt x) else L i j).
Fixpoint llt (A : mx) (n : nat) : option mx :=
  match n with O => Some (fun _ _ => 0) | S k => match llt A k with None => None | Some L => llt_step A L k end end.
(* MX 92-96 *)
Definition is_positive_definite (A : mx) (n : nat) : bool := match llt A n with Some _ => true | None => false end.
(* MX 98-108: rows 0 .. rows-2, columns after the row *)
Definition is_symmetric (A : mx) (rows cols : nat) (precision : R) : bool :=
  all_below (rows - 1) (fun r => forallb (fun c => if Rlt_dec precision (Rabs (A r c - A c r)) then false else true) (seq (r + 1) (cols - (r + 1)))).
(* CV 45-57; the last diagonal entry is not looked at *)
Definition is_valid_covariance (m : dmat) (precision : R) : bool :=
  if negb (all_finite m) || negb (Nat.eqb (d_rows m) (d_cols m)) || negb (is_positive_definite (num m) (d_rows m)) || negb (is_symmetric (num m) (d_rows m) (d_cols m) precision)
  then false
  else all_below (d_rows m - 1) (fun r => if Rlt_dec (num m r r) 0 then false else true).

(* CV 59-78.  `fixed`: the size is part of the type.  Otherwise the result starts empty and `<<` writes outside of it.  A negative
   boundary makes blocks of negative size. *)
Definition reorder (fixed : bool) (m : dmat) (boundary : Z) : res dmat :=
  if Z.eqb boundary 0 then Throw
  else if negb (Nat.eqb (d_rows m) (d_cols m)) then Throw
  else if Z.leb (Z.of_nat (d_rows m)) boundary then Throw
  else if Z.ltb boundary 0 then UB
  else if negb fixed then UB
  else
    let n := d_rows m in let b := Z.to_nat boundary in
    (* four blocks, in reading order: (b,b), (b,0) / (0,b), (0,0) *)
    Ok (mkD n n (fun i j =>
      if Nat.ltb i (n - b) then (if Nat.ltb j (n - b) then d_at m (b + i) (b + j) else d_at m (b + i) (j - (n - b)))%nat
      else (if Nat.ltb j (n - b) then d_at m (i - (n - b)) (b + j) else d_at m (i - (n - b)) (j - (n - b)))%nat)).

(* MX 116-119: Eigen minCoeff of the diagonal; on an empty diagonal it reads out of bounds *)
Fixpoint min_diag (A : mx) (k : nat) : R := match k with O => A 0%nat 0%nat | S j => Rmin (min_diag A j) (A k k) end.
Definition non_zero_diagonals (A : mx) (n : nat) : res bool :=
  match n with O => UB | S k => Ok (if Rlt_dec 0 (min_diag A k) then true else false) end.
