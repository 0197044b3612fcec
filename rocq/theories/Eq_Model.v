(** Model of the approximate comparison of elements, of sparse and of zero
    matrices.  Sources: include/BlasBooster/Utilities/EqualWithinNumericalAccuracy.h,
    include/BlasBooster/Core/SparseStorage.h 121-137, SparseMatrix.h 118-133,
    ZeroMatrix.h 49-65.

    Elements are IEEE-754 numbers in the executable form of the standard
    library's Floats.SpecFloat (signed zeros, infinities, a single NaN,
    round-to-nearest-even). *)
From Coq Require Export ZArith.
From Coq Require Export Floats.SpecFloat.
From Verif Require Export Base Dense_Model Sparse_Model.

(** double: binary64; float: binary32. *)
Definition sub64 : spec_float -> spec_float -> spec_float := SFsub 53 1024.
Definition sub32 : spec_float -> spec_float -> spec_float := SFsub 24 128.
(** Conversion float -> double (exact). *)
Definition widen (x : spec_float) : spec_float :=
  match x with
  | S754_finite s m e => binary_normalize 53 1024 (cond_Zopp s (Zpos m)) e s
  | _ => x
  end.

(** numericalAccuracy, EqualWithinNumericalAccuracy.h 10-12: the doubles 1e-12
    and 1e-4 (mantissa and exponent). *)
Definition tol64 : spec_float := S754_finite false 4951760157141521 (-92).
Definition tol32 : spec_float := S754_finite false 7378697629483821 (-66).

(** equalWithinNumericalAccuracy, 17-21: the difference is formed in the common
    type, the comparison in double with the larger of the two tolerances. *)
Definition within_dd (x y : spec_float) : bool := SFleb (SFabs (sub64 x y)) tol64.
Definition within_df (x y : spec_float) : bool := SFleb (SFabs (sub64 x (widen y))) tol32.
Definition within_fd (x y : spec_float) : bool := SFleb (SFabs (sub64 (widen x) y)) tol32.
Definition within_ff (x y : spec_float) : bool := SFleb (widen (SFabs (sub32 x y))) tol32.

(** SparseStorage::equal, 129-132, inherited by the matrix: offsets, keys (an
    index type with accuracy 0), values; the dimensions are not compared. *)
Definition arr_equal {T U} (eqv : T -> U -> bool) (a : buf T) (b : buf U) : res bool :=
  if negb (length a =? length b) then Ok false else buf_equal eqv a b.
Definition sp_equal {T U} (eqv : T -> U -> bool) (a : sparse T) (b : sparse U) : res bool :=
  do x <- arr_equal Nat.eqb (s_off a) (s_off b);
  if x : bool then
    do y <- arr_equal Nat.eqb (s_key a) (s_key b);
    if y : bool then arr_equal eqv (s_val a) (s_val b) else Ok false
  else Ok false.

(** ZeroMatrix.h 49-60. *)
Definition z_equal (r c r' c' : nat) : bool := (r =? r') && (c =? c').

(** SparseMatrix.h 126-133: swap exchanges the arrays, nbRows_ and nbColumns_;
    [full_size_] stays. *)
Definition sp_swap {T} (a b : sparse T) : sparse T * sparse T :=
  let sw (x y : sparse T) := mkSparse (s_o x) (s_rows y) (s_cols y) (s_full x) (s_val y) (s_key y) (s_off y) in
  (sw a b, sw b a).
