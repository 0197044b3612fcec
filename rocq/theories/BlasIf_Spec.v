(** The reference BLAS calling sequences (netlib BLAS, with the axpby, i?amin and gemm3m
    extensions of OpenBLAS and MKL, and the MKL sparse routines), family by family.
    Every argument is passed by address; arguments a routine only reads are const. *)
From Verif Require Import Base BlasIf_Model.
Require Import String.
Local Open Scope string_scope. Local Open Scope list_scope.

Section Families.
Let n : bool * ctype := (true, Int).      (* a size, a leading dimension or an increment *)
Let o : bool * ctype := (true, Char).     (* an option letter *)
Let i (t : ctype) : bool * ctype := (true, t).   (* scalar or array, read *)
Let u (t : ctype) : bool * ctype := (false, t).  (* scalar or array, written *)

(** Families of the same shape for all four element types; [p] is the type's letter. *)
Definition all_types (p : string) (t : ctype) : list fn := [
  mkFn Void (p ++ "axpy")%string [n; i t; i t; n; u t; n];
  mkFn Void (p ++ "axpby")%string [n; i t; i t; n; i t; u t; n];
  mkFn Void (p ++ "copy")%string [n; i t; n; u t; n];
  mkFn Void (p ++ "scal")%string [n; i t; u t; n];
  mkFn Void (p ++ "swap")%string [n; u t; n; u t; n];
  mkFn Int ("i" ++ p ++ "amax")%string [n; i t; n];
  mkFn Int ("i" ++ p ++ "amin")%string [n; i t; n];
  (* trans, m, n, kl, ku, alpha, A, lda, x, incx, beta, y, incy *)
  mkFn Void (p ++ "gbmv")%string [o; n; n; n; n; i t; i t; n; i t; n; i t; u t; n];
  mkFn Void (p ++ "gemv")%string [o; n; n; i t; i t; n; i t; n; i t; u t; n];
  (* uplo, trans, diag, n, ... *)
  mkFn Void (p ++ "tbmv")%string [o; o; o; n; n; i t; n; u t; n];
  mkFn Void (p ++ "tbsv")%string [o; o; o; n; n; i t; n; u t; n];
  mkFn Void (p ++ "tpmv")%string [o; o; o; n; i t; u t; n];
  mkFn Void (p ++ "tpsv")%string [o; o; o; n; i t; u t; n];
  mkFn Void (p ++ "trmv")%string [o; o; o; n; i t; n; u t; n];
  mkFn Void (p ++ "trsv")%string [o; o; o; n; i t; n; u t; n];
  (* transa, transb, m, n, k, alpha, A, lda, B, ldb, beta, C, ldc *)
  mkFn Void (p ++ "gemm")%string [o; o; n; n; n; i t; i t; n; i t; n; i t; u t; n];
  mkFn Void (p ++ "symm")%string [o; o; n; n; i t; i t; n; i t; n; i t; u t; n];
  mkFn Void (p ++ "syr2k")%string [o; o; n; n; i t; i t; n; i t; n; i t; u t; n];
  mkFn Void (p ++ "syrk")%string [o; o; n; n; i t; i t; n; i t; u t; n];
  mkFn Void (p ++ "trmm")%string [o; o; o; o; n; n; i t; i t; n; u t; n];
  mkFn Void (p ++ "trsm")%string [o; o; o; o; n; n; i t; i t; n; u t; n]].

(** Families of the real types only. *)
Definition real_types (p : string) (t : ctype) : list fn := [
  mkFn t (p ++ "asum")%string [n; i t; n];
  mkFn t (p ++ "nrm2")%string [n; i t; n];
  mkFn t (p ++ "dot")%string [n; i t; n; i t; n];
  mkFn Void (p ++ "rot")%string [n; u t; n; u t; n; i t; i t];
  mkFn Void (p ++ "rotg")%string [u t; u t; u t; u t];
  mkFn Void (p ++ "rotm")%string [n; u t; n; u t; n; i t];
  mkFn Void (p ++ "rotmg")%string [u t; u t; u t; i t; u t];
  mkFn Void (p ++ "ger")%string [n; n; i t; i t; n; i t; n; u t; n];
  mkFn Void (p ++ "sbmv")%string [o; n; n; i t; i t; n; i t; n; i t; u t; n];
  mkFn Void (p ++ "spmv")%string [o; n; i t; i t; i t; n; i t; u t; n];
  mkFn Void (p ++ "spr")%string [o; n; i t; i t; n; u t];
  mkFn Void (p ++ "spr2")%string [o; n; i t; i t; n; i t; n; u t];
  mkFn Void (p ++ "symv")%string [o; n; i t; i t; n; i t; n; i t; u t; n];
  mkFn Void (p ++ "syr")%string [o; n; i t; i t; n; u t; n];
  mkFn Void (p ++ "syr2")%string [o; n; i t; i t; n; i t; n; u t; n];
  (* the MKL sparse routines: transa, m, n, k, alpha, matdescra, val, indx, pntrb, pntre,
     B, ldb, beta, C, ldc *)
  mkFn Void (p ++ "csrmm")%string [o; n; n; n; i t; o; i t; n; n; n; i t; n; i t; u t; n];
  (* trans, request, sort, m, n, k, a, ja, ia, b, jb, ib, c, jc, ic, nzmax, info *)
  mkFn Void (p ++ "csrmultcsr")%string [o; n; n; n; n; n; u t; u Int; u Int; u t; u Int; u Int; u t; u Int; u Int; n; u Int]].

(** Families of the complex types only; [r] is the type of the parts, [rp] its letter. *)
Definition complex_types (p rp : string) (t r : ctype) : list fn := [
  mkFn r (rp ++ "cabs1")%string [i t];
  mkFn r (rp ++ p ++ "asum")%string [n; i t; n];
  mkFn r (rp ++ p ++ "nrm2")%string [n; i t; n];
  mkFn Void (p ++ "rotg")%string [u t; i t; u r; u t];
  mkFn Void (p ++ rp ++ "rot")%string [n; u t; n; u t; n; i r; i r];
  mkFn Void (p ++ rp ++ "scal")%string [n; i r; u t; n];
  mkFn Void (p ++ "gerc")%string [n; n; i t; i t; n; i t; n; u t; n];
  mkFn Void (p ++ "geru")%string [n; n; i t; i t; n; i t; n; u t; n];
  mkFn Void (p ++ "hbmv")%string [o; n; n; i t; i t; n; i t; n; i t; u t; n];
  mkFn Void (p ++ "hemv")%string [o; n; i t; i t; n; i t; n; i t; u t; n];
  mkFn Void (p ++ "her")%string [o; n; i r; i t; n; u t; n];
  mkFn Void (p ++ "her2")%string [o; n; i t; i t; n; i t; n; u t; n];
  mkFn Void (p ++ "hpmv")%string [o; n; i t; i t; i t; n; i t; u t; n];
  mkFn Void (p ++ "hpr")%string [o; n; i r; i t; n; u t];
  mkFn Void (p ++ "hpr2")%string [o; n; i t; i t; n; i t; n; u t];
  mkFn Void (p ++ "gemm3m")%string [o; o; n; n; n; i t; i t; n; i t; n; i t; u t; n];
  mkFn Void (p ++ "hemm")%string [o; o; n; n; i t; i t; n; i t; n; i t; u t; n];
  mkFn Void (p ++ "her2k")%string [o; o; n; n; i t; i t; n; i t; n; i r; u t; n];
  mkFn Void (p ++ "herk")%string [o; o; n; n; i r; i t; n; i r; u t; n];
  mkFn t (p ++ "dotc")%string [n; i t; n; i t; n];
  mkFn t (p ++ "dotu")%string [n; i t; n; i t; n]].

(** Dot products with mixed precision. *)
Definition mixed : list fn := [
  mkFn F32 "sdsdot" [n; i F32; i F32; n; i F32; n];
  mkFn F64 "dsdot" [n; i F32; n; i F32; n]].

Definition reference : list fn :=
  all_types "s" F32 ++ all_types "d" F64 ++ all_types "c" C32 ++ all_types "z" C64 ++
  real_types "s" F32 ++ real_types "d" F64 ++ complex_types "c" "s" C32 F32 ++ complex_types "z" "d" C64 F64 ++ mixed.
End Families.

(** The complex dot products: their Fortran functions return a complex number, which
    MKL's and g77's convention passes back through an added first argument. *)
Definition complex_dots : list string := ["cdotc"; "cdotu"; "zdotc"; "zdotu"].
(** The four sparse routines only MKL has. *)
Definition sparse_names : list string := ["scsrmm"; "dcsrmm"; "scsrmultcsr"; "dcsrmultcsr"].
(** Name of the routine of the library. *)
Definition routine (f : string) : string :=
  if existsb (String.eqb f) sparse_names then ("mkl_" ++ f)%string else (f ++ "_")%string.
(** The declarations that reach the library for [f]. *)
Definition prototype (f : fn) : fn :=
  if existsb (String.eqb (f_name f)) complex_dots then mkFn Void (f_name f ++ "_")%string ((false, f_ret f) :: f_args f)
  else mkFn (f_ret f) (routine (f_name f)) (f_args f).

Inductive vendor := OpenBLAS | MKL.
(** [f] is offered by [v]. *)
Definition offers (v : vendor) (f : fn) : Prop :=
  In f reference /\ (v = OpenBLAS -> ~ In (f_name f) sparse_names).
