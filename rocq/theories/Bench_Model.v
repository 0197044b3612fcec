(** Model of the remaining back ends (Multiplication_Eigen.h,
    Multiplication_Blaze.h), of the benchmark's actions (src/Benchmark/Action_*.h)
    and of its main loop (src/Benchmark/benchmark.cpp 74-120).

    Simplifications:
    - Eigen and Blaze are modelled by what their documentation says about the
      calls made here; how they add up the products of an inner product is the
      parameter [dot];
    - the operands and the result are different objects (MatrixMultExp.h 36-43);
    - running times are left out; the number of threads (set before the runs)
      has no effect on the model;
    - [BrainTwister::Benchmark::benchIt(f)] runs [f] some number of times. *)
From Verif Require Import Base Dense_Model Sparse_Model Mult_Model Dyn_Model Norm_Model Tools_Model.

(** [eC = eA * eB] for column-major views of [m] x [n], [rb] x [l] and [m] x [l]
    elements starting at the data pointers (Multiplication_Eigen.h 23-27). *)
Definition view_product {T1 T2 T3} (dot : list (T1 * T2) -> T3) (m n l rb : nat)
    (A : buf T1) (B : buf T2) (C : buf T3) : res (buf T3) :=
  forM l (fun j C =>
    forM m (fun i C =>
      do ps <- mapM (fun q =>
          do x <- rd A (i + q * m);
          do y <- rd B (q + j * rb);
          Ok (x, y)) (seq 0 n);
      wr C (i + j * m) (dot ps)) C) C.

(** Multiplication_Eigen.h 12-50 (75-87 and 56-69 have the same text for mixed
    operands; Eigen does not accept them, so they cannot be instantiated). *)
Definition mul_eigen {T1 T2 T3} (dot : list (T1 * T2) -> T3) (dbg : bool) (a : dense T1) (b : dense T2) (c : dense T3)
  : res (dense T3) :=
  do _ <- cassert dbg (d_cols a =? d_rows b);
  let '(c, threw) := d_resize c (d_rows a) (d_cols b) in
  if threw then Throw else
  do m <- view_product dot (d_rows a) (d_cols a) (d_cols b) (d_rows b) (d_buf a) (d_buf b) (d_buf c);
  Ok (with_buf c m).

(** Construction of a [blaze::CustomMatrix<T, aligned, padded, columnMajor>] with
    the number of rows as spacing: the library throws unless it accepts the
    pointer (non-null and aligned, [usable]) and the spacing is a multiple of the
    number of elements in a SIMD register, [simd]. *)
Definition blaze_view {T} (usable : dense T -> bool) (simd : nat) (d : dense T) : res unit :=
  if usable d && (d_rows d mod simd =? 0) then Ok tt else Throw.

(** Multiplication_Blaze.h 12-96, all four combinations of float and double.  The
    product throws if the dimensions do not match. *)
Definition mul_blaze {T1 T2 T3} (u1 : dense T1 -> bool) (u2 : dense T2 -> bool) (u3 : dense T3 -> bool)
    (simd1 simd2 simd3 : nat) (dot : list (T1 * T2) -> T3) (dbg : bool) (a : dense T1) (b : dense T2) (c : dense T3)
  : res (dense T3) :=
  do _ <- cassert dbg (d_cols a =? d_rows b);
  let '(c, threw) := d_resize c (d_rows a) (d_cols b) in
  if threw then Throw else
  do _ <- blaze_view u1 simd1 a;
  do _ <- blaze_view u2 simd2 b;
  do _ <- blaze_view u3 simd3 c;
  if negb (d_cols a =? d_rows b) then Throw else
  do m <- view_product dot (d_rows a) (d_cols a) (d_cols b) (d_rows b) (d_buf a) (d_buf b) (d_buf c);
  Ok (with_buf c m).

(** [benchIt] with [n] runs of a body that replaces or updates the result. *)
Definition bench_it {S} (n : nat) (body : S -> res S) (s : S) : res S := forM n (fun _ => body) s.

(** What the linked libraries do: the inner products and, for Blaze, the SIMD
    widths and the pointers it accepts. *)
Record libs (F D : Type) := mkLibs {
  eigenF : list (F * F) -> F; eigenD : list (D * D) -> D;
  blazeF : list (F * F) -> F; blazeD : list (D * D) -> D;
  blazeFD : list (F * D) -> D; blazeDF : list (D * F) -> D;
  simdF : nat; simdD : nat; usableF : dense F -> bool; usableD : dense D -> bool
}.
Arguments eigenF {F D}. Arguments eigenD {F D}. Arguments blazeF {F D}. Arguments blazeD {F D}.
Arguments blazeFD {F D}. Arguments blazeDF {F D}. Arguments simdF {F D}. Arguments simdD {F D}.
Arguments usableF {F D}. Arguments usableD {F D}.

(** ActionProvider.cpp 33-107: the actions that multiply whole matrices; the
    block-wise action is [cut]/[mul_blocked]/[dense_of_blocked] (Dyn_Model.v). *)
Inductive action :=
| ANativeDense
| AOpenBLAS_d | AOpenBLAS_s | AMKL_d | AMKL_s | AEigen_d | AEigen_s
| ABlaze_d | ABlaze_s | ABlaze_sd | ABlaze_ds.

Section Actions.
Context {F D : Type} (ar : arith F D) (lb : libs F D).

(** [C = (A * B).template execute<I>()]: a product into a new matrix, then move
    assigned. *)
Definition replace_by {T} (mul : dense T -> res (dense T)) (_ : dense T) : res (dense T) :=
  mul (d_default ColMajor).

(** [Matrix<Dense,float> A(refA)] and [Matrix<Dense,double>(C)]: DenseMatrix.h 452-462. *)
Definition to_single (d : dense D) : dense F := d_conv_same (toF ar) d.
Definition to_double (d : dense F) : dense D := d_conv_same (toD ar) d.

(** The [execute] functions: Action_native_dense.h 22-33, Action_openblas_dgemm.h,
    Action_intelmkl_dgemm.h, Action_eigen_dgemm.h, Action_blaze_dgemm.h (body of
    the benchmark is one line), the sgemm variants (e.g. Action_eigen_sgemm.h
    23-38), Action_blaze_sdgemm.h and Action_blaze_dsgemm.h 22-33. *)
Definition execute (dbg : bool) (runs : nat) (x : action) (A B : dense D) : res (dense D) :=
  let c0 := d_default ColMajor in
  match x with
  | ANativeDense => bench_it runs (fun c => mul_dd (fmaD ar) (d0 ar) dbg A B c) c0
  | AOpenBLAS_d | AMKL_d => bench_it runs (replace_by (mul_blas (dotD ar) dbg A B)) c0
  | AEigen_d => bench_it runs (replace_by (mul_eigen (eigenD lb) dbg A B)) c0
  | ABlaze_d => bench_it runs (replace_by (mul_blaze (usableD lb) (usableD lb) (usableD lb)
                  (simdD lb) (simdD lb) (simdD lb) (blazeD lb) dbg A B)) c0
  | AOpenBLAS_s | AMKL_s =>
      rmap to_double (bench_it runs (replace_by (mul_blas (dotF ar) dbg (to_single A) (to_single B))) (d_default ColMajor))
  | AEigen_s =>
      rmap to_double (bench_it runs (replace_by (mul_eigen (eigenF lb) dbg (to_single A) (to_single B))) (d_default ColMajor))
  | ABlaze_s =>
      rmap to_double (bench_it runs (replace_by (mul_blaze (usableF lb) (usableF lb) (usableF lb)
                  (simdF lb) (simdF lb) (simdF lb) (blazeF lb) dbg (to_single A) (to_single B))) (d_default ColMajor))
  | ABlaze_sd => bench_it runs (replace_by (mul_blaze (usableF lb) (usableD lb) (usableD lb)
                  (simdF lb) (simdD lb) (simdD lb) (blazeFD lb) dbg (to_single A) B)) c0
  | ABlaze_ds => bench_it runs (replace_by (mul_blaze (usableD lb) (usableF lb) (usableD lb)
                  (simdD lb) (simdF lb) (simdD lb) (blazeDF lb) dbg A (to_single B))) c0
  end.
End Actions.

(** ** benchmark.cpp 74-120: the table.  One row per pair of matrices and action:
    index of the pair, position of the action in the settings, maximum norm and
    2-norm printed; the files are those of 114-117.  An exception ends the
    program with the rows printed so far (122-133); the result carries them and
    whether the program got to its end. *)
Section Table.
Context {D A : Type} (zero : D) (exec : A -> dense D -> dense D -> res (dense D))
  (diff : dense D -> dense D -> res (dense D)) (norms : dense D -> res (D * D)) (write_diff : bool).

Record row := mkRow { r_pair : nat; r_action : nat; r_max : D; r_two : D }.
Record output := mkOutput { o_rows : list row; o_files : list (nat * buf D) }.
(** Opening an existing file for writing replaces its contents. *)
Definition put_file (n : nat) (b : buf D) (fs : list (nat * buf D)) : list (nat * buf D) :=
  (n, b) :: filter (fun x => negb (fst x =? n)) fs.

(** The rest of the actions of one pair, 101-118. *)
Fixpoint rest (i k : nat) (acts : list A) (a b refC : dense D) (o : output) : output * res unit :=
  match acts with
  | [] => (o, Ok tt)
  | x :: acts =>
      match (do c <- exec x a b; do d <- diff c refC; do n <- norms d; Ok (d, n)) with
      | Ok (d, (m, t)) =>
          let o := mkOutput (o_rows o ++ [mkRow i k m t])
                     (if write_diff then put_file i (d_buf d) (o_files o) else o_files o) in
          rest i (S k) acts a b refC o
      | Throw => (o, Throw) | AssertFail => (o, AssertFail) | UB u => (o, UB u) | Diverge => (o, Diverge)
      end
  end.
(** All pairs, 85-119. *)
Fixpoint table_from (i : nat) (first : A) (others : list A) (ps : list (dense D * dense D)) (o : output) : output * res unit :=
  match ps with
  | [] => (o, Ok tt)
  | (a, b) :: ps =>
      match exec first a b with
      | Ok refC =>
          match rest i 1 others a b refC (mkOutput (o_rows o ++ [mkRow i 0 zero zero]) (o_files o)) with
          | (o, Ok _) => table_from (S i) first others ps o
          | r => r
          end
      | Throw => (o, Throw) | AssertFail => (o, AssertFail) | UB u => (o, UB u) | Diverge => (o, Diverge)
      end
  end.
Definition bench_table (m : mset D) (actions : list A) : output * res unit :=
  let o := mkOutput [] [] in
  match bench_setup m actions, actions with
  | Ok ps, first :: others => table_from 0 first others ps o
  | Ok _, [] => (o, Throw)
  | Throw, _ => (o, Throw) | AssertFail, _ => (o, AssertFail) | UB u, _ => (o, UB u) | Diverge, _ => (o, Diverge)
  end.
End Table.

(** The instance benchmark.cpp uses: [C - refC] (107) and the norms printed
    (111-112). *)
Definition diff_of {F D} (ar : arith F D) (dbg : bool) (c r : dense D) : res (dense D) :=
  d_binop (binD ar Minus) dbg ColMajor c r.
Definition norms_of {F D} (ar : arith F D) (nx : nops F D) (d : dense D) : res (D * D) :=
  do m <- norm_leaf ar nx NMax (LDd d); do t <- norm_leaf ar nx NTwo (LDd d); Ok (m, t).
