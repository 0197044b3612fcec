(** Model of the matrix products of include/BlasBooster/Core:
    Multiplication_Native.h (23-316), Multiplication_OpenBLAS.h,
    Multiplication_IntelMKL.h (16-105), Multiplication_TheBestPolicy.h (33-56).

    Simplifications:
    - sizes are unbounded [nat], except where a size becomes a C [int] argument
      of a BLAS routine;
    - the expression [c += x * y] with operands of three element types is the
      parameter [fma : T3 -> T1 -> T2 -> T3]; no law about it is assumed, so it
      may round as the machine does; [zero] is the element type's 0.0;
    - the operands and the result are different objects (the operators build a
      fresh result, MatrixMultExp.h 38-43);
    - the trackers (time measurement) are left out. *)
From Verif Require Import Base Dense_Model Sparse_Model.

(** The address an element iterator points to after [k] increments:
    plain pointer or striped iterator (StripedIterator.h 49-59). *)
Fixpoint si_iter (s : striped) (k : nat) (it : siter) : siter :=
  match k with 0 => it | S k => si_iter s k (si_inc s it) end.
Definition iter_nth {T} (d : dense T) (k : nat) : Z :=
  if sh_sub (d_sh d) then si_ptr (si_iter (win_striped (d_sh d)) k (sp_begin (win_striped (d_sh d))))
  else Z.of_nat (sh_base (d_sh d) + k).

(** [c(a) = fma c(a) x y] through a pointer. *)
Definition fma_at {T1 T2 T3} (fma : T3 -> T1 -> T2 -> T3) (c : dense T3) (a : nat) (x : T1) (y : T2)
  : res (dense T3) :=
  do z <- rd (d_buf c) a;
  do m <- wr (d_buf c) a (fma z x y);
  Ok (with_buf c m).

(** DenseMatrix.h 690-697 with a filler: [C.resize(r, c, AllFiller(0))]. *)
Definition resize_zero {T} (zero : T) (c : dense T) (r k : nat) : res (dense T) :=
  let '(c0, threw) := d_resize c r k in
  if threw then Throw else all_filler zero c0.

(** Multiplication_Native.h 23-53: GeneralDenseMultiplicationFunctor.  [iterB]
    runs through B once, [iterA] restarts for each column of B. *)
Definition mul_dd {T1 T2 T3} (fma : T3 -> T1 -> T2 -> T3) (zero : T3) (dbg : bool)
    (a : dense T1) (b : dense T2) (c : dense T3) : res (dense T3) :=
  do _ <- cassert dbg (d_cols a =? d_rows b);
  do c <- resize_zero zero c (d_rows a) (d_cols b);
  let nc := d_rows c in
  forM (d_cols b) (fun j c =>
    forM (d_rows b) (fun k c =>
      forM (d_rows a) (fun i c =>
        do x <- rdz (d_buf a) (iter_nth a (k * d_rows a + i));
        do y <- rdz (d_buf b) (iter_nth b (j * d_rows b + k));
        fma_at fma c (sh_base (d_sh c) + (j * nc + i)) x y) c) c) c.

(** Multiplication_Native.h 59-97: GeneralDenseMultiplicationFunctorUsingCursor. *)
Definition mul_cursor {T1 T2 T3} (fma : T3 -> T1 -> T2 -> T3) (zero : T3)
    (a : dense T1) (b : dense T2) (c : dense T3) : res (dense T3) :=
  let '(c, threw) := d_resize c (d_rows a) (d_cols b) in
  if threw then Throw else
  forM (d_rows a) (fun i c =>
    forM (d_cols b) (fun j c =>
      let pc := cur_begin (d_sh c) DRow i + j * cur_stride (d_sh c) DCol in
      do m <- wr (d_buf c) pc zero;
      do ads <- cur_addrs (d_sh a) DRow DCol i;
      foldM (fun '(k, pa) c =>
        do x <- rd (d_buf a) pa;
        do y <- rd (d_buf b) (cur_begin (d_sh b) DCol j + k * cur_stride (d_sh b) DRow);
        fma_at fma c pc x y) (enum ads) (with_buf c m)) c) c.

(** Multiplication_Native.h 158-205: sparse * sparse.  [nz x] is the condition
    [if (x)].  One counter stands for [offset] and the two write iterators. *)
Definition mul_ss {T1 T2 T3} (fma : T3 -> T1 -> T2 -> T3) (zero : T3) (nz : T3 -> bool) (dbg : bool)
    (a : sparse T1) (b : sparse T2) (c : sparse T3) : res (sparse T3) :=
  do _ <- cassert dbg (s_cols a =? s_rows b);
  let c := s_resize c (s_rows a) (s_cols b) 0 in
  do n <- s_nlines b;
  do st <- forM n (fun l '(vs, ks, offs, p) =>
      do bs <- s_range b l;
      do scr <- foldM (fun q scr =>
          do kb <- rd (s_key b) q;
          do y <- rd (s_val b) q;
          do r <- s_range a kb;
          foldM (fun q' scr =>
            do ka <- rd (s_key a) q';
            do x <- rd (s_val a) q';
            do z <- rd scr ka;
            wr scr ka (fma z x y)) r scr) bs (repeat (Some zero) (s_rows a));
      do offs <- wr offs l p;
      do st <- forM (s_rows a) (fun key '(vs, ks, p) =>
          do v <- rd scr key;
          if nz v then
            do vs <- wr vs p v;
            do ks <- wr ks p key;
            Ok (vs, ks, S p)
          else Ok (vs, ks, p)) (vs, ks, p);
      let '(vs, ks, p) := st in
      Ok (vs, ks, offs, p)) (s_val c, s_key c, s_off c, 0);
  let '(vs, ks, offs, p) := st in
  do offs <- wr offs n p;
  Ok (mkSparse (s_o c) (s_rows c) (s_cols c) (s_full c) vs ks offs).

(** Multiplication_Native.h 211-239: sparse * dense. *)
Definition mul_sd {T1 T2 T3} (fma : T3 -> T1 -> T2 -> T3) (zero : T3) (dbg : bool)
    (a : sparse T1) (b : dense T2) (c : dense T3) : res (dense T3) :=
  do _ <- cassert dbg (s_cols a =? d_rows b);
  do c <- resize_zero zero c (s_rows a) (d_cols b);
  forM (s_cols a) (fun l c =>
    do ps <- s_range a l;
    foldM (fun p c =>
      do k <- rd (s_key a) p;
      do x <- rd (s_val a) p;
      forM (d_cols b) (fun i c =>
        do y <- rd (d_buf b) (sh_base (d_sh b) + l + i * d_rows b);
        fma_at fma c (sh_base (d_sh c) + k + i * d_rows c) x y) c) ps c) c.

(** Multiplication_Native.h 245-280: dense * sparse. *)
Definition mul_ds {T1 T2 T3} (fma : T3 -> T1 -> T2 -> T3) (zero : T3) (dbg : bool)
    (a : dense T1) (b : sparse T2) (c : dense T3) : res (dense T3) :=
  do _ <- cassert dbg (d_cols a =? s_rows b);
  do c <- resize_zero zero c (d_rows a) (s_cols b);
  do n <- s_nlines b;
  forM n (fun l c =>
    do ps <- s_range b l;
    foldM (fun p c =>
      do k <- rd (s_key b) p;
      do y <- rd (s_val b) p;
      do ads <- cur_addrs (d_sh a) DCol DRow k;
      foldM (fun '(i, pa) c =>
        do x <- rd (d_buf a) pa;
        fma_at fma c (cur_begin (d_sh c) DCol l + i * cur_stride (d_sh c) DRow) x y) (enum ads) c) ps c) c.

(** Multiplication_Native.h 283-316: products with a zero matrix; [ra], [ca] are
    the dimensions of A, [rb], [cb] those of B, [z] the result object. *)
Definition mul_zero (dbg : bool) (ra ca rb cb : nat) (z : zmat) : res zmat :=
  do _ <- cassert dbg (ca =? rb);
  Ok (z_resize z ra cb).

(** ** BLAS *)

(** Conversion of a [size_t] to a 32-bit [int] (Multiplication_OpenBLAS.h 28-33;
    the MKL adapter reads the low half of the [size_t], Multiplication_IntelMKL.h
    39-48, which is the same value on a little-endian machine). *)
Definition to_int (n : nat) : Z :=
  let m := (Z.of_nat n mod 2 ^ 32)%Z in if (m <? 2 ^ 31)%Z then m else (m - 2 ^ 32)%Z.

(** The external ?gemm with transA = transB = 'N', alpha = 1, beta = 0, as its
    reference documentation specifies it: illegal arguments are reported and the
    call returns without touching C; otherwise C(i,j) is overwritten without
    being read.  [dot] is the routine's evaluation of the inner product from the
    pairs A(i,k), B(k,j) in order of k: how it sums is left open. *)
Definition gemm {T} (dot : list (T * T) -> T) (M N K : Z) (A : buf T) (lda : Z) (B : buf T) (ldb : Z)
    (C : buf T) (ldc : Z) : res (buf T) :=
  if ((M <? 0) || (N <? 0) || (K <? 0) || (lda <? Z.max 1 M) || (ldb <? Z.max 1 K) || (ldc <? Z.max 1 M))%Z
  then Ok C
  else
    let m := Z.to_nat M in let n := Z.to_nat N in let k := Z.to_nat K in
    let la := Z.to_nat lda in let lb := Z.to_nat ldb in let lc := Z.to_nat ldc in
    forM n (fun j C =>
      forM m (fun i C =>
        do ps <- mapM (fun q =>
            do x <- rd A (i + q * la);
            do y <- rd B (q + j * lb);
            Ok (x, y)) (seq 0 k);
        wr C (i + j * lc) (dot ps)) C) C.

(** Multiplication_OpenBLAS.h 12-38 (and 42-68 for float),
    Multiplication_IntelMKL.h 18-52: the dense adapters. *)
Definition mul_blas {T} (dot : list (T * T) -> T) (dbg : bool) (a b c : dense T) : res (dense T) :=
  do _ <- cassert dbg (d_cols a =? d_rows b);
  let '(c, threw) := d_resize c (d_rows a) (d_cols b) in
  if threw then Throw else
  do m <- gemm dot (to_int (d_rows a)) (to_int (d_cols b)) (to_int (d_cols a))
            (d_buf a) (to_int (d_rows a)) (d_buf b) (to_int (d_cols a)) (d_buf c) (to_int (d_rows a));
  Ok (with_buf c m).

(** Multiplication_TheBestPolicy.h 33-56: mixed float/double products are
    computed in float and converted back. *)
Definition mul_mixed_fd {F D} (toF : D -> F) (toD : F -> D) (dot : list (F * F) -> F) (dbg : bool)
    (a : dense F) (b : dense D) : res (dense D) :=
  do fc <- mul_blas dot dbg a (d_conv_same toF b) (d_default (d_orient a));
  Ok (d_conv_same toD fc).
Definition mul_mixed_df {F D} (toF : D -> F) (toD : F -> D) (dot : list (F * F) -> F) (dbg : bool)
    (a : dense D) (b : dense F) : res (dense D) :=
  do fc <- mul_blas dot dbg (d_conv_same toF a) b (d_default (d_orient a));
  Ok (d_conv_same toD fc).

(** The external mkl_?csrmm with transa = 'N', alpha = 1, beta = 0 and
    matdescra = "G..F": one-based row-major A, column-major B and C.  Element
    (i, q) of A is found at the positions pntrb(i) .. pntre(i)-1 (relative to
    pntrb(0)); C is overwritten.  As for [gemm], [dot] gets the pairs in storage
    order. *)
Definition csrmm {T} (dot : list (T * T) -> T) (M N : Z) (vals : buf T) (indx pntr : list (option Z))
    (B : buf T) (ldb : Z) (C : buf T) (ldc : Z) : res (buf T) :=
  let m := Z.to_nat M in let n := Z.to_nat N in
  let lb := Z.to_nat ldb in let lc := Z.to_nat ldc in
  do p0 <- rd pntr 0;
  forM m (fun i C =>
    do pb <- rd pntr i;
    do pe <- rd pntr (S i);
    forM n (fun j C =>
      do ps <- mapM (fun p =>
          do x <- rd vals p;
          do q <- rd indx p;
          do y <- rdz B (q - 1 + Z.of_nat (j * lb))%Z;
          Ok (x, y)) (seq (Z.to_nat (pb - p0)) (Z.to_nat (pe - pb)));
      wr C (i + j * lc) (dot ps)) C) C.

(** Multiplication_IntelMKL.h 55-105: sparse * dense through a row-major copy of
    A with keys and offsets increased by one and narrowed to [int]. *)
Definition mul_csrmm {T} (dot : list (T * T) -> T) (dbg : bool) (a : sparse T) (b c : dense T) : res (dense T) :=
  do _ <- cassert dbg (s_cols a =? d_rows b);
  let '(c, threw) := d_resize c (s_rows a) (d_cols b) in
  if threw then Throw else
  do rm <- s_conv (fun x => x) RowMajor a;
  let key := map (option_map (fun k => to_int (S k))) (s_key rm) in
  let off := map (option_map (fun k => to_int (S k))) (s_off rm) in
  do m <- csrmm dot (to_int (s_rows a)) (to_int (d_cols b)) (s_val rm) key off
            (d_buf b) (to_int (s_cols a)) (d_buf c) (to_int (s_rows a));
  Ok (with_buf c m).
