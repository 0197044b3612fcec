(** Model of sparse * sparse through Intel MKL: Multiplication_IntelMKL.h 107-205
    (include/BlasBooster/Core) and the external mkl_?csrmultcsr it calls twice. *)
From Verif Require Import Base Dense_Model Sparse_Model Mult_Model.

(** A one-based compressed-row matrix handed to MKL: values, column indices, row
    pointers. *)
Record csr (T : Type) := mkCsr { c_val : buf T; c_indx : buf Z; c_ptr : buf Z }.
Arguments mkCsr {T}. Arguments c_val {T}. Arguments c_indx {T}. Arguments c_ptr {T}.

(** Row [i] (zero-based) of such a matrix: its (column, value) pairs. *)
Definition csr_row {T} (a : csr T) (i : nat) : res (list (Z * T)) :=
  do b <- rd (c_ptr a) i;
  do e <- rd (c_ptr a) (S i);
  mapM (fun t =>
    do j <- rdz (c_indx a) (b - 1 + Z.of_nat t)%Z;
    do x <- rdz (c_val a) (b - 1 + Z.of_nat t)%Z;
    Ok (j, x)) (seq 0 (Z.to_nat (e - b))).

(** Row [i] of the product of an (. x n) and an (n x k) matrix, following the
    documentation of mkl_?csrmultcsr with trans = 'N': every element of the row of
    A selects a row of B; an index of A outside 1..n makes the routine read a row B
    does not have, an index of B outside 1..k makes it leave its work array of k
    columns.  [sort] = 8 makes it deliver the columns in increasing order.  A
    column is present as soon as one pair meets there, also when the values cancel.
    As for [gemm] and [csrmm], [dot] is the routine's way of summing the pairs. *)
Definition csr_prod_row {T} (dot : list (T * T) -> T) (n k : nat) (a b : csr T) (i : nat) : res (list (Z * T)) :=
  do ra <- csr_row a i;
  do ts <- mapM (fun '(q, x) =>
      if ((q <? 1) || (Z.of_nat n <? q))%Z then UB OOBRead else
      do rb <- csr_row b (Z.to_nat (q - 1));
      mapM (fun '(j, y) =>
        if ((j <? 1) || (Z.of_nat k <? j))%Z then UB OOBWrite else Ok (j, (x, y))) rb) ra;
  Ok (flat_map (fun j =>
        match map snd (filter (fun t => (fst t =? Z.of_nat j)%Z) (concat ts)) with
        | [] => []
        | ps => [(Z.of_nat j, dot ps)]
        end) (seq 1 k)).

(** request = 1: only the row pointers of the product are computed. *)
Definition csrmultcsr1 {T} (dot : list (T * T) -> T) (m n k : nat) (a b : csr T) (ic : buf Z) : res (buf Z) :=
  do ic <- wr ic 0 1%Z;
  forM m (fun i ic =>
    do r <- csr_prod_row dot n k a b i;
    do p <- rd ic i;
    wr ic (S i) (p + Z.of_nat (length r))%Z) ic.

(** request = 2: the row pointers are those of an earlier call; values and column
    indices are stored. *)
Definition csrmultcsr2 {T} (dot : list (T * T) -> T) (m n k : nat) (a b : csr T) (ic : buf Z)
    (st : buf T * buf Z) : res (buf T * buf Z) :=
  forM m (fun i st =>
    do r <- csr_prod_row dot n k a b i;
    do p <- rd ic i;
    foldM (fun '(t, (j, x)) '(c, jc) =>
      do c <- wr c (Z.to_nat (p - 1) + t) x;
      do jc <- wr jc (Z.to_nat (p - 1) + t) j;
      Ok (c, jc)) (enum r) st) st.

(** Multiplication_IntelMKL.h 109-203.  Keys and offsets are increased by one and
    narrowed to [int] (127-145); the arrays are passed as compressed rows whatever
    the orientation P of the matrices.  The first call passes (rows A, columns A,
    columns B) (153-171), the second (rows A, columns B, columns A) (175-193).
    Simplifications: [C_key] and [C_offset] start with zeros (147-148), here they
    start unset: a cell MKL does not set ends as 2^64-1 in C++ and as an unset one
    here; the argument [nzmax], an integer cast to a pointer (169, 191), is not
    used for request 1 and 2; [info] is 0 for them. *)
Definition mul_csrmultcsr {T} (dot : list (T * T) -> T) (dbg : bool) (a b c : sparse T) : res (sparse T) :=
  do _ <- cassert dbg (s_cols a =? s_rows b);
  let c := s_resize c (s_rows a) (s_cols b) 0 in
  let up := map (option_map (fun k => to_int (S k))) in
  let xa := mkCsr (s_val a) (up (s_key a)) (up (s_off a)) in
  let xb := mkCsr (s_val b) (up (s_key b)) (up (s_off b)) in
  let m := Z.to_nat (to_int (s_rows a)) in
  let n := Z.to_nat (to_int (s_cols a)) in
  let l := Z.to_nat (to_int (s_cols b)) in
  do ic <- csrmultcsr1 dot m n l xa xb (alloc (length (s_off c)));
  do st <- csrmultcsr2 dot m l n xa xb ic (s_val c, alloc (length (s_key c)));
  let down := map (option_map (fun z => Z.to_nat (z - 1))) in
  Ok (mkSparse (s_o c) (s_rows c) (s_cols c) (s_full c) (fst st) (down (snd st)) (down ic)).
