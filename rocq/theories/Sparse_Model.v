(** Model of sparse and zero matrices and of element-wise plus / minus.
    Sources (include/BlasBooster/Core): SparseStorage.h 82-175, SparseMatrix.h,
    ZeroMatrix.h, DenseMatrix.h 592-660, Transposition.h 34-87,
    MatrixFiller.h 46-71, Occupation.h, BinaryFunctors.h 22-420.

    Simplifications:
    - sizes are unbounded [nat];
    - the three arrays of a sparse matrix are always owned (the library has no
      sparse matrix over foreign memory);
    - where the C++ code advances a value iterator, a key iterator and the
      counter [offset] in lockstep the model keeps one counter;
    - the number of significant elements used by the dense -> sparse conversion
      is an argument [nnz]; [d_count] is its freshly computed value, Check_Model.v
      models the cached one. *)
From Verif Require Import Base Dense_Model.

(** SparseMatrix.h 30-60, SparseStorage.h 172-174, Dimension.h 117-119. *)
Record sparse (T : Type) := mkSparse {
  s_o : orient;
  s_rows : nat;
  s_cols : nat;
  s_full : nat;          (* full_size_ *)
  s_val : buf T;         (* value_ *)
  s_key : buf nat;       (* key_ *)
  s_off : buf nat        (* offset_ *)
}.
Arguments mkSparse {T}. Arguments s_o {T}. Arguments s_rows {T}. Arguments s_cols {T}.
Arguments s_full {T}. Arguments s_val {T}. Arguments s_key {T}. Arguments s_off {T}.

(** Dimension.h 92-110. *)
Definition s_major {T} (s : sparse T) : nat :=
  match s_o s with RowMajor => s_cols s | ColMajor => s_rows s end.
Definition s_minor {T} (s : sparse T) : nat :=
  match s_o s with RowMajor => s_rows s | ColMajor => s_cols s end.

(** SparseStorage.h 146: nnz() is the number of allocated values. *)
Definition s_nnz {T} (s : sparse T) : nat := length (s_val s).

(** SparseMatrix.h 158-161: default constructor. *)
Definition s_default {T} (o : orient) : sparse T := mkSparse o 0 0 0 [] [] [].

(** SparseMatrix.h 163-173 with NoFiller: [nnz ? nnz : nr*nc] values and keys,
    [nbColumns + 1] offsets whatever the orientation. *)
Definition s_new {T} (o : orient) (r c nnz : nat) : sparse T :=
  let n := if nnz =? 0 then r * c else nnz in
  mkSparse o r c (r * c) (alloc n) (alloc n) (alloc (c + 1)).

(** SparseMatrix.h 263-270, SparseStorage.h 112-116: an array of the right size
    is kept with its contents. *)
Definition s_resize {T} (s : sparse T) (r c nnz : nat) : sparse T :=
  let n := if nnz =? 0 then r * c else nnz in
  mkSparse (s_o s) r c (r * c) (st_resize (s_val s) n) (st_resize (s_key s) n)
           (st_resize (s_off s) (c + 1)).

(** Loop [for (cur = beginOffset(); cur != endOffset() - 1; ++cur)]: number of
    iterations; with an empty offset array the end lies before the begin. *)
Definition s_nlines {T} (s : sparse T) : res nat :=
  match length (s_off s) with 0 => UB OOBRead | S n => Ok n end.

(** Inner loop [for (k = begin + off[l]; k != begin + off[l+1]; ++k)]: the
    positions visited. *)
Definition s_range {T} (s : sparse T) (l : nat) : res (list nat) :=
  do b <- rd (s_off s) l;
  do e <- rd (s_off s) (S l);
  ptr_loop (S (e - b)) b e 1.

(** ** Conversions *)

(** Occupation.h 15-27, [countDesiredElements] for dense matrices. *)
Definition d_count {T} (chk : T -> bool) (d : dense T) : res nat :=
  do ads <- iter_addrs d;
  foldM (fun a n => do v <- rdz (d_buf d) a; Ok (if chk v then S n else n)) ads 0.

(** SparseMatrix.h 183-224: from a dense matrix (or window).  The outer cursor is
    a Column cursor for equal orientations and a Row cursor otherwise; its range
    is the target's minor dimension. *)
Definition s_of_dense_nnz {T U} (cv : T -> U) (chk : T -> bool) (o : orient) (nnz : nat)
    (d : dense T) : res (sparse U) :=
  let minor := match o with RowMajor => d_rows d | ColMajor => d_cols d end in
  let '(d1, d2) := if orient_eqb o (d_orient d) then (DCol, DRow) else (DRow, DCol) in
  do st <- forM minor (fun l '(vs, ks, offs, n) =>
      do offs <- wr offs l n;
      do ads <- cur_addrs (d_sh d) d1 d2 l;
      do st <- foldM (fun '(k, a) '(vs, ks, n) =>
          do v <- rd (d_buf d) a;
          if chk v then
            do vs <- wr vs n (cv v);
            do ks <- wr ks n k;
            Ok (vs, ks, S n)
          else Ok (vs, ks, n)) (enum ads) (vs, ks, n);
      let '(vs, ks, n) := st in Ok (vs, ks, offs, n))
    (alloc nnz, alloc nnz, alloc (minor + 1), 0);
  let '(vs, ks, offs, n) := st in
  do offs <- wr offs minor n;
  Ok (mkSparse o (d_rows d) (d_cols d) (d_rows d * d_cols d) vs ks offs).

Definition s_of_dense {T U} (cv : T -> U) (chk : T -> bool) (o : orient) (d : dense T)
  : res (sparse U) :=
  do nnz <- d_count chk d; s_of_dense_nnz cv chk o nnz d.

(** DenseMatrix.h 591-615 (same orientation) and 617-641 (different orientation). *)
Definition d_of_sparse {T U} (cv : T -> U) (zero : U) (o : orient) (s : sparse T) : res (dense U) :=
  let sh := own_shape o (s_rows s) (s_cols s) in
  let same := orient_eqb o (s_o s) in
  let maj := getMajorDimension sh in
  let b0 : buf U := repeat (Some zero) (s_full s) in
  do n <- s_nlines s;
  do b <- forM n (fun l b =>
      do ks <- s_range s l;
      foldM (fun p b =>
        do k <- rd (s_key s) p;
        do v <- rd (s_val s) p;
        wr b (if same then l * maj + k else l + k * maj) (cv v)) ks b) b0;
  Ok (mkDense sh (s_rows s * s_cols s) b true).

(** DenseMatrix.h 643-650: from a zero matrix. *)
Definition d_of_zero {U} (zero : U) (o : orient) (r c : nat) : dense U :=
  mkDense (own_shape o r c) (r * c) (repeat (Some zero) (r * c)) true.

(** ** Transposition.h 34-87.  The accumulation loop starts at offset 2 and runs
    until the end is hit exactly. *)
Definition s_transpose {T} (m : sparse T) : res (sparse T) :=
  let t0 : sparse T := s_new (s_o m) (s_cols m) (s_rows m) (s_nnz m) in
  let offs0 : buf nat := map (fun _ => Some 0) (s_off t0) in
  do n <- s_nlines m;
  do offs <- forM n (fun l offs =>
      do ks <- s_range m l;
      foldM (fun p offs =>
        do k <- rd (s_key m) p;
        do x <- rd offs (1 + k);
        wr offs (1 + k) (S x)) ks offs) offs0;
  do offs <- (if length offs <? 2 then UB OOBRead
              else foldM (fun i offs =>
                     do x <- rd offs i;
                     do y <- rd offs (i - 1);
                     wr offs i (x + y)) (seq 2 (length offs - 2)) offs);
  do st <- forM n (fun l st =>
      do ks <- s_range m l;
      foldM (fun p '(vs, tk, cur) =>
        do k <- rd (s_key m) p;
        do o <- rd offs k;
        do q <- rd cur k;
        do v <- rd (s_val m) p;
        do vs <- wr vs (o + q) v;
        do tk <- wr tk (o + q) l;
        do cur <- wr cur k (S q);
        Ok (vs, tk, cur)) ks st)
    (s_val t0, s_key t0, repeat (Some 0) (length offs - 1) : buf nat);
  let '(vs, tk, _) := st in
  Ok (mkSparse (s_o t0) (s_rows t0) (s_cols t0) (s_full t0) vs tk offs).

(** SparseMatrix.h 175-181: sparse -> sparse (the checker is ignored). *)
Definition s_conv {T U} (cv : T -> U) (o : orient) (s : sparse T) : res (sparse U) :=
  do src <- (if orient_eqb o (s_o s) then Ok s else s_transpose s);
  Ok (mkSparse o (s_rows s) (s_cols s) (s_rows s * s_cols s)
        (map (option_map cv) (s_val src)) (s_key src) (s_off src)).

(** MatrixFiller.h 46-71: ContinuousNumberFiller for sparse matrices. *)
Definition s_continuous_filler {T} `{Scalar T} (s : sparse T) : res (sparse T) :=
  do vv <- foldM (fun i '(v, vs) => do vs <- wr vs i v; Ok (sadd v s1, vs))
             (seq 0 (length (s_val s))) (s1, s_val s);
  do n <- s_nlines s;
  do st <- forM n (fun l '(ks, offs) =>
      do ks <- forM (s_rows s) (fun k ks => wr ks (l * s_rows s + k) k) ks;
      do offs <- wr offs l (l * s_rows s);
      Ok (ks, offs)) (s_key s, s_off s);
  let '(ks, offs) := st in
  do offs <- wr offs n (n * s_rows s);
  Ok (mkSparse (s_o s) (s_rows s) (s_cols s) (s_full s) (snd vv) ks offs).

(** ** Plus and minus *)

(** BinaryFunctors.h 142-171: dense op dense, both plain (non-window) matrices;
    [C] is default constructed by the operators (450-487).  The operators
    require identical parameters, i.e. the same orientation; the functor itself
    does not. *)
Definition d_binop {A B C} (op : A -> B -> C) (dbg : bool) (oC : orient) (a : dense A) (b : dense B)
  : res (dense C) :=
  do _ <- cassert dbg (d_rows a =? d_rows b);
  do _ <- cassert dbg (d_cols a =? d_cols b);
  let c0 : dense C := fst (d_resize (d_default oC) (d_rows a) (d_cols a)) in
  do ads <- iter_addrs a;
  do m <- foldM (fun '(k, p) m =>
      do x <- rdz (d_buf a) p;
      do y <- rd (d_buf b) (sh_base (d_sh b) + k);
      wr m k (op x y)) (enum ads) (d_buf c0);
  Ok (with_buf c0 m).

(** BinaryFunctors.h 325-344: dense op= dense (plain matrices or windows).  When
    [b] has fewer elements than [a] its iterator runs past the end. *)
Definition d_assign_op {A B} (op : A -> B -> A) (a : dense A) (b : dense B) : res (dense A) :=
  do adsA <- iter_addrs a;
  do adsB <- iter_addrs b;
  foldM (fun '(k, p) d =>
      match nth_error adsB k with
      | None => UB OOBRead
      | Some q =>
          do x <- rdz (d_buf d) p;
          do y <- rdz (d_buf b) q;
          do m <- wrz (d_buf d) p (op x y);
          Ok (with_buf d m)
      end) (enum adsA) a.

(** The same loop for [a op= a] (also overlapping windows of one memory): both
    iterators walk one memory [m]; [pa], [pb] are the two address lists. *)
Definition d_assign_op_shared {A} (op : A -> A -> A) (a b : dense A) : res (buf A) :=
  do adsA <- iter_addrs a;
  do adsB <- iter_addrs b;
  foldM (fun '(k, p) m =>
      match nth_error adsB k with
      | None => UB OOBRead
      | Some q =>
          do x <- rdz m p;
          do y <- rdz m q;
          wrz m p (op x y)
      end) (enum adsA) (d_buf a).

(** BinaryFunctors.h 173-248: sparse op sparse.  [merge] are the three [while]
    loops over one line: [ia]/[ea], [ib]/[eb] positions and ends in A and B, [n]
    the position in C.  [ca] converts an A value, [ub] is [UnaryOperation], [op]
    is [BinaryOperation]. *)
Fixpoint merge {A B C} (ca : A -> C) (ub : B -> C) (op : A -> B -> C) (a : sparse A) (b : sparse B)
    (fuel ia ea ib eb : nat) (st : buf C * buf nat * nat) : res (buf C * buf nat * nat) :=
  let '(vs, ks, n) := st in
  match fuel with
  | 0 => Diverge
  | S f =>
      if negb (ia =? ea) && negb (ib =? eb) then
        do ka <- rd (s_key a) ia;
        do kb <- rd (s_key b) ib;
        if ka <? kb then
          do x <- rd (s_val a) ia;
          do vs <- wr vs n (ca x);
          do ks <- wr ks n ka;
          merge ca ub op a b f (S ia) ea ib eb (vs, ks, S n)
        else if kb <? ka then
          do y <- rd (s_val b) ib;
          do vs <- wr vs n (ub y);
          do ks <- wr ks n kb;
          merge ca ub op a b f ia ea (S ib) eb (vs, ks, S n)
        else
          do x <- rd (s_val a) ia;
          do y <- rd (s_val b) ib;
          do vs <- wr vs n (op x y);
          do ks <- wr ks n ka;
          merge ca ub op a b f (S ia) ea (S ib) eb (vs, ks, S n)
      else if negb (ia =? ea) then
        do ka <- rd (s_key a) ia;
        do x <- rd (s_val a) ia;
        do vs <- wr vs n (ca x);
        do ks <- wr ks n ka;
        merge ca ub op a b f (S ia) ea ib eb (vs, ks, S n)
      else if negb (ib =? eb) then
        do kb <- rd (s_key b) ib;
        do y <- rd (s_val b) ib;
        do vs <- wr vs n (ub y);
        do ks <- wr ks n kb;
        merge ca ub op a b f ia ea (S ib) eb (vs, ks, S n)
      else Ok st
  end.

Definition s_binop {A B C} (ca : A -> C) (ub : B -> C) (op : A -> B -> C) (dbg : bool)
    (a : sparse A) (b : sparse B) : res (sparse C) :=
  do _ <- cassert dbg (s_rows a =? s_rows b);
  do _ <- cassert dbg (s_cols a =? s_cols b);
  let c0 : sparse C := s_resize (s_default (s_o a)) (s_rows a) (s_cols a) 0 in
  do offs <- wr (s_off c0) 0 0;
  do n <- s_nlines a;
  do st <- forM n (fun l '(vs, ks, offs, p) =>
      do ia <- rd (s_off a) l;
      do ea <- rd (s_off a) (S l);
      do ib <- rd (s_off b) l;
      do eb <- rd (s_off b) (S l);
      do st <- merge ca ub op a b (S ((ea - ia) + (eb - ib))) ia ea ib eb (vs, ks, p);
      let '(vs, ks, p) := st in
      do offs <- wr offs (1 + l) p;
      Ok (vs, ks, offs, p)) (s_val c0, s_key c0, offs, 0);
  let '(vs, ks, offs, _) := st in
  Ok (mkSparse (s_o c0) (s_rows c0) (s_cols c0) (s_full c0) vs ks offs).

(** BinaryFunctors.h 250-282: dense op sparse, [C = A] and then
    [*(iterC + key) op= value] with [iterC] advanced by getNbRows() per line.
    [cv] is the element conversion of [C = A], [aop] is [OperationAssignment]. *)
Definition ds_binop {A B C} (cv : A -> C) (aop : C -> B -> C) (dbg : bool) (a : dense A) (b : sparse B)
  : res (dense C) :=
  do _ <- cassert dbg (d_rows a =? s_rows b);
  do _ <- cassert dbg (d_cols a =? s_cols b);
  let c0 := d_conv_same cv a in
  do n <- s_nlines b;
  do m <- forM n (fun l m =>
      do ks <- s_range b l;
      foldM (fun p m =>
        do k <- rd (s_key b) p;
        do y <- rd (s_val b) p;
        do x <- rd m (l * d_rows c0 + k);
        wr m (l * d_rows c0 + k) (aop x y)) ks m) (d_buf c0);
  Ok (with_buf c0 m).

(** BinaryFunctors.h 284-293: sparse op dense is forwarded with the operands
    exchanged, for minus as well as for plus. *)
Definition sd_binop {A B C} (cv : B -> C) (aop : C -> A -> C) (dbg : bool) (a : sparse A) (b : dense B)
  : res (dense C) := ds_binop cv aop dbg b a.

(** BinaryFunctors.h 357-380: dense op= sparse, through [A(key, col)]. *)
Definition ds_assign_op {A B} (aop : A -> B -> A) (dbg : bool) (a : dense A) (b : sparse B)
  : res (dense A) :=
  do _ <- cassert dbg (d_rows a =? s_rows b);
  do _ <- cassert dbg (d_cols a =? s_cols b);
  do n <- s_nlines b;
  forM n (fun l d =>
      do ks <- s_range b l;
      foldM (fun p d =>
        do k <- rd (s_key b) p;
        do y <- rd (s_val b) p;
        do x <- dget dbg d k l;
        dset dbg d k l (aop x y)) ks d) a.

(** BinaryFunctors.h 346-355 and 382-391: sparse op= sparse, sparse op= dense. *)
Definition ss_assign_op {A B} (a : sparse A) (b : sparse B) : res (sparse A) := Throw.
Definition sd_assign_op {A B} (a : sparse A) (b : dense B) : res (sparse A) := Throw.

(** ** Zero matrices (ZeroMatrix.h 20-104): dimensions and [full_size_]. *)
Record zmat := mkZmat { z_rows : nat; z_cols : nat; z_full : nat }.
Definition z_new (r c : nat) : zmat := mkZmat r c (r * c).
(** ZeroMatrix.h 99-104: resize leaves [full_size_]. *)
Definition z_resize (z : zmat) (r c : nat) : zmat := mkZmat r c (z_full z).

(** BinaryFunctors.h 295-322: M op Zero copies M; Zero op M copies M (for minus
    as well); Zero op Zero copies the first.  A matrix of any kind is copied by
    its defaulted copy assignment. *)
Definition mz_binop {M} (a : M) (z : zmat) : M := a.
Definition zm_binop {M} (z : zmat) (b : M) : M := b.
Definition zz_binop (a b : zmat) : zmat := a.
(** BinaryFunctors.h 393-421: M op= Zero (asserts only), Zero op= M throws. *)
Definition mz_assign_op {M} (dbg : bool) (rows cols : M -> nat) (a : M) (z : zmat) : res M :=
  do _ <- cassert dbg (rows a =? z_rows z);
  do _ <- cassert dbg (cols a =? z_cols z);
  Ok a.
Definition zm_assign_op {M} (z : zmat) (b : M) : res zmat := Throw.
