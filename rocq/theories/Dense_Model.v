(** Model of dense matrices, windows (sub-matrices), cursors, the striped
    iterator, fillers, dense conversions, copy and transposition.
    Sources (include/BlasBooster/Core): Dimension.h, DenseMatrix.h, Cursor.h,
    CursorBase.h, StridedCursorBase.h, StripedIterator.h, Storage.h (striped
    proxy 505-662), MatrixFiller.h, Copy.h, Transposition.h 8-32.

    Simplifications used throughout this file:
    - sizes are unbounded [nat] (the C++ [size_t] arithmetic is assumed not to
      overflow) except in the striped iterator, where the wrap of
      [continuousSize-1] and [nbBlocks-1] is written out;
    - a matrix is a shape plus the memory it lives in.  An owning matrix has its
      own memory; a window has the memory of its parent, and an operation
      writing through a window returns the new contents of that memory;
    - the heap life cycle of the memory is modelled in Storage_Model.v; here a
      null data pointer is the empty memory [[]];
    - the norm and occupation caches are modelled in Check_Model.v. *)
From Verif Require Import Base.

(** Dimension.h 42-129 (VariableSize), LeadingDimension 134-160, and the data
    pointer of the storage as an index [sh_base] into the memory. *)
Record shape := mkShape {
  sh_o : orient;
  sh_rows : nat;
  sh_cols : nat;
  sh_sub : bool;       (* P::isSubMatrix *)
  sh_ldr : nat;        (* ldRows_ *)
  sh_ldc : nat;        (* ldColumns_ *)
  sh_base : nat        (* data_ *)
}.

(** DenseMatrix.h 270-278 / 260-268. *)
Definition getLdRows (sh : shape) : nat := if sh_sub sh then sh_ldr sh else sh_rows sh.
Definition getLdColumns (sh : shape) : nat := if sh_sub sh then sh_ldc sh else sh_cols sh.

(** Dimension.h 92-110. *)
Definition getMajorDimension (sh : shape) : nat :=
  match sh_o sh with RowMajor => sh_cols sh | ColMajor => sh_rows sh end.
Definition getMinorDimension (sh : shape) : nat :=
  match sh_o sh with RowMajor => sh_rows sh | ColMajor => sh_cols sh end.

(** DenseMatrix.h 724-764, [getPosition] (four overloads). *)
Definition position (dbg : bool) (sh : shape) (i j : nat) : res nat :=
  do _ <- cassert dbg (i <? sh_rows sh);
  do _ <- cassert dbg (j <? sh_cols sh);
  Ok (match sh_o sh with
      | ColMajor => i + j * getLdRows sh
      | RowMajor => i * getLdColumns sh + j
      end).

(** A matrix object: shape, [full_size_] (Dimension.h 119), memory,
    [ownMemory_] of the storage. *)
Record dense (T : Type) := mkDense {
  d_sh : shape;
  d_full : nat;
  d_buf : buf T;
  d_own : bool
}.
Arguments mkDense {T}. Arguments d_sh {T}. Arguments d_full {T}.
Arguments d_buf {T}. Arguments d_own {T}.

Definition with_buf {T} (d : dense T) (b : buf T) : dense T :=
  mkDense (d_sh d) (d_full d) b (d_own d).

Definition d_rows {T} (d : dense T) := sh_rows (d_sh d).
Definition d_cols {T} (d : dense T) := sh_cols (d_sh d).
Definition d_orient {T} (d : dense T) := sh_o (d_sh d).

(** DenseMatrix.h 713-722, [operator()]: read and write through it. *)
Definition dget {T} (dbg : bool) (d : dense T) (i j : nat) : res T :=
  do p <- position dbg (d_sh d) i j; rd (d_buf d) (sh_base (d_sh d) + p).
Definition dset {T} (dbg : bool) (d : dense T) (i j : nat) (v : T) : res (dense T) :=
  do p <- position dbg (d_sh d) i j;
  do b <- wr (d_buf d) (sh_base (d_sh d) + p) v;
  Ok (with_buf d b).

(** Dimension.h 85-87: getSize() returns the stored [full_size_]. *)
Definition d_getSize {T} (d : dense T) : nat := d_full d.

(** ** Construction *)

(** Shape of an owning matrix. *)
Definition own_shape (o : orient) (r c : nat) : shape := mkShape o r c false 0 0 0.

(** DenseMatrix.h 341-349 with NoFiller: storage(nbRows*nbColumns) is uninitialised. *)
Definition d_new {T} (o : orient) (r c : nat) : dense T :=
  mkDense (own_shape o r c) (r * c) (alloc (r * c)) true.

(** DenseMatrix.h 336-339: default constructor. *)
Definition d_default {T} (o : orient) : dense T := mkDense (own_shape o 0 0) 0 [] true.

(** DenseMatrix.h 361-366: external memory [m]. *)
Definition d_external {T} (o : orient) (r c : nat) (m : buf T) : dense T :=
  mkDense (own_shape o r c) (r * c) m false.

(** DenseMatrix.h 419-436: window of a column-major matrix.  The data pointer
    is advanced by [beginRow + beginColumn * other.getNbRows()], the leading
    dimensions are [other]'s dimensions (not its leading dimensions). *)
Definition d_window {T} (other : dense T) (nr nc br bc : nat) : dense T :=
  mkDense (mkShape ColMajor nr nc true (d_rows other) (d_cols other)
             (sh_base (d_sh other) + br + bc * d_rows other))
          (nr * nc) (d_buf other) false.

(** ** Cursors *)
Inductive dir := DRow | DCol | DMajor | DMinor.

(** Cursor.h 57-83, [begin]. *)
Definition cur_begin (sh : shape) (d : dir) (key : nat) : nat :=
  sh_base sh +
  match sh_o sh, d with
  | RowMajor, (DRow | DMinor) => key * getLdColumns sh
  | ColMajor, (DRow | DMajor) => key
  | RowMajor, (DCol | DMajor) => key
  | ColMajor, (DCol | DMinor) => key * getLdRows sh
  end.

(** Cursor.h 85-111, [end]. *)
Definition cur_end (sh : shape) (d : dir) (key : nat) : nat :=
  sh_base sh +
  match sh_o sh, d with
  | RowMajor, (DRow | DMinor) => key * getLdColumns sh + sh_cols sh
  | ColMajor, (DRow | DMajor) => key + getLdRows sh * sh_cols sh
  | RowMajor, (DCol | DMajor) => key + sh_rows sh * getLdColumns sh
  | ColMajor, (DCol | DMinor) => key * getLdRows sh + sh_rows sh
  end.

(** Cursor.h 116-194: step of the inner cursor for direction [d]
    (StridedCursorBase.h 22-26 or CursorBase.h 29-33). *)
Definition cur_stride (sh : shape) (d : dir) : nat :=
  match sh_o sh, d with
  | ColMajor, (DCol | DMinor) => getLdRows sh
  | RowMajor, (DRow | DMinor) => getLdColumns sh
  | _, _ => 1
  end.

(** [for (cur = begin; cur != end; cur += stride)]: the addresses visited.
    [Diverge] when the end is stepped over (in C++ the pointer leaves the
    allocation). *)
Fixpoint ptr_loop (fuel cur en stride : nat) : res (list nat) :=
  match fuel with
  | 0 => Diverge
  | S f =>
      if cur =? en then Ok []
      else do t <- ptr_loop f (cur + stride) en stride; Ok (cur :: t)
  end.

(** Addresses visited by an inner cursor [Cursor<Cursor<M,d1>,d2>] running over
    [outer.begin() .. outer.end()] where the outer cursor stands at [key]. *)
Definition cur_addrs (sh : shape) (d1 d2 : dir) (key : nat) : res (list nat) :=
  let b := cur_begin sh d1 key in
  let e := cur_end sh d1 key in
  ptr_loop (S (e - b)) b e (cur_stride sh d2).

(** Loop counter paired with the values of a list. *)
Definition enum {A} (l : list A) : list (nat * A) := combine (seq 0 (length l)) l.

(** ** Striped iterator (StripedIterator.h 8-87, Storage.h 505-662).
    Pointers are [Z] because [rend()] lies before the data. The sizes are
    64-bit: [continuousSize-1] and [nbBlocks-1] wrap. *)
Definition W64 : Z := (2 ^ 64)%Z.
Record striped := mkStriped { sp_data : Z; sp_cs : Z; sp_nb : Z; sp_sep : Z }.
Record siter := mkSiter { si_ptr : Z; si_pos : Z; si_blk : Z }.

(** StripedIterator.h 49-59. [block_] is an [int]; the model does not wrap it. *)
Definition si_inc (s : striped) (it : siter) : siter :=
  if (si_pos it =? (sp_cs s - 1) mod W64)%Z then
    mkSiter (if (si_blk it + 1 =? sp_nb s)%Z then si_ptr it + 1
             else si_ptr it + (sp_sep s + 1))%Z
            0 (si_blk it + 1)
  else mkSiter (si_ptr it + 1) (si_pos it + 1) (si_blk it).

(** StripedIterator.h 61-71. *)
Definition si_dec (s : striped) (it : siter) : siter :=
  if (si_pos it =? 0)%Z then
    mkSiter (if (si_blk it - 1 =? -1)%Z then si_ptr it - 1
             else si_ptr it - (sp_sep s + 1))%Z
            ((sp_cs s - 1) mod W64) (si_blk it - 1)
  else mkSiter (si_ptr it - 1) (si_pos it - 1) (si_blk it).

(** Storage.h 588-594 and 604-610: [begin()], [end()].  The offset of [end()] is
    computed in 64 bits; it is then added to a pointer, which interprets it as a
    signed displacement. *)
Definition to_signed (z : Z) : Z :=
  let m := (z mod W64)%Z in if (m <? W64 / 2)%Z then m else (m - W64)%Z.
Definition sp_begin (s : striped) : siter := mkSiter (sp_data s) 0 0.
Definition sp_end_ptr (s : striped) : Z :=
  (sp_data s + to_signed (sp_cs s * sp_nb s + ((sp_nb s - 1) mod W64) * sp_sep s))%Z.
(** Storage.h 596-602 and 612-618: [rbegin()], [rend()]. *)
Definition sp_rbegin (s : striped) : siter :=
  mkSiter (sp_data s + to_signed (sp_cs s * sp_nb s + ((sp_nb s - 1) mod W64) * sp_sep s - 1))%Z
          ((sp_cs s - 1) mod W64) (sp_nb s - 1).
Definition sp_rend_ptr (s : striped) : Z := (sp_data s - 1)%Z.

(** [for (it = begin(); it != end(); ++it)]: the addresses dereferenced.
    Equality compares pointers only (44-47). *)
Fixpoint si_loop (fuel : nat) (s : striped) (it : siter) (en : Z) : res (list Z) :=
  match fuel with
  | 0 => Diverge
  | S f =>
      if (si_ptr it =? en)%Z then Ok []
      else do t <- si_loop f s (si_inc s it) en; Ok (si_ptr it :: t)
  end.
Fixpoint si_rloop (fuel : nat) (s : striped) (it : siter) (en : Z) : res (list Z) :=
  match fuel with
  | 0 => Diverge
  | S f =>
      if (si_ptr it =? en)%Z then Ok []
      else do t <- si_rloop f s (si_dec s it) en; Ok (si_ptr it :: t)
  end.

(** Fuel that suffices for every terminating traversal: the end is never more
    than [size + nb*sep] pointer steps away. *)
Definition sp_fuel (s : striped) : nat :=
  S (Z.to_nat (sp_cs s * sp_nb s + sp_nb s * sp_sep s)).
Definition sp_addrs (s : striped) : res (list Z) :=
  si_loop (sp_fuel s) s (sp_begin s) (sp_end_ptr s).
Definition sp_raddrs (s : striped) : res (list Z) :=
  si_rloop (sp_fuel s) s (sp_rbegin s) (sp_rend_ptr s).

(** The striped storage of a window: DenseMatrix.h 434-435
    (separator = other.getNbRows() - nbRows, in 64 bits). *)
Definition win_striped (sh : shape) : striped :=
  mkStriped (Z.of_nat (sh_base sh)) (Z.of_nat (sh_rows sh)) (Z.of_nat (sh_cols sh))
            ((Z.of_nat (sh_ldr sh) - Z.of_nat (sh_rows sh)) mod W64)%Z.

(** Address lists used by loops [for (iter = M.begin(); iter != M.end(); ++iter)]
    over all elements: plain pointers for owning matrices (Storage.h 430-445),
    striped iterators for windows. *)
Definition iter_addrs {T} (d : dense T) : res (list Z) :=
  if sh_sub (d_sh d) then sp_addrs (win_striped (d_sh d))
  else Ok (map (fun k => Z.of_nat (sh_base (d_sh d) + k)) (seq 0 (length (d_buf d)))).

(** Access through a (possibly out of range) pointer. *)
Definition rdz {T} (b : buf T) (a : Z) : res T :=
  if (a <? 0)%Z then UB OOBRead else rd b (Z.to_nat a).
Definition rdzc {T} (b : buf T) (a : Z) : res (option T) :=
  if (a <? 0)%Z then UB OOBRead else rdc b (Z.to_nat a).
Definition wrz {T} (b : buf T) (a : Z) (v : T) : res (buf T) :=
  if (a <? 0)%Z then UB OOBWrite else wr b (Z.to_nat a) v.

(** ** Initializer list (DenseMatrix.h 368-391).
    [values.begin()->size()] of an empty outer list is undefined; a row shorter
    than the first one is read past its end; a longer one is cut. *)
Definition d_init_list {T} (o : orient) (values : list (list T)) : res (dense T) :=
  match values with
  | [] => UB OOBRead
  | first :: _ =>
      let d0 := d_new o (length values) (length first) in
      forM (length values) (fun i d =>
        match nth_error values i with
        | None => UB OOBRead
        | Some row =>
            do ads <- cur_addrs (d_sh d) DRow DCol i;
            foldM (fun '(k, a) d =>
              match nth_error row k with
              | None => UB OOBRead
              | Some v => do b <- wr (d_buf d) a v; Ok (with_buf d b)
              end) (enum ads) d
        end) d0
  end.

(** ** Fillers (MatrixFiller.h) *)

(** 14-31, AllFiller; also DenseMatrix.h 680-688, [operator=(T)]. *)
Definition all_filler {T} (v : T) (d : dense T) : res (dense T) :=
  do ads <- iter_addrs d;
  foldM (fun a d => do b <- wrz (d_buf d) a v; Ok (with_buf d b)) ads d.

(** 33-44, ContinuousNumberFiller for dense matrices: [value] starts at 1 and is
    increased by 1 after each element, in storage order. *)
Definition continuous_filler {T} `{Scalar T} (d : dense T) : res (dense T) :=
  do ads <- iter_addrs d;
  do r <- foldM (fun a '(v, d) =>
            do b <- wrz (d_buf d) a v; Ok (sadd v s1, with_buf d b)) ads (s1, d);
  Ok (snd r).

(** 74-94, HilbertFiller; [sdiv] is the element type's division. *)
Definition hilbert_filler {T} `{Scalar T} (sdiv : T -> T -> T) (d : dense T) : res (dense T) :=
  do r <- forM (d_rows d) (fun i '(row, d) =>
    do ads <- cur_addrs (d_sh d) DRow DCol i;
    do q <- foldM (fun a '(column, d) =>
              do b <- wr (d_buf d) a (sdiv s1 (ssub (sadd row column) s1));
              Ok (sadd column s1, with_buf d b)) ads (s1, d);
    Ok (sadd row s1, snd q)) (s1, d);
  Ok (snd r).

(** 96-124, DiagonalFiller. *)
Definition diagonal_filler {T} `{Scalar T} (dbg : bool) (v : T) (d : dense T) : res (dense T) :=
  if negb (d_rows d =? d_cols d) then Throw
  else
    do d1 <- all_filler s0 d;
    forM (d_rows d) (fun i d => dset dbg d i i v) d1.

(** ** Conversions dense -> dense *)

(** DenseMatrix.h 452-462: same orientation; the storage conversion
    (Storage.h 346-352) copies [other]'s elements in iterator order. *)
Definition d_conv_same {T U} (cv : T -> U) (other : dense T) : dense U :=
  mkDense (own_shape (d_orient other) (d_rows other) (d_cols other))
          (d_rows other * d_cols other)
          (map (option_map cv) (d_buf other)) true.

(** Transposition.h 8-32. *)
Definition transpose_dense {T} (m : dense T) : res (dense T) :=
  let t0 : dense T := d_new (d_orient m) (d_cols m) (d_rows m) in
  forM (d_rows m) (fun i t =>
    do ads <- cur_addrs (d_sh m) DRow DCol i;
    foldM (fun '(k, a) t =>
      do c <- rdc (d_buf m) a;
      do b <- wrc (d_buf t) (cur_begin (d_sh t) DCol i + k * cur_stride (d_sh t) DRow) c;
      Ok (with_buf t b)) (enum ads) t) t0.

(** DenseMatrix.h 464-474: different orientation; the storage is the one of
    [transpose(other)], which has [other]'s orientation. *)
Definition d_conv_flip {T U} (cv : T -> U) (other : dense T) : res (dense U) :=
  do t <- transpose_dense other;
  Ok (mkDense (own_shape (flip (d_orient other)) (d_rows other) (d_cols other))
              (d_rows other * d_cols other)
              (map (option_map cv) (d_buf t)) true).

(** DenseMatrix.h 476-495: window -> owning column-major matrix, elements
    rejected by the checker become 0; the target's iterator is advanced in
    lockstep with the striped iterator. *)
Definition d_conv_window {T U} (cv : T -> U) (zero : U) (chk : T -> bool) (other : dense T)
  : res (dense U) :=
  let d0 : dense U :=
    mkDense (own_shape ColMajor (d_rows other) (d_cols other))
            (d_rows other * d_cols other) (alloc (d_getSize other)) true in
  do ads <- sp_addrs (win_striped (d_sh other));
  foldM (fun '(k, a) d =>
    do v <- rdz (d_buf other) a;
    do b <- wr (d_buf d) k (if chk v then cv v else zero);
    Ok (with_buf d b)) (enum ads) d0.

(** ** Copy.h 10-29: [copy(source, dest)]; only the source bounds the loops. *)
Definition d_copy {T U} (cv : T -> U) (src : dense T) (dst : dense U) : res (dense U) :=
  forM (d_rows src) (fun i d =>
    do ads <- cur_addrs (d_sh src) DRow DCol i;
    foldM (fun '(k, a) d =>
      do c <- rdc (d_buf src) a;
      do b <- wrc (d_buf d) (cur_begin (d_sh d) DRow i + k * cur_stride (d_sh d) DCol)
                  (option_map cv c);
      Ok (with_buf d b)) (enum ads) d) dst.

(** ** resize (DenseMatrix.h 690-697, Storage.h 365-371).  The dimension is
    changed first; then the storage, which throws for foreign memory of a
    different size.  The result is the object and whether it threw.  Windows have no
    resize (the striped storage, Storage.h 505-640, lacks it). *)
Definition st_resize {T} (b : buf T) (n : nat) : buf T :=
  if length b =? n then b else alloc n.
Definition d_resize {T} (d : dense T) (r c : nat) : dense T * bool :=
  let sh := mkShape (d_orient d) r c (sh_sub (d_sh d)) (sh_ldr (d_sh d)) (sh_ldc (d_sh d))
                    (sh_base (d_sh d)) in
  if negb (length (d_buf d) =? r * c) && negb (d_own d)
  then (mkDense sh (r * c) (d_buf d) (d_own d), true)
  else (mkDense sh (r * c) (st_resize (d_buf d) (r * c)) (d_own d), false).

(** ** move and swap of matrix objects *)

(** DenseMatrix.h 200-205: (new object, moved-from object). *)
Definition d_move {T} (d : dense T) : dense T * dense T :=
  (mkDense (own_shape (d_orient d) (d_rows d) (d_cols d)) (d_full d) (d_buf d) (d_own d),
   mkDense (d_sh d) (d_full d) [] false).

(** DenseMatrix.h 287-295: swaps data_, size_, ownMemory_, nbRows_, nbColumns_;
    [full_size_] stays. *)
Definition d_swap {T} (a b : dense T) : dense T * dense T :=
  let sw (x y : dense T) :=
    mkDense (mkShape (d_orient x) (d_rows y) (d_cols y) (sh_sub (d_sh x)) (sh_ldr (d_sh x))
                     (sh_ldc (d_sh x)) (sh_base (d_sh y)))
            (d_full x) (d_buf y) (d_own y) in
  (sw a b, sw b a).

(** ** equality (DenseMatrix.h 236-246, Storage.h 422-430) with the element
    comparison [eqv] of EqualWithinNumericalAccuracy.h. *)
Fixpoint buf_equal {T U} (eqv : T -> U -> bool) (a : buf T) (b : buf U) : res bool :=
  match a, b with
  | [], [] => Ok true
  | Some x :: ta, Some y :: tb => if eqv x y then buf_equal eqv ta tb else Ok false
  | [], _ | _, [] => Ok false
  | _, _ => UB UninitRead
  end.
Definition d_equal {T U} (eqv : T -> U -> bool) (a : dense T) (b : dense U) : res bool :=
  if negb (length (d_buf a) =? length (d_buf b)) then Ok false
  else
    do e <- buf_equal eqv (d_buf a) (d_buf b);
    Ok (e && (d_rows a =? d_rows b) && (d_cols a =? d_cols b)).
