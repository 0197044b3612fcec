(** Model of two-part matrices, run-time typed matrices, blocked matrices and
    the conversion pipeline.  Sources (include/BlasBooster/Core unless noted):
    MultipleMatrix.h, DynamicMatrix.h, DynamicMatrixTypeList.h 26-34,
    MatrixMultExp.h, BinaryFunctors.h 295-668, Multiplication.h 8-26,
    Multiplication_TheBestPolicy.h, Multiplication_Native.h 108-152,
    Utilities/TypeList.h, Utilities/TypeChecker.h, Utilities/exec_if.h,
    Utilities/exec_dyn_2dim.h, DynamicMatrixFunctions.h, MatrixConverter.h,
    Threshold.h, BlockedMatrixGenerator.h, BlockedMatrix.h,
    DenseMatrix.h 394-419, 525-589, 643-660, 701-710.

    Simplifications:
    - float and double are two abstract types [F], [D] with abstract operations
      (record [arith]); no law is assumed in the model;
    - a [shared_ptr] is an [option]: [None] is the null pointer.  Sharing
      is modelled in PObj_Model.v, and C74 says when this reading is right;
    - all listed types have the default parameters, i.e. column-major storage;
    - the occupation of a freshly built window is computed, not cached (ConvC_Model.v
      has the recorded counts; C79 relates the two). *)
From Verif Require Import Base Dense_Model Sparse_Model Mult_Model.

(** The C++ operations on float and double that the library uses.  [fmaF c x y]
    is [c += x*y] on floats, [fmaD] on doubles (a float operand is promoted
    first); [dotF]/[dotD] are the BLAS inner products; [ltD] is [<] on doubles,
    [quotD n m] is [static_cast<double>(n) / m]. *)
Record arith (F D : Type) := mkArith {
  f0 : F; d0 : D;
  fnz : F -> bool; dnz : D -> bool;
  toD : F -> D; toF : D -> F;
  addF : F -> F -> F; subF : F -> F -> F; oppF : F -> F;
  addD : D -> D -> D; subD : D -> D -> D; oppD : D -> D;
  fmaF : F -> F -> F -> F; fmaD : D -> D -> D -> D;
  dotF : list (F * F) -> F; dotD : list (D * D) -> D;
  absD : D -> D; ltD : D -> D -> bool; leD : D -> D -> bool;
  quotD : nat -> nat -> D
}.
Arguments f0 {F D}. Arguments d0 {F D}. Arguments fnz {F D}. Arguments dnz {F D}.
Arguments toD {F D}. Arguments toF {F D}. Arguments addF {F D}. Arguments subF {F D}.
Arguments oppF {F D}. Arguments addD {F D}. Arguments subD {F D}. Arguments oppD {F D}.
Arguments fmaF {F D}. Arguments fmaD {F D}. Arguments dotF {F D}. Arguments dotD {F D}.
Arguments absD {F D}. Arguments ltD {F D}. Arguments leD {F D}. Arguments quotD {F D}.

(** Static types: [TZ] Matrix<Zero>, [TS] Matrix<Sparse,_>, [TD] Matrix<Dense,_>,
    [TM] MultipleMatrix<_,_>. *)
Inductive ety := EF | ED.
Inductive lty := TZ | TS (e : ety) | TD (e : ety).
Inductive mty := TL (t : lty) | TM (t1 t2 : lty).

Definition ety_eqb (a b : ety) : bool := match a, b with EF, EF | ED, ED => true | _, _ => false end.
Definition lty_eqb (a b : lty) : bool :=
  match a, b with
  | TZ, TZ => true
  | TS x, TS y | TD x, TD y => ety_eqb x y
  | _, _ => false
  end.
Definition mty_eqb (a b : mty) : bool :=
  match a, b with
  | TL x, TL y => lty_eqb x y
  | TM x1 x2, TM y1 y2 => lty_eqb x1 y1 && lty_eqb x2 y2
  | _, _ => false
  end.

(** C++ arithmetic conversions: float op float is float, else double. *)
Definition ety_join (a b : ety) : ety := match a, b with EF, EF => EF | _, _ => ED end.
(** Multiplication.h 8-21: type of a product. *)
Definition mul_lty (a b : lty) : lty :=
  match a, b with
  | TZ, _ | _, TZ => TZ
  | TS x, TS y => TS (ety_join x y)
  | TS x, TD y | TD x, TS y | TD x, TD y => TD (ety_join x y)
  end.
(** BinaryFunctors.h 424-448: type of a sum or difference. *)
Definition add_lty (a b : lty) : lty :=
  match a, b with
  | TZ, t | t, TZ => t
  | TS x, TS y => TS (ety_join x y)
  | TS x, TD y | TD x, TS y | TD x, TD y => TD (ety_join x y)
  end.

(** DynamicMatrixTypeList.h 26-34. *)
Definition type_list : list mty :=
  [ TL TZ; TL (TS EF); TL (TD EF); TL (TS ED); TM (TS ED) (TS EF); TM (TS ED) (TD EF); TL (TD ED) ].

(** Utilities/TypeList.h 12-27, GetIndex: first position; the list length if absent. *)
Fixpoint get_index (t : mty) (l : list mty) : nat :=
  match l with
  | [] => 0
  | x :: r => if mty_eqb t x then 0 else S (get_index t r)
  end.

Section Leaf.
Context {F D : Type} (ar : arith F D).

(** A matrix object of one of the one-part types. *)
Inductive leaf :=
| LZ (z : zmat)
| LSf (s : sparse F) | LSd (s : sparse D)
| LDf (d : dense F) | LDd (d : dense D).

Definition leaf_ty (l : leaf) : lty :=
  match l with LZ _ => TZ | LSf _ => TS EF | LSd _ => TS ED | LDf _ => TD EF | LDd _ => TD ED end.

Definition l_rows (l : leaf) : nat :=
  match l with LZ z => z_rows z | LSf s => s_rows s | LSd s => s_rows s | LDf d => d_rows d | LDd d => d_rows d end.
Definition l_cols (l : leaf) : nat :=
  match l with LZ z => z_cols z | LSf s => s_cols s | LSd s => s_cols s | LDf d => d_cols d | LDd d => d_cols d end.
(** getSize() returns [full_size_] (Dimension.h 85-87). *)
Definition l_size (l : leaf) : nat :=
  match l with LZ z => z_full z | LSf s => s_full s | LSd s => s_full s | LDf d => d_full d | LDd d => d_full d end.

(** [c += x * y] for a double accumulator. *)
Definition fma_fd (c : D) (x : F) (y : D) : D := fmaD ar c (toD ar x) y.
Definition fma_df (c : D) (x : D) (y : F) : D := fmaD ar c x (toD ar y).

(** Multiplication_TheBestPolicy.h: the kernels chosen for a build without an
    external library ([PNative], also the interface Native), with OpenBLAS, with
    Intel MKL. *)
Inductive policy := PNative | POpenBLAS | PMKL.

Definition mul_DdDd (p : policy) (dbg : bool) (a b : dense D) : res (dense D) :=
  match p with
  | PNative => mul_dd (fmaD ar) (d0 ar) dbg a b (d_default ColMajor)
  | _ => mul_blas (dotD ar) dbg a b (d_default ColMajor)
  end.
Definition mul_DfDf (p : policy) (dbg : bool) (a b : dense F) : res (dense F) :=
  match p with
  | PNative => mul_dd (fmaF ar) (f0 ar) dbg a b (d_default ColMajor)
  | _ => mul_blas (dotF ar) dbg a b (d_default ColMajor)
  end.
Definition mul_DfDd (p : policy) (dbg : bool) (a : dense F) (b : dense D) : res (dense D) :=
  match p with
  | PMKL => mul_mixed_fd (toF ar) (toD ar) (dotF ar) dbg a b
  | _ => mul_dd fma_fd (d0 ar) dbg a b (d_default ColMajor)
  end.
Definition mul_DdDf (p : policy) (dbg : bool) (a : dense D) (b : dense F) : res (dense D) :=
  match p with
  | PMKL => mul_mixed_df (toF ar) (toD ar) (dotF ar) dbg a b
  | _ => mul_dd fma_df (d0 ar) dbg a b (d_default ColMajor)
  end.
Definition mul_SdDd (p : policy) (dbg : bool) (a : sparse D) (b : dense D) : res (dense D) :=
  match p with
  | PMKL => mul_csrmm (dotD ar) dbg a b (d_default ColMajor)
  | _ => mul_sd (fmaD ar) (d0 ar) dbg a b (d_default ColMajor)
  end.

Definition rmap {A B} (f : A -> B) (x : res A) : res B := do a <- x; Ok (f a).

(** MatrixMultExp.h 28-50: Matrix * Matrix, one specialisation of the kernels
    for each pair of types; the result object is default constructed. *)
Definition mul_leaf (p : policy) (dbg : bool) (a b : leaf) : res leaf :=
  match a, b with
  | LZ _, _ | _, LZ _ => rmap LZ (mul_zero dbg (l_rows a) (l_cols a) (l_rows b) (l_cols b) (z_new 0 0))
  | LSf x, LSf y => rmap LSf (mul_ss (fmaF ar) (f0 ar) (fnz ar) dbg x y (s_default ColMajor))
  | LSf x, LSd y => rmap LSd (mul_ss fma_fd (d0 ar) (dnz ar) dbg x y (s_default ColMajor))
  | LSd x, LSf y => rmap LSd (mul_ss fma_df (d0 ar) (dnz ar) dbg x y (s_default ColMajor))
  | LSd x, LSd y => rmap LSd (mul_ss (fmaD ar) (d0 ar) (dnz ar) dbg x y (s_default ColMajor))
  | LSf x, LDf y => rmap LDf (mul_sd (fmaF ar) (f0 ar) dbg x y (d_default ColMajor))
  | LSf x, LDd y => rmap LDd (mul_sd fma_fd (d0 ar) dbg x y (d_default ColMajor))
  | LSd x, LDf y => rmap LDd (mul_sd fma_df (d0 ar) dbg x y (d_default ColMajor))
  | LSd x, LDd y => rmap LDd (mul_SdDd p dbg x y)
  | LDf x, LSf y => rmap LDf (mul_ds (fmaF ar) (f0 ar) dbg x y (d_default ColMajor))
  | LDf x, LSd y => rmap LDd (mul_ds fma_fd (d0 ar) dbg x y (d_default ColMajor))
  | LDd x, LSf y => rmap LDd (mul_ds fma_df (d0 ar) dbg x y (d_default ColMajor))
  | LDd x, LSd y => rmap LDd (mul_ds (fmaD ar) (d0 ar) dbg x y (d_default ColMajor))
  | LDf x, LDf y => rmap LDf (mul_DfDf p dbg x y)
  | LDf x, LDd y => rmap LDd (mul_DfDd p dbg x y)
  | LDd x, LDf y => rmap LDd (mul_DdDf p dbg x y)
  | LDd x, LDd y => rmap LDd (mul_DdDd p dbg x y)
  end.

(** BinaryFunctors.h 20-120: Plus and Minus on elements ([bin]), the copied
    element of the second operand ([un]: unchanged or negated). *)
Inductive pm := Plus | Minus.
Definition binF (o : pm) : F -> F -> F := match o with Plus => addF ar | Minus => subF ar end.
Definition binD (o : pm) : D -> D -> D := match o with Plus => addD ar | Minus => subD ar end.
Definition unF (o : pm) (x : F) : F := match o with Plus => x | Minus => oppF ar x end.
Definition unD (o : pm) (x : D) : D := match o with Plus => x | Minus => oppD ar x end.
Definition bin_fd (o : pm) (x : F) (y : D) : D := binD o (toD ar x) y.
Definition bin_df (o : pm) (x : D) (y : F) : D := binD o x (toD ar y).

(** BinaryFunctors.h 450-485: operators + and - for each pair of types. *)
Definition bin_leaf (o : pm) (dbg : bool) (a b : leaf) : res leaf :=
  match a, b with
  | LZ x, LZ y => Ok (LZ (zz_binop x y))
  | LZ x, _ => Ok (zm_binop x b)
  | _, LZ y => Ok (mz_binop a y)
  | LSf x, LSf y => rmap LSf (s_binop (fun v => v) (unF o) (binF o) dbg x y)
  | LSf x, LSd y => rmap LSd (s_binop (toD ar) (unD o) (bin_fd o) dbg x y)
  | LSd x, LSf y => rmap LSd (s_binop (fun v => v) (fun v => toD ar (unF o v)) (bin_df o) dbg x y)
  | LSd x, LSd y => rmap LSd (s_binop (fun v => v) (unD o) (binD o) dbg x y)
  | LDf x, LDf y => rmap LDf (d_binop (binF o) dbg ColMajor x y)
  | LDf x, LDd y => rmap LDd (d_binop (bin_fd o) dbg ColMajor x y)
  | LDd x, LDf y => rmap LDd (d_binop (bin_df o) dbg ColMajor x y)
  | LDd x, LDd y => rmap LDd (d_binop (binD o) dbg ColMajor x y)
  | LDf x, LSf y => rmap LDf (ds_binop (fun v => v) (binF o) dbg x y)
  | LDf x, LSd y => rmap LDd (ds_binop (toD ar) (binD o) dbg x y)
  | LDd x, LSf y => rmap LDd (ds_binop (fun v => v) (bin_df o) dbg x y)
  | LDd x, LSd y => rmap LDd (ds_binop (fun v => v) (binD o) dbg x y)
  | LSf x, LDf y => rmap LDf (sd_binop (fun v => v) (binF o) dbg x y)
  | LSd x, LDf y => rmap LDd (sd_binop (toD ar) (binD o) dbg x y)
  | LSf x, LDd y => rmap LDd (sd_binop (fun v => v) (bin_df o) dbg x y)
  | LSd x, LDd y => rmap LDd (sd_binop (fun v => v) (binD o) dbg x y)
  end.

(** BinaryFunctors.h 325-421, 460-466, 479-485: op= ; the new left operand. *)
Definition binF_d (o : pm) (x : F) (y : D) : F := toF ar (binD o (toD ar x) y).
Definition asg_leaf (o : pm) (dbg : bool) (a b : leaf) : res leaf :=
  match a, b with
  | LZ x, LZ y => rmap LZ (mz_assign_op dbg z_rows z_cols x y)
  | LZ x, _ => rmap LZ (zm_assign_op x b)
  | _, LZ y => mz_assign_op dbg l_rows l_cols a y
  | LSf _, _ | LSd _, _ => Throw
  | LDf x, LDf y => rmap LDf (d_assign_op (binF o) x y)
  | LDf x, LDd y => rmap LDf (d_assign_op (binF_d o) x y)
  | LDd x, LDf y => rmap LDd (d_assign_op (bin_df o) x y)
  | LDd x, LDd y => rmap LDd (d_assign_op (binD o) x y)
  | LDf x, LSf y => rmap LDf (ds_assign_op (binF o) dbg x y)
  | LDf x, LSd y => rmap LDf (ds_assign_op (binF_d o) dbg x y)
  | LDd x, LSf y => rmap LDd (ds_assign_op (bin_df o) dbg x y)
  | LDd x, LSd y => rmap LDd (ds_assign_op (binD o) dbg x y)
  end.

(** ** Two-part and run-time typed matrices *)

(** MultipleMatrix.h 27-37, 105-108: the two pointers, with their static types. *)
Inductive dyn :=
| DL (l : leaf)
| DM (t1 t2 : lty) (m1 m2 : option leaf).

Definition dyn_ty (d : dyn) : mty :=
  match d with DL l => TL (leaf_ty l) | DM t1 t2 _ _ => TM t1 t2 end.

(** MultipleMatrix.h 64-65: getMatrix1/2 dereference the pointer. *)
Definition deref {A} (p : option A) : res A := match p with Some x => Ok x | None => UB NullDeref end.

(** BLASBOOSTER_CORE_FAILURE (CoreException.h 12-16): [exc] is the build option
    BLASBOOSTER_CORE_FAILURE_TO_EXCEPTION. *)
Definition core_failure (exc dbg : bool) : res unit := if exc then Throw else cassert dbg false.

(** MultipleMatrix.h 27-37 and 47-58: constructor and reset check the dimensions. *)
Definition mm_new (exc dbg : bool) (t1 t2 : lty) (m1 m2 : option leaf) : res dyn :=
  match m1, m2 with
  | Some a, Some b =>
      do _ <- (if l_rows a =? l_rows b then Ok tt else core_failure exc dbg);
      do _ <- (if l_cols a =? l_cols b then Ok tt else core_failure exc dbg);
      Ok (DM t1 t2 m1 m2)
  | _, _ => Ok (DM t1 t2 m1 m2)
  end.

(** MultipleMatrix.h 60-62; one-part types: their own. *)
Definition dy_rows (d : dyn) : res nat :=
  match d with DL l => Ok (l_rows l) | DM _ _ m1 _ => do a <- deref m1; Ok (l_rows a) end.
Definition dy_cols (d : dyn) : res nat :=
  match d with DL l => Ok (l_cols l) | DM _ _ m1 _ => do a <- deref m1; Ok (l_cols a) end.
Definition dy_size (d : dyn) : res nat :=
  match d with DL l => Ok (l_size l) | DM _ _ m1 _ => do a <- deref m1; Ok (l_size a) end.

(** MatrixMultExp.h 28-155: products. *)
Definition mul_dyn (p : policy) (dbg : bool) (a b : dyn) : res leaf :=
  match a, b with
  | DL a, DL b => mul_leaf p dbg a b
  | DL a, DM _ _ b1 b2 =>
      do b1 <- deref b1; do b2 <- deref b2;
      do x <- mul_leaf p dbg a b1; do y <- mul_leaf p dbg a b2;
      bin_leaf Plus dbg x y
  | DM _ _ a1 a2, DL b =>
      do a1 <- deref a1; do a2 <- deref a2;
      do x <- mul_leaf p dbg a1 b; do y <- mul_leaf p dbg a2 b;
      bin_leaf Plus dbg x y
  | DM _ _ a1 a2, DM _ _ b1 b2 =>
      do a1 <- deref a1; do a2 <- deref a2; do b1 <- deref b1; do b2 <- deref b2;
      do x <- mul_leaf p dbg a1 b1; do y <- mul_leaf p dbg a1 b2;
      do z <- mul_leaf p dbg a2 b1; do w <- mul_leaf p dbg a2 b2;
      do s <- bin_leaf Plus dbg x y; do s <- bin_leaf Plus dbg s z; bin_leaf Plus dbg s w
  end.

(** BinaryFunctors.h 487-509: sums. *)
Definition add_dyn (dbg : bool) (a b : dyn) : res leaf :=
  match a, b with
  | DL a, DL b => bin_leaf Plus dbg a b
  | DL a, DM _ _ b1 b2 =>
      do b1 <- deref b1; do b2 <- deref b2;
      do s <- bin_leaf Plus dbg a b1; bin_leaf Plus dbg s b2
  | DM _ _ a1 a2, DL b =>
      do a1 <- deref a1; do a2 <- deref a2;
      do s <- bin_leaf Plus dbg a1 a2; bin_leaf Plus dbg s b
  | DM _ _ a1 a2, DM _ _ b1 b2 =>
      do a1 <- deref a1; do a2 <- deref a2; do b1 <- deref b1; do b2 <- deref b2;
      do s <- bin_leaf Plus dbg a1 a2; do s <- bin_leaf Plus dbg s b1; bin_leaf Plus dbg s b2
  end.

(** BinaryFunctors.h 538-560: differences; the last one adds the fourth part. *)
Definition sub_dyn (dbg : bool) (a b : dyn) : res leaf :=
  match a, b with
  | DL a, DL b => bin_leaf Minus dbg a b
  | DL a, DM _ _ b1 b2 =>
      do b1 <- deref b1; do b2 <- deref b2;
      do s <- bin_leaf Minus dbg a b1; bin_leaf Minus dbg s b2
  | DM _ _ a1 a2, DL b =>
      do a1 <- deref a1; do a2 <- deref a2;
      do s <- bin_leaf Plus dbg a1 a2; bin_leaf Minus dbg s b
  | DM _ _ a1 a2, DM _ _ b1 b2 =>
      do a1 <- deref a1; do a2 <- deref a2; do b1 <- deref b1; do b2 <- deref b2;
      do s <- bin_leaf Plus dbg a1 a2; do s <- bin_leaf Minus dbg s b1; bin_leaf Plus dbg s b2
  end.

(** BinaryFunctors.h 511-536 and 562-588: op= ; the new left operand.  For a
    two-part left operand the right one is applied to both parts. *)
Definition asg_dyn (o : pm) (dbg : bool) (a b : dyn) : res dyn :=
  match a, b with
  | DL a, DL b => rmap DL (asg_leaf o dbg a b)
  | DL a, DM _ _ b1 b2 =>
      do b1 <- deref b1; do b2 <- deref b2;
      match o with
      | Plus => do s <- bin_leaf Plus dbg b1 b2; rmap DL (asg_leaf Plus dbg a s)
      | Minus => do s <- asg_leaf Minus dbg a b1; rmap DL (asg_leaf Minus dbg s b2)
      end
  | DM t1 t2 a1 a2, DL b =>
      do a1 <- deref a1; do a2 <- deref a2;
      do x <- asg_leaf o dbg a1 b; do y <- asg_leaf o dbg a2 b;
      Ok (DM t1 t2 (Some x) (Some y))
  | DM t1 t2 a1 a2, DM _ _ b1 b2 =>
      do a1 <- deref a1; do a2 <- deref a2; do b1 <- deref b1; do b2 <- deref b2;
      do x <- asg_leaf o dbg a1 b1; do y <- asg_leaf o dbg a2 b1;
      do x <- asg_leaf o dbg x b2; do y <- asg_leaf o dbg y b2;
      Ok (DM t1 t2 (Some x) (Some y))
  end.

(** Result types as the C++ type system computes them (decltype in the same
    expressions). *)
Definition mul_mty (a b : mty) : lty :=
  match a, b with
  | TL a, TL b => mul_lty a b
  | TL a, TM b1 b2 => add_lty (mul_lty a b1) (mul_lty a b2)
  | TM a1 a2, TL b => add_lty (mul_lty a1 b) (mul_lty a2 b)
  | TM a1 a2, TM b1 b2 =>
      add_lty (add_lty (add_lty (mul_lty a1 b1) (mul_lty a1 b2)) (mul_lty a2 b1)) (mul_lty a2 b2)
  end.
Definition add_mty (a b : mty) : lty :=
  match a, b with
  | TL a, TL b => add_lty a b
  | TL a, TM b1 b2 => add_lty (add_lty a b1) b2
  | TM a1 a2, TL b => add_lty (add_lty a1 a2) b
  | TM a1 a2, TM b1 b2 => add_lty (add_lty (add_lty a1 a2) b1) b2
  end.

(** ** Run-time dispatch *)

(** DynamicMultFunctor / DynamicAddFunctor ... (MatrixMultExp.h 158-170,
    BinaryFunctors.h 590-661): a functor instantiated for the types [t1], [t2]
    casts both arguments without a check; casting an object of another type is
    undefined. *)
Definition functor {R} (op : dyn -> dyn -> res R) (t1 t2 : mty) (a b : dyn) : res R :=
  if mty_eqb (dyn_ty a) t1 && mty_eqb (dyn_ty b) t2 then op a b else UB DeadObject.

(** Utilities/exec_dyn_2dim.h 5-38: the table is copied row by row from static
    arrays whose initialisation is unordered with respect to it; [ready t] says
    that the row of [t] was initialised first.  An uninitialised row holds empty
    [std::function]s, whose call throws. *)
Definition dyn_table {R} (ready : mty -> bool) (op : dyn -> dyn -> res R)
  : list (list (dyn -> dyn -> res R)) :=
  map (fun t1 => map (fun t2 => if ready t1 then functor op t1 t2 else fun _ _ => Throw) type_list) type_list.

(** getTypeIndex(): DenseMatrix.h 285-297, SparseMatrix.h, ZeroMatrix.h 72-74,
    MultipleMatrix.h 101-103. *)
Definition type_index (d : dyn) : nat := get_index (dyn_ty d) type_list.

Definition exec_dyn_2dim {R} (ready : mty -> bool) (op : dyn -> dyn -> res R) (a b : option dyn) : res R :=
  do a <- deref a; do b <- deref b;
  match nth_error (dyn_table ready op) (type_index a) with
  | None => UB OOBRead
  | Some row =>
      match nth_error row (type_index b) with
      | None => UB OOBRead
      | Some f => f a b
      end
  end.

(** Utilities/exec_if.h 8-36: the first type satisfying [p] is executed; the
    last one is executed even if it does not, when failures are disabled. *)
Fixpoint exec_if {T R} (exc dbg : bool) (p : T -> bool) (e : T -> res R) (l : list T) : res R :=
  match l with
  | [] => UB DeadObject  (* does not compile *)
  | [t] => do _ <- (if p t then Ok tt else core_failure exc dbg); e t
  | t :: r => if p t then e t else exec_if exc dbg p e r
  end.

(** Utilities/TypeChecker.h and DynamicMatrixFunctions.h 10-65: a member
    function called through the run-time type. *)
Definition exec_member {R} (exc dbg : bool) (f : dyn -> res R) (a : option dyn) : res R :=
  do a <- deref a;
  exec_if exc dbg (fun t => get_index t type_list =? type_index a)
    (fun t => if mty_eqb (dyn_ty a) t then f a else UB DeadObject) type_list.

Definition dyn_rows (exc dbg : bool) := exec_member exc dbg dy_rows.
Definition dyn_cols (exc dbg : bool) := exec_member exc dbg dy_cols.
Definition dyn_size (exc dbg : bool) := exec_member exc dbg dy_size.

(** MatrixMultExp.h 172-195 and BinaryFunctors.h 605-632: the operators on
    DynamicMatrix.  The result is a new pointer. *)
Definition mul_ptr (ready : mty -> bool) (p : policy) (dbg : bool) (a b : option dyn) : res (option dyn) :=
  exec_dyn_2dim ready (fun a b => do c <- mul_dyn p dbg a b; Ok (Some (DL c))) a b.
Definition add_ptr (ready : mty -> bool) (dbg : bool) (a b : option dyn) : res (option dyn) :=
  exec_dyn_2dim ready (fun a b => do c <- add_dyn dbg a b; Ok (Some (DL c))) a b.
Definition sub_ptr (ready : mty -> bool) (dbg : bool) (a b : option dyn) : res (option dyn) :=
  exec_dyn_2dim ready (fun a b => do c <- sub_dyn dbg a b; Ok (Some (DL c))) a b.
(** BinaryFunctors.h 634-668: the pointed-to object is modified. *)
Definition asg_ptr (ready : mty -> bool) (o : pm) (dbg : bool) (a b : option dyn) : res (option dyn) :=
  exec_dyn_2dim ready (fun a b => do c <- asg_dyn o dbg a b; Ok (Some c)) a b.

(** ** Conversion to a dense double matrix *)

(** DenseMatrix.h 452-462 (dense), 591-615 (sparse), 643-650 (zero). *)
Definition dense_of_leaf (l : leaf) : res (dense D) :=
  match l with
  | LZ z => Ok (d_of_zero (d0 ar) ColMajor (z_rows z) (z_cols z))
  | LSf s => d_of_sparse (toD ar) (d0 ar) ColMajor s
  | LSd s => d_of_sparse (fun x => x) (d0 ar) ColMajor s
  | LDf d => Ok (d_conv_same (toD ar) d)
  | LDd d => Ok (d_conv_same (fun x => x) d)
  end.

(** DenseMatrix.h 653-660: from a two-part matrix. *)
Definition dense_of_dyn (dbg : bool) (d : dyn) : res (dense D) :=
  match d with
  | DL l => dense_of_leaf l
  | DM _ _ m1 m2 =>
      do m1 <- deref m1; do m2 <- deref m2;
      do x <- dense_of_leaf m1;
      do y <- asg_leaf Plus dbg (LDd x) m2;
      match y with LDd r => Ok r | _ => UB DeadObject end
  end.

(** DenseMatrix.h 563-589: from a DynamicMatrix; the temporary is swapped into
    an empty matrix. *)
Definition dense_of_ptr (exc dbg : bool) (a : option dyn) : res (dense D) :=
  do m <- exec_member exc dbg (dense_of_dyn dbg) a;
  Ok (fst (d_swap (d_default ColMajor) m)).

(** ** Blocked matrices *)

(** BlockedMatrix.h 9-17: a column-major dense matrix of pointers plus the
    dimensions of the unblocked matrix (Dimension.h 151-177). *)
Record blocked := mkBlocked { b_mat : dense (option dyn); b_ubr : nat; b_ubc : nat }.

(** A fresh array of [shared_ptr] holds null pointers. *)
Definition palloc (n : nat) : buf (option dyn) := repeat (Some None) n.

(** DenseMatrix.h 351-359: parameter constructor of a blocked matrix. *)
Definition blk_new (r c ur uc : nat) : blocked :=
  mkBlocked (mkDense (own_shape ColMajor r c) (r * c) (palloc (r * c)) true) ur uc.

(** DenseMatrix.h 699-710: [full_size_] is not updated. *)
Definition blk_resize (b : blocked) (r c ur uc : nat) : blocked :=
  let m := b_mat b in
  mkBlocked (mkDense (mkShape ColMajor r c (sh_sub (d_sh m)) (sh_ldr (d_sh m)) (sh_ldc (d_sh m)) (sh_base (d_sh m)))
               (d_full m) (if length (d_buf m) =? r * c then d_buf m else palloc (r * c)) (d_own m)) ur uc.

(** Multiplication_Native.h 108-152: block-wise product; [C] is default
    constructed (MatrixMultExp.h 65-70). *)
Definition mul_blocked (ready : mty -> bool) (p : policy) (dbg : bool) (a b : blocked) : res blocked :=
  let A := b_mat a in let B := b_mat b in
  let c := blk_resize (blk_new 0 0 0 0) (d_rows A) (d_cols B) (b_ubr a) (b_ubc b) in
  do C <- forM (d_rows A) (fun i C =>
    forM (d_cols B) (fun j C =>
      let pc := cur_begin (d_sh C) DRow i + j * cur_stride (d_sh C) DCol in
      let pb k := cur_begin (d_sh B) DCol j + k * cur_stride (d_sh B) DRow in
      do ads <- cur_addrs (d_sh A) DRow DCol i;
      match enum ads with
      | [] => Ok C
      | (k, pa) :: rest =>
          do x <- rd (d_buf A) pa;
          do y <- rd (d_buf B) (pb k);
          do z <- mul_ptr ready p dbg x y;
          do m <- wr (d_buf C) pc z;
          foldM (fun '(k, pa) C =>
            do w <- rd (d_buf C) pc;
            do x <- rd (d_buf A) pa;
            do y <- rd (d_buf B) (pb k);
            do z <- mul_ptr ready p dbg x y;
            do s <- add_ptr ready dbg w z;
            do m <- wr (d_buf C) pc s;
            Ok (with_buf C m)) rest (with_buf C m)
      end) C) (b_mat c);
  Ok (mkBlocked C (b_ubr c) (b_ubc c)).

(** DenseMatrix.h 523-561: from a blocked matrix.  The state is (memory of the
    target, subRowOffset, subColumnOffset, subRowOffsetTmp). *)
Definition dense_of_blocked (exc dbg : bool) (b : blocked) : res (dense D) :=
  let B := b_mat b in
  let out0 : dense D := d_new ColMajor (b_ubr b) (b_ubc b) in
  do st <- forM (d_rows B) (fun i '(out, ro, tmp) =>
    do ads <- cur_addrs (d_sh B) DRow DCol i;
    do st <- foldM (fun pa '(out, co, tmp) =>
        do x <- rd (d_buf B) pa;
        do nr <- dyn_rows exc dbg x;
        do nc <- dyn_cols exc dbg x;
        do inn <- dense_of_ptr exc dbg x;
        do w <- d_copy (fun v => v) inn (d_window out nr nc ro co);
        Ok (with_buf out (d_buf w), co + nc, nr)) ads (out, 0, tmp);
    let '(out, _, tmp) := st in
    Ok (out, ro + tmp, tmp)) (out0, 0, 0);
  let '(out, _, _) := st in Ok out.

(** DenseMatrix.h 394-419: initializer list of blocks; [ubRows_] and
    [ubColumns_] start at 0 (Dimension.h 151-177). *)
Definition blk_init_list (exc dbg : bool) (values : list (list (option dyn))) : res blocked :=
  match values with
  | [] => UB OOBRead
  | first :: _ =>
      let b0 := blk_new (length values) (length first) 0 0 in
      forM (length values) (fun i b =>
        match nth_error values i with
        | None => UB OOBRead
        | Some row =>
            match row with
            | [] => UB OOBRead
            | v0 :: _ =>
                do nr <- dyn_rows exc dbg v0;
                do ads <- cur_addrs (d_sh (b_mat b)) DRow DCol i;
                do st <- foldM (fun '(k, a) '(m, uc) =>
                    match nth_error row k with
                    | None => UB OOBRead
                    | Some v =>
                        do bb <- wr (d_buf m) a v;
                        do r <- dyn_rows exc dbg v;
                        if negb (nr =? r) then Throw else
                        do c <- dyn_cols exc dbg v;
                        Ok (with_buf m bb, uc + c)
                    end) (enum ads) (b_mat b, 0);
                let '(m, uc) := st in
                Ok (mkBlocked m (b_ubr b + nr) uc)
            end
        end) b0
  end.

(** ** Converter *)

(** Threshold.h 15-34: the settings; the occupation limits are indexed by the
    matrix type and the precision of the significance threshold. *)
Record threshold := mkThreshold {
  sigF : D; sigD : D;      (* significanceThresholdSingle/DoublePrecision *)
  occ_set : mty -> ety -> D
}.
(** Threshold.h 97-181: the distributor for Matrix<Zero>, float returns the
    double precision setting. *)
Definition occ_thr (th : threshold) (t : mty) (e : ety) : D :=
  match t with TL TZ => occ_set th t ED | _ => occ_set th t e end.

(** AbsoluteValueRangeChecker.h 48-65 and 85-107: constructing a checker throws
    on negative or reversed bounds; the checkers. *)
Definition gt_new (t : D) : res (D -> bool) :=
  if ltD ar t (d0 ar) then Throw else Ok (fun x => ltD ar t (absD ar x)).
Definition range_new (lo hi : D) : res (D -> bool) :=
  if ltD ar lo (d0 ar) then Throw
  else if ltD ar hi (d0 ar) then Throw
  else if leD ar hi lo then Throw
  else Ok (fun x => ltD ar lo (absD ar x) && leD ar (absD ar x) hi).

(** OccupationPolicy.h 33-40 on a matrix without cached counts. *)
Definition occupation (chk : D -> bool) (m : dense D) : res D :=
  do n <- d_count chk m; Ok (quotD ar n (d_getSize m)).

(** MatrixConverter.h 13-24; [and] is short-circuit. *)
Definition is_convertible (th : threshold) (m : dense D) (t : mty) : res bool :=
  do cd <- gt_new (sigD th);
  do od <- occupation cd m;
  if negb (leD ar od (occ_thr th t ED)) then Ok false else
  do cf <- gt_new (sigF th);
  do of <- occupation cf m;
  Ok (leD ar of (occ_thr th t EF)).

(** Dense source -> dense target with a value checker: a window honours the
    checker (DenseMatrix.h 476-495), a plain matrix ignores it (452-462). *)
Definition dense_chk {U} (cv : D -> U) (zero : U) (chk : D -> bool) (m : dense D) : res (dense U) :=
  if sh_sub (d_sh m) then d_conv_window cv zero chk m else Ok (d_conv_same cv m).

(** MatrixConverter.h 58-113, one-part targets with the checker [chk] (the
    default checker of DenseMatrix.h 118-146 is |x| > 0). *)
Definition leaf_chk (t : lty) (chk : D -> bool) (m : dense D) : res leaf :=
  match t with
  | TZ => Ok (LZ (z_new (d_rows m) (d_cols m)))
  | TS EF => rmap LSf (s_of_dense (toF ar) chk ColMajor m)
  | TS ED => rmap LSd (s_of_dense (fun x => x) chk ColMajor m)
  | TD EF => rmap LDf (dense_chk (toF ar) (f0 ar) chk m)
  | TD ED => rmap LDd (dense_chk (fun x => x) (d0 ar) chk m)
  end.
Definition convert_to (exc dbg : bool) (th : threshold) (m : dense D) (t : mty) : res dyn :=
  match t with
  | TL TZ => rmap DL (leaf_chk TZ (fun _ => true) m)
  | TL (TD e) => do c <- gt_new (d0 ar); rmap DL (leaf_chk (TD e) c m)
  | TL (TS ED) => do c <- gt_new (sigF th); rmap DL (leaf_chk (TS ED) c m)
  | TL (TS EF) => do c <- range_new (sigD th) (sigF th); rmap DL (leaf_chk (TS EF) c m)
  | TM t1 t2 =>
      do c1 <- gt_new (sigF th); do x1 <- leaf_chk t1 c1 m;
      do c2 <- range_new (sigD th) (sigF th); do x2 <- leaf_chk t2 c2 m;
      mm_new exc dbg t1 t2 (Some x1) (Some x2)
  end.

(** MatrixConverter.h 138-148 with exec_if.h: the loop over the type list. *)
Fixpoint convert_first (exc dbg : bool) (th : threshold) (m : dense D) (l : list mty) : res dyn :=
  match l with
  | [] => UB DeadObject
  | [t] =>
      do c <- is_convertible th m t;
      do _ <- (if c : bool then Ok tt else core_failure exc dbg);
      convert_to exc dbg th m t
  | t :: r =>
      do c <- is_convertible th m t;
      if c : bool then convert_to exc dbg th m t else convert_first exc dbg th m r
  end.
Definition convert (exc dbg : bool) (th : threshold) (m : dense D) : res dyn :=
  convert_first exc dbg th m type_list.

(** BlockedMatrixGenerator.h 12-50: cut a column-major matrix and convert each
    block. *)
Definition cut (exc dbg : bool) (th : threshold) (m : dense D) (rl cl : list nat) : res blocked :=
  let b0 := blk_new (length rl) (length cl) (d_rows m) (d_cols m) in
  do st <- forM (d_rows (b_mat b0)) (fun i '(B, ro) =>
    match nth_error rl i with
    | None => UB OOBRead
    | Some nr =>
        do ads <- cur_addrs (d_sh B) DRow DCol i;
        do st <- foldM (fun '(k, pa) '(B, co) =>
            match nth_error cl k with
            | None => UB OOBRead
            | Some nc =>
                do x <- convert exc dbg th (d_window m nr nc ro co);
                do bb <- wr (d_buf B) pa (Some x);
                Ok (with_buf B bb, co + nc)
            end) (enum ads) (B, 0);
        let '(B, _) := st in
        Ok (B, ro + nr)
    end) (b_mat b0, 0);
  let '(B, _) := st in
  Ok (mkBlocked B (b_ubr b0) (b_ubc b0)).

End Leaf.
Arguments leaf : clear implicits. Arguments dyn : clear implicits. Arguments blocked : clear implicits.
Arguments threshold : clear implicits.
