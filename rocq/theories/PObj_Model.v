(** Run-time typed matrices as objects that are shared.  A DynamicMatrix is a
    [std::shared_ptr<MatrixBase>] (DynamicMatrix.h 10); a two-part matrix holds two
    [shared_ptr]s (MultipleMatrix.h 105-108); a blocked matrix is a dense matrix of
    DynamicMatrix (BlockedMatrix.h 9-17).  Dyn_Model.v treats all three as values;
    here they are handles into a heap of matrix objects, so that copies share.

    Simplifications: [shared_ptr] keeps an object while a handle refers to it, and
    objects nobody refers to are never looked at, so freeing them is not modelled;
    a null part is reported as soon as either part is null; the pointer returned by
    the compound operators (the left operand's) is dropped; moves and swaps of
    blocked matrices are left out (C52). *)
From Verif Require Import Base Dense_Model Sparse_Model Mult_Model Dyn_Model.

Section PObj.
Context {F D : Type} (ar : arith F D).

(** A heap object: a one-part matrix, or a two-part matrix with the two handles. *)
Inductive hobj := HL (l : leaf F D) | HM (t1 t2 : lty) (p1 p2 : option nat).
Definition heap := list hobj.

(** What a handle refers to, as a value of Dyn_Model.v. *)
Definition part (h : heap) (p : option nat) : res (option (leaf F D)) :=
  match p with
  | None => Ok None
  | Some a => match nth_error h a with
              | Some (HL l) => Ok (Some l)
              | Some (HM _ _ _ _) => UB DeadObject
              | None => UB UseAfterFree
              end
  end.
Definition load (h : heap) (p : option nat) : res (option (dyn F D)) :=
  match p with
  | None => Ok None
  | Some a => match nth_error h a with
              | Some (HL l) => Ok (Some (DL l))
              | Some (HM t1 t2 p1 p2) => do m1 <- part h p1; do m2 <- part h p2; Ok (Some (DM t1 t2 m1 m2))
              | None => UB UseAfterFree
              end
  end.

(** [new] / [std::make_shared]: objects of their own for a value; for a two-part
    matrix first the parts (MatrixConverter.h 58-113). *)
Definition new_part (h : heap) (m : option (leaf F D)) : heap * option nat :=
  match m with None => (h, None) | Some l => (h ++ [HL l], Some (length h)) end.
Definition store (h : heap) (d : option (dyn F D)) : heap * option nat :=
  match d with
  | None => (h, None)
  | Some (DL l) => (h ++ [HL l], Some (length h))
  | Some (DM t1 t2 m1 m2) =>
      let '(h, p1) := new_part h m1 in
      let '(h, p2) := new_part h m2 in
      (h ++ [HM t1 t2 p1 p2], Some (length h))
  end.

(** ** Operators *)

(** MatrixMultExp.h 149-178, BinaryFunctors.h 590-632: the functors read both
    operands, fill a new object and return the only handle to it. *)
Inductive arith_op := OMul | OAdd | OSub.
Definition value_op (ready : mty -> bool) (p : policy) (dbg : bool) (k : arith_op)
  : option (dyn F D) -> option (dyn F D) -> res (option (dyn F D)) :=
  match k with
  | OMul => mul_ptr ar ready p dbg
  | OAdd => add_ptr ar ready dbg
  | OSub => sub_ptr ar ready dbg
  end.
Definition hop (ready : mty -> bool) (p : policy) (dbg : bool) (k : arith_op) (h : heap) (x y : option nat)
  : res (heap * option nat) :=
  do vx <- load h x; do vy <- load h y;
  do z <- value_op ready p dbg k vx vy;
  Ok (store h z).

(** BinaryFunctors.h 325-421 with both operands the same object. *)
Definition asg_self (o : pm) (dbg : bool) (x : leaf F D) : res (leaf F D) :=
  match x with
  | LZ z => rmap LZ (mz_assign_op dbg z_rows z_cols z z)
  | LSf _ | LSd _ => Throw
  | LDf d => do m <- d_assign_op_shared (binF ar o) d d; Ok (LDf (with_buf d m))
  | LDd d => do m <- d_assign_op_shared (binD ar o) d d; Ok (LDd (with_buf d m))
  end.

(** Object [a] op= object [b], both one-part matrices.  The heap is part of the
    result also when an exception is thrown. *)
Definition set_leaf (h : heap) (a : nat) (r : res (leaf F D)) : heap * res unit :=
  match r with
  | Ok x => (upd h a (HL x), Ok tt)
  | Throw => (h, Throw) | AssertFail => (h, AssertFail) | UB u => (h, UB u) | Diverge => (h, Diverge)
  end.
Definition asg_obj (o : pm) (dbg : bool) (h : heap) (a b : nat) : heap * res unit :=
  match nth_error h a, nth_error h b with
  | Some (HL x), Some (HL y) => set_leaf h a (if a =? b then asg_self o dbg x else asg_leaf ar o dbg x y)
  | _, _ => (h, UB DeadObject)
  end.
(** The same with a temporary as right operand. *)
Definition asg_tmp (o : pm) (dbg : bool) (h : heap) (a : nat) (s : leaf F D) : heap * res unit :=
  match nth_error h a with
  | Some (HL x) => set_leaf h a (asg_leaf ar o dbg x s)
  | _ => (h, UB DeadObject)
  end.
Definition next (x : heap * res unit) (f : heap -> heap * res unit) : heap * res unit :=
  match x with
  | (h, Ok _) => f h
  | (h, e) => (h, e)
  end.

(** BinaryFunctors.h 460-466, 479-485, 511-536, 562-588: op= on the objects. *)
Definition asg_heap (o : pm) (dbg : bool) (h : heap) (a b : nat) : heap * res unit :=
  match nth_error h a, nth_error h b with
  | Some (HL _), Some (HL _) => asg_obj o dbg h a b
  | Some (HL _), Some (HM _ _ (Some b1) (Some b2)) =>
      match o with
      | Plus =>
          match nth_error h b1, nth_error h b2 with
          | Some (HL y1), Some (HL y2) =>
              match bin_leaf ar Plus dbg y1 y2 with
              | Ok s => asg_tmp Plus dbg h a s
              | Throw => (h, Throw) | AssertFail => (h, AssertFail) | UB u => (h, UB u) | Diverge => (h, Diverge)
              end
          | _, _ => (h, UB DeadObject)
          end
      | Minus => next (asg_obj Minus dbg h a b1) (fun h => asg_obj Minus dbg h a b2)
      end
  | Some (HM _ _ (Some a1) (Some a2)), Some (HL _) =>
      next (asg_obj o dbg h a1 b) (fun h => asg_obj o dbg h a2 b)
  | Some (HM _ _ (Some a1) (Some a2)), Some (HM _ _ (Some b1) (Some b2)) =>
      next (asg_obj o dbg h a1 b1) (fun h => next (asg_obj o dbg h a2 b1) (fun h =>
        next (asg_obj o dbg h a1 b2) (fun h => asg_obj o dbg h a2 b2)))
  | Some _, Some _ => (h, UB NullDeref)
  | _, _ => (h, UB UseAfterFree)
  end.

(** BinaryFunctors.h 634-668: the run-time types select the functor. *)
Definition asg_dispatch (ready : mty -> bool) (o : pm) (dbg : bool) (h : heap) (x y : option nat) : heap * res unit :=
  match (do vx <- load h x; do vy <- load h y; exec_dyn_2dim ready (fun _ _ => Ok tt) vx vy) with
  | Ok _ => match x, y with Some a, Some b => asg_heap o dbg h a b | _, _ => (h, UB NullDeref) end
  | e => (h, e)
  end.

(** ** Blocked matrices of handles *)

Record hblocked := mkHBlocked { hb_mat : dense (option nat); hb_ubr : nat; hb_ubc : nat }.

(** DenseMatrix.h 351-359. *)
Definition hblk_new (r c ur uc : nat) : hblocked :=
  mkHBlocked (mkDense (own_shape ColMajor r c) (r * c) (repeat (Some None) (r * c)) true) ur uc.

(** Reading all blocks. *)
Definition load_cell (h : heap) (c : option (option nat)) : res (option (option (dyn F D))) :=
  match c with None => Ok None | Some p => do v <- load h p; Ok (Some v) end.
Definition load_blocked (h : heap) (b : hblocked) : res (blocked F D) :=
  let m := hb_mat b in
  do vs <- mapM (load_cell h) (d_buf m);
  Ok (mkBlocked (mkDense (d_sh m) (d_full m) vs (d_own m)) (hb_ubr b) (hb_ubc b)).

(** Multiplication_Native.h 108-152, each product and each sum a new object; the
    result is resized from an empty blocked matrix (DenseMatrix.h 699-710). *)
Definition hmul_blocked (ready : mty -> bool) (p : policy) (dbg : bool) (h : heap) (a b : hblocked)
  : res (heap * hblocked) :=
  let A := hb_mat a in let B := hb_mat b in
  let n := d_rows A * d_cols B in
  let C0 := mkDense (own_shape ColMajor (d_rows A) (d_cols B)) 0 (if 0 =? n then [] else repeat (Some None) n) true in
  do st <- forM (d_rows A) (fun i st =>
    forM (d_cols B) (fun j st =>
      let '(h, C) := st in
      let pc := cur_begin (d_sh C) DRow i + j * cur_stride (d_sh C) DCol in
      let pb k := cur_begin (d_sh B) DCol j + k * cur_stride (d_sh B) DRow in
      do ads <- cur_addrs (d_sh A) DRow DCol i;
      match enum ads with
      | [] => Ok (h, C)
      | (k, pa) :: rest =>
          do x <- rd (d_buf A) pa;
          do y <- rd (d_buf B) (pb k);
          do z <- hop ready p dbg OMul h x y;
          do m <- wr (d_buf C) pc (snd z);
          foldM (fun '(k, pa) st =>
            let '(h, C) := st in
            do w <- rd (d_buf C) pc;
            do x <- rd (d_buf A) pa;
            do y <- rd (d_buf B) (pb k);
            do z <- hop ready p dbg OMul h x y;
            do s <- hop ready p dbg OAdd (fst z) w (snd z);
            do m <- wr (d_buf C) pc (snd s);
            Ok (fst s, with_buf C m)) rest (fst z, with_buf C m)
      end) st) (h, C0);
  Ok (fst st, mkHBlocked (snd st) (hb_ubr a) (hb_ubc b)).

(** BlockedMatrixGenerator.h 12-50: each converted block is a new object. *)
Definition hcut (exc dbg : bool) (th : threshold D) (h : heap) (m : dense D) (rl cl : list nat)
  : res (heap * hblocked) :=
  let b0 := hblk_new (length rl) (length cl) (d_rows m) (d_cols m) in
  do st <- forM (d_rows (hb_mat b0)) (fun i '(h, B, ro) =>
    match nth_error rl i with
    | None => UB OOBRead
    | Some nr =>
        do ads <- cur_addrs (d_sh B) DRow DCol i;
        do st <- foldM (fun '(k, pa) '(h, B, co) =>
            match nth_error cl k with
            | None => UB OOBRead
            | Some nc =>
                do x <- convert ar exc dbg th (d_window m nr nc ro co);
                let '(h, p) := store h (Some x) in
                do bb <- wr (d_buf B) pa p;
                Ok (h, with_buf B bb, co + nc)
            end) (enum ads) (h, B, 0);
        let '(h, B, _) := st in
        Ok (h, B, ro + nr)
    end) (h, hb_mat b0, 0);
  let '(h, B, _) := st in
  Ok (h, mkHBlocked B (hb_ubr b0) (hb_ubc b0)).

(** ** Programs *)

(** Variables of type DynamicMatrix and of type BlockedDenseMatrix are numbered in
    the order of their construction. *)
Record pst := mkPst { p_heap : heap; p_var : list (option nat); p_blk : list hblocked }.
Definition pst0 : pst := mkPst [] [] [].

Inductive pop :=
| PLeaf (l : leaf F D)                     (* DynamicMatrix v(new Matrix<...>(l))                        *)
| PNull                                    (* DynamicMatrix v                                            *)
| PPair (t1 t2 : lty) (v1 v2 : nat)        (* DynamicMatrix v(new MultipleMatrix<T1,T2>(v1, v2))          *)
| PCopy (v : nat)                          (* DynamicMatrix w(v)                                         *)
| PAssign (d s : nat)                      (* d = s                                                      *)
| POp (k : arith_op) (a b : nat)           (* DynamicMatrix v = a * b, a + b, a - b                      *)
| PAsg (o : pm) (a b : nat)                (* a += b, a -= b                                             *)
| PPut (v i j : nat) (x : D)               (* static_pointer_cast<Matrix<Dense,double>>(v)->(i,j) = x    *)
| PRows (v : nat)                          (* getNbRows(v)                                               *)
| PCols (v : nat)                          (* getNbColumns(v)                                            *)
| PToDense (v : nat)                       (* Matrix<Dense,double>(v)                                    *)
| PConvert (th : threshold D) (m : dense D)(* MatrixConverter: DynamicMatrix of a dense matrix           *)
| BNew (r c ur uc : nat)                   (* BlockedDenseMatrix b(r, c, ur, uc)                         *)
| BGet (b i j : nat)                       (* DynamicMatrix v(b(i,j))                                    *)
| BSet (b i j v : nat)                     (* b(i,j) = v                                                 *)
| BCopy (b : nat)                          (* BlockedDenseMatrix c(b)                                    *)
| BAssign (d s : nat)                      (* d = s                                                      *)
| BMul (a b : nat)                         (* BlockedDenseMatrix c = a * b                               *)
| BCut (th : threshold D) (m : dense D) (rl cl : list nat)  (* BlockedMatrixGenerator                    *)
| BToDense (b : nat).                      (* Matrix<Dense,double>(b)                                    *)

Inductive pout := PNone | PThrew | PNat (n : nat) | PMat (d : dense D).

Definition var_of (m : pst) (v : nat) : res (option nat) :=
  match nth_error (p_var m) v with Some p => Ok p | None => UB DeadObject end.
Definition blk_of (m : pst) (b : nat) : res hblocked :=
  match nth_error (p_blk m) b with Some x => Ok x | None => UB DeadObject end.

(** An exception leaves the state [m]. *)
Definition catch {A} (m : pst) (r : res A) (f : A -> pst * pout) : res (pst * pout) :=
  match r with
  | Ok a => Ok (f a)
  | Throw => Ok (m, PThrew)
  | AssertFail => AssertFail | UB u => UB u | Diverge => Diverge
  end.
Definition add_var (m : pst) (x : heap * option nat) : pst * pout := (mkPst (fst x) (p_var m ++ [snd x]) (p_blk m), PNone).
Definition add_blk (m : pst) (x : heap * hblocked) : pst * pout := (mkPst (fst x) (p_var m) (p_blk m ++ [snd x]), PNone).

(** static_pointer_cast<T>: a handle to an object of type [t], or null. *)
Definition cast (h : heap) (t : lty) (p : option nat) : res (option (leaf F D)) :=
  do m <- part h p;
  match m with
  | Some l => if lty_eqb (leaf_ty l) t then Ok m else UB DeadObject
  | None => Ok m
  end.

Section Step.
Variables (ready : mty -> bool) (p : policy) (exc dbg : bool).

Definition pstep (m : pst) (x : pop) : res (pst * pout) :=
  let h := p_heap m in
  match x with
  | PLeaf l => Ok (add_var m (store h (Some (DL l))))
  | PNull => Ok (add_var m (h, None))
  | PPair t1 t2 v1 v2 =>
      do x1 <- var_of m v1; do x2 <- var_of m v2;
      do m1 <- cast h t1 x1; do m2 <- cast h t2 x2;
      catch m (mm_new exc dbg t1 t2 m1 m2) (fun _ => add_var m (h ++ [HM t1 t2 x1 x2], Some (length h)))
  | PCopy v => do x <- var_of m v; Ok (add_var m (h, x))
  | PAssign d s => do _ <- var_of m d; do x <- var_of m s; Ok (mkPst h (upd (p_var m) d x) (p_blk m), PNone)
  | POp k a b => do x <- var_of m a; do y <- var_of m b; catch m (hop ready p dbg k h x y) (add_var m)
  | PAsg o a b =>
      do x <- var_of m a; do y <- var_of m b;
      let '(h1, r) := asg_dispatch ready o dbg h x y in
      let m1 := mkPst h1 (p_var m) (p_blk m) in
      catch m1 r (fun _ => (m1, PNone))
  | PPut v i j x =>
      do q <- var_of m v;
      match q with
      | None => UB NullDeref
      | Some a =>
          match nth_error h a with
          | Some (HL (LDd d)) => do d1 <- dset dbg d i j x; Ok (mkPst (upd h a (HL (LDd d1))) (p_var m) (p_blk m), PNone)
          | _ => UB DeadObject
          end
      end
  | PRows v => do x <- var_of m v; do d <- load h x; catch m (dyn_rows exc dbg d) (fun n => (m, PNat n))
  | PCols v => do x <- var_of m v; do d <- load h x; catch m (dyn_cols exc dbg d) (fun n => (m, PNat n))
  | PToDense v => do x <- var_of m v; do d <- load h x; catch m (dense_of_ptr ar exc dbg d) (fun q => (m, PMat q))
  | PConvert th d => catch m (convert ar exc dbg th d) (fun q => add_var m (store h (Some q)))
  | BNew r c ur uc => Ok (add_blk m (h, hblk_new r c ur uc))
  | BGet b i j => do B <- blk_of m b; do x <- dget dbg (hb_mat B) i j; Ok (add_var m (h, x))
  | BSet b i j v =>
      do B <- blk_of m b; do x <- var_of m v; do M <- dset dbg (hb_mat B) i j x;
      Ok (mkPst h (p_var m) (upd (p_blk m) b (mkHBlocked M (hb_ubr B) (hb_ubc B))), PNone)
  | BCopy b => do B <- blk_of m b; Ok (add_blk m (h, B))
  | BAssign d s => do _ <- blk_of m d; do B <- blk_of m s; Ok (mkPst h (p_var m) (upd (p_blk m) d B), PNone)
  | BMul a b => do A <- blk_of m a; do B <- blk_of m b; catch m (hmul_blocked ready p dbg h A B) (add_blk m)
  | BCut th d rl cl => catch m (hcut exc dbg th h d rl cl) (add_blk m)
  | BToDense b => do B <- blk_of m b; do V <- load_blocked h B; catch m (dense_of_blocked ar exc dbg V) (fun q => (m, PMat q))
  end.

Fixpoint prun (m : pst) (ops : list pop) : res (pst * list pout) :=
  match ops with
  | [] => Ok (m, [])
  | x :: t => do r <- pstep m x; let '(m1, z) := r in do r2 <- prun m1 t; let '(m2, zs) := r2 in Ok (m2, z :: zs)
  end.
End Step.
End PObj.
Arguments hobj : clear implicits. Arguments heap : clear implicits. Arguments pst : clear implicits.
Arguments pop : clear implicits. Arguments pout : clear implicits.
