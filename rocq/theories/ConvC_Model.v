(** The converter with the cached counts of its source.  Sources
    (include/BlasBooster/Core): OccupationPolicy.h 18-37, MatrixConverter.h,
    SparseMatrix.h 185-189, BlockedMatrixGenerator.h 12-50.

    Dyn_Model.v computes the number of significant elements afresh each time; here
    the source carries its map from checkers to counts, which every question asked
    during a conversion reads and extends. *)
From Verif Require Import Base Dense_Model Sparse_Model Mult_Model Dyn_Model Check_Model.

Section Cached.
Context {F D : Type} (ar : arith F D).

(** The map of OccupationPolicy.h 58. *)
Definition counts := list (checker D * nat).

(** OccupationPolicy.h 18-29 on a matrix [m]: the map afterwards, the count. *)
Definition asked_nb (k : checker D) (m : dense D) (c : counts) : res (counts * nat) :=
  do r <- map_find ar k c;
  match r with
  | Some n => Ok (c, n)
  | None => do n <- d_count (ck_ok ar k) m; Ok ((k, n) :: c, n)
  end.

(** AbsoluteValueRangeChecker<double>(t) and
    AbsoluteValueRangeChecker<double,ExclusiveBound,InclusiveBound>(lo,hi). *)
Definition new_gt (t : D) : res (checker D) := ck_new ar TTdouble ExclNo t (d0 ar).
Definition new_range (lo hi : D) : res (checker D) := ck_new ar TTdouble ExclIncl lo hi.

(** MatrixConverter.h 13-24 with OccupationPolicy.h 33-37. *)
Definition is_convertible_c (th : threshold D) (m : dense D) (t : mty) (c : counts) : res (counts * bool) :=
  do kd <- new_gt (sigD th);
  do r <- asked_nb kd m c;
  let '(c, nd) := r in
  if negb (leD ar (quotD ar nd (d_getSize m)) (occ_thr th t ED)) then Ok (c, false) else
  do kf <- new_gt (sigF th);
  do r <- asked_nb kf m c;
  let '(c, nf) := r in
  Ok (c, leD ar (quotD ar nf (d_getSize m)) (occ_thr th t EF)).

(** MatrixConverter.h 58-113: a sparse target allocates as many cells as the source
    reports (SparseMatrix.h 188). *)
Definition leaf_chk_c (t : lty) (k : checker D) (m : dense D) (c : counts) : res (counts * leaf F D) :=
  match t with
  | TS EF => do r <- asked_nb k m c; let '(c, n) := r in
             do s <- s_of_dense_nnz (toF ar) (ck_ok ar k) ColMajor n m; Ok (c, LSf s)
  | TS ED => do r <- asked_nb k m c; let '(c, n) := r in
             do s <- s_of_dense_nnz (fun x => x) (ck_ok ar k) ColMajor n m; Ok (c, LSd s)
  | _ => do l <- leaf_chk ar t (ck_ok ar k) m; Ok (c, l)
  end.

Definition convert_to_c (exc dbg : bool) (th : threshold D) (m : dense D) (t : mty) (c : counts) : res (counts * dyn F D) :=
  match t with
  | TL TZ => do l <- leaf_chk ar TZ (fun _ => true) m; Ok (c, DL l)
  | TL (TD e) => do k <- new_gt (d0 ar); do r <- leaf_chk_c (TD e) k m c; Ok (fst r, DL (snd r))
  | TL (TS ED) => do k <- new_gt (sigF th); do r <- leaf_chk_c (TS ED) k m c; Ok (fst r, DL (snd r))
  | TL (TS EF) => do k <- new_range (sigD th) (sigF th); do r <- leaf_chk_c (TS EF) k m c; Ok (fst r, DL (snd r))
  | TM t1 t2 =>
      do k1 <- new_gt (sigF th); do r1 <- leaf_chk_c t1 k1 m c;
      do k2 <- new_range (sigD th) (sigF th); do r2 <- leaf_chk_c t2 k2 m (fst r1);
      do x <- mm_new exc dbg t1 t2 (Some (snd r1)) (Some (snd r2));
      Ok (fst r2, x)
  end.

(** MatrixConverter.h 138-148 with exec_if.h. *)
Fixpoint convert_first_c (exc dbg : bool) (th : threshold D) (m : dense D) (l : list mty) (c : counts) : res (counts * dyn F D) :=
  match l with
  | [] => UB DeadObject
  | [t] =>
      do r <- is_convertible_c th m t c;
      do _ <- (if snd r then Ok tt else core_failure exc dbg);
      convert_to_c exc dbg th m t (fst r)
  | t :: rest =>
      do r <- is_convertible_c th m t c;
      if snd r then convert_to_c exc dbg th m t (fst r) else convert_first_c exc dbg th m rest (fst r)
  end.
Definition convert_c (exc dbg : bool) (th : threshold D) (m : dense D) (c : counts) : res (counts * dyn F D) :=
  convert_first_c exc dbg th m type_list c.

(** BlockedMatrixGenerator.h 12-50: every block is converted from a window built
    for it (43), whose map is empty. *)
Definition cut_c (exc dbg : bool) (th : threshold D) (m : dense D) (rl cl : list nat) : res (blocked F D) :=
  let b0 := blk_new (length rl) (length cl) (d_rows m) (d_cols m) in
  do st <- forM (d_rows (b_mat b0)) (fun i '(B, ro) =>
    match nth_error rl i with
    | None => UB OOBRead
    | Some nr =>
        do ads <- cur_addrs (d_sh B) DRow DCol i;
        do st <- foldM (fun '(k, pa) '(B, co) =>
            match nth_error cl k with
            | None => UB OOBRead
            | Some nc =>
                do r <- convert_c exc dbg th (d_window m nr nc ro co) [];
                do bb <- wr (d_buf B) pa (Some (snd r));
                Ok (with_buf B bb, co + nc)
            end) (enum ads) (B, 0);
        let '(B, _) := st in
        Ok (B, ro + nr)
    end) (b_mat b0, 0);
  let '(B, _) := st in
  Ok (mkBlocked B (b_ubr b0) (b_ubc b0)).
End Cached.
